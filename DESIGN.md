# Formal model of nickhand/pyRSD in Rocq (Coq 8.16.1)

The code in `/repo/pyRSD` is read as text; nothing is run. Every definition in the model cites the file and lines it
models and says where it simplifies.

| files | contents |
|---|---|
| `M_*.v` | the model: total Gallina functions (and, over the reals, explicit formulas). Exceptions, aborts and undefined reads are values (`option`, outcome types), loops are structural recursion, histories are lists of operations |
| `S_*.v` | specification vocabulary, independent of the model's helpers (what "fresh value", "used sample", "top-hat window", ... mean) |
| `P_*.v` | lemmas |
| `Props_*.v` | the property theorems `Cxx_...` with `Print Assumptions`, and `..._nonvacuous` Examples giving concrete non-trivial instances of their hypotheses |
| `tools/` | generators of `properties.jsonl`, `MANIFEST.json`, this file (`gen_design.py`), of the two generated models (`gen_schema.py`: dependency tables of the cached classes; `gen_params.py`: default theory parameters), and the mutation runner |
| `seeded/LOG.jsonl` | one line per wrong program tried |

Naming: `Cxx_..._partial` proves part of Cxx; `Cxx_..._refuted` proves that the faithful model VIOLATES the English claim
(so the theorem is a finding about the code; the property is then listed as `partial`, with the part that does hold proved
beside it). Where a claim had a sound core and broken corners it was split in a proved property and a refuted one.

## How the properties are proved

* **Attribute cache, call cache, lru_cache, `preserve`, context managers** (C01-C15, C69, C83-C99): operational semantics of
  objects with histories of operations; invariants by induction over histories; the lru_cache's doubly linked list is a heap
  refined to a recency list. The dependency tables of all 24 cached classes are generated from the source and a verified
  checker (soundness theorem) instantiates the generic freshness theorem with them.
* **Galaxy power tree, FOG kernels, AP remapping, analytic derivatives, QSO and HZPT spectra** (C16-C30 and others): programs on a
  model object with errors and fuel; formulas over `R`; derivatives stated with Coquelicot's `is_derive` of the model itself.
* **Parameters, priors, bounds, constraints, parameter files** (C20-C28, C46-C53, ...): symbol table with delayed evaluation,
  dependency graph, strings as lists of characters.
* **Data vectors, covariance, transfers, windows, interpolation** (C31-C45, ...): lists/matrices of any size, arbitrary grids.
* **Driver, L-BFGS, MCMC control, MPI ranks, results, analysis of chains** (C54-C68, C139-C141, ...): state machines with oracles for the line
  search, the sampler and the message order; invariants over all schedules.
* **Compiled library** (C100-C138): quadrature, splines, discrete integrals, Zel'dovich spectra, FFTLog mesh, Kaiser, windows,
  Cosmology/ClassParams: real arithmetic, arrays as functions with explicit bounds, `None` for an abort or out-of-bounds access, interleavings
  for the shared workspace.

## Trusted base

1. Coq's kernel (8.16.1) and `vcheck`'s rebuild.
2. The axioms listed below, all of the standard library (Reals, FunctionalExtensionality, Classical_Prop). None is ours: no `Axiom`, `Parameter`,
   section-less `Variable`/`Hypothesis`, `Admitted`, functor or module type; no kernel check is switched off. Coquelicot is used as a library of definitions and theorems; it
   adds no axiom. Some tools also list `Rdefinitions.RbaseSymbolsImpl` / `RinvImpl`: these are the opaque module-sealed definitions
   of the standard reals, not axioms.
3. The reading of the Python/C++ source as the model: each definition's comment says which lines it stands for. The two generated
   tables trust their generators' reading of the text.
4. Modelling of the platform, stated in the comments: floating-point numbers are exact reals or rationals (rounding, overflow, NaN propagation are not modelled,
   except where a NaN or a zero divisor decides the control flow: those are explicit error values); Python dictionaries have insertion order, sets an arbitrary order;
   numpy/scipy/xarray/lmfit/asteval/emcee/CLASS appear either as explicit functions with their documented behaviour or as arbitrary functions (oracles) the theorem quantifies over.

### What `Print Assumptions` lists

`sig_forall_dec`, `sig_not_dec` are `ClassicalDedekindReals.*` (stdlib Reals), `classic` is `Classical_Prop.classic`, `functional_extensionality_dep` is `FunctionalExtensionality.*`.

* **A0** (234 theorems): closed under the global context
* **A1** (16 theorems): `sig_forall_dec`
* **A2** (135 theorems): `functional_extensionality_dep`, `sig_forall_dec`
* **A3** (65 theorems): `functional_extensionality_dep`, `sig_forall_dec`, `sig_not_dec`
* **A4** (224 theorems): `classic`, `functional_extensionality_dep`, `sig_forall_dec`, `sig_not_dec`

The class of each theorem is given in square brackets in the status list.

## What is modelled

* `M_AP.v`: Alcock-Paczynski remapping and FOG kernels pyRSD/rsd/tools.py:49-75 and pyRSD/rsd/power/gal/fog_kernels.py, over the reals.
* `M_Anal.v`: Model of the analysis of chains: rsdfit/analysis/tools.py:14-23 (thin_chains), 50-163 (remove_burnin), 215-243 (recover_folder_and_files, the result files of a folder), 245-366 (extract_parameter_names: the order of the names), rsdfit/analysis/driver.py:189-218 (error_rescaling, min_minus_lkl). Values are reals. The results objects are those of M_Results. Shapes are assumed rectangular. Not modelled: messages, file names, plots, tables, fiducial values; burnin fractions below 0; vector parameters.
* `M_Bestfit.v`: Model of the tables of best-fit parameters: rsdfit/analysis/bestfit.py (from_info, from_nlopt, from_mcmc, to_info, add_metadata, __finalize__) and rsdfit/analysis/driver.py:269-305 (bestfit_params). Cells are the texts written (NaN: None), except in the error columns, which are reals. pandas' to_csv(sep=" ") and read_csv(delim_whitespace=True, comment='#') are modelled on lines: fields with a space or a quote are quoted, NaN is the empty text, runs of spaces separate fields, short rows are filled with NaN, long rows are errors, a first row longer than the header makes the leading columns the index. Line breaks inside cells, numeric type inference and the LaTeX tables are not modelled.
* `M_Bias.v`: Model of the nonlinear bias functions of a biased spectrum (rsd/nonlinear_biasing.py) with their caching (rsd/_cache.py:209-318). Simplifications: the Gaussian-process fits are named, not evaluated (an arbitrary function per name); the lru_cache around the two `_a` functions is transparent (its transparency is C06); Python's recursion limit is the number [lim].
* `M_Cache.v`: Model of the attribute cache: pyRSD/rsd/_cache.py Objects of a class derived from [Cache] have parameters (set by the user) and computed attributes ([cached_property] / [interpolated_function]) that are evaluated on demand and memoised in [obj._cache]. The value type, the validation functions and the bodies of the computed attributes are arguments of the model.
* `M_Cli.v`: Model of the command line of rsdfit and of the start of its processes: pyRSD/rsdfit/util/rsd_parser.py:31-63 (existing_file, positive_int), 66-112, 114-150, 152-190 (the subparsers mcmc, nlopt, restart), 343-405 (verify_arguments); rsdfit/rsdfit.py:69-94 (create), 103-181 (initialize_algorithm), 183-204 (preprocess); rsdfit/driver.py:268-322 (from_directory), 496-510 (to_file); rsdfit/util/mpi_manager.py is in M_Ranks, the run itself in M_Run. Python's int() on texts, os.path.abspath and dirname are oracles. A path is its text: two texts for one file are two paths. os.makedirs makes the path itself (creation of parents and permissions are not modelled). The analyze subcommand, --silent, --debug and the loggers are not modelled.
* `M_ConDeriv.v`: Derivative of a constraint pyRSD/rsdfit/parameters/parameterset.py:495-564 (ParameterSet.constraint_derivative), on the parameter values of M_ParamVal, with lmfit.Parameters.update_constraints (lmfit 0.9.7: the constrained parameters in the arbitrary order of a set, each after the ones its expression names). [None]: RecursionError. Floats are reals for autograd.grad, which is an oracle: [grad] applied to a function, the number of the argument and the arguments. Functions of traced arguments are taken to give the values of their numbers; errors of unknown names, and the import of autograd, are not modelled.
* `M_ConDerivAll.v`: Derivative of one parameter with respect to another pyRSD/rsdfit/parameters/parameterset.py:521-541 (the cases of ParameterSet.constraint_derivative) around the computation of M_ConDeriv. [one], [inv]: 1.0 and **(-1); a division by zero (ZeroDivisionError of a float, inf of a numpy float) is what [inv] makes of it.
* `M_Context.v`: Global AP lock, global call cache, use_spt pyRSD/rsd/tools.py:130-230, pyRSD/rsd/__init__.py:6-8, pyRSD/rsd/power/dm/power_dm.py:161-178 and 221-248
* `M_Contour.v`: Model of the 2D posteriors of the analysis: pyRSD/rsdfit/analysis/plot.py:12-26 (ctr_level), 66-81 (get_1d_histogram), 83-101 (get_2d_histogram), 255-305 (the contours of plot_2d_posteriors: trace / scale, contourf with the levels). A histogram is a list of counts (the flattened 2D array) and fractions are rationals; np.histogram2d is given by the counts of the pairs that fall in a cell. The interpolation of the 1D histograms, the axes and the drawing are not modelled.
* `M_Cosmo.v`: Model of the dict-like cosmology: pyRSD/rsd/cosmology.py:109-361 (class Cosmology) Numbers are exact rationals. astropy's cosmology classes (the "engine") are modelled by their documented constructors: LambdaCDM / wCDM keep the parameters they are given, the Flat versions compute Ode0 = 1 - Om0 - (radiation) and have Ok0 = 0; [rad] is the (unspecified) radiation density as a function of H0, Tcmb0, Neff and the neutrino mass. Units are dropped ([removeunits]).
* `M_Cov.v`: Model of pyRSD/rsdfit/data/covariance_matrix.py (CovarianceMatrix, trim_k) and of the parts of pyRSD/rsdfit/data/indexing.py that trim_k and sel use
* `M_Disc.v`: Model of the integration of tabulated functions in the compiled library (_gcl/cpp/DiscreteQuad.cpp, the parts of _gcl/cpp/parray.cpp it uses) and of the power-law grids (parray.cpp:98-125). Doubles are reals. None: an assertion fails or memory outside an array is touched.
* `M_Driver.v`: The fitting driver: chi2, lnprob, minus_lnlike, their gradients, Fisher matrix pyRSD/rsdfit/driver.py:735-1156, pyRSD/rsdfit/theory/base.py:269-308, 436-452, 527-556. Reals for floats. The theory prediction is an oracle [pred]: the flattened model vector as a function of the free values the model was last updated with ([None]: the evaluation raises or contains NaN). That the model's answer depends on those values only, and that set_free_parameters updates the model with exactly [th] or changes nothing, is what C01..C09 and C50 prove about the more detailed models. Logging and the MPI pool are left out.
* `M_Extrap.v`: Model of ExtrapolatedPowerSpectrum (pyRSD/rsd/power_extrapolator.py): validation of the parameters, the cached fits and the piecewise evaluation. Doubles are reals. The underlying spectrum `model.Pgal` is a function of (k, mu) that the user can change; the two fits (scipy curve_fit for 100 values of mu, then a spline) are arbitrary functions of the tabulated spectrum and of the parameters they read.
* `M_Fftlog.v`: Model of the compiled FFTLog correlation functions: the Fortran routines fhti, fht, fhtq, krgood (_gcl/extern/fftlog/fftlog.f), their wrapper FortranFFTLog (_gcl/cpp/FortranFFTLog.cpp) and ComputeXiLM_fftlog, ComputeXiLM (method FFTLOG), pk_to_xi, xi_to_pk (_gcl/cpp/CorrelationFunction.cpp). Doubles are reals; the real FFTs drfftf, drfftb are exact sums (half-complex arrays are lists of complex coefficients 0..N/2); `cdgamma(z, 1)` (log Gamma) is an arbitrary function C -> C. The splines are those of M_Spline.
* `M_Fiducial.v`: Model of the fiducial values of constrained parameters: pyRSD/rsdfit/parameters/parameterset.py:323-343 (update_fiducial), called when a folder is analysed (analysis/tools.py:199-203), on the parameter values of M_ParamVal (parameter.py:163-203, 265-289). valuesdict is lmfit's dict of all values, read in order; update_values() without arguments does nothing (parameterset.py:359-368). [inf] is np.inf, [finite] is np.isfinite (and not None). A fiducial is None or a value; it is a cached attribute without effect on the value (parameter.py:312-318).
* `M_Gal.v`: Model of the galaxy power tree: pyRSD/rsd/power/gal Programs run on a mutable model object and may raise. One (k,mu) pair at a time: numpy broadcasting over arrays acts elementwise. Arithmetic is over the reals (rounding is not modelled).
* `M_GalDeriv.v`: Analytic derivatives of the galaxy power: pyRSD/rsd/power/gal/derivatives
* `M_Gcl.v`: Model of the compiled Cosmology class (_gcl/cpp/Cosmology.cpp, _gcl/include/Cosmology.h, _gcl/cpp/ClassParams.cpp), of its Python layer (_gcl/python/Cosmology.i, _gcl/python/ClassParams.i, pygcl.py:48-97) and of LinearPS (_gcl/cpp/LinearPS.cpp). Doubles are reals. The external Boltzmann code CLASS is an arbitrary function of the parameters; the integrator is an arbitrary functional. Operations return None when an assertion fails, memory or members that were never initialised are used, or no such overload exists. Not modelled: exceptions raised by CLASS itself, messages.
* `M_GclFit.v`: Model of two analytic fits of the transfer function (_gcl/cpp/Cosmology.cpp:246-267), as functions of the cosmology. Doubles are reals; M_E is exp 1. The full Eisenstein-Hu fit (Cosmology.cpp:203-243) is not modelled.
* `M_GradNum.v`: PkmuGradient.__call__ pyRSD/rsd/power/gradient.py:128-216 (serial case, pool=None). The state is the vector of free-parameter values held by parameters and model; [_update] stores theta, and reading a varied parameter clips it to its bounds ([clip], parameter.py:192-197). [power m] is model.power(k,mu).values for the model at m, [ana i m] the analytic derivative of free parameter i; [None]: the call raises.
* `M_Groups.v`: From statistics to the combined model vector pyRSD/rsdfit/driver.py:359-425 (_get_theory_callables), pyRSD/rsdfit/data/power_measurement.py:723-820 (calculate_transfer), pyRSD/rsdfit/theory/base.py:665-803 (get_model_callable, apply_transfers). The prediction is symbolic: [Sym mp x k] stands for the theory value of the bin identifier [x] (multipole number) at wavenumber [k] with the statistic-specific parameters of [mp] ([None]: the defaults). Names, identifiers and wavenumbers are natural numbers: only their equality and order matter. Not modelled: gridded transfers, wedges (the smooth wedge transfer cannot be constructed, see DESIGN.md), the equality test between per-statistic windows.
* `M_Hod.v`: Model of the constraint expressions of the default galaxy and quasar theories (rsdfit/theory/gal_defaults.py, qso_defaults.py): the dependent parameters as functions of the free ones, over the reals. Powers with a real exponent are taken of positive bases. The order in which the expressions are evaluated is the subject of M_ParamVal and M_TheoryDefaults.
* `M_Hzpt.v`: Model of the Halo-Zel'dovich (HZPT) models of pyRSD/rsd/hzpt: the container InterpolatedHZPTModels with its lazily created models and interpolation tables (interpolated.py), the base class (hzpt/__init__.py), the broadband terms of P11 and Phm (P11.py, Phm.py), the correlation-function broadband (P00.py:43-71, Phm.py:243-271) and the Jennings formulae that evaluate P00 at another sigma8 (power_dm.py:675-718). Doubles are reals; the Zel'dovich drivers are those of M_Zel, whose NaN state is [None]; the P00 and P01 broadbands are those of M_Qso.
* `M_Init.v`: Model of the initialisation of the walkers from the priors: rsdfit/solvers/tools.py:15-101 (univariate_init), 104-178 (multivariate_init), rsdfit/solvers/emcee_solver.py:324-336 (which of them is used), rsdfit/theory/base.py:310-343 (check), rsdfit/parameters/parameter.py:340-356 (priors), 385-390, 409-425, 445-456, 502-510. Simplifications: floats are reals; -inf log priors are [None]; the random draws are an arbitrary sequence of rows (one value per free parameter), consumed in order; the first block of draws is the matrix [p0]; messages are not modelled.
* `M_Interp.v`: Regular-grid interpolation: a model of pyRSD/rsd/_interpolate.py (RegularGridInterpolator) Coordinates and table entries are reals (no NaN); one sample point is a list of coordinates. Trailing value dimensions are not modelled (they are carried along pointwise).
* `M_Jmn.v`: The third-order perturbation theory integrals: a model of pyRSD/_gcl/cpp/Jmn.cpp Arithmetic is exact and the adaptive quadrature Integrate<1> is the exact integral. pow2..pow8 (Common.h) are powers, [log] is ln, [fabs] is Rabs. [error] aborts the process: None.
* `M_Kaiser.v`: Model of the Kaiser spectrum (_gcl/cpp/Kaiser.cpp), of the interpolation on the FFTLog mesh (_gcl/cpp/ZeldovichPS.cpp:58-82) and of the top-hat windows (_gcl/cpp/PowerSpectrum.cpp:29-34, _gcl/cpp/Cosmology.cpp:168-173). Doubles are reals.
* `M_Kernels.v`: The second-order perturbation theory integrals: a model of pyRSD/_gcl/cpp/Imn.cpp and Kmn.cpp Arithmetic is exact and the adaptive cubature Integrate<2> is the exact iterated integral over the rectangle (its tolerances are not modelled). pow2, pow3, pow4 (Common.h) are powers. [error] aborts the process: None.
* `M_Lbfgs.v`: Model of pyRSD/rsdfit/solvers/lbfgs.py Arrays of floats are lists of reals; rounding and overflow are not modelled. The objective [f], its gradient [fprime] and scipy's Armijo line search are arbitrary functions (oracles); exceptions raised inside them, logging and the unscaler (used for logging only) are not modelled.
* `M_Lru.v`: Model of pyRSD/extern/backports/lru_cache.py The linked list is modelled as a heap of links (prev, next, key, result) addressed by naturals, exactly as the Python lists [PREV, NEXT, KEY, RESULT]; the dictionary is an association list looked up with the key equality [keq] (Python == together with hash). Each 'with lock:' block is one atomic step, so a bounded call is two steps (look up / store) between which other threads may run; exceptions of the wrapped function are [None].
* `M_LruKey.v`: Cache keys: pyRSD/extern/backports/lru_cache.py:17-35 (_make_key) and 87, 101 Python values are modelled up to what == , type() and hash see: numbers compare by value across int/bool/float, tuples elementwise, frozensets by content, everything else by identity. NaN (unequal to itself) and user classes with their own __eq__ are not modelled.
* `M_Marg.v`: Marginalised errors from the Fisher matrix pyRSD/rsdfit/driver.py:1112-1161 (jacobian) and 1163-1215 (marginalized_errors), after the parameters have been set and the Fisher matrix has been computed. Names are numbers, floats are reals, matrices are lists of rows; [deriv] is ParameterSet.constraint_derivative at the point ([None]: an exception), [inv] numpy.linalg.inv ([None]: LinAlgError).
* `M_Mcfit.v`: Model of the FFTLog integral transforms (pyRSD/extern/mcfit): mcfit.__init__, _setup, __call__, the Mellin kernels of the Bessel, spherical Bessel and Fourier transforms, and the transform classes Hankel, SphericalBessel, FourierSine, FourierCosine, P2xi, xi2P. Doubles are reals, complex numbers pairs of reals (Coquelicot's C), numpy's rfft and hfft are exact sums; scipy's `loggamma` is an arbitrary function C -> C.
* `M_Mcmc.v`: Running several MCMC chains pyRSD/rsdfit/solvers/emcee_solver.py:17-141 (ChainManager), 278-286 (number of walkers), 350-363 (the loop). The sampler, the logging and the wall clock are not modelled. MPI point-to-point messages are delivered one by one, in any order and after any delay; [Iprobe] never removes a message.
* `M_Npz.v`: Results of a chain kept in a file pyRSD/rsdfit/results/emcee_results.py:261-294 (to_npz, from_npz; numpy's savez and load), with _save_results and the burnin setter of M_Results. A file is the dictionary of its arrays. numpy stores None and dictionaries as arrays of objects, which np.load refuses unless allow_pickle is true (its default before numpy 1.16.3; the code does not pass it). [fid] is EmceeParameter.fiducial (:34-46), [resc] the private _error_rescaling (:511-526); acceptance fractions, autocorrelation times and version strings are not modelled: they are plain arrays, read back as they are. A constrained chain of None is read as a 0-dimensional array, over whose (missing) names _save_results does not loop: here None.
* `M_OneLoop.v`: The one-loop spectra and the two-loop integrals: a model of pyRSD/_gcl/cpp/OneLoopPS.cpp, ImnOneLoop.cpp, the wrappers in pyRSD/pygcl.py and the normalization in pyRSD/rsd/pt_integrals.py Arithmetic is exact, the adaptive integrations are exact integrals (as in M_Kernels, M_Jmn), the splines are those of M_Spline. [error] aborts the process: None. The interpolated_function decorator of pt_integrals.py is modelled by its values at the nodes of the interpolation grid.
* `M_ParamFile.v`: Reading parameter files pyRSD/rsdfit/parameters/tools.py:62-122 (replace_vars), 154-165 (verify_line); pyRSD/rsdfit/parameters/parameterset.py:107-213 (ParameterSet.from_file). A str is a list of (ASCII) characters. Python's [eval] is an oracle; function-module imports, the construction of Parameter objects from the evaluated values, and reading the file are not modelled.
* `M_ParamVal.v`: Parameter values: lmfit-style symbol table, constraints and bounds pyRSD/rsdfit/parameters/parameter.py:163-203 (_getval), 265-289 (value setter), parameterset.py:19-30 (SmartSymTable), 353-377 (update_values), 388-393 (to_dict). A constraint expression is a function of the values of the symbols in it; every symbol is looked up once, left to right (a repeated symbol is looked up again in the code, with the same result); symbols that are not parameters belong to the function. [clamp n] is the min/max clipping of :192-197.
* `M_ParamWrite.v`: Model of writing parameter files and of the parameters made when reading them: pyRSD/rsdfit/parameters/parameterset.py:107-213 (from_file: the saved '$' texts, the Parameter objects and the sections; the lines are in M_ParamFile), 221-272 (to_file); parameters/parameter.py:99-155 (valid_keys, __init__: value from fiducial, prior / prior_name), 251-262 (output_value), 511-534 (to_dict); rsdfit/driver.py:496-510, rsdfit/data/power_measurement.py:990-1003, rsdfit/theory/base.py:129-141, 494-514 (the to_file of driver, data, theory). Python's eval and repr, and finiteness of numbers, are oracles. An attribute that is None is the same as an absent one. In the text of a dict the keys come in the order of valid_keys. The clipping of values to their bounds at construction is in M_ParamVal and not repeated here; that reading sets the name of a parameter to its key (180-205) is not repeated either: names are the keys of the result. Not modelled: encoding, evaluation of function modules, the checks of lmfit on names and expressions.
* `M_Perc.v`: Summaries of the chain of a parameter pyRSD/rsdfit/results/emcee_results.py:75-93 (flat_trace, median), 124-192 (one_sigma, two_sigma, three_sigma), 205-211 (stderr), with numpy's percentile (linear interpolation between the two nearest of the sorted samples, at (n-1) q/100). Floats are reals. The chain is a list of walkers, each the list of its samples; the caching of the values is M_Results.
* `M_Poles.v`: Evaluation on (k, mu) grids and multipole integration pyRSD/rsd/tools.py:19-35 (return_xarray), 224-262 (broadcast_kmu), 264-326 (monopole, quadrupole, ... decorators); pyRSD/rsd/transfers/poles.py:24-69 (MultipoleTransfer); pyRSD/_gcl/cpp/DiscreteQuad.cpp:3-65 (SimpsIntegrate), scipy.integrate.simps(y, x=x) with the default even='avg' (same formulas). Floats are exact reals. The decorated method is evaluated element by element: [f k mu].
* `M_PowerData.v`: Model of pyRSD/rsdfit/data/power_measurement.py (PowerMeasurement, PowerMeasurements, PowerData), of get_kmu_pairs in pyRSD/rsdfit/theory/base.py and of PkmuGrid text files (pyRSD/rsd/transfers/__init__.py) Reads go straight to the inputs: the memoisation of these objects is the [Cache] machinery that M_Cache models and Props_Cache covers. Wavenumbers are only compared, so integers stand for them; [None] as an element of a k column is NaN, as a bound it is -inf (kmin) or +inf (kmax).
* `M_Prep.v`: Constraint graph: ParameterSet.prepare_params pyRSD/rsdfit/parameters/parameterset.py:286-324. Parameter names are numbers; [names] is the insertion order of the dict and [expr n] is [par._expr_deps] (lmfit's list of the names in the expression), [None] when [par.expr is None].
* `M_Preserve.v`: Model of [preserve] and of loading simulation data, on top of the attribute cache pyRSD/rsd/power/dm/power_dm.py:180-219 and pyRSD/rsd/sim_loader.py:46-73
* `M_Prior.v`: Bounds, priors, scaling of one parameter, and set_free_parameters pyRSD/rsdfit/parameters/parameter.py, distributions.py; pyRSD/rsdfit/theory/base.py:269-316, 346-368. Reals for floats. An infinite bound is [None]; -inf is [None] in [lnR]. The pickling of the flags and callable uniform limits are not modelled.
* `M_Qso.v`: Multipole expansion, quasar spectrum and its gradient, HZPT broadband pyRSD/rsd/power/dm/power_dm.py:1080-1158, pyRSD/rsd/power/qso, pyRSD/rsd/hzpt/__init__.py, hzpt/P01.py. Over the reals, one (k,mu) at a time; the spline interpolation of the [interpolated_function] decorator is replaced by the function itself and nan_to_num by the identity.
* `M_Quad.v`: Model of the adaptive one-dimensional quadrature of the compiled library (_gcl/cpp/Quadrature.cpp, include/Quadrature.inl, Quadrature.h). Doubles are reals (so comparisons are exact and sums associative); the C arrays of the workspace are functions of the index with arbitrary initial contents; the integrand is a pure function. The n-dimensional Genz-Malik routine is not modelled.
* `M_QuadPar.v`: Model of parallel integrations sharing the workspace manager (_gcl/cpp/Quadrature.cpp:246-276, include/Quadrature.inl:186-248) from the OpenMP loops of the library ("#pragma omp parallel for ... out[i] = Evaluate(k[i])", e.g. PowerSpectrum.cpp:44-53, ZeldovichPS.cpp:84-94). Simplifications: get_gk_workspace (a critical section) and release_gk_workspace are atomic steps -- the second is NOT protected in the code, so its data race with an insertion into the map is not modelled; one round of the bisection loop is one step; integrands do not integrate themselves (none in the library does); memory for a new workspace is always available.
* `M_Ranks.v`: Splitting MPI ranks; names of output files pyRSD/rsdfit/util/mpi_manager.py:5-21 (split_ranks), 56-97 (MPIManager.__enter__); pyRSD/rsdfit/util/rsd_io.py:69-113 (create_output_file). Communicators, pools and the creation of the (empty) file beyond its name are not modelled.
* `M_Results.v`: Results of fits pyRSD/rsdfit/results/emcee_results.py:10-211 (EmceeParameter), 219-261 (EmceeResults.__init__), 349-405 (verify_param_ordering, __add__), 417-469 (_make_constrained_chain, _save_results), 495-509 (burnin), 528-549 (maximum probability); pyRSD/rsdfit/results/lbfgs_results.py:36-60, 131-142. Arrays are nested lists: a chain is walkers x iterations x parameters. Autocorrelation times, acceptance fractions, fiducial values and meta data are not modelled; np.percentile and the density estimate are oracles.
* `M_Run.v`: Model of a whole rsdfit run as seen from the result folder: rsdfit/rsdfit.py:11-44 (find_init_result), 108-183 (initialize_algorithm, the part about start_from), 231-280 (RSDFitDriver.run, main); rsdfit/driver.py:455-494 (set_restart), 512-622 (run, finalize_fit); rsdfit/util/rsd_logging.py:50-105 (FileLogger), rsdfit/util/mpi_manager.py:99-122 (MPIManager.__exit__); rsdfit/util/rsd_io.py:69-113 (create_output_file). Several chains run at once on one folder; each is a program of file operations, interleaved by an arbitrary schedule; a crash is the end of the schedule. A complete result is the list of the iterations it went through. A file name is the part before "__" (date, tag and chain) and the number after it; the exact strings are in M_Ranks. The solver, the loading of models, signals during the exit handlers and partial directory listings are not modelled.
* `M_Scatter.v`: Model of the scattered start of a minimisation: pyRSD/rsdfit/solvers/lbfgs_solver.py:29-42 (InitializeWithScatter), 49-66 (run: which start is used), with parameter.py:265-289 (the value setter stores the value as it is), 445-456 (within_bounds of the stored value: M_Init). Floats are reals; the standard normal draws are an arbitrary sequence of rows; np.random.normal refuses a negative scale. Not modelled: the driver never passes init_from = 'prior' to this solver (driver.py:565-566).
* `M_Schema.v`: GENERATED by tools/gen_schema.py from the text of /repo -- do not edit. One table per Cache-derived class: for every parameter its alias default, for every cached attribute its declared parents (decorator arguments) and the attributes its body may read. The reads are a syntactic over-approximation: every [self.X] in the body, followed through plain methods and properties, decorators, helper functions receiving the object, and the memoised power terms ([self.m.X] in power/dm and power/biased). Sub-models that the parameter setters keep current in place ([_update_models], power_dm.py) are treated as reading those parameters at the point of use; [hzpt.P00]/[hzpt.Phm] use sigma8_z and interpolate, [hzpt.P01]/[hzpt.P11] also f. Instance attributes outside the cache machinery (e.g. [_loaded_data], [grid], [data], [model]) are not tracked; [nonlinear_bias_types] mapping a bias to an arbitrary other term is not tracked (only the 'vlah' link to the [_a] term is).
* `M_Select.v`: Model of selections from gridded data and covariance matrices: pyRSD/rsdfit/data/indexing.py:6-62 (slice_data), 167-181 (to_pandas, unique), 183-208 (get_nearest), 264-276 (isel), 292-316 (nearest). One axis with its conditions (the indexers of the dimensions of the axis, in the order of the dimensions); np.take on the other axes is independent. Python's range of a slice is modelled for step 1; pandas' get_indexer with method 'nearest' for increasing coordinates (pandas refuses coordinates that are not monotonic; decreasing ones are not modelled). Coordinates are rationals.
* `M_Spline.v`: Model of the splines of the compiled library (_gcl/cpp/Spline.cpp), used for the transfer function and everywhere in pygcl. Doubles are reals; arrays are functions from indices with point updates, loops are iterations over explicit index ranges.
* `M_SplineRef.v`: Model of the reference-counted spline handles (_gcl/cpp/Spline.cpp:318-360, include/Spline.h:36-75). A program is a history of constructions, copies, assignments and destructions of named handles; implementation objects are numbered in the order of their allocation. Touching a freed object is the error state None. Evaluation only reads (no count is changed).
* `M_Stats.v`: The Gelman-Rubin statistic pyRSD/rsdfit/analysis/stats.py:8-26 (gelman_rubin_convergence) and pyRSD/rsdfit/solvers/emcee_solver.py:190-227 (test_convergence). Numpy works on all parameters at once; the model treats one parameter: a chain is the list of its values. Real numbers instead of floats; a division by zero (NaN or inf in numpy) is excluded in the theorems that need it.
* `M_Terms.v`: Model of the terms of the redshift-space power expansion for matter (rsd/power/dm/P00.py .. P22.py, rsd/power/dm/power_dm.py:797-884) and for two biased tracers (rsd/power/biased/P00.py .. P22.py, rsd/power/biased/power_biased.py, power_halo.py), at one wavenumber, with the normalisation of the perturbation theory integrals (rsd/pt_integrals.py:11-41). Floats are reals. The unnormalised integrals and spectra (pygcl), the HZPT models, the Jennings fits, loaded data, the Gaussian-process fits and the nonlinear bias functions are arbitrary numbers or functions. Caching, interpolation in k and AP distortion are the subject of other files.
* `M_TheoryDefaults.v`: Default theory parameters (generated by tools/gen_params.py) pyRSD/rsdfit/theory/gal_defaults.py:62-324 and qso_defaults.py:61-164: names in sorted order (their position is the number), the parameters named in each constraint expression (functions such as sigmav_from_bias are not parameters), which are model parameters and which are varied. Deprecated parameters are not part of the set. The formulas themselves are not modelled: theorems quantify over all functions of the named symbols.
* `M_TheoryFile.v`: Model of how the theory section of a parameter file is laid over the default parameters: pyRSD/rsdfit/theory/base.py:190-238 (BasePowerParameters.from_file), 129-188 (from_defaults), 248-266 (is_valid, __setitem__); pyRSD/rsdfit/parameters/parameter.py:104-147 (Parameter.__init__), 153-166 (_init_bounds), 177-214 (_getval), 386-402 (constrained), 494-515 (to_dict); pyRSD/rsdfit/parameters/parameterset.py:349-357 (add), 371-391 (update_param), 425-441 (free_names, constrained_names); prepare_params is the one of M_Prep. Parameter names are numbers, values rationals; an expression is the list of the names in it. None stands for a missing bound (infinite). The fields lower, upper, mu, sigma and fiducial are one table of optional numbers. The evaluation of expressions, descriptions and non-numeric values are not modelled here; the interpretation of the line itself is the one of M_ParamFile.
* `M_Tinker.v`: Halo mass and velocity dispersion from bias: a model of pyRSD/rsd/tools.py:393-720 and of bias_to_sigma_relation / sigmav_from_bias of pyRSD/rsd/power/biased/power_biased.py:120-140, 258-306 Scalars are reals. A cosmology is given by the five numbers and functions these classes read from it (mean density, sigma8(), Sigma(R) of the z = 0 linear spectrum, H(z), H0). scipy.optimize.brentq is a parameter [brentq]: None stands for the ValueError it raises when the objective has the same sign at both ends; its iteration is not modelled (the theorems assume its contract, with an arbitrary tolerance). The spline of Sigma built for the table is an arbitrary function of Sigma and the radius.
* `M_Transfer.v`: Transfers onto wedges and multipoles: a model of pyRSD/rsd/transfers Floats are real numbers; a NaN (or an infinite mode count) is [None]. Two-dimensional (k, mu) arrays are row-major flat lists with [g_nk] rows of [g_nmu] columns (numpy C order).
* `M_WinTransfer.v`: Model of WindowFunctionTransfer.__call__ (pyRSD/rsd/transfers/window.py:51-132) for even multipoles: zero padding up to k = 100, P2xi of every multipole, the combination of multipoles (an arbitrary function of the separations and the columns; the identity for `dry_run`), xi2P of every multipole. The unconvolved multipoles are the input; k_out = None. mcfit_kwargs are N and lowring.
* `M_Window.v`: Window convolution: a model of pyRSD/rsd/window.py:11-196 Floats and the Fractions built from them are exact reals (rounding is not modelled).
* `M_Zel.v`: Model of the C++ linear and Zel'dovich spectra (_gcl/cpp/LinearPS.cpp, ZeldovichPS.cpp, ZeldovichCF.cpp, the sigma8 part of Cosmology.cpp) and of their Python pickling (pygcl.py). Doubles are reals. The numerical building blocks (the adaptive integrator, spherical Bessel functions, the Fortran FFTLog transform followed by the interpolation to one wavenumber, the transform of a tabulated spectrum to a correlation function) are arbitrary functions collected in [numerics].

## Not modelled

* `rsd/plot`, `rsdfit/plot`-like code, messages, logging, documentation, `quickstart` templates.
* IEEE rounding and the accuracy of numerical approximations, except where stated (windows, small-argument series, Simpson and spline exactness).
* Inside numpy/scipy/xarray/lmfit/asteval/emcee/mpi4py/astropy/CLASS/FFTW: see the trusted base.
* Of the compiled library: the n-dimensional cubature, the full Eisenstein-Hu fit with wiggles, the adaptive quadrature and tolerances of the one-loop integrals (the kernels and integrals Imn, Jmn, Kmn, the spectra `OneLoopPS` and the two-loop `ImnOneLoop` are modelled with exact integrals; the Fortran FFTLog kernel is modelled over exact reals), SWIG glue other than the methods cited.
* `rsd/simulation`: the calibrated coefficient tables. Of `rsd/hzpt` the constructors from a cosmology and the parameter fits are not modelled; the container, tables, broadbands and default parameters are.

## Findings

The refuted properties below are defects of the pinned commit. Others met while reading (not all are in a theorem):

* **Theory.** `gal_defaults.py` `sigma_sB` builds `expr` but never returns it. Analytic gradient rows are evaluated at the state at entry; a scalar call returns the first row only. `HaloZeldovichP11.__init__` is broken. `transfers.WedgeTransfer` is not exported, so `calculate_transfer` in smooth P(k,mu) mode raises. Smooth `WedgeTransfer` is silently NaN for empty wedges, unequal wavenumbers give NaN or a wrong length; the `mu_bounds` setter mutates the caller's list. `WindowConvolution` matches columns by position; multipoles beyond the largest ell' convolve to 0. `RegularGridInterpolator` accepts single-point axes and returns NaN. `broadcast_kmu` raises for scalar k with array mu unless flattened, and mislabels 2-D inputs. The multipole decorators use the even-point Simpson rule with 41 wavenumbers and raise with one. `ZeldovichPS` with sigma8 = 0 gives NaN for good.
* **Caches.** `del` of a parameter leaves dependents cached; array assignments within `allclose` are dropped; nine classes have undeclared dependencies; the call cache's key has neither object nor keywords; `lru_cache` with negative maxsize fails on the first call, 1 and 1.0 share entries, counters for maxsize 0/None are not locked; `preserve` restores nothing after an exception.
* **Parameters.** `prepare_params` never adds indirect dependents (stale chained constraints); central differences are clipped near bounds; analytic-mode priors are finite everywhere; the default `dlnprior` is the derivative of a smoothed prior; `Normal.deriv_pdf` has an undefined `domain`; `Uniform.cdf` uses the normal distribution; `Parameter` loses its `analytic` flag when a bound changes; `from_file` matches tags by suffix, cuts at `#` inside quotes, splits at every `=`, drops a trailing continuation line.
* **Data.** `s - C` gives `C - s`, `C * D` and `s / C` raise; selecting or trimming resets `inverse_rescaling`; widening k limits misaligns the covariance; `trim_k` fails when a block becomes empty, after the measurements were already cut; `set_errors_from_cov` is wrong for unequal sizes; `usedata` permutes the multipole numbers but not the measurements; `PkmuCovarianceMatrix.__init__` uses an undefined name; `to_plaintext` drops `inverse_rescaling`.
* **Driver and solvers.** Analytic Fisher path always raises; `marginalized_errors` takes elementwise square roots; `minus_lnlike` out of bounds includes the prior even with `use_priors=False`; `chi2(theta)` out of bounds evaluates at the old parameters; the numerical gradient adds the prior's derivative at the last displaced point and leaves the parameters there; `null_lnlike` is cached for ever; L-BFGS does one iteration for `max_iter <= 0`, divides by zero from a stationary start, stops at once after a restart with `test_convergence`; emcee chains waiting in a barrier block for ever when another stops; `niter/2` as a slice bound; `split_ranks` with more runs than ranks raises; `create_output_file` has a race; `multivariate_init` always fails.
* **Results and analysis.** `np.nonzero` drops exact zeros of chains; adding results without constrained parameters raises; reordering resets burn-in per parameter; `__add__` reorders its right operand in place; the cached peak is not invalidated; `LBFGSResults.verify_param_ordering` does not permute constrained values; `gelman_rubin` uses the length of the first chain only; `thin_chains` always raises; `remove_burnin` with one surviving file keeps the untrimmed statistics; `recover_folder_and_files` ignores the list of files; text-mode pickles fail in Python 3.
* **Cosmology (Python).** An unpickled flat cosmology has item Ode0 = 0.69; `==` is neither symmetric nor transitive; `dict.update`/`pop` are not blocked; `clone(flat=...)` is ignored; `from_astropy` with extra keys raises TypeError.
* **Compiled library.** ZeldovichP00/P01/P11/CF, Kaiser, CorrelationFunction pickles lose later changes; LinearPS without z cannot be unpickled; ZeldovichP11's low-k Q3 coefficient is 1.5 instead of 2, low-k P00 keeps a k^4 sigma^4/2 term the others drop; a one-point linear spline aborts, unordered tables are accepted; `ShiftedLinearSpline::clone` passes the wrong length; quadrature error code 4 is unreachable and refused tolerances return 0 with the error untouched; `release_gk_workspace` is unprotected; `parray::slice` of an empty range returns an element; `SimpsIntegrate` with two points aborts; `Kaiser::P_s` ignores b1; `Xi_ell` with the default kmin aborts; `nearest_interp_1d` reads outside its tables; `W`'s small-x coefficient is 1/30 instead of 1/10; `Cosmology.from_power` ignores its input; `update()` with an analytic fit never reruns CLASS; copying or changing the transfer function resets sigma8; `from_file` calls a constructor that does not exist; `ClassParams.from_dict`/`from_astropy` mutate the caller's dict.
* **Power expansion and biasing.** `P13.mu6` at one loop reads `self.normed_power_lin` (AttributeError), so matter with `max_mu=6, include_2loop=False` cannot be evaluated; `P_mu4` of unit-bias tracers lacks `(fk)^4 Plin J02^2` and uses `Pdd` for `P00`; `P_mu6` of tracers omits P13 and P04; `update_nonlinear_biasing(b2_00=..)` and `(b2_01=..)` always raise; unknown bias types are accepted and fail on reading; cyclic tables recurse without end; a bias function mapped to a polynomial does not see later changes of its coefficients; `nonlinear_bias_defaults` keeps the last name only.
* **Walker initialisation.** After 101 redraws an ensemble walker outside the prior is kept (the chain then starts at probability zero); a walker whose 101st redraw is valid is counted as impossible; `multivariate_init` never draws jointly (priors are never traces) and would fail as `scipy` is not imported there; `has_posterior` does not exist, so starting from a posterior raises AttributeError; `driver.py:558` tests `has_fiducial is not None`, which is always true, so a NaN initial value is possible; walkers in the ball around a best fit are never checked against the bounds.
* **Bias to mass.** The interpolation table uses overdensity 200 whatever `delta_halo`, and has no declared parents, so it survives a change of cosmology; if a node cannot be solved (or the smallest radius, below 1e-3 Mpc/h for Omega_m above 0.86, leaves the spline) the handler prints the undefined name `s8` and every interpolated query raises NameError; the model's cached `bias_to_sigma_relation` follows `z` but not `params`, `transfer_fit` or `interpolate`; `sigmav_from_bias` turns any failure for a bias in [0.9, 8] into a dispersion of exactly 0.
* **Perturbation theory integrals.** `Imn(k, 0, 4)` is `Imn(k, 1, 0)`, `Kmn(k, m, 2)` without tide is the tidal `Kmn(k, m, 0)`, `Jmn(k, 0, 3)` is `Jmn(k, 1, 0)`: indices are collapsed before they are checked. The series of five of the six Jmn kernels used above q/k = 60 (all but g10) have wrong coefficients from r^-6 on (the logarithm was truncated before it was multiplied out); the error is at most 1/(100 r^6), harmless at r = 60. For k > 2e5 the upper limit of the second-order integrals is below the lower one.
* **Two-loop integrals.** `ImnOneLoop::EvaluateLinear` and `EvaluateOneLoop` use the (2,3) kernel for (3,2) (case 8 calls f23), `EvaluateCross` the right one: the mu^6 term P22 of the two-loop dark matter spectrum is wrong, even in sign for steep spectra. `2m+n` selects the kernel, so (1,1) is (0,3). An auto-spectrum with an asymmetric kernel (0,1), (0,2) doubles one of the two cross pieces. A base-class `OneLoopPS` keeps a table but evaluates to 0.
* **HZPT models.** `sigma8_z = 0` on the container is accepted silently before the first evaluation and turns the base object into NaN, which `nan_to_num` hides: every later spectrum is the broadband alone (C170). After the first evaluation the assignment raises ValueError but the container and its base have already changed. Read only, not modelled: `HaloZeldovichP11(cosmo, z)` raises NameError (`super(HaloZeldovichP01)`, undefined `default_parameters`); the correlation broadband is NaN when R1h^4 < 4 R2h^4; `HaloZeldovichCF00`/`CFhm` have no sigma8 synchronisation in `__call__`.
* **Extrapolator.** The documented defaults of `k_hi` and `k_lo` (the model's own range) are always rejected by the setters' 5% margin; `model_func` is checked and then ignored (always `Pgal`); the fitted slopes do not depend on the model's parameters, so they are stale after the model changes; `kcut_hi < k_hi` and `k_hi <= 0.95 model_kmax` are checked only when the left-hand parameter is assigned (C174). Read only: `to_poles` with as many multipoles as wavenumbers returns one multipole per wavenumber.
* **FFTLog and the window transfer.** `WindowFunctionTransfer.__call__` overwrites `rr` in its loop over multipoles, so all multipoles are transformed back with the separations of the last one; the low-ringing shift depends on the multipole, so with several multipoles even a unit window multiplies all but the last column by a constant different from 1 (C180; a few per cent for a 1024-point grid), and the window is evaluated at separations that are off by the same shift. With the default N (padding) `xi2P` does not undo `P2xi` (C178): the part of the correlation function outside the returned range is dropped. mcfit's docstring defines the Mellin transform with `t^z` where `t^(z-1)` is meant, and its comment `lnxmin + lnymax` for `lnxy` is off by one grid step.
* **Compiled FFTLog.** With the Python defaults (smoothing 0.5 and 0.005) the pair `pk_to_xi`, `xi_to_pk` never returns a non-zero spectrum: the sum of k^3 P^2 always shrinks (C183). Separations more than half a step outside [1/kmax, 1/kmin] give exactly 0 without a message. `fht` of MyFFTLog.cpp (C++ only) uses an output step log(rN/r0)/N instead of /(N-1), and its biased branch subtracts the phase of the second Gamma function instead of adding it (by reading, not proved). `FortranFFTLog::operator=` does not copy `kr`. `method=SIMPS` or `TRAPZ` with l = 5 or 7 stops the program.
* **Best-fit tables.** A table from `from_nlopt` is not restored by `from_info` (empty cells vanish in the blank-separated file: the names land in `best_fit`); without metadata `to_info` appends to an existing file; boolean False comes back True, strings are cut at the first blank, None makes the file unreadable (C185). `from_mcmc` puts the lower two-sigma end in `lt_2sigma`; the driver exchanges `lt_2sigma` and `gt_2sigma` (C186). A selection shares the list of metadata names with its original: adding one makes the original's `to_info` raise AttributeError after truncating the file (C188). Read only: the check `not (generator)` in `_finalize_latex` never fires; `to_comparison_table` adds columns to the caller's frames; `from_mcmc` without constrained parameters raises IndexError.
* **Whole runs.** Two chains restarted from files with the same chain number can choose the same output name between listing and creating it; both old files are then removed and the results of one chain are in no file (C190). After Ctrl-C during a restart both the old file and the new one, which contains it, stay in the folder, so the old iterations count twice when the folder is analysed; `main` exits with status 0 whatever happened, since both context managers suppress every exception; the temporary log is deleted even if it could not be copied, e.g. whenever the solver raises (C192). `find_init_result` raises if any `.npz` file of the folder is unreadable, which is how a crash between creating and saving a result leaves it; its answer is stored in the parameter set only, while `run` reads the driver's attribute, so `init_from = 'result'` without a file name always raises; `has_fiducial is not None` is always true, so a parameter without value starts from NaN (C194).
* **Parameter files.** `driver.lbfgs_options = {}` is taken for the specification of a parameter and reads as None, so an nlopt run fails at `options['max_iter'] = ...` (C196). A text such as '$(root)/r' is written back unexpanded while the untagged `root` is not written, and the parameters are written in the order of their names whatever they refer to: a file that could be read gives a folder whose params.dat raises KeyError (C197). `GalaxyPowerTheory.to_file` ignores its mode and always appends.
* **Command line and start.** Only rank 0 parses: with several processes a rejected command line leaves the others waiting in `bcast` for ever (C201). In a folder that is used again rank 0 truncates and rewrites `params.dat` while the other ranks still have to read it (the barrier comes after), so a rank can go on with empty parameters (C202). A folder with `params.dat` but no `model.npy` never gets one: each run initialises the model again; `from_directory` ignores the `model.npy` its documentation says it loads (C200).
* **Contours.** `ctr_level` takes `hist[-i]` where the cell that reaches the fraction is `hist[-(i+1)]`: every contour is one cell level too high and encloses less than 68% (95%), and if one cell alone reaches the fraction `hist[-0]` is the emptiest cell (C203). If two cells hold 68% the levels do not increase and `contourf` raises ValueError, while only `Warning` is caught (C204). The 2D histograms are cached under the sorted pair, so the same pair in the other order (another tag) is drawn transposed (C205). The y samples are passed unscaled to the histogram whereas the axes, ticks and the x samples are scaled.
* **Theory section.** A line without `expr` cannot free or fix a parameter whose default has an expression: its value and `vary` are ignored (C206). A line without `vary` fixes a parameter that is free by default; a line with a lower bound and no value moves the parameter onto its bound (C207). With an `extra_param_file` the loader calls `extend` on a dict view (AttributeError in Python 3); deprecated names are dropped silently.
* **Selections.** An empty intersection of conditions raises NameError, since the message uses an undefined `i`; -1 and n-1 are not recognised as the same element; requested order and duplicates are lost; if the first condition is a scalar the rest are ignored (C209). `nearest` returns a position among the different coordinates, which is wrong on an axis with repeated ones (C210).
* **Fiducial values.** A parameter whose expression names one without a fiducial value is evaluated at infinity there: it gets a fiducial value whenever the result is finite, e.g. 0 for F_AP = alpha_par/alpha_perp (C211). `has_fiducial is not None` in driver.py is always true, so a missing fiducial value starts the fit at NaN.
* **Scattered starts.** A negative initial value makes the minimisation fail with ValueError (negative standard deviation); a value of zero is never scattered, and if zero is not allowed the search never ends (C213). The `prior` start of the minimiser cannot be reached through the driver, which refuses it.
* **Dead code.** `stats.minimum_credible_intervals` always raises TypeError (`np.max(x, 0.)`); `mu0_modeling` is Python 2 only.
* **Stored chains.** `from_npz` loses the fiducial values of the parameters and the rescaling of the errors; since `attrs` is stored as an object array and `allow_pickle` is not passed, no file of results can be read with numpy 1.16.3 or later (C216).
* **Derivative of a constraint.** After `constraint_derivative` at a point other than the current values, constrained parameters at the end of chains of three constraints read as at that point, since `prepare_params` keeps only direct dependents as children (C218).
* **Velocity dispersion.** `evrard_sigmav` divides km/s by H(z) in km/s/Mpc, so the dispersion assigned to a bias is in Mpc and not, as documented and used, in Mpc/h; the exponent is 0.336, the docstring says 0.33 (C219).
* **Marginalised errors.** `marginalized_errors` takes the square root of every entry of the covariance: the result is a matrix whose off-diagonal entries are NaN for anticorrelated parameters (C221).

## Status per property

* **C01** Attribute cache is never stale — *proved*. Generic over schemas, bodies and histories. Histories contain assignments, reads and deletions of computed attributes; deletion of parameters and overrides are separate claims (C03, C69).
  `C01_cache_never_stale` [A0], `C01_cache_never_stale_history` [A0]
* **C02** Assigning an equal value does not discard cached results, and a repeated read does not recompute — *proved*. Ghost evaluation log; the generic 'ignore_cache' keyword is not modelled.
  `C02_no_recompute` [A0], `C02_body_not_reevaluated` [A0], `C02_equal_assignment_does_nothing` [A0]
* **C03** Deleting a parameter invalidates what was computed from it — *partial*. REFUTED by the code: deleting a parameter leaves dependents cached. Positive part: deleting a computed attribute invalidates its dependents.
  `C03_delete_param_refuted` [A0], `C03_delete_property_partial` [A0]
* **C04** An assigned parameter value is the value read back — *partial*. REFUTED for arrays (allclose tolerance drops small updates); proved for scalars.
  `C04_scalar_readback_partial` [A0], `C04_array_readback_refuted` [A0]
* **C05** The actual model schemas satisfy the declaration discipline — *partial*. REFUTED for 9 of the 24 classes (undeclared dependencies listed); proved for all classes relative to the listed gaps, in full for the 15 gap-free classes.
  `C05_real_classes_never_stale_partial` [A0], `C05_gap_free_classes` [A0], `C05_undeclared_refuted` [A0], `C05_quasar_stale_refuted` [A0]
* **C06** lru_cache is transparent — *proved*. Hypotheses: function respects Python equality, maxsize None or >= 0. Side notes (refuted theorems): 1/1.0/True share an entry for a function that distinguishes them; a negative maxsize raises KeyError.
  `C06_transparent` [A0], `C06_transparent_python_calls` [A0], `C06_transparent_concurrent` [A0], `C06_equal_arguments_refuted` [A0], `C06_negative_maxsize_refuted` [A0]
* **C07** lru_cache is bounded and evicts exactly the least recently used key — *proved*. Heap of links refined to the recency list; observable statement: next call is a hit iff its key is among the n most recently used. Bound also proved for every thread interleaving.
  `C07_keeps_exactly_the_most_recent` [A0], `C07_bounded` [A0], `C07_bounded_concurrent` [A0]
* **C08** cache_info is exact — *proved*. All three branches, all sequential histories; bounded branch also for every interleaving. Extra: the unlocked counters of the maxsize 0/None branches can lose counts under threads (C08_unlocked_branches_can_lose_counts).
  `C08_info_exact` [A0], `C08_hits_plus_misses` [A0], `C08_clear_resets` [A0], `C08_concurrent` [A0], `C08_unlocked_branches_can_lose_counts` [A0]
* **C09** lru_cache keys separate different calls — *proved*. Concrete Python value model (int, bool, float, str, None, tuple, type, frozenset, identity objects); NaN and user-defined __eq__ not modelled.
  `C09_keys_separate` [A0], `C09_keyword_order_irrelevant` [A0]
* **C10** The call cache used during gradients is transparent while the model is unchanged — *partial*. REFUTED as stated: the key has neither the object nor the keyword arguments, so two models of one class (or calls differing in keywords) share entries. Proved transparent when calls sharing a key agree; cache off after every block.
  `C10_use_cache_transparent_partial` [A0], `C10_cache_gone_after_block` [A0], `C10_two_models_collide_refuted` [A0], `C10_keywords_collide_refuted` [A0]
* **C11** Loading simulation data twice uses the last data — *partial*. REFUTED for a second load; first load proved.
  `C11_first_load_partial` [A0], `C11_second_load_refuted` [A0]
* **C12** preserve() restores the model — *proved*. Freshness of later reads is C83.
  `C12_preserve_restores_values` [A0]
* **C13** preserve() restores the model when the block raises — *partial*. REFUTED: an exception skips the restoring code; the exact crash state is proved.
  `C13_preserve_exception_refuted` [A0], `C13_preserve_exception_partial` [A0]
* **C14** use_spt(), SO-correction and shot-noise blocks restore their switches on every exit — *proved*. Error reporting of use_spt is C84.
  `C14_shot_noise_block_restores` [A1], `C14_so_block_restores` [A1], `C14_use_spt_restores` [A0], `C14_use_spt_inside_is_off` [A0]
* **C15** AP distortion is applied exactly once — *proved*. Sequential executions; arbitrary nesting of decorated and plain calls. Threads: C71.
  `C15_distorted_exactly_once` [A0], `C15_lock_state_restored` [A0]
* **C16** AP remapping is geometrically exact — *proved*. Over the reals.
  `C16_parallel` [A3], `C16_perpendicular` [A3], `C16_range` [A3], `C16_fixed_points` [A3], `C16_identity` [A3]
* **C17** FOG kernels are proper damping factors and their derivatives are derivatives — *proved*. Over the reals; all three kernels.
  `C17_kernel_damps` [A4], `C17_kernel_derivatives` [A4]
* **C18** The galaxy spectrum is the fraction-weighted sum of its components — *proved*. Sub-sample methods with N<>0: C85.
  `C18_power_is_weighted_sum` [A3], `C18_power_with_AP` [A3], `C18_public_components` [A3], `C18_subsample_values` [A3], `C18_equal_components` [A3]
* **C19** The constant offset N is an offset of the galaxy power — *partial*. REFUTED: the galaxy power does not depend on N at all (the offset is zeroed by nested shot-noise blocks).
  `C19_power_ignores_N_refuted` [A3]
* **C20** derivative_k / derivative_mu are the derivatives of the galaxy power — *partial*. Proved without SO correction or with N=0; REFUTED with SO correction and N<>0.
  `C20_derivative_k_partial` [A4], `C20_derivative_mu_partial` [A4], `C20_derivative_k_refuted` [A4]
* **C21** Analytic galaxy gradient: satellite fraction — *proved*. Other fractions: C99.
  `C21_fs` [A4]
* **C22** Analytic galaxy gradient: one-halo amplitudes — *partial*. Proved for alpha_drag=1; REFUTED otherwise (drag factor missing).
  `C22_NcBs_partial` [A4], `C22_NsBsB_partial` [A4], `C22_one_halo_refuted` [A4]
* **C23** Analytic galaxy gradient: velocity dispersions — *partial*. Proved without SO or alpha_drag=1; REFUTED with SO and alpha_drag<>1.
  `C23_sigma_c_partial` [A4], `C23_sigma_so_partial` [A4], `C23_sigma_refuted` [A4]
* **C24** Analytic AP gradient — *proved*. alpha_par of the galaxy power: C98.
  `C24_alpha_perp` [A4], `C24_quasar_alpha_par` [A4], `C24_quasar_alpha_perp` [A4]
* **C25** Analytic quasar gradient — *partial*. REFUTED as stated: sigma_fog and sigma8_z derivatives are wrong when the constant offset N<>0, f for max_mu=2, b1 and f_nl for max_mu=0 (witnesses, and the exact error for all inputs). Proved as partial derivatives under N=0 / max_mu>=4 / max_mu>=2 resp.
  `C25_b1_partial` [A4], `C25_f_nl_partial` [A4], `C25_f_partial` [A4], `C25_sigma_fog_partial` [A4], `C25_sigma8_partial` [A4], `C25_sigma_fog_error` [A4], `C25_sigma8_error` [A4], `C25_f_error` [A4], `C25_b1_error` [A4], `C25_f_nl_error` [A4], `C25_offset_refuted` [A4], `C25_max_mu_refuted` [A4]
* **C26** HZPT P01 broadband is the log-a derivative of P00 broadband — *proved*. Over the reals; any amplitudes/exponents.
  `C26_P01_is_the_log_derivative_of_P00` [A4]
* **C27** Gradient chain rule through constraints — *partial*. REFUTED in general: a parameter reached only through another constraint (a -> b -> c) is not a child, its contribution is missing. Proved for all graphs in which constrained model parameters mention the free parameter directly, and for the default galaxy theory.
  `C27_direct_dependents_partial` [A3], `C27_galaxy` [A3], `C27_galaxy_example_file` [A3], `C27_chain_refuted` [A2], `C27_default_coverage` [A2]
* **C28** Central differences in the gradient are correct and leave the model at theta — *proved*. Side notes (refuted theorems): near a bound the clipped points give a wrong slope; an exception of an analytic derivative leaves the state where it was. Serial evaluation only.
  `C28_rows` [A2], `C28_step_is_along_one_axis` [A1], `C28_exact_for_quadratics` [A2], `C28_state_after_exception` [A2], `C28_near_bound_refuted` [A2], `C28_analytic_exception_refuted` [A2]
* **C29** Window convolution with a trivial window is the identity — *proved*. Spline abstract: any interpolation reproducing constants. Side note: unordered multipoles are matched by position (refuted theorem).
  `C29_trivial_window_identity` [A4], `C29_identity_for_ordered_multipoles` [A4], `C29_outside_range_unconvolved` [A2], `C29_unordered_multipoles_refuted` [A4], `C29_bad_input_raises` [A2]
* **C30** Window coefficients implement the Legendre product expansion — *proved*. Adams product theorem proved for all ell, ell_prime, with Legendre orthogonality: the convolution is the multipole of the product. Exact arithmetic (float rounding of np.prod not modelled).
  `C30_legendre_polynomials` [A2], `C30_legendre_orthogonal` [A4], `C30_product_expansion` [A2], `C30_multipole_numbers` [A2], `C30_positive` [A2], `C30_bare_sum_is_one` [A2], `C30_exchange` [A2], `C30_coefficients_are_projections` [A4], `C30_convolution_is_multipole_of_product` [A4], `C30_enough_window_columns` [A2]
* **C31** Grid interpolation is exact on nodes, bounded, and rejects out-of-range input — *proved*. Side note: a single-point axis is accepted and every evaluation is NaN (refuted theorem).
  `C31_out_of_range_rejected` [A2], `C31_wrong_dimension_rejected` [A2], `C31_exact_at_nodes` [A2], `C31_between_corner_values` [A2], `C31_multi_affine_exact` [A2], `C31_extrapolation_affine` [A2], `C31_fill_value` [A2], `C31_nearest_is_nearest` [A2], `C31_constructor_requires_ascending` [A2], `C31_single_point_axis_refuted` [A2]
* **C32** Condensed covariance storage is a bijection — *proved*. index arithmetic on integers; data of any type
  `C32_storage_is_a_bijection` [A0], `C32_element_access_reads_the_stored_entry` [A0]
* **C33** Condensed <-> full round trip — *proved*. holds for every element type and for any prior content of np.empty; positive-semidefinite check of verify=True not modelled
  `C33_round_trip` [A0], `C33_always_symmetric` [A0], `C33_diag` [A0]
* **C34** Covariance arithmetic is elementwise — *proved*. Reflected operators: C86.
  `C34_elementwise` [A0]
* **C35** Covariance trimming keeps exactly the in-range block — *proved*. coordinates as integers (only compared); exact success condition also proved; attrs arrays not modelled
  `C35_trim_keeps_exactly_the_rows_in_range` [A0], `C35_trim_succeeds_iff` [A0], `C35_trim_twice` [A0]
* **C36** Inverse-covariance rescaling survives slicing — *partial*. REFUTED: trim_k, sel and the kmin/kmax setters rebuild the object with inverse_rescaling 1. Proved: the factor applies right after initialisation and arithmetic keeps it.
  `C36_rescaling_set_and_kept_by_arithmetic_partial` [A0], `C36_rescaling_lost_by_slicing_refuted` [A0]
* **C37** Trimming a measurement keeps its columns aligned — *proved*. NaN wavenumbers included; memoisation covered by the Cache properties
  `C37_columns_stay_aligned` [A0]
* **C38** Flat slices partition the combined data vector — *proved*. any list of columns; also the (k, mu) slices of the theory side
  `C38_slices_partition` [A0], `C38_kmu_pairs_slices` [A0]
* **C39** Covariance and data vector stay aligned under k limits — *proved*. for histories of successful narrowing changes from an aligned start (one row per input row, no NaN k, sorted coordinates). Beyond the property: widening and a failing change leave them misaligned (C39_*_refuted).
  `C39_aligned_after_narrowing` [A0], `C39_widening_refuted` [A0], `C39_failed_change_refuted` [A0]
* **C40** Errors from the covariance belong to the right points — *proved*. Side note: refuted for measurements of unequal size.
  `C40_errors_belong_to_their_points` [A0], `C40_unequal_sizes_refuted` [A0]
* **C41** usedata selects matching data and covariance — *proved*. Multipole numbers and negative selections: C87.
  `C41_usedata_keeps_rows` [A0]
* **C42** Plain-text round trip of measurements and grids — *proved*. all columns and grid points at their positions, each number through the text format (abstract function)
  `C42_measurements_round_trip` [A0], `C42_grid_round_trip` [A0]
* **C43** Unit conversion factors are inverse to each other — *proved*. real arithmetic
  `C43_conversions_invert` [A2], `C43_factors` [A2], `C43_equal_units_and_errors` [A2]
* **C44** Grid transfer scatters and bins without losing modes — *proved*. numpy digitize/bincount by their documented semantics; floats as reals. Side note: multipoles on a single k row always raise (refuted theorem).
  `C44_flat_values_scattered` [A2], `C44_wrong_length_rejected` [A2], `C44_flat_and_grid_agree` [A2], `C44_wedge_is_mode_weighted_mean` [A2], `C44_empty_bin_raises` [A2], `C44_unordered_bounds_raise` [A2], `C44_constant_preserved` [A2], `C44_entry_between_extremes` [A2], `C44_one_wedge_per_point` [A2], `C44_no_mode_lost` [A2], `C44_pole_is_legendre_weighted_mean` [A2], `C44_single_row_poles_refuted` [A2], `C44_smooth_wedge_is_mean` [A2], `C44_wedge_ending_at_one_is_closed` [A2]
* **C45** Configuring a transfer does not modify the caller's lists — *partial*. REFUTED: the setter rewrites bounds close to 1 inside the list object passed by the caller; the exact condition and frame are proved.
  `C45_caller_list_modified_refuted` [A2], `C45_list_unchanged_iff` [A2], `C45_other_lists_untouched` [A2], `C45_second_construction_differs_refuted` [A2]
* **C46** within_bounds is exactly finiteness of the prior — *proved*. Side note: in analytic mode the smoothed prior is finite everywhere (refuted theorem).
  `C46_within_bounds_iff_finite` [A4], `C46_within_bounds_is_membership` [A2], `C46_prior_value` [A4], `C46_analytic_mode_refuted` [A4]
* **C47** A free or constrained parameter's value respects its bounds — *proved*. Bounds ordered (min <= max); infinite bounds included.
  `C47_value_read_respects_bounds` [A2], `C47_any_read` [A2]
* **C48** Constrained parameters always reflect current values — *partial*. REFUTED: with three constraint levels (b1 of the galaxy theory) a read after an assignment is stale; a constraint also sees an out-of-range value before clipping. Proved up to two levels (all model parameters of both default theories) and at any depth when read in dependency order.
  `C48_up_to_two_levels_partial` [A0], `C48_read_in_dependency_order` [A0], `C48_default_theories` [A0], `C48_derived_bias_refuted` [A0], `C48_constraint_sees_unclipped_value_refuted` [A0]
* **C49** Free names are sorted, exact and deterministic — *proved*. Names are modelled as numbers in their sort order.
  `C49_free_names` [A0], `C49_disjoint` [A0], `C49_independent_of_insertion_order` [A0], `C49_fixed_parameters_in_neither_list` [A0], `C49_constrained_names_follow_insertion_order` [A0]
* **C50** set_free_parameters is all-or-nothing — *proved*. Model parameters up to two constraint levels (all of both default theories); deeper ones: see C48. NaN not modelled (reals).
  `C50_all_or_nothing` [A2], `C50_returns` [A2], `C50_galaxy` [A2]
* **C51** Scaling of parameters is invertible and consistent with gradients — *proved*. Over the reals; every free parameter has a non-empty prior.
  `C51_inverse_of_scale` [A2], `C51_scale_of_inverse` [A2], `C51_scale_defined` [A2], `C51_scaled_gradient` [A4], `C51_prior_maps_to_unit_range` [A2]
* **C52** Parameter-file variable substitution is total and exact — *proved*. Every string decomposes into a proper template plus a possibly malformed end; exact replacement, KeyError and ValueError cases proved for all strings.
  `C52_exact` [A0], `C52_every_string_covered` [A0], `C52_malformed_raises` [A0], `C52_plain_text_unchanged` [A0], `C52_unknown_name_raises` [A0], `C52_total` [A0]
* **C53** Parameter file lines are assembled correctly — *proved*. Attribution to sections and special characters: C96. eval is an oracle.
  `C53_blank_and_comments_ignored` [A0], `C53_trailing_comment_ignored` [A0], `C53_continuation_joined` [A0], `C53_line_gives_pair` [A0], `C53_line_without_equals_refused` [A0]
* **C54** Posterior is -inf exactly where it should be — *proved*. Exact (default) prior mode and every mode for the cut at the bounds; C54_use_priors_false_refuted shows that minus_lnlike(use_priors=False) still contains the prior outside the bounds in the smoothed mode (the English claim is about use_priors).
  `C54_minus_inf_exactly_outside` [A4], `C54_value_inside` [A4], `C54_minus_lnlike_is_negative` [A4], `C54_current_values_after_any_history` [A4], `C54_minus_lnlike_outside` [A4], `C54_cut_in_any_mode` [A4], `C54_use_priors_false_refuted` [A4]
* **C55** chi2 is evaluated at the requested parameters — *proved*. Outside the bounds: C95.
  `C55_chi2_in_bounds` [A2], `C55_chi2_current_after_any_history` [A4], `C55_history_total` [A2]
* **C56** Model vector order equals data order — *partial*. REFUTED in general (set order with unequal k, statistic-specific parameters not leading, smooth transfers with unequal k, usedata subsets). Proved when the groups follow the data order, and for every set order with a common k. Gridded transfers not modelled.
  `C56_in_order_partial` [A0], `C56_common_k_any_set_order_partial` [A0], `C56_set_order_refuted` [A0], `C56_specific_not_first_refuted` [A0], `C56_smooth_different_k_refuted` [A0], `C56_subset_refuted` [A0], `C56_several_identifiers_refused` [A0]
* **C57** Fisher matrix is symmetric and positive semi-definite — *partial*. REFUTED: the analytic path always raises AttributeError (self.pkmu_gradient does not exist on the driver). Proved: the assembly from a gradient is symmetric and positive semi-definite. The numdifftools path is third-party code.
  `C57_fisher_never_returns_refuted` [A2], `C57_assembly_partial` [A2], `C57_entries_partial` [A2]
* **C58** L-BFGS two-loop recursion equals the inverse-Hessian product — *proved*. Two-loop recursion equals the explicit BFGS matrix of the last M stored pairs times the gradient, for every dimension, memory, history and iteration counter; positive definite with positive curvature; every direction given to the line search descends or is zero.
  `C58_step_is_matrix_times_gradient` [A3], `C58_first_step` [A2], `C58_any_memory` [A2], `C58_descent` [A3], `C58_direction_always_descends` [A3]
* **C59** The minimiser stops and reports why — *proved*. Line search is an oracle with the Armijo contract. Side notes (refuted theorems): max_iter<=0 still performs one iteration; zero gradient at the start divides by zero; a restarted fit with the test on stops at once; tolerance differs from the documented one for negative objectives.
  `C59_terminates` [A3], `C59_ending_unique` [A3], `C59_status_documented_and_true` [A3], `C59_undefined_only_at_zero_gradient` [A3], `C59_objective_decreases` [A3], `C59_zero_max_iter_refuted` [A3], `C59_restart_stops_immediately_refuted` [A3], `C59_stationary_start_refuted` [A3], `C59_tolerance_implies_documented` [A2], `C59_tolerance_documented_nonneg` [A2], `C59_tolerance_negative_refuted` [A2]
* **C60** The stored update history is a sliding window — *proved*. Sliding window and alignment proved for every sequence of successful updates; additionally a failed update is shown to rotate the window (C60_failed_update_rotates_refuted), which is outside the property.
  `C60_sliding_window` [A3], `C60_rows_aligned` [A3], `C60_update_succeeds_iff` [A3], `C60_failed_update_rotates_refuted` [A3]
* **C61** Walker count is legal — *proved*. Smallest even number that is at least 2*ndim and at least the request; for all integers.
  `C61_smallest_legal` [A0], `C61_request_kept_when_legal` [A0]
* **C62** Convergence checks happen on schedule — *proved*. Propagation of the stop: C94.
  `C62_schedule` [A0]
* **C63** Chain results keep every sample — *partial*. REFUTED: np.nonzero drops every zero entry, so a chain holding a zero is refused or silently scrambled; proved exact when no stored number is zero.
  `C63_samples_kept_partial` [A0], `C63_lnprobs_kept_partial` [A0], `C63_zero_lost_refuted` [A0], `C63_samples_mixed_refuted` [A0]
* **C64** Concatenating chains is associative and keeps order — *proved*. Side note: without constrained parameters the sum always raises (refuted theorem).
  `C64_concatenates_in_order` [A0], `C64_associative` [A0], `C64_refuses_mismatch` [A0], `C64_no_constrained_fails_refuted` [A0]
* **C65** Reordering results keeps every name attached to its value — *proved*. Constrained values of minimiser results: C88.
  `C65_emcee_traces_kept` [A0], `C65_emcee_refuses_other_names` [A0], `C65_lbfgs_free_values_kept` [A0]
* **C66** Rank splitting is a partition — *proved*. Partition into n groups with sizes differing by at most one for all N and n>0; colours; IndexError when n>N.
  `C66_partition` [A0], `C66_zero_groups_raise` [A0], `C66_colours` [A0], `C66_too_many_groups_raise` [A0]
* **C67** Output files are never overwritten — *proved*. Same base concurrently: C97. The only failure is an unreadable number in a matching name.
  `C67_new_name` [A0], `C67_repeated_calls_distinct` [A0], `C67_chains_distinct` [A0]
* **C68** Convergence statistic is invariant — *proved*. Real arithmetic. Side note: order matters for chains of different length (refuted theorem).
  `C68_shift_invariant` [A3], `C68_scale_invariant` [A3], `C68_order_independent` [A3], `C68_lower_bound` [A3], `C68_order_matters_refuted` [A3], `C68_converged_both_sides` [A2]
* **C69** Temporary overrides affect exactly the block — *partial*. REFUTED: dependents cached before the block ignore the override, those computed inside keep it. Direct reads proved.
  `C69_override_read_partial` [A0], `C69_override_refuted` [A0]
* **C70** Evaluating the galaxy power leaves the model unchanged — *proved*. Failing evaluations: C89.
  `C70_gradient_leaves_model_alone` [A3], `C70_power_leaves_model_alone` [A1]
* **C71** AP-decorated calls do not deadlock — *proved*. Overlapping calls: C90.
  `C71_sequential_calls_distorted` [A0], `C71_no_deadlock` [A0], `C71_mutual_exclusion` [A0]
* **C72** derivative_k / derivative_mu of the multipole expansion are derivatives of power — *proved*. Over the reals; interpolation replaced by the interpolated function.
  `C72_power_is_the_expansion` [A1], `C72_derivative_k` [A3], `C72_derivative_mu` [A3], `C72_total_derivative` [A3], `C72_ap_of_the_sum` [A3], `C72_quasar_derivative_k` [A4], `C72_quasar_derivative_mu` [A4]
* **C73** Constraint parsing terminates with exact dependencies — *proved*. Every insertion order and graph; the text parsing of expressions is not modelled.
  `C73_terminates_with_exact_dependencies` [A0], `C73_children_are_direct_mentions` [A0]
* **C74** The gradient is taken at the requested parameters — *partial*. REFUTED: analytic rows are evaluated at the previous model state; with scalar k, mu only the first parameter's row is returned. Proved when the model is already at theta.
  `C74_if_model_is_at_theta_partial` [A2], `C74_stale_analytic_rows_refuted` [A2], `C74_scalar_call_refuted` [A2]
* **C75** The prior gradient is the derivative of the prior — *proved*. Default mode: C93.
  `C75_analytic_mode` [A4]
* **C76** Gradient of the objective is the derivative at the requested point — *proved*. numerical_from_lnlike: C92.
  `C76_analytic_gradient` [A4], `C76_out_of_bounds` [A4]
* **C77** Constrained chains belong to their samples — *partial*. Proved when the constrained values depend only on the assigned free values; refuted for parameter sets with stale (chained) constraints.
  `C77_constrained_values_belong_to_sample` [A0], `C77_stale_constraints_refuted` [A0]
* **C78** Parameter summaries reflect the current burn-in — *proved*. Peak, sums and reorderings: C91.
  `C78_burnin_excluded` [A0], `C78_summaries_current` [A0]
* **C79** Copies and unpickled cosmologies behave as the original — *proved*. copy and unpickled attributes proved; side note C79_unpickled_flat_refuted: item Ode0 of a flat cosmology comes back as 0.69
  `C79_copy_is_the_same` [A0], `C79_unpickled_attributes` [A0], `C79_unpickled_flat_refuted` [A0]
* **C80** clone changes exactly what is asked — *proved*. side note C80_flat_request_ignored_refuted: flat=True in clone is ignored
  `C80_clone_changes_what_is_asked` [A0], `C80_flat_request_ignored_refuted` [A0]
* **C81** Equality of cosmologies means agreement within tolerance — *proved*. side notes: == is neither symmetric nor transitive (refuted theorems)
  `C81_copy_is_equal` [A0], `C81_equal_means_close` [A0], `C81_not_symmetric_refuted` [A0], `C81_not_transitive_refuted` [A0]
* **C82** The parameters the engine uses cannot be changed through the dict interface — *proved*. side note C82_update_changes_items_refuted: dict.update/pop change items, and n_s/sigma8
  `C82_engine_parameters_fixed` [A0], `C82_item_assignment_refused` [A0], `C82_update_changes_items_refuted` [A0]
* **C83** Reads after a preserve block are fresh — *partial*. Proved if the block assigns only parameters that held a value; REFUTED otherwise.
  `C83_preserve_reads_fresh_partial` [A0], `C83_preserve_reads_fresh_refuted` [A0]
* **C84** Errors in a use_spt block are reported — *partial*. REFUTED: the bare except swallows the exception.
  `C84_use_spt_error_reported_refuted` [A0]
* **C85** Sub-sample methods return the components of the power — *partial*. Proved for N=0, REFUTED otherwise (the methods add N, their sum does not).
  `C85_subsample_components_partial` [A3], `C85_subsample_components_refuted` [A3]
* **C86** Reflected and product covariance operators — *partial*. REFUTED: s-C returns C-s, C*D raises AttributeError, s/C raises TypeError in Python 3.
  `C86_reflected_operations_refuted` [A0]
* **C87** usedata keeps multipole numbers with their measurements — *partial*. Proved for increasing selections; REFUTED otherwise and for negative numbers.
  `C87_ells_follow_when_increasing_partial` [A0], `C87_order_of_ells_refuted` [A0], `C87_negative_refuted` [A0]
* **C88** Reordering minimiser results keeps constrained values — *partial*. REFUTED: the names move, the values do not.
  `C88_lbfgs_constrained_swapped_refuted` [A0]
* **C89** A failing power evaluation leaves the model unchanged — *partial*. REFUTED: b1, b1_bar keep working values; nothing else changes (proved).
  `C89_crash_state_partial` [A1], `C89_crash_refuted` [A3]
* **C90** Overlapping AP calls are all distorted — *partial*. REFUTED: an overlapping call sees the lock taken and skips the distortion.
  `C90_concurrent_call_undistorted_refuted` [A0]
* **C91** Peak and combined results reflect the current burn-in — *partial*. REFUTED: the peak is never invalidated; sums and reorderings reset the burn-in of the parameters.
  `C91_peak_stale_refuted` [A0], `C91_burnin_forgotten_refuted` [A0]
* **C92** Finite-difference gradient of the objective — *partial*. Proved without priors; REFUTED with priors: prior derivative at the last difference point, parameters left there.
  `C92_finite_difference_partial` [A4], `C92_finite_difference_prior_refuted` [A4]
* **C93** The prior gradient in the default mode — *partial*. REFUTED: the derivative of the smoothed prior is returned.
  `C93_default_mode_refuted` [A4]
* **C94** When one chain stops every chain stops — *partial*. Proved for every interleaving: every other chain is sent the reason, a chain with a message stops at its next step, all stopped chains share the reason when all causes agree. REFUTED: a chain waiting in the Barrier blocks forever, two causes give two reasons.
  `C94_every_chain_is_told_partial` [A0], `C94_verdict_takes_effect_partial` [A0], `C94_stops_when_told_partial` [A0], `C94_same_reason_partial` [A0], `C94_all_chains_stop_partial` [A0], `C94_without_tests_nobody_waits_partial` [A0], `C94_waiting_chain_blocked_refuted` [A0], `C94_convergence_can_block_refuted` [A0], `C94_different_reasons_refuted` [A0]
* **C95** chi2 at parameters outside the bounds — *partial*. REFUTED: evaluates at the previous parameters.
  `C95_out_of_bounds_refuted` [A2], `C95_chi2_refuted` [A2]
* **C96** Parameter file lines belong to the section of their tag — *partial*. Proved when no listed tag is a proper suffix of the line tag; REFUTED in general (suffix tags, # in quotes, = in values, trailing continuation).
  `C96_attribution_partial` [A0], `C96_suffix_tag_refuted` [A0], `C96_quoted_characters_refuted` [A0]
* **C97** Concurrent fits never share an output file — *partial*. REFUTED: check and creation are two steps.
  `C97_concurrent_same_base_refuted` [A0]
* **C98** Analytic AP gradient of the galaxy power along the line of sight — *partial*. Proved without SO or N=0, REFUTED with SO and N<>0.
  `C98_alpha_par_partial` [A4], `C98_alpha_par_refuted` [A4]
* **C99** Analytic galaxy gradient: sub-sample fractions — *partial*. fcB: proved without SO or alpha_drag=1, else REFUTED. fsB: proved for fs in {0,1}, REFUTED for 0<fs<1. f_so: REFUTED for alpha_drag<>1 and for N<>0, proved otherwise.
  `C99_fcB_partial` [A4], `C99_fsB_partial` [A4], `C99_f_so_partial` [A4], `C99_fsB_refuted` [A4], `C99_fcB_refuted` [A4], `C99_f_so_refuted` [A4]
* **C100** Spectra are evaluated at the points of their labels — *proved*. 
  `C100_grid_of_values` [A1], `C100_pairs` [A1], `C100_scalars` [A0], `C100_flattened` [A1], `C100_meshgrid` [A1]
* **C101** Scalars and arrays can be mixed in the evaluation of a spectrum — *partial*. refuted: ValueError for one length 1 without flatten; 2-D input that is no meshgrid is mislabelled; what values it does hold is proved
  `C101_single_with_array_refuted` [A1], `C101_2d_labels_refuted` [A2], `C101_2d_labels_partial` [A1]
* **C102** Multipoles approximate the Legendre integrals with a fourth-order error — *proved*. exact reals; Simpson's rule on the uniform grid; the model spectrum is an arbitrary function
  `C102_multipole_close` [A4], `C102_cubic_exact` [A4], `C102_simpson_exact_for_quadratics` [A4], `C102_poles_close` [A4], `C102_agree` [A2]
* **C103** A multipole does not depend on how many wavenumbers are requested — *partial*. refuted for 41 wavenumbers and for one; proved for all other lengths
  `C103_depends_on_count_refuted` [A4], `C103_single_k_refuted` [A2], `C103_count_independent_partial` [A2]
* **C104** A cosmology has the parameters it was constructed with — *proved*. 
  `C104_constructed_as_asked` [A0], `C104_unknown_keyword_refused` [A0]
* **C105** Rescaled spectra equal freshly built ones — *proved*. The integrators, Bessel functions, FFTLog are arbitrary functions.
  `C105_rescaled_equals_fresh` [A4], `C105_linear_spectrum` [A4]
* **C106** A spectrum recovers from sigma8(z) = 0 — *partial*. Refuted: after 0 the stored integrals are NaN for ever. The claim for histories without 0 is C105.
  `C106_zero_is_forever_refuted` [A4]
* **C107** Pickling keeps a spectrum of the compiled library — *partial*. Proved for ZeldovichPS and for LinearPS with an explicit redshift; refuted for ZeldovichP00/P01/P11 (changes lost) and for LinearPS without redshift (IndexError).
  `C107_zeldovich_restored_partial` [A4], `C107_linear_restored_partial` [A2], `C107_changes_lost_refuted` [A4], `C107_linear_without_redshift_refuted` [A0]
* **C108** The Zel'dovich correlation function uses the current sigma8(z) — *proved*. 
  `C108_correlation_function_current` [A4], `C108_result_is_a_number` [A4]
* **C109** Momentum spectra are growth derivatives of the density spectrum — *proved*. FFTLog plus interpolation is assumed linear in the table (stated as a hypothesis).
  `C109_momentum_spectra_are_growth_derivatives` [A4]
* **C110** The low-k approximations satisfy the same growth relations — *partial*. The exact defects are proved; refuted for P11, where half of Q3 is missing (1.5 instead of 2).
  `C110_low_k_defects_partial` [A4], `C110_missing_mode_coupling_refuted` [A4]
* **C111** A cubic spline interpolates its table smoothly — *proved*. 
  `C111_cubic_spline` [A4]
* **C112** A cubic spline reproduces cubics — *proved*. 
  `C112_cubic_reproduces` [A4]
* **C113** A linear spline joins its points by straight lines — *proved*. 
  `C113_linear_spline` [A2]
* **C114** A shifted linear spline passes through equally spaced data — *proved*. 
  `C114_shifted_spline` [A2]
* **C115** Tables a spline cannot interpolate are refused — *partial*. memory safety and termination of the search proved for every table of two or more points, ordered or not; refuted: one-point linear tables abort on evaluation, unordered and unequally spaced (shifted) tables are accepted and miss their points
  `C115_search_safe_partial` [A2], `C115_bad_tables_refuted` [A2]
* **C116** Spline handles never dangle and never leak — *proved*. 
  `C116_handles_safe` [A0], `C116_copy_assign_destroy` [A0]
* **C117** Adaptive integration ends and returns a sum over a partition of the range — *proved*. reals for doubles; 1-D Gauss-Kronrod routine only
  `C117_adaptive` [A4], `C117_orientation` [A4], `C117_inside` [A4], `C117_rule_exact` [A4]
* **C118** The error estimate of an integral bounds its error when the estimates of the pieces do — *proved*. 
  `C118_error_bound` [A4]
* **C119** An integral that misses its accuracy is reported — *partial*. refuted: error code 4 is unreachable, the limit on subintervals is reached silently (witness with the library limit and the default tolerances); positive part: codes 1 and 3 are reported, nothing else ever is
  `C119_limit_silent_refuted` [A4], `C119_warnings_partial` [A4]
* **C120** Integrating with a substitution integrates the same integral — *proved*. 
  `C120_substitution` [A4], `C120_inside` [A4]
* **C121** An integral does not depend on earlier integrals — *proved*. 
  `C121_no_memory` [A4]
* **C122** Concurrent integrations do not disturb each other — *partial*. exclusive workspaces, results, progress and finiteness proved with taking and returning as atomic steps; refuted: the return is outside the critical section and a data race on the map is reachable
  `C122_exclusive_partial` [A4], `C122_results_partial` [A4], `C122_progress_partial` [A4], `C122_finite_partial` [A4], `C122_unprotected_release_refuted` [A4]
* **C123** Tabulated functions are integrated by Simpson's rule — *proved*. real arithmetic
  `C123_safe` [A2], `C123_parabola` [A4], `C123_line` [A4], `C123_linear` [A2], `C123_agrees_with_scipy_rule` [A2]
* **C124** Short tables are integrated — *partial*. refuted: one or two points abort SimpsIntegrate (sizes differ: a slice of an empty range has one element), no points overruns TrapzIntegrate; the trapezoidal rule is right for one and two points
  `C124_simps_short_refuted` [A2], `C124_trapz_short_partial` [A2]
* **C125** The trapezoidal rule integrates the polygon through the points — *proved*. 
  `C125_polygon` [A4], `C125_linear` [A2], `C125_error` [A4]
* **C126** Grids have the requested end points and constant spacing — *proved*. 
  `C126_linspace` [A2], `C126_logspace` [A4], `C126_refused` [A4]
* **C127** Kaiser multipoles are the multipoles of the Kaiser spectrum — *proved*. for biases other than 0 (the code divides by b1)
  `C127_kaiser_multipoles` [A4]
* **C128** Kaiser's P(k, mu), pickles and correlation function agree with its parameters — *partial*. refuted: P_s ignores b1, pickles keep the constructor arguments, Xi_ell with default limits aborts; proved for unit bias, unchanged objects, positive limits
  `C128_bias_ignored_refuted` [A4], `C128_unit_bias_partial` [A4], `C128_pickle_loses_refuted` [A2], `C128_pickle_unchanged_partial` [A1], `C128_default_limits_refuted` [A4], `C128_given_limits_partial` [A4]
* **C129** FFTLog output is interpolated between neighbouring mesh points — *proved*. 
  `C129_mesh_interpolation` [A2]
* **C130** A wavenumber outside the FFTLog mesh is handled — *partial*. refuted: reads one element before or after the tables
  `C130_outside_mesh_refuted` [A2]
* **C131** The windows used for sigma(R) and sigma8 are the top-hat window — *proved*. C131_wrong_coefficient: the series of PowerSpectrum.cpp has 1/30 instead of 1/10
  `C131_windows` [A4], `C131_wrong_coefficient` [A4]
* **C132** The linear spectrum has the variance sigma8(z) says — *proved*. any history of public operations (made); integrator any homogeneous functional, Boltzmann code arbitrary; doubles are reals; raw NormalizeTransferFunction calls excluded
  `C132_linear_normalised` [A4], `C132_set_sigma8` [A4], `C132_linear_stable` [A4]
* **C133** A pickled or cloned compiled Cosmology is like the original — *proved*. plain histories; parameters printable and with the two from_dict defaults (otherwise see C135)
  `C133_pickle` [A4]
* **C134** Changing the transfer function or updating parameters is like constructing afresh — *proved*. plain histories; FromArrays excluded
  `C134_set_transfer` [A4], `C134_update` [A4], `C134_same_fit` [A4], `C134_copy` [A4], `C134_clone` [A4]
* **C135** Updates, copies and clones of a compiled Cosmology keep what the user set — *partial*. refuted: update() under EH/BBKS leaves every computed quantity stale; copy, SetTransferFunction, update and clone(tf) reset sigma8; pickling adds defaults; from_file calls a missing constructor. Positive parts: C133, C134
  `C135_update_stale_refuted` [A4], `C135_sigma8_reset_refuted` [A4], `C135_others_refuted` [A4]
* **C136** Cosmology.from_power uses the spectrum it is given — *partial*. refuted: from_power ignores the given spectrum for all inputs, and the object cannot be unpickled
  `C136_from_power_refuted` [A4]
* **C137** The CLASS transfer function interpolates the Boltzmann results and continues them — *proved*. doubles are reals; cubic spline of C111
  `C137_class_transfer` [A4]
* **C138** The no-wiggle and BBKS fits lie in (0, 1] — *proved*. the full Eisenstein-Hu fit is not modelled
  `C138_no_wiggle` [A4], `C138_bbks` [A4]
* **C139** The analysis of a folder of chains uses exactly the samples it should — *proved*. several files, one file, nothing left, existence of the best iteration
  `C139_several_files` [A2], `C139_used_samples` [A2], `C139_kept_results` [A2], `C139_single_file` [A2], `C139_best_is_used` [A2], `C139_nothing_left` [A2], `C139_best_exists` [A2]
* **C140** Discarded samples never enter the statistics and every option of the analysis works — *partial*. refuted: one surviving file of several keeps every sample in the combined statistics; thinning always fails; file list ignored; folders without constrained parameters fail
  `C140_one_survivor_keeps_burnin_refuted` [A2], `C140_discarded_samples_remain_refuted` [A2], `C140_no_constrained_refuted` [A2], `C140_files_ignored_refuted` [A0], `C140_thinning_fails_refuted` [A0]
* **C141** The error rescaling for a covariance from mocks is a proper factor — *proved*. positivity, defining ratio, when errors widen, limit
  `C141_positive` [A3], `C141_widens_iff` [A3], `C141_many_mocks` [A3]
* **C142** The cross spectrum does not depend on which tracer is called first — *proved*. proved for all inputs of the model
  `C142_cross_spectrum_is_symmetric_in_the_two_tracers` [A3]
* **C143** Mean bias and halo spectra are auto spectra — *proved*. proved for all inputs of the model
  `C143_mean_bias_is_the_auto_spectrum_of_the_geometric_mean_bias` [A3], `C143_halo_auto_spectrum_is_the_cross_spectrum_at_equal_biases` [A3], `C143_mean_bias_discards_the_separate_biases` [A3]
* **C144** Unbiased tracers cluster like matter up to mu^2 — *proved*. proved for all inputs of the model
  `C144_unit_bias_tracers_have_the_matter_mu0_and_mu2` [A3], `C144_unit_bias_mu4_differs_from_matter_by_two_known_terms` [A3]
* **C145** Unbiased tracers cluster like matter at mu^4 and mu^6 — *partial*. refuted: a concrete model with unit-bias P_mu4 and P_mu6 different from matter; the exact P_mu4 difference is proved in C144
  `C145_unit_bias_mu4_and_mu6_are_not_the_matter_ones_refuted` [A3]
* **C146** The redshift-space power tends to Kaiser's formula — *proved*. proved for all inputs of the model
  `C146_biased_power_tends_to_the_kaiser_spectrum` [A3], `C146_matter_power_tends_to_the_kaiser_spectrum` [A3]
* **C147** One-loop matter terms are linear plus quadratic in the linear spectrum — *proved*. proved for all inputs of the model
  `C147_one_loop_matter_terms_are_linear_plus_quadratic` [A3]
* **C148** The matter power can be computed up to mu^6 — *partial*. refuted at one loop with max_mu = 6 (AttributeError in P13.mu6); proved for the other cases
  `C148_matter_power_to_mu6_raises_at_one_loop_refuted` [A3], `C148_matter_power_to_mu4_and_at_two_loops_is_defined_partial` [A3]
* **C149** The nonlinear bias functions are those the table names — *proved*. proved for all inputs of the model
  `C149_bias_functions_of_a_new_model_are_the_documented_ones` [A2], `C149_bias_functions_follow_every_session` [A2], `C149_vlah_biasing_uses_one_function_of_each_kind` [A2], `C149_without_vlah_biasing_each_name_has_its_own_fit` [A2], `C149_tables_without_maps_are_self_contained` [A1]
* **C150** Every documented choice of nonlinear bias functions works — *partial*. refuted in five ways; named keywords proved to take effect
  `C150_the_group_keywords_always_raise_refuted` [A0], `C150_a_changed_coefficient_may_not_take_effect_refuted` [A2], `C150_cyclic_tables_exhaust_the_recursion_limit_refuted` [A1], `C150_an_unknown_type_is_accepted_and_fails_later_refuted` [A1], `C150_the_recorded_defaults_are_those_of_the_last_name_refuted` [A0], `C150_named_keywords_take_effect_partial` [A0], `C150_several_named_keywords_partial` [A0]
* **C151** Initial walkers drawn from the priors are redrawn until allowed — *proved*. All priors, draws and numbers of walkers; each walker is characterised as its first allowed draw.
  `C151_each_walker_is_its_first_allowed_draw_of_at_most_102` [A4], `C151_walkers_found_in_time_have_finite_prior` [A4]
* **C152** No chain starts outside the prior — *partial*. Refuted: a walker outside the prior can be returned, a valid one can be counted as impossible, multivariate/posterior initialisation never works.
  `C152_a_walker_outside_the_prior_can_be_returned_refuted` [A4], `C152_the_warning_counts_a_valid_walker_as_impossible_refuted` [A4], `C152_multivariate_and_posterior_initialisation_never_work_refuted` [A4]
* **C153** The halo mass assigned to a bias has that bias — *proved*. brentq enters through its contract with an arbitrary tolerance; the contract is shown to be satisfiable.
  `C153_the_returned_mass_has_the_requested_bias` [A4], `C153_mass_from_bias_has_the_requested_bias` [A4], `C153_bias_increases_with_peak_height` [A4], `C153_one_mass_per_bias_increasing` [A4], `C153_the_mass_is_unique` [A4]
* **C154** The velocity dispersion assigned to a bias is positive and increasing — *proved*. Monotonicity stated for exact root finding.
  `C154_dispersion_of_the_mass` [A4], `C154_dispersion_positive_and_increasing` [A4]
* **C155** The mass table agrees with the direct solution — *proved*. The spline of Sigma enters as an arbitrary function; the session theorem has no hypotheses.
  `C155_exact_at_the_nodes` [A4], `C155_between_the_surrounding_nodes` [A4], `C155_outside_the_table_solved_directly` [A4], `C155_dispersions_follow_the_redshift` [A4], `C155_dispersions_are_the_relations_or_at_the_nearest_end` [A4]
* **C156** Masses and dispersions are those of the halo definition and cosmology in force — *partial*. Refuted: overdensity ignored, table and relation stale after a change of cosmology, NameError for dense cosmologies, dispersion 0 on failure.
  `C156_the_table_ignores_the_overdensity_refuted` [A4], `C156_the_table_survives_a_new_cosmology_refuted` [A4], `C156_interpolation_fails_for_dense_cosmologies_refuted` [A4], `C156_dispersions_ignore_a_new_cosmology_refuted` [A4], `C156_zero_dispersion_on_failure_refuted` [A4]
* **C157** The second-order integrals use the standard perturbation theory kernels — *proved*. for every input of the model (exact arithmetic, exact integrals)
  `C157_second_order_kernels_are_the_standard_ones` [A3], `C157_every_pair_of_wavevectors_is_in_the_rectangle` [A3], `C157_every_point_of_the_rectangle_is_a_pair_of_wavevectors` [A3]
* **C158** The anisotropic second-order kernels are averages over the azimuth — *proved*. for every input of the model (exact arithmetic, exact integrals)
  `C158_anisotropic_kernels_are_azimuthal_averages` [A4], `C158_mixed_kernels_are_products` [A3]
* **C159** The second-order integrals run over all wavevectors — *proved*. for every input of the model (exact arithmetic, exact integrals)
  `C159_each_integral_is_over_all_wavevectors` [A4], `C159_mixed_integrals_are_over_all_wavevectors` [A4], `C159_integrals_are_quadratic_in_the_spectrum` [A4], `C159_integrals_vanish_at_nonpositive_k` [A4], `C159_squares_give_nonnegative_integrals` [A4], `C159_cross_integral_is_bounded_by_the_autos` [A4], `C159_anisotropic_integrals_are_over_all_wavevectors` [A4], `C159_quartic_integrals_are_over_all_wavevectors` [A4], `C159_odd_anisotropic_integrals_are_over_all_wavevectors` [A4]
* **C160** Indices outside the tables of second-order integrals are rejected — *partial*. refuted: indices are collapsed to one integer before the table lookup; the exact set of answered pairs is proved
  `C160_i_indices_are_collapsed` [A4], `C160_k_second_index_two_without_tide_is_the_tidal_integral` [A4], `C160_indices_outside_the_table_are_rejected_refuted` [A4], `C160_answered_indices_partial` [A4]
* **C161** The third-order integrals use the standard perturbation theory kernels averaged over directions — *proved*. for every input of the model (exact arithmetic, exact integrals)
  `C161_near_kernels_are_the_averages` [A4], `C161_far_kernels_are_close_to_the_averages` [A4], `C161_the_two_forms_meet` [A4], `C161_long_modes` [A4]
* **C162** The third-order integrals run over all momenta and are linear in the spectrum — *proved*. for every input of the model (exact arithmetic, exact integrals)
  `C162_each_integral_is_over_all_momenta` [A4], `C162_integrals_are_linear_in_the_spectrum` [A4], `C162_integrals_vanish_at_nonpositive_k` [A4], `C162_cross_is_the_mean` [A4]
* **C163** The large-momentum form of the third-order kernels is the expansion of the exact form, and indices are checked — *partial*. refuted for five of the six kernels (wrong from r^-6 on) and for the indices; g10 is proved right
  `C163_far_series_is_wrong_from_the_sixth_order_on_refuted` [A4], `C163_far_series_of_g10_is_right_partial` [A4], `C163_j_indices_are_collapsed_refuted` [A4]
* **C164** The one-loop spectra are P22 + P13 on a fixed grid and survive pickling — *proved*. all linear spectra; exact integrals and arithmetic, cubic splines as modelled
  `C164_one_loop_spectra` [A4], `C164_bar_is_the_sky_average` [A4], `C164_pickling_keeps_the_spectrum` [A4], `C164_tables_of_the_user` [A4], `C164_kurtosis_is_the_moment` [A4]
* **C165** One-loop and two-loop quantities rescaled to another sigma8 are those computed afresh — *proved*. all spectra, ratios, index pairs; values at the nodes of the interpolation tables
  `C165_rescaled_kurtosis_is_the_fresh_one` [A4], `C165_rescaled_spectra_are_the_fresh_ones` [A4], `C165_rescaled_two_loop_integrals_are_the_fresh_ones` [A4]
* **C166** The linear, cross and one-loop pieces of the two-loop integrals add up to the full integral — *proved*. convergence of the four pieces is a hypothesis, shown to be met
  `C166_two_loop_vvdd` [A4], `C166_two_loop_dvdv` [A4], `C166_two_loop_vvvv` [A4], `C166_order_does_not_matter` [A4]
* **C167** Every two-loop integral is the one its indices name — *partial*. refuted: (3,2) uses the (2,3) kernel in two of three pieces, indices alias; the cross piece is right
  `C167_cross_piece_partial` [A4], `C167_other_pieces_partial` [A4], `C167_two_loop_sum_refuted` [A4], `C167_indices_alias_refuted` [A4], `C167_base_class_ignores_its_table_refuted` [A2]
* **C168** HZPT spectra depend only on the last parameters — *proved*. real arithmetic; numerical kernels arbitrary
  `C168_history_independent` [A4], `C168_without_interpolation` [A4], `C168_outside_is_direct` [A4], `C168_exact_at_tabulated_values` [A4], `C168_between_tabulated_values` [A4], `C168_jennings_restores` [A4], `C168_jennings_value` [A4], `C168_broadbands` [A4]
* **C169** The HZPT correlation-function broadband is the Fourier transform of the power-spectrum broadband — *proved*. complete for the stated parameter range
  `C169_broadband_is_fourier_transform` [A4], `C169_default_matter_correlation` [A4]
* **C170** A rejected or zero sigma8_z does not damage the HZPT container — *partial*. refuted: a zero sigma8_z is accepted before the first evaluation and removes the Zeldovich term for good; afterwards it raises but is kept
  `C170_zero_removes_the_zeldovich_term_refuted` [A4], `C170_poisoned_differs_from_fresh_refuted` [A4], `C170_rejected_value_is_kept_refuted` [A4]
* **C171** The default theory's constraint expressions are exact for every halo sample — *proved*. the expressions equal counting over the sample
  `C171_central_fraction` [A2], `C171_total_bias` [A2], `C171_type_B_central_bias` [A2], `C171_one_halo_amplitudes` [A2], `C171_constraints_together` [A2], `C171_ranges` [A2]
* **C172** alpha, epsilon and F_AP are a lossless change of variables of alpha_perp and alpha_par — *proved*. identities and injectivity
  `C172_change_of_variables` [A4], `C172_invertible` [A4]
* **C173** Extrapolated spectra are the model inside its range and continue it without a jump — *proved*. fits are arbitrary functions of the table
  `C173_inside_is_the_model` [A4], `C173_continuous_at_the_joins` [A4], `C173_power_laws` [A4], `C173_constructor_limits` [A2], `C173_fits_never_stale` [A4]
* **C174** The extrapolator's documented defaults, method name, limits and dependence on the model are honoured — *partial*. refuted: each of the four clauses fails
  `C174_defaults_rejected_refuted` [A2], `C174_method_name_ignored_refuted` [A4], `C174_slopes_stale_refuted` [A4], `C174_limits_lost_refuted` [A2]
* **C175** FFTLog transforms that are documented as self-inverse, or as each other's inverse, are exact inverses on the grid — *proved*. loggamma only assumed to satisfy Schwarz reflection
  `C175_hankel_self_inverse` [A4], `C175_spherical_bessel_self_inverse` [A4], `C175_fourier_self_inverse` [A4], `C175_xi2P_undoes_P2xi` [A4]
* **C176** FFTLog is exact on logarithmic harmonics and linear in the samples — *proved*. N free; kernel Mellin transform convergence is a hypothesis met by a concrete kernel
  `C176_exact_on_log_harmonics` [A4], `C176_P2xi_exact` [A4], `C176_linear` [A4]
* **C177** FFTLog conserves the weighted sum of squares (discrete Plancherel) — *proved*. 
  `C177_plancherel` [A4]
* **C178** P2xi followed by xi2P returns the input with the default FFT length — *partial*. refuted: a concrete input is not returned
  `C178_default_length_not_invertible_refuted` [A4]
* **C179** A window that does nothing leaves the multipoles unchanged — *proved*. even multipoles
  `C179_padding_continues_the_grid` [A4], `C179_unit_window_identity` [A4]
* **C180** The window transfer of one multipole does not depend on which other multipoles are requested — *partial*. refuted for every log Gamma with reflection and recurrence: the column returned is a constant != 1 times the right one
  `C180_unit_window_not_identity_refuted` [A4]
* **C181** Compiled FFTLog: pk_to_xi and xi_to_pk are exact inverses — *proved*. exact inverse on every log grid
  `C181_fftlog_pair_inverse` [A4]
* **C182** Compiled FFTLog: exact on log-periodic spectra — *proved*. exact on log-periodic spectra, any bias
  `C182_exact_on_log_periodic` [A4]
* **C183** Compiled FFTLog: behaviour with the default smoothing and outside the range — *partial*. refuted: any positive smoothing strictly shrinks sum k^3 P^2 in the round trip; separations outside the dual range silently give 0 (C183_outside_range_zero)
  `C183_outside_range_zero` [A4], `C183_smoothing_always_shrinks_refuted` [A4]
* **C184** A best-fit table saved with to_info is restored by from_info — *proved*. info files restore complete tables and storable metadata
  `C184_info_round_trip` [A0], `C184_new_file_round_trip` [A0]
* **C185** Every best-fit table and metadatum survives to_info / from_info — *partial*. refuted: from_nlopt tables, second save without metadata, False/multi-word/None metadata
  `C185_nlopt_not_restored_refuted` [A0], `C185_second_save_appends_refuted` [A0], `C185_metadata_changed_refuted` [A0]
* **C186** Error columns of a best-fit table — *partial*. one-sigma columns and scaling proved; two-sigma columns refuted
  `C186_columns_partial` [A2], `C186_two_sigma_columns_refuted` [A2]
* **C187** Metadata follow selections of a best-fit table — *proved*. any sequence of add_metadata and selections
  `C187_metadata_follow_selections` [A0]
* **C188** Adding metadata to a selection leaves the original table usable — *partial*. refuted: shared list of names
  `C188_selection_breaks_original_refuted` [A0]
* **C189** Restarting chains never loses earlier results — *proved*. all schedules and crash points, distinct labels
  `C189_restarts_never_lose_results` [A0]
* **C190** Restarts with equal labels do not overwrite each other — *partial*. refuted: race between listing and creating
  `C190_same_label_loses_results_refuted` [A0]
* **C191** A run that produced results has saved them when it ends — *proved*. termination, saved results, exact effect of one restart
  `C191_every_run_ends` [A0], `C191_results_saved` [A0], `C191_restart_replaces` [A0]
* **C192** Failed and interrupted runs are reported and leave the folder consistent — *partial*. refuted: duplicated iterations, exit status 0, lost log
  `C192_interrupted_restart_duplicates_refuted` [A0], `C192_failure_not_reported_refuted` [A0]
* **C193** Starting a fit from an earlier result — *proved*. largest score; values by name
  `C193_best_file_found` [A2], `C193_start_values_by_name` [A2]
* **C194** Starting from a folder of results works — *partial*. refuted: found file unused, unreadable files, NaN start
  `C194_found_file_not_used_refuted` [A2], `C194_crash_blocks_search_refuted` [A2], `C194_missing_parameter_nan_refuted` [A2]
* **C195** A parameter file that a run writes is read back — *proved*. for all parameter sets whose values are literal texts or $ texts that refer to the environment; Python eval and repr are oracles
  `C195_round_trip` [A0]
* **C196** A parameter has the value on its line — *partial*. proved: values and parameter specifications of tagged lines without '$'. Refuted: an empty dict is taken for a specification and reads as None
  `C196_value_partial` [A0], `C196_specification_partial` [A0], `C196_empty_dict_refuted` [A0]
* **C197** The folder of a run can be loaded again — *partial*. refuted: an untagged definition, and the order of the written lines; the positive part is C195
  `C197_untagged_reference_refuted` [A0], `C197_order_refuted` [A0]
* **C198** What a command line selects — *proved*. 
  `C198_selection` [A0], `C198_accepted_iff` [A0]
* **C199** A folder keeps its parameters and its model — *proved*. 
  `C199_folder_keeps` [A0]
* **C200** A model that was initialised is used again — *partial*. proved: a folder created by one run (model saved, neither file given explicitly elsewhere) is used by every later run that names no model: the saved model is loaded. Refuted: in a folder that already had a parameter file but no model the model is built anew at every run; and from_directory ignores the saved model
  `C200_new_folder_partial` [A0], `C200_never_saved_refuted` [A0], `C200_from_directory_refuted` [A0]
* **C201** A bad command line ends every process — *partial*. proved: with an accepted command line, or one process, no process can wait for ever and all end in the same way, under every schedule. Refuted: with several processes and a rejected command line all but the first wait for ever
  `C201_all_end_partial` [A0], `C201_wait_forever_refuted` [A0]
* **C202** All processes of a run have the same parameters — *partial*. proved: for a parameter file that the run does not write, or one process, under every schedule. Refuted: in a folder used again the first process rewrites the file the others still have to read
  `C202_same_partial` [A0], `C202_race_refuted` [A0]
* **C203** The contour of a fraction encloses that fraction — *partial*. proved: the level drawn is at most one cell step too high. Refuted: with distinct counts the contour encloses less than the fraction; if one cell reaches the fraction, everything
  `C203_one_step_partial` [A0], `C203_encloses_refuted` [A0], `C203_one_cell_refuted` [A0]
* **C204** The levels of the contours increase — *partial*. proved: increasing when counts differ, no two cells hold the smaller fraction and no cell the difference; never decreasing when no cell holds the smaller fraction. Refuted: not increasing when two cells hold it
  `C204_increasing_partial` [A0], `C204_ordered_partial` [A0], `C204_two_cells_refuted` [A0]
* **C205** A cached 2D histogram has the axes that were asked for — *partial*. proved if the pair was not asked for in the other order before. Refuted: otherwise the transposed histogram comes back
  `C205_same_order_partial` [A0], `C205_other_order_refuted` [A0]
* **C206** What a line says about a theory parameter holds — *partial*. proved for parameters whose default has no expression, and for lines with an expression. Refuted: a line without expr cannot free or fix a parameter constrained by default
  `C206_line_holds_partial` [A0], `C206_expression_partial` [A0], `C206_default_expression_refuted` [A0]
* **C207** What a line leaves out keeps its default — *partial*. proved for the attributes other than vary, and for the value if it satisfies the bounds. Refuted: a line without vary fixes a free default; a lower bound moves the default value onto it
  `C207_left_out_partial` [A0], `C207_no_line_partial` [A0], `C207_vary_refuted` [A0], `C207_value_refuted` [A0]
* **C208** A parameter counts as constrained exactly if it depends on a free parameter — *proved*. for chains of expressions of any length
  `C208_constrained` [A0], `C208_unknown_name` [A0]
* **C209** Several conditions on an axis select exactly the elements all of them name — *partial*. proved for non-negative positions, masks and slices; an empty intersection is refused. Refuted: positions from the end, the order, a scalar first condition
  `C209_intersection_partial` [A0], `C209_from_the_end_refuted` [A0], `C209_order_refuted` [A0], `C209_scalar_refuted` [A0]
* **C210** nearest returns the nearest coordinate and its position — *partial*. proved for axes without repeated coordinates. Refuted: with repeated coordinates the position is one among the different coordinates
  `C210_nearest_partial` [A0], `C210_repeated_refuted` [A0]
* **C211** The fiducial value of a constrained parameter is its expression at the fiducial values — *partial*. Proved for parameters all of whose dependencies have fiducial values, whatever the depth of the chains. Refuted: one that depends on a parameter without fiducial value gets one whenever its expression is finite at infinity.
  `C211_fiducials_partial` [A0], `C211_missing_refuted` [A0], `C211_default_theories` [A0]
* **C212** Computing the fiducial values does not change the values — *proved*. For all parameter sets that prepare_params accepts.
  `C212_values_kept` [A0]
* **C213** A scattered start of a minimisation is the first allowed one of the draws around the initial values — *partial*. Proved for initial values that are not negative. Refuted: a negative initial value raises ValueError; zero is never scattered.
  `C213_first_allowed_partial` [A2], `C213_negative_refuted` [A2], `C213_zero_refuted` [A2]
* **C214** The error intervals enclose the median and each other — *proved*. numpy percentiles are modelled (linear interpolation of the sorted samples), over real numbers.
  `C214_nested` [A2], `C214_median_in_the_middle` [A2]
* **C215** The summaries of a chain depend only on its set of samples and follow its units — *proved*. For all chains; over real numbers.
  `C215_order_independent` [A2], `C215_change_of_unit` [A2], `C215_change_of_sign` [A2], `C215_rescaling` [A2]
* **C216** Results of a chain written to a file and read back are the same — *partial*. Proved for everything but the fiducial values and the error rescaling, for a numpy that unpickles by default. Refuted: those are lost; with a newer numpy no file can be read.
  `C216_results_kept_partial` [A0], `C216_fiducial_lost_refuted` [A0], `C216_pickle_refuted` [A0]
* **C217** The derivative of a constraint is the total derivative, whatever the order of the updates — *proved*. autograd.grad is an oracle that returns the partial derivative of the function it is given where it succeeds (contract met by an explicit oracle). Free parameters are those that vary and have no expression; expressions are arbitrary functions of the named parameters.
  `C217_total_derivative` [A2], `C217_unique` [A3]
* **C218** The derivative of a constraint leaves the parameters as they were — *partial*. Proved for free (brought within bounds) and fixed parameters; refuted for constrained parameters in a chain of three.
  `C218_free_and_fixed_kept_partial` [A0], `C218_constrained_stale_refuted` [A0]
* **C219** The velocity dispersion assigned to a bias is in Mpc/h — *partial*. Refuted unless h = 1: the value is in Mpc. H0 and H_z are in km/s/Mpc as in ClassEngine.h.
  `C219_in_Mpc_refuted` [A4]
* **C220** Derivatives between parameters are refused exactly when they are not defined — *proved*. autograd.grad is the oracle of C217; a zero derivative to be inverted is excluded by the existence of a differentiable inverse relation.
  `C220_refused_exactly` [A0], `C220_constrained_by_free` [A2], `C220_free_by_constrained` [A3]
* **C221** Marginalised errors come from the inverse Fisher matrix of the parameters that are not fixed — *proved*. numpy.linalg.inv is an oracle; the Fisher matrix is given. Requested constrained parameters (columns from constraint_derivative, C217, C220) are in the model but not in the theorem.
  `C221_free_parameters` [A3], `C221_fixed_must_be_free` [A3]
