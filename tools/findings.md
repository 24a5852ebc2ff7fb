* **Theory.** `gal_defaults.py` `sigma_sB` builds `expr` but never returns it. Analytic gradient rows are evaluated at the state at entry; a scalar call returns the first row only. `HaloZeldovichP11.__init__` is broken. `transfers.WedgeTransfer` is not exported, so `calculate_transfer` in smooth P(k,mu) mode raises. Smooth `WedgeTransfer` is silently NaN for empty wedges, unequal wavenumbers give NaN or a wrong length; the `mu_bounds` setter mutates the caller's list. `WindowConvolution` matches columns by position; multipoles beyond the largest ell' convolve to 0. `RegularGridInterpolator` accepts single-point axes and returns NaN. `broadcast_kmu` raises for scalar k with array mu unless flattened, and mislabels 2-D inputs. The multipole decorators use the even-point Simpson rule with 41 wavenumbers and raise with one. `ZeldovichPS` with sigma8 = 0 gives NaN for good.
* **Caches.** `del` of a parameter leaves dependents cached; array assignments within `allclose` are dropped; nine classes have undeclared dependencies; the call cache's key has neither object nor keywords; `lru_cache` with negative maxsize fails on the first call, 1 and 1.0 share entries, counters for maxsize 0/None are not locked; `preserve` restores nothing after an exception.
* **Parameters.** `prepare_params` never adds indirect dependents (stale chained constraints); central differences are clipped near bounds; analytic-mode priors are finite everywhere; the default `dlnprior` is the derivative of a smoothed prior; `Normal.deriv_pdf` has an undefined `domain`; `Uniform.cdf` uses the normal distribution; `Parameter` loses its `analytic` flag when a bound changes; `from_file` matches tags by suffix, cuts at `#` inside quotes, splits at every `=`, drops a trailing continuation line.
* **Data.** `s - C` gives `C - s`, `C * D` and `s / C` raise; selecting or trimming resets `inverse_rescaling`; widening k limits misaligns the covariance; `trim_k` fails when a block becomes empty, after the measurements were already cut; `set_errors_from_cov` is wrong for unequal sizes; `usedata` permutes the multipole numbers but not the measurements; `PkmuCovarianceMatrix.__init__` uses an undefined name; `to_plaintext` drops `inverse_rescaling`.
* **Driver and solvers.** Analytic Fisher path always raises; `marginalized_errors` takes elementwise square roots; `minus_lnlike` out of bounds includes the prior even with `use_priors=False`; `chi2(theta)` out of bounds evaluates at the old parameters; the numerical gradient adds the prior's derivative at the last displaced point and leaves the parameters there; `null_lnlike` is cached for ever; L-BFGS does one iteration for `max_iter <= 0`, divides by zero from a stationary start, stops at once after a restart with `test_convergence`; emcee chains waiting in a barrier block for ever when another stops; `niter/2` as a slice bound; `split_ranks` with more runs than ranks raises; `create_output_file` has a race; `multivariate_init` always fails.
* **Results and analysis.** `np.nonzero` drops exact zeros of chains; adding results without constrained parameters raises; reordering resets burn-in per parameter; `__add__` reorders its right operand in place; the cached peak is not invalidated; `LBFGSResults.verify_param_ordering` does not permute constrained values; `gelman_rubin` uses the length of the first chain only; `thin_chains` always raises; `remove_burnin` with one surviving file keeps the untrimmed statistics; `recover_folder_and_files` ignores the list of files; text-mode pickles fail in Python 3.
* **Cosmology (Python).** An unpickled flat cosmology has item Ode0 = 0.69; `==` is neither symmetric nor transitive; `dict.update`/`pop` are not blocked; `clone(flat=...)` is ignored; `from_astropy` with extra keys raises TypeError.
* **Compiled library.** ZeldovichP00/P01/P11/CF, Kaiser, CorrelationFunction pickles lose later changes; LinearPS without z cannot be unpickled; ZeldovichP11's low-k Q3 coefficient is 1.5 instead of 2, low-k P00 keeps a k^4 sigma^4/2 term the others drop; a one-point linear spline aborts, unordered tables are accepted; `ShiftedLinearSpline::clone` passes the wrong length; quadrature error code 4 is unreachable and refused tolerances return 0 with the error untouched; `release_gk_workspace` is unprotected; `parray::slice` of an empty range returns an element; `SimpsIntegrate` with two points aborts; `Kaiser::P_s` ignores b1; `Xi_ell` with the default kmin aborts; `nearest_interp_1d` reads outside its tables; `W`'s small-x coefficient is 1/30 instead of 1/10; `Cosmology.from_power` ignores its input; `update()` with an analytic fit never reruns CLASS; copying or changing the transfer function resets sigma8; `from_file` calls a constructor that does not exist; `ClassParams.from_dict`/`from_astropy` mutate the caller's dict.
* **Power expansion and biasing.** `P13.mu6` at one loop reads `self.normed_power_lin` (AttributeError), so matter with `max_mu=6, include_2loop=False` cannot be evaluated; `P_mu4` of unit-bias tracers lacks `(fk)^4 Plin J02^2` and uses `Pdd` for `P00`; `P_mu6` of tracers omits P13 and P04; `update_nonlinear_biasing(b2_00=..)` and `(b2_01=..)` always raise; unknown bias types are accepted and fail on reading; cyclic tables recurse without end; a bias function mapped to a polynomial does not see later changes of its coefficients; `nonlinear_bias_defaults` keeps the last name only.
* **Walker initialisation.** After 101 redraws an ensemble walker outside the prior is kept (the chain then starts at probability zero); a walker whose 101st redraw is valid is counted as impossible; `multivariate_init` never draws jointly (priors are never traces) and would fail as `scipy` is not imported there; `has_posterior` does not exist, so starting from a posterior raises AttributeError; `driver.py:558` tests `has_fiducial is not None`, which is always true, so a NaN initial value is possible; walkers in the ball around a best fit are never checked against the bounds.
* **Bias to mass.** The interpolation table uses overdensity 200 whatever `delta_halo`, and has no declared parents, so it survives a change of cosmology; if a node cannot be solved (or the smallest radius, below 1e-3 Mpc/h for Omega_m above 0.86, leaves the spline) the handler prints the undefined name `s8` and every interpolated query raises NameError; the model's cached `bias_to_sigma_relation` follows `z` but not `params`, `transfer_fit` or `interpolate`; `sigmav_from_bias` turns any failure for a bias in [0.9, 8] into a dispersion of exactly 0.
* **Perturbation theory integrals.** `Imn(k, 0, 4)` is `Imn(k, 1, 0)`, `Kmn(k, m, 2)` without tide is the tidal `Kmn(k, m, 0)`, `Jmn(k, 0, 3)` is `Jmn(k, 1, 0)`: indices are collapsed before they are checked. The series of five of the six Jmn kernels used above q/k = 60 (all but g10) have wrong coefficients from r^-6 on (the logarithm was truncated before it was multiplied out); the error is at most 1/(100 r^6), harmless at r = 60. For k > 2e5 the upper limit of the second-order integrals is below the lower one.
* **Two-loop integrals.** `ImnOneLoop::EvaluateLinear` and `EvaluateOneLoop` use the (2,3) kernel for (3,2) (case 8 calls f23), `EvaluateCross` the right one: the mu^6 term P22 of the two-loop dark matter spectrum is wrong, even in sign for steep spectra. `2m+n` selects the kernel, so (1,1) is (0,3). An auto-spectrum with an asymmetric kernel (0,1), (0,2) doubles one of the two cross pieces. A base-class `OneLoopPS` keeps a table but evaluates to 0.
* **HZPT models.** `sigma8_z = 0` on the container is accepted silently before the first evaluation and turns the base object into NaN, which `nan_to_num` hides: every later spectrum is the broadband alone (C170). After the first evaluation the assignment raises ValueError but the container and its base have already changed. Read only, not modelled: `HaloZeldovichP11(cosmo, z)` raises NameError (`super(HaloZeldovichP01)`, undefined `default_parameters`); the correlation broadband is NaN when R1h^4 < 4 R2h^4; `HaloZeldovichCF00`/`CFhm` have no sigma8 synchronisation in `__call__`.
* **Extrapolator.** The documented defaults of `k_hi` and `k_lo` (the model's own range) are always rejected by the setters' 5% margin; `model_func` is checked and then ignored (always `Pgal`); the fitted slopes do not depend on the model's parameters, so they are stale after the model changes; `kcut_hi < k_hi` and `k_hi <= 0.95 model_kmax` are checked only when the left-hand parameter is assigned (C174). Read only: `to_poles` with as many multipoles as wavenumbers returns one multipole per wavenumber.
* **FFTLog and the window transfer.** `WindowFunctionTransfer.__call__` overwrites `rr` in its loop over multipoles, so all multipoles are transformed back with the separations of the last one; the low-ringing shift depends on the multipole, so with several multipoles even a unit window multiplies all but the last column by a constant different from 1 (C180; a few per cent for a 1024-point grid), and the window is evaluated at separations that are off by the same shift. With the default N (padding) `xi2P` does not undo `P2xi` (C178): the part of the correlation function outside the returned range is dropped. mcfit's docstring defines the Mellin transform with `t^z` where `t^(z-1)` is meant, and its comment `lnxmin + lnymax` for `lnxy` is off by one grid step.
* **Compiled FFTLog.** With the Python defaults (smoothing 0.5 and 0.005) the pair `pk_to_xi`, `xi_to_pk` never returns a non-zero spectrum: the sum of k^3 P^2 always shrinks (C183). Separations more than half a step outside [1/kmax, 1/kmin] give exactly 0 without a message. `fht` of MyFFTLog.cpp (C++ only) uses an output step log(rN/r0)/N instead of /(N-1), and its biased branch subtracts the phase of the second Gamma function instead of adding it (by reading, not proved). `FortranFFTLog::operator=` does not copy `kr`. `method=SIMPS` or `TRAPZ` with l = 5 or 7 stops the program.
* **Best-fit tables.** A table from `from_nlopt` is not restored by `from_info` (empty cells vanish in the blank-separated file: the names land in `best_fit`); without metadata `to_info` appends to an existing file; boolean False comes back True, strings are cut at the first blank, None makes the file unreadable (C185). `from_mcmc` puts the lower two-sigma end in `lt_2sigma`; the driver exchanges `lt_2sigma` and `gt_2sigma` (C186). A selection shares the list of metadata names with its original: adding one makes the original's `to_info` raise AttributeError after truncating the file (C188). Read only: the check `not (generator)` in `_finalize_latex` never fires; `to_comparison_table` adds columns to the caller's frames; `from_mcmc` without constrained parameters raises IndexError.
* **Whole runs.** Two chains restarted from files with the same chain number can choose the same output name between listing and creating it; both old files are then removed and the results of one chain are in no file (C190). After Ctrl-C during a restart both the old file and the new one, which contains it, stay in the folder, so the old iterations count twice when the folder is analysed; `main` exits with status 0 whatever happened, since both context managers suppress every exception; the temporary log is deleted even if it could not be copied, e.g. whenever the solver raises (C192). `find_init_result` raises if any `.npz` file of the folder is unreadable, which is how a crash between creating and saving a result leaves it; its answer is stored in the parameter set only, while `run` reads the driver's attribute, so `init_from = 'result'` without a file name always raises; `has_fiducial is not None` is always true, so a parameter without value starts from NaN (C194).
* **Parameter files.** `driver.lbfgs_options = {}` is taken for the specification of a parameter and reads as None, so an nlopt run fails at `options['max_iter'] = ...` (C196). A text such as '$(root)/r' is written back unexpanded while the untagged `root` is not written, and the parameters are written in the order of their names whatever they refer to: a file that could be read gives a folder whose params.dat raises KeyError (C197). `GalaxyPowerTheory.to_file` ignores its mode and always appends.
* **Command line and start.** Only rank 0 parses: with several processes a rejected command line leaves the others waiting in `bcast` for ever (C201). In a folder that is used again rank 0 truncates and rewrites `params.dat` while the other ranks still have to read it (the barrier comes after), so a rank can go on with empty parameters (C202). A folder with `params.dat` but no `model.npy` never gets one: each run initialises the model again; `from_directory` ignores the `model.npy` its documentation says it loads (C200).
* **Contours.** `ctr_level` takes `hist[-i]` where the cell that reaches the fraction is `hist[-(i+1)]`: every contour is one cell level too high and encloses less than 68% (95%), and if one cell alone reaches the fraction `hist[-0]` is the emptiest cell (C203). If two cells hold 68% the levels do not increase and `contourf` raises ValueError, while only `Warning` is caught (C204). The 2D histograms are cached under the sorted pair, so the same pair in the other order (another tag) is drawn transposed (C205). The y samples are passed unscaled to the histogram whereas the axes, ticks and the x samples are scaled.
* **Theory section.** A line without `expr` cannot free or fix a parameter whose default has an expression: its value and `vary` are ignored (C206). A line without `vary` fixes a parameter that is free by default; a line with a lower bound and no value moves the parameter onto its bound (C207). With an `extra_param_file` the loader calls `extend` on a dict view (AttributeError in Python 3); deprecated names are dropped silently.
* **Selections.** An empty intersection of conditions raises NameError, since the message uses an undefined `i`; -1 and n-1 are not recognised as the same element; requested order and duplicates are lost; if the first condition is a scalar the rest are ignored (C209). `nearest` returns a position among the different coordinates, which is wrong on an axis with repeated ones (C210).
* **Fiducial values.** A parameter whose expression names one without a fiducial value is evaluated at infinity there: it gets a fiducial value whenever the result is finite, e.g. 0 for F_AP = alpha_par/alpha_perp (C211). `has_fiducial is not None` in driver.py is always true, so a missing fiducial value starts the fit at NaN.
* **Scattered starts.** A negative initial value makes the minimisation fail with ValueError (negative standard deviation); a value of zero is never scattered, and if zero is not allowed the search never ends (C213). The `prior` start of the minimiser cannot be reached through the driver, which refuses it.
* **Dead code.** `stats.minimum_credible_intervals` always raises TypeError (`np.max(x, 0.)`); `mu0_modeling` is Python 2 only.
* **Stored chains.** `from_npz` loses the fiducial values of the parameters and the rescaling of the errors; since `attrs` is stored as an object array and `allow_pickle` is not passed, no file of results can be read with numpy 1.16.3 or later (C216).
* **Derivative of a constraint.** After `constraint_derivative` at a point other than the current values, constrained parameters at the end of chains of three constraints read as at that point, since `prepare_params` keeps only direct dependents as children (C218).
* **Velocity dispersion.** `evrard_sigmav` divides km/s by H(z) in km/s/Mpc, so the dispersion assigned to a bias is in Mpc and not, as documented and used, in Mpc/h; the exponent is 0.336, the docstring says 0.33 (C219).
* **Marginalised errors.** `marginalized_errors` takes the square root of every entry of the covariance: the result is a matrix whose off-diagonal entries are NaN for anticorrelated parameters (C221).
