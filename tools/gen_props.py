#!/usr/bin/env python3
"""Writes /verif/properties.jsonl (the English property list)."""
import json
P=[]
def p(title, statement, quantifier, why, anchors):
    P.append(dict(id="C%02d"%(len(P)+1), title=title, statement=statement, quantifier=quantifier,
                  why_tests_cant=why, anchors=anchors))

# ---- caching -----------------------------------------------------------------
p("Attribute cache is never stale",
  "On an object whose computed attributes read only attributes they declare as parents, reading any computed attribute after any history of parameter assignments and reads returns exactly the value a fresh evaluation from the current parameter values would give.",
  "every class schema (acyclic declarations), every pure attribute body, every finite sequence of parameter assignments, reads and deletions of computed attributes, every initial parameter valuation",
  "a test runs one class and one history; staleness depends on the dependency graph and on the interleaving of reads and writes",
  ["pyRSD/rsd/_cache.py: CacheSchema.invert_cachemap, parameter._set_property, cached_property._get_property, CachedProperty.__delete__"])
p("Assigning an equal value does not discard cached results, and a repeated read does not recompute",
  "Between two reads of a computed attribute, its body is evaluated again only if some declared ancestor was assigned a different value or it (or an ancestor computed attribute) was deleted; assigning a parameter the value it already has evaluates nothing.",
  "every schema, every history",
  "needs counting evaluations over all histories",
  ["pyRSD/rsd/_cache.py: obj_eq, parameter._set_property, cached_property"])
p("Deleting a parameter invalidates what was computed from it",
  "After `del obj.param` (falling back to the declared default), every computed attribute depending on it is recomputed from the new effective value.",
  "every schema with a defaulted parameter, every history containing a parameter deletion",
  "requires a history in which the dependent is cached before the deletion",
  ["pyRSD/rsd/_cache.py: parameter._del_property, CachedProperty.__delete__", "pyRSD/rsd/power/dm/power_dm.py: preserve"])
p("An assigned parameter value is the value read back",
  "After `obj.param = v` reading `obj.param` gives the validated `v`; for array values this must hold for every `v`, however close to the previous one.",
  "every old and new value, scalar or array",
  "the failure needs arrays that differ by less than numpy.allclose's tolerance",
  ["pyRSD/rsd/_cache.py: obj_eq, parameter._set_property", "pyRSD/rsdfit/data/covariance_matrix.py: CovarianceMatrix._data"])
p("The actual model schemas satisfy the declaration discipline",
  "For the galaxy-spectrum and HZPT model classes, every computed attribute declares (directly or through another declared parent) every parameter its body reads, so the never-stale guarantee applies to them.",
  "every computed attribute of the listed classes and every history of parameter changes",
  "one forgotten parent is visible only for the particular parameter, after the attribute was cached",
  ["pyRSD/rsd/power/dm/power_dm.py", "pyRSD/rsd/power/biased/power_biased.py", "pyRSD/rsd/power/gal/power_gal.py", "pyRSD/rsd/hzpt/__init__.py", "pyRSD/rsd/hzpt/P01.py"])
p("lru_cache is transparent",
  "A pure function that respects Python equality of its arguments, wrapped by lru_cache, returns on every call of every call history (also with several threads) and for every maxsize (0, bounded, None) the value the bare function returns for those arguments.",
  "every pure function, every maxsize, every finite sequence of calls and cache_clear",
  "the linked-list surgery on eviction only goes wrong for particular orders of hits and misses",
  ["pyRSD/extern/backports/lru_cache.py: lru_cache"])
p("lru_cache is bounded and evicts exactly the least recently used key",
  "With maxsize n>0 the cache never holds more than n entries, and a miss on a full cache removes precisely the entry whose last use is the oldest.",
  "every n>0 and every call history",
  "universally quantified over call sequences",
  ["pyRSD/extern/backports/lru_cache.py: wrapper (bounded branch)"])
p("cache_info is exact",
  "hits+misses equals the number of completed calls since the last clear, currsize the number of stored keys, and the wrapped function was evaluated and returned exactly `misses` times; cache_clear resets all of them.",
  "every call history",
  "universally quantified over call sequences",
  ["pyRSD/extern/backports/lru_cache.py: cache_info, cache_clear"])
p("lru_cache keys separate different calls",
  "Two calls share a cache key only if they have equal positional arguments and equal keyword arguments (and, with typed=True, equal types).",
  "all argument tuples and keyword dictionaries",
  "collisions need adversarial argument shapes",
  ["pyRSD/extern/backports/lru_cache.py: _make_key"])
p("The call cache used during gradients is transparent while the model is unchanged",
  "Inside `model.use_cache()` every cached call returns what it would return without the cache as long as no model attribute that the function reads is changed inside the block; and the cache is gone when the block ends, normally or by exception.",
  "every sequence of cached calls and model updates in the block",
  "the cache key contains only class name, function name and arguments, so correctness depends on the whole history of the block",
  ["pyRSD/rsd/tools.py: cacheable, cache_on, cache_off", "pyRSD/rsd/power/dm/power_dm.py: use_cache", "pyRSD/rsd/power/gal/core.py: TwoHaloTerm.__call__"])
p("Loading simulation data twice uses the last data",
  "After loading a power term from data, evaluating that term uses the most recently loaded table.",
  "every sequence of load / unload / evaluate",
  "needs a history load-evaluate-load-evaluate",
  ["pyRSD/rsd/sim_loader.py: SimLoaderMixin._load, _unload", "pyRSD/rsd/power/dm/power_dm.py: P00, load_dm_sims"])
# ---- context managers --------------------------------------------------------
p("preserve() restores the model",
  "After a `with model.preserve():` block that ends normally every model parameter has the value it had on entry, whatever was assigned inside.",
  "every block body (sequence of assignments, reads, deletions), every entry state",
  "bodies and entry states are unbounded",
  ["pyRSD/rsd/power/dm/power_dm.py: DarkMatterSpectrum.preserve", "pyRSD/rsdfit/theory/base.py: BasePowerTheory.preserve"])
p("preserve() restores the model when the block raises",
  "After a preserve block that raises, every model parameter has its entry value.",
  "every block body and crash point in it",
  "needs an exception at every possible point",
  ["pyRSD/rsd/power/dm/power_dm.py: preserve", "pyRSD/rsdfit/theory/base.py: preserve"])
p("use_spt(), SO-correction and shot-noise blocks restore their switches on every exit",
  "Whatever happens in a `use_spt()`, SOCorrection or ZeroShotNoise block (normal end or exception), on exit the switched attributes have their entry values, and inside they are off.",
  "every block body and crash point, arbitrarily nested blocks",
  "crash points and nestings are unbounded",
  ["pyRSD/rsd/power/dm/power_dm.py: use_spt", "pyRSD/rsd/power/gal/Pcc/__init__.py: SOCorrection", "pyRSD/rsd/power/gal/__init__.py: ZeroShotNoise"])
p("AP distortion is applied exactly once",
  "However deeply AP-decorated methods call each other, one call from user code applies the (k,mu) remapping and the volume/sound-horizon rescaling exactly once, and the lock is free again afterwards, also when the evaluation raises.",
  "every call tree of decorated methods, every crash point",
  "call trees are unbounded and the lock is global state",
  ["pyRSD/rsd/tools.py: alcock_paczynski", "pyRSD/rsd/__init__.py: APLock"])
# ---- physics formulas ---------------------------------------------------------
p("AP remapping is geometrically exact",
  "For positive alphas, the remapped (k',mu') satisfy k' mu' = k mu/alpha_par and k' sqrt(1-mu'^2) = k sqrt(1-mu^2)/alpha_perp, k'>0, |mu'|<=1, mu=0 and |mu|=1 are fixed, and alphas=1 is the identity.",
  "all real k>0, |mu|<=1, alpha_par, alpha_perp>0",
  "universally quantified over reals",
  ["pyRSD/rsd/tools.py: k_AP, mu_AP"])
p("FOG kernels are proper damping factors and their derivatives are derivatives",
  "Each finger-of-god kernel is 1 at zero velocity dispersion, lies in (0,1], is even in mu, and its derivative_k/mu/sigma methods return the partial derivatives of the kernel.",
  "all real k, mu, sigma and the three kernels",
  "universally quantified over reals",
  ["pyRSD/rsd/power/gal/fog_kernels.py"])
p("The galaxy spectrum is the fraction-weighted sum of its components",
  "GalaxySpectrum.power equals (1-fs)^2 Pcc + 2 fs(1-fs) Pcs + fs^2 Pss (also with AP distortion), each again the weighted sum over its sub-samples' spectra; the weights sum to 1, so equal component spectra give that same spectrum.",
  "all parameter values, kernels and two-halo spectra",
  "universally quantified over reals and over the tree of terms",
  ["pyRSD/rsd/power/gal/core.py", "pyRSD/rsd/power/gal/__init__.py: Pgal", "pyRSD/rsd/power/gal/Pcc", "pyRSD/rsd/power/gal/Pcs", "pyRSD/rsd/power/gal/Pss"])
p("The constant offset N is an offset of the galaxy power",
  "Increasing the parameter N ('constant offset to model') by c increases GalaxySpectrum.power by c (before the AP volume factor).",
  "all parameter values",
  "universally quantified over reals",
  ["pyRSD/rsd/power/gal/power_gal.py: N", "pyRSD/rsd/power/gal/__init__.py: ZeroShotNoise, Pgal.__call__"])
p("derivative_k / derivative_mu are the derivatives of the galaxy power",
  "GalaxySpectrum's k- and mu-derivative trees return the partial derivatives of the power tree.",
  "all parameter values, all differentiable two-halo spectra, with and without SO correction",
  "universally quantified over reals and functions",
  ["pyRSD/rsd/power/gal/core.py: DampedGalaxyPowerTerm.derivative_k", "pyRSD/rsd/power/gal/Pcc/__init__.py: Pcc.derivative_k"])
p("Analytic galaxy gradient: satellite fraction",
  "The registered analytic derivative with respect to fs equals the partial derivative of GalaxySpectrum.power.",
  "all real parameter values, kernels, component spectra, with and without SO correction",
  "finite differences at sample points cannot settle an identity in ~15 real variables",
  ["pyRSD/rsd/power/gal/derivatives/fs.py", "fcB.py", "fsB.py", "f_so.py"])
p("Analytic galaxy gradient: one-halo amplitudes",
  "The registered analytic derivatives with respect to NcBs and NsBsB equal the partial derivative of GalaxySpectrum.power.",
  "all real parameter values including alpha_drag",
  "identity in many real variables",
  ["pyRSD/rsd/power/gal/derivatives/NcBs.py", "NsBsB.py"])
p("Analytic galaxy gradient: velocity dispersions",
  "The registered analytic derivatives with respect to sigma_c and sigma_so equal the partial derivative of GalaxySpectrum.power.",
  "all real parameter values, kernels, spectra, with and without SO correction",
  "identity in many real variables",
  ["pyRSD/rsd/power/gal/derivatives/sigma_c.py", "sigma_so.py"])
p("Analytic AP gradient",
  "The registered derivatives of the galaxy power with respect to alpha_perp, and of the quasar power with respect to alpha_par and alpha_perp, equal the partial derivatives of power(k,mu), given correct k- and mu-derivatives of the undistorted power.",
  "all k>0, 0<mu<1, alphas>0, all differentiable spectra",
  "identity over reals and functions",
  ["pyRSD/rsd/power/gal/derivatives/alpha_par.py", "alpha_perp.py", "pyRSD/rsd/power/qso/derivatives/alpha_par.py", "alpha_perp.py"])
p("Analytic quasar gradient",
  "The registered derivatives of QuasarSpectrum.power with respect to b1, f, f_nl, sigma_fog, sigma8_z equal the partial derivatives of power.",
  "all parameter values including the offset N",
  "identity over reals",
  ["pyRSD/rsd/power/qso/derivatives", "pyRSD/rsd/power/qso/power_qso.py: power"])
p("HZPT P01 broadband is the log-a derivative of P00 broadband",
  "HaloZeldovichP01.broadband(k) is the derivative with respect to ln a of HaloZeldovichP00.broadband(k) when sigma8 grows at rate f.",
  "all k, all positive HZPT amplitudes and exponents, sigma8>0, f",
  "identity over reals",
  ["pyRSD/rsd/hzpt/__init__.py: broadband, A0, R, R1, R1h, R2h", "pyRSD/rsd/hzpt/P01.py: broadband"])
p("Gradient chain rule through constraints",
  "The gradient routine returns, for every free parameter, the total derivative of power through all constrained parameters that depend on it, summed over every dependency path exactly once.",
  "every acyclic constraint graph, every set of partial derivatives",
  "dependency graphs are unbounded",
  ["pyRSD/rsd/power/gradient.py: compute", "pyRSD/rsdfit/parameters/parameterset.py: constraint_derivative, prepare_params"])
p("Central differences in the gradient are correct and leave the model at theta",
  "For the non-analytic parameters the gradient entry is (P(theta+eps e_i)-P(theta-eps e_i))/(2 eps) with the shifted values clipped to the bounds, each in its own row in free-name order, exact for powers quadratic in that parameter when the shifted points are allowed; afterwards parameters and model are at theta, also if a shifted evaluation raises.",
  "every parameter count, subset of numerical parameters, epsilon vector, crash point",
  "quantifies over subsets, functions and crash points",
  ["pyRSD/rsd/power/gradient.py: PkmuGradient.__call__, _find_numerical"])
p("Window convolution with a trivial window is the identity",
  "With window multipoles W0=1 and W_l=0 for l>0, and input multipoles listed as 0,2,4,..., the convolved multipole of order ell equals the input multipole of order ell; separations outside the tabulated window range are left unconvolved.",
  "every even ell <= max_ell, every max_ellprime, every input xi",
  "quantified over all multipole orders",
  ["pyRSD/rsd/window.py: G, get_coefficients, WindowConvolution"])
p("Window coefficients implement the Legendre product expansion",
  "The coefficients are those of the expansion of L_ell L_ell' in Legendre polynomials (times (2 ell+1)/(2 q+1)); in particular they are positive, obey the exchange symmetry, and the bare coefficients sum to one.",
  "all ell, ellprime",
  "quantified over all multipole orders",
  ["pyRSD/rsd/window.py: G, get_coefficients"])
# ---- interpolation -----------------------------------------------------------
p("Grid interpolation is exact on nodes, bounded, and rejects out-of-range input",
  "On axes with at least two points the regular-grid interpolator returns the tabulated value at every node, a value between the cell-corner minimum and maximum everywhere in the domain, reproduces multi-affine tables exactly, and raises for any coordinate outside the grid.",
  "every dimension, every strictly increasing grid, every table, every point",
  "quantified over dimension and grids",
  ["pyRSD/rsd/_interpolate.py: RegularGridInterpolator"])
# ---- covariance matrix --------------------------------------------------------
p("Condensed covariance storage is a bijection",
  "For an N x N symmetric matrix, element access [i,j] (also with negative indices and i>j) reads the stored upper-triangle entry for {i,j}; distinct unordered pairs use distinct slots, all N(N+1)/2 slots are used, and out-of-range indices raise.",
  "all N and all i, j",
  "index arithmetic over unbounded N",
  ["pyRSD/rsdfit/data/covariance_matrix.py: _get_contracted_index, condensed_to_full, _setup"])
p("Condensed <-> full round trip",
  "Building a CovarianceMatrix from a symmetric matrix and reading .values gives the same matrix; the result is always symmetric; diag is its diagonal.",
  "all N, all symmetric matrices",
  "unbounded size",
  ["pyRSD/rsdfit/data/covariance_matrix.py: CovarianceMatrix.__init__, _setup, values, diag"])
p("Covariance arithmetic is elementwise",
  "C+D, C-D, C/D, C+s, C-s, C*s, C/s, s+C and s*C give the elementwise result for every element of the matrix, and matrices of different size are refused.",
  "all matrices and scalars",
  "unbounded size, all operand kinds",
  ["pyRSD/rsdfit/data/covariance_matrix.py: __add__, __sub__, __rsub__, __mul__, __rdiv__"])
p("Covariance trimming keeps exactly the in-range block",
  "trim_k(kmin,kmax) returns the sub-matrix of exactly the rows/columns whose k lies in [kmin,kmax] (per-block bounds), in the original order; trimming twice equals trimming to the intersection.",
  "all sizes, block structures, k values and ranges",
  "unbounded size and ranges",
  ["pyRSD/rsdfit/data/covariance_matrix.py: PkmuCovarianceMatrix.trim_k, PoleCovarianceMatrix.trim_k, __slice__", "pyRSD/rsdfit/data/indexing.py: slice_data"])
p("Inverse-covariance rescaling survives slicing",
  "The Hartlap-type inverse rescaling set on a covariance matrix still applies to the inverse after trimming or slicing it.",
  "all matrices, rescalings and slices",
  "needs a set-then-slice history",
  ["pyRSD/rsdfit/data/covariance_matrix.py: inverse, inverse_rescaling, __construct_direct__, __finalize__"])
# ---- data --------------------------------------------------------------------
p("Trimming a measurement keeps its columns aligned",
  "k, mu, power, error of a measurement always have the same length `size` and row i of each comes from the same input row; the kept rows are exactly those with kmin<=k<=kmax, in order, for any history of kmin/kmax changes.",
  "all measurements, all sequences of limit changes",
  "unbounded data and histories",
  ["pyRSD/rsdfit/data/power_measurement.py: PowerMeasurement"])
p("Flat slices partition the combined data vector",
  "The per-statistic slices are consecutive, disjoint, cover the combined vector exactly, and slicing the combined vector by slice i gives measurement i back.",
  "every number and sizes of measurements",
  "unbounded sizes",
  ["pyRSD/rsdfit/data/power_measurement.py: PowerData.flat_slices, combined_power", "pyRSD/rsdfit/theory/base.py: get_kmu_pairs"])
p("Covariance and data vector stay aligned under k limits",
  "After any sequence of narrowing k-limit changes the covariance matrix has one row per combined data point, in the same order.",
  "every measurement set, every narrowing history",
  "unbounded histories",
  ["pyRSD/rsdfit/data/power_measurement.py: PowerData.kmin, kmax, set_k_limits", "covariance_matrix.trim_k"])
p("Errors from the covariance belong to the right points",
  "With errors taken from the covariance diagonal and measurements of equal size, measurement i's error array is the square root of its own block of the diagonal.",
  "all numbers and sizes of measurements, equal or not",
  "needs unequal sizes",
  ["pyRSD/rsdfit/data/power_measurement.py: set_errors_from_cov"])
p("usedata selects matching data and covariance",
  "Selecting a subset of statistics by their (non-negative) numbers keeps for every remaining point its own value and its own covariance row, for any selection order.",
  "all subsets and orders",
  "needs non-monotone selections",
  ["pyRSD/rsdfit/data/power_measurement.py: PowerData.slice_data"])
p("Plain-text round trip of measurements and grids",
  "Writing measurements (or a PkmuGrid) as text and reading them back gives the same columns at the same positions, up to number formatting.",
  "all shapes and contents",
  "unbounded shapes",
  ["pyRSD/rsdfit/data/power_measurement.py: PowerMeasurements.to_plaintext, from_plaintext, from_array", "pyRSD/rsd/transfers/__init__.py: PkmuGrid.to_plaintext, from_plaintext"])
p("Unit conversion factors are inverse to each other",
  "Converting a quantity from absolute to relative h units and back gives the original for wavenumber, distance, volume and power; equal units convert by 1.",
  "all h>0, quantities, both directions",
  "universally quantified over reals",
  ["pyRSD/rsdfit/data/tools.py: h_conversion_factor"])
# ---- transfers ---------------------------------------------------------------
p("Grid transfer scatters and bins without losing modes",
  "Gridded wedge/multipole transfers (on grids with at least two k rows for multipoles) place the flat model values at exactly the defined grid points, each grid point contributes to exactly one wedge (or none), and each output bin is the mode-weighted mean of its points; a constant spectrum comes back as that constant.",
  "every grid, mode counts, wedge edges, model values",
  "unbounded grids",
  ["pyRSD/rsd/transfers/__init__.py: TransferBase.power", "pyRSD/rsd/transfers/grid.py"])
p("Configuring a transfer does not modify the caller's lists",
  "Constructing or evaluating a wedge transfer leaves the mu_bounds list passed by the caller unchanged.",
  "all mu_bounds lists",
  "needs a bound close to 1 and a second use of the list",
  ["pyRSD/rsd/transfers/wedges.py", "pyRSD/rsd/transfers/grid.py"])
# ---- parameters ---------------------------------------------------------------
p("within_bounds is exactly finiteness of the prior",
  "For a parameter with any bounds and a uniform or normal prior (or none) in the default (non-analytic) mode, within_bounds() is true iff lnprior() is finite.",
  "all values, bounds and prior limits including the end points",
  "boundary cases over all reals",
  ["pyRSD/rsdfit/parameters/parameter.py: within_bounds, lnprior", "pyRSD/rsdfit/parameters/distributions.py: BoundDistribution, Uniform"])
p("A free or constrained parameter's value respects its bounds",
  "The value read from a varied or constrained parameter with bounds always lies in [min,max], equals the assigned value if that is inside, and the nearest bound otherwise.",
  "all values and bounds (either side possibly missing)",
  "boundary cases over all reals",
  ["pyRSD/rsdfit/parameters/parameter.py: Parameter._getval, value, _init_bounds"])
p("Constrained parameters always reflect current values",
  "After any sequence of parameter updates, reading a constrained parameter gives its expression evaluated at the current values of everything it depends on, transitively.",
  "every acyclic constraint graph, every update history",
  "unbounded graphs and histories",
  ["pyRSD/rsdfit/parameters/parameter.py: value setter, _getval", "pyRSD/rsdfit/parameters/parameterset.py: prepare_params, update_values"])
p("Free names are sorted, exact and deterministic",
  "free_names is sorted, duplicate free, disjoint from constrained_names, contains exactly the varied unconstrained parameters, and does not depend on the order in which parameters were added.",
  "all parameter sets and insertion orders",
  "order dependence needs all permutations",
  ["pyRSD/rsdfit/parameters/parameterset.py: free_names, constrained_names"])
p("set_free_parameters is all-or-nothing",
  "If any component of theta is outside its prior/bounds, set_free_parameters returns False and parameters and model are unchanged; otherwise every free parameter has its theta value and the model has been updated with them.",
  "all theta, all parameter sets",
  "unbounded dimension",
  ["pyRSD/rsdfit/theory/base.py: set_free_parameters"])
p("Scaling of parameters is invertible and consistent with gradients",
  "inverse_scale(scale(theta)) = theta = scale(inverse_scale(theta)), and the scaled gradient is the gradient of the function of scaled parameters.",
  "all theta and all non-degenerate priors",
  "universally quantified over dimension and reals",
  ["pyRSD/rsdfit/theory/base.py: scale, inverse_scale, scale_gradient"])
p("Parameter-file variable substitution is total and exact",
  "Substitution replaces every $(name)/$name by its value, leaves text without '$' unchanged, raises on a trailing '$' or an unclosed parenthesis and on unknown names.",
  "all strings and environments",
  "unbounded strings",
  ["pyRSD/rsdfit/parameters/tools.py: replace_vars"])
p("Parameter file lines are assembled correctly",
  "Comments and blank lines are ignored, continuation lines are joined, and each clean `tag.name = value` line yields that key and value.",
  "all files",
  "unbounded files",
  ["pyRSD/rsdfit/parameters/parameterset.py: from_file", "pyRSD/rsdfit/parameters/tools.py: verify_line"])
# ---- driver ------------------------------------------------------------------
p("Posterior is -inf exactly where it should be",
  "lnprob(theta) is -inf iff theta is out of bounds or the prior is zero there, else lnlike+lnprior at theta; minus_lnlike with use_priors is its negative in bounds.",
  "all theta, priors and data",
  "universally quantified",
  ["pyRSD/rsdfit/driver.py: lnprob, minus_lnlike, chi2, lnlike"])
p("chi2 is evaluated at the requested parameters",
  "chi2(theta) equals the quadratic form of the residual at theta for every theta within the bounds, and chi2() that at the current parameters after every history of driver calls.",
  "all theta, in and out of bounds, and all evaluation histories",
  "needs a history with an out-of-bounds theta",
  ["pyRSD/rsdfit/driver.py: chi2"])
p("Model vector order equals data order",
  "Entry i of the combined model prediction corresponds to entry i of the combined data vector.",
  "all sets of statistics and transfer groupings",
  "depends on grouping and on set iteration order",
  ["pyRSD/rsdfit/driver.py: _get_theory_callables, combined_model"])
p("Fisher matrix is symmetric and positive semi-definite",
  "The Fisher matrix J C^-1 J^T returned by the driver is symmetric, and positive semi-definite when C^-1 is.",
  "all sizes",
  "unbounded dimension",
  ["pyRSD/rsdfit/driver.py: fisher, marginalized_errors"])
# ---- LBFGS -------------------------------------------------------------------
p("L-BFGS two-loop recursion equals the inverse-Hessian product",
  "The search direction equals -H g where H is the matrix obtained from the stored update pairs by the BFGS inverse-Hessian formula starting from the scaled identity; it is a descent direction whenever all stored pairs have positive curvature.",
  "every dimension, memory size, set of pairs and gradient",
  "unbounded dimension and memory",
  ["pyRSD/rsdfit/solvers/lbfgs.py: compute_LBFGS_step, LimitedMemoryInverseHessian"])
p("The minimiser stops and reports why",
  "A minimisation with max_iter >= 1 from a point with non-zero gradient performs at most max_iter iterations, ends with one of the documented status codes, the final point is the one whose status is reported, and the objective never increases when the line search honours its decrease condition.",
  "every objective, starting point, line-search behaviour",
  "unbounded iterations, oracle behaviour",
  ["pyRSD/rsdfit/solvers/lbfgs.py: run_nlopt, minimize, check_convergence"])
p("The stored update history is a sliding window",
  "After n successful updates the memory holds exactly the last min(n,M) (s,y,rho) triples, newest first, aligned with each other.",
  "every M and n",
  "unbounded histories",
  ["pyRSD/rsdfit/solvers/lbfgs.py: LimitedMemoryInverseHessian.update"])
# ---- MCMC --------------------------------------------------------------------
p("Walker count is legal",
  "The number of walkers handed to the ensemble sampler is even, at least 2*ndim, and the requested number when that is legal.",
  "all requests and dimensions",
  "unbounded",
  ["pyRSD/rsdfit/solvers/emcee_solver.py: run"])
p("Convergence checks happen on schedule",
  "Convergence is tested exactly at iterations 600,800,...,1400 and every 100 from 1500 on.",
  "all iteration numbers, numbers of chains and message interleavings",
  "interleavings are unbounded",
  ["pyRSD/rsdfit/solvers/emcee_solver.py: ChainManager"])
p("Chain results keep every sample",
  "Building results from a chain stores exactly the accepted (walker, iteration) samples that were run, whatever their values.",
  "all chains including samples equal to zero",
  "needs a sample exactly equal to zero",
  ["pyRSD/rsdfit/results/emcee_results.py: EmceeResults.__init__", "pyRSD/rsdfit/solvers/emcee_solver.py: test_convergence"])
p("Concatenating chains is associative and keeps order",
  "Adding results that have constrained parameters concatenates iterations in order, is associative, adds iteration counts, and refuses different walker numbers or parameters.",
  "all results",
  "unbounded chains",
  ["pyRSD/rsdfit/results/emcee_results.py: __add__"])
p("Reordering results keeps every name attached to its value",
  "verify_param_ordering of MCMC results permutes names and values together: for every parameter name the associated chain is the same before and after; for minimiser results the same holds for the free parameters.",
  "all permutations of free and constrained names",
  "all permutations",
  ["pyRSD/rsdfit/results/emcee_results.py: verify_param_ordering", "pyRSD/rsdfit/results/lbfgs_results.py: verify_param_ordering"])
p("Rank splitting is a partition",
  "Splitting N ranks over n chains gives disjoint groups covering all ranks, whose sizes differ by at most one.",
  "all N and n",
  "unbounded",
  ["pyRSD/rsdfit/util/mpi_manager.py: split_ranks"])
p("Output files are never overwritten",
  "The automatically chosen results file name does not exist yet; repeated calls, and interleaved calls of chains with different numbers, give distinct names.",
  "all directory contents",
  "unbounded directories",
  ["pyRSD/rsdfit/util/rsd_io.py: create_output_file"])
p("Convergence statistic is invariant",
  "The Gelman-Rubin statistic does not change when every chain is shifted by a constant or rescaled by a positive factor, is independent of the order of chains of equal length, and is >= sqrt((n-1)/n).",
  "all chains, shifts, scales",
  "universally quantified over reals and lengths",
  ["pyRSD/rsdfit/analysis/stats.py: gelman_rubin_convergence"])
p("Temporary overrides affect exactly the block",
  "Inside a cache-override block an overridden attribute and everything computed from it shows the overriding value; after the block every read is as if the override had never been made.",
  "all schemas, override values, reads before, inside and after the block",
  "depends on which attributes happen to be cached when the block is entered",
  ["pyRSD/rsd/power/biased/power_biased.py: cache_override", "pyRSD/rsd/_cache.py: CachedProperty.__get__"])
p("Evaluating the galaxy power leaves the model unchanged",
  "A successful call of GalaxySpectrum.power (or any of its component methods, or the gradient) leaves every model parameter at its value before the call.",
  "all parameter values, all underlying two-halo spectra, evaluations that succeed or raise at any point",
  "the temporary bias assignment is undone only on the paths a test happens to take",
  ["pyRSD/rsd/power/gal/core.py: TwoHaloTerm.set_biases", "pyRSD/rsd/power/gal/__init__.py", "pyRSD/rsd/power/gal/Pcc/__init__.py: SOCorrection"])
p("AP-decorated calls do not deadlock",
  "Several threads evaluating AP-decorated methods never deadlock, at most one of them is inside the distorted section, and every call that does not overlap another is distorted.",
  "all numbers of threads, all schedules",
  "depends on the interleaving",
  ["pyRSD/rsd/tools.py: alcock_paczynski", "pyRSD/rsd/__init__.py: APLock"])
p("derivative_k / derivative_mu of the multipole expansion are derivatives of power",
  "For the dark-matter, halo and quasar spectra derivative_k/derivative_mu are the partial derivatives of the undistorted power, for every max_mu.",
  "all spectra P[mu^n](k) with their k-derivatives, all k, mu, max_mu",
  "an identity of real functions",
  ["pyRSD/rsd/power/dm/power_dm.py: derivative_k, derivative_mu, _power", "pyRSD/rsd/power/qso/power_qso.py: derivative_k, derivative_mu"])
p("Constraint parsing terminates with exact dependencies",
  "For every acyclic set of constraints preparing the parameters terminates, and afterwards each parameter's recorded dependencies are exactly the unconstrained parameters it depends on, directly or through other constraints, each once.",
  "all finite sets of parameters, all acyclic constraint graphs, all insertion orders",
  "termination and transitive closure over every graph",
  ["pyRSD/rsdfit/parameters/parameterset.py: ParameterSet.prepare_params"])
p("The gradient is taken at the requested parameters",
  "gradient(k, mu, theta) returns one derivative per free parameter, each evaluated at theta, whatever state the model was in, also for scalar k and mu.",
  "all model states, theta, mixtures of analytic and numerical parameters",
  "depends on the previous state",
  ["pyRSD/rsd/power/gradient.py: PkmuGradient.__call__"])
p("The prior gradient is the derivative of the prior",
  "In analytic mode dlnprior is the derivative of lnprior, for every bounds, prior and value.",
  "all bounds, uniform and normal priors, values, both analytic modes",
  "an identity of real functions",
  ["pyRSD/rsdfit/parameters/parameter.py: Parameter.lnprior, dlnprior", "pyRSD/rsdfit/parameters/distributions.py"])
p("Gradient of the objective is the derivative at the requested point",
  "With analytic gradients grad_minus_lnlike(theta) returns, for every free parameter, the derivative of half the chi-squared (minus the log prior if priors are used) at theta; outside the bounds minus the derivative of the log prior at theta; the call leaves the parameters at theta.",
  "all theta, numbers of parameters and data points, priors and model functions",
  "A finite-difference test checks a few points; the claim is about every point, dimension and prior.",
  ["pyRSD/rsdfit/driver.py: grad_minus_lnlike", "pyRSD/rsdfit/theory/base.py: dlnprior"])

p("Constrained chains belong to their samples",
  "The constrained-parameter values stored for a sample of an MCMC result are the constraints evaluated at the free values of that same sample.",
  "all chains, walkers, iterations and constraint functions",
  "holds for every sample of an unbounded chain; order-dependent staleness shows only for particular histories",
  ["pyRSD/rsdfit/results/emcee_results.py: EmceeResults._make_constrained_chain"])
p("Parameter summaries reflect the current burn-in",
  "Setting a burn-in of b iterations excludes exactly the first b iterations of every walker from every parameter's flat trace (or none if the chain is shorter); after any history of reads and changes the median and error intervals are those of the current flat trace and error rescaling.",
  "all chains, burn-ins and histories of reads, burn-in changes and rescalings",
  "quantifies over histories; stale caches show only for some",
  ["pyRSD/rsdfit/results/emcee_results.py: EmceeParameter", "pyRSD/rsdfit/results/emcee_results.py: EmceeResults.burnin"])
p("Copies and unpickled cosmologies behave as the original",
  "copy() of any constructed Cosmology yields an equal object; unpickling a pickled one yields an object whose every attribute (the values all computations use) is that of the original, and whose items are too except Ode0 of a flat cosmology.",
  "all keyword arguments the constructor accepts, all radiation densities",
  "ranges over all cosmologies; the lost item shows only for flat non-default ones",
  ["pyRSD/rsd/cosmology.py: Cosmology.copy, __getstate__, __setstate__"])
p("clone changes exactly what is asked",
  "clone(**kw) returns a cosmology in which every parameter named in kw has the requested value, every other parameter keeps its value, and a flat cosmology stays flat.",
  "all cosmologies and all sets of keyword arguments",
  "ranges over all subsets of arguments",
  ["pyRSD/rsd/cosmology.py: Cosmology.clone"])
p("Equality of cosmologies means agreement within tolerance",
  "A cosmology equals its copy; if a == b then both have the same flatness and every parameter of a is within 1e-8 + 1e-4 |b| of that of b.",
  "all pairs of cosmologies",
  "ranges over all pairs",
  ["pyRSD/rsd/cosmology.py: Cosmology.__eq__"])
p("The parameters the engine uses cannot be changed through the dict interface",
  "No history of item assignments, dict updates and pops changes H0, Om0, Ob0, Ode0, Tcmb0, Neff, m_nu or the name as read from the object; item assignment is refused and changes nothing.",
  "all histories of mutation attempts",
  "quantifies over histories",
  ["pyRSD/rsd/cosmology.py: Cosmology.__setitem__, __getattr__"])
p("Reads after a preserve block are fresh",
  "After a preserve block that ends normally every read equals a fresh evaluation from the restored parameters.",
  "all blocks (assignments, reads) and model states",
  "quantifies over all blocks; staleness shows only for some histories",
  ["pyRSD/rsd/power/dm/power_dm.py: preserve"])
p("Errors in a use_spt block are reported",
  "An exception raised inside a `use_spt()` block reaches the caller.",
  "all blocks and exceptions", "every failure point",
  ["pyRSD/rsd/power/dm/power_dm.py: use_spt"])
p("Sub-sample methods return the components of the power",
  "The weighted sum of what the sub-sample methods return is what the cc, cs, ss methods return.",
  "all parameters incl. the constant offset N", "an identity of real functions",
  ["pyRSD/rsd/power/gal/core.py"])
p("Reflected and product covariance operators",
  "s-C, s/C and C*D give the elementwise result.",
  "all matrices and scalars", "for every element and size",
  ["pyRSD/rsdfit/data/covariance_matrix.py: __rsub__, __rdiv__, __mul__"])
p("usedata keeps multipole numbers with their measurements",
  "After usedata the i-th multipole number (or wedge) describes the i-th remaining measurement, for any selection order, also with negative numbers.",
  "all selections", "all orders of all selections",
  ["pyRSD/rsdfit/data/power_measurement.py: usedata, slice_data"])
p("Reordering minimiser results keeps constrained values",
  "verify_param_ordering of minimiser results keeps every constrained parameter attached to its value.",
  "all orders of parameters", "all permutations",
  ["pyRSD/rsdfit/results/lbfgs_results.py: verify_param_ordering"])
p("A failing power evaluation leaves the model unchanged",
  "When an evaluation of GalaxySpectrum.power raises, every model parameter has the value it had before the call.",
  "all crash points", "a crash can happen at every step",
  ["pyRSD/rsd/power/gal/core.py", "pyRSD/rsd/power/gal/power_gal.py: power"])
p("Overlapping AP calls are all distorted",
  "When several threads evaluate AP-decorated methods at the same time, every call returns the distorted result.",
  "all interleavings", "a race",
  ["pyRSD/rsd/tools.py: alcock_paczynski", "pyRSD/rsd/__init__.py: APLock"])
p("Peak and combined results reflect the current burn-in",
  "After any history the peak of a parameter is that of the current flat trace; sums and reorderings of results keep the burn-in.",
  "all histories", "stale caches show only for some histories",
  ["pyRSD/rsdfit/results/emcee_results.py: EmceeParameter.peak, EmceeResults.__add__"])
p("Finite-difference gradient of the objective",
  "With numerical_from_lnlike=True grad_minus_lnlike(theta) returns the central differences of the objective at theta and leaves the parameters at theta.",
  "all theta and step sizes", "depends on the evaluation order",
  ["pyRSD/rsdfit/driver.py: grad_minus_lnlike"])
p("The prior gradient in the default mode",
  "In the default mode dlnprior is the derivative of lnprior wherever that is finite and differentiable.",
  "all bounds, priors, values", "an identity of real functions",
  ["pyRSD/rsdfit/parameters/parameter.py: dlnprior"])
p("When one chain stops every chain stops",
  "When one chain stops for convergence, exit or interrupt every other chain receives that message and stops with the same reason.",
  "all interleavings of all numbers of chains", "a property of every schedule",
  ["pyRSD/rsdfit/solvers/emcee_solver.py"])
p("chi2 at parameters outside the bounds",
  "chi2(theta) refers to theta also for theta outside the bounds.",
  "all theta", "depends on the previous state",
  ["pyRSD/rsdfit/driver.py: chi2"])
p("Parameter file lines belong to the section of their tag",
  "Each line is attributed to the section of its tag only, whatever characters its value contains.",
  "all files", "all texts",
  ["pyRSD/rsdfit/parameters/parameterset.py: from_file"])
p("Concurrent fits never share an output file",
  "Two processes choosing an output name with the same base at the same time get different names.",
  "all interleavings", "a race",
  ["pyRSD/rsdfit/util/rsd_io.py: create_output_file"])
p("Analytic AP gradient of the galaxy power along the line of sight",
  "The registered derivative of GalaxySpectrum.power with respect to alpha_par equals its partial derivative.",
  "all parameters incl. SO correction and N", "an identity of real functions",
  ["pyRSD/rsd/power/gal/derivatives: dPgal_dalpha_par"])
p("Analytic galaxy gradient: sub-sample fractions",
  "The registered analytic derivatives with respect to fcB, fsB, f_so equal the partial derivatives of GalaxySpectrum.power.",
  "all parameters", "an identity of real functions",
  ["pyRSD/rsd/power/gal/derivatives: dPgal_dfcB, dPgal_dfsB, dPgal_df_so"])
p("Spectra are evaluated at the points of their labels",
  "For 1-D k and mu of different lengths (neither 1) the returned table has axes k, mu and entry (i,j) is the power at (k_i, mu_j); equal lengths give the pairs; flatten=True gives every pair, k fastest, each with its label; meshgrid input is treated as its axes.",
  "all k, mu arrays, all spectra", "all lengths and values",
  ["pyRSD/rsd/tools.py: broadcast_kmu, return_xarray"])
p("Scalars and arrays can be mixed in the evaluation of a spectrum",
  "A single k with an array of mu (or the reverse), and 2-D arrays, are broadcast and every value is the power at its label.",
  "all scalar/array/2-D inputs", "all lengths and values",
  ["pyRSD/rsd/tools.py: broadcast_kmu, return_xarray"])
p("Multipoles approximate the Legendre integrals with a fourth-order error",
  "monopole..tetrahexadecapole (>= 2 wavenumbers, not 41) and poles (any) differ from (2l+1) int_0^1 L_l P dmu by at most M/(180 (N-1)^4), M bounding the fourth mu-derivative of the integrand; cubic integrands are exact; the two interfaces agree.",
  "all spectra, wavenumbers, orders, numbers of mu points", "an error bound over all smooth functions",
  ["pyRSD/rsd/tools.py: monopole, quadrupole, hexadecapole, tetrahexadecapole", "pyRSD/rsd/transfers/poles.py: MultipoleTransfer", "pyRSD/_gcl/cpp/DiscreteQuad.cpp: SimpsIntegrate"])
p("A multipole does not depend on how many wavenumbers are requested",
  "The value at a wavenumber is the same whatever the number of wavenumbers in the call, and a single one is allowed.",
  "all numbers of wavenumbers", "all lengths",
  ["pyRSD/rsd/tools.py: monopole, quadrupole, hexadecapole, tetrahexadecapole"])
p("A cosmology has the parameters it was constructed with",
  "Every keyword given to the Cosmology constructor is the value of that attribute of the result, the parameters not given have their documented defaults (with flat=True the dark energy density closes the budget), and an unknown keyword is refused.",
  "all keyword arguments", "all combinations of keywords and values",
  ["pyRSD/rsd/cosmology.py: Cosmology.__init__"])
p("Rescaled spectra equal freshly built ones",
  "After any sequence of SetSigma8AtZ (non-zero), SetLowKApprox, SetLowKTransition and of SetSigma8 on the cosmology it refers to, a Zel'dovich spectrum gives the same P00, P01, P11 and the same accessors as one built at a redshift with the last sigma8(z); the linear spectrum scales with its square and does not change when the cosmology is renormalised.",
  "all cosmologies, redshifts, histories, wavenumbers", "all histories",
  ["pyRSD/_gcl/cpp/ZeldovichPS.cpp: ZeldovichPS, SetSigma8AtZ", "pyRSD/_gcl/cpp/LinearPS.cpp", "pyRSD/_gcl/cpp/Cosmology.cpp: NormalizeTransferFunction"])
p("A spectrum recovers from sigma8(z) = 0",
  "After SetSigma8AtZ(0) and then a non-zero value the object gives the spectrum of that value.",
  "all histories", "all histories",
  ["pyRSD/_gcl/cpp/ZeldovichPS.cpp: SetSigma8AtZ"])
p("Pickling keeps a spectrum of the compiled library",
  "An unpickled LinearPS, ZeldovichPS, ZeldovichP00/P01/P11 evaluates to the same values as the pickled object, whatever was set on it.",
  "all histories, wavenumbers", "all histories",
  ["pyRSD/pygcl.py: PickalableSWIG, LinearPS, ZeldovichPS, ZeldovichP00"])
p("The Zel'dovich correlation function uses the current sigma8(z)",
  "Whatever was set and evaluated before, ZeldovichCF evaluates to the value of an object built at a redshift with the last sigma8(z), and it is a number.",
  "all histories of setting and evaluating", "stale tables show only for some histories",
  ["pyRSD/_gcl/cpp/ZeldovichCF.cpp"])
p("Momentum spectra are growth derivatives of the density spectrum",
  "P01 is half the derivative of P00 with respect to ln sigma8(z), and P11 is half that of P01 plus k^2 sigma_v^2 P00, for every k computed with FFTLog.",
  "all cosmologies, histories, wavenumbers, sigma8(z)", "an identity of real functions",
  ["pyRSD/_gcl/cpp/ZeldovichPS.cpp: ZeldovichP00, ZeldovichP01, ZeldovichP11"])
p("The low-k approximations satisfy the same growth relations",
  "LowKApprox of P01 and P11 are related to that of P00 as the full spectra are, to the order kept.",
  "all wavenumbers", "an identity of real functions",
  ["pyRSD/_gcl/cpp/ZeldovichPS.cpp: LowKApprox"])
p("A cubic spline interpolates its table smoothly",
  "For any table of two or more increasing abscissas, CubicSpline passes through the points, is a cubic on each interval, twice continuously differentiable inside, EvaluateDerivative is its derivative, and both are 0 outside the table; the result does not depend on uninitialised memory.",
  "all tables, all points", "all tables of any length",
  ["pyRSD/_gcl/cpp/Spline.cpp: CubicSplineImpl, BinaryLookup, Spline::Evaluate, Spline::EvaluateDerivative"])
p("A cubic spline reproduces cubics",
  "Values taken from a polynomial of degree at most 3 (2 for three points, 1 for two) are reproduced exactly everywhere inside, derivatives included.",
  "all tables, polynomials and points", "all tables of any length",
  ["pyRSD/_gcl/cpp/Spline.cpp: CubicSplineImpl"])
p("A linear spline joins its points by straight lines",
  "LinearSpline at a convex combination of neighbouring abscissas is the same combination of the values (so between them), its derivative is the slope, both vanish outside, affine data are reproduced.",
  "all tables with two or more increasing abscissas, all points", "all tables of any length",
  ["pyRSD/_gcl/cpp/Spline.cpp: LinearSplineImpl, BinaryLookup"])
p("A shifted linear spline passes through equally spaced data",
  "For 0 <= tau < 1 and equally spaced abscissas ShiftedLinearSpline takes the given values at the given points, vanishes outside and reproduces constants.",
  "all equally spaced tables, tau", "all tables of any length",
  ["pyRSD/_gcl/cpp/Spline.cpp: ShiftedLinearSplineImpl"])
p("Tables a spline cannot interpolate are refused",
  "Building a spline from a single point, from unordered abscissas, or (shifted) from unequally spaced ones fails; no accepted table makes an evaluation abort or return something else than the data at the data points.",
  "all tables", "all tables of any length",
  ["pyRSD/_gcl/cpp/Spline.cpp: LinearSpline, ShiftedLinearSpline, BinaryLookup"])
p("Spline handles never dangle and never leak",
  "For every history of constructing, copying, assigning, destroying and evaluating Spline objects no freed implementation is touched, an implementation is freed exactly when its last handle goes, and copy/assignment make the target designate the source's spline and affect no other handle.",
  "all histories", "all histories",
  ["pyRSD/_gcl/cpp/Spline.cpp: Spline::Spline, Spline::operator=, Spline::~Spline"])
p("Adaptive integration ends and returns a sum over a partition of the range",
  "For every integrand, limits and acceptable tolerances Integrate ends; its value is (with the sign of the orientation) the sum of the Gauss-Kronrod rule over subintervals cutting the range, obtained by bisecting again and again one with the largest estimate and stopping at the first list (after one bisection) that meets the accuracy asked for, unless an interval gets too small (warning) or the limit is reached; error estimate and evaluation count belong to the same list; swapping the limits changes the sign; only values between the limits matter; the rule is exact for polynomials of degree 23 up to the precision of its constants.",
  "all integrands, limits, tolerances, workspace sizes", "all integrands; unbounded number of bisections",
  ["pyRSD/_gcl/include/Quadrature.inl: GKWorkspace::Integrate, GaussKronrod", "pyRSD/_gcl/cpp/Quadrature.cpp: GKWorkspace::update, sort, GaussKronrod"])
p("The error estimate of an integral bounds its error when the estimates of the pieces do",
  "If the estimate of the basic rule bounds its error on every subinterval of the range, the error estimate returned bounds the distance of the value returned to the integral.",
  "all Riemann integrable functions with that property, all limits and tolerances", "all integrands",
  ["pyRSD/_gcl/include/Quadrature.inl: GKWorkspace::Integrate"])
p("An integral that misses its accuracy is reported",
  "Whenever the error estimate returned exceeds the accuracy asked for, a warning is printed.",
  "all integrands, limits, tolerances", "all integrands; needs 8192 bisections to see the exception",
  ["pyRSD/_gcl/include/Quadrature.inl: GKWorkspace::Integrate", "pyRSD/_gcl/cpp/Quadrature.cpp: error"])
p("Integrating with a substitution integrates the same integral",
  "For positive limits and a continuous integrand, the integral computed by Integrate<ExpSub>, Integrate<InverseSub> and Integrate<NoSub> is that of the integrand over the given range, and the integrand is only evaluated between the limits.",
  "all continuous integrands and positive limits", "all integrands",
  ["pyRSD/_gcl/include/Quadrature.h: NoSub, ExpSub, InverseSub", "pyRSD/_gcl/include/Quadrature.inl: SubFunc"])
p("An integral does not depend on earlier integrals",
  "Integrate gives the same answer (value, estimate, number of evaluations, warnings) whatever earlier integrations left in the workspace it recycles.",
  "all histories of the workspace, all integrands", "all histories",
  ["pyRSD/_gcl/cpp/Quadrature.cpp: GKWorkspace, WorkspaceManager", "pyRSD/_gcl/include/Quadrature.inl: GKWorkspace::Integrate"])
p("Concurrent integrations do not disturb each other",
  "In a parallel loop whose iterations call Integrate, for any number of threads, distribution of the iterations and interleaving: no workspace is used by two threads at once, every entry of the result is what a sequential run gives, all entries are filled when the threads are done, no thread is ever stuck, and every execution is finite.",
  "all numbers of threads, schedules, loop bodies", "all schedules",
  ["pyRSD/_gcl/cpp/Quadrature.cpp: WorkspaceManager", "pyRSD/_gcl/cpp/PowerSpectrum.cpp: EvaluateMany and the other parallel loops"])
p("Tabulated functions are integrated by Simpson's rule",
  "For tables of at least three points SimpsIntegrate reads only its tables and fails no check; it integrates parabolas (an odd number of points) and straight lines (any number) exactly on any increasing grid, is linear in the ordinates and agrees with the rule of scipy.integrate.simps.",
  "all tables of three or more points", "all tables, any length and spacing",
  ["pyRSD/_gcl/cpp/DiscreteQuad.cpp: SimpsIntegrate, basic_simps", "pyRSD/_gcl/cpp/parray.cpp: slice, operator+, -, *, /"])
p("Short tables are integrated",
  "SimpsIntegrate and TrapzIntegrate give an integral for tables with two, one or no points.",
  "all tables with fewer than three points", "all values",
  ["pyRSD/_gcl/cpp/DiscreteQuad.cpp: SimpsIntegrate, TrapzIntegrate", "pyRSD/_gcl/cpp/parray.cpp: slice"])
p("The trapezoidal rule integrates the polygon through the points",
  "TrapzIntegrate is the integral of the function that is straight between neighbouring points of an increasing grid, is linear in the ordinates, and for a function with second derivative bounded by M and spacings at most h errs by at most M h^2 (b - a) / 12.",
  "all nonempty tables, all twice differentiable functions", "all functions",
  ["pyRSD/_gcl/cpp/DiscreteQuad.cpp: TrapzIntegrate"])
p("Grids have the requested end points and constant spacing",
  "parray.linspace and parray.logspace return the requested number of points (at least 2), begin and end exactly at the limits, are strictly increasing, and have constant differences (ratios); fewer than two points, or a limit that is not positive for logspace, is refused.",
  "all limits and sizes", "all limits and sizes",
  ["pyRSD/_gcl/cpp/parray.cpp: parray(n0, min, max, mode), linspace, logspace"])
p("Kaiser multipoles are the multipoles of the Kaiser spectrum",
  "Kaiser.P_ell(ell, k) is, for every order ell (not only 0, 2, 4), the Legendre multipole of (b1 + f mu^2)^2 P(k).",
  "all spectra, growth rates, biases other than 0, orders, wavenumbers", "all orders and parameters",
  ["pyRSD/_gcl/cpp/Kaiser.cpp: PowerPolePrefactor, P_ell"])
p("Kaiser's P(k, mu), pickles and correlation function agree with its parameters",
  "Kaiser.P_s(k, mu) is the spectrum P_ell decomposes; a pickled Kaiser object comes back with its present growth rate and bias; Xi_ell can be called with its default wavenumber limits.",
  "all parameters and histories of setter calls", "all histories",
  ["pyRSD/_gcl/cpp/Kaiser.cpp: P_s, Xi_ell", "pyRSD/_gcl/include/Kaiser.h: Xi_ell, SetGrowthRate, SetLinearBias", "pyRSD/pygcl.py: Kaiser.__getstate__"])
p("FFTLog output is interpolated between neighbouring mesh points",
  "For a wavenumber inside the mesh, the value taken from the FFTLog output is the one at the mesh point or on the straight line between the two neighbouring ones.",
  "all increasing meshes, all outputs, all wavenumbers inside", "all meshes",
  ["pyRSD/_gcl/cpp/ZeldovichPS.cpp: nearest_interp_1d"])
p("A wavenumber outside the FFTLog mesh is handled",
  "For a wavenumber outside the mesh no element outside the tables is read.",
  "all meshes and wavenumbers", "all meshes",
  ["pyRSD/_gcl/cpp/ZeldovichPS.cpp: nearest_interp_1d, fftlog_compute"])
p("The windows used for sigma(R) and sigma8 are the top-hat window",
  "The window functions of PowerSpectrum.Sigma and of the sigma8 normalisation agree with the top-hat window 3 (sin x - x cos x)/x^3 to 1e-11 and 1e-16 for every x >= 0, including the small-argument branch.",
  "all x >= 0", "uncountably many arguments",
  ["pyRSD/_gcl/cpp/PowerSpectrum.cpp: W", "pyRSD/_gcl/cpp/Cosmology.cpp: f"])
p("The linear spectrum has the variance sigma8(z) says",
  "For every Cosmology, however it was constructed and changed, LinearPS(cosmo, z) has in 8 Mpc/h spheres the variance Sigma8_z(z)^2; SetSigma8(s) makes sigma8() = s and rescales Sigma8_z and A_s accordingly; a LinearPS made before SetSigma8 keeps its values.",
  "all parameter sets, all results of the Boltzmann code, all histories of operations, redshifts, wavenumbers", "all histories; the Boltzmann code is arbitrary",
  ["pyRSD/_gcl/cpp/Cosmology.cpp: NormalizeTransferFunction, Initialize", "pyRSD/_gcl/include/Cosmology.h: SetSigma8, Sigma8_z, A_s", "pyRSD/_gcl/cpp/LinearPS.cpp: LinearPS, Evaluate"])
p("A pickled or cloned compiled Cosmology is like the original",
  "Pickling, and clone(), reproduce parameters, Boltzmann results, sigma8, normalisation, transfer function and tables, for histories of construction, SetSigma8, SetTransferFunction, pickling, and parameter updates under CLASS.",
  "all such histories, all parameters that survive printing with 16 digits and contain P_k_max_h/Mpc and z_max_pk", "all histories",
  ["pyRSD/pygcl.py: Cosmology.__getstate__, __setstate__, clone", "pyRSD/_gcl/cpp/Cosmology.cpp: Cosmology(pars, tf, sigma8, k, Tk)", "pyRSD/_gcl/python/ClassParams.i: from_dict"])
p("Changing the transfer function or updating parameters is like constructing afresh",
  "SetTransferFunction(tf) with another fit, and update(...) while the fit is CLASS, leave the object in the state a newly constructed one with those parameters has; update changes exactly the named parameters (and the two defaults).",
  "all such histories, fits, keyword dictionaries", "all histories",
  ["pyRSD/_gcl/cpp/Cosmology.cpp: SetTransferFunction, update, Initialize", "pyRSD/_gcl/python/Cosmology.i: update"])
p("Updates, copies and clones of a compiled Cosmology keep what the user set",
  "update() takes effect whatever the transfer function; copying, changing the transfer function and clone(tf) keep the sigma8 set by SetSigma8; pickling does not change parameters; from_file works.",
  "all histories", "all histories",
  ["pyRSD/_gcl/cpp/Cosmology.cpp: update, Cosmology(const Cosmology&), SetTransferFunction", "pyRSD/pygcl.py: clone, from_file"])
p("Cosmology.from_power uses the spectrum it is given",
  "The linear power spectrum of Cosmology.from_power(params, k, Pk) is the given one up to normalisation, and the object can be pickled.",
  "all parameters and tables", "all tables",
  ["pyRSD/_gcl/cpp/Cosmology.cpp: FromPower, Initialize", "pyRSD/pygcl.py: from_power"])
p("The CLASS transfer function interpolates the Boltzmann results and continues them",
  "Construction with CLASS succeeds when 0 < k_min < k_max; the transfer function then takes the Boltzmann values at the 500 tabulated wavenumbers, is 0 for k <= 0, follows the no-wiggle fit below k_min and above k_max, and is continuous for k > 0.",
  "all parameters, all Boltzmann results, all wavenumbers", "all results of the Boltzmann code, uncountably many wavenumbers",
  ["pyRSD/_gcl/cpp/Cosmology.cpp: ComputeCLASSTransferFunction, Initialize, GetSplineTransfer, EvaluateTransfer"])
p("The no-wiggle and BBKS fits lie in (0, 1]",
  "The no-wiggle and BBKS transfer functions are positive and at most 1, and the no-wiggle one is 1 at k = 0.",
  "all positive cosmological parameters and wavenumbers", "uncountably many parameters",
  ["pyRSD/_gcl/cpp/Cosmology.cpp: GetNoWiggleTransfer, GetBBKSTransfer"])
p("The analysis of a folder of chains uses exactly the samples it should",
  "For a folder of result files with the same parameters (in any order) and at least two files with usable iterations, the analysed matrices hold, under the column of each parameter, exactly that parameter's samples from the used iterations (mean minus log likelihood below the best of the whole folder plus the cutoff, and after the burn-in fraction) divided by the parameter's scale, and the combined result holds walker by walker the used samples of the surviving files in order; a single file is split in three interleaved parts that together are the used samples; without a burn-in fraction the analysis never fails for lack of samples.",
  "all folders, cutoffs, burn-in fractions, scales, numbers of walkers, iterations and parameters", "unbounded chains",
  ["pyRSD/rsdfit/analysis/tools.py: remove_burnin, prepare", "pyRSD/rsdfit/analysis/driver.py: min_minus_lkl", "pyRSD/rsdfit/results/emcee_results.py: __add__, verify_param_ordering"])
p("Discarded samples never enter the statistics and every option of the analysis works",
  "The combined result never contains discarded samples; only the files asked for are read; thinning works; folders without constrained parameters can be analysed.",
  "all folders and options", "unbounded chains",
  ["pyRSD/rsdfit/analysis/tools.py: remove_burnin, recover_folder_and_files, thin_chains"])
p("The error rescaling for a covariance from mocks is a proper factor",
  "With Ns > Nb + 4 mocks, Nb bins and 0 <= Np <= Nb parameters the factor is positive, its square is the ratio of Percival et al. (2014), it widens errors exactly when (Ns-Nb-2)(Nb-2Np-1) >= 2, and it tends to 1 with the number of mocks.",
  "all real Ns, Nb, Np in range", "uncountably many arguments, a limit",
  ["pyRSD/rsdfit/analysis/driver.py: error_rescaling"])
p("The cross spectrum does not depend on which tracer is called first",
  "Exchanging the two tracers of a biased spectrum leaves every angular component and the power unchanged, for all model options.",
  "all matter models, options, biases, max_mu and mu", "uncountably many parameters, many option combinations",
  ["pyRSD/rsd/power/biased/P00.py .. P22.py", "pyRSD/rsd/power/biased/power_biased.py: P_mu0, P_mu2, P_mu4, P_mu6, stochasticity"])
p("Mean bias and halo spectra are auto spectra",
  "With use_mean_bias the power is that of two tracers with the geometric mean of the biases, so it depends only on their product; HaloSpectrum(b1) is BiasedSpectrum(b1, b1) whatever use_mean_bias.",
  "all models, options, biases", "uncountably many biases",
  ["pyRSD/rsd/power/biased/power_biased.py: _ib1, _ib1_bar", "pyRSD/rsd/power/biased/power_halo.py"])
p("Unbiased tracers cluster like matter up to mu^2",
  "For unit bias (no second order bias, no simulation-based terms, two loops, no extra small-scale velocity dispersion) P_mu0 and P_mu2 are those of matter; P_mu4 differs by exactly two known velocity terms.",
  "all matter models and options with nonzero P00", "uncountably many parameters",
  ["pyRSD/rsd/power/biased/P00.py .. P22.py", "pyRSD/rsd/power/dm/P00.py .. P22.py"])
p("Unbiased tracers cluster like matter at mu^4 and mu^6",
  "For unit bias P_mu4 and P_mu6 are those of matter.",
  "all matter models", "uncountably many parameters",
  ["pyRSD/rsd/power/biased/P22.py", "pyRSD/rsd/power/biased/power_biased.py: P_mu6", "pyRSD/rsd/power/dm/power_dm.py: P_mu4, P_mu6"])
p("The redshift-space power tends to Kaiser's formula",
  "In pure perturbation theory, as the amplitude of the linear spectrum tends to 0, power/amplitude tends to (b1 + f mu^2)(b1_bar + f mu^2) P_lin for two tracers and (1 + f mu^2)^2 P_lin for matter, for max_mu = 4 and 6.",
  "all wavenumbers, growth rates, biases, mu, integrals", "a limit over uncountably many parameters",
  ["pyRSD/rsd/power/dm/power_dm.py: power, P_mu0..P_mu6", "pyRSD/rsd/power/biased/power_biased.py", "pyRSD/rsd/pt_integrals.py"])
p("One-loop matter terms are linear plus quadratic in the linear spectrum",
  "At one loop, with the perturbation theory model and default velocity dispersion, P_mu0, P_mu2 and P_mu4 of matter are n P_lin, 2 f n P_lin, f^2 n P_lin plus n^2 times a number that does not depend on the amplitude n.",
  "all parameters and amplitudes", "uncountably many parameters",
  ["pyRSD/rsd/power/dm/P00.py .. P22.py", "pyRSD/rsd/pt_integrals.py"])
p("The matter power can be computed up to mu^6",
  "power(k, mu) of matter is defined for every max_mu in 0, 2, 4, 6.",
  "all options", "depends on a combination of options",
  ["pyRSD/rsd/power/dm/P13.py: P13_mu6", "pyRSD/rsd/power/dm/power_dm.py: P_mu6"])
p("The nonlinear bias functions are those the table names",
  "For a new model, and after every session of coefficient changes, table changes, use_vlah_biasing and reads in which no function depends on another name's coefficients, reading a bias function gives the documented one (own fit, polynomial in b1, or the function it is mapped to).",
  "all tables, coefficients, sessions", "unbounded sessions",
  ["pyRSD/rsd/nonlinear_biasing.py: _get_nonlinear_biasing_function, use_vlah_biasing, update_nonlinear_biasing", "pyRSD/rsd/_cache.py: cached_property"])
p("Every documented choice of nonlinear bias functions works",
  "update_nonlinear_biasing accepts the group names b2_00 and b2_01; wrong types are refused; a changed coefficient takes effect wherever it is used; tables always resolve; the recorded defaults are complete.",
  "all tables, coefficients, sessions", "unbounded sessions",
  ["pyRSD/rsd/nonlinear_biasing.py: update_nonlinear_biasing, __init__"])
p("Initial walkers drawn from the priors are redrawn until allowed",
  "Starting an ensemble from the priors, each walker is the first of its initial draw and at most 101 redraws that is inside the bounds and support of every parameter; the counts of hard and abandoned walkers are exact; a walker not abandoned has finite log prior for every parameter.",
  "all parameter sets with priors, all draws, any number of walkers", "unbounded random histories",
  ["pyRSD/rsdfit/solvers/tools.py: univariate_init, multivariate_init", "pyRSD/rsdfit/theory/base.py: check", "pyRSD/rsdfit/solvers/emcee_solver.py: run"])
p("No chain starts outside the prior",
  "Every initial walker is allowed by the prior, the warning counts only walkers that are not, and initialisation from a previous posterior works.",
  "all parameter sets and draws", "unbounded random histories",
  ["pyRSD/rsdfit/solvers/tools.py: univariate_init, multivariate_init", "pyRSD/rsdfit/solvers/emcee_solver.py: run"])
p("The halo mass assigned to a bias has that bias",
  "The mass returned for (sigma8_z, b1) without interpolation lies in [1e5, 1e16] and has Tinker et al. bias b1 for the object's overdensity (up to the root finder's tolerance); ValueError is raised only when the biases at the two ends do not enclose b1; mass_from_bias likewise; the bias increases with peak height above 1; for b1 >= 1 and overdensities 100-215 there is exactly one such mass and it increases with b1 and with sigma8_z.",
  "all hierarchical cosmologies, biases, sigma8, overdensities, root finders with the contract", "real-valued inputs and an arbitrary function Sigma(R)",
  ["pyRSD/rsd/tools.py: bias_Tinker, BiasToMassRelation.__call__, mass_from_bias"])
p("The velocity dispersion assigned to a bias is positive and increasing",
  "The dispersion is the user's normalisation times the cube root of the mass ratio when both numbers are given, else the line-of-sight virial scaling in Mpc/h; it is positive and, for b1 >= 1, strictly increasing with b1 and with sigma8_z.",
  "all cosmologies, redshifts, normalisations, biases", "real-valued inputs",
  ["pyRSD/rsd/tools.py: BiasToSigmaRelation.__call__, evrard_sigmav"])
p("The mass table agrees with the direct solution",
  "With interpolation, masses at table nodes have the node's bias, masses inside lie between those of the surrounding nodes, points outside are solved directly; in every session of redshift changes and sigmav_from_bias queries at fixed cosmology each answer is that of a new model at the current redshift.",
  "all points, cosmologies, sessions", "real-valued inputs and unbounded sessions",
  ["pyRSD/rsd/tools.py: interpolation_table, BiasToMassRelation.__call__", "pyRSD/rsd/power/biased/power_biased.py: sigmav_from_bias, z"])
p("Masses and dispersions are those of the halo definition and cosmology in force",
  "Interpolated masses respect delta_halo and the current cosmology, interpolation works for every cosmology, sigmav_from_bias follows a change of cosmology, and a failure is reported rather than returned as a dispersion of 0.",
  "all cosmologies, overdensities, points", "unbounded sessions",
  ["pyRSD/rsd/tools.py: interpolation_table", "pyRSD/rsd/power/biased/power_biased.py: bias_to_sigma_relation, sigmav_from_bias"])
p("The second-order integrals use the standard perturbation theory kernels",
  "For every pair of non-zero wavevectors q, p with q+p non-zero, the kernels of Imn (00, 01, 11, 10, 22) and Kmn (all scalar ones) at u=(q+p)/k, v=(p-q)/k are the products of the standard density, velocity, tidal kernels F2, G2, S2 and alpha of the two vectors; the integration rectangle is exactly the set of triangles.",
  "all wavevectors, all points of the rectangle", "identities between rational functions of real vectors",
  ["pyRSD/_gcl/cpp/Imn.cpp: f00..f33", "pyRSD/_gcl/cpp/Kmn.cpp: F2, G2, S2, k00..k11s"])
p("The anisotropic second-order kernels are averages over the azimuth",
  "For every k, q and line of sight n, the angular pairs of kernels are the coefficients in powers of the cosine mu of the averages over the azimuth of q around k of (n.q)(n.p)/(q^2 p^2), (n.q/q^2)(n.q/q^2+n.p/p^2), (n.q)^2(n.p)/(q^4 p^2) and ((n.q)(n.p)/(q^2 p^2))^2, and the mixed ones are these times 2 F2, 2 G2, S2.",
  "all k, q, n", "identities between integrals of real functions",
  ["pyRSD/_gcl/cpp/Imn.cpp: f02, f12, f20, f21, f03, f30, f13, f31, f23, f32, f33", "pyRSD/_gcl/cpp/Kmn.cpp: k20_a, k20_b, k20s_a, k20s_b"])
p("The second-order integrals run over all wavevectors",
  "I00, I01, I11, I10, I22 and all scalar Kmn are the integral over all q (|q|+|k-q| up to 2e5) of the standard kernels times P(q)P(|k-q|), although half the range is integrated for symmetric kernels; they scale as the square of the spectrum, vanish for k<=0, are non-negative for squared kernels and satisfy I01^2 <= I00 I11.",
  "all spectra, wavenumbers up to 2e5, indices", "arbitrary real functions as spectra",
  ["pyRSD/_gcl/cpp/Imn.cpp: ComputeIntegral, Imn::Evaluate", "pyRSD/_gcl/cpp/Kmn.cpp: ComputeIntegral, Kmn::Evaluate"])
p("Indices outside the tables of second-order integrals are rejected",
  "Imn and Kmn evaluated at an index pair outside their table report an error.",
  "all integer index pairs", "unbounded integers",
  ["pyRSD/_gcl/cpp/Imn.cpp: Imn::Evaluate", "pyRSD/_gcl/cpp/Kmn.cpp: Kmn::Evaluate"])
p("The third-order integrals use the standard perturbation theory kernels averaged over directions",
  "For every ratio r=q/k below 60 and not 1 the Jmn kernels are r^2 times the average over directions of the symmetrised third-order kernels F3(k,q,-q), G3(k,q,-q), their mean, and G2(k,-q) against the alpha and line-of-sight factors; above 60 they agree with these averages to 1/(100 r^6) and the two forms meet within 1e-12; for r->0 they tend to -1/18 (-1/3 and 0 for the line-of-sight pair) with error at most r^2/2.",
  "all positive ratios q/k, wavenumbers, lines of sight", "identities between integrals of real functions",
  ["pyRSD/_gcl/cpp/Jmn.cpp: g00, g01, g10, g11, g02, g20"])
p("The third-order integrals run over all momenta and are linear in the spectrum",
  "Each Jmn is the integral over q from 1e-5 to 1e5 of P(q) and its kernel (moving the point q=k changes nothing), is linear in the spectrum, vanishes for k<=0, and J01 is the mean of J00 and J11.",
  "all spectra, wavenumbers, indices", "arbitrary real functions as spectra",
  ["pyRSD/_gcl/cpp/Jmn.cpp: JmnIntegrand, ComputeIntegral, Jmn::Evaluate"])
p("The large-momentum form of the third-order kernels is the expansion of the exact form, and indices are checked",
  "For q/k >= 60 the kernel in use agrees with the exact one through the order r^-12 (r^-10) it is written to, and index pairs outside the table are rejected.",
  "all ratios above 60, all index pairs", "an unbounded real range",
  ["pyRSD/_gcl/cpp/Jmn.cpp: g00, g01, g10, g11, g02, g20, Jmn::Evaluate"])
p("The one-loop spectra are P22 + P13 on a fixed grid and survive pickling",
  "For every linear spectrum, OneLoopPdd/Pdv/Pvv can be built, equal 2 I + 6 k^2 J P (integrals over all wavevectors of the standard kernels) at each of the 1000 logarithmic nodes from 1e-5 to 10, are twice continuously differentiable between, zero outside; EvaluateFull adds the linear spectrum; OneLoopP22Bar is the average over lines of sight of the squared velocity pair kernel and its kurtosis the moment of it; unpickled spectra evaluate identically; tables given by the user are interpolated and short ones refused.",
  "all linear spectra, wavenumbers, contents of uninitialised memory", "arbitrary real functions as spectra",
  ["pyRSD/_gcl/cpp/OneLoopPS.cpp: OneLoopPS::Evaluate, EvaluateFull, OneLoopPdd, OneLoopPdv, OneLoopPvv, OneLoopP22Bar", "pyRSD/pygcl.py: OneLoopPdd.__getstate__, __setstate__"])
p("One-loop and two-loop quantities rescaled to another sigma8 are those computed afresh",
  "The velocity kurtosis, Pdd, Pdv, Pvv and the two-loop integrals Ivvdd, Idvdv, Ivvvv rescaled by the squared ratio of sigma8 equal those built from the rescaled linear spectrum, for every index pair and wavenumber.",
  "all linear spectra, ratios, wavenumbers, index pairs", "arbitrary real functions as spectra",
  ["pyRSD/rsd/pt_integrals.py: normalize_ImnOneLoop, Ivvdd, Idvdv, Ivvvv, velocity_kurtosis", "pyRSD/rsd/power/dm/power_dm.py: Pdd, Pdv, Pvv", "pyRSD/_gcl/cpp/ImnOneLoop.cpp"])
p("The linear, cross and one-loop pieces of the two-loop integrals add up to the full integral",
  "Ivvdd(0,1), (0,2), Idvdv(0,3), (0,4), Ivvvv(2,3), (3,3) equal the integral over all wavevectors (|q|+|k-q| up to 20) of the line-of-sight velocity kernels times the full one-loop spectra of q and |k-q|; when the kernel is symmetric the order of the two spectra does not matter.",
  "all linear spectra with convergent integrals, ratios of sigma8, 0 < k <= 20", "arbitrary real functions as spectra",
  ["pyRSD/_gcl/cpp/ImnOneLoop.cpp: ImnOneLoop::EvaluateLinear, EvaluateCross, EvaluateOneLoop", "pyRSD/rsd/pt_integrals.py: normalize_ImnOneLoop, Ivvdd, Idvdv, Ivvvv"])
p("Every two-loop integral is the one its indices name",
  "ImnOneLoop at (3,2) is the integral of the mu^2 coefficient of the squared velocity pair kernel with the full one-loop spectra; index pairs without a kernel are rejected; a spectrum with a table evaluates to it.",
  "all spectra, wavenumbers, index pairs", "arbitrary real functions as spectra, unbounded integers",
  ["pyRSD/_gcl/cpp/ImnOneLoop.cpp: ImnOneLoop::EvaluateLinear, EvaluateCross, EvaluateOneLoop", "pyRSD/_gcl/cpp/OneLoopPS.cpp: OneLoopPS::OneLoopPS"])
p("HZPT spectra depend only on the last parameters",
  "After any sequence of setting sigma8_z, f and interpolate on the HZPT container, setting sigma8_z on one of its models, and evaluating any of P00, P01, P11, Phm, an evaluation returns exactly what a freshly built container with the last sigma8_z (of that model), f and interpolate returns. Without interpolation it is the documented broadband plus 1, 2f, f^2 or b1 times the stand-alone Zel'dovich spectrum rescaled to sigma8_z; with interpolation it agrees with that at every tabulated (sigma8, k), lies between the values at the corners of the surrounding cell elsewhere in the table, and is computed directly if any sample is outside the table. The Jennings formulae combine P00 at sigma8/D and at sigma8 as documented and leave every later result unchanged.",
  "all histories with positive sigma8 values, all cosmologies and numerical kernels, all k arrays, all four spectra",
  "models and interpolation tables are created lazily, share one base object and are rescaled in place, so only an invariant over all histories excludes a stale normalisation or a table built at the wrong sigma8",
  ["pyRSD/rsd/hzpt/interpolated.py:InterpolatedHZPTModels", "pyRSD/rsd/hzpt/interpolated.py:InterpolationTable", "pyRSD/rsd/hzpt/__init__.py:HaloZeldovichBase", "pyRSD/rsd/power/dm/power_dm.py:Pdv_jennings"])
p("The HZPT correlation-function broadband is the Fourier transform of the power-spectrum broadband",
  "HaloZeldovichCF00.broadband and HaloZeldovichCFhm.broadband give a xi(r) for which the integral of 4 pi r^2 xi(r) sin(kr)/(kr) dr from 0 to X converges, as X grows, to the Pade broadband A0 F(k) (1+(kR1)^2)/(1+(kR1h)^2+(kR2h)^4) of the power-spectrum class; with the default matter parameters this holds for every sigma8 between 0.3 and 1.",
  "all A0, R1, positive R and R2h, R1h^4 > 4 R2h^4 and non-degenerate R, all k > 0",
  "a numerical transform is only approximate and needs an infinite range of r",
  ["pyRSD/rsd/hzpt/P00.py:HaloZeldovichCF00", "pyRSD/rsd/hzpt/Phm.py:HaloZeldovichCFhm"])
p("A rejected or zero sigma8_z does not damage the HZPT container",
  "Assigning an invalid sigma8_z to the HZPT container is refused and leaves it as it was.",
  "all containers, before and after the first evaluation",
  "the assignment is accepted silently and its effect appears only in later, correct-looking evaluations",
  ["pyRSD/rsd/hzpt/interpolated.py:InterpolatedHZPTModels.sigma8_z", "pyRSD/gcl ZeldovichPS::SetSigma8AtZ"])
p("The default theory's constraint expressions are exact for every halo sample",
  "The default constraint expressions fcB, b1_cB, b1, NcBs and NsBsB of the galaxy theory give, for every sample of halos with central and satellite counts, the fraction of centrals with satellites, the galaxy-weighted bias of those centrals and of all galaxies, and the one-halo amplitudes computed by counting pairs; applied together they reproduce the sample, and stay in the physical ranges.",
  "all finite halo samples", "the expressions are strings evaluated for arbitrary parameter values",
  ["pyRSD/rsdfit/theory/gal_defaults.py: GalaxyPowerTheory defaults fcB, b1_cB, b1, NcBs, NsBsB"])
p("alpha, epsilon and F_AP are a lossless change of variables of alpha_perp and alpha_par",
  "The default derived parameters alpha, epsilon and F_AP satisfy alpha^3 = alpha_perp^2 alpha_par, (1+epsilon)^3 = alpha_par/alpha_perp = F_AP, and alpha, epsilon determine alpha_perp and alpha_par.",
  "all positive alpha_perp, alpha_par", "ranges over all reals",
  ["pyRSD/rsdfit/theory/gal_defaults.py: alpha, epsilon, F_AP", "pyRSD/rsdfit/theory/qso_defaults.py: alpha, epsilon, F_AP"])
p("Extrapolated spectra are the model inside its range and continue it without a jump",
  "An accepted ExtrapolatedPowerSpectrum returns exactly the model's spectrum for k_lo <= k <= k_hi, is continuous at both joins, is a power law of constant slope below k_lo and has local slope alpha + 2 beta log10(k/k_hi) above k_hi; accepted constructor arguments satisfy the documented limits; while the model is unchanged, after any sequence of assignments and evaluations the result is what an object with nothing cached gives.",
  "all spectra, fits, limits, wavenumbers and histories", "continuity and all histories",
  ["pyRSD/rsd/power_extrapolator.py: ExtrapolatedPowerSpectrum"])
p("The extrapolator's documented defaults, method name, limits and dependence on the model are honoured",
  "k_hi and k_lo default to the model's range; model_func selects the spectrum extrapolated; the slopes follow changes of the model; the limits keep holding after assignments.",
  "all models, arguments and histories", "all histories",
  ["pyRSD/rsd/power_extrapolator.py: ExtrapolatedPowerSpectrum.__init__, __call__, k_hi, k_lo, kcut_hi, kcut_lo"])
p("FFTLog transforms that are documented as self-inverse, or as each other's inverse, are exact inverses on the grid",
  "Hankel, spherical Bessel and Fourier sine/cosine transforms applied twice, and xi2P after P2xi for every even multipole, return the samples that went in, to the last digit of exact arithmetic, and the grid they came with, when the FFT is as long as the data (low-ringing or odd length).",
  "all samples, all logarithmic grids, all orders", "ranges over all arrays, lengths and grids",
  ["pyRSD/extern/mcfit/mcfit.py: mcfit.__init__, _setup, __call__", "pyRSD/extern/mcfit/kernels.py", "pyRSD/extern/mcfit/transforms.py", "pyRSD/extern/mcfit/cosmology.py: P2xi, xi2P"])
p("FFTLog is exact on logarithmic harmonics and linear in the samples",
  "If the samples are x^q times a real combination of the cosine and sine of 2 pi m ln x/(N Delta), the result is the exact value of the continuous integral transform at the output points (whenever the kernel's Mellin transform converges there); the transform of a combination is the combination of the transforms.",
  "all kernels, tilts, grids, harmonics and samples", "an identity between sums and improper integrals for all lengths",
  ["pyRSD/extern/mcfit/mcfit.py: mcfit.__call__", "pyRSD/extern/mcfit/cosmology.py: P2xi"])
p("FFTLog conserves the weighted sum of squares (discrete Plancherel)",
  "The sum of squares of the output times y^q/postfactor equals the sum of squares of the input times prefactor x^-q, for kernels of unit modulus and data as long as the FFT.",
  "all samples and grids", "ranges over all arrays",
  ["pyRSD/extern/mcfit/mcfit.py: mcfit.__call__"])
p("P2xi followed by xi2P returns the input with the default FFT length",
  "With the default N (at least twice the data length) xi2P undoes P2xi.",
  "all samples and grids", "ranges over all arrays",
  ["pyRSD/extern/mcfit/mcfit.py: mcfit.__init__ (N)", "pyRSD/extern/mcfit/cosmology.py: P2xi, xi2P"])
p("A window that does nothing leaves the multipoles unchanged",
  "WindowFunctionTransfer pads the wavenumbers by continuing the logarithmic grid to within half a step of k = 100; with a unit window (or dry run) it returns the zero-padded multipoles exactly when the FFT is as long as the padded data and either the low-ringing shift is off or only one multipole is involved.",
  "all multipole sets, spectra and grids", "ranges over all arrays and lists of multipoles",
  ["pyRSD/rsd/transfers/window.py: WindowFunctionTransfer.__call__"])
p("The window transfer of one multipole does not depend on which other multipoles are requested",
  "With a window that does not mix multipoles, each returned multipole is what it is when requested alone.",
  "all pairs of consecutive even multipoles, spectra and grids", "ranges over all arrays",
  ["pyRSD/rsd/transfers/window.py: WindowFunctionTransfer.__call__ (rr)", "pyRSD/extern/mcfit/mcfit.py: lowring"])
p("Compiled FFTLog: pk_to_xi and xi_to_pk are exact inverses",
 "With method FFTLOG and smoothing 0, on any logarithmic grid of wavenumbers there is a logarithmic grid of separations (same spacing, starting within half a step of 1/kmax) on which xi_to_pk applied to the output of pk_to_xi returns the input power spectrum exactly, for every multipole and spectrum.",
 "all multipoles, grids of two or more points, spectra, values of the log Gamma function, contents of uninitialised memory",
 "a test checks one grid and one spectrum; the identity needs the low-ringing condition and unit modulus of every coefficient for every grid",
 ["pyRSD/_gcl/cpp/CorrelationFunction.cpp:pk_to_xi","pyRSD/_gcl/cpp/CorrelationFunction.cpp:xi_to_pk","pyRSD/_gcl/cpp/FortranFFTLog.cpp","pyRSD/_gcl/extern/fftlog/fftlog.f"])
p("Compiled FFTLog: exact on log-periodic spectra",
 "ComputeXiLM_fftlog(l, m, k, pk, q, smoothing) returns exactly the documented integral int dk/(2 pi^2) k^m j_l(k r) P(k) exp(-(k smoothing)^2) at every returned separation when P(k) times the Gaussian is a power law k^(q-m+1/2) modulated by a cosine in ln k at a frequency of the grid.",
 "all multipoles, powers, biases |q| < l + 3/2, smoothings, logarithmic grids, grid frequencies, amplitudes and phases; any kernel with the given Mellin transform",
 "an improper oscillatory integral is never computed exactly by a test, and sign, phase or normalisation errors hide in quadrature tolerance",
 ["pyRSD/_gcl/cpp/CorrelationFunction.cpp:ComputeXiLM_fftlog","pyRSD/_gcl/cpp/FortranFFTLog.cpp:FortranFFTLog::Transform","pyRSD/_gcl/extern/fftlog/fftlog.f:fhti"])
p("Compiled FFTLog: behaviour with the default smoothing and outside the range",
 "pk_to_xi followed by xi_to_pk with the default arguments returns the power spectrum, and separations the transform does not cover are reported.",
 "all multipoles, logarithmic grids, non-zero spectra, smoothings and separations",
 "the loss and the silent zeros depend on the grid and the separations asked for",
 ["pyRSD/_gcl/cpp/CorrelationFunction.cpp:pk_to_xi","pyRSD/_gcl/cpp/CorrelationFunction.cpp:ComputeXiLM","pyRSD/_gcl/include/CorrelationFunction.h"])
p("A best-fit table saved with to_info is restored by from_info",
 "For a table with every cell filled and metadata of types int, float, one-word str or True, to_info followed by from_info gives back the columns, the parameter names, every cell and every metadatum with its value, whatever the file held before; without metadata the same holds for a new file.",
 "all tables, previous contents of the file and metadata dictionaries",
 "quoting, separators, blank cells and comment characters interact for arbitrary texts",
 ["pyRSD/rsdfit/analysis/bestfit.py:BestfitParameterSet.to_info","pyRSD/rsdfit/analysis/bestfit.py:BestfitParameterSet.from_info"])
p("Every best-fit table and metadatum survives to_info / from_info",
 "Tables built by from_nlopt, repeated saves without metadata, and metadata of the other accepted types survive a save and a load.",
 "all values, tables and metadata", "ranges over all tables and values",
 ["pyRSD/rsdfit/analysis/bestfit.py:BestfitParameterSet.to_info","pyRSD/rsdfit/analysis/bestfit.py:BestfitParameterSet.from_info","pyRSD/rsdfit/analysis/bestfit.py:BestfitParameterSet.from_nlopt"])
p("Error columns of a best-fit table",
 "sigma is half the width of the one-sigma interval, gt_Nsigma and lt_Nsigma are the lower and upper ends of the N-sigma interval around the median, and the driver divides every value by the scaling of the parameter.",
 "all posteriors and positive scalings", "ranges over real-valued posteriors",
 ["pyRSD/rsdfit/analysis/bestfit.py:BestfitParameterSet.from_mcmc","pyRSD/rsdfit/analysis/driver.py:bestfit_params"])
p("Metadata follow selections of a best-fit table",
 "After any sequence of add_metadata calls on a table, every table obtained from it by selections (and selections of selections) has the same metadata with the latest values.",
 "all sequences of assignments and selections", "ranges over all histories",
 ["pyRSD/rsdfit/analysis/bestfit.py:BestfitParameterSet.add_metadata","pyRSD/rsdfit/analysis/bestfit.py:BestfitParameterSet.__finalize__"])
p("Adding metadata to a selection leaves the original table usable",
 "add_metadata on a selection does not change what to_info of the original table writes.",
 "all metadata", "ranges over all histories",
 ["pyRSD/rsdfit/analysis/bestfit.py:BestfitParameterSet.__finalize__","pyRSD/rsdfit/analysis/bestfit.py:BestfitParameterSet.to_info"])
p("Restarting chains never loses earlier results",
 "While any number of chains are being restarted in one folder (each from its own complete file, with distinct date-tag-chain labels), at every moment, for every interleaving, every exception and every crash point, some complete file of the folder contains all iterations of each restarted run.",
 "all sets of chains, folders, schedules of their file operations, failures of the solver, of the naming, of the saving and of the summary, and crash points",
 "schedules and crash points cannot be enumerated",
 ["pyRSD/rsdfit/rsdfit.py:RSDFitDriver.run","pyRSD/rsdfit/util/rsd_logging.py:FileLogger.__exit__","pyRSD/rsdfit/driver.py:FittingDriver.set_restart","pyRSD/rsdfit/driver.py:FittingDriver.finalize_fit","pyRSD/rsdfit/util/rsd_io.py:create_output_file"])
p("Restarts with equal labels do not overwrite each other",
 "Two chains restarted at once write to different files even if date, tag and original chain number coincide.",
 "all schedules of the file operations", "needs a particular interleaving of listing and creating files",
 ["pyRSD/rsdfit/util/rsd_io.py:create_output_file","pyRSD/rsdfit/util/rsd_logging.py:FileLogger.__exit__"])
p("A run that produced results has saved them when it ends",
 "Every chain ends after finitely many of its own actions whatever the others do; if its solver returned results they are then in the file it names, also after an exception or Ctrl-C; the file restarted from is removed exactly when nothing was raised, and no other file changes.",
 "all sets of chains, folders, schedules and solver outcomes", "schedules cannot be enumerated",
 ["pyRSD/rsdfit/rsdfit.py:RSDFitDriver.run","pyRSD/rsdfit/driver.py:FittingDriver.run","pyRSD/rsdfit/driver.py:FittingDriver.finalize_fit","pyRSD/rsdfit/util/rsd_logging.py:FileLogger"])
p("Failed and interrupted runs are reported and leave the folder consistent",
 "A failed fit gives a non-zero exit status and keeps its log; an interrupted restart leaves every iteration in exactly one file.",
 "all runs whose solver raises or is interrupted", "ranges over all failures",
 ["pyRSD/rsdfit/rsdfit.py:main","pyRSD/rsdfit/util/rsd_logging.py:FileLogger.__exit__","pyRSD/rsdfit/util/mpi_manager.py:MPIManager.__exit__"])
p("Starting a fit from an earlier result",
 "find_init_result returns a file of the folder with the largest probability; a fit started from a result file starts each free parameter from its own best value there, whatever the order, and from its fiducial value if the file does not have it.",
 "all folders of readable files, result files and lists of free parameters", "ranges over all folders and parameter sets",
 ["pyRSD/rsdfit/rsdfit.py:find_init_result","pyRSD/rsdfit/driver.py:FittingDriver.run"])
p("Starting from a folder of results works",
 "With init_from = 'result' and no start_from, or a folder as start_from, the fit starts from the best file found, files left by interrupted runs are skipped, and a parameter without any starting value raises.",
 "all folders and parameter sets", "ranges over all folders",
 ["pyRSD/rsdfit/rsdfit.py:find_init_result","pyRSD/rsdfit/rsdfit.py:RSDFitDriver.initialize_algorithm","pyRSD/rsdfit/driver.py:FittingDriver.run"])
p("A parameter file that a run writes is read back",
 "The parameters of the driver, the data, the theory and the model written to a folder are read back with the same names; simple parameters with their value and their '$' text, fit parameters with all their attributes; nothing is added, whatever the order in which they were made.",
 "all parameter sets with literal values or texts that refer to the environment only", "ranges over all parameter sets, names and values",
 ["pyRSD/rsdfit/parameters/parameterset.py:ParameterSet.to_file","pyRSD/rsdfit/parameters/parameterset.py:ParameterSet.from_file","pyRSD/rsdfit/driver.py:FittingDriver.to_file","pyRSD/rsdfit/parameters/parameter.py:Parameter.to_dict"])
p("A parameter has the value on its line",
 "Every parameter read from a file has the value that the text on its line evaluates to.",
 "all parameter files", "ranges over all values; the failing value is an empty dict",
 ["pyRSD/rsdfit/parameters/parameterset.py:ParameterSet.from_file","pyRSD/rsdfit/parameters/parameter.py:Parameter.__init__"])
p("The folder of a run can be loaded again",
 "A parameter file that could be read can be read again after the run has written it to its folder, also if its texts refer to other definitions in it.",
 "all parameter files", "ranges over all references between the lines of a file",
 ["pyRSD/rsdfit/parameters/parameterset.py:ParameterSet.to_file","pyRSD/rsdfit/parameters/tools.py:replace_vars","pyRSD/rsdfit/driver.py:FittingDriver.from_directory"])
p("What a command line selects",
 "A command line of mcmc, nlopt or restart is accepted exactly if its options are acceptable; then the parameter file of an existing folder wins over -p, -m wins over the model of the folder, and the folder and its logs exist afterwards; if it is rejected nothing is created.",
 "all command lines and file systems", "ranges over all command lines and files",
 ["pyRSD/rsdfit/util/rsd_parser.py:verify_arguments","pyRSD/rsdfit/util/rsd_parser.py:positive_int","pyRSD/rsdfit/util/rsd_parser.py:existing_file"])
p("A folder keeps its parameters and its model",
 "After any commands, a fit in a folder with a parameter file uses that file, and the model given with -m or else that of the folder.",
 "all histories of commands", "ranges over all histories of runs",
 ["pyRSD/rsdfit/rsdfit.py:RSDFitDriver.initialize_algorithm","pyRSD/rsdfit/driver.py:FittingDriver.from_directory","pyRSD/rsdfit/util/rsd_parser.py:verify_arguments"])
p("A model that was initialised is used again",
 "A run that has to initialise a model saves it in its folder, and later runs in that folder, and from_directory, load it.",
 "all histories of commands", "ranges over all histories of runs",
 ["pyRSD/rsdfit/rsdfit.py:RSDFitDriver.initialize_algorithm","pyRSD/rsdfit/driver.py:FittingDriver.from_directory"])
p("A bad command line ends every process",
 "If the command line or the number of chains is not accepted, every process of the run ends.",
 "all numbers of processes and schedules", "ranges over schedules of concurrent processes",
 ["pyRSD/rsdfit/rsdfit.py:RSDFitDriver.create","pyRSD/rsdfit/rsdfit.py:RSDFitDriver.preprocess"])
p("All processes of a run have the same parameters",
 "Whatever the order in which they run, all processes of a run start with the same driver, data, theory and model parameters.",
 "all numbers of processes and schedules", "ranges over schedules of concurrent processes",
 ["pyRSD/rsdfit/rsdfit.py:RSDFitDriver.initialize_algorithm","pyRSD/rsdfit/driver.py:FittingDriver.to_file"])
p("The contour of a fraction encloses that fraction",
 "The contour that the 2D posterior plot draws for 68.26% (95.45%) of the samples encloses at least that fraction of them.",
 "all histograms and fractions", "must hold for every histogram",
 ["pyRSD/rsdfit/analysis/plot.py:ctr_level","pyRSD/rsdfit/analysis/plot.py:plot_2d_posteriors"])
p("The levels of the contours increase",
 "The levels passed to the drawing of a 2D posterior are strictly increasing, so that it can be drawn.",
 "all histograms and pairs of fractions", "must hold for every histogram",
 ["pyRSD/rsdfit/analysis/plot.py:ctr_level","pyRSD/rsdfit/analysis/plot.py:plot_2d_posteriors"])
p("A cached 2D histogram has the axes that were asked for",
 "The histogram drawn for two parameters has the samples of the first on the first axis and those of the second on the second axis, whatever was plotted before.",
 "all sequences of plots", "ranges over histories of the cache",
 ["pyRSD/rsdfit/analysis/plot.py:get_2d_histogram","pyRSD/rsdfit/analysis/plot.py:plot_2d_posteriors"])
p("What a line says about a theory parameter holds",
 "After reading a parameter file, each theory parameter named in it has the value, prior and expression that its line gives, and is free, fixed or constrained as the line says.",
 "all parameter files and tables of defaults", "must hold for every file",
 ["pyRSD/rsdfit/theory/base.py:BasePowerParameters.from_file","pyRSD/rsdfit/parameters/parameter.py:Parameter"])
p("What a line leaves out keeps its default",
 "A theory parameter whose line leaves out an attribute keeps its default for it, and one without a line keeps all its defaults.",
 "all parameter files and tables of defaults", "must hold for every file",
 ["pyRSD/rsdfit/theory/base.py:BasePowerParameters.from_file","pyRSD/rsdfit/parameters/parameterset.py:ParameterSet.update_param"])
p("A parameter counts as constrained exactly if it depends on a free parameter",
 "The constrained parameters of a theory read from a file are those whose expression depends, directly or through other expressions, on a free parameter; a file with an unknown name is refused.",
 "all parameter files and chains of expressions of any length", "must hold for every graph of expressions",
 ["pyRSD/rsdfit/theory/base.py:BasePowerParameters.from_file","pyRSD/rsdfit/parameters/parameterset.py:ParameterSet"])
p("Several conditions on an axis select exactly the elements all of them name",
 "Selecting from gridded data with several conditions (positions, masks, slices) on one axis gives the elements that all of them name, in order.",
 "all data and lists of conditions", "must hold for every combination of conditions",
 ["pyRSD/rsdfit/data/indexing.py:slice_data","pyRSD/rsdfit/data/indexing.py:GridIndexer.isel"])
p("nearest returns the nearest coordinate and its position",
 "Looking up the nearest coordinate returns a coordinate of the data nearest to the one asked for, and the position where it is on the axis.",
 "all lists of coordinates and values", "must hold for every coordinate axis",
 ["pyRSD/rsdfit/data/indexing.py:GridIndex.get_nearest","pyRSD/rsdfit/data/indexing.py:GridIndexer.nearest"])
p("The fiducial value of a constrained parameter is its expression at the fiducial values",
 "After update_fiducial (the first step of the analysis tools) each constrained parameter has as fiducial value its expression evaluated at the fiducial values of the parameters it depends on, and none if one of them has none.",
 "all parameter sets, chains of expressions and values", "must hold for every graph of expressions",
 ["pyRSD/rsdfit/parameters/parameterset.py:ParameterSet.update_fiducial","pyRSD/rsdfit/analysis/tools.py:prepare"])
p("Computing the fiducial values does not change the values",
 "After update_fiducial every parameter reads the same value as before, with expressions evaluated at the current values.",
 "all parameter sets, chains of expressions and values", "must hold for every graph of expressions",
 ["pyRSD/rsdfit/parameters/parameterset.py:ParameterSet.update_fiducial"])
p("A scattered start of a minimisation is the first allowed one of the draws around the initial values",
 "With an initial scatter s the minimisation starts from the first draw of a normal distribution of relative width s around the initial values that lies within all bounds and priors, and the parameters hold it.",
 "all parameters, initial values, scatters and sequences of draws", "must hold for every sequence of random draws",
 ["pyRSD/rsdfit/solvers/lbfgs_solver.py:InitializeWithScatter","pyRSD/rsdfit/solvers/lbfgs_solver.py:run"])
p("The error intervals enclose the median and each other",
 "The one-, two- and three-sigma intervals of a parameter of a chain enclose its median and each other, the standard error is half the width of the first, and the median of an odd number of samples is the middle one.",
 "all chains, burn-ins and rescalings that are not negative", "must hold for every chain",
 ["pyRSD/rsdfit/results/emcee_results.py:EmceeParameter.median","pyRSD/rsdfit/results/emcee_results.py:EmceeParameter.one_sigma","pyRSD/rsdfit/results/emcee_results.py:EmceeParameter.two_sigma","pyRSD/rsdfit/results/emcee_results.py:EmceeParameter.three_sigma","pyRSD/rsdfit/results/emcee_results.py:EmceeParameter.stderr"])
p("The summaries of a chain depend only on its set of samples and follow its units",
 "Median and error intervals do not depend on the order of walkers and samples; changing the unit, origin or sign of the parameter changes them accordingly; the intervals are proportional to the rescaling of the errors.",
 "all chains, permutations, changes of unit and rescalings", "must hold for every chain and permutation",
 ["pyRSD/rsdfit/results/emcee_results.py:EmceeParameter.median","pyRSD/rsdfit/results/emcee_results.py:EmceeParameter.one_sigma","pyRSD/rsdfit/results/emcee_results.py:EmceeParameter.error_rescaling"])
p("Results of a chain written to a file and read back are the same",
 "EmceeResults.from_npz of what to_npz wrote has the same names, chains, probabilities, burn-in, traces, attributes, fiducial values and error rescaling.",
 "all results and attributes", "must hold for every set of results",
 ["pyRSD/rsdfit/results/emcee_results.py:EmceeResults.to_npz","pyRSD/rsdfit/results/emcee_results.py:EmceeResults.from_npz"])
p("The derivative of a constraint is the total derivative, whatever the order of the updates",
 "constraint_derivative(name, wrt, theta) is the derivative of the constrained parameter with respect to the free one, through all constraints its expression uses, at the given or the current values, in whatever order the constrained parameters are updated.",
 "all graphs of constraints, expressions, values and update orders", "the order of a set varies between runs; must hold for every graph and function",
 ["pyRSD/rsdfit/parameters/parameterset.py:ParameterSet.constraint_derivative","pyRSD/rsdfit/parameters/parameterset.py:ParameterSet.free_names"])
p("The derivative of a constraint leaves the parameters as they were",
 "After constraint_derivative every parameter, free, fixed or constrained, reads as before.",
 "all graphs of constraints, values and points of the derivative", "must hold for every graph and point",
 ["pyRSD/rsdfit/parameters/parameterset.py:ParameterSet.constraint_derivative","pyRSD/rsdfit/parameters/parameterset.py:ParameterSet.prepare_params"])
p("The velocity dispersion assigned to a bias is in Mpc/h",
 "Without a normalisation of the user, BiasToSigmaRelation(sigma8_z, b1) is the dispersion of Evrard et al. expressed as a comoving distance in Mpc/h, as documented.",
 "all cosmologies, redshifts, amplitudes and biases", "must hold for every cosmology",
 ["pyRSD/rsd/tools.py:BiasToSigmaRelation.evrard_sigmav","pyRSD/rsd/tools.py:BiasToSigmaRelation.__call__"])
p("Derivatives between parameters are refused exactly when they are not defined",
 "constraint_derivative(a, b) is 1 for a = b, the total derivative for a constrained a and a free b, the derivative of the inverse relation for a free a and a constrained b, and ValueError for every other pair of names.",
 "all graphs of constraints, pairs of names, expressions and points", "must hold for every pair of names and every function",
 ["pyRSD/rsdfit/parameters/parameterset.py:ParameterSet.constraint_derivative"])
p("Marginalised errors come from the inverse Fisher matrix of the parameters that are not fixed",
 "marginalized_errors returns for two free parameters that are not fixed the square root of their entry in the inverse of the Fisher matrix of the parameters that are not fixed, NaN if that covariance is negative; fixing a parameter that is not free raises ValueError.",
 "all Fisher matrices, sets of free, requested and fixed parameters", "must hold for every choice of parameters and every matrix",
 ["pyRSD/rsdfit/driver.py:FittingDriver.marginalized_errors","pyRSD/rsdfit/driver.py:FittingDriver.jacobian"])
#APPEND
open("/verif/properties.jsonl","w").write("".join(json.dumps(x)+"\n" for x in P))
print(len(P))
