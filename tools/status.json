{
 "C01": [
  "proved",
  "Generic over schemas, bodies and histories. Histories contain assignments, reads and deletions of computed attributes; deletion of parameters and overrides are separate claims (C03, C69)."
 ],
 "C02": [
  "proved",
  "Ghost evaluation log; the generic 'ignore_cache' keyword is not modelled."
 ],
 "C03": [
  "partial",
  "REFUTED by the code: deleting a parameter leaves dependents cached. Positive part: deleting a computed attribute invalidates its dependents."
 ],
 "C04": [
  "partial",
  "REFUTED for arrays (allclose tolerance drops small updates); proved for scalars."
 ],
 "C05": [
  "partial",
  "REFUTED for 9 of the 24 classes (undeclared dependencies listed); proved for all classes relative to the listed gaps, in full for the 15 gap-free classes."
 ],
 "C11": [
  "partial",
  "REFUTED for a second load; first load proved."
 ],
 "C12": [
  "proved",
  "Freshness of later reads is C83."
 ],
 "C13": [
  "partial",
  "REFUTED: an exception skips the restoring code; the exact crash state is proved."
 ],
 "C69": [
  "partial",
  "REFUTED: dependents cached before the block ignore the override, those computed inside keep it. Direct reads proved."
 ],
 "C10": [
  "partial",
  "REFUTED as stated: the key has neither the object nor the keyword arguments, so two models of one class (or calls differing in keywords) share entries. Proved transparent when calls sharing a key agree; cache off after every block."
 ],
 "C14": [
  "proved",
  "Error reporting of use_spt is C84."
 ],
 "C15": [
  "proved",
  "Sequential executions; arbitrary nesting of decorated and plain calls. Threads: C71."
 ],
 "C16": [
  "proved",
  "Over the reals."
 ],
 "C17": [
  "proved",
  "Over the reals; all three kernels."
 ],
 "C18": [
  "proved",
  "Sub-sample methods with N<>0: C85."
 ],
 "C19": [
  "partial",
  "REFUTED: the galaxy power does not depend on N at all (the offset is zeroed by nested shot-noise blocks)."
 ],
 "C20": [
  "partial",
  "Proved without SO correction or with N=0; REFUTED with SO correction and N<>0."
 ],
 "C21": [
  "proved",
  "Other fractions: C99."
 ],
 "C22": [
  "partial",
  "Proved for alpha_drag=1; REFUTED otherwise (drag factor missing)."
 ],
 "C23": [
  "partial",
  "Proved without SO or alpha_drag=1; REFUTED with SO and alpha_drag<>1."
 ],
 "C24": [
  "proved",
  "alpha_par of the galaxy power: C98."
 ],
 "C70": [
  "proved",
  "Failing evaluations: C89."
 ],
 "C71": [
  "proved",
  "Overlapping calls: C90."
 ],
 "C25": [
  "partial",
  "REFUTED as stated: sigma_fog and sigma8_z derivatives are wrong when the constant offset N<>0, f for max_mu=2, b1 and f_nl for max_mu=0 (witnesses, and the exact error for all inputs). Proved as partial derivatives under N=0 / max_mu>=4 / max_mu>=2 resp."
 ],
 "C26": [
  "proved",
  "Over the reals; any amplitudes/exponents."
 ],
 "C72": [
  "proved",
  "Over the reals; interpolation replaced by the interpolated function."
 ],
 "C27": [
  "partial",
  "REFUTED in general: a parameter reached only through another constraint (a -> b -> c) is not a child, its contribution is missing. Proved for all graphs in which constrained model parameters mention the free parameter directly, and for the default galaxy theory."
 ],
 "C28": [
  "proved",
  "Side notes (refuted theorems): near a bound the clipped points give a wrong slope; an exception of an analytic derivative leaves the state where it was. Serial evaluation only."
 ],
 "C46": [
  "proved",
  "Side note: in analytic mode the smoothed prior is finite everywhere (refuted theorem)."
 ],
 "C47": [
  "proved",
  "Bounds ordered (min <= max); infinite bounds included."
 ],
 "C48": [
  "partial",
  "REFUTED: with three constraint levels (b1 of the galaxy theory) a read after an assignment is stale; a constraint also sees an out-of-range value before clipping. Proved up to two levels (all model parameters of both default theories) and at any depth when read in dependency order."
 ],
 "C49": [
  "proved",
  "Names are modelled as numbers in their sort order."
 ],
 "C50": [
  "proved",
  "Model parameters up to two constraint levels (all of both default theories); deeper ones: see C48. NaN not modelled (reals)."
 ],
 "C51": [
  "proved",
  "Over the reals; every free parameter has a non-empty prior."
 ],
 "C73": [
  "proved",
  "Every insertion order and graph; the text parsing of expressions is not modelled."
 ],
 "C74": [
  "partial",
  "REFUTED: analytic rows are evaluated at the previous model state; with scalar k, mu only the first parameter's row is returned. Proved when the model is already at theta."
 ],
 "C75": [
  "proved",
  "Default mode: C93."
 ],
 "C06": [
  "proved",
  "Hypotheses: function respects Python equality, maxsize None or >= 0. Side notes (refuted theorems): 1/1.0/True share an entry for a function that distinguishes them; a negative maxsize raises KeyError."
 ],
 "C07": [
  "proved",
  "Heap of links refined to the recency list; observable statement: next call is a hit iff its key is among the n most recently used. Bound also proved for every thread interleaving."
 ],
 "C08": [
  "proved",
  "All three branches, all sequential histories; bounded branch also for every interleaving. Extra: the unlocked counters of the maxsize 0/None branches can lose counts under threads (C08_unlocked_branches_can_lose_counts)."
 ],
 "C09": [
  "proved",
  "Concrete Python value model (int, bool, float, str, None, tuple, type, frozenset, identity objects); NaN and user-defined __eq__ not modelled."
 ],
 "C32": [
  "proved",
  "index arithmetic on integers; data of any type"
 ],
 "C33": [
  "proved",
  "holds for every element type and for any prior content of np.empty; positive-semidefinite check of verify=True not modelled"
 ],
 "C34": [
  "proved",
  "Reflected operators: C86."
 ],
 "C35": [
  "proved",
  "coordinates as integers (only compared); exact success condition also proved; attrs arrays not modelled"
 ],
 "C36": [
  "partial",
  "REFUTED: trim_k, sel and the kmin/kmax setters rebuild the object with inverse_rescaling 1. Proved: the factor applies right after initialisation and arithmetic keeps it."
 ],
 "C37": [
  "proved",
  "NaN wavenumbers included; memoisation covered by the Cache properties"
 ],
 "C38": [
  "proved",
  "any list of columns; also the (k, mu) slices of the theory side"
 ],
 "C39": [
  "proved",
  "for histories of successful narrowing changes from an aligned start (one row per input row, no NaN k, sorted coordinates). Beyond the property: widening and a failing change leave them misaligned (C39_*_refuted)."
 ],
 "C40": [
  "proved",
  "Side note: refuted for measurements of unequal size."
 ],
 "C41": [
  "proved",
  "Multipole numbers and negative selections: C87."
 ],
 "C42": [
  "proved",
  "all columns and grid points at their positions, each number through the text format (abstract function)"
 ],
 "C43": [
  "proved",
  "real arithmetic"
 ],
 "C44": [
  "proved",
  "numpy digitize/bincount by their documented semantics; floats as reals. Side note: multipoles on a single k row always raise (refuted theorem)."
 ],
 "C45": [
  "partial",
  "REFUTED: the setter rewrites bounds close to 1 inside the list object passed by the caller; the exact condition and frame are proved."
 ],
 "C29": [
  "proved",
  "Spline abstract: any interpolation reproducing constants. Side note: unordered multipoles are matched by position (refuted theorem)."
 ],
 "C30": [
  "proved",
  "Adams product theorem proved for all ell, ell_prime, with Legendre orthogonality: the convolution is the multipole of the product. Exact arithmetic (float rounding of np.prod not modelled)."
 ],
 "C31": [
  "proved",
  "Side note: a single-point axis is accepted and every evaluation is NaN (refuted theorem)."
 ],
 "C58": [
  "proved",
  "Two-loop recursion equals the explicit BFGS matrix of the last M stored pairs times the gradient, for every dimension, memory, history and iteration counter; positive definite with positive curvature; every direction given to the line search descends or is zero."
 ],
 "C59": [
  "proved",
  "Line search is an oracle with the Armijo contract. Side notes (refuted theorems): max_iter<=0 still performs one iteration; zero gradient at the start divides by zero; a restarted fit with the test on stops at once; tolerance differs from the documented one for negative objectives."
 ],
 "C60": [
  "proved",
  "Sliding window and alignment proved for every sequence of successful updates; additionally a failed update is shown to rotate the window (C60_failed_update_rotates_refuted), which is outside the property."
 ],
 "C54": [
  "proved",
  "Exact (default) prior mode and every mode for the cut at the bounds; C54_use_priors_false_refuted shows that minus_lnlike(use_priors=False) still contains the prior outside the bounds in the smoothed mode (the English claim is about use_priors)."
 ],
 "C55": [
  "proved",
  "Outside the bounds: C95."
 ],
 "C56": [
  "partial",
  "REFUTED in general (set order with unequal k, statistic-specific parameters not leading, smooth transfers with unequal k, usedata subsets). Proved when the groups follow the data order, and for every set order with a common k. Gridded transfers not modelled."
 ],
 "C57": [
  "partial",
  "REFUTED: the analytic path always raises AttributeError (self.pkmu_gradient does not exist on the driver). Proved: the assembly from a gradient is symmetric and positive semi-definite. The numdifftools path is third-party code."
 ],
 "C76": [
  "proved",
  "numerical_from_lnlike: C92."
 ],
 "C52": [
  "proved",
  "Every string decomposes into a proper template plus a possibly malformed end; exact replacement, KeyError and ValueError cases proved for all strings."
 ],
 "C53": [
  "proved",
  "Attribution to sections and special characters: C96. eval is an oracle."
 ],
 "C61": [
  "proved",
  "Smallest even number that is at least 2*ndim and at least the request; for all integers."
 ],
 "C62": [
  "proved",
  "Propagation of the stop: C94."
 ],
 "C63": [
  "partial",
  "REFUTED: np.nonzero drops every zero entry, so a chain holding a zero is refused or silently scrambled; proved exact when no stored number is zero."
 ],
 "C64": [
  "proved",
  "Side note: without constrained parameters the sum always raises (refuted theorem)."
 ],
 "C65": [
  "proved",
  "Constrained values of minimiser results: C88."
 ],
 "C66": [
  "proved",
  "Partition into n groups with sizes differing by at most one for all N and n>0; colours; IndexError when n>N."
 ],
 "C67": [
  "proved",
  "Same base concurrently: C97. The only failure is an unreadable number in a matching name."
 ],
 "C68": [
  "proved",
  "Real arithmetic. Side note: order matters for chains of different length (refuted theorem)."
 ],
 "C77": [
  "partial",
  "Proved when the constrained values depend only on the assigned free values; refuted for parameter sets with stale (chained) constraints."
 ],
 "C78": [
  "proved",
  "Peak, sums and reorderings: C91."
 ],
 "C79": [
  "proved",
  "copy and unpickled attributes proved; side note C79_unpickled_flat_refuted: item Ode0 of a flat cosmology comes back as 0.69"
 ],
 "C80": [
  "proved",
  "side note C80_flat_request_ignored_refuted: flat=True in clone is ignored"
 ],
 "C81": [
  "proved",
  "side notes: == is neither symmetric nor transitive (refuted theorems)"
 ],
 "C82": [
  "proved",
  "side note C82_update_changes_items_refuted: dict.update/pop change items, and n_s/sigma8"
 ],
 "C83": [
  "partial",
  "Proved if the block assigns only parameters that held a value; REFUTED otherwise."
 ],
 "C84": [
  "partial",
  "REFUTED: the bare except swallows the exception."
 ],
 "C85": [
  "partial",
  "Proved for N=0, REFUTED otherwise (the methods add N, their sum does not)."
 ],
 "C86": [
  "partial",
  "REFUTED: s-C returns C-s, C*D raises AttributeError, s/C raises TypeError in Python 3."
 ],
 "C87": [
  "partial",
  "Proved for increasing selections; REFUTED otherwise and for negative numbers."
 ],
 "C88": [
  "partial",
  "REFUTED: the names move, the values do not."
 ],
 "C89": [
  "partial",
  "REFUTED: b1, b1_bar keep working values; nothing else changes (proved)."
 ],
 "C90": [
  "partial",
  "REFUTED: an overlapping call sees the lock taken and skips the distortion."
 ],
 "C91": [
  "partial",
  "REFUTED: the peak is never invalidated; sums and reorderings reset the burn-in of the parameters."
 ],
 "C92": [
  "partial",
  "Proved without priors; REFUTED with priors: prior derivative at the last difference point, parameters left there."
 ],
 "C93": [
  "partial",
  "REFUTED: the derivative of the smoothed prior is returned."
 ],
 "C94": [
  "partial",
  "Proved for every interleaving: every other chain is sent the reason, a chain with a message stops at its next step, all stopped chains share the reason when all causes agree. REFUTED: a chain waiting in the Barrier blocks forever, two causes give two reasons."
 ],
 "C95": [
  "partial",
  "REFUTED: evaluates at the previous parameters."
 ],
 "C96": [
  "partial",
  "Proved when no listed tag is a proper suffix of the line tag; REFUTED in general (suffix tags, # in quotes, = in values, trailing continuation)."
 ],
 "C97": [
  "partial",
  "REFUTED: check and creation are two steps."
 ],
 "C98": [
  "partial",
  "Proved without SO or N=0, REFUTED with SO and N<>0."
 ],
 "C99": [
  "partial",
  "fcB: proved without SO or alpha_drag=1, else REFUTED. fsB: proved for fs in {0,1}, REFUTED for 0<fs<1. f_so: REFUTED for alpha_drag<>1 and for N<>0, proved otherwise."
 ],
 "C100": [
  "proved",
  ""
 ],
 "C102": [
  "proved",
  "exact reals; Simpson's rule on the uniform grid; the model spectrum is an arbitrary function"
 ],
 "C101": [
  "partial",
  "refuted: ValueError for one length 1 without flatten; 2-D input that is no meshgrid is mislabelled; what values it does hold is proved"
 ],
 "C103": [
  "partial",
  "refuted for 41 wavenumbers and for one; proved for all other lengths"
 ],
 "C104": [
  "proved",
  ""
 ],
 "C105": [
  "proved",
  "The integrators, Bessel functions, FFTLog are arbitrary functions."
 ],
 "C106": [
  "partial",
  "Refuted: after 0 the stored integrals are NaN for ever. The claim for histories without 0 is C105."
 ],
 "C107": [
  "partial",
  "Proved for ZeldovichPS and for LinearPS with an explicit redshift; refuted for ZeldovichP00/P01/P11 (changes lost) and for LinearPS without redshift (IndexError)."
 ],
 "C108": [
  "proved",
  ""
 ],
 "C109": [
  "proved",
  "FFTLog plus interpolation is assumed linear in the table (stated as a hypothesis)."
 ],
 "C110": [
  "partial",
  "The exact defects are proved; refuted for P11, where half of Q3 is missing (1.5 instead of 2)."
 ],
 "C111": [
  "proved",
  ""
 ],
 "C112": [
  "proved",
  ""
 ],
 "C113": [
  "proved",
  ""
 ],
 "C114": [
  "proved",
  ""
 ],
 "C116": [
  "proved",
  ""
 ],
 "C115": [
  "partial",
  "memory safety and termination of the search proved for every table of two or more points, ordered or not; refuted: one-point linear tables abort on evaluation, unordered and unequally spaced (shifted) tables are accepted and miss their points"
 ],
 "C117": [
  "proved",
  "reals for doubles; 1-D Gauss-Kronrod routine only"
 ],
 "C118": [
  "proved",
  ""
 ],
 "C119": [
  "partial",
  "refuted: error code 4 is unreachable, the limit on subintervals is reached silently (witness with the library limit and the default tolerances); positive part: codes 1 and 3 are reported, nothing else ever is"
 ],
 "C120": [
  "proved",
  ""
 ],
 "C121": [
  "proved",
  ""
 ],
 "C122": [
  "partial",
  "exclusive workspaces, results, progress and finiteness proved with taking and returning as atomic steps; refuted: the return is outside the critical section and a data race on the map is reachable"
 ],
 "C123": [
  "proved",
  "real arithmetic"
 ],
 "C124": [
  "partial",
  "refuted: one or two points abort SimpsIntegrate (sizes differ: a slice of an empty range has one element), no points overruns TrapzIntegrate; the trapezoidal rule is right for one and two points"
 ],
 "C125": [
  "proved",
  ""
 ],
 "C126": [
  "proved",
  ""
 ],
 "C127": [
  "proved",
  "for biases other than 0 (the code divides by b1)"
 ],
 "C128": [
  "partial",
  "refuted: P_s ignores b1, pickles keep the constructor arguments, Xi_ell with default limits aborts; proved for unit bias, unchanged objects, positive limits"
 ],
 "C129": [
  "proved",
  ""
 ],
 "C130": [
  "partial",
  "refuted: reads one element before or after the tables"
 ],
 "C131": [
  "proved",
  "C131_wrong_coefficient: the series of PowerSpectrum.cpp has 1/30 instead of 1/10"
 ],
 "C132": [
  "proved",
  "any history of public operations (made); integrator any homogeneous functional, Boltzmann code arbitrary; doubles are reals; raw NormalizeTransferFunction calls excluded"
 ],
 "C133": [
  "proved",
  "plain histories; parameters printable and with the two from_dict defaults (otherwise see C135)"
 ],
 "C134": [
  "proved",
  "plain histories; FromArrays excluded"
 ],
 "C135": [
  "partial",
  "refuted: update() under EH/BBKS leaves every computed quantity stale; copy, SetTransferFunction, update and clone(tf) reset sigma8; pickling adds defaults; from_file calls a missing constructor. Positive parts: C133, C134"
 ],
 "C136": [
  "partial",
  "refuted: from_power ignores the given spectrum for all inputs, and the object cannot be unpickled"
 ],
 "C137": [
  "proved",
  "doubles are reals; cubic spline of C111"
 ],
 "C138": [
  "proved",
  "the full Eisenstein-Hu fit is not modelled"
 ],
 "C139": [
  "proved",
  "several files, one file, nothing left, existence of the best iteration"
 ],
 "C140": [
  "partial",
  "refuted: one surviving file of several keeps every sample in the combined statistics; thinning always fails; file list ignored; folders without constrained parameters fail"
 ],
 "C141": [
  "proved",
  "positivity, defining ratio, when errors widen, limit"
 ],
 "C142": [
  "proved",
  "proved for all inputs of the model"
 ],
 "C143": [
  "proved",
  "proved for all inputs of the model"
 ],
 "C144": [
  "proved",
  "proved for all inputs of the model"
 ],
 "C146": [
  "proved",
  "proved for all inputs of the model"
 ],
 "C147": [
  "proved",
  "proved for all inputs of the model"
 ],
 "C149": [
  "proved",
  "proved for all inputs of the model"
 ],
 "C145": [
  "partial",
  "refuted: a concrete model with unit-bias P_mu4 and P_mu6 different from matter; the exact P_mu4 difference is proved in C144"
 ],
 "C148": [
  "partial",
  "refuted at one loop with max_mu = 6 (AttributeError in P13.mu6); proved for the other cases"
 ],
 "C150": [
  "partial",
  "refuted in five ways; named keywords proved to take effect"
 ],
 "C151": [
  "proved",
  "All priors, draws and numbers of walkers; each walker is characterised as its first allowed draw."
 ],
 "C152": [
  "partial",
  "Refuted: a walker outside the prior can be returned, a valid one can be counted as impossible, multivariate/posterior initialisation never works."
 ],
 "C153": [
  "proved",
  "brentq enters through its contract with an arbitrary tolerance; the contract is shown to be satisfiable."
 ],
 "C154": [
  "proved",
  "Monotonicity stated for exact root finding."
 ],
 "C155": [
  "proved",
  "The spline of Sigma enters as an arbitrary function; the session theorem has no hypotheses."
 ],
 "C156": [
  "partial",
  "Refuted: overdensity ignored, table and relation stale after a change of cosmology, NameError for dense cosmologies, dispersion 0 on failure."
 ],
 "C157": [
  "proved",
  "for every input of the model (exact arithmetic, exact integrals)"
 ],
 "C158": [
  "proved",
  "for every input of the model (exact arithmetic, exact integrals)"
 ],
 "C159": [
  "proved",
  "for every input of the model (exact arithmetic, exact integrals)"
 ],
 "C161": [
  "proved",
  "for every input of the model (exact arithmetic, exact integrals)"
 ],
 "C162": [
  "proved",
  "for every input of the model (exact arithmetic, exact integrals)"
 ],
 "C160": [
  "partial",
  "refuted: indices are collapsed to one integer before the table lookup; the exact set of answered pairs is proved"
 ],
 "C163": [
  "partial",
  "refuted for five of the six kernels (wrong from r^-6 on) and for the indices; g10 is proved right"
 ],
 "C164": [
  "proved",
  "all linear spectra; exact integrals and arithmetic, cubic splines as modelled"
 ],
 "C165": [
  "proved",
  "all spectra, ratios, index pairs; values at the nodes of the interpolation tables"
 ],
 "C166": [
  "proved",
  "convergence of the four pieces is a hypothesis, shown to be met"
 ],
 "C167": [
  "partial",
  "refuted: (3,2) uses the (2,3) kernel in two of three pieces, indices alias; the cross piece is right"
 ],
 "C168": [
  "proved",
  "real arithmetic; numerical kernels arbitrary"
 ],
 "C169": [
  "proved",
  "complete for the stated parameter range"
 ],
 "C170": [
  "partial",
  "refuted: a zero sigma8_z is accepted before the first evaluation and removes the Zeldovich term for good; afterwards it raises but is kept"
 ],
 "C171": [
  "proved",
  "the expressions equal counting over the sample"
 ],
 "C172": [
  "proved",
  "identities and injectivity"
 ],
 "C173": [
  "proved",
  "fits are arbitrary functions of the table"
 ],
 "C174": [
  "partial",
  "refuted: each of the four clauses fails"
 ],
 "C175": [
  "proved",
  "loggamma only assumed to satisfy Schwarz reflection"
 ],
 "C176": [
  "proved",
  "N free; kernel Mellin transform convergence is a hypothesis met by a concrete kernel"
 ],
 "C177": [
  "proved",
  ""
 ],
 "C178": [
  "partial",
  "refuted: a concrete input is not returned"
 ],
 "C179": [
  "proved",
  "even multipoles"
 ],
 "C180": [
  "partial",
  "refuted for every log Gamma with reflection and recurrence: the column returned is a constant != 1 times the right one"
 ],
 "C181": [
  "proved",
  "exact inverse on every log grid"
 ],
 "C182": [
  "proved",
  "exact on log-periodic spectra, any bias"
 ],
 "C183": [
  "partial",
  "refuted: any positive smoothing strictly shrinks sum k^3 P^2 in the round trip; separations outside the dual range silently give 0 (C183_outside_range_zero)"
 ],
 "C184": [
  "proved",
  "info files restore complete tables and storable metadata"
 ],
 "C185": [
  "partial",
  "refuted: from_nlopt tables, second save without metadata, False/multi-word/None metadata"
 ],
 "C186": [
  "partial",
  "one-sigma columns and scaling proved; two-sigma columns refuted"
 ],
 "C187": [
  "proved",
  "any sequence of add_metadata and selections"
 ],
 "C188": [
  "partial",
  "refuted: shared list of names"
 ],
 "C189": [
  "proved",
  "all schedules and crash points, distinct labels"
 ],
 "C190": [
  "partial",
  "refuted: race between listing and creating"
 ],
 "C191": [
  "proved",
  "termination, saved results, exact effect of one restart"
 ],
 "C192": [
  "partial",
  "refuted: duplicated iterations, exit status 0, lost log"
 ],
 "C193": [
  "proved",
  "largest score; values by name"
 ],
 "C194": [
  "partial",
  "refuted: found file unused, unreadable files, NaN start"
 ],
 "C195": [
  "proved",
  "for all parameter sets whose values are literal texts or $ texts that refer to the environment; Python eval and repr are oracles"
 ],
 "C196": [
  "partial",
  "proved: values and parameter specifications of tagged lines without '$'. Refuted: an empty dict is taken for a specification and reads as None"
 ],
 "C197": [
  "partial",
  "refuted: an untagged definition, and the order of the written lines; the positive part is C195"
 ],
 "C198": [
  "proved",
  ""
 ],
 "C199": [
  "proved",
  ""
 ],
 "C200": [
  "partial",
  "proved: a folder created by one run (model saved, neither file given explicitly elsewhere) is used by every later run that names no model: the saved model is loaded. Refuted: in a folder that already had a parameter file but no model the model is built anew at every run; and from_directory ignores the saved model"
 ],
 "C201": [
  "partial",
  "proved: with an accepted command line, or one process, no process can wait for ever and all end in the same way, under every schedule. Refuted: with several processes and a rejected command line all but the first wait for ever"
 ],
 "C202": [
  "partial",
  "proved: for a parameter file that the run does not write, or one process, under every schedule. Refuted: in a folder used again the first process rewrites the file the others still have to read"
 ],
 "C203": [
  "partial",
  "proved: the level drawn is at most one cell step too high. Refuted: with distinct counts the contour encloses less than the fraction; if one cell reaches the fraction, everything"
 ],
 "C204": [
  "partial",
  "proved: increasing when counts differ, no two cells hold the smaller fraction and no cell the difference; never decreasing when no cell holds the smaller fraction. Refuted: not increasing when two cells hold it"
 ],
 "C205": [
  "partial",
  "proved if the pair was not asked for in the other order before. Refuted: otherwise the transposed histogram comes back"
 ],
 "C206": [
  "partial",
  "proved for parameters whose default has no expression, and for lines with an expression. Refuted: a line without expr cannot free or fix a parameter constrained by default"
 ],
 "C207": [
  "partial",
  "proved for the attributes other than vary, and for the value if it satisfies the bounds. Refuted: a line without vary fixes a free default; a lower bound moves the default value onto it"
 ],
 "C208": [
  "proved",
  "for chains of expressions of any length"
 ],
 "C209": [
  "partial",
  "proved for non-negative positions, masks and slices; an empty intersection is refused. Refuted: positions from the end, the order, a scalar first condition"
 ],
 "C210": [
  "partial",
  "proved for axes without repeated coordinates. Refuted: with repeated coordinates the position is one among the different coordinates"
 ],
 "C211": [
  "partial",
  "Proved for parameters all of whose dependencies have fiducial values, whatever the depth of the chains. Refuted: one that depends on a parameter without fiducial value gets one whenever its expression is finite at infinity."
 ],
 "C212": [
  "proved",
  "For all parameter sets that prepare_params accepts."
 ],
 "C213": [
  "partial",
  "Proved for initial values that are not negative. Refuted: a negative initial value raises ValueError; zero is never scattered."
 ],
 "C214": [
  "proved",
  "numpy percentiles are modelled (linear interpolation of the sorted samples), over real numbers."
 ],
 "C215": [
  "proved",
  "For all chains; over real numbers."
 ],
 "C216": [
  "partial",
  "Proved for everything but the fiducial values and the error rescaling, for a numpy that unpickles by default. Refuted: those are lost; with a newer numpy no file can be read."
 ],
 "C217": [
  "proved",
  "autograd.grad is an oracle that returns the partial derivative of the function it is given where it succeeds (contract met by an explicit oracle). Free parameters are those that vary and have no expression; expressions are arbitrary functions of the named parameters."
 ],
 "C218": [
  "partial",
  "Proved for free (brought within bounds) and fixed parameters; refuted for constrained parameters in a chain of three."
 ],
 "C219": [
  "partial",
  "Refuted unless h = 1: the value is in Mpc. H0 and H_z are in km/s/Mpc as in ClassEngine.h."
 ],
 "C220": [
  "proved",
  "autograd.grad is the oracle of C217; a zero derivative to be inverted is excluded by the existence of a differentiable inverse relation."
 ],
 "C221": [
  "proved",
  "numpy.linalg.inv is an oracle; the Fisher matrix is given. Requested constrained parameters (columns from constraint_derivative, C217, C220) are in the model but not in the theorem."
 ]
}