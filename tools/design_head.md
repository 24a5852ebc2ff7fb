# Formal model of nickhand/pyRSD in Rocq (Coq 8.16.1)

The code in `/repo/pyRSD` is read as text; nothing is run. Every definition in the model cites the file and lines it
models and says where it simplifies.

| files | contents |
|---|---|
| `M_*.v` | the model: total Gallina functions (and, over the reals, explicit formulas). Exceptions, aborts and undefined reads are values (`option`, outcome types), loops are structural recursion, histories are lists of operations |
| `S_*.v` | specification vocabulary, independent of the model's helpers (what "fresh value", "used sample", "top-hat window", ... mean) |
| `P_*.v` | lemmas |
| `Props_*.v` | the property theorems `Cxx_...` with `Print Assumptions`, and `..._nonvacuous` Examples giving concrete non-trivial instances of their hypotheses |
| `tools/` | generators of `properties.jsonl`, `MANIFEST.json`, this file (`gen_design.py`), of the two generated models (`gen_schema.py`: dependency tables of the cached classes; `gen_params.py`: default theory parameters), and the mutation runner |
| `seeded/LOG.jsonl` | one line per wrong program tried |

Naming: `Cxx_..._partial` proves part of Cxx; `Cxx_..._refuted` proves that the faithful model VIOLATES the English claim
(so the theorem is a finding about the code; the property is then listed as `partial`, with the part that does hold proved
beside it). Where a claim had a sound core and broken corners it was split in a proved property and a refuted one.

## How the properties are proved

* **Attribute cache, call cache, lru_cache, `preserve`, context managers** (C01-C15, C69, C83-C99): operational semantics of
  objects with histories of operations; invariants by induction over histories; the lru_cache's doubly linked list is a heap
  refined to a recency list. The dependency tables of all 24 cached classes are generated from the source and a verified
  checker (soundness theorem) instantiates the generic freshness theorem with them.
* **Galaxy power tree, FOG kernels, AP remapping, analytic derivatives, QSO and HZPT spectra** (C16-C30 and others): programs on a
  model object with errors and fuel; formulas over `R`; derivatives stated with Coquelicot's `is_derive` of the model itself.
* **Parameters, priors, bounds, constraints, parameter files** (C20-C28, C46-C53, ...): symbol table with delayed evaluation,
  dependency graph, strings as lists of characters.
* **Data vectors, covariance, transfers, windows, interpolation** (C31-C45, ...): lists/matrices of any size, arbitrary grids.
* **Driver, L-BFGS, MCMC control, MPI ranks, results, analysis of chains** (C54-C68, C139-C141, ...): state machines with oracles for the line
  search, the sampler and the message order; invariants over all schedules.
* **Compiled library** (C100-C138): quadrature, splines, discrete integrals, Zel'dovich spectra, FFTLog mesh, Kaiser, windows,
  Cosmology/ClassParams: real arithmetic, arrays as functions with explicit bounds, `None` for an abort or out-of-bounds access, interleavings
  for the shared workspace.

## Trusted base

1. Coq's kernel (8.16.1) and `vcheck`'s rebuild.
2. The axioms listed below, all of the standard library (Reals, FunctionalExtensionality, Classical_Prop). None is ours: no `Axiom`, `Parameter`,
   section-less `Variable`/`Hypothesis`, `Admitted`, functor or module type; no kernel check is switched off. Coquelicot is used as a library of definitions and theorems; it
   adds no axiom. Some tools also list `Rdefinitions.RbaseSymbolsImpl` / `RinvImpl`: these are the opaque module-sealed definitions
   of the standard reals, not axioms.
3. The reading of the Python/C++ source as the model: each definition's comment says which lines it stands for. The two generated
   tables trust their generators' reading of the text.
4. Modelling of the platform, stated in the comments: floating-point numbers are exact reals or rationals (rounding, overflow, NaN propagation are not modelled,
   except where a NaN or a zero divisor decides the control flow: those are explicit error values); Python dictionaries have insertion order, sets an arbitrary order;
   numpy/scipy/xarray/lmfit/asteval/emcee/CLASS appear either as explicit functions with their documented behaviour or as arbitrary functions (oracles) the theorem quantifies over.

