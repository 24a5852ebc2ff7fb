
## Not modelled

* `rsd/plot`, `rsdfit/plot`-like code, messages, logging, documentation, `quickstart` templates.
* IEEE rounding and the accuracy of numerical approximations, except where stated (windows, small-argument series, Simpson and spline exactness).
* Inside numpy/scipy/xarray/lmfit/asteval/emcee/mpi4py/astropy/CLASS/FFTW: see the trusted base.
* Of the compiled library: the n-dimensional cubature, the full Eisenstein-Hu fit with wiggles, the adaptive quadrature and tolerances of the one-loop integrals (the kernels and integrals Imn, Jmn, Kmn, the spectra `OneLoopPS` and the two-loop `ImnOneLoop` are modelled with exact integrals; the Fortran FFTLog kernel is modelled over exact reals), SWIG glue other than the methods cited.
* `rsd/simulation`: the calibrated coefficient tables. Of `rsd/hzpt` the constructors from a cosmology and the parameter fits are not modelled; the container, tables, broadbands and default parameters are.

## Findings

The refuted properties below are defects of the pinned commit. Others met while reading (not all are in a theorem):
