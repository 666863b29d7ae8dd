# Formal model of kcorrect in Rocq (Coq 8.16.1)

The code in /repo (`src/kcorrect/*.py`) is read as text and transcribed, function by
function and branch by branch, into total Gallina functions.  Nothing is run.  The
theorems are about that transcription; the tie to the code is the citation on
every definition (file:lines) and the simplification notes beside it.

## 1. How the model is built

* **Exceptions as values.** `res A := Ok a | Raise e`, with `e` one of the Python
  exception classes the code can reach (ValueError, TypeError, IndexError, KeyError,
  UnboundLocalError, RuntimeError, OSError ...).  `raise("text")` in `utils.py` is modelled as what it
  does: a TypeError.
* **Arithmetic.** All numerical code is written once over a class `Num T` of operations
  (`+ - * /`, `sqrt`, `log10`, comparisons, ..., and `cst`, the rounding performed by a store to
  float32) **with no laws**.  Structural theorems (shapes, vectorisation, non-interference,
  error behaviour, histories, round trips) are proved for every `Num T`, hence also for an arithmetic that
  rounds.  Theorems whose content is a numerical identity are proved for the instance
  `xr` = reals plus +inf, -inf, NaN (IEEE rules for the special values, exact
  arithmetic on finite values, one zero).  Rounding itself is treated separately in `F32.v` with
  Flocq's float32 rounding for the redshift grid and `(1+z)(1+s)-1`.
* **Arrays.** `nd T` = shape (list of sizes) plus row-major data, as in numpy; code
  that is whole-array code in Python is whole-array code in the model, so "row i of
  the batch is the single call on row i" is a theorem, not a definition.
* **External routines** are Section variables (arguments of the theorems), never
  axioms: `scipy.optimize.nnls` (contract recorded where used), cubic `interp1d`,
  `brentq`, `cosmo.distmod`, the random stream, the file system.  Linear `interp1d`
  (the design-matrix interpolator) and `trapezoid` are modelled concretely.  For the cubic `interp1d` there is also a
  concrete model (`Spline.v`) and a specification (`SplineSpec.v`), for `brentq` a contract with tolerance.
* **State.** SED objects, the ResponseDict singleton, FITS files with crash points and
  the numpy heap (aliasing) are state machines over lists of operations.

## 2. Per property: model and proof

| id | what is modelled | how proved |
|----|------------------|------------|
| C01-C03 | `sdss_ab_correct` incl. shape checks, 1-D and N-D branches | column-update lemma for the loop; real algebra on powers of 10 |
| C04-C06 | `sdss_asinh_to_maggies` | sinh/arcsinh identities in R, derivative lemma, monotonicity |
| C07-C08 | `error_floor`, both branches, plus integer-dtype store | column loop = elementwise map; real inequality; witness for integer dtype |
| C09 | `maggies2flambda`, `sed_ab` | elementwise; real algebra |
| C10 | `read_basel` on word lists, parsers as variables | list slicing lemmas, any number of units |
| C11 | solar / Vega set-up loops with numpy broadcasting rules | case on number of units |
| C12-C13 | `SED` as state machine; set_redshift on exact reals | invariant by induction on the operation list; trapezoid scaling |
| C14 | `SED.tofits/fromfits`, `Template` | round trip on abstract HDU lists |
| C15 | `Response.__init__` sorting (argsort as a sort) | sortedness + permutation uniqueness |
| C16-C18, C21 | `Response.project` with mask, np.unique grid, trapezoid as called | discrete summation by parts; linearity of sums; grid lemmas |
| C19 | `set_lambda_eff` | weighted-mean bounds; counterexample |
| C20 | `set_fwhm_limits` with brentq contract | bracket lemma on first/last index |
| C22-C24 | `ResponseDict`, `all_responses` over an abstract file system | induction over histories |
| C25 | `_process_inputs` | case analysis on shapes, both directions |
| C26-C28, C30-C32 | `fit_coeffs`, `_fit_coeffs` with nnls as variable | induction over batch |
| C29 | same | contract of nnls; weighted rows vanish |
| C33-C36 | `_reconstruct`, linear `interp1d`, `_calc_Amatrix` | linear algebra over lists |
| C37-C38 | chunk loop; state of templates | induction on number of chunks |
| C39 | `Fitter.__init__` grid and `_reconstruct` shift in IEEE binary32 (`F32.v`, Flocq) | monotonicity and error bound of rounding; computed witnesses for the refutations |
| C40 | `Kcorrect.__init__` | `index` lemmas |
| C41-C43 | `kcorrect` | logarithm algebra on top of C33-C34 |
| C44-C48 | `absmag` | elementwise over nd arrays |
| C49 | `absmag_mc` with numpy broadcasting of assignments | induction on mc |
| C50-C52 | `derived`, `derived_mc` | elementwise; weighted means |
| C53-C54 | `tofits/fromfits` over an abstract file with crash points | round trip; case on crash points |
| C55, C68, C69 | memory cells and array views (`Heap.v`): aliasing of `np.float32(x)`, in-place stores of `KcorrectGST.to_ab`, slices | frame and separation lemmas; induction over draws and call histories |
| C56, C61, C62, C66 | composition of `to_ab`, `fit_coeffs`, `absmag`, `absmag_mc`, `fit_coeffs_asinh` | from C01, C04, C32; preprocessing lemma |
| C57, C58 | `set_solar_magnitude`, `set_vega2ab`, `maggies2flambda` on blank responses | real algebra; case on the cache |
| C59, C60 | `fit_coeffs` on NaN/inf photometry; `reconstruct` on batches | nnls argument check; vectorisation lemma |
| C63-C65, C67 | `fromfits` into existing objects, Template and Response files (`Persist.v`) | round trips over abstract HDU lists; case on the point of failure |
| C70-C73 | whole constructors `Kcorrect`, `KcorrectSDSS`, `KcorrectGST` on cache, files and shared templates | two-run simulation on states with equal rest-frame spectra; composition of C01, C28, C36, C40, C41, C55 |
| C74-C77 | argument checks of `fit_coeffs`, `absmag`, `reconstruct`, `project`; float32 stores; `set_fwhm_limits` on dark curves | case analysis on the order of the checks; invariant `cst v = v` |
| C78 | `interp1d(kind='cubic')` values (`Spline.v`: tridiagonal solve, pieces), specification in `SplineSpec.v` | existence by the solve, uniqueness by strict diagonal dominance after the not-a-knot elimination |
| C79 | `project` and the `1+band_shift` normalisation of `_reconstruct` | scaling of the integration grid, the spline and the AB spectrum; composition with C72 |
| C80 | `_fit_coeffs` with an exact solver (`NnlsSpec.v`) | least squares by Gram-Schmidt for every set of templates; from any nonnegative vector move towards the minimiser on its support until a coefficient vanishes |
| C81 | `_fit_coeffs`, `reconstruct` | variational inequality at the minimiser (directional derivative), projection on a convex cone is nonexpansive |
| C82 | `SED.plot` (`Plot.v`): the calls made to matplotlib up to an exception | induction over the indices; a filter and its extrema |
| C83 | any arithmetic with relative error u per operation (`RoundSpec.v`), binary 24-bit rounding as the instance | products of factors in [(1-u)^k, (1-u)^-k] |
| C84 | `_fit_coeffs`, `reconstruct` with a solver of bounded error (`ApproxSpec.v`) | variational inequality at the exact minimiser; triangle inequality for sqrt chi^2 |
| C85-C86 | `load_response`, `fromdat`, `set_redshift`, `project`, `_calc_Amatrix` as programs of atomic steps under any schedule (`Threads.v`) | rely-guarantee: objects only move towards their loaded state, each thread completes its own entries (`ThreadsPar.v`, `ThreadsInv.v`); agreement with the sequential model (`ThreadsSeq.v`) |
| C87-C89 | constructor, `fit_coeffs`, `kcorrect`, `absmag` composed (`PipeSpec.v`: chi^2 of a list of named measurements) | C72 expresses the fluxes by the synthetic photometry of the templates; strict convexity of chi^2 in the measured fluxes |
| C90 | pairs of constructed objects (`BlendSpec.v`: the spectrum of a set of templates and coefficients) | C72 with C78: the synthetic photometry of sampled spectra is one linear functional of the samples |
| C91 | pairs of response files, caches and constructions (`NormSpec.v`) | the code only uses ratios of integrals that are linear in the throughput; by C78 the splines are, too |
| C92 | pairs of redshifts (`SteadySpec.v`: design matrices of bounded logarithmic slope) | the linear interpolation keeps the slope; combined with C83 this compares rounded and exact kcorrect at the same redshift |
| C93 | `derived`, `kcorrect`, `absmag` for one object | composition of C41, C50 and the definition of absmag |
| C94-C97 | `bin/k_plot_test_gst`, `k_plot_test_mtol`, `k_plot_test_sdss` up to the calls of matplotlib (`Scripts.v`, `ScriptsSpec.v`) | closed forms of `sdss_ab_correct` and `error_floor` per row; C59 for the fits, C61 for the AB correction |
| C98, C99 | `bin/k_plot_test_v4_lrg1_colors`, `k_plot_test_v4_default_fit`, `k_plot_test_v4_lrg1_fit` up to the calls of matplotlib (`ScriptsV4.v`) | C36 for the table, C28 for the fit, the bounds of C18 on photometry; linearity of photometry (C90) |
| C100 | `fit_coeffs` in any arithmetic with relative error u per operation (`FitRoundSpec.v`) | entries of the weighted matrix have relative errors (as in C83); perturbed nonnegative least squares by triangle inequalities, the competitor 0 bounds the fluxes |
| C101 | programs over one template object, one response cache and any number of constructions (`SharedSpec.v`) | the methods read only restframe_flux's shape of the templates; rest-frame arrays and cached responses are invariants of all steps; two-run simulation of construction from two grown caches |
| C102 | `reconstruct`, `kcorrect`, `absmag`, `derived`, `fit_coeffs` of one object | Caratheodory's theorem for cones (`SparseProofs.v`); these results depend on the coefficients only through linear functionals that the proof lists |
| C103 | `Response.project` against Riemann integrals (`QuadSpec.v`) | error of the trapezoidal rule per cell from Rolle's theorem; splines are cubics between knots, so second derivatives are bounded on each cell |
| C104 | `reconstruct`, `reconstruct_out`, `kcorrect` of one object between grid redshifts | C72 gives linear interpolation between exact photometry at grid redshifts; error of a chord |
| C105 | `Response.project` in any arithmetic with relative error u per operation (`ProjRoundSpec.v`) | one factor per term of the sum; errors of the samples by summation by parts, so that they are not multiplied by wavelength over step |
| C106 | photometry in the design matrix, `reconstruct`, `reconstruct_out`, `kcorrect` against ratios of integrals (`FluxAccSpec.v`) | C103 for each template at each grid redshift, then C104 with the errors at the ends of the chord |
| C107 | the observed spectrum of docs/examples.rst (`ObsSpec.v`) against `reconstruct`, `reconstruct_out`, `kcorrect` | linearity of projections in the spectrum (C90) and the error of a chord (C104) |
| C108 | `fit_coeffs` of one object for different photometry (`ActiveSpec.v`) | optimality conditions of C81 add up; the residual changes no more than the photometry; Gram-Schmidt for the coefficients of templates that tell apart |
| C109 | `fit_coeffs` then `absmag` or `derived` of a catalogue (`CatSpec.v`) | batch theorems C27, C44, C50 composed; the AB correction by C61 row by row |
| C110 | fit_coeffs and absmag with abcorrect=True (InstrSpec.v) | C61 turns the correction into photometry; chi^2 is invariant under the change of system; then C28, C81, C88 |
| C111 | `SED.fromfits` on an existing object, assignment by assignment (`Reload.v`) | case on the point of failure; agreement with `sed_fromfits` |
| C112 | `set_Amatrix` when it raises | induction over the redshift loop; the methods depend on the table and the shape of the templates only |
| C113 | `utils.sdss_ab_correct`, `maggies2flambda`, `error_floor`, `sdss_asinh_to_maggies` in any arithmetic with relative error u per operation and function (`UtilsRoundSpec.v`) | one factor per rounding; errors of exponents and of the arguments of sinh and cosh as errors of the magnitude |
| C114 | `KcorrectSDSS`, `KcorrectGST` with other numbers of bands than the AB correction expects, through `fit_coeffs` and `absmag` (example objects in `WidthSpec.v`) | one object: TypeError; too few bands in a catalogue: IndexError; more than five SDSS bands: the others are ignored, and -9999 in `absmag`; that an object alone behaves as in a catalogue is refuted |
| C115 | `Kcorrect.derived` of one object in any arithmetic with relative error u per operation and function | one factor per rounding, the exponents' errors amplified by the distance modulus; the ratios do not feel the distance; comparisons with 0 come out as in exact arithmetic |
| C116 | fit_coeffs, kcorrect and absmag with abcorrect=True and an inexact solver, or a brighter object | as C110: C61 turns the correction into photometry, chi^2 and signal to noise are invariant; then C84 and C89 |
| C117 | the limits, reconstructed magnitudes and distance moduli of `Kcorrect.absmag` in any arithmetic with relative error u per operation and function | as C83: a flux off by p factors shifts a magnitude by at most 2.5 p log10(1/(1-u)), then six roundings; the sentinel is reached by comparisons that rounding cannot change |
| C118 | fit_coeffs of the parts of a catalogue, with Monte Carlo (`McCatSpec.v`) | C27 (a batch is the sequence of its single calls) and C32 (variates used per object); with abcorrect=True the fit is the one of the corrected photometry without AB correction (C56), which measures the same bands |

## 3. Trusted base

* Coq 8.16.1's kernel (and `vm_compute`, used for concrete examples and witnesses).
* Axioms: only the standard library's, through the real numbers: `ClassicalDedekindReals.sig_forall_dec`,
  `ClassicalDedekindReals.sig_not_dec`, `FunctionalExtensionality.functional_extensionality_dep`,
  `Classical_Prop.classic`.  Theorems that do not mention reals are closed under the global context.  `ASSUMPTIONS.md`
  lists the output of `Print Assumptions` per theorem (generated by `tools/assumptions.py`).  The only
  other libraries used are Flocq (IEEE arithmetic) and Coquelicot (derivatives and integrals, C13, C103, C104, C106, C107); they add no axiom.
* That the transcription is faithful: each definition cites the lines it models.  Model files: `Base.v` (numpy
  shapes, broadcasting, slices, reshape, squeeze), `Num.v`, `F32.v` (arithmetic), `Utils.v` (utils.py), `Interp.v`
  (scipy interp1d, np.unique, trapezoid), `Sed.v` (template.py SED), `Response.v`, `RespDict.v` (response.py),
  `Fitter.v` (fitter.py and the to_ab methods), `Kcorrect.v` (kcorrect.py), `Persist.v` (FITS files), `RespCols.v` (ASCII response tables), `Heap.v`
  (arrays in memory), `Spline.v` (cubic interp1d), `Plot.v` (SED.plot), `Threads.v` (threads), `Scripts.v`, `ScriptsV4.v` (example programs).
* Specifications used by the statements: `Spec.v`, `FitSpec.v`, `KSpec.v`, `PersistSpec.v`, `HeapSpec.v`, `F32Spec.v`,
  `BuildSpec.v`, `SplineSpec.v`, `ShiftSpec.v`, `NnlsSpec.v`, `PlotSpec.v`, `RoundSpec.v`, `ApproxSpec.v`, `PipeSpec.v`, `BlendSpec.v`, `NormSpec.v`, `SteadySpec.v`, `ScriptsSpec.v`, `FitRoundSpec.v`, `SharedSpec.v`, `SparseSpec.v`, `QuadSpec.v`, `ProjRoundSpec.v`, `UtilsRoundSpec.v`, `WidthSpec.v`; for C85-C86 they are at the end of `Threads.v`.
  Theorems, each with an example next to it: `Prop_*.v`.  Everything else is proof.

### Modelled

Every function of utils.py, response.py, template.py, fitter.py and kcorrect.py except those listed below, with all
branches, exceptions and the order of side effects.

### Not modelled, or simplified

* docs/ and benchmarks/, and what the programs in bin/ draw; `response_dtype` and `sed_dtype` (record layouts).
* Numerical routines outside the package are parameters: `optimize.nnls` (a theorem that needs its contract states
  it), `brentq` (contract `root_finder`), cosmology, `np.random.normal`.  Their argument checks that the code
  relies on (NaN/inf rejected by nnls, range checks and shape checks of interp1d) are modelled.  Cubic `interp1d`
  values are a parameter `cub`; theorems that need the values assume `splines cub` (C78: satisfied by exactly one
  curve, computed by `Spline.notaknot`).
* Arithmetic: theorems on numerical identities are about exact reals with IEEE special values (`xr`) or, where
  every value is finite and every divisor nonzero, about reals (`R`, where x/0 is a junk value that the hypotheses
  exclude).  Rounding is covered by the theorems for every `Num T` and, for C38 and C39, by IEEE binary32; C83
  bounds the rounding errors of `reconstruct`, `kcorrect` and `absmag`, C100 those of `fit_coeffs`, C105 those of `project`.
  The float32 instance rounds every operation to float32; where numpy promotes a scalar expression to float64 the
  intermediate rounding differs.
* Sums in einsum, dot and np.sum are left folds; numpy may use another order (C83_left_fold bounds the effect).
* dtypes: arrays are float arrays; integer arrays appear where they change behaviour (`error_floor`), lists and
  other dtypes in `Heap.v`.  Complex, object and string arrays are not modelled.
* Except in `Heap.v`, arrays are values.  `Heap.v` shows which calls write to arrays of the caller; the other
  theorems describe results as functions of the contents at the time of the call.
* Text files are lists of words (Basel files) or lists of rows (response files); FITS files are lists of named
  HDUs with named columns.  Byte encodings and astropy internals are not modelled.  Crash points are between HDU
  writes and at the final file replacement.
* Concurrency: `Threads.v` models threads that load responses and build design matrices, one step being one read or one
  store of a shared attribute or dictionary entry (the package itself starts no threads).  The three stores of
  set_fwhm_limits are one step; the files do not change.  Fits, reconstructions and files are not interleaved.

### Validation of the transcription

Besides the mutation tests (`seeded/LOG.jsonl`), the model was extracted to OCaml with doubles, an active-set nnls, the
spline of `Spline.v` and bisection, and run on the data files in /repo (the program itself was not run, and the extraction
is not part of this development).  It agrees with the values that the project's own tests expect:

* `vega2ab` and `solar_magnitude` of sdss_u0 and twomass_Ks to 1e-4 (tests/kcorrect/test_response.py);
* an AB source projected on sdss_u0 gives 1 to 12 digits;
* `Kcorrect` with the v4 templates and six responses at z=0.2532: the shapes of coeffs, kcorrect, derived, absmag (with
  reconstruct and limit) for one object and for a batch, nonnegative coefficients, and the batch row equal to the single call;
* kcorrect with band_shift = z gives -2.5 log10(1+z) in all six bands (the tests check this identity);
* `KcorrectGST` and `KcorrectSDSS` with asinh input run and have the shapes that the tests check.
