{
 "C01": [
  "proved",
  "Exact real arithmetic."
 ],
 "C02": [
  "proved",
  "Exact real arithmetic."
 ],
 "C03": [
  "proved",
  "Exact behaviour for other band counts, and the refutation of 'every band is corrected or the call fails'."
 ],
 "C04": [
  "proved",
  "Exact real arithmetic."
 ],
 "C05": [
  "proved",
  "Exact real arithmetic; the derivative is Coq's derivable_pt_lim."
 ],
 "C06": [
  "proved",
  "The ivar ignores extinction; S/N is preserved exactly when the flux or the extinction is 0."
 ],
 "C07": [
  "proved",
  "Exact real arithmetic; row-wise law for any arithmetic."
 ],
 "C08": [
  "proved",
  "Idempotence for float arrays; integer arrays lose the band."
 ],
 "C09": [
  "proved",
  "Exact real arithmetic."
 ],
 "C10": [
  "proved",
  "Words of the file are abstract; parsing of a single number is a parameter."
 ],
 "C12": [
  "proved",
  "Any arithmetic, any history of calls including failing ones; the unconditional 'never stale' claim is refuted for a call that raises."
 ],
 "C13": [
  "proved",
  "Exact real arithmetic; C13_integral for a single spectrum and the contract of cubic interpolation (C78)."
 ],
 "C14": [
  "proved",
  "Rest-frame arrays up to float32 rounding in the table layout; FITS bytes are not modelled. One-sample spectra cannot be read back."
 ],
 "C11": [
  "proved",
  "Any arithmetic for the failure, exact reals for the scaling."
 ],
 "C15": [
  "proved",
  "Exact reals; distinct wavelengths for order independence. Construction succeeds for the spline and any root finder with a tolerance."
 ],
 "C16": [
  "proved",
  "Exact reals; for any interpolating function, and for the spline when the source has the samples of the response."
 ],
 "C17": [
  "proved",
  "Exact reals; linear for the cubic spline."
 ],
 "C18": [
  "proved",
  "Exact formula; proper ratio when the SED brackets the band; refuted otherwise. Over the reals, so meaningful where the AB integral is nonzero. Refuted also for the spline, with overshoot when all samples are positive."
 ],
 "C19": [
  "proved",
  "Inside the band for responses vanishing at both ends; refuted for a flat response."
 ],
 "C20": [
  "proved",
  "For any root finder that meets its contract on sign-changing brackets between samples; for the spline and a root finder with a tolerance without further assumptions."
 ],
 "C21": [
  "proved",
  "Exact reals."
 ],
 "C57": [
  "proved",
  "Exact reals; one-model Basel files."
 ],
 "C22": [
  "proved",
  "Any arithmetic, any history of loads with files changing in between."
 ],
 "C23": [
  "proved",
  "Any arithmetic."
 ],
 "C24": [
  "proved",
  "File names without newlines; refuted for a name with a trailing newline."
 ],
 "C58": [
  "proved",
  "Extended reals with NaN."
 ],
 "C25": [
  "proved",
  "For the Fitter methods (fit_coeffs, reconstruct, _process_inputs)."
 ],
 "C26": [
  "proved",
  "Any arithmetic. The documented shape is refuted (C26_documented_refuted)."
 ],
 "C27": [
  "proved",
  "Any arithmetic; batch = sequence of scalar calls, with the one-band exceptions stated and the unrestricted claim refuted. Without AB correction."
 ],
 "C28": [
  "proved",
  "Exact reals; scipy's nnls is an oracle with its stated contract; includes the retry and the Monte Carlo draws."
 ],
 "C29": [
  "proved",
  "Reals with NaN and infinities; includes the Monte Carlo coefficients."
 ],
 "C30": [
  "proved",
  "Any arithmetic."
 ],
 "C31": [
  "proved",
  "Any arithmetic."
 ],
 "C32": [
  "proved",
  "Any arithmetic; the random stream is an arbitrary sequence with a cursor."
 ],
 "C33": [
  "proved",
  "Exact reals, band_shift different from -1."
 ],
 "C34": [
  "proved",
  "Exact reals, band_shift different from -1."
 ],
 "C35": [
  "proved",
  "Exact reals, given the nnls contract."
 ],
 "C36": [
  "proved",
  "Grid and interpolation over exact reals; table construction for any arithmetic with exact stores."
 ],
 "C37": [
  "proved",
  "Equality for every number of templates in exact arithmetic, for any arithmetic without a one-template group, and a refutation for 1001 templates with rounding stores."
 ],
 "C38": [
  "proved",
  "Any arithmetic in which multiplying and dividing by 1+0 is exact. Also in IEEE binary32."
 ],
 "C59": [
  "proved",
  "Reals with NaN and infinities."
 ],
 "C60": [
  "proved",
  "Any arithmetic."
 ],
 "C40": [
  "proved",
  "The constructor with explicit responses; also: every constructed object satisfies the readiness condition the other theorems assume."
 ],
 "C41": [
  "proved",
  "Over exact reals with infinities and NaN (no float32 rounding); objects without AB correction."
 ],
 "C42": [
  "proved",
  "Same arithmetic as C41."
 ],
 "C43": [
  "proved",
  "Exact reals, redshifts inside the grid after shifting."
 ],
 "C44": [
  "proved",
  "Exact reals with infinities and NaN; the cosmological distance modulus is an arbitrary function of redshift; without abcorrect."
 ],
 "C45": [
  "proved",
  "As C44."
 ],
 "C46": [
  "proved",
  "As C44; the failures are the _refuted theorems."
 ],
 "C47": [
  "proved",
  "As C44."
 ],
 "C48": [
  "proved",
  "Any arithmetic, any object state."
 ],
 "C49": [
  "proved",
  "Any arithmetic, all instrument kinds, with or without abcorrect. Value semantics: the in-place writes of the GST correction into the caller arrays are not visible here."
 ],
 "C50": [
  "proved",
  "The law for any arithmetic; scaling with infinities and NaN; metallicity and history bounds over the reals; batch rows in exact arithmetic for equal numbers of input and output bands (otherwise C51_bands). The documented shape is refuted (C50_documented_refuted)."
 ],
 "C51": [
  "proved",
  "Any arithmetic. The TypeError needs at least one object; the IndexError at least one output band."
 ],
 "C52": [
  "proved",
  "Any arithmetic; also the failing case."
 ],
 "C55": [
  "proved",
  "Float32 aliasing is modelled on a memory of cells (Heap.v). redshift, coeffs and distance are passed by value; read-only arrays are not modelled."
 ],
 "C56": [
  "proved",
  "Extended reals, single objects, any number of draws."
 ],
 "C61": [
  "proved",
  "Any arithmetic in which rounding to the storage type is the identity; documented shapes."
 ],
 "C62": [
  "proved",
  "Extended reals, arrays of any shape with five bands."
 ],
 "C53": [
  "proved",
  "Over the reals (the tables are evaluated at the grid points and interpolated again, which is exact only up to rounding). The file is modelled as a list of HDUs; float32/float64 columns exact, response names ASCII. range_refuted: redshift_range (0, 1/2) becomes (0, 0)."
 ],
 "C54": [
  "proved",
  "Crash points: file operations and whole HDUs (remove, HDU-wise write, the temporary file of astropy's update, rename); partially written HDUs are not modelled."
 ],
 "C63": [
  "proved",
  "Over the reals."
 ],
 "C64": [
  "proved",
  "missing_response over the reals; unreadable for every arithmetic."
 ],
 "C65": [
  "proved",
  "Any arithmetic; 1-D arrays with at least one element; without interpolator."
 ],
 "C66": [
  "proved",
  "class_lost over the reals; offset over the reals with infinities and NaN."
 ],
 "C67": [
  "proved",
  "The round trip is over the reals, for at least two samples. Parsing of ASCII tables by astropy is not modelled: fromdat_table starts from the parsed columns."
 ],
 "C68": [
  "proved",
  "Arrays are ndarrays without overlap inside themselves."
 ],
 "C69": [
  "proved",
  "Exact arithmetic; arrays disjoint."
 ],
 "C39": [
  "proved",
  "IEEE binary32 arithmetic (Flocq). The claims that every redshift in the range is fitted, reconstructed and has distinct neighbours in the grid are refuted, with sufficient conditions met by both defaults."
 ],
 "C70": [
  "proved",
  "Any arithmetic. That a failing construction leaves the templates at redshift 0 is refuted."
 ],
 "C71": [
  "proved",
  "Extended reals for the offsets, any arithmetic for the defaults. Refuted for another order of the responses."
 ],
 "C72": [
  "proved",
  "Exact arithmetic; the spline of scipy is an oracle, the solver is known by its contract."
 ],
 "C73": [
  "proved",
  "Exact arithmetic. Sufficient conditions; a response without overlap with a template has zero photometry and does not fail."
 ],
 "C74": [
  "proved",
  "Every arithmetic. For calls without AB correction."
 ],
 "C75": [
  "proved",
  "Every arithmetic."
 ],
 "C76": [
  "proved",
  "Every arithmetic whose rounding is idempotent."
 ],
 "C77": [
  "proved",
  "Dark curves: extended reals, for splines that interpolate zeros by zero."
 ],
 "C78": [
  "proved",
  "Exact reals. The model computes the spline; that scipy computes a not-a-knot spline is its documentation."
 ],
 "C79": [
  "proved",
  "Exact reals; at grid redshifts for reconstruct and kcorrect, at every redshift for project."
 ],
 "C80": [
  "proved",
  "Exact reals. The solver exhibited enumerates the sets of templates; it shows the contract satisfiable and is not a model of scipy's."
 ],
 "C81": [
  "proved",
  "Exact reals; solvers that meet the contract. The dependence of coefficients and of fluxes at other redshifts on the solver is proved as a refutation."
 ],
 "C82": [
  "proved",
  "The calls made to matplotlib, not what it draws; limits and redshift over exact reals."
 ],
 "C83": [
  "proved",
  "Standard model of floating-point arithmetic: no underflow or overflow. Errors relative to the exact interpolation of the stored table at the rounded redshift (C92 bounds the difference to the exact one). The bounds are for sums in order; the effect of any other order is bounded separately (C83_left_fold)."
 ],
 "C84": [
  "proved",
  "Error of the solver relative to the sum of squares of the data, in exact arithmetic around it; nb <> 1 and no AB correction as in C28."
 ],
 "C85": [
  "proved",
  "Every arithmetic. One step is one read or store of a shared attribute or entry. That load_response may return before the response is usable, and that two dictionaries can be made, are proved as refutations."
 ],
 "C86": [
  "proved",
  "Every arithmetic; the files of the responses can be loaded. The TypeError and the wrong matrix with shared templates are proved as refutations."
 ],
 "C87": [
  "proved",
  "Exact arithmetic; solvers meeting the contract of scipy.optimize.nnls; two or more bands, objects without AB correction."
 ],
 "C88": [
  "proved",
  "Exact arithmetic; a solver meeting the contract of scipy.optimize.nnls; two or more bands, objects without AB correction."
 ],
 "C89": [
  "proved",
  "Exact arithmetic; solvers meeting the contract of scipy.optimize.nnls; two or more bands, objects without AB correction."
 ],
 "C90": [
  "proved",
  "For objects constructed by the model of Kcorrect, with the interpolation any function meeting the specification of not-a-knot cubic splines (C78) and the solvers meeting nnls_contract; kcorrect and absmag for coefficients with a positive sum, as in C72; absmag and fits without abcorrect."
 ],
 "C91": [
  "proved",
  "The interpolation is any function meeting the specification of not-a-knot cubic splines (C78); the effective-wavelength and width searches are those of the model. The stored throughput curve itself is multiplied by the factor (stated in C91_response)."
 ],
 "C92": [
  "proved",
  "Coefficients nonnegative with a positive sum; redshifts (and for the rounded version all redshifts within the rounding error) in the range of the grid. absmag without absmag_limit/abcorrect."
 ],
 "C93": [
  "proved",
  "Exact real arithmetic."
 ],
 "C94": [
  "proved",
  "Catalogue columns are taken as float32 values with NaN and infinities, arithmetic on the finite ones exact; reading FITS files and drawing are not modelled. Table of the fitter finite, OBJECT_POSITION a valid index."
 ],
 "C95": [
  "proved",
  "Exact real arithmetic; same simplifications as C94."
 ],
 "C96": [
  "proved",
  "Residuals over exact reals; drawing is not modelled."
 ],
 "C97": [
  "proved",
  "The positive part and the refutation are separate theorems; exact reals."
 ],
 "C98": [
  "proved",
  "Exact reals; the SED object read from the file is an argument; drawing is not modelled."
 ],
 "C99": [
  "proved",
  "Exact reals; the solver is assumed to meet the NNLS contract (C99_runs: to return); drawing is not modelled."
 ],
 "C100": [
  "proved",
  "Standard model of floating-point arithmetic (no underflow or overflow); the constants are not optimal. The solver works on the rounded problem with a bounded error in exact arithmetic."
 ],
 "C101": [
  "proved",
  "Any Num; cubic interpolation, root finding and reference spectra are arbitrary. The templates are shared by reference as in the code. Methods that change an object (fromfits) are not among the operations."
 ],
 "C102": [
  "proved",
  "Exact reals, one object; fits without abcorrect, with at least two responses."
 ],
 "C103": [
  "proved",
  "Exact reals; cubic interpolation under its contract (splines, C78). Integrals are Coquelicot's Riemann integrals. Responses whose end samples are zero, as the wavelengths outside contribute steps to the sums otherwise."
 ],
 "C104": [
  "proved",
  "Exact reals, one object; batches reduce to single objects by C27 and C60."
 ],
 "C105": [
  "proved",
  "Standard model of floating-point arithmetic (no underflow or overflow), one u for all operations; rounding in the interpolation itself is not covered: the interpolated values are taken as computed."
 ],
 "C106": [
  "proved",
  "Responses that end with zeros and lie inside the templates at every grid redshift; exact arithmetic; the spline of the model."
 ],
 "C107": [
  "proved",
  "Exact reals, one object; cubic interpolation under its contract (splines, C78). The spectrum is sampled where the templates are; redshifts between those of the grid with the error bounds of C104."
 ],
 "C108": [
  "proved",
  "Exact reals, one object, without abcorrect, at least two responses; the redshift and the inverse variances are the same for all photometry compared. nearby: any neighbourhood that exists, not a given size; unused gives one explicitly."
 ],
 "C109": [
  "proved",
  "Exact arithmetic with special values; mc=0, at least two responses; derived for equal numbers of input and output bands or none; abcorrect for finite photometry and the band numbers of the classes."
 ],
 "C110": [
  "proved",
  "Exact reals, one object; solvers meeting the NNLS contract; 5 bands for SDSS, at least 7 for GST; not the Monte Carlo draws (C56)."
 ],
 "C111": [
  "proved",
  "Any number type; files as lists of HDUs. Includes the refutation of 'a fromfits that raises leaves the object as it was'."
 ],
 "C112": [
  "proved",
  "Any number type and arithmetic."
 ],
 "C113": [
  "proved",
  "Standard model of floating-point arithmetic without underflow and overflow (RoundSpec.v, UtilsRoundSpec.v); nonzero wavelengths, fluxes (error_floor) and magnitude errors."
 ],
 "C114": [
  "proved",
  "Through _process_inputs, to_ab and sdss_ab_correct, for any arithmetic, solver and random numbers. That an object alone is treated as it is in a catalogue is refuted for such objects."
 ],
 "C115": [
  "proved",
  "Standard model of rounding without underflow and overflow; the distance modulus is taken as the cosmology returns it. One object; a catalogue stores the ratios once more as float32."
 ],
 "C116": [
  "proved",
  "Solvers are any functions within eps of the optimum (C84) or exact ones (the claim about brighter objects); numbers are reals."
 ],
 "C117": [
  "proved",
  "Single objects without AB correction; no underflow or overflow; the cosmology's distmod is taken as it is."
 ],
 "C118": [
  "proved",
  "The generator is a stream of variates with a position; a part of one object with Monte Carlo never returns (C31), hence the restriction on the cut. The AB versions are for finite photometry of the extended reals."
 ]
}