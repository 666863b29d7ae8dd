{"id": "C01", "title": "SDSS-to-AB correction is an exact magnitude offset", "statement": "sdss_ab_correct multiplies the flux of band i by 10^(-0.4*abfix_i) and divides its inverse variance by the square of that factor, for a single 5-band object and for every row of an [N,5] array alike; consequently the magnitude of every positive flux moves by exactly abfix_i, signal-to-noise (maggies^2*ivar) is unchanged, and signs (including zero flux and zero ivar) are preserved.", "quantifier": "all maggies, ivar, all 5-element abfix, all N", "why_tests_cant": "the claim is about every flux value and every abfix, and about every number of rows", "anchors": ["src/kcorrect/utils.py:sdss_ab_correct"]}
{"id": "C02", "title": "SDSS-to-AB correction is invertible", "statement": "Applying sdss_ab_correct with abfix and then with the negated abfix returns the original maggies and ivar.", "quantifier": "all maggies, ivar, abfix, 1-D and 2-D", "why_tests_cant": "a round trip over every flux and offset", "anchors": ["src/kcorrect/utils.py:sdss_ab_correct"]}
{"id": "C03", "title": "SDSS-to-AB correction on a wrong number of bands", "statement": "sdss_ab_correct rejects a 1-D input whose length is not 5 (TypeError). For an array of 2 or more dimensions the last-axis length is not checked: fewer than 5 columns raises IndexError, and with more than 5 columns the first five are corrected and every further column of the returned maggies and ivar is silently zero.  So 'every input band is either corrected or the call fails' holds for 1-D input and is false for 2-D input.", "quantifier": "all shapes and contents", "why_tests_cant": "a shape-generic statement; tests only use five columns", "anchors": ["src/kcorrect/utils.py:sdss_ab_correct"]}
{"id": "C04", "title": "asinh magnitudes convert to maggies by the exact inverse of the asinh definition", "statement": "For zero extinction, the flux returned by sdss_asinh_to_maggies for asinh magnitude m in band k is the unique flux f with m = -(2.5/ln 10)(asinh(f/(2 b_k)) + ln b_k); it is strictly decreasing in m, below 10^(-0.4 m) by exactly b_k^2 10^(0.4 m), and positive iff m < -2.5 log10 b_k. Errors or extinctions of another shape, and other than five bands, raise TypeError.", "quantifier": "all magnitudes, all five bands, any number of objects", "why_tests_cant": "an inverse-function law over all reals", "anchors": ["src/kcorrect/utils.py:sdss_asinh_to_maggies"]}
{"id": "C05", "title": "asinh magnitude errors propagate to first order exactly", "statement": "For zero extinction the returned inverse variance is 1/(|df/dm| * mag_err)^2 where df/dm is the derivative of the returned flux with respect to the magnitude.", "quantifier": "all magnitudes, all nonzero errors, all bands", "why_tests_cant": "a derivative identity", "anchors": ["src/kcorrect/utils.py:sdss_asinh_to_maggies"]}
{"id": "C06", "title": "Extinction correction scales flux only, not its error", "statement": "sdss_asinh_to_maggies multiplies the flux of each band by 10^(0.4*extinction), but the inverse variance does not depend on extinction at all; so signal-to-noise is preserved by the extinction correction only when extinction (or the flux) is zero, contrary to the docstring's 'applies extinction (after converting to maggies)' reading that maggies and ivar stay consistent.", "quantifier": "all mags, errors, extinctions", "why_tests_cant": "relates two calls for every input", "anchors": ["src/kcorrect/utils.py:sdss_asinh_to_maggies", "src/kcorrect/kcorrect.py:KcorrectSDSS.fit_coeffs_asinh"]}
{"id": "C07", "title": "error_floor enforces the fractional floor and nothing else", "statement": "For float inputs error_floor returns, for every entry with ivar > 0 and nonzero flux, min(ivar, 1/(|maggies|*floor)^2) when floor > 0 (so the fractional error 1/(|m| sqrt(ivar)) of the result is at least the floor and the inverse variance never increases); entries with ivar <= 0 or zero flux, and bands with floor <= 0, come back unchanged; the result for row i of a 2-D call is the 1-D result of row i.", "quantifier": "all maggies, ivar, floors, any number of bands and rows", "why_tests_cant": "a pointwise functional specification over all reals and shapes", "anchors": ["src/kcorrect/utils.py:error_floor"]}
{"id": "C08", "title": "error_floor is idempotent; integer ivar is truncated", "statement": "Applying error_floor twice with the same floor and maggies equals applying it once. When the ivar argument is an integer array the lowered values are truncated toward zero on assignment, so a positive inverse variance can become 0 (the measurement is silently discarded).", "quantifier": "all float inputs; existence for integer input", "why_tests_cant": "idempotence quantifies over all inputs; dtype truncation is never exercised by tests", "anchors": ["src/kcorrect/utils.py:error_floor"]}
{"id": "C09", "title": "maggies2flambda is a per-band unit conversion", "statement": "maggies2flambda multiplies band i by the AB source flux density at the effective wavelength of response i and divides ivar by its square, equally for 1-D and each row of 2-D input; signal-to-noise is preserved, and the result is invertible whenever the effective wavelengths are nonzero.", "quantifier": "all maggies, ivar, responses, N", "why_tests_cant": "all inputs and numbers of rows", "anchors": ["src/kcorrect/utils.py:maggies2flambda", "src/kcorrect/utils.py:sed_ab"]}
{"id": "C10", "title": "read_basel parses every well-formed Basel file back to what was written", "statement": "For any wavelength vector of 1221 numbers and any list of models (6 metadata words and 1221 fluxes each) laid out in order, read_basel returns exactly those wavelengths and, for unit u, exactly the metadata and flux of model u; trailing words fewer than one full unit are ignored; fewer than 1221 words raises.", "quantifier": "all file contents, any number of units", "why_tests_cant": "round trip over files of every length", "anchors": ["src/kcorrect/utils.py:read_basel"]}
{"id": "C11", "title": "Solar/Vega spectrum set-up works for one-model files only", "statement": "Building the solar (Vega) spectrum from a Basel file scales every flux by 4*pi*c/wave^2*(R/d)^2 when the file holds exactly one model, and raises ValueError for every file holding two or more models (the in-loop row assignment cannot broadcast).", "quantifier": "all numbers of models and all fluxes", "why_tests_cant": "only one file is ever read by tests", "anchors": ["src/kcorrect/response.py:Response.set_solar_magnitude", "src/kcorrect/response.py:Response.set_vega2ab"]}
{"id": "C12", "title": "set_redshift is history independent", "statement": "After any sequence of set_redshift / set_interp calls, an SED's wave, flux, redshift and interpolator depend only on the rest-frame spectrum and the last redshift set; the rest-frame arrays never change, and after calls that return the interpolator is the one of the current wave/flux. A call that raises, such as set_redshift(-1), leaves a stale interpolator.", "quantifier": "all operation sequences, all redshifts", "why_tests_cant": "an invariant over histories of any length", "anchors": ["src/kcorrect/template.py:SED.set_redshift", "src/kcorrect/template.py:SED.set_interp", "src/kcorrect/template.py:SED._setup"]}
{"id": "C13", "title": "set_redshift conserves bolometric flux", "statement": "For every redshift z != -1 the trapezoidal integral of flux over wave equals that of the rest-frame spectrum, for every SED of the set and every wavelength grid. For z > -1 the integral of the cubic through the samples is conserved too.", "quantifier": "all spectra, grids, redshifts", "why_tests_cant": "an identity over all grids and redshifts", "anchors": ["src/kcorrect/template.py:SED.set_redshift"]}
{"id": "C14", "title": "SED FITS output is the rest-frame spectrum", "statement": "tofits followed by fromfits returns the rest-frame wave and flux whatever redshift was set when writing, for table and binimage layout, and the reloaded object is at redshift 0. Reading a file without the extension, or a table without a column needed, raises KeyError.", "quantifier": "all SEDs, all histories of set_redshift, both layouts", "why_tests_cant": "round trip over histories", "anchors": ["src/kcorrect/template.py:SED.tofits", "src/kcorrect/template.py:SED.fromfits", "src/kcorrect/template.py:Template.__init__"]}
{"id": "C15", "title": "Response construction sorts by wavelength", "statement": "A Response built from wave/response arrays in any order holds the same samples sorted by increasing wavelength, each response value still attached to its wavelength; two inputs that are permutations of each other (distinct wavelengths) give the same object.", "quantifier": "all lengths, all permutations", "why_tests_cant": "all permutations of any length", "anchors": ["src/kcorrect/response.py:Response.__init__", "src/kcorrect/response.py:Response.fromdat"]}
{"id": "C16", "title": "An AB source projects to exactly 1 maggy", "statement": "Projecting a spectrum that equals the AB reference on the integration grid gives 1 through every response whose AB integral is nonzero.", "quantifier": "all responses, all wavelength grids", "why_tests_cant": "quantifies over all bandpasses and grids", "anchors": ["src/kcorrect/response.py:Response.project", "src/kcorrect/utils.py:sed_ab"]}
{"id": "C17", "title": "Projection is linear in flux and independent per SED", "statement": "project of a set of SEDs gives for each SED what it gives for that SED alone, and is linear: scaling the flux scales the maggies, and the projection of a linear combination is the linear combination of projections.", "quantifier": "all SED sets, coefficients, grids", "why_tests_cant": "linearity over all spectra", "anchors": ["src/kcorrect/response.py:Response.project"]}
{"id": "C18", "title": "Projection integrates by swapped trapezoid arguments", "statement": "project calls the trapezoid rule with ordinate and abscissa swapped, which equals boundary term minus the proper integral; hence maggies equal the proper ratio of trapezoid integrals whenever the integrand vanishes at both ends of the integration grid (in particular whenever the SED grid extends beyond the band on both sides), and there are responses and spectra with nonzero response at the band edge for which they do not. For a nonnegative response inside the spectrum they lie between the smallest and the largest ratio of the spectrum to the AB source.", "quantifier": "all grids and integrands; existence of failing case", "why_tests_cant": "an integration-by-parts identity over all grids", "anchors": ["src/kcorrect/response.py:Response.project"]}
{"id": "C19", "title": "Effective wavelength lies inside the band only for responses that vanish at their edges", "statement": "For every nonnegative, not identically zero response whose first and last samples are zero, lambda_eff is the response-weighted geometric mean and lies in [wave[0], wave[-1]]; for responses not vanishing at the edges this fails: a flat response gives a lambda_eff outside the band.", "quantifier": "all wavelength grids and responses; existence for the failure", "why_tests_cant": "all bandpass shapes", "anchors": ["src/kcorrect/response.py:Response.set_lambda_eff"]}
{"id": "C20", "title": "FWHM limits are well bracketed", "statement": "For every response with a positive maximum the root finder is always called on a sign-changing bracket, fwhm_low and fwhm_high lie within the wavelength range, fwhm_low <= fwhm_high, fwhm >= 0, and the response is at half maximum at each limit that is not a band edge.", "quantifier": "all response curves", "why_tests_cant": "a bracket invariant over all curves", "anchors": ["src/kcorrect/response.py:Response.set_fwhm_limits"]}
{"id": "C21", "title": "Projection returns 0 unless an SED sample falls inside the band", "statement": "project returns 0 for every spectrum that has no wavelength sample within [wave[0], wave[-1]] of the response, including spectra that bracket and cover the whole band; otherwise the integration grid is strictly increasing, contains every response wavelength and every in-band SED wavelength, and at most one SED sample beyond each end.", "quantifier": "all grids", "why_tests_cant": "depends on the relative position of two arbitrary grids", "anchors": ["src/kcorrect/response.py:Response.project"]}
{"id": "C22", "title": "Response cache loads once and never changes other entries", "statement": "load_response without reload on a present name changes nothing; any successful load leaves all other names' entries untouched; after any sequence of loads a name's entry is the one created by its first (or last reload) load.", "quantifier": "all operation histories, all names", "why_tests_cant": "histories of unbounded length on a process-wide singleton", "anchors": ["src/kcorrect/response.py:ResponseDict.load_response", "src/kcorrect/response.py:ResponseDictSingleton"]}
{"id": "C23", "title": "A failed response load poisons the cache", "statement": "If reading a response file fails, load_response raises but leaves a blank entry under that name, so the next load_response of the same name succeeds without loading anything, and all_responses(check_validity=True) reports the invalid response as valid the second time it is called.", "quantifier": "all names and file-system contents", "why_tests_cant": "a two-call history with a fault in the first", "anchors": ["src/kcorrect/response.py:ResponseDict.load_response", "src/kcorrect/response.py:all_responses"]}
{"id": "C24", "title": "all_responses lists exactly the .dat files", "statement": "all_responses(dir) returns the base names of exactly the regular files in dir whose name ends in .dat, in directory order, each once; with check_validity it returns the sub-list whose names load from the package response directory (not from dir).", "quantifier": "all directory listings", "why_tests_cant": "all directory contents", "anchors": ["src/kcorrect/response.py:all_responses"]}
{"id": "C25", "title": "Input validation accepts exactly the documented shapes", "statement": "fit_coeffs, kcorrect, absmag and reconstruct accept redshift of dimension 0 (maggies/ivar/coeffs 1-D of the right length) or 1 (2-D with one row per redshift and the right number of columns) and raise for every other combination (None redshift: ValueError/TypeError; >1-D redshift: TypeError; any mismatch: ValueError) before doing any computation.", "quantifier": "all shapes of all arguments", "why_tests_cant": "all combinations of ranks and sizes", "anchors": ["src/kcorrect/fitter.py:Fitter._process_inputs"]}
{"id": "C26", "title": "fit_coeffs output shape", "statement": "With mc=0, a scalar redshift gives coeffs of shape [ntemplates]; an array of n redshifts, including n=1 and n=0, gives shape [n, ntemplates]. That a single object gets [1, ntemplates], as docs/templates.rst says, is refuted.", "quantifier": "all n, numbers of bands and templates", "why_tests_cant": "all sizes", "anchors": ["src/kcorrect/fitter.py:Fitter.fit_coeffs"]}
{"id": "C27", "title": "fit_coeffs is vectorised: row i is the single-object fit", "statement": "With mc=0 and at least two bands, row i of the array result is the result of the scalar call on redshift i, maggies row i and ivar row i, whatever the other rows contain; for one band the scalar and one-object calls raise, whereas the same object inside a batch of two or more is fitted.", "quantifier": "all batches", "why_tests_cant": "all batch sizes and contents; order independence", "anchors": ["src/kcorrect/fitter.py:Fitter.fit_coeffs", "src/kcorrect/fitter.py:Fitter._fit_coeffs"]}
{"id": "C28", "title": "Fitted coefficients are nonnegative and optimal", "statement": "Given that the NNLS routine meets its contract whenever it converges, every coefficient returned by fit_coeffs is >= 0 and the weighted chi^2 of the returned coefficients is no larger than that of any other nonnegative coefficients, also when the solver only converges on the retry with the larger iteration limit; if neither attempt converges the call raises RuntimeError.", "quantifier": "all photometry, redshifts in range, all nonnegative competitors", "why_tests_cant": "optimality against every competitor", "anchors": ["src/kcorrect/fitter.py:Fitter._fit_coeffs"]}
{"id": "C29", "title": "Bands with zero inverse variance have no influence on the fit", "statement": "If two photometry vectors differ only in bands whose ivar is 0 (finite values), fit_coeffs returns identical coefficients.", "quantifier": "all finite photometry", "why_tests_cant": "a non-interference claim over all values of the masked bands", "anchors": ["src/kcorrect/fitter.py:Fitter._fit_coeffs"]}
{"id": "C30", "title": "Out-of-range redshifts", "statement": "A redshift strictly outside the grid range gives all-zero coefficients with mc=0 (other rows unaffected), whereas with mc>0 the same object makes the whole call raise ValueError because a 2-tuple is returned where 3 values are expected; reconstruct and kcorrect raise ValueError iff some shifted redshift is outside the range, never extrapolating.", "quantifier": "all redshifts, grids, batches, mc", "why_tests_cant": "boundary and fault behaviour over all batches", "anchors": ["src/kcorrect/fitter.py:Fitter._fit_coeffs", "src/kcorrect/fitter.py:Fitter.fit_coeffs", "src/kcorrect/fitter.py:Fitter._reconstruct"]}
{"id": "C31", "title": "Monte Carlo fit of a one-element batch", "statement": "fit_coeffs(mc>0) with a one-element redshift array raises ValueError in the final reshape, while the scalar call and batches of two or more succeed; so 'any n works' fails at n=1.", "quantifier": "all numbers of bands and templates, all mc>0", "why_tests_cant": "a size-dependent failure", "anchors": ["src/kcorrect/fitter.py:Fitter.fit_coeffs"]}
{"id": "C32", "title": "Monte Carlo draws respect the error model", "statement": "With mc>0, every draw of maggies equals the input maggies in bands with ivar<=0 (or NaN), and equals maggies + (standard normal)/sqrt(ivar) in other bands with each normal variate used exactly once; shapes are [nb,mc] / [n,nb,mc] and [nt,mc] / [n,nt,mc]; the central coefficients equal the mc=0 result.", "quantifier": "all photometry, all random streams, all mc and n", "why_tests_cant": "all random streams", "anchors": ["src/kcorrect/fitter.py:Fitter._fit_coeffs", "src/kcorrect/fitter.py:Fitter.fit_coeffs"]}
{"id": "C33", "title": "reconstruct is linear in the coefficients", "statement": "reconstruct(z, a*c1+b*c2) = a*reconstruct(z,c1)+b*reconstruct(z,c2); zero coefficients give zero maggies; nonnegative coefficients and a nonnegative design matrix give nonnegative maggies.", "quantifier": "all coefficients, redshifts, band shifts", "why_tests_cant": "linearity over all vectors", "anchors": ["src/kcorrect/fitter.py:Fitter._reconstruct"]}
{"id": "C34", "title": "Band shift law", "statement": "reconstruct(z, c, band_shift=s) equals reconstruct((1+z)(1+s)-1, c)/(1+s) whenever either is defined.", "quantifier": "all z, s, c", "why_tests_cant": "all real shifts", "anchors": ["src/kcorrect/fitter.py:Fitter._reconstruct"]}
{"id": "C35", "title": "Fitting noiseless model photometry reproduces it", "statement": "If maggies are reconstruct(z,c) for some c >= 0 and all ivar > 0, then reconstruct(z, fit_coeffs(z, maggies, ivar)) returns the same maggies (given the NNLS contract).", "quantifier": "all z in range, c>=0, ivar>0", "why_tests_cant": "closure over all models", "anchors": ["src/kcorrect/fitter.py:Fitter.fit_coeffs", "src/kcorrect/fitter.py:Fitter.reconstruct"]}
{"id": "C36", "title": "Design-matrix interpolation", "statement": "The design matrix at a grid redshift is exactly the table of template projections at that redshift; between grid points it is the convex combination of the two neighbouring tables (so it stays between them entrywise), and the redshift grid starts at redshift_range[0], ends at redshift_range[1] and is strictly increasing (exact arithmetic).", "quantifier": "all grids, redshifts", "why_tests_cant": "all redshifts in a continuum", "anchors": ["src/kcorrect/fitter.py:Fitter.__init__", "src/kcorrect/fitter.py:Fitter._interpolate_Amatrix", "src/kcorrect/fitter.py:Fitter._calc_Amatrix"]}
{"id": "C37", "title": "Projecting templates in chunks gives the same design matrix", "statement": "With interpolate=False, projecting the templates in groups of 1000 covers each template exactly once and yields the same table as projecting all at once, for every number of templates in exact arithmetic, and in any arithmetic unless a group consists of a single template (number of templates = 1 modulo 1000, and not 1), whose value skips one float32 rounding.", "quantifier": "all numbers of templates", "why_tests_cant": "boundary effects at multiples of the chunk size", "anchors": ["src/kcorrect/fitter.py:Fitter._calc_Amatrix"]}
{"id": "C38", "title": "Building the design matrix leaves the templates at redshift 0", "statement": "After construction (set_Amatrix) the template set is at redshift 0 with its rest-frame wave and flux, whatever redshift it had before.", "quantifier": "all template states, grids", "why_tests_cant": "all prior states", "anchors": ["src/kcorrect/fitter.py:Fitter._calc_Amatrix"]}
{"id": "C39", "title": "Redshift grid in float32", "statement": "In float32 arithmetic the grid starts exactly at redshift_range[0], is nondecreasing, and stays within rounding of the requested end; but the last grid point can be strictly below redshift_range[1], and (1+z)*(1+0)-1 can exceed the last grid point for an in-range z, so a redshift equal to the requested maximum can be treated as out of range.", "quantifier": "all float32 ranges and grid sizes; existence for failures", "why_tests_cant": "depends on rounding of particular floats", "anchors": ["src/kcorrect/fitter.py:Fitter.__init__", "src/kcorrect/fitter.py:Fitter._reconstruct"]}
{"id": "C40", "title": "Kcorrect response mapping", "statement": "Construction succeeds only if responses_map and responses_out have equal length and every responses_map entry occurs in responses; then output band j uses the input band with the name responses_map[j] (its first occurrence); defaults are responses. Otherwise ValueError.", "quantifier": "all lists of response names", "why_tests_cant": "all lists, duplicates included", "anchors": ["src/kcorrect/kcorrect.py:Kcorrect.__init__"]}
{"id": "C41", "title": "K-correction definition", "statement": "For an object with positive coefficient sum, kcorrect in output band j is -2.5 log10(reconstruct(z)[map j] / reconstruct_out(0, band_shift)[j]); for objects whose coefficient sum is not positive it is 0 in every band; array rows equal scalar calls.", "quantifier": "all z, coeffs, band shifts, batches", "why_tests_cant": "all inputs and batch sizes", "anchors": ["src/kcorrect/kcorrect.py:Kcorrect.kcorrect"]}
{"id": "C42", "title": "K-correction is independent of normalisation", "statement": "Multiplying all coefficients by a positive constant leaves the K-correction unchanged.", "quantifier": "all coeffs, all positive constants", "why_tests_cant": "all constants", "anchors": ["src/kcorrect/kcorrect.py:Kcorrect.kcorrect"]}
{"id": "C43", "title": "K-correction into the band shifted to the observed redshift is SED independent", "statement": "For responses_out = responses_map and band_shift = z the K-correction is -2.5 log10(1+z) for every SED with positive reconstructed flux; for z=0, band_shift=0 it is 0.", "quantifier": "all SED coefficients and z", "why_tests_cant": "SED independence is a claim about every SED", "anchors": ["src/kcorrect/kcorrect.py:Kcorrect.kcorrect"]}
{"id": "C44", "title": "Absolute magnitude law and sentinel", "statement": "absmag is m_R - DM - K in every band with maggies>0 and ivar>0 and exactly -9999 in every band with maggies<=0 or ivar<=0; for NaN maggies or ivar it is neither, but 0. That bands which are not measured get the magnitude of the reconstructed maggies, as docs/examples.rst says, is refuted.", "quantifier": "all photometry including NaN, all batches", "why_tests_cant": "all values including NaN and infinities", "anchors": ["src/kcorrect/kcorrect.py:Kcorrect.absmag"]}
{"id": "C45", "title": "Explicit distance replaces the cosmology consistently", "statement": "absmag with distance d (Mpc) uses DM = 5 log10(d/10pc); two distances differ in absmag by exactly 5 log10(d2/d1); passing the distance whose modulus equals the cosmological one gives the same absolute magnitudes.", "quantifier": "all distances > 0", "why_tests_cant": "all distances", "anchors": ["src/kcorrect/kcorrect.py:Kcorrect.absmag"]}
{"id": "C46", "title": "Reconstructed absolute magnitude", "statement": "With responses_out = responses_map in the same order and band_shift = 0 the reconstructed absolute magnitude is -2.5 log10(reconstruct_out(0)) - DM; with a nonzero band shift or different output bands it is not the model absolute magnitude but is off by the magnitude difference between reconstruct_out(z, band_shift) and reconstruct(z).", "quantifier": "all SEDs, shifts, band maps", "why_tests_cant": "an identity over all SEDs", "anchors": ["src/kcorrect/kcorrect.py:Kcorrect.absmag"]}
{"id": "C47", "title": "Absolute magnitude limit", "statement": "absmag_limit is -2.5 log10(1/sqrt(ivar)) - DM - K in every band with ivar>0 and -9999 with ivar<=0, also for objects with all-zero coefficients, contrary to the docstring which promises -9999 for those.", "quantifier": "all photometry", "why_tests_cant": "all inputs", "anchors": ["src/kcorrect/kcorrect.py:Kcorrect.absmag"]}
{"id": "C48", "title": "absmag return value order", "statement": "absmag returns a bare array when no flag is set and otherwise the tuple absmag, [reconstruct], [limit], [kcorrect] in this order, each of the shape of absmag; the absmag component never depends on the flags.", "quantifier": "all flag combinations, all inputs", "why_tests_cant": "all flags times all inputs", "anchors": ["src/kcorrect/kcorrect.py:Kcorrect.absmag"]}
{"id": "C49", "title": "absmag_mc is slice-wise absmag", "statement": "absmag_mc slice i is absmag of slice i of maggies_mc and coeffs_mc when the number of output bands equals the number of input bands; with a single output band and several input bands the result is silently replicated across all input-band columns, with any other mismatch it raises ValueError.", "quantifier": "all mc, batches, band counts", "why_tests_cant": "all sizes", "anchors": ["src/kcorrect/kcorrect.py:Kcorrect.absmag_mc"]}
{"id": "C50", "title": "Derived quantities", "statement": "Without explicit distance, mremain and intsfh are the coefficient-weighted template values times 10^(0.4 DM); scaling the coefficients by a>0 scales masses by a and leaves b50, b300, b1000, metallicity and mass-to-light ratios unchanged; objects with nonpositive mass get 0 for the ratios; metallicity lies between the minimum and maximum template metallicity for nonnegative coefficients; rows of a batch equal scalar calls. That the entry mtol has the stellar mass, one per object, as docs/examples.rst says, is refuted.", "quantifier": "all coeffs, redshifts, batches", "why_tests_cant": "all inputs", "anchors": ["src/kcorrect/kcorrect.py:Kcorrect.derived"]}
{"id": "C51", "title": "derived failure modes", "statement": "derived with an explicit distance always raises (the distance modulus is unbound) when there is at least one output band; with an output band whose solar magnitude is undefined it raises TypeError; and in array mode it raises IndexError whenever the numbers of input and output bands differ.", "quantifier": "all inputs", "why_tests_cant": "all inputs that reach these branches", "anchors": ["src/kcorrect/kcorrect.py:Kcorrect.derived"]}
{"id": "C52", "title": "derived_mc is slice-wise derived", "statement": "derived_mc slice i of each quantity is derived of slice i of coeffs_mc, for every mc>=1; for mc=0 it returns None.", "quantifier": "all mc, batches", "why_tests_cant": "all sizes", "anchors": ["src/kcorrect/kcorrect.py:Kcorrect.derived_mc"]}
{"id": "C53", "title": "Kcorrect FITS round trip preserves results", "statement": "An object without AB correction, saved with tofits and reloaded with Kcorrect(filename=), gives (in exact arithmetic) the same results in every call of reconstruct, reconstruct_out, kcorrect, fit_coeffs, absmag, absmag_mc, derived and derived_mc, provided response names have at most 200 characters and no trailing white space (longer ones are cut); but its redshift_range is truncated to integers, and derived raises KeyError if an output response that is not an input response was never loaded in the process. Saving the reloaded object writes the same file.", "quantifier": "all objects and all later calls", "why_tests_cant": "observational equivalence over all subsequent calls", "anchors": ["src/kcorrect/kcorrect.py:Kcorrect.tofits", "src/kcorrect/kcorrect.py:Kcorrect.fromfits"]}
{"id": "C54", "title": "tofits is not crash atomic but never yields a wrong object", "statement": "If tofits is interrupted at any point between file operations, loading the file either raises or returns the object being saved; the previously stored object can be lost. Loading a file that has the templates but not all of the other HDUs, for instance a template file, raises KeyError; an object that it is loaded into has the new templates by then and the old design matrices.", "quantifier": "all crash points", "why_tests_cant": "crash points cannot be enumerated by tests", "anchors": ["src/kcorrect/kcorrect.py:Kcorrect.tofits", "src/kcorrect/template.py:Template.tofits", "src/kcorrect/template.py:SED.tofits"]}
{"id": "C55", "title": "GST AB correction touches only ugriz and mutates float32 inputs", "statement": "KcorrectGST.to_ab with ivar changes exactly the columns 2..6 by the SDSS correction; without ivar it always raises TypeError; with abcorrect=True fit_coeffs and absmag overwrite the caller's float32 arrays in place, so calling fit_coeffs and then absmag on the same arrays corrects twice; float64 arrays and lists, and the Kcorrect and KcorrectSDSS classes never modify the caller's arrays.", "quantifier": "all arrays, dtypes, call sequences", "why_tests_cant": "aliasing across call histories", "anchors": ["src/kcorrect/kcorrect.py:KcorrectGST.to_ab", "src/kcorrect/fitter.py:Fitter._process_inputs"]}
{"id": "C56", "title": "Monte Carlo maggies are AB-corrected twice with abcorrect", "statement": "For KcorrectSDSS with abcorrect=True, fit_coeffs(mc>0) returns maggies_mc that are already AB corrected, and absmag_mc corrects them again: the resulting absolute magnitudes are offset by abfix relative to absmag of the uncorrected draws.", "quantifier": "all photometry and draws", "why_tests_cant": "composition of two calls over all inputs", "anchors": ["src/kcorrect/fitter.py:Fitter.fit_coeffs", "src/kcorrect/kcorrect.py:Kcorrect.absmag_mc", "src/kcorrect/kcorrect.py:KcorrectSDSS.to_ab"]}
{"id": "C57", "title": "Solar magnitude and Vega offset", "statement": "solar_magnitude (vega2ab) of a Response is -2.5 log10 of the projection of the solar (Vega) spectrum placed at 10 pc (7.68 pc, radius 1.91144e11 cm), and None exactly when that projection is not positive, in particular when no sample of the reference spectrum falls inside the band.", "quantifier": "all responses and one-model reference files", "why_tests_cant": "all curves and reference spectra", "anchors": ["src/kcorrect/response.py:Response.set_solar_magnitude", "src/kcorrect/response.py:Response.set_vega2ab"]}
{"id": "C58", "title": "maggies2flambda after a failed response load", "statement": "If the file of a response is missing, maggies2flambda raises ValueError the first time, but a second identical call succeeds and silently returns NaN wavelength and NaN flux for that band, because the failed load left a blank cache entry.", "quantifier": "all caches, names and fluxes", "why_tests_cant": "needs two calls in one process over all inputs", "anchors": ["src/kcorrect/utils.py:maggies2flambda", "src/kcorrect/response.py:ResponseDict.load_response"]}
{"id": "C59", "title": "Unusable photometry aborts the whole fit", "statement": "For a redshift in range, a band with NaN or infinite maggies (even with ivar 0) or with a negative, infinite or NaN ivar makes the fit raise ValueError, and so does every batch containing such an object; conversely finite maggies with finite nonnegative ivar (and a finite design matrix) are fitted or raise RuntimeError. A NaN redshift is not treated as out of range: the fit raises ValueError and reconstruct returns NaN in every band.", "quantifier": "all photometry incl. NaN and infinities, all batches", "why_tests_cant": "all positions and kinds of non-finite values", "anchors": ["src/kcorrect/fitter.py:Fitter._fit_coeffs", "src/kcorrect/fitter.py:Fitter.fit_coeffs", "src/kcorrect/fitter.py:Fitter._reconstruct"]}
{"id": "C60", "title": "reconstruct is vectorised", "statement": "reconstruct of an array of n redshifts (n = 0 and n = 1 included) is the stack of the n scalar calls, and raises iff one of them raises.", "quantifier": "all batches, shifts and coefficients", "why_tests_cant": "all n, all contents", "anchors": ["src/kcorrect/fitter.py:Fitter._reconstruct", "src/kcorrect/fitter.py:Fitter.reconstruct"]}
{"id": "C61", "title": "AB correction is exactly a preprocessing step", "statement": "With abcorrect=True, fit_coeffs and absmag return (in exact arithmetic) what they return with abcorrect=False on the photometry converted by to_ab, for each of the three classes, and raise whatever to_ab raises; reconstruct, reconstruct_out, kcorrect and derived do not depend on abcorrect.", "quantifier": "all inputs, all classes", "why_tests_cant": "all inputs and option combinations", "anchors": ["src/kcorrect/fitter.py:Fitter._process_inputs", "src/kcorrect/fitter.py:Fitter.fit_coeffs", "src/kcorrect/kcorrect.py:Kcorrect.absmag"]}
{"id": "C62", "title": "Fits of asinh magnitudes", "statement": "fit_coeffs_asinh fits the fluxes whose asinh magnitudes are the given ones, brightened by the extinction, with inverse variances propagated through the magnitude definition at the uncorrected flux; without a redshift it raises TypeError.", "quantifier": "all magnitudes, nonzero errors, extinctions, batches", "why_tests_cant": "continuous inputs", "anchors": ["src/kcorrect/kcorrect.py:KcorrectSDSS.fit_coeffs_asinh", "src/kcorrect/utils.py:sdss_asinh_to_maggies"]}
{"id": "C63", "title": "fromfits into an existing object keeps its band map and class", "statement": "obj.fromfits(file), the only way to reload a KcorrectSDSS or KcorrectGST, takes names, templates, grid and tables from the file but leaves imap and the class of obj: with equal imap and class the results are those of the saved object, otherwise K-corrections are computed with the wrong input bands.", "quantifier": "all receiving and saved objects", "why_tests_cant": "all pairs of objects", "anchors": ["src/kcorrect/kcorrect.py:Kcorrect.fromfits", "src/kcorrect/kcorrect.py:Kcorrect.__init__"]}
{"id": "C64", "title": "A failing fromfits can leave a mixed object", "statement": "fromfits of a file whose templates cannot be read leaves object and cache unchanged; but if a response of the file cannot be loaded it raises after having replaced templates, names and redshift grid while keeping the old tables. If the numbers of templates then differ, reconstruct raises ValueError and fit_coeffs silently returns zero coefficients for every object.", "quantifier": "all objects, files and caches", "why_tests_cant": "failure points over all objects", "anchors": ["src/kcorrect/kcorrect.py:Kcorrect.fromfits"]}
{"id": "C65", "title": "Template FITS round trip", "statement": "Template(filename) of a file written by Template.tofits has the rest-frame spectra and the intsfh, mremain, mets, m50, m300 and m1000 that were written; without HDU M50, m50 is zero; without any other of these HDUs it raises KeyError. Written again, it gives the same file.", "quantifier": "all templates with at least two wavelengths", "why_tests_cant": "all contents", "anchors": ["src/kcorrect/template.py:Template.__init__", "src/kcorrect/template.py:Template.tofits"]}
{"id": "C66", "title": "Reloading with Kcorrect(filename=) loses the AB correction", "statement": "A KcorrectSDSS or KcorrectGST object with abcorrect=True, saved and reloaded with Kcorrect(filename=), still has abcorrect=True but gives the uncorrected results in all calls; for KcorrectSDSS each measured absolute magnitude changes by the AB offset of its input band.", "quantifier": "all objects and inputs", "why_tests_cant": "all later calls", "anchors": ["src/kcorrect/kcorrect.py:Kcorrect.__init__", "src/kcorrect/kcorrect.py:Kcorrect.fromfits", "src/kcorrect/kcorrect.py:KcorrectSDSS.to_ab"]}
{"id": "C67", "title": "Response FITS round trip", "statement": "A Response built from samples, written with tofits and read with fromfits into any Response object, has the same curve, interpolation, effective wavelength, FWHM, solar magnitude and Vega offset; tofits of a response without curve raises TypeError. fromfits of a file without wavelengths raises KeyError and leaves the object as it was; of a file with wavelengths but no response it raises KeyError and leaves the object with the new wavelengths beside the old curve and derived attributes. fromdat finds the columns 'lambda' and 'pass' of an ASCII table by name and behaves in the same way when one of them is missing; tofits then writes the new wavelengths with the old response if their numbers agree (or the old response is a single sample, which becomes a constant curve), and raises ValueError otherwise.", "quantifier": "all curves with at least two samples, all receiving objects", "why_tests_cant": "all curves", "anchors": ["src/kcorrect/response.py:Response.tofits", "src/kcorrect/response.py:Response.fromfits", "src/kcorrect/response.py:Response.fromdat"]}
{"id": "C68", "title": "KcorrectGST.to_ab writes into its arguments", "statement": "A direct call of KcorrectGST.to_ab(maggies, ivar) returns the corrected photometry and stores it in the arrays it was given, whatever their floating type; Kcorrect and KcorrectSDSS.to_ab leave them alone. Passing one float32 array as both maggies and ivar makes a KcorrectGST with abcorrect=True fit the corrected inverse variances as if they were maggies.", "quantifier": "all arrays, shapes and memory layouts without overlap inside an array", "why_tests_cant": "aliasing between arguments", "anchors": ["src/kcorrect/kcorrect.py:KcorrectGST.to_ab", "src/kcorrect/fitter.py:Fitter._process_inputs", "src/kcorrect/fitter.py:Fitter.fit_coeffs"]}
{"id": "C69", "title": "absmag_mc corrects ivar once per draw in place", "statement": "absmag_mc of a KcorrectGST with abcorrect=True and float32 arrays leaves every draw of maggies_mc corrected once and ivar corrected mc times (each band divided by the squared factor to the power mc); in exact arithmetic the returned magnitudes are still those of a single correction, and other memory is untouched. A draw that raises leaves the earlier draws corrected.", "quantifier": "all objects, batches, draws", "why_tests_cant": "accumulates over loop iterations and shared memory", "anchors": ["src/kcorrect/kcorrect.py:Kcorrect.absmag_mc", "src/kcorrect/kcorrect.py:Kcorrect.absmag", "src/kcorrect/kcorrect.py:KcorrectGST.to_ab"]}
{"id": "C70", "title": "Construction does not depend on the state of the templates", "statement": "The object that Kcorrect(...) builds, and the response cache after it, depend on the rest-frame templates only: not on the redshift the shared templates were left at by earlier calls, failed constructions included. Constructing the same object again after other constructions gives an equal object whatever the response files now contain. A failing construction can leave the templates at a nonzero redshift.", "quantifier": "all templates, histories of set_redshift, caches, files, argument combinations", "why_tests_cant": "unbounded histories of shared mutable templates and cache", "anchors": ["src/kcorrect/fitter.py:Fitter._calc_Amatrix", "src/kcorrect/fitter.py:Fitter.set_Amatrix", "src/kcorrect/kcorrect.py:Kcorrect.__init__", "src/kcorrect/template.py:SED.set_redshift"]}
{"id": "C71", "title": "AB offsets follow the bands of KcorrectSDSS and KcorrectGST", "statement": "With their default responses KcorrectSDSS() and KcorrectGST(abcorrect=True) correct each SDSS band by the offset documented for that response and leave GALEX and 2MASS bands alone, in fit_coeffs and absmag; KcorrectGST does not correct by default; the default grid is 4000 redshifts from 0 to 2 and output bands map to themselves. With the same responses in another order the offsets are applied to the wrong bands.", "quantifier": "all templates, output bands, redshifts and photometry, single objects and batches", "why_tests_cant": "all responses lists and photometry", "anchors": ["src/kcorrect/kcorrect.py:KcorrectSDSS.__init__", "src/kcorrect/kcorrect.py:KcorrectGST.__init__", "src/kcorrect/kcorrect.py:KcorrectSDSS.to_ab", "src/kcorrect/kcorrect.py:KcorrectGST.to_ab"]}
{"id": "C72", "title": "K-corrections from first principles", "statement": "For a constructed object: reconstruct, reconstruct_out and kcorrect at any redshift in range are given by the synthetic photometry of the rest-frame templates redshifted to the grid redshifts around it and linearly interpolated, kcorrect being -2.5 log10 of the ratio of the observed flux in the mapped input band to the flux at redshift band_shift in the output band over 1+band_shift; fit_coeffs returns nonnegative coefficients whose fluxes have the smallest chi^2.", "quantifier": "all templates, responses, redshifts, coefficients, band shifts in range", "why_tests_cant": "end-to-end, for all constructed objects", "anchors": ["src/kcorrect/kcorrect.py:Kcorrect.__init__", "src/kcorrect/kcorrect.py:Kcorrect.kcorrect", "src/kcorrect/kcorrect.py:Kcorrect.reconstruct_out", "src/kcorrect/fitter.py:Fitter._calc_Amatrix", "src/kcorrect/fitter.py:Fitter.fit_coeffs"]}
{"id": "C73", "title": "Construction succeeds on well-formed input", "statement": "Kcorrect(...) returns an object, without exception, whenever each response is cached with a curve or has a loadable file, responses_map matches responses_out in length and names only input responses, the templates have at least four strictly increasing wavelengths, and the redshift range is increasing above -1 with at least two grid points.", "quantifier": "all such inputs, in exact arithmetic", "why_tests_cant": "all inputs", "anchors": ["src/kcorrect/kcorrect.py:Kcorrect.__init__", "src/kcorrect/fitter.py:Fitter.set_Amatrix", "src/kcorrect/response.py:ResponseDict.load_response"]}
{"id": "C74", "title": "Missing photometry or coefficients", "statement": "fit_coeffs raises TypeError without maggies or without ivar, except that an empty batch gives an empty result and a single out-of-range object without maggies gives zero coefficients (mc=0); absmag without maggies or ivar raises TypeError; reconstruct without coeffs raises TypeError for one object and AttributeError for an array; derived without coeffs raises AttributeError for both.", "quantifier": "all objects, redshifts, batches", "why_tests_cant": "combinations of absent arguments with all shapes and ranges", "anchors": ["src/kcorrect/fitter.py:Fitter.fit_coeffs", "src/kcorrect/fitter.py:Fitter._fit_coeffs", "src/kcorrect/fitter.py:Fitter._reconstruct", "src/kcorrect/kcorrect.py:Kcorrect.absmag", "src/kcorrect/kcorrect.py:Kcorrect.derived"]}
{"id": "C75", "title": "Arguments of Response.project", "statement": "Response.project(wave=, flux=) raises ValueError unless wave is 1-D, IndexError for a 0-d flux, ValueError if the last axis of flux does not match, for more than two axes and for fewer than four samples; what it returns is a number, or one number per row of a 2-D flux with other than one row.", "quantifier": "all responses and arrays", "why_tests_cant": "all shapes", "anchors": ["src/kcorrect/response.py:Response.project"]}
{"id": "C76", "title": "Which results are float32", "statement": "fit_coeffs of a batch (coefficients and Monte Carlo arrays), kcorrect of an array and absmag always return float32 values; the coefficients of a single object are not rounded, so they can differ from the row of a batch.", "quantifier": "all inputs, any idempotent rounding", "why_tests_cant": "all values", "anchors": ["src/kcorrect/fitter.py:Fitter.fit_coeffs", "src/kcorrect/kcorrect.py:Kcorrect.kcorrect", "src/kcorrect/kcorrect.py:Kcorrect.absmag"]}
{"id": "C77", "title": "Unusable response curves and missing files", "statement": "No Response can be built from a curve of zeros: the half-maximum search raises IndexError. Response.fromfits, Template and all_responses raise OSError on a missing file or directory and change nothing.", "quantifier": "all wavelengths, files, caches", "why_tests_cant": "all curves", "anchors": ["src/kcorrect/response.py:Response.set_fwhm_limits", "src/kcorrect/response.py:Response.fromfits", "src/kcorrect/response.py:all_responses"]}
{"id": "C78", "title": "Interpolated spectra and response curves", "statement": "The curve that project and set_fwhm_limits use between the samples of a spectrum or a response is the cubic not-a-knot spline: it exists and is unique for any four or more increasing wavelengths, passes through the samples, reproduces cubics, is linear in the ordinates and scales with the units of wavelength and flux. Responses and projections therefore do not depend on the algorithm that computes it.", "quantifier": "all sample lists and all points", "why_tests_cant": "all curves and all points between samples", "anchors": ["src/kcorrect/template.py:SED.set_interp", "src/kcorrect/response.py:Response.set_interp", "src/kcorrect/response.py:Response.project", "src/kcorrect/response.py:Response.set_fwhm_limits"]}
{"id": "C79", "title": "Band shift is a blueshifted band", "statement": "Projecting a redshifted spectrum on a response is 1+z times projecting the rest-frame spectrum on the response with wavelengths divided by 1+z. Therefore reconstruct and reconstruct_out with band_shift give the fluxes at the redshift through the blueshifted bands, and kcorrect is -2.5 log10 of (1+z) times the rest-frame flux in the input band blueshifted by 1+z over the rest-frame flux in the output band blueshifted by 1+band_shift, at grid redshifts.", "quantifier": "all templates, responses, coefficients, redshifts and band shifts on the grid", "why_tests_cant": "end-to-end, all spectra and curves", "anchors": ["src/kcorrect/fitter.py:Fitter._reconstruct", "src/kcorrect/kcorrect.py:Kcorrect.kcorrect", "src/kcorrect/kcorrect.py:Kcorrect.reconstruct_out", "src/kcorrect/response.py:Response.project"]}
{"id": "C80", "title": "A best fit exists", "statement": "For every object in range with nonnegative inverse variances there are nonnegative coefficients of least chi^2, and there is a nonnegative least squares solver that always answers, with which fit_coeffs always returns them, with or without Monte Carlo. The assumption that the properties of fit_coeffs make about the solver can therefore be met for every input.", "quantifier": "all design matrices, photometry, redshifts in range, in exact arithmetic", "why_tests_cant": "existence for all inputs", "anchors": ["src/kcorrect/fitter.py:Fitter._fit_coeffs", "src/kcorrect/fitter.py:Fitter.fit_coeffs"]}
{"id": "C81", "title": "The fitted fluxes are unique and stable", "statement": "The fluxes that reconstruct predicts from the coefficients of fit_coeffs, in the bands with nonzero inverse variance, do not depend on which exact solver is used; the coefficients do not either if the templates are linearly independent in these bands, but otherwise they and the fluxes at other redshifts can. The weighted residual is orthogonal to the fitted fluxes; the chi^2 distance of the fits of two objects is at most that of their photometry; the fluxes of a Monte Carlo fit differ from those of the fit by at most the sum of squares of its normal variates; and the fit follows the units of the photometry.", "quantifier": "all solvers meeting the contract, all design matrices and photometry", "why_tests_cant": "quantifies over solvers and over pairs of objects", "anchors": ["src/kcorrect/fitter.py:Fitter._fit_coeffs", "src/kcorrect/fitter.py:Fitter.fit_coeffs", "src/kcorrect/fitter.py:Fitter.reconstruct"]}
{"id": "C82", "title": "SED.plot shows the spectra", "statement": "plot draws, for each requested spectrum in turn (all by default, negative indices from the end), exactly the points (log wavelength, log wavelength*flux) of the samples with positive flux; an index out of range raises IndexError after the spectra before it are drawn. With wavelength limits every such sample within them lies inside the vertical limits with a margin of 0.1, attained at both ends, and ValueError is raised if there is none. In any arithmetic, limits without a finite logarithm raise ValueError, and limits of the axes that are set are finite. Fluxes that are not an array of spectra on the wavelengths raise IndexError. The plot of a redshifted SED is the rest-frame plot shifted by log(1+z) in wavelength.", "quantifier": "all SEDs, indices, limits, redshifts", "why_tests_cant": "all spectra and limits; tests do not look at plots", "anchors": ["src/kcorrect/template.py:SED.plot", "src/kcorrect/template.py:SED.set_redshift"]}
{"id": "C83", "title": "Rounding errors of reconstruct, kcorrect and absmag", "statement": "If every arithmetic operation has a relative error of at most u (2^-24 for float32), reconstruct evaluates the design matrix at a redshift within about 5u of the exact (1+z)(1+band_shift)-1 and returns or raises accordingly; each flux is within 2 ((1-u)^-(ntemplates+10) - 1) times the sum of |coefficient| * (largest neighbouring table entry) / (1+band_shift) of the exact one at that redshift. If neighbouring tables differ by a factor of at most kappa and the coefficients are nonnegative, the fluxes have relative error eta = 2 kappa times that growth, and kcorrect is within 2.5 log10((1+eta)/(1-eta)) plus three roundings of -2.5 log10 of the exact flux ratio; absmag is within seven roundings of -2.5 log10(maggies) - DM - K. Adding the terms of a dot product in any other order changes it by at most twice the same kind of error.", "quantifier": "all tables, coefficients, redshifts, band shifts and arithmetics with relative error u", "why_tests_cant": "all roundings", "anchors": ["src/kcorrect/fitter.py:Fitter._reconstruct", "src/kcorrect/fitter.py:Fitter.reconstruct", "src/kcorrect/kcorrect.py:Kcorrect.reconstruct_out", "src/kcorrect/kcorrect.py:Kcorrect.kcorrect", "src/kcorrect/kcorrect.py:Kcorrect.absmag"]}
{"id": "C84", "title": "Fits by inexact solvers", "statement": "If the nonnegative least squares solver returns nonnegative coefficients that miss the least sum of squares by at most a fraction eps of the sum of squares of the data, then the fit of an object misses the least chi^2 by at most eps times its squared signal to noise ratio, its fluxes are within that chi^2 distance of the fluxes of the exact fit (and so is each band), exact template photometry is recovered up to that error, and in units of the errors the fits of two objects differ by at most the difference of their photometry plus the two solvers' errors.", "quantifier": "all solvers with bounded error, all design matrices and photometry", "why_tests_cant": "quantifies over solvers and over pairs of objects", "anchors": ["src/kcorrect/fitter.py:Fitter._fit_coeffs", "src/kcorrect/fitter.py:Fitter.fit_coeffs", "src/kcorrect/fitter.py:Fitter.reconstruct"]}
{"id": "C85", "title": "Loading responses from several threads", "statement": "If several threads call ResponseDict().load_response, with or without reload, then under any interleaving of their reads and stores an entry of the cache is at every moment the object that was there at the start or one each of whose attributes is None or has the value from its file; when all threads have finished, every entry is either the old one or completely loaded, and every name that was requested is there, freshly loaded if it was missing or reload was set. Without reload, entries that are there at the start are never replaced or changed. The threads cannot block each other. Not guaranteed: that a response is usable when load_response returns (another thread may still be loading it), and that there is one dictionary if the threads create the first one.", "quantifier": "all schedules, all numbers of threads, all file contents, all initial caches", "why_tests_cant": "all interleavings", "anchors": ["src/kcorrect/response.py:ResponseDict.load_response", "src/kcorrect/response.py:Response.fromdat", "src/kcorrect/response.py:ResponseDictSingleton.__call__"]}
{"id": "C86", "title": "Building design matrices in several threads", "statement": "If several threads build design matrices (set_Amatrix), each with its own Template object, while others build or load responses without reload, then under any interleaving a build whose responses are all in the cache has the same result and leaves its templates in the same state as the sequential program; otherwise it may instead raise TypeError, but it never returns a different matrix; the cache is complete at the end. With a shared Template object this fails: a wrong matrix can be returned without an exception.", "quantifier": "all schedules, all numbers of threads, all templates, responses and redshift grids", "why_tests_cant": "all interleavings", "anchors": ["src/kcorrect/fitter.py:Fitter._calc_Amatrix", "src/kcorrect/template.py:SED.set_redshift", "src/kcorrect/response.py:Response.project", "src/kcorrect/response.py:ResponseDict.load_response"]}
{"id": "C87", "title": "A fit depends only on the information in the photometry", "statement": "If the photometry of an object in two sets of bands tells the same about the fluxes (their chi^2 differ by a constant), the fits of two objects constructed from the same templates give the same fluxes in the measured bands, and the same coefficients if the measured bands tell the templates apart. In particular the fit does not depend on the order of the bands, on bands with zero inverse variance, or on whether two measurements in the same band are given separately or as their weighted mean.", "quantifier": "all templates, responses, photometry, redshifts, solvers, in exact arithmetic", "why_tests_cant": "relates two objects and two solvers for all inputs", "anchors": ["src/kcorrect/kcorrect.py:Kcorrect.__init__", "src/kcorrect/fitter.py:Fitter._fit_coeffs", "src/kcorrect/fitter.py:Fitter.fit_coeffs"]}
{"id": "C88", "title": "Exact photometry is recovered", "statement": "If the photometry of an object is that of a nonnegative combination of the templates in every measured band, fit_coeffs reproduces it, and returns that combination if the measured bands tell the templates apart; absmag is then -2.5 log10 of the flux of the combination in the output band at redshift band_shift over 1+band_shift, minus the distance modulus.", "quantifier": "all templates, responses, combinations, redshifts and band shifts in range, in exact arithmetic", "why_tests_cant": "end-to-end, for all constructed objects", "anchors": ["src/kcorrect/kcorrect.py:Kcorrect.__init__", "src/kcorrect/fitter.py:Fitter.fit_coeffs", "src/kcorrect/kcorrect.py:Kcorrect.absmag"]}
{"id": "C89", "title": "Brighter objects", "statement": "Multiplying the photometry of an object by a positive factor, with the same relative errors, multiplies the fitted fluxes of the measured bands by it, and, if the measured bands tell the templates apart, the coefficients; the K-corrections are then the same and the absolute magnitudes of measured positive fluxes brighter by 2.5 log10 of the factor, the others being -9999 for both.", "quantifier": "all templates, responses, photometry, factors, redshifts and band shifts in range, in exact arithmetic", "why_tests_cant": "relates two objects for all inputs", "anchors": ["src/kcorrect/fitter.py:Fitter.fit_coeffs", "src/kcorrect/kcorrect.py:Kcorrect.kcorrect", "src/kcorrect/kcorrect.py:Kcorrect.absmag"]}
{"id": "C90", "title": "Only the spectra that the templates combine to matter", "statement": "Take two objects constructed with the same responses and redshift grid from templates on the same wavelengths. Coefficients that combine the templates of each to the same spectrum give the same results of reconstruct, reconstruct_out and kcorrect, and the same absolute magnitudes. If the nonnegative combinations of the two template sets are the same spectra, the fits of an object give the same fluxes in its measured bands, and the same spectrum if these bands tell the templates of the first set apart. In particular the order and the normalisation of the templates, and templates that are combinations of others, do not matter.", "quantifier": "all pairs of template sets, responses, coefficients, photometry, redshifts and band shifts in range, cubic spline interpolation in exact arithmetic", "why_tests_cant": "relates two objects for all inputs", "anchors": ["src/kcorrect/kcorrect.py:Kcorrect.__init__", "src/kcorrect/fitter.py:Fitter._calc_Amatrix", "src/kcorrect/fitter.py:Fitter.fit_coeffs", "src/kcorrect/kcorrect.py:Kcorrect.kcorrect", "src/kcorrect/kcorrect.py:Kcorrect.absmag"]}
{"id": "C91", "title": "The normalisation of response curves does not matter", "statement": "Multiplying the throughput of a response curve by a positive constant changes only the stored curve and its interpolation: the constructor of Response raises the same exception or gives the same wavelengths, effective wavelength, solar magnitude, Vega offset and width, and the same projections of every spectrum. So if the throughput columns of the response files are multiplied by positive factors, each file by its own, the constructors of Kcorrect and its subclasses return the same object or raise the same exception and leave the templates in the same state, and maggies2flambda and all_responses have the same results.", "quantifier": "all curves, factors, file contents, caches, templates and construction arguments, cubic spline interpolation in exact arithmetic", "why_tests_cant": "relates two executions for all inputs", "anchors": ["src/kcorrect/response.py:Response.__init__", "src/kcorrect/response.py:Response.project", "src/kcorrect/kcorrect.py:Kcorrect.__init__", "src/kcorrect/utils.py:maggies2flambda", "src/kcorrect/response.py:all_responses"]}
{"id": "C92", "title": "Errors of the redshift", "statement": "If each entry of the design matrix is positive and changes by at most a fraction L per unit redshift between neighbouring grid redshifts, then for given nonnegative coefficients the logarithm of each reconstructed flux changes by at most L (1+band_shift) |z1-z2| between two redshifts in range, each K-correction by at most 2.5/ln(10) L |z1-z2| (and correspondingly with the band shift), and each absolute magnitude of a measured positive flux by at most that plus the difference of the distance moduli. In an arithmetic with relative errors of u, kcorrect is then within an explicit bound of its value in exact arithmetic at the same redshift and band shift.", "quantifier": "all such design matrices, nonnegative coefficients, pairs of redshifts and band shifts in range, all roundings", "why_tests_cant": "relates two inputs; all roundings", "anchors": ["src/kcorrect/fitter.py:Fitter._reconstruct", "src/kcorrect/fitter.py:Fitter.reconstruct", "src/kcorrect/kcorrect.py:Kcorrect.kcorrect", "src/kcorrect/kcorrect.py:Kcorrect.absmag"]}
{"id": "C93", "title": "Masses, luminosities and absolute magnitudes", "statement": "Only the masses that derived returns depend on the distance: for two redshifts or cosmologies derived raises the same exception or mremain and intsfh have the ratio 10^(0.4 (DM1-DM2)) and mtol, b300, b1000 and metallicity are the same. The mass-to-light ratio refers to the luminosity of the absolute magnitude: if the measured flux of the band that an output band is mapped to is the reconstructed one, mremain/mtol is 10^(-0.4 (M-Msun)) with M from absmag.", "quantifier": "all objects, coefficients, redshifts, cosmologies and band shifts in range, in exact arithmetic", "why_tests_cant": "relates two methods and two inputs for all objects", "anchors": ["src/kcorrect/kcorrect.py:Kcorrect.derived", "src/kcorrect/kcorrect.py:Kcorrect.absmag", "src/kcorrect/kcorrect.py:Kcorrect.kcorrect"]}
{"id": "C94", "title": "The example programs prepare photometry that can be fit", "statement": "For every catalogue, with any NaN or infinite entries and negative inverse variances, the photometry that k_plot_test_gst and k_plot_test_mtol pass to fit_coeffs has finite fluxes and finite nonnegative inverse variances, so for redshifts that are not NaN the call returns coefficients of every object or raises the RuntimeError of a solver that does not converge, and no other exception. k_plot_test_sdss does not clean its photometry: one flux that is NaN, of an object in the redshift range, ends it with an exception.", "quantifier": "all catalogues", "why_tests_cant": "all inputs, including special values", "anchors": ["bin/k_plot_test_gst", "bin/k_plot_test_mtol", "bin/k_plot_test_sdss", "src/kcorrect/utils.py:sdss_ab_correct", "src/kcorrect/utils.py:error_floor", "src/kcorrect/fitter.py:Fitter.fit_coeffs"]}
{"id": "C95", "title": "What the example programs fit", "statement": "On a catalogue of finite numbers the flux that k_plot_test_gst, k_plot_test_mtol and k_plot_test_sdss fit in a measured band is that of the catalogue's AB magnitude corrected for extinction. Its relative error is the larger of that of the catalogue and the floor of the band (for k_plot_test_sdss that of the catalogue). Bands that are not measured get inverse variance 0. The number reported as nbad is 0 unless the catalogue has negative inverse variances.", "quantifier": "all catalogues of finite numbers, in exact arithmetic", "why_tests_cant": "all inputs", "anchors": ["bin/k_plot_test_gst", "bin/k_plot_test_mtol", "bin/k_plot_test_sdss", "src/kcorrect/utils.py:sdss_ab_correct", "src/kcorrect/utils.py:error_floor"]}
{"id": "C96", "title": "Residuals in the SDSS example program", "statement": "The photometry that k_plot_test_sdss takes its residuals from is exactly the photometry that fit_coeffs used. The plotted residual of a band is the difference of the magnitudes of the photometry and of the reconstruction, that of a colour the difference of the residuals of its two bands.", "quantifier": "all catalogues, all solvers", "why_tests_cant": "all inputs; relates the script and the correction inside the method", "anchors": ["bin/k_plot_test_sdss", "src/kcorrect/fitter.py:Fitter.fit_coeffs", "src/kcorrect/utils.py:sdss_ab_correct"]}
{"id": "C97", "title": "Mass-to-light ratios plotted by the example programs", "statement": "A mass-to-light ratio in solar units is the same whether the absolute magnitudes of the galaxy and of the Sun are both in the AB or both in the Vega system. The value that k_plot_test_gst and k_plot_test_mtol plot as its logarithm is log10(mtol) - 0.4 vega2ab, so it is that logarithm only if vega2ab is 0 (refuted in general). The colour they plot is that in the Vega system: 0 for an object with the flux ratio of Vega.", "quantifier": "all mass-to-light ratios and Vega offsets, in exact arithmetic", "why_tests_cant": "an algebraic identity for all reals", "anchors": ["bin/k_plot_test_gst", "bin/k_plot_test_mtol", "src/kcorrect/kcorrect.py:Kcorrect.derived"]}
{"id": "C98", "title": "Colours plotted by the example program", "statement": "k_plot_test_v4_lrg1_colors evaluates the spectrum at the midpoints of equal steps between redshift 0 and 0.55, and each plotted colour is -2.5 log10 of the ratio of the photometry in adjacent SDSS bands of the spectrum seen at that redshift. It completes for any file with one spectrum on at least four wavelengths, and ends with ValueError for a file with several spectra that overlap the u band. The colours do not depend on the normalisation of the spectrum; if the spectrum lies between a and b times that of an AB source, their absolute values are at most 2.5 log10(b/a).", "quantifier": "all spectra, responses and numbers of redshifts, in exact arithmetic", "why_tests_cant": "all inputs; relates two executions", "anchors": ["bin/k_plot_test_v4_lrg1_colors", "src/kcorrect/template.py:SED.set_redshift", "src/kcorrect/response.py:Response.project"]}
{"id": "C99", "title": "Fits plotted by the example programs", "statement": "k_plot_test_v4_default_fit and k_plot_test_v4_lrg1_fit plot nonnegative coefficients for which the model fluxes at redshift 0.0532 in seven bands are closest to 1 maggy; the sum of these fluxes equals the sum of their squares, so it is at most 7. The curve is the rest-frame spectrum of the coefficients over that of an AB source, the points are the logarithms of the observed and model fluxes. If the curve lies between log10 a and log10 b, the fitted points lie between log10 a and log10 b plus log10 1.0532, so a flat curve and its points differ by log10(1+z). The programs complete for any templates if the responses can be loaded and the solver returns.", "quantifier": "all templates, responses, solvers meeting the contract, in exact arithmetic", "why_tests_cant": "all inputs", "anchors": ["bin/k_plot_test_v4_default_fit", "bin/k_plot_test_v4_lrg1_fit", "src/kcorrect/fitter.py:Fitter.fit_coeffs", "src/kcorrect/fitter.py:Fitter.reconstruct"]}
{"id": "C100", "title": "Rounding errors of fits", "statement": "In an arithmetic whose operations have relative errors of at most u (2^-24 for float32 without underflow and overflow), on a design matrix with positive entries that differ by a factor of at most kappa between neighbouring grid redshifts, and with a solver that misses the minimum by at most a fraction eps, fit_coeffs returns nonnegative coefficients whose sqrt(chi^2), in exact arithmetic at the rounded redshift, is above that of any other nonnegative coefficients by at most 10 eta + 2 sqrt(eps) times the signal to noise ratio of the photometry, where eta is 2 kappa times the relative error of 9 roundings. The same is true of the coefficients of a batch, stored in float32. Photometry that the templates reproduce is recovered with that error, and the fluxes are near those of the exact fit.", "quantifier": "all photometry, design matrices, redshifts in range, roundings and solvers of bounded error", "why_tests_cant": "all roundings and all inputs; relates the computed and the exact fit", "anchors": ["src/kcorrect/fitter.py:Fitter._fit_coeffs", "src/kcorrect/fitter.py:Fitter.fit_coeffs"]}
{"id": "C101", "title": "Objects that share templates", "statement": "Kcorrect objects keep a reference to the template object they are given, and the responses are cached in the process. Nevertheless an object stays as it was built: whatever a program does afterwards with the templates (set_redshift, set_interp), with the response cache and with further objects, failed calls included, every call of the methods of the object has the same result and tofits writes the same file. Building it again gives the same object, whatever the response files are by then, unless set_interp was called on templates made without interpolation. With the same response files, an object that can be built at the start of a program is built, the same, at any later point. The converse is false: a construction that raises because a response cannot be set up leaves the response in the cache and can succeed when repeated.", "quantifier": "all sequences of operations on templates, cache and constructors, all arguments", "why_tests_cant": "all histories of calls", "anchors": ["src/kcorrect/kcorrect.py:Kcorrect.__init__", "src/kcorrect/fitter.py:Fitter._calc_Amatrix", "src/kcorrect/template.py:SED.set_redshift", "src/kcorrect/template.py:SED.set_interp", "src/kcorrect/response.py:ResponseDict.load_response", "src/kcorrect/kcorrect.py:Kcorrect.tofits"]}
{"id": "C102", "title": "Few templates suffice", "statement": "For any nonnegative coefficients there are nonnegative coefficients of some of the same templates, no more templates than responses, with the same fluxes in all responses; for n pairs of redshift and band shift, n times as many. At most (number of responses) + 2 (number of output responses) + 7 templates are needed for the same fluxes, K-corrections, absolute magnitudes and derived quantities of an object, however large the template set. For every fit there is one as good with no more templates than measured bands; a fit whose templates no combination of them cancels in the measured bands has no more. A solver that meets the contract may return more (refuted).", "quantifier": "all template sets, coefficients, redshifts, band shifts and photometry, in exact arithmetic", "why_tests_cant": "existence for all inputs, template sets of any size", "anchors": ["src/kcorrect/fitter.py:Fitter.fit_coeffs", "src/kcorrect/fitter.py:Fitter.reconstruct", "src/kcorrect/kcorrect.py:Kcorrect.reconstruct_out", "src/kcorrect/kcorrect.py:Kcorrect.kcorrect", "src/kcorrect/kcorrect.py:Kcorrect.absmag", "src/kcorrect/kcorrect.py:Kcorrect.derived"]}
{"id": "C103", "title": "Accuracy of projections", "statement": "Response.project approximates the ratio of the integrals of flux x response x wavelength of the spectrum and of an AB source, both curves interpolated, by sums over the merged grid. For a response that ends with zeros inside the range of the spectrum the maggies differ from the ratio of the integrals by at most (M + |m| M') d^2 (hi - lo) / 12 over the integral for the AB source, with M and M' the largest second derivatives of the integrands and d the largest step of the grid inside the band; these bounds exist for every response and spectrum. For a spectrum that the samples reproduce, the error is at most C d^2 with C independent of the sampling.", "quantifier": "all responses that end with zeros, all spectra that extend beyond them, all grids, in exact arithmetic", "why_tests_cant": "an error bound for all inputs; the exact integral is not computed by the code", "anchors": ["src/kcorrect/response.py:Response.project", "src/kcorrect/response.py:Response.set_interp"]}
{"id": "C104", "title": "Accuracy of the interpolation in redshift", "statement": "The photometry of the templates is computed at the redshifts of a grid and interpolated linearly between them. If F is any curve through the fluxes that given coefficients have at the grid redshifts (for instance the flux as a function of redshift), the maggies of reconstruct and reconstruct_out at the combined redshift Z differ from F(Z)/(1+band_shift) by at most M step^2 / 8 / (1+band_shift) if the second derivative of F is at most M, and by at most L step / 2 / (1+band_shift) if F has the Lipschitz constant L. The K-corrections differ from -2.5 log10 of the ratio of the exact fluxes by at most 2.5/ln 10 times the sum of the corresponding relative errors.", "quantifier": "all constructed objects, coefficients, redshifts and band shifts in range, all curves through the grid fluxes, in exact arithmetic", "why_tests_cant": "an error bound for all inputs", "anchors": ["src/kcorrect/fitter.py:Fitter._interpolate_Amatrix", "src/kcorrect/fitter.py:Fitter.reconstruct", "src/kcorrect/kcorrect.py:Kcorrect.reconstruct_out", "src/kcorrect/kcorrect.py:Kcorrect.kcorrect"]}
{"id": "C105", "title": "Rounding errors of projections", "statement": "In an arithmetic whose operations have relative errors of at most u, Response.project gives maggies that differ from those of exact arithmetic, for the same samples and interpolated values, by a stated bound on the errors of the two sums: 7 roundings times the integral of the size of the integrand (with the boundary terms), plus n + 3 roundings, n the number of grid wavelengths, times the changes of the integrand between neighbouring samples weighted with the wavelength; this part is the price of calling trapezoid(grid, integrand). For nonnegative integrands and a spectrum sampled beyond both ends of the band the relative error is (1+g)(2 eta/(1-eta)) + g with eta = 7 roundings + (n + 3) roundings times the ratio of these changes to the integral; for an integrand with one maximum the changes are at most twice the maximum times the largest wavelength. True for one and for several spectra.", "quantifier": "all responses, spectra and grids, all arithmetics with bounded relative errors, float32 without underflow and overflow among them", "why_tests_cant": "all roundings and all inputs; relates the computed and the exact result", "anchors": ["src/kcorrect/response.py:Response.project", "src/kcorrect/utils.py:sed_ab"]}
{"id": "C106", "title": "Accuracy of reconstructed fluxes", "statement": "The numbers of the design matrix approximate the fluxes of the templates seen at the grid redshifts: for responses that end with zeros inside the range of the templates, the flux of given coefficients differs from the ratio of the integrals over the band by at most the sum of the sizes of the coefficients times (M + B M') e / (D - M' e), e = h^2 (hi - lo) / 12, with M and M' the largest second derivatives of the integrands, h the longest step of the integration grid, D the integral for the AB source and B the largest flux of a template. So reconstruct and reconstruct_out at the combined redshift Z give the flux of the sum of the templates seen at Z over 1+band_shift, up to that plus 1/8 of its second derivative with redshift times the square of the grid step, over 1+band_shift; and the K-corrections and the absolute magnitudes of measured bands are those of the exact fluxes up to 2.5/ln 10 times the sum of the corresponding relative errors.", "quantifier": "all constructed objects, coefficients, redshifts and band shifts in range, all responses that end with zeros, in exact arithmetic", "why_tests_cant": "an error bound for all inputs; the exact flux is not computed by the code", "anchors": ["src/kcorrect/response.py:Response.project", "src/kcorrect/fitter.py:Fitter._calc_Amatrix", "src/kcorrect/fitter.py:Fitter.reconstruct", "src/kcorrect/kcorrect.py:Kcorrect.reconstruct_out", "src/kcorrect/kcorrect.py:Kcorrect.kcorrect", "src/kcorrect/kcorrect.py:Kcorrect.absmag"]}
{"id": "C107", "title": "The spectrum of a fit", "statement": "The documentation gives the observed spectrum of coefficients as restframe_wave (1+z) and coeffs . restframe_flux / (1+z). Response.project of that spectrum at the redshifts of the grid, interpolated linearly between them, is what reconstruct and reconstruct_out return, over 1+band_shift; at the redshifts of the grid the maggies are exactly the projections of the spectrum, and elsewhere they differ from them by at most M step^2 / 8 if the second derivative of the projected flux with redshift is at most M, and by at most L step / 2 if it has the Lipschitz constant L. At grid redshifts the K-correction is -2.5 log10 of the flux of the spectrum at the redshift in the input band over 1/(1+band_shift) times that of the spectrum at redshift band_shift in the output band.", "quantifier": "all constructed objects, coefficients, redshifts and band shifts in range, in exact arithmetic", "why_tests_cant": "relates the design matrix to a spectrum the code never computes, for all inputs", "anchors": ["src/kcorrect/response.py:Response.project", "src/kcorrect/fitter.py:Fitter._calc_Amatrix", "src/kcorrect/fitter.py:Fitter.reconstruct", "src/kcorrect/kcorrect.py:Kcorrect.reconstruct_out", "src/kcorrect/kcorrect.py:Kcorrect.kcorrect"]}
{"id": "C108", "title": "How fits change with the photometry", "statement": "At a given redshift with given inverse variances, fits that use the same templates add up: the fit of a combination with nonnegative weights of photometry has the same combination of the fluxes in every measured band, and of the coefficients if the measured bands tell the templates apart; the means over Monte Carlo samples are an example. A template that is not used stays unused as long as the photometry changes by less in chi^2 than the square of the derivative of chi^2/2 with its coefficient, over the squared signal to noise of its fluxes. If every unused template would make the fit worse and the used ones tell apart in the measured bands, the fit of all photometry near enough uses the same templates, with coefficients that are linear in the photometry and change by at most a multiple of its distance.", "quantifier": "all design matrices, photometry, solvers meeting the contract, redshifts in range, in exact arithmetic", "why_tests_cant": "relates fits of infinitely many photometric data", "anchors": ["src/kcorrect/fitter.py:Fitter.fit_coeffs", "src/kcorrect/fitter.py:Fitter._fit_coeffs"]}
{"id": "C109", "title": "Catalogues are processed object by object", "statement": "Fitting a catalogue with fit_coeffs (no Monte Carlo, at least two bands) and passing the coefficients to absmag (with reconstruct, limit and kcorrect) or derived gives for every object what the same calls give for the object alone. The objects do not influence each other: any selection of the objects of a catalogue, in any order, is a catalogue with the same rows. A catalogue fails if and only if one of its objects fails alone. With the AB correction of KcorrectSDSS and KcorrectGST the same holds for the corrected photometry.", "quantifier": "all catalogues, selections, band shifts and solvers", "why_tests_cant": "tests fit a few objects in one or two arrangements", "anchors": ["src/kcorrect/kcorrect.py:Kcorrect.absmag", "src/kcorrect/kcorrect.py:Kcorrect.derived", "src/kcorrect/fitter.py:Fitter.fit_coeffs", "src/kcorrect/kcorrect.py:KcorrectSDSS", "src/kcorrect/kcorrect.py:KcorrectGST"]}
{"id": "C110", "title": "What KcorrectSDSS and KcorrectGST fit", "statement": "With abcorrect=True the fitted coefficients are nonnegative and minimise, among all nonnegative coefficients, chi^2 of the photometry exactly as given against the template fluxes converted to the instrument's magnitude system with the documented offsets. The fitted fluxes in the measured bands do not depend on the solver, and two fits differ by at most the chi^2 between the two sets of photometry. Photometry that is, in the instrument's system, exactly that of a nonnegative combination of the templates is reproduced; if the measured bands tell the templates apart the combination itself is recovered, and absmag then returns its true AB absolute magnitude in each output band.", "quantifier": "all instances of either class, photometry, inverse variances, redshifts in range, and solvers that meet the nonnegative-least-squares contract", "why_tests_cant": "an optimum over all coefficient vectors; the tests fit without AB correction only", "anchors": ["src/kcorrect/kcorrect.py:KcorrectSDSS.to_ab", "src/kcorrect/kcorrect.py:KcorrectGST.to_ab", "src/kcorrect/fitter.py:Fitter.fit_coeffs", "src/kcorrect/kcorrect.py:Kcorrect.absmag"]}
{"id": "C111", "title": "Reading a file into an SED that exists", "statement": "fromfits called on an SED after any history of set_redshift and set_interp calls (raising or not) succeeds exactly when constructing a new SED from the file with the same interpolate flag does, and then leaves exactly the attributes of that new SED. When it raises, the flag and the interpolator stay, binimage becomes that of the file (so tofits may switch layout: the object is not left as it was), and wave, flux and redshift stay unless only the new interpolator could not be built; then the object holds the new spectrum at redshift 0 beside the interpolator of the old one, as happens for a file of two or three samples.", "quantifier": "all SEDs, histories, files and failures", "why_tests_cant": "all histories; states left behind by exceptions", "anchors": ["src/kcorrect/template.py:SED.fromfits", "src/kcorrect/template.py:SED._setup", "src/kcorrect/template.py:SED.set_interp", "src/kcorrect/template.py:SED.tofits"]}
{"id": "C112", "title": "A set_Amatrix that raises", "statement": "When set_Amatrix raises on an existing Fitter or Kcorrect object, the object keeps its previous table, bands, grid, AB settings and rest-frame templates, so every method returns what it returned before; the templates themselves are left at their redshift, at 0, or at one of the grid redshifts. If it raised because a response file is missing, calling it again raises again, even when the file is there by then.", "quantifier": "all objects, caches, files, and failures", "why_tests_cant": "states left behind by exceptions; two-call histories", "anchors": ["src/kcorrect/fitter.py:Fitter.set_Amatrix", "src/kcorrect/fitter.py:Fitter._calc_Amatrix", "src/kcorrect/response.py:ResponseDict.load_response"]}
{"id": "C113", "title": "Rounding errors of the photometry utilities", "statement": "With every operation, literal, power, logarithm, square root and hyperbolic function off by a relative error of at most u, sdss_ab_correct returns maggies * 10^(-0.4 abfix) up to four roundings (and inverse variances up to six), the roundings of the exponent being amplified by the size of abfix; maggies2flambda returns the documented flux densities up to nine roundings and their inverse variances up to 18; error_floor returns the smaller of the given inverse variance and that of the floor up to eleven, whichever way its comparison falls; and sdss_asinh_to_maggies returns the flux, times the extinction, and inverse variance (ten and 29 roundings) of a magnitude within seven roundings of the given magnitude plus that of the magnitude of no flux.", "quantifier": "all arithmetics meeting the standard model without underflow and overflow, all arrays of the accepted shapes", "why_tests_cant": "tests compare a few values; there is no tolerance that holds for all", "anchors": ["src/kcorrect/utils.py:sdss_ab_correct", "src/kcorrect/utils.py:maggies2flambda", "src/kcorrect/utils.py:error_floor", "src/kcorrect/utils.py:sdss_asinh_to_maggies"]}
{"id": "C114", "title": "KcorrectSDSS and KcorrectGST with other numbers of bands", "statement": "With abcorrect=True, a KcorrectSDSS object whose number of bands is not five, or a KcorrectGST object with fewer than seven, raises TypeError whenever fit_coeffs or absmag gets a single object. For a catalogue, too few bands raise IndexError. A KcorrectSDSS object with more than five bands accepts a catalogue but ignores its photometry beyond the first five bands: fit_coeffs and absmag do not depend on it, and the absolute magnitudes and limits derived from those bands are all -9999. So an object of a catalogue is not in general treated as it is alone.", "quantifier": "all instances of the two classes with abcorrect=True, all photometry of the documented shapes, solvers, random numbers and options", "why_tests_cant": "the tests use the documented band sets; silence of the code about ignored data cannot be seen from one call", "anchors": ["src/kcorrect/kcorrect.py:KcorrectSDSS.to_ab", "src/kcorrect/kcorrect.py:KcorrectGST.to_ab", "src/kcorrect/utils.py:sdss_ab_correct", "src/kcorrect/fitter.py:Fitter.fit_coeffs", "src/kcorrect/kcorrect.py:Kcorrect.absmag"]}
{"id": "C115", "title": "Rounding errors of the derived quantities", "statement": "With every operation, literal and power off by a relative error of at most u, nonnegative coefficients and nonnegative template masses, derived returns for one object: masses within nt + 4 roundings (plus two of the exponent, amplified by 0.4 times the distance modulus) of the coefficient-weighted template masses at that distance; b50, b300, b1000 within 2 nt + 7 and the metallicity within 2 nt + 8 roundings of the ratios of the weighted sums, whatever the distance, and 0 exactly when the remaining mass is 0; and mass-to-light ratios within nt + 8 roundings (plus those of two exponents) of mass over flux in solar units, 0 exactly where the flux is not positive. Against exact output fluxes of a table that changes by at most a factor kappa between grid points the error of the flux, 2 kappa times nt + 10 roundings, adds.", "quantifier": "all arithmetics meeting the standard model without underflow and overflow, all objects, coefficients, redshifts and band shifts", "why_tests_cant": "tests compare a few values; there is no tolerance that holds for all", "anchors": ["src/kcorrect/kcorrect.py:Kcorrect.derived", "src/kcorrect/kcorrect.py:Kcorrect.reconstruct_out"]}
{"id": "C116", "title": "Instrument classes with inexact solvers and for brighter objects", "statement": "For KcorrectSDSS and KcorrectGST with abcorrect=True and their documented numbers of bands: with a solver that only comes within eps of the optimum, as a floating-point one does, the fitted coefficients are nonnegative and chi^2 of the photometry as given (in the system of the instrument) exceeds that of any other nonnegative coefficients by at most eps times the squared signal to noise of that photometry; two fits of the same bands by any two such solvers differ, in units of the errors, by no more than the photometry plus the solvers' errors; and making an object brighter by a factor with the same relative errors multiplies the fitted fluxes of the measured bands by it, and the coefficients too if those bands tell the templates apart; in that case the K-corrections stay the same and the absolute magnitudes of the measured positive fluxes become brighter by 2.5 log10 of the factor, the other ones staying -9999.", "quantifier": "all objects with abcorrect=True, all photometry with nonnegative inverse variances, all redshifts of the grid, all solvers of the stated accuracy", "why_tests_cant": "tests compare a few fits with recorded numbers from one solver", "anchors": ["src/kcorrect/fitter.py:Fitter.fit_coeffs", "src/kcorrect/fitter.py:Fitter._fit_coeffs", "src/kcorrect/kcorrect.py:KcorrectSDSS.to_ab", "src/kcorrect/kcorrect.py:KcorrectGST.to_ab", "src/kcorrect/kcorrect.py:Kcorrect.kcorrect", "src/kcorrect/kcorrect.py:Kcorrect.absmag"]}
{"id": "C117", "title": "Rounding errors of magnitude limits, reconstructed magnitudes and distances", "statement": "With every operation, literal, logarithm and square root off by a relative error of at most u, absmag of one object returns: limits within three roundings of the flux and six of the magnitude of -2.5 log10(1/sqrt(ivar)) - DM - K; reconstructed magnitudes within 2.5 log10(1/(1-eta)) and six roundings of -2.5 log10(flux) - DM - K if eta is the relative error of the flux that reconstruct_out computes; with an explicit distance what a cosmology of constant distance modulus gives, which is within seven roundings of the distance and three of the modulus of 5 log10(distance / 10 pc). In all three arrays the bands without usable input hold exactly the float for -9999: roundings never move an entry across the sentinel.", "quantifier": "all arithmetics meeting the standard model without underflow and overflow, all objects, band shifts and flags", "why_tests_cant": "tests compare a few values; there is no tolerance that holds for all", "anchors": ["src/kcorrect/kcorrect.py:Kcorrect.absmag"]}
{"id": "C118", "title": "Monte Carlo catalogues can be cut", "statement": "A catalogue cut into two or more parts, none of them a single object, and passed to fit_coeffs one after the other gives the coefficients, Monte Carlo coefficients and Monte Carlo maggies of the whole catalogue put together along the first axis, and leaves the random stream where the whole call leaves it; the whole call raises what the first failing part raises. Object i of a Monte Carlo catalogue gets exactly what it gets alone when the stream has advanced by mc variates per measured band of the objects before it; so its results depend on the other objects only through that number: not on their fluxes, errors or redshifts, and not on the objects after it.", "quantifier": "all catalogues and cuts, any number of draws, any solver and random stream, at least two bands; without AB correction in any arithmetic, and for KcorrectSDSS and KcorrectGST with abcorrect=True and their documented numbers of bands with finite photometry", "why_tests_cant": "tests never split a catalogue, and Monte Carlo results cannot be compared without fixing the generator", "anchors": ["src/kcorrect/fitter.py:Fitter.fit_coeffs", "src/kcorrect/fitter.py:Fitter._fit_coeffs", "src/kcorrect/kcorrect.py:KcorrectSDSS.to_ab", "src/kcorrect/kcorrect.py:KcorrectGST.to_ab"]}
