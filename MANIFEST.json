{
 "claims": [
  {
   "property": "C01",
   "status": "proved",
   "theorems": [
    "C01_sdss_ab_correct",
    "C01_default_offsets"
   ],
   "note": "Exact real arithmetic."
  },
  {
   "property": "C02",
   "status": "proved",
   "theorems": [
    "C02_sdss_ab_correct_invertible"
   ],
   "note": "Exact real arithmetic."
  },
  {
   "property": "C03",
   "status": "proved",
   "theorems": [
    "C03_sdss_ab_correct_1d_rejects",
    "C03_sdss_ab_correct_nd_short",
    "C03_sdss_ab_correct_nd_wide",
    "C03_every_band_corrected_refuted"
   ],
   "note": "Exact behaviour for other band counts, and the refutation of 'every band is corrected or the call fails'."
  },
  {
   "property": "C04",
   "status": "proved",
   "theorems": [
    "C04_shapes",
    "C04_asinh_inverse",
    "C04_asinh_decreasing"
   ],
   "note": "Exact real arithmetic."
  },
  {
   "property": "C05",
   "status": "proved",
   "theorems": [
    "C05_flux_derivative",
    "C05_asinh_error"
   ],
   "note": "Exact real arithmetic; the derivative is Coq's derivable_pt_lim."
  },
  {
   "property": "C06",
   "status": "proved",
   "theorems": [
    "C06_extinction_flux_only"
   ],
   "note": "The ivar ignores extinction; S/N is preserved exactly when the flux or the extinction is 0."
  },
  {
   "property": "C07",
   "status": "proved",
   "theorems": [
    "C07_shapes",
    "C07_error_floor",
    "C07_error_floor_rows"
   ],
   "note": "Exact real arithmetic; row-wise law for any arithmetic."
  },
  {
   "property": "C08",
   "status": "proved",
   "theorems": [
    "C08_error_floor_idempotent",
    "C08_error_floor_integer_truncates"
   ],
   "note": "Idempotence for float arrays; integer arrays lose the band."
  },
  {
   "property": "C09",
   "status": "proved",
   "theorems": [
    "C09_scalar",
    "C09_maggies2flambda"
   ],
   "note": "Exact real arithmetic."
  },
  {
   "property": "C10",
   "status": "proved",
   "theorems": [
    "C10_read_basel_round_trip",
    "C10_read_basel_short"
   ],
   "note": "Words of the file are abstract; parsing of a single number is a parameter."
  },
  {
   "property": "C11",
   "status": "proved",
   "theorems": [
    "C11_rounding",
    "C11_many_models_fail",
    "C11_many_models_no_response",
    "C11_one_model"
   ],
   "note": "Any arithmetic for the failure, exact reals for the scaling."
  },
  {
   "property": "C12",
   "status": "proved",
   "theorems": [
    "C12_last_redshift_decides",
    "C12_interpolator_fresh",
    "C12_histories_agree",
    "C12_never_stale_refuted"
   ],
   "note": "Any arithmetic, any history of calls including failing ones; the unconditional 'never stale' claim is refuted for a call that raises."
  },
  {
   "property": "C13",
   "status": "proved",
   "theorems": [
    "C13_integral",
    "C13_bolometric"
   ],
   "note": "Exact real arithmetic; C13_integral for a single spectrum and the contract of cubic interpolation (C78)."
  },
  {
   "property": "C14",
   "status": "proved",
   "theorems": [
    "C14_missing",
    "C14_one_dimensional",
    "C14_tofits_fromfits",
    "C14_one_sample_fails"
   ],
   "note": "Rest-frame arrays up to float32 rounding in the table layout; FITS bytes are not modelled. One-sample spectra cannot be read back."
  },
  {
   "property": "C15",
   "status": "proved",
   "theorems": [
    "C15_sorted_samples",
    "C15_order_irrelevant",
    "C15_constructs"
   ],
   "note": "Exact reals; distinct wavelengths for order independence. Construction succeeds for the spline and any root finder with a tolerance."
  },
  {
   "property": "C16",
   "status": "proved",
   "theorems": [
    "C16_ab_source",
    "C16_ab_source_bracketed",
    "C16_same_samples"
   ],
   "note": "Exact reals; for any interpolating function, and for the spline when the source has the samples of the response."
  },
  {
   "property": "C17",
   "status": "proved",
   "theorems": [
    "C17_linear",
    "C17_each_sed",
    "C17_array_call",
    "C17_linear_spline"
   ],
   "note": "Exact reals; linear for the cubic spline."
  },
  {
   "property": "C18",
   "status": "proved",
   "theorems": [
    "C18_proper_spline_refuted",
    "C18_positive_spline_refuted",
    "C18_between",
    "C18_projection_formula",
    "C18_proper_when_bracketed",
    "C18_proper_always_refuted"
   ],
   "note": "Exact formula; proper ratio when the SED brackets the band; refuted otherwise. Over the reals, so meaningful where the AB integral is nonzero. Refuted also for the spline, with overshoot when all samples are positive."
  },
  {
   "property": "C19",
   "status": "proved",
   "theorems": [
    "C19_inside_band_spline_refuted",
    "C19_formula",
    "C19_inside_band",
    "C19_inside_band_refuted"
   ],
   "note": "Inside the band for responses vanishing at both ends; refuted for a flat response."
  },
  {
   "property": "C20",
   "status": "proved",
   "theorems": [
    "C20_fwhm_bracketed",
    "C20_fwhm_attributes",
    "C20_tolerance"
   ],
   "note": "For any root finder that meets its contract on sign-changing brackets between samples; for the spline and a root finder with a tolerance without further assumptions."
  },
  {
   "property": "C21",
   "status": "proved",
   "theorems": [
    "C21_straddling_spline",
    "C21_grid",
    "C21_zero_without_sample",
    "C21_straddling"
   ],
   "note": "Exact reals."
  },
  {
   "property": "C22",
   "status": "proved",
   "theorems": [
    "C22_present_is_noop",
    "C22_others_untouched",
    "C22_successful_load",
    "C22_history"
   ],
   "note": "Any arithmetic, any history of loads with files changing in between."
  },
  {
   "property": "C23",
   "status": "proved",
   "theorems": [
    "C23_failed_load_poisons",
    "C23_missing_file_blank",
    "C23_second_check_reports_all"
   ],
   "note": "Any arithmetic."
  },
  {
   "property": "C24",
   "status": "proved",
   "theorems": [
    "C24_lists_dat_files",
    "C24_check_validity",
    "C24_only_dat_files_refuted"
   ],
   "note": "File names without newlines; refuted for a name with a trailing newline."
  },
  {
   "property": "C25",
   "status": "proved",
   "theorems": [
    "C25_accepted_iff_documented",
    "C25_rejected",
    "C25_no_redshift"
   ],
   "note": "For the Fitter methods (fit_coeffs, reconstruct, _process_inputs)."
  },
  {
   "property": "C26",
   "status": "proved",
   "theorems": [
    "C26_documented_refuted",
    "C26_shape"
   ],
   "note": "Any arithmetic. The documented shape is refuted (C26_documented_refuted)."
  },
  {
   "property": "C27",
   "status": "proved",
   "theorems": [
    "C27_batch_is_sequence_of_single_calls",
    "C27_rows",
    "C27_batch_of_one",
    "C27_one_band_raises",
    "C27_one_band_vectorisation_refuted"
   ],
   "note": "Any arithmetic; batch = sequence of scalar calls, with the one-band exceptions stated and the unrestricted claim refuted. Without AB correction."
  },
  {
   "property": "C28",
   "status": "proved",
   "theorems": [
    "C28_optimal",
    "C28_retry",
    "C28_monte_carlo"
   ],
   "note": "Exact reals; scipy's nnls is an oracle with its stated contract; includes the retry and the Monte Carlo draws."
  },
  {
   "property": "C29",
   "status": "proved",
   "theorems": [
    "C29_zero_ivar_irrelevant"
   ],
   "note": "Reals with NaN and infinities; includes the Monte Carlo coefficients."
  },
  {
   "property": "C30",
   "status": "proved",
   "theorems": [
    "C30_out_of_range_gives_zero",
    "C30_out_of_range_row",
    "C30_out_of_range_mc_raises",
    "C30_reconstruct_range"
   ],
   "note": "Any arithmetic."
  },
  {
   "property": "C31",
   "status": "proved",
   "theorems": [
    "C31_batch_of_one_mc_never_returns"
   ],
   "note": "Any arithmetic."
  },
  {
   "property": "C32",
   "status": "proved",
   "theorems": [
    "C32_draws",
    "C32_coeffs_mc"
   ],
   "note": "Any arithmetic; the random stream is an arbitrary sequence with a cursor."
  },
  {
   "property": "C33",
   "status": "proved",
   "theorems": [
    "C33_linear",
    "C33_zero_and_sign"
   ],
   "note": "Exact reals, band_shift different from -1."
  },
  {
   "property": "C34",
   "status": "proved",
   "theorems": [
    "C34_band_shift"
   ],
   "note": "Exact reals, band_shift different from -1."
  },
  {
   "property": "C35",
   "status": "proved",
   "theorems": [
    "C35_noiseless"
   ],
   "note": "Exact reals, given the nnls contract."
  },
  {
   "property": "C36",
   "status": "proved",
   "theorems": [
    "C36_grid",
    "C36_interpolation",
    "C36_at_grid_points",
    "C36_table"
   ],
   "note": "Grid and interpolation over exact reals; table construction for any arithmetic with exact stores."
  },
  {
   "property": "C37",
   "status": "proved",
   "theorems": [
    "C37_groups",
    "C37_single_template_group_refuted"
   ],
   "note": "Equality for every number of templates in exact arithmetic, for any arithmetic without a one-template group, and a refutation for 1001 templates with rounding stores."
  },
  {
   "property": "C38",
   "status": "proved",
   "theorems": [
    "C38_float32",
    "C38_templates_back_at_zero"
   ],
   "note": "Any arithmetic in which multiplying and dividing by 1+0 is exact. Also in IEEE binary32."
  },
  {
   "property": "C39",
   "status": "proved",
   "theorems": [
    "C39_range_rounded",
    "C39_grid",
    "C39_distinct",
    "C39_distinct_refuted",
    "C39_end_exact",
    "C39_reconstruct_in_range",
    "C39_fit_at_end_zero",
    "C39_end_refuted",
    "C39_reconstruct_refuted",
    "C39_shift_error",
    "C39_one_point"
   ],
   "note": "IEEE binary32 arithmetic (Flocq). The claims that every redshift in the range is fitted, reconstructed and has distinct neighbours in the grid are refuted, with sufficient conditions met by both defaults."
  },
  {
   "property": "C40",
   "status": "proved",
   "theorems": [
    "C40_mapping",
    "C40_rejected",
    "C40_accepted",
    "C40_ready"
   ],
   "note": "The constructor with explicit responses; also: every constructed object satisfies the readiness condition the other theorems assume."
  },
  {
   "property": "C41",
   "status": "proved",
   "theorems": [
    "C41_definition",
    "C41_batch"
   ],
   "note": "Over exact reals with infinities and NaN (no float32 rounding); objects without AB correction."
  },
  {
   "property": "C42",
   "status": "proved",
   "theorems": [
    "C42_scale",
    "C42_scale_batch"
   ],
   "note": "Same arithmetic as C41."
  },
  {
   "property": "C43",
   "status": "proved",
   "theorems": [
    "C43_same_band",
    "C43_zero",
    "C43_constructed"
   ],
   "note": "Exact reals, redshifts inside the grid after shifting."
  },
  {
   "property": "C44",
   "status": "proved",
   "theorems": [
    "C44_law",
    "C44_batch",
    "C44_documented_refuted"
   ],
   "note": "Exact reals with infinities and NaN; the cosmological distance modulus is an arbitrary function of redshift; without abcorrect."
  },
  {
   "property": "C45",
   "status": "proved",
   "theorems": [
    "C45_distance",
    "C45_difference",
    "C45_consistent"
   ],
   "note": "As C44."
  },
  {
   "property": "C46",
   "status": "proved",
   "theorems": [
    "C46_law",
    "C46_offset",
    "C46_same_bands",
    "C46_shift_refuted",
    "C46_out_of_range_refuted",
    "C46_constructed"
   ],
   "note": "As C44; the failures are the _refuted theorems."
  },
  {
   "property": "C47",
   "status": "proved",
   "theorems": [
    "C47_law",
    "C47_zero_coeffs"
   ],
   "note": "As C44."
  },
  {
   "property": "C48",
   "status": "proved",
   "theorems": [
    "C48_order",
    "C48_kcorrect"
   ],
   "note": "Any arithmetic, any object state."
  },
  {
   "property": "C49",
   "status": "proved",
   "theorems": [
    "C49_slices",
    "C49_failure",
    "C49_single_output",
    "C49_mismatch"
   ],
   "note": "Any arithmetic, all instrument kinds, with or without abcorrect. Value semantics: the in-place writes of the GST correction into the caller arrays are not visible here."
  },
  {
   "property": "C50",
   "status": "proved",
   "theorems": [
    "C50_law",
    "C50_scale",
    "C50_nonpositive",
    "C50_metallicity",
    "C50_history",
    "C50_batch",
    "C50_documented_refuted"
   ],
   "note": "The law for any arithmetic; scaling with infinities and NaN; metallicity and history bounds over the reals; batch rows in exact arithmetic for equal numbers of input and output bands (otherwise C51_bands). The documented shape is refuted (C50_documented_refuted)."
  },
  {
   "property": "C51",
   "status": "proved",
   "theorems": [
    "C51_distance",
    "C51_unbound",
    "C51_solar",
    "C51_bands"
   ],
   "note": "Any arithmetic. The TypeError needs at least one object; the IndexError at least one output band."
  },
  {
   "property": "C52",
   "status": "proved",
   "theorems": [
    "C52_slices",
    "C52_no_draws",
    "C52_failure"
   ],
   "note": "Any arithmetic; also the failing case."
  },
  {
   "property": "C53",
   "status": "proved",
   "theorems": [
    "C53_round_trip",
    "C53_constructed",
    "C53_range_refuted",
    "C53_names",
    "C53_derived_unloaded",
    "C53_rewritten"
   ],
   "note": "Over the reals (the tables are evaluated at the grid points and interpolated again, which is exact only up to rounding). The file is modelled as a list of HDUs; float32/float64 columns exact, response names ASCII. range_refuted: redshift_range (0, 1/2) becomes (0, 0)."
  },
  {
   "property": "C54",
   "status": "proved",
   "theorems": [
    "C54_no_wrong_object",
    "C54_old_lost",
    "C54_failed_call",
    "C54_cut"
   ],
   "note": "Crash points: file operations and whole HDUs (remove, HDU-wise write, the temporary file of astropy's update, rename); partially written HDUs are not modelled."
  },
  {
   "property": "C55",
   "status": "proved",
   "theorems": [
    "C55_columns",
    "C55_no_ivar",
    "C55_scalar",
    "C55_fit_in_place",
    "C55_absmag_in_place",
    "C55_untouched",
    "C55_history"
   ],
   "note": "Float32 aliasing is modelled on a memory of cells (Heap.v). redshift, coeffs and distance are passed by value; read-only arrays are not modelled."
  },
  {
   "property": "C56",
   "status": "proved",
   "theorems": [
    "C56_draws",
    "C56_offset",
    "C56_twice"
   ],
   "note": "Extended reals, single objects, any number of draws."
  },
  {
   "property": "C57",
   "status": "proved",
   "theorems": [
    "C57_no_sample",
    "C57_solar_and_vega"
   ],
   "note": "Exact reals; one-model Basel files."
  },
  {
   "property": "C58",
   "status": "proved",
   "theorems": [
    "C58_list",
    "C58_second_call_nan"
   ],
   "note": "Extended reals with NaN."
  },
  {
   "property": "C59",
   "status": "proved",
   "theorems": [
    "C59_unusable_band_raises",
    "C59_batch_raises",
    "C59_usable_photometry_is_fitted",
    "C59_nan_redshift"
   ],
   "note": "Reals with NaN and infinities."
  },
  {
   "property": "C60",
   "status": "proved",
   "theorems": [
    "C60_reconstruct_vectorised"
   ],
   "note": "Any arithmetic."
  },
  {
   "property": "C61",
   "status": "proved",
   "theorems": [
    "C61_fit",
    "C61_absmag",
    "C61_other"
   ],
   "note": "Any arithmetic in which rounding to the storage type is the identity; documented shapes."
  },
  {
   "property": "C62",
   "status": "proved",
   "theorems": [
    "C62_fit",
    "C62_errors"
   ],
   "note": "Extended reals, arrays of any shape with five bands."
  },
  {
   "property": "C63",
   "status": "proved",
   "theorems": [
    "C63_receiver",
    "C63_stale_imap_refuted"
   ],
   "note": "Over the reals."
  },
  {
   "property": "C64",
   "status": "proved",
   "theorems": [
    "C64_mixed_reconstruct",
    "C64_mixed_fit",
    "C64_unreadable",
    "C64_missing_response"
   ],
   "note": "missing_response over the reals; unreadable for every arithmetic."
  },
  {
   "property": "C65",
   "status": "proved",
   "theorems": [
    "C65_round_trip",
    "C65_no_m50",
    "C65_missing",
    "C65_rewritten"
   ],
   "note": "Any arithmetic; 1-D arrays with at least one element; without interpolator."
  },
  {
   "property": "C66",
   "status": "proved",
   "theorems": [
    "C66_offset",
    "C66_class_lost"
   ],
   "note": "class_lost over the reals; offset over the reals with infinities and NaN."
  },
  {
   "property": "C67",
   "status": "proved",
   "theorems": [
    "C67_missing",
    "C67_mixed",
    "C67_bad_curve",
    "C67_round_trip",
    "C67_blank",
    "C67_columns",
    "C67_no_pass"
   ],
   "note": "The round trip is over the reals, for at least two samples. Parsing of ASCII tables by astropy is not modelled: fromdat_table starts from the parsed columns."
  },
  {
   "property": "C68",
   "status": "proved",
   "theorems": [
    "C68_direct",
    "C68_direct_other",
    "C68_same_array"
   ],
   "note": "Arrays are ndarrays without overlap inside themselves."
  },
  {
   "property": "C69",
   "status": "proved",
   "theorems": [
    "C69_mc_in_place"
   ],
   "note": "Exact arithmetic; arrays disjoint."
  },
  {
   "property": "C70",
   "status": "proved",
   "theorems": [
    "C70_state_independent",
    "C70_again",
    "C70_failure_restores_refuted",
    "C70_after_failure"
   ],
   "note": "Any arithmetic. That a failing construction leaves the templates at redshift 0 is refuted."
  },
  {
   "property": "C71",
   "status": "proved",
   "theorems": [
    "C71_defaults",
    "C71_sdss",
    "C71_gst",
    "C71_other_order_refuted"
   ],
   "note": "Extended reals for the offsets, any arithmetic for the defaults. Refuted for another order of the responses."
  },
  {
   "property": "C72",
   "status": "proved",
   "theorems": [
    "C72_reconstruct",
    "C72_at_grid_redshifts",
    "C72_kcorrect",
    "C72_fit",
    "C72_flux_determined"
   ],
   "note": "Exact arithmetic; the spline of scipy is an oracle, the solver is known by its contract."
  },
  {
   "property": "C73",
   "status": "proved",
   "theorems": [
    "C73_construction_succeeds"
   ],
   "note": "Exact arithmetic. Sufficient conditions; a response without overlap with a template has zero photometry and does not fail."
  },
  {
   "property": "C74",
   "status": "proved",
   "theorems": [
    "C74_no_ivar",
    "C74_no_maggies",
    "C74_batches",
    "C74_absmag",
    "C74_no_coeffs",
    "C74_derived"
   ],
   "note": "Every arithmetic. For calls without AB correction."
  },
  {
   "property": "C75",
   "status": "proved",
   "theorems": [
    "C75_checks",
    "C75_shape"
   ],
   "note": "Every arithmetic."
  },
  {
   "property": "C76",
   "status": "proved",
   "theorems": [
    "C76_fit_batch",
    "C76_fit_single_refuted",
    "C76_kcorrect_batch",
    "C76_absmag",
    "C76_absmag_values"
   ],
   "note": "Every arithmetic whose rounding is idempotent."
  },
  {
   "property": "C77",
   "status": "proved",
   "theorems": [
    "C77_dark",
    "C77_dark_response",
    "C77_missing"
   ],
   "note": "Dark curves: extended reals, for splines that interpolate zeros by zero."
  },
  {
   "property": "C78",
   "status": "proved",
   "theorems": [
    "C78_linear",
    "C78_any_algorithm",
    "C78_exists",
    "C78_unique",
    "C78_at_samples",
    "C78_cubics",
    "C78_scaling"
   ],
   "note": "Exact reals. The model computes the spline; that scipy computes a not-a-knot spline is its documentation."
  },
  {
   "property": "C79",
   "status": "proved",
   "theorems": [
    "C79_exists",
    "C79_project",
    "C79_reconstruct",
    "C79_kcorrect"
   ],
   "note": "Exact reals; at grid redshifts for reconstruct and kcorrect, at every redshift for project."
  },
  {
   "property": "C80",
   "status": "proved",
   "theorems": [
    "C80_solver",
    "C80_fit_returns",
    "C80_monte_carlo_returns",
    "C80_best_exists"
   ],
   "note": "Exact reals. The solver exhibited enumerates the sets of templates; it shows the contract satisfiable and is not a model of scipy's."
  },
  {
   "property": "C81",
   "status": "proved",
   "theorems": [
    "C81_conditions",
    "C81_sufficient",
    "C81_pythagoras",
    "C81_unique",
    "C81_coefficients",
    "C81_other_redshift_refuted",
    "C81_stable",
    "C81_units",
    "C81_monte_carlo"
   ],
   "note": "Exact reals; solvers that meet the contract. The dependence of coefficients and of fluxes at other redshifts on the solver is proved as a refutation."
  },
  {
   "property": "C82",
   "status": "proved",
   "theorems": [
    "C82_curves",
    "C82_default",
    "C82_bad_index",
    "C82_limits",
    "C82_nothing_visible",
    "C82_bad_limits",
    "C82_finite_limits",
    "C82_shapes",
    "C82_redshift"
   ],
   "note": "The calls made to matplotlib, not what it draws; limits and redshift over exact reals."
  },
  {
   "property": "C83",
   "status": "proved",
   "theorems": [
    "C83_model",
    "C83_reconstruct",
    "C83_relative",
    "C83_kcorrect",
    "C83_kcorrect_tables",
    "C83_absmag",
    "C83_any_order",
    "C83_left_fold"
   ],
   "note": "Standard model of floating-point arithmetic: no underflow or overflow. Errors relative to the exact interpolation of the stored table at the rounded redshift (C92 bounds the difference to the exact one). The bounds are for sums in order; the effect of any other order is bounded separately (C83_left_fold)."
  },
  {
   "property": "C84",
   "status": "proved",
   "theorems": [
    "C84_exact",
    "C84_shrunk",
    "C84_optimal",
    "C84_near",
    "C84_stable",
    "C84_recover"
   ],
   "note": "Error of the solver relative to the sum of squares of the data, in exact arithmetic around it; nb <> 1 and no AB correction as in C28."
  },
  {
   "property": "C85",
   "status": "proved",
   "theorems": [
    "C85_sequential",
    "C85_no_deadlock",
    "C85_every_moment",
    "C85_all_loaded",
    "C85_cached_unchanged",
    "C85_half_loaded_refuted",
    "C85_two_dictionaries_refuted"
   ],
   "note": "Every arithmetic. One step is one read or store of a shared attribute or entry. That load_response may return before the response is usable, and that two dictionaries can be made, are proved as refutations."
  },
  {
   "property": "C86",
   "status": "proved",
   "theorems": [
    "C86_private_templates",
    "C86_cached_exact",
    "C86_cache_complete",
    "C86_unaffected_by_loads_refuted",
    "C86_shared_templates_refuted"
   ],
   "note": "Every arithmetic; the files of the responses can be loaded. The TypeError and the wrong matrix with shared templates are proved as refutations."
  },
  {
   "property": "C87",
   "status": "proved",
   "theorems": [
    "C87_information",
    "C87_reordered",
    "C87_unmeasured",
    "C87_repeated"
   ],
   "note": "Exact arithmetic; solvers meeting the contract of scipy.optimize.nnls; two or more bands, objects without AB correction."
  },
  {
   "property": "C88",
   "status": "proved",
   "theorems": [
    "C88_recovered",
    "C88_absmag"
   ],
   "note": "Exact arithmetic; a solver meeting the contract of scipy.optimize.nnls; two or more bands, objects without AB correction."
  },
  {
   "property": "C89",
   "status": "proved",
   "theorems": [
    "C89_coefficients",
    "C89_absmag"
   ],
   "note": "Exact arithmetic; solvers meeting the contract of scipy.optimize.nnls; two or more bands, objects without AB correction."
  },
  {
   "property": "C90",
   "status": "proved",
   "theorems": [
    "C90_same_spectrum",
    "C90_fit",
    "C90_reordered",
    "C90_rescaled",
    "C90_redundant"
   ],
   "note": "For objects constructed by the model of Kcorrect, with the interpolation any function meeting the specification of not-a-knot cubic splines (C78) and the solvers meeting nnls_contract; kcorrect and absmag for coefficients with a positive sum, as in C72; absmag and fits without abcorrect."
  },
  {
   "property": "C91",
   "status": "proved",
   "theorems": [
    "C91_response",
    "C91_construction",
    "C91_flambda",
    "C91_listing"
   ],
   "note": "The interpolation is any function meeting the specification of not-a-knot cubic splines (C78); the effective-wavelength and width searches are those of the model. The stored throughput curve itself is multiplied by the factor (stated in C91_response)."
  },
  {
   "property": "C92",
   "status": "proved",
   "theorems": [
    "C92_reconstruct",
    "C92_kcorrect",
    "C92_absmag",
    "C92_rounded"
   ],
   "note": "Coefficients nonnegative with a positive sum; redshifts (and for the rounded version all redshifts within the rounding error) in the range of the grid. absmag without absmag_limit/abcorrect."
  },
  {
   "property": "C93",
   "status": "proved",
   "theorems": [
    "C93_distance",
    "C93_luminosity"
   ],
   "note": "Exact real arithmetic."
  },
  {
   "property": "C94",
   "status": "proved",
   "theorems": [
    "C94_gst_usable",
    "C94_gst_fit",
    "C94_mtol_fit",
    "C94_sdss_raises"
   ],
   "note": "Catalogue columns are taken as float32 values with NaN and infinities, arithmetic on the finite ones exact; reading FITS files and drawing are not modelled. Table of the fitter finite, OBJECT_POSITION a valid index."
  },
  {
   "property": "C95",
   "status": "proved",
   "theorems": [
    "C95_gst_values",
    "C95_mtol_values",
    "C95_sdss_values"
   ],
   "note": "Exact real arithmetic; same simplifications as C94."
  },
  {
   "property": "C96",
   "status": "proved",
   "theorems": [
    "C96_sdss_fit",
    "C96_residuals"
   ],
   "note": "Residuals over exact reals; drawing is not modelled."
  },
  {
   "property": "C97",
   "status": "proved",
   "theorems": [
    "C97_plotted_mtol",
    "C97_solar_units_refuted",
    "C97_colour"
   ],
   "note": "The positive part and the refutation are separate theorems; exact reals."
  },
  {
   "property": "C98",
   "status": "proved",
   "theorems": [
    "C98_redshifts",
    "C98_runs",
    "C98_colours",
    "C98_normalisation",
    "C98_limits",
    "C98_several"
   ],
   "note": "Exact reals; the SED object read from the file is an argument; drawing is not modelled."
  },
  {
   "property": "C99",
   "status": "proved",
   "theorems": [
    "C99_runs",
    "C99_fit",
    "C99_mean",
    "C99_offset"
   ],
   "note": "Exact reals; the solver is assumed to meet the NNLS contract (C99_runs: to return); drawing is not modelled."
  },
  {
   "property": "C100",
   "status": "proved",
   "theorems": [
    "C100_optimal",
    "C100_batch",
    "C100_recover",
    "C100_near"
   ],
   "note": "Standard model of floating-point arithmetic (no underflow or overflow); the constants are not optimal. The solver works on the rounded problem with a bounded error in exact arithmetic."
  },
  {
   "property": "C101",
   "status": "proved",
   "theorems": [
    "C101_later",
    "C101_again",
    "C101_alone",
    "C101_first_refuted"
   ],
   "note": "Any Num; cubic interpolation, root finding and reference spectra are arbitrary. The templates are shared by reference as in the code. Methods that change an object (fromfits) are not among the operations."
  },
  {
   "property": "C102",
   "status": "proved",
   "theorems": [
    "C102_fluxes",
    "C102_everything",
    "C102_fit",
    "C102_independent",
    "C102_solver_refuted"
   ],
   "note": "Exact reals, one object; fits without abcorrect, with at least two responses."
  },
  {
   "property": "C103",
   "status": "proved",
   "theorems": [
    "C103_error",
    "C103_curvature",
    "C103_converges"
   ],
   "note": "Exact reals; cubic interpolation under its contract (splines, C78). Integrals are Coquelicot's Riemann integrals. Responses whose end samples are zero, as the wavelengths outside contribute steps to the sums otherwise."
  },
  {
   "property": "C104",
   "status": "proved",
   "theorems": [
    "C104_reconstruct",
    "C104_kcorrect"
   ],
   "note": "Exact reals, one object; batches reduce to single objects by C27 and C60."
  },
  {
   "property": "C105",
   "status": "proved",
   "theorems": [
    "C105_model",
    "C105_project",
    "C105_relative",
    "C105_swing"
   ],
   "note": "Standard model of floating-point arithmetic (no underflow or overflow), one u for all operations; rounding in the interpolation itself is not covered: the interpolated values are taken as computed."
  },
  {
   "property": "C106",
   "status": "proved",
   "theorems": [
    "C106_photometry",
    "C106_reconstruct",
    "C106_kcorrect",
    "C106_absmag"
   ],
   "note": "Responses that end with zeros and lie inside the templates at every grid redshift; exact arithmetic; the spline of the model."
  },
  {
   "property": "C107",
   "status": "proved",
   "theorems": [
    "C107_reconstruct",
    "C107_at_grid_redshifts",
    "C107_error",
    "C107_kcorrect"
   ],
   "note": "Exact reals, one object; cubic interpolation under its contract (splines, C78). The spectrum is sampled where the templates are; redshifts between those of the grid with the error bounds of C104."
  },
  {
   "property": "C108",
   "status": "proved",
   "theorems": [
    "C108_linear",
    "C108_unused",
    "C108_nearby",
    "C108_nearby_linear",
    "C108_monte_carlo"
   ],
   "note": "Exact reals, one object, without abcorrect, at least two responses; the redshift and the inverse variances are the same for all photometry compared. nearby: any neighbourhood that exists, not a given size; unused gives one explicitly."
  },
  {
   "property": "C109",
   "status": "proved",
   "theorems": [
    "C109_rows",
    "C109_selection",
    "C109_derived",
    "C109_abcorrect"
   ],
   "note": "Exact arithmetic with special values; mc=0, at least two responses; derived for equal numbers of input and output bands or none; abcorrect for finite photometry and the band numbers of the classes."
  },
  {
   "property": "C110",
   "status": "proved",
   "theorems": [
    "C110_optimal",
    "C110_unique",
    "C110_stable",
    "C110_recovered",
    "C110_absmag"
   ],
   "note": "Exact reals, one object; solvers meeting the NNLS contract; 5 bands for SDSS, at least 7 for GST; not the Monte Carlo draws (C56)."
  },
  {
   "property": "C111",
   "status": "proved",
   "theorems": [
    "C111_forgets",
    "C111_failed",
    "C111_stale",
    "C111_unchanged_refuted"
   ],
   "note": "Any number type; files as lists of HDUs. Includes the refutation of 'a fromfits that raises leaves the object as it was'."
  },
  {
   "property": "C112",
   "status": "proved",
   "theorems": [
    "C112_kept",
    "C112_usable",
    "C112_missing"
   ],
   "note": "Any number type and arithmetic."
  },
  {
   "property": "C113",
   "status": "proved",
   "theorems": [
    "C113_model",
    "C113_ab_correct",
    "C113_flambda",
    "C113_floor",
    "C113_asinh"
   ],
   "note": "Standard model of floating-point arithmetic without underflow and overflow (RoundSpec.v, UtilsRoundSpec.v); nonzero wavelengths, fluxes (error_floor) and magnitude errors."
  },
  {
   "property": "C114",
   "status": "proved",
   "theorems": [
    "C114_single",
    "C114_few",
    "C114_ignored",
    "C114_sentinel",
    "C114_alone_refuted"
   ],
   "note": "Through _process_inputs, to_ab and sdss_ab_correct, for any arithmetic, solver and random numbers. That an object alone is treated as it is in a catalogue is refuted for such objects."
  },
  {
   "property": "C115",
   "status": "proved",
   "theorems": [
    "C115_derived",
    "C115_mtol"
   ],
   "note": "Standard model of rounding without underflow and overflow; the distance modulus is taken as the cosmology returns it. One object; a catalogue stores the ratios once more as float32."
  },
  {
   "property": "C116",
   "status": "proved",
   "theorems": [
    "C116_inexact",
    "C116_stable",
    "C116_brighter",
    "C116_absmag"
   ],
   "note": "Solvers are any functions within eps of the optimum (C84) or exact ones (the claim about brighter objects); numbers are reals."
  },
  {
   "property": "C117",
   "status": "proved",
   "theorems": [
    "C117_limit",
    "C117_reconstructed",
    "C117_distance",
    "C117_missing"
   ],
   "note": "Single objects without AB correction; no underflow or overflow; the cosmology's distmod is taken as it is."
  },
  {
   "property": "C118",
   "status": "proved",
   "theorems": [
    "C118_split",
    "C118_offset",
    "C118_others",
    "C118_split_ab",
    "C118_offset_ab",
    "C118_others_ab",
    "C118_parts",
    "C118_parts_ab"
   ],
   "note": "The generator is a stream of variates with a position; a part of one object with Monte Carlo never returns (C31), hence the restriction on the cut. The AB versions are for finite photometry of the extended reals."
  }
 ]
}