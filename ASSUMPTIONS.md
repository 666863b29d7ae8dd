# Print Assumptions, per theorem

Generated by tools/assumptions.py from the Print Assumptions line that follows every theorem in rocq/theories/Prop_*.v.

## Closed under the global context (no axiom)

C03_sdss_ab_correct_1d_rejects, C03_sdss_ab_correct_nd_short, C04_shapes, C07_error_floor_rows, C07_shapes, C09_scalar, C101_again, C101_alone, C101_first_refuted, C101_later, C109_derived, C109_rows, C109_selection, C10_read_basel_round_trip, C10_read_basel_short, C111_failed, C111_forgets, C111_stale, C111_unchanged_refuted, C112_kept, C112_missing, C112_usable, C114_alone_refuted, C114_few, C114_ignored, C114_sentinel, C114_single, C118_offset, C118_others, C118_parts, C118_split, C11_many_models_fail, C11_rounding, C12_histories_agree, C12_interpolator_fresh, C12_last_redshift_decides, C14_missing, C14_one_dimensional, C14_one_sample_fails, C14_tofits_fromfits, C22_history, C22_others_untouched, C22_present_is_noop, C22_successful_load, C23_failed_load_poisons, C23_missing_file_blank, C23_second_check_reports_all, C24_check_validity, C24_lists_dat_files, C24_only_dat_files_refuted, C25_accepted_iff_documented, C25_no_redshift, C25_rejected, C26_documented_refuted, C26_shape, C27_batch_is_sequence_of_single_calls, C27_batch_of_one, C27_one_band_raises, C27_one_band_vectorisation_refuted, C27_rows, C30_out_of_range_gives_zero, C30_out_of_range_mc_raises, C30_out_of_range_row, C30_reconstruct_range, C31_batch_of_one_mc_never_returns, C32_coeffs_mc, C32_draws, C36_table, C37_groups, C37_single_template_group_refuted, C38_templates_back_at_zero, C39_range_rounded, C40_accepted, C40_mapping, C40_ready, C40_rejected, C41_batch, C41_definition, C44_batch, C46_out_of_range_refuted, C48_kcorrect, C48_order, C49_failure, C49_mismatch, C49_single_output, C49_slices, C50_batch, C50_documented_refuted, C50_law, C50_nonpositive, C51_bands, C51_distance, C51_solar, C51_unbound, C52_failure, C52_no_draws, C52_slices, C53_constructed, C54_failed_call, C54_no_wrong_object, C54_old_lost, C55_absmag_in_place, C55_fit_in_place, C55_no_ivar, C55_scalar, C55_untouched, C60_reconstruct_vectorised, C61_absmag, C61_fit, C61_other, C62_errors, C64_mixed_fit, C64_mixed_reconstruct, C64_unreadable, C65_missing, C65_no_m50, C65_rewritten, C65_round_trip, C67_bad_curve, C67_blank, C67_columns, C67_missing, C68_direct_other, C70_after_failure, C70_again, C70_failure_restores_refuted, C70_state_independent, C71_defaults, C74_absmag, C74_batches, C74_derived, C74_no_coeffs, C74_no_ivar, C74_no_maggies, C75_checks, C75_shape, C76_absmag, C76_absmag_values, C76_fit_batch, C76_fit_single_refuted, C76_kcorrect_batch, C77_missing, C82_bad_index, C82_bad_limits, C82_curves, C82_default, C82_finite_limits, C82_shapes, C85_all_loaded, C85_cached_unchanged, C85_every_moment, C85_half_loaded_refuted, C85_no_deadlock, C85_sequential, C85_two_dictionaries_refuted, C86_cache_complete, C86_cached_exact, C86_private_templates, C86_shared_templates_refuted, C86_unaffected_by_loads_refuted

## sig_forall_dec, functional_extensionality_dep

C105_swing, C117_missing, C78_at_samples, C78_cubics, C78_linear, C78_scaling, C78_unique, C80_solver, C83_any_order, C83_left_fold, C84_exact, C84_shrunk, C87_reordered, C87_repeated, C87_unmeasured, C90_redundant, C90_reordered, C90_rescaled

## sig_forall_dec, sig_not_dec, functional_extensionality_dep, classic

C01_default_offsets, C01_sdss_ab_correct, C02_sdss_ab_correct_invertible, C03_every_band_corrected_refuted, C03_sdss_ab_correct_nd_wide, C04_asinh_decreasing, C04_asinh_inverse, C05_asinh_error, C05_flux_derivative, C06_extinction_flux_only, C07_error_floor, C08_error_floor_idempotent, C08_error_floor_integer_truncates, C09_maggies2flambda, C100_batch, C100_near, C100_optimal, C100_recover, C102_everything, C102_fit, C102_fluxes, C102_independent, C102_solver_refuted, C103_converges, C103_curvature, C103_error, C104_kcorrect, C104_reconstruct, C105_model, C105_project, C105_relative, C106_absmag, C106_kcorrect, C106_photometry, C106_reconstruct, C107_at_grid_redshifts, C107_error, C107_kcorrect, C107_reconstruct, C108_linear, C108_monte_carlo, C108_nearby, C108_nearby_linear, C108_unused, C109_abcorrect, C110_absmag, C110_optimal, C110_recovered, C110_stable, C110_unique, C113_ab_correct, C113_asinh, C113_flambda, C113_floor, C113_model, C115_derived, C115_mtol, C116_absmag, C116_brighter, C116_inexact, C116_stable, C117_distance, C117_limit, C117_reconstructed, C118_offset_ab, C118_others_ab, C118_parts_ab, C118_split_ab, C11_many_models_no_response, C11_one_model, C12_never_stale_refuted, C13_bolometric, C13_integral, C15_constructs, C15_order_irrelevant, C15_sorted_samples, C16_ab_source, C16_ab_source_bracketed, C16_same_samples, C17_array_call, C17_each_sed, C17_linear, C17_linear_spline, C18_between, C18_positive_spline_refuted, C18_projection_formula, C18_proper_always_refuted, C18_proper_spline_refuted, C18_proper_when_bracketed, C19_formula, C19_inside_band, C19_inside_band_refuted, C19_inside_band_spline_refuted, C20_fwhm_attributes, C20_fwhm_bracketed, C20_tolerance, C21_grid, C21_straddling, C21_straddling_spline, C21_zero_without_sample, C28_monte_carlo, C28_optimal, C28_retry, C29_zero_ivar_irrelevant, C33_linear, C33_zero_and_sign, C34_band_shift, C35_noiseless, C36_at_grid_points, C36_grid, C36_interpolation, C38_float32, C39_distinct, C39_distinct_refuted, C39_end_exact, C39_end_refuted, C39_fit_at_end_zero, C39_grid, C39_one_point, C39_reconstruct_in_range, C39_reconstruct_refuted, C39_shift_error, C42_scale, C42_scale_batch, C43_constructed, C43_same_band, C43_zero, C44_documented_refuted, C44_law, C45_consistent, C45_difference, C45_distance, C46_constructed, C46_law, C46_offset, C46_same_bands, C46_shift_refuted, C47_law, C47_zero_coeffs, C50_history, C50_metallicity, C50_scale, C53_derived_unloaded, C53_names, C53_range_refuted, C53_rewritten, C53_round_trip, C54_cut, C55_columns, C55_history, C56_draws, C56_offset, C56_twice, C57_no_sample, C57_solar_and_vega, C58_list, C58_second_call_nan, C59_batch_raises, C59_nan_redshift, C59_unusable_band_raises, C59_usable_photometry_is_fitted, C62_fit, C63_receiver, C63_stale_imap_refuted, C64_missing_response, C66_class_lost, C66_offset, C67_mixed, C67_no_pass, C67_round_trip, C68_direct, C68_same_array, C69_mc_in_place, C71_gst, C71_other_order_refuted, C71_sdss, C72_at_grid_redshifts, C72_fit, C72_flux_determined, C72_kcorrect, C72_reconstruct, C73_construction_succeeds, C77_dark, C77_dark_response, C78_any_algorithm, C78_exists, C79_exists, C79_kcorrect, C79_project, C79_reconstruct, C80_best_exists, C80_fit_returns, C80_monte_carlo_returns, C81_coefficients, C81_conditions, C81_monte_carlo, C81_other_redshift_refuted, C81_pythagoras, C81_stable, C81_sufficient, C81_unique, C81_units, C82_limits, C82_nothing_visible, C82_redshift, C83_absmag, C83_kcorrect, C83_kcorrect_tables, C83_model, C83_reconstruct, C83_relative, C84_near, C84_optimal, C84_recover, C84_stable, C87_information, C88_absmag, C88_recovered, C89_absmag, C89_coefficients, C90_fit, C90_same_spectrum, C91_construction, C91_flambda, C91_listing, C91_response, C92_absmag, C92_kcorrect, C92_reconstruct, C92_rounded, C93_distance, C93_luminosity, C94_gst_fit, C94_gst_usable, C94_mtol_fit, C94_sdss_raises, C95_gst_values, C95_mtol_values, C95_sdss_values, C96_residuals, C96_sdss_fit, C97_colour, C97_plotted_mtol, C97_solar_units_refuted, C98_colours, C98_limits, C98_normalisation, C98_redshifts, C98_runs, C98_several, C99_fit, C99_mean, C99_offset, C99_runs
