# What `Print Assumptions` lists for each theorem

Written by `tools/assumptions.py` from the compiled theories. All axioms are the standard library's.

## Closed under the global context (no axioms) — 322 theorems

C01_set_raises_iff, C01_set_stores_exactly, C02_shape_invariant, C03_fixed_never_changes, C03_set_fixed_fixes, C03_update_fixed_fixes, C04_len_exact, C04_len_partial, C04_len_refuted, C05_extract_single_sample, C05_extracted_state_settable_refuted, C05_iteration, C05_node_state, C06_from_list_concatenates, C06_from_list_rejects, C06_single_state_refuted, C06_split_concat, C06_vector_parameter_refuted, C07_dict_round_trip, C07_empty_table_refuted, C07_file_kept, C07_file_missing, C07_file_round_trip_partial, C07_from_dict, C07_from_table, C07_one_row, C07_table_round_trip_partial, C08_full_names_never_collide, C08_names_distinct, C09_error_kind, C09_extract_parameters, C09_extract_parameters_succeeds_iff, C100_read_well_formed, C103_case, C103_names_exist, C103_sampling_succeeds, C104_host_parameters, C104_node_names, C105_calls_in_sequence, C105_no_draw_shared, C106_default_path, C106_file_names, C106_svo_path, C107_case_insensitive, C107_parquet_columns, C107_parquet_write, C108_binary, C108_copied, C108_dat_refuted, C108_names, C108_read_errors, C108_round_trip, C108_text, C108_text_shape_refuted, C108_write_lost_refuted, C108_write_unknown, C109_built, C109_derived, C109_distance, C109_extra_refuted, C109_sampling_succeeds, C10_contains_iff_lookup, C10_missing_key_raises_partial, C10_missing_key_raises_refuted, C110_case, C110_disabled_not_in_tree, C110_flags_do_not_matter, C110_generate, C110_generate_error, C110_get_param, C110_kwargs_refuted, C110_list_params, C110_random_refuted, C110_regenerated, C110_same, C110_set_allow_gradient, C114_accepted, C114_axis, C114_clip_refuted, C114_math_many, C114_max, C114_rows_refuted, C114_samples, C114_two_max, C115_acyclic_covered, C115_order_refuted, C115_sampling_succeeds, C116_depths, C116_empty_map, C116_finer_map_refuted, C116_from_file, C116_given_generator, C116_inside_the_map, C116_near_the_map, C116_pixels_of_the_map, C116_samples, C116_seed_determines, C116_uniform, C117_each_once, C117_eight_filters_refuted, C117_mismatch, C117_model_refused, C117_no_filters_errors_refuted, C117_no_filters_refuted, C117_samples, C117_template_colours, C118_add, C118_chosen_unique, C118_constant_sed_built, C118_constant_sed_label_refuted, C118_constant_sed_plain_function, C118_constant_sed_recipe, C118_eclipsing_binary_built, C118_eclipsing_no_period, C118_eclipsing_period_function, C118_failed, C118_function_by_keyword, C118_function_gets_all_keywords, C118_narrow_function_refuted, C118_other_keywords_irrelevant, C118_parameter_is_result, C118_set, C118_shared_label_refuted, C118_snia_host_built, C11_update_accepts, C11_update_complete, C11_update_rejects_mismatch, C11_vector_spread_refuted, C120_all_outputs_set, C120_one_output_set_refuted, C12_copy_equal, C12_copy_independent, C12_force_copy, C12_force_copy_refuted, C12_one_sample_refuted, C13_transpose, C13_transpose_raises_iff, C14_eq_distinguishes_shapes_refuted, C14_eq_reflexive, C14_eq_sound, C14_eq_symmetric_refuted, C14_eq_values, C15_add_edge_raises_iff, C15_counts_agree, C15_edges_recorded_symmetrically, C16_constants_distinct, C16_constants_present, C17_deep_chain_refuted, C17_positions, C17_terminates, C18_cycle_refuted, C18_dependencies_first, C18_sampled_exactly_once, C19_linked_agree, C20_given_args_returned, C21_automatic_names_distinct, C21_duplicate_names_rejected, C21_second_visit_raises, C22_call_arguments, C22_outputs_in_order, C22_run_consistent, C22_single_output, C22_wrong_count, C23_empty_rejected, C23_in_order, C23_prefix, C23_reset, C24_accepted_tables, C24_bad_tables, C24_reset, C24_rows_aligned, C25_binary, C25_select_array, C25_select_scalar, C26_accepted_kept, C26_always_inside_refuted, C26_early_stop_all_inside, C26_make, C26_positions_are_draws, C26_result, C27_depth_checked, C27_every_descendant_once, C27_inside_cell, C28_accepted_always_evaluable_refuted, C28_accepts_exactly_whitelist, C28_backend_checked, C28_library, C28_meaning, C28_module_name_capture_refuted, C28_rejection, C28_targets, C32_mask_length, C36_empty_index_refuted, C37_contains, C37_from_dict, C42_effect_parameters, C42_list_effects, C43_empty_query, C46_minwave, C46_rest_effect, C46_set_apply_redshift_bandflux_refuted, C47_minwave_refuted, C47_rest_effect, C48_lightcurvedata_input_refuted, C58_accepts, C58_blocks, C58_documentation, C58_duplicate_filter, C58_errors, C58_line, C58_meta_leak_refuted, C58_no_key, C58_open_documentation, C58_repeated_end_refuted, C58_skipped, C58_stale_filters_refuted, C58_tables, C58_values, C58_white_space, C60_drop_empty, C60_per_object, C61_add_existing, C61_add_new, C61_failed_add_leaves_undefined, C61_get_param, C61_get_param_default_refuted, C61_rejected_values, C61_set_existing, C61_set_missing, C62_edges_complete, C62_edges_sound, C62_parameters_listed, C62_self_links_refuted, C63_all_gradient_values, C63_enabled_link_hides_upstream_refuted, C63_needs_positions, C63_only_gradient_values, C64_caller_weights_unchanged_refuted, C64_given_values, C64_integer_weights_refuted, C64_no_values, C64_weights, C66_add_column, C66_add_column_accepts, C68_extinction_band_refuted, C69_mask_no_state, C72_columns, C72_empty_refuted, C73_columns, C74_columns, C74_dict_refuted, C74_ma_path_refuted, C76_keyword_error, C76_keywords, C77_advances, C77_arrays, C77_fixed_refuted, C77_make, C77_per_sample, C77_rng, C77_seed, C77_shape, C77_single, C77_size_refuted, C83_integer_refuted, C85_own_number, C85_two_effects_refuted, C87_made_settable, C87_made_well, C87_mask_no_state, C87_sample, C87_set, C87_set_unknown_refuted, C88_arguments, C88_conflict, C88_make, C89_crash, C89_force_refuted, C89_from_url, C89_missing, C89_present, C89_refused, C89_same_name_refuted, C89_sound, C89_url_failure, C89_url_file, C89_url_sound, C90_again, C90_crash_early, C90_crash_refuted, C90_first, C90_offline_refuted, C90_present, C90_relative_refuted, C90_second_directory_refuted, C90_sound, C90_stuck_refuted, C93_mask_no_state, C94_constraint_refused, C94_empty_refused, C94_last_seed_wins, C94_numpy_generator_refuted, C94_own_seed_refuted, C94_samples, C94_seed_determines, C95_conditional, C95_conditional_one_sample_refuted, C95_conditions_rectangular, C95_make_iff, C95_missing_input, C95_reproducible, C95_seed_injective, C95_seed_range, C95_unconditional, C96_needs_position, C97_first_module, C97_frame, C97_label_refuted, C97_listed_found, C97_made, C97_not_a_law_refuted, C97_unknown_name

## `ClassicalDedekindReals.sig_forall_dec` — 19 theorems

C107_db_added, C107_db_exists_refuted, C107_db_lost_refuted, C107_db_write, C117_bandflux, C117_bandflux_ticks_refuted, C117_colormap_refuted, C117_spectrogram, C40_bad_offset, C40_missing, C40_no_t0_many_samples_refuted, C46_set_apply_redshift_refuted, C46_weights, C50_steady_effects, C68_dimming_acts, C68_extinction_acts, C71_metadata_ignored_refuted, C71_signature, C97_own_ebv_refuted

## `ClassicalDedekindReals.sig_forall_dec`, `FunctionalExtensionality.functional_extensionality_dep` — 221 theorems

C106_again, C106_cached, C106_dir_missing, C106_duplicates_refuted, C106_from_dir, C106_from_dir_loads, C106_from_file, C106_lsst, C106_lsst_cached, C106_lsst_units, C106_one_row_refuted, C106_preset_again, C106_preset_filters, C106_preset_name, C106_relative_refuted, C106_roman, C106_roman_cached, C106_roman_force_refuted, C106_roman_units_refuted, C106_suffix, C106_svo, C106_svo_group, C106_svo_name, C106_units, C106_votable_unit, C106_ztf, C106_ztf_ignores_refuted, C108_not_sed, C108_sed, C108_sed_accepted, C108_sed_by_hand, C108_sed_pair_refuted, C108_sed_rows_refuted, C108_synphot, C108_synphot_refused, C111_add_random, C113_failure, C113_loads, C113_missing, C113_registers, C115_dust_model, C115_dust_values, C115_helper_alone_refuted, C116_refused, C121_add, C121_band, C121_band_made, C121_band_reports, C121_failed_refuted, C121_frame, C121_fresh_kept, C121_fresh_made, C121_fresh_updated, C121_make, C121_others, C121_process, C121_retry, C121_shared_refuted, C121_unbound, C29_defined, C29_defined_general, C29_nonnegative, C29_regrid_defined, C29_reprocess, C29_scale_invariant, C29_unit_integral, C30_flat_close, C30_flat_partial, C30_flat_refuted, C30_flat_uniform, C30_linear, C30_monotone, C30_sizes_checked, C31_bad_quantile, C31_contiguous_partial, C31_no_trim, C31_trim_defined, C31_two_rows_refuted, C31_upper_tail_refuted, C32_contains, C32_contains_getitem, C32_filters_both_names_refuted, C32_filters_keep, C32_filters_missing, C32_getitem, C32_getitem_contains, C32_mask, C33_bandflux, C33_bandfluxes, C33_bandfluxes_spectra, C33_bounds, C33_bounds_refuted, C33_grid, C33_grid_gaps, C33_indices, C33_near_duplicate_crash_refuted, C33_near_duplicate_refuted, C33_process_fails, C33_process_members, C33_short_name, C40_inside, C40_windows, C41_bolometric, C41_compose, C41_flux, C41_identity, C41_order, C41_round_trip, C41_round_trip_rest, C42_no_redshift, C44_invalid, C46_band_of_sum, C48_selected, C49_basis, C49_defined, C50_epoch, C50_phase_unique, C50_phases, C50_same_phases, C51_static_input, C51_static_two_refuted, C52_accepts, C52_axis_error, C52_cell, C52_defined, C52_exact_bilinear, C52_exact_quadratic, C52_grid_points, C52_irregular_linear_refuted, C52_local, C52_outside, C52_scale, C52_shape, C52_small_steps_refuted, C52_weights, C54_entries, C54_flam_fnu_flam, C54_fnu_flam_fnu, C54_mismatch, C54_one_flux, C54_one_wavelength, C57_tables, C59_columns, C59_interpolator, C59_order_unchecked_refuted, C59_unvalidated, C59_validated, C59_values, C60_snr, C65_accepted_tables_increase, C65_bad_units, C65_duplicates_averaged_refuted, C65_nanometres, C65_unsorted_rejected, C66_existing_column_kept, C66_no_value, C67_negative_redshift_refuted, C67_phases, C67_single, C67_table, C67_times, C68_dimming_band, C68_dimming_either_frame, C68_microlensing_acts, C68_microlensing_band, C68_microlensing_off, C68_missing_parameter, C68_own_values, C69_file, C69_file_refused, C69_file_truncated, C69_mask, C69_normalised, C69_polynomial, C69_smooth, C71_fake_values, C72_opsim_values, C72_rubin_values, C73_ztf_values, C74_passes, C76_constants, C76_solar_mass, C78_generator_refuted, C78_integers_refuted, C78_line, C78_make, C78_seed, C78_spacing_refuted, C79_photometric, C83_light_speed, C83_x1_distinct, C83_x1_samples, C85_apply, C85_apply_band, C85_band_noise, C85_errors, C85_zero_sigma, C86_linear_interpolates, C86_make, C87_mask, C87_mask_values, C91_at_knot, C91_beyond, C91_natural, C91_only_one, C91_only_solution, C91_straight, C92_bilinear, C92_grid_refuted, C92_grid_value, C92_half, C92_jump_refuted, C92_second_refuted, C92_unit_grid, C93_knots, C93_mask, C96_hemisphere, C96_nan_refuted, C96_refused, C96_wrapped, C96_wrapper

## `ClassicalDedekindReals.sig_forall_dec`, `ClassicalDedekindReals.sig_not_dec`, `FunctionalExtensionality.functional_extensionality_dep` — 145 theorems

C104_built, C107_db_missing, C107_parquet_missing, C109_case, C109_succeeds, C111_on_the_sky, C111_uniform, C119_bandfluxes_split, C119_empty_refuted, C119_selection, C119_times_split, C119_wavelengths_split, C34_defined, C34_length_mismatch, C34_no_radius, C34_scalar_bound_refuted, C35_errors, C36_index, C36_index_out_of_range, C36_mask, C36_mask_wrong_length, C37_accepts, C37_collision, C37_missing_column, C37_no_column_lost, C37_renamed, C37_shared_source_refuted, C37_unmapped, C38_bad_request, C38_missing_param, C38_object_columns, C38_param_clash_refuted, C42_missing, C42_own_parameters_refuted, C42_pipeline, C42_samples, C43_columns, C43_kwargs_dropped_refuted, C43_one_bound_query_refuted, C43_queries_in_range, C43_values, C44_at_edge, C44_linear_vanishes, C44_rows, C44_shape_and_values, C45_aligned, C45_entries, C45_errors, C45_permutation, C45_pointwise_models, C45_samples, C45_single_passband, C45_unknown_filter, C46_bandflux_component, C46_bandfluxes, C46_observer_effect, C46_weighted_sum, C47_duplicate_names_refuted, C47_observer_effect, C47_others_irrelevant, C47_selected, C47_unknown, C50_periodic, C51_constant, C51_linear, C51_sine, C51_sine_shape, C51_static_bands, C51_static_bands_missing, C51_step, C55_callable_readout_refuted, C55_defined, C55_monotone, C55_snr_increases, C55_source_only, C55_units, C55_variance_sum, C66_constant_accepts, C66_constant_column, C66_filters_cover, C66_no_filter_column_refuted, C66_nothing_given, C66_precedence, C66_stale_filters_refuted, C68_extinction_additive_refuted, C70_constants, C70_distance, C73_dates, C74_errors, C74_errors_index, C74_read_noise, C74_roman_values, C76_walk_accepts, C76_walk_scale, C76_walk_shift, C81_rotation, C82_accepted, C82_advances, C82_class, C82_class_defined, C82_class_one, C82_class_without_density, C82_density, C82_extra_draw_refuted, C82_generators, C82_object, C82_object_parameters_refuted, C82_one_by_one, C82_sample_pdf, C83_x1_generators, C85_bands_in_turn, C85_bands_rows, C85_plain, C85_plain_bands, C85_reproducible, C85_reproducible_bands, C85_sed_noise, C85_simulate, C85_simulate_refuted, C85_survey_noise, C86_amplitude, C86_file, C86_flux, C86_linear_bounds, C86_nodes, C86_outside_times, C86_unsorted_bands_refuted, C86_unsorted_refuted, C87_compute_beyond, C87_flux, C87_history, C87_no_epoch_refuted, C87_set_old_state_refuted, C88_beyond_refuted, C88_flux, C88_shift, C97_host_and_milky_way, C98_range, C98_uniform, C99_disc, C99_generator, C99_one_sample_refuted, C99_range_refuted, C99_refused, C99_samples

## `ClassicalDedekindReals.sig_forall_dec`, `Classical_Prop.classic`, `FunctionalExtensionality.functional_extensionality_dep` — 2 theorems

C32_ambiguous_refuted, C49_faint_tails_refuted

## `ClassicalDedekindReals.sig_forall_dec`, `ClassicalDedekindReals.sig_not_dec`, `Classical_Prop.classic`, `FunctionalExtensionality.functional_extensionality_dep` — 279 theorems

C100_accepted, C100_at_rows, C100_between_rows, C100_defined, C100_epoch, C100_file, C100_filters, C100_forced, C100_in_order, C100_model_flux, C100_outside_rows, C100_period, C100_periodic_at_rows, C100_refused, C101_defined, C101_objects, C101_opsim_tables, C101_rows, C101_sed_opsim, C102_defined, C102_filtered_mixup_refuted, C102_filtered_refuted, C102_rows, C102_run, C102_spectra, C104_case, C104_ranges, C104_source, C107_classes, C107_db, C107_db_third_refuted, C107_fake_constant_refuted, C107_fake_values_refuted, C107_old_names_refuted, C107_ordinary, C107_own_name_refuted, C107_parquet, C107_roman_refuted, C107_time_bounds, C107_ztf_columns, C107_ztf_dates_refuted, C107_ztf_default, C107_ztf_loader, C107_ztf_query_refuted, C109_parsec, C111_opsim, C111_opsim_errors_refuted, C111_refused, C111_seed, C111_ztf, C112_break, C112_falls_off_refuted, C112_refused, C112_values, C116_built_map, C116_survey_positions, C117_template_baseline_refuted, C117_template_data, C117_template_times, C34_chord_is_angle, C34_exact, C34_exact_scalar, C34_large_radius_refuted, C34_stale_positions_refuted, C35_arrays, C35_mixed_refuted, C35_scalar, C36_get_observations, C36_get_observations_refuted, C36_search, C38_bookkeeping, C38_defined, C38_light_curves, C39_rows, C39_save_filter_refuted, C39_save_without_match_refuted, C44_bounded, C44_continuous, C44_decreasing, C44_nonnegative, C48_accepted, C48_array_is_dict, C48_at_data, C48_between, C48_caller_baseline_refuted, C48_default_baseline_refuted, C48_defined, C48_no_baseline, C48_outside, C48_periodic, C48_periodic_at_data, C48_periodic_requires, C48_periodic_sampling_refuted, C48_reference, C48_rejected, C48_template_entries, C48_template_one_by_one, C48_template_unsupported, C49_template, C51_static, C53_brighter_is_smaller, C53_five_magnitudes, C53_flux_mag_flux, C53_mag_flux_mag, C53_magnitude_decreases, C53_no_magnitude, C53_positive, C53_ratio, C53_reference, C55_opsim_defined, C56_defined, C56_detection, C56_five_sigma, C56_ztf_close, C56_ztf_override_refuted, C57_airmass, C57_consistent, C57_exposure_time, C57_lsst, C57_reference, C57_unknown_band, C60_mag, C60_nested, C60_nested_errors, C60_nested_flag_refuted, C60_no_time_rel, C60_single, C60_single_accepts, C60_single_missing, C60_time_rel, C60_time_rel_after_drop_refuted, C60_zero_t0_refuted, C69_colour, C69_flux, C69_mask_covers, C69_outside, C69_scale, C70_apart, C70_black_body, C70_bounds, C70_chord, C70_continuous, C70_decreasing, C70_determined, C70_distance_required, C70_documented_units_refuted, C70_flux, C70_inside, C70_light, C70_no_distance_error, C70_symmetric, C71_accepts, C71_constant, C71_constant_refused, C71_missing_refused, C71_negative_sky_refuted, C71_no_filter_refuted, C71_noise, C71_renamed_zero_point_refuted, C71_survey_values, C71_table_kept, C71_zero_points, C71_zero_points_refused, C72_integers_refuted, C72_nothing_given, C72_opsim_accepts, C72_opsim_errors, C72_opsim_errors_index, C72_opsim_kept, C72_opsim_no_coefficients, C72_opsim_noise, C72_opsim_positive, C72_opsim_refused, C72_opsim_search, C72_opsim_zero_points, C72_unknown_band_refuted, C72_vector, C73_accepts, C73_errors, C73_five_sigma, C73_labels_refuted, C73_nothing_given, C73_override_refuted, C73_rows, C73_search, C73_stale_filters_refuted, C73_zero_points, C74_accepts, C74_caller_table_refuted, C74_noise, C74_nothing_given, C74_rows, C74_search, C75_footprint_refuted, C75_ids, C75_nothing_seen, C75_opsim, C75_outcome, C75_rows, C75_search, C75_uneven_refuted, C75_values, C76_amplitude_reference, C76_amplitude_scaling, C76_derived, C76_disc_flux, C76_disc_geometry, C76_flux, C76_formulas, C76_hottest_ring, C76_integral, C76_monotone_refuted, C76_never_brighter_refuted, C76_reference_wavelength_refuted, C76_walk_continuity_refuted, C76_walk_range, C79_any_efficiency, C79_spectroscopic, C80_centre, C80_degrees_refuted, C80_falls_off, C80_half_position, C80_meridian, C80_no_position, C80_position, C80_separation, C81_arrays, C81_centre, C81_circle_inside, C81_contains, C81_from_rect, C81_half_turn, C81_inside_circle, C81_origin, C81_pixel_origin_refuted, C81_pixel_rectangle_accepted, C81_pixel_region, C81_pixel_scale, C81_quarter_turn, C81_region_angle, C81_right_ascension, C81_scalar, C81_search, C81_stretch, C81_table_scale_refuted, C83_bins, C83_constants, C83_distances, C83_distmod, C83_hubble, C83_inverse_square, C83_numbers, C83_positive, C83_rate, C83_rate, C83_solid_angle, C83_tripp, C83_x1_density, C84_constants, C84_errors, C84_generator_refuted, C84_global_refuted, C84_objects, C84_offset, C84_position, C84_separation, C84_zero_redshift, C93_amplitude, C93_defaults, C93_observed, C93_refused, C93_rest, C93_rv_refuted, C93_theta, C98_given_generator, C98_samples, C98_seed_determines, C99_observed, C99_within_radius
