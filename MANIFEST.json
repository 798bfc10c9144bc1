{
 "claims": [
  {
   "property": "C01",
   "status": "proved",
   "theorems": [
    "C01_set_stores_exactly",
    "C01_set_raises_iff"
   ],
   "note": "GraphState.set stores exactly the requested parameter"
  },
  {
   "property": "C02",
   "status": "proved",
   "theorems": [
    "C02_shape_invariant"
   ],
   "note": "Sample-count shape invariant of GraphState"
  },
  {
   "property": "C03",
   "status": "proved",
   "theorems": [
    "C03_fixed_never_changes",
    "C03_set_fixed_fixes",
    "C03_update_fixed_fixes"
   ],
   "note": "Fixed parameters never change"
  },
  {
   "property": "C04",
   "status": "partial",
   "theorems": [
    "C04_len_exact",
    "C04_len_refuted",
    "C04_len_partial"
   ],
   "note": "False as stated (C04_len_refuted: a set that raises on a wrong length is counted); proved for histories without exceptions (C04_len_partial) and exactly for all histories (C04_len_exact: the surplus is the number of calls that stopped with an exception at an allowed name the state did not hold)."
  },
  {
   "property": "C05",
   "status": "proved",
   "theorems": [
    "C05_node_state",
    "C05_extract_single_sample",
    "C05_iteration",
    "C05_extracted_state_settable_refuted"
   ],
   "note": "Also a finding: extracted samples have no fixed_vars, so set on an existing node raises KeyError (C05_extracted_state_settable_refuted)."
  },
  {
   "property": "C06",
   "status": "proved",
   "theorems": [
    "C06_from_list_concatenates",
    "C06_from_list_rejects",
    "C06_split_concat",
    "C06_vector_parameter_refuted",
    "C06_single_state_refuted"
   ],
   "note": "For scalar samples, in any set iteration order. Findings: vector-valued parameters cannot be recombined; a single one-sample state gets a length-1 array."
  },
  {
   "property": "C07",
   "status": "partial",
   "theorems": [
    "C07_file_round_trip_partial",
    "C07_file_kept",
    "C07_file_missing",
    "C07_from_dict",
    "C07_dict_round_trip",
    "C07_table_round_trip_partial",
    "C07_empty_table_refuted",
    "C07_from_table",
    "C07_one_row"
   ],
   "note": "Dictionary round trip in full, what from_dict makes of any flattened or nested dictionary (C07_from_dict) and what from_table makes of any table, one row included (C07_from_table, C07_one_row); table round trip, and through save_to_file/from_file (C07_file_round_trip_partial, with ECSV files keeping the columns), for two or more samples and at least one parameter (an empty state fails: C07_empty_table_refuted). What astropy makes of the 0-d columns that to_table writes for one sample is not modelled."
  },
  {
   "property": "C08",
   "status": "proved",
   "theorems": [
    "C08_full_names_never_collide",
    "C08_names_distinct"
   ],
   "note": "Full parameter names never collide"
  },
  {
   "property": "C09",
   "status": "proved",
   "theorems": [
    "C09_extract_parameters",
    "C09_extract_parameters_succeeds_iff",
    "C09_error_kind"
   ],
   "note": "extract_parameters never loses or mislabels a value"
  },
  {
   "property": "C10",
   "status": "partial",
   "theorems": [
    "C10_contains_iff_lookup",
    "C10_missing_key_raises_refuted",
    "C10_missing_key_raises_partial"
   ],
   "note": "Membership agrees with lookup of stored values; 'a failed lookup raises KeyError' is false for one-node states (returns None)."
  },
  {
   "property": "C11",
   "status": "proved",
   "theorems": [
    "C11_update_rejects_mismatch",
    "C11_update_complete",
    "C11_update_accepts",
    "C11_vector_spread_refuted"
   ],
   "note": "Finding: a one-sample vector of matching length is spread over samples (C11_vector_spread_refuted)."
  },
  {
   "property": "C12",
   "status": "proved",
   "theorems": [
    "C12_copy_equal",
    "C12_copy_independent",
    "C12_one_sample_refuted",
    "C12_force_copy_refuted",
    "C12_force_copy"
   ],
   "note": "For multi-sample states as claimed; with one sample arrays are shared and force_copy is ignored (refuted theorems)."
  },
  {
   "property": "C13",
   "status": "proved",
   "theorems": [
    "C13_transpose",
    "C13_transpose_raises_iff"
   ],
   "note": "transpose_dict_of_list is a transpose"
  },
  {
   "property": "C14",
   "status": "proved",
   "theorems": [
    "C14_eq_reflexive",
    "C14_eq_sound",
    "C14_eq_symmetric_refuted",
    "C14_eq_distinguishes_shapes_refuted",
    "C14_eq_values"
   ],
   "note": "Reflexivity and soundness; asymmetry and shape-blindness exhibited by witnesses."
  },
  {
   "property": "C15",
   "status": "proved",
   "theorems": [
    "C15_edges_recorded_symmetrically",
    "C15_counts_agree",
    "C15_add_edge_raises_iff"
   ],
   "note": "DependencyGraph edges are recorded symmetrically"
  },
  {
   "property": "C16",
   "status": "proved",
   "theorems": [
    "C16_constants_distinct",
    "C16_constants_present"
   ],
   "note": "Constants in the DependencyGraph stay distinct"
  },
  {
   "property": "C17",
   "status": "proved",
   "theorems": [
    "C17_deep_chain_refuted",
    "C17_positions",
    "C17_terminates"
   ],
   "note": "Termination within a recursion depth of the number of nodes (C17_terminates); this is needed: for every recursion limit there is a well-formed acyclic chain of objects, one longer, on which numbering, sampling and the dependency graph raise RecursionError (C17_deep_chain_refuted)."
  },
  {
   "property": "C18",
   "status": "proved",
   "theorems": [
    "C18_sampled_exactly_once",
    "C18_dependencies_first",
    "C18_cycle_refuted"
   ],
   "note": "Ordering proved for acyclic graphs; C18_cycle_refuted shows why the restriction is needed."
  },
  {
   "property": "C19",
   "status": "proved",
   "theorems": [
    "C19_linked_agree"
   ],
   "note": "Linked parameters agree in every sample"
  },
  {
   "property": "C20",
   "status": "proved",
   "theorems": [
    "C20_given_args_returned"
   ],
   "note": "given_args override sampling"
  },
  {
   "property": "C21",
   "status": "proved",
   "theorems": [
    "C21_duplicate_names_rejected",
    "C21_second_visit_raises",
    "C21_automatic_names_distinct"
   ],
   "note": "Any duplicate among reachable nodes makes sample_parameters raise; the check itself raises ValueError (C21_second_visit_raises)."
  },
  {
   "property": "C22",
   "status": "proved",
   "theorems": [
    "C22_call_arguments",
    "C22_outputs_in_order",
    "C22_single_output",
    "C22_wrong_count",
    "C22_run_consistent"
   ],
   "note": "Function nodes receive their declared arguments and save every output"
  },
  {
   "property": "C23",
   "status": "proved",
   "theorems": [
    "C23_in_order",
    "C23_prefix",
    "C23_reset",
    "C23_empty_rejected"
   ],
   "note": "GivenValueList hands out each value once, in order"
  },
  {
   "property": "C24",
   "status": "proved",
   "theorems": [
    "C24_rows_aligned",
    "C24_reset",
    "C24_bad_tables",
    "C24_accepted_tables"
   ],
   "note": "TableSampler keeps rows aligned"
  },
  {
   "property": "C25",
   "status": "proved",
   "theorems": [
    "C25_select_scalar",
    "C25_select_array",
    "C25_binary"
   ],
   "note": "Index selection is bounds checked"
  },
  {
   "property": "C26",
   "status": "proved",
   "theorems": [
    "C26_make",
    "C26_result",
    "C26_early_stop_all_inside",
    "C26_accepted_kept",
    "C26_positions_are_draws",
    "C26_always_inside_refuted"
   ],
   "note": "C26_always_inside_refuted records the documented limitation when max_iterations runs out."
  },
  {
   "property": "C27",
   "status": "proved",
   "theorems": [
    "C27_inside_cell",
    "C27_every_descendant_once",
    "C27_depth_checked"
   ],
   "note": "MOC sampling stays inside the chosen HEALPix cell"
  },
  {
   "property": "C28",
   "status": "proved",
   "theorems": [
    "C28_accepts_exactly_whitelist",
    "C28_rejection",
    "C28_backend_checked",
    "C28_meaning",
    "C28_module_name_capture_refuted",
    "C28_accepted_always_evaluable_refuted",
    "C28_library",
    "C28_targets"
   ],
   "note": "Acceptance is exactly the grammar, for every tree. Findings: a parameter named np/math/jnp captures translated names; several expressions separated by ';' are accepted but never evaluable."
  },
  {
   "property": "C29",
   "status": "proved",
   "theorems": [
    "C29_defined_general",
    "C29_regrid_defined",
    "C29_unit_integral",
    "C29_nonnegative",
    "C29_scale_invariant",
    "C29_reprocess",
    "C29_defined"
   ],
   "note": "exact real arithmetic; the passband exists with regridding and trimming whenever the regridded table has positive area and no single step of it holds 1 - 2q of the area (C29_defined_general, C29_regrid_defined)"
  },
  {
   "property": "C30",
   "status": "partial",
   "theorems": [
    "C30_flat_partial",
    "C30_flat_uniform",
    "C30_flat_close",
    "C30_flat_refuted",
    "C30_linear",
    "C30_monotone",
    "C30_sizes_checked"
   ],
   "note": "flat spectrum exact when delta_wave is None or the grid step equals delta_wave; in general off by delta_wave/step (C30_flat_uniform), so the unrestricted claim is refuted"
  },
  {
   "property": "C31",
   "status": "partial",
   "theorems": [
    "C31_trim_defined",
    "C31_no_trim",
    "C31_bad_quantile",
    "C31_contiguous_partial",
    "C31_upper_tail_refuted",
    "C31_two_rows_refuted"
   ],
   "note": "lower tail as claimed; at the upper end the removed rows carry at most the quantile but the interval between the last kept and first removed row is lost as well (refuted in general); trimming and normalising are defined unless a single step holds 1 - 2q of the area (C31_trim_defined)"
  },
  {
   "property": "C32",
   "status": "partial",
   "theorems": [
    "C32_getitem",
    "C32_contains",
    "C32_mask",
    "C32_mask_length",
    "C32_getitem_contains",
    "C32_contains_getitem",
    "C32_filters_keep",
    "C32_filters_missing",
    "C32_ambiguous_refuted",
    "C32_filters_both_names_refuted"
   ],
   "note": "getitem/contains/mask/filters proved; contains vs getitem and bandflux for ambiguous names refuted"
  },
  {
   "property": "C33",
   "status": "proved",
   "theorems": [
    "C33_grid",
    "C33_indices",
    "C33_bandflux",
    "C33_short_name",
    "C33_near_duplicate_refuted",
    "C33_near_duplicate_crash_refuted",
    "C33_grid_gaps",
    "C33_process_members",
    "C33_process_fails",
    "C33_bandfluxes",
    "C33_bandfluxes_spectra",
    "C33_bounds",
    "C33_bounds_refuted"
   ],
   "note": "under the separation hypothesis; without it refuted (wrong wavelengths, IndexError); wave_bounds for every group (C33_bounds: exact lower bound, upper bound short by at most 1e-5 per wavelength, exact under the hypothesis; C33_bounds_refuted otherwise)"
  },
  {
   "property": "C34",
   "status": "partial",
   "theorems": [
    "C34_chord_is_angle",
    "C34_exact",
    "C34_exact_scalar",
    "C34_defined",
    "C34_no_radius",
    "C34_length_mismatch",
    "C34_scalar_bound_refuted",
    "C34_large_radius_refuted",
    "C34_stale_positions_refuted"
   ],
   "note": "exact for radii 0..180 degrees, arrays of queries and per-query bounds, for every k-d tree meeting ball_spec; scalar bounds with several queries, radii > 180 and overwritten position columns refuted"
  },
  {
   "property": "C35",
   "status": "partial",
   "theorems": [
    "C35_arrays",
    "C35_scalar",
    "C35_errors",
    "C35_mixed_refuted"
   ],
   "note": "scalar/scalar and array/array queries; scalar ra with array dec refuted"
  },
  {
   "property": "C36",
   "status": "partial",
   "theorems": [
    "C36_mask",
    "C36_mask_wrong_length",
    "C36_index",
    "C36_index_out_of_range",
    "C36_search",
    "C36_get_observations",
    "C36_get_observations_refuted",
    "C36_empty_index_refuted"
   ],
   "note": "masks, index lists and later searches proved; get_observations proved for default row labels, refuted after filter_rows; empty index list refuted"
  },
  {
   "property": "C37",
   "status": "proved",
   "theorems": [
    "C37_from_dict",
    "C37_accepts",
    "C37_no_column_lost",
    "C37_renamed",
    "C37_unmapped",
    "C37_collision",
    "C37_missing_column",
    "C37_contains",
    "C37_shared_source_refuted"
   ],
   "note": "for maps with distinct survey names; two standard names for one survey column refuted"
  },
  {
   "property": "C38",
   "status": "proved",
   "theorems": [
    "C38_defined",
    "C38_bad_request",
    "C38_missing_param",
    "C38_object_columns",
    "C38_param_clash_refuted",
    "C38_bookkeeping",
    "C38_light_curves"
   ],
   "note": "for deterministic models given pointwise (pointwise), tables reachable by the API (tbl), radii 0..180, saved columns distinct and not named like a built-in column; C38_defined shows such runs succeed; C38_light_curves: the nested light curves are consecutive blocks that partition the rows; parameter-name clash refuted"
  },
  {
   "property": "C39",
   "status": "proved",
   "theorems": [
    "C39_save_without_match_refuted",
    "C39_save_filter_refuted",
    "C39_rows"
   ],
   "note": "same conditions as C38; saving a column when some object has no match, and saving 'filter', refuted (the call raises)"
  },
  {
   "property": "C40",
   "status": "proved",
   "theorems": [
    "C40_windows",
    "C40_missing",
    "C40_bad_offset",
    "C40_inside",
    "C40_no_t0_many_samples_refuted"
   ],
   "note": "t0 None with several samples refuted (TypeError instead of no window)"
  },
  {
   "property": "C41",
   "status": "proved",
   "theorems": [
    "C41_round_trip",
    "C41_round_trip_rest",
    "C41_identity",
    "C41_order",
    "C41_compose",
    "C41_flux",
    "C41_bolometric"
   ],
   "note": "For z > -1."
  },
  {
   "property": "C42",
   "status": "proved",
   "theorems": [
    "C42_pipeline",
    "C42_no_redshift",
    "C42_missing",
    "C42_samples",
    "C42_effect_parameters",
    "C42_own_parameters_refuted",
    "C42_list_effects"
   ],
   "note": "Pipeline stated with an independent expected_flux; effects pointwise (acts). Two effects of the same class share a node parameter, so the second one's own value is ignored (C42_own_parameters_refuted)."
  },
  {
   "property": "C43",
   "status": "proved",
   "theorems": [
    "C43_empty_query",
    "C43_values",
    "C43_columns",
    "C43_queries_in_range",
    "C43_one_bound_query_refuted",
    "C43_kwargs_dropped_refuted"
   ],
   "note": "Unrestricted over wavelength lists and pointwise models. Findings: with one bound set, an extra query below/above it (refuted); kwargs are dropped on the extrapolated path (refuted)."
  },
  {
   "property": "C44",
   "status": "proved",
   "theorems": [
    "C44_shape_and_values",
    "C44_rows",
    "C44_at_edge",
    "C44_bounded",
    "C44_nonnegative",
    "C44_decreasing",
    "C44_continuous",
    "C44_linear_vanishes",
    "C44_invalid"
   ],
   "note": "LastValue/Linear/Exponential/Constant; for non-negative edge flux where the claim says so."
  },
  {
   "property": "C45",
   "status": "proved",
   "theorems": [
    "C45_entries",
    "C45_aligned",
    "C45_permutation",
    "C45_samples",
    "C45_errors",
    "C45_pointwise_models",
    "C45_single_passband",
    "C45_unknown_filter"
   ],
   "note": "For models whose evaluation is pointwise in time (one_by_one); shown for all pointwise SED models and their combinations."
  },
  {
   "property": "C46",
   "status": "proved",
   "theorems": [
    "C46_weighted_sum",
    "C46_bandflux_component",
    "C46_weights",
    "C46_rest_effect",
    "C46_observer_effect",
    "C46_bandfluxes",
    "C46_band_of_sum",
    "C46_set_apply_redshift_refuted",
    "C46_set_apply_redshift_bandflux_refuted",
    "C46_minwave"
   ],
   "note": "Components distinct objects. Findings: set_apply_redshift on a multi-object model changes nothing or raises (refuted)."
  },
  {
   "property": "C47",
   "status": "proved",
   "theorems": [
    "C47_selected",
    "C47_others_irrelevant",
    "C47_unknown",
    "C47_duplicate_names_refuted",
    "C47_minwave_refuted",
    "C47_rest_effect",
    "C47_observer_effect"
   ],
   "note": "Component names distinct; duplicate names and the wavelength-range query are refuted."
  },
  {
   "property": "C48",
   "status": "proved",
   "theorems": [
    "C48_template_entries",
    "C48_template_unsupported",
    "C48_template_one_by_one",
    "C48_selected",
    "C48_array_is_dict",
    "C48_default_baseline_refuted",
    "C48_caller_baseline_refuted",
    "C48_periodic_sampling_refuted",
    "C48_lightcurvedata_input_refuted",
    "C48_reference",
    "C48_at_data",
    "C48_between",
    "C48_outside",
    "C48_no_baseline",
    "C48_defined",
    "C48_periodic",
    "C48_periodic_at_data",
    "C48_rejected",
    "C48_accepted",
    "C48_periodic_requires"
   ],
   "note": "LightcurveData and (Multi)LightcurveTemplateModel: values at, between and outside the data, periodic wrapping, baseline, validation, template entries per observation. Refuted sub-claims (real behaviours of the code): default baseline with magnitudes_in=True is the flux of magnitude 0, not 0; the caller's baseline dictionary is overwritten; curves with different sampling times pass as periodic when the times are large (allclose rtol); a LightcurveData object is refused as input."
  },
  {
   "property": "C49",
   "status": "proved",
   "theorems": [
    "C49_basis",
    "C49_template",
    "C49_defined",
    "C49_faint_tails_refuted"
   ],
   "note": "Exact when every passband value is 0 or above 1e-5 (the code's significance cut); existence characterised (C49_defined: exactly when each filter has a wavelength of its own). With faint tails the claim is refuted (C49_faint_tails_refuted)."
  },
  {
   "property": "C50",
   "status": "proved",
   "theorems": [
    "C50_phases",
    "C50_phase_unique",
    "C50_epoch",
    "C50_same_phases",
    "C50_steady_effects",
    "C50_periodic"
   ],
   "note": "Phases (range, meaning, epoch, uniqueness) and periodicity of the evaluated flux through the full pipeline, with redshift stretching the period, wavelength bounds, extrapolation and effects that do not look at the times."
  },
  {
   "property": "C51",
   "status": "proved",
   "theorems": [
    "C51_constant",
    "C51_step",
    "C51_sine",
    "C51_sine_shape",
    "C51_linear",
    "C51_static_input",
    "C51_static_two_refuted",
    "C51_static",
    "C51_static_bands",
    "C51_static_bands_missing"
   ],
   "note": "Constant, step, sine, linear and static models through the public evaluation with redshift; static table validation; StaticBandfluxModel. Refuted: a 2 x 2 x N array of two valid SEDs is refused although the list of the same two is accepted."
  },
  {
   "property": "C52",
   "status": "proved",
   "theorems": [
    "C52_accepts",
    "C52_shape",
    "C52_defined",
    "C52_outside",
    "C52_weights",
    "C52_cell",
    "C52_grid_points",
    "C52_exact_quadratic",
    "C52_exact_bilinear",
    "C52_local",
    "C52_scale",
    "C52_irregular_linear_refuted",
    "C52_small_steps_refuted",
    "C52_axis_error"
   ],
   "note": "Grid points need irregular axes or steps larger than n/2e6 (otherwise refuted: C52_small_steps_refuted, nearly equal small steps are treated as regular); the cell contains the query for irregular and evenly spaced axes; linear functions are not reproduced on irregular axes (C52_irregular_linear_refuted). Exact reals instead of JAX floats."
  },
  {
   "property": "C53",
   "status": "proved",
   "theorems": [
    "C53_positive",
    "C53_mag_flux_mag",
    "C53_flux_mag_flux",
    "C53_no_magnitude",
    "C53_brighter_is_smaller",
    "C53_magnitude_decreases",
    "C53_five_magnitudes",
    "C53_reference",
    "C53_ratio"
   ],
   "note": "Magnitude and flux conversions are inverse and order reversing"
  },
  {
   "property": "C54",
   "status": "proved",
   "theorems": [
    "C54_flam_fnu_flam",
    "C54_fnu_flam_fnu",
    "C54_entries",
    "C54_mismatch",
    "C54_one_wavelength",
    "C54_one_flux"
   ],
   "note": "Flux unit conversions are inverse"
  },
  {
   "property": "C55",
   "status": "proved",
   "theorems": [
    "C55_defined",
    "C55_variance_sum",
    "C55_monotone",
    "C55_source_only",
    "C55_units",
    "C55_snr_increases",
    "C55_callable_readout_refuted",
    "C55_opsim_defined"
   ],
   "note": "For non-negative inputs and a positive zero point. Finding: a callable readout noise is not scaled by footprint and exposure count (C55_callable_readout_refuted)."
  },
  {
   "property": "C56",
   "status": "proved",
   "theorems": [
    "C56_five_sigma",
    "C56_detection",
    "C56_defined",
    "C56_ztf_close",
    "C56_ztf_override_refuted"
   ],
   "note": "For the documented formula with the same parameters. Findings: the ZTF table's footprint constant makes it 4.9995..5 rather than 5 (C56_ztf_close), and its zero point ignores overridden camera constants (C56_ztf_override_refuted)."
  },
  {
   "property": "C57",
   "status": "proved",
   "theorems": [
    "C57_consistent",
    "C57_exposure_time",
    "C57_airmass",
    "C57_lsst",
    "C57_unknown_band",
    "C57_reference",
    "C57_tables"
   ],
   "note": "Statement corrected to the code's sign convention."
  },
  {
   "property": "C58",
   "status": "proved",
   "theorems": [
    "C58_accepts",
    "C58_errors",
    "C58_tables",
    "C58_blocks",
    "C58_skipped",
    "C58_documentation",
    "C58_open_documentation",
    "C58_line",
    "C58_no_key",
    "C58_values",
    "C58_repeated_end_refuted",
    "C58_meta_leak_refuted",
    "C58_stale_filters_refuted",
    "C58_duplicate_filter",
    "C58_white_space"
   ],
   "note": "Under one FILTERS declaration without repeated letters: accepted files characterised item by item, tables per END_EVENT with exactly the rows since the last START_EVENT, one table per block for block-structured files, error kinds, documentation/comment/blank lines skipped, lexing of lines and rows. Refuted: one table per event when END_EVENT is repeated, metadata confined to its event, stale columns after a second FILTERS line. Row before START_EVENT raises KeyError, not ValueError."
  },
  {
   "property": "C59",
   "status": "proved",
   "theorems": [
    "C59_columns",
    "C59_validated",
    "C59_values",
    "C59_unvalidated",
    "C59_order_unchecked_refuted",
    "C59_interpolator"
   ],
   "note": "With validate=True accepted exactly for row-major enumerations of two increasing axes (ValueError otherwise); values placed at their grid points; composition with BicubicInterpolator.from_grid_file. Refuted without validate (the default, and what from_grid_file uses): only the row count is checked, other orders silently misplace values. Numbers exact, no NaN; text parsing by astropy not modelled."
  },
  {
   "property": "C60",
   "status": "partial",
   "theorems": [
    "C60_snr",
    "C60_mag",
    "C60_single",
    "C60_single_accepts",
    "C60_single_missing",
    "C60_nested",
    "C60_per_object",
    "C60_nested_errors",
    "C60_time_rel",
    "C60_drop_empty",
    "C60_nested_flag_refuted",
    "C60_time_rel_after_drop_refuted",
    "C60_zero_t0_refuted",
    "C60_no_time_rel"
   ],
   "note": "SNR, magnitudes, errors, detection flags, alignment per object, drop_empty and relative times on frames numbered 0,1,2,... proved. Refuted for nested frames: invalid points are flagged numpy-masked rather than False (test is 'is not None'); t0 is looked up by label as position, so after results_drop_empty the relative times raise IndexError (or use another object's t0 after reordering); one t0 of zero suppresses all relative times. How nested_pandas stores a masked flag is not modelled."
  },
  {
   "property": "C61",
   "status": "proved",
   "theorems": [
    "C61_get_param",
    "C61_get_param_default_refuted",
    "C61_set_missing",
    "C61_add_existing",
    "C61_set_existing",
    "C61_add_new",
    "C61_failed_add_leaves_undefined",
    "C61_rejected_values"
   ],
   "note": "Python-side resolution of value=None through kwargs is outside the model: the theorems take the resolved value."
  },
  {
   "property": "C62",
   "status": "proved",
   "theorems": [
    "C62_parameters_listed",
    "C62_edges_complete",
    "C62_edges_sound",
    "C62_self_links_refuted"
   ],
   "note": "For distinct node names. C62_self_links_refuted shows that links inside one node are not recorded."
  },
  {
   "property": "C63",
   "status": "proved",
   "theorems": [
    "C63_only_gradient_values",
    "C63_all_gradient_values",
    "C63_needs_positions",
    "C63_enabled_link_hides_upstream_refuted"
   ],
   "note": "C63_enabled_link_hides_upstream_refuted exhibits the stop at gradient-enabled links."
  },
  {
   "property": "C64",
   "status": "proved",
   "theorems": [
    "C64_given_values",
    "C64_weights",
    "C64_no_values",
    "C64_integer_weights_refuted",
    "C64_caller_weights_unchanged_refuted"
   ],
   "note": "Findings: integer weights raise TypeError (in-place division), a float weights array of the caller is overwritten."
  },
  {
   "property": "C65",
   "status": "partial",
   "theorems": [
    "C65_accepted_tables_increase",
    "C65_unsorted_rejected",
    "C65_nanometres",
    "C65_duplicates_averaged_refuted",
    "C65_bad_units"
   ],
   "note": "all but the averaging of duplicates, which is refuted"
  },
  {
   "property": "C66",
   "status": "partial",
   "theorems": [
    "C66_add_column",
    "C66_add_column_accepts",
    "C66_constant_accepts",
    "C66_stale_filters_refuted",
    "C66_precedence",
    "C66_constant_column",
    "C66_existing_column_kept",
    "C66_no_value",
    "C66_filters_cover",
    "C66_no_filter_column_refuted",
    "C66_nothing_given"
   ],
   "note": "constant columns proved when the filter list covers the table; no-filter-column case refuted"
  },
  {
   "property": "C67",
   "status": "proved",
   "theorems": [
    "C67_phases",
    "C67_times",
    "C67_single",
    "C67_table",
    "C67_negative_redshift_refuted"
   ],
   "note": "non-negative redshift; a negative redshift is ignored (refuted); filter names distinct and not 'times'/'rest_phase'"
  },
  {
   "property": "C68",
   "status": "proved",
   "theorems": [
    "C68_extinction_additive_refuted",
    "C68_dimming_acts",
    "C68_extinction_acts",
    "C68_microlensing_acts",
    "C68_microlensing_off",
    "C68_missing_parameter",
    "C68_dimming_band",
    "C68_microlensing_band",
    "C68_extinction_band_refuted",
    "C68_dimming_either_frame",
    "C68_own_values"
   ],
   "note": "Extinction has no band-flux form (C68_extinction_band_refuted), dimming and microlensing commute with band integration."
  },
  {
   "property": "C69",
   "status": "proved",
   "theorems": [
    "C69_polynomial",
    "C69_normalised",
    "C69_smooth",
    "C69_file",
    "C69_file_refused",
    "C69_file_truncated",
    "C69_flux",
    "C69_outside",
    "C69_colour",
    "C69_scale",
    "C69_mask",
    "C69_mask_no_state",
    "C69_mask_covers"
   ],
   "note": "exact reals instead of JAX floats; float()/int() parsing abstract; grid files after astropy parsing (C59)"
  },
  {
   "property": "C70",
   "status": "proved",
   "theorems": [
    "C70_apart",
    "C70_inside",
    "C70_symmetric",
    "C70_chord",
    "C70_continuous",
    "C70_decreasing",
    "C70_bounds",
    "C70_determined",
    "C70_black_body",
    "C70_distance",
    "C70_light",
    "C70_flux",
    "C70_distance_required",
    "C70_documented_units_refuted",
    "C70_constants",
    "C70_no_distance_error"
   ],
   "note": "exact reals; Planck's law with astropy's constants; positive radii, temperatures, wavelengths. The documented units (AU, solar radii) are refuted: C70_documented_units_refuted"
  },
  {
   "property": "C71",
   "status": "proved",
   "theorems": [
    "C71_table_kept",
    "C71_zero_points",
    "C71_noise",
    "C71_constant",
    "C71_accepts",
    "C71_zero_points_refused",
    "C71_constant_refused",
    "C71_missing_refused",
    "C71_metadata_ignored_refuted",
    "C71_negative_sky_refuted",
    "C71_no_filter_refuted",
    "C71_renamed_zero_point_refuted",
    "C71_fake_values",
    "C71_signature",
    "C71_survey_values"
   ],
   "note": "for tables with a filter column; refuted sub-claims: negative sky accepted (undefined errors), no filter column gives zero constants, metadata values are always overridden by the constructor's defaults, a renamed zp column makes the errors uncomputable"
  },
  {
   "property": "C72",
   "status": "proved",
   "theorems": [
    "C72_vector",
    "C72_integers_refuted",
    "C72_unknown_band_refuted",
    "C72_empty_refuted",
    "C72_opsim_zero_points",
    "C72_opsim_positive",
    "C72_opsim_kept",
    "C72_opsim_refused",
    "C72_opsim_accepts",
    "C72_opsim_errors",
    "C72_opsim_noise",
    "C72_opsim_search",
    "C72_columns",
    "C72_nothing_given",
    "C72_opsim_values",
    "C72_opsim_no_coefficients",
    "C72_opsim_errors_index",
    "C72_rubin_values"
   ],
   "note": "Proved for tables whose cells are numbers/text/NaN. Findings (refuted sub-claims): integer zero points make numpy truncate later floats (C72_integers_refuted), a band without entry is noticed only in the first row and otherwise gives NaN (C72_unknown_band_refuted), an empty table cannot be made (C72_empty_refuted). pandas' masking of an unknown first band (object column) is not modelled."
  },
  {
   "property": "C73",
   "status": "proved",
   "theorems": [
    "C73_columns",
    "C73_nothing_given",
    "C73_ztf_values",
    "C73_rows",
    "C73_zero_points",
    "C73_errors",
    "C73_five_sigma",
    "C73_search",
    "C73_accepts",
    "C73_dates",
    "C73_labels_refuted",
    "C73_stale_filters_refuted",
    "C73_override_refuted"
   ],
   "note": "Proved with the conversion of dates abstract. Findings: labels are not renumbered, so get_observations raises or returns another row (C73_labels_refuted); filters lists filters without rows (C73_stale_filters_refuted); overriding gain, read noise or dark current does not change the zero points (C73_override_refuted, C56_ztf_override_refuted)."
  },
  {
   "property": "C74",
   "status": "partial",
   "theorems": [
    "C74_rows",
    "C74_passes",
    "C74_errors",
    "C74_noise",
    "C74_accepts",
    "C74_search",
    "C74_ma_path_refuted",
    "C74_dict_refuted",
    "C74_caller_table_refuted",
    "C74_columns",
    "C74_nothing_given",
    "C74_errors_index",
    "C74_roman_values",
    "C74_read_noise"
   ],
   "note": "Rows, passes, errors, acceptance/refusal and searches proved for every plan and characterisation tables (the network files are parameters; BANDPASS text, MA numbers and PASS numeric). Refuted parts: ma_table_path always fails (UnboundLocalError), a dict table always fails (AttributeError), the caller's frame is overwritten (time column lost, columns added)."
  },
  {
   "property": "C75",
   "status": "partial",
   "theorems": [
    "C75_rows",
    "C75_ids",
    "C75_values",
    "C75_search",
    "C75_outcome",
    "C75_opsim",
    "C75_uneven_refuted",
    "C75_footprint_refuted",
    "C75_nothing_seen"
   ],
   "note": "Rows, ids, values, search and the exact success condition proved for every table (tinv, column map settled - shown for tables made with default names by C75_opsim -, numeric ids, text filters, distinct row labels; sampling is an arbitrary oracle). Refuted parts: the call fails with ValueError unless the number of bands divides the number of times (C75_outcome, C75_uneven_refuted), and the detector footprint is dropped (C75_footprint_refuted)."
  },
  {
   "property": "C76",
   "status": "partial",
   "theorems": [
    "C76_disc_flux",
    "C76_integral",
    "C76_hottest_ring",
    "C76_disc_geometry",
    "C76_derived",
    "C76_keywords",
    "C76_walk_accepts",
    "C76_walk_range",
    "C76_walk_shift",
    "C76_walk_scale",
    "C76_flux",
    "C76_never_brighter_refuted",
    "C76_walk_continuity_refuted",
    "C76_monotone_refuted",
    "C76_reference_wavelength_refuted",
    "C76_constants",
    "C76_amplitude_reference",
    "C76_amplitude_scaling",
    "C76_keyword_error",
    "C76_solar_mass",
    "C76_formulas"
   ],
   "note": "Disc flux, hottest ring, geometry, derived parameters and the form of the flux proved (the integral exists and equals the rings' light when x_in >= 1e-6, the code's clip). Refuted of the code: times that go back are accepted and increasing times starting before t0 are refused or give NaN (curr_t is never updated); the walk is not continuous; its noise is never negative, so the flux never rises above the average; at 4000 angstroms tau and SF are not the reference values (10**B * wave instead of wave**B)."
  },
  {
   "property": "C77",
   "status": "partial",
   "theorems": [
    "C77_make",
    "C77_per_sample",
    "C77_single",
    "C77_shape",
    "C77_rng",
    "C77_seed",
    "C77_size_refuted",
    "C77_fixed_refuted",
    "C77_advances",
    "C77_arrays"
   ],
   "note": "Proved for one value per sample (any parameters), for one sample with arrays of any shapes (C77_arrays: numpy's broadcasting, ValueError exactly when the shapes do not broadcast), for arrays per sample without parameters, shapes, generators and seeds. Refuted: with an array per sample and any parameter (even a constant, which the graph state repeats per sample) several samples raise ValueError, or - when the last dimension equals the number of samples - entry (i, j) uses the parameters of sample j; fixed_params are dropped when a generator is given and after set_seed. numpy's numbers are an oracle."
  },
  {
   "property": "C78",
   "status": "partial",
   "theorems": [
    "C78_make",
    "C78_integers_refuted",
    "C78_generator_refuted",
    "C78_seed",
    "C78_spacing_refuted",
    "C78_line"
   ],
   "note": "Proved: the probability of a value below x_i is (y_0+..+y_i)/sum(y), range, seeds, constructor. Refuted: with y_0 > 0 a draw below y_0/sum(y) raises ValueError; for unequally spaced x the probabilities are not the areas; the given generator is ignored; integer arrays and lists raise TypeError. kind='linear' only; sum 0 outside the model."
  },
  {
   "property": "C79",
   "status": "proved",
   "theorems": [
    "C79_photometric",
    "C79_spectroscopic",
    "C79_any_efficiency"
   ],
   "note": "Exact reals; the functions act elementwise on arrays."
  },
  {
   "property": "C80",
   "status": "partial",
   "theorems": [
    "C80_separation",
    "C80_meridian",
    "C80_centre",
    "C80_position",
    "C80_half_position",
    "C80_falls_off",
    "C80_degrees_refuted",
    "C80_no_position"
   ],
   "note": "Everything but the unit of the radius is proved; the documented unit (degrees) is refuted by C80_degrees_refuted: the separation is computed in radians but compared with the radius in degrees, so one documented standard deviation away the galaxy still has more than 99.98% of its brightness."
  },
  {
   "property": "C81",
   "status": "partial",
   "theorems": [
    "C81_rotation",
    "C81_inside_circle",
    "C81_circle_inside",
    "C81_arrays",
    "C81_scalar",
    "C81_search",
    "C81_pixel_region",
    "C81_pixel_origin_refuted",
    "C81_table_scale_refuted",
    "C81_from_rect",
    "C81_origin",
    "C81_contains",
    "C81_stretch",
    "C81_centre",
    "C81_pixel_scale",
    "C81_region_angle",
    "C81_half_turn",
    "C81_quarter_turn",
    "C81_right_ascension",
    "C81_pixel_rectangle_accepted"
   ],
   "note": "The footprint test as projected rectangle (C81_contains, stretch factor of the regions package's 1-arcsecond measurement below 1e-8: C81_stretch), rejection conditions (C81_from_rect, C81_origin), pixel-scale independence, region angle, half/quarter turns, right ascension shift, rotation direction in position-angle terms (C81_rotation), inscribed and circumscribed circles, arrays element by element, and the footprint-filtered range search (C81_search) are proved for all inputs. Refuted: pixel regions are half a pixel off the pointing (C81_pixel_origin_refuted); the survey table hands its arcsec pixel scale to a footprint expecting degrees (C81_table_scale_refuted). User-supplied WCS is an abstract function; only rectangles as sky regions."
  },
  {
   "property": "C82",
   "status": "partial",
   "theorems": [
    "C82_accepted",
    "C82_sample_pdf",
    "C82_object",
    "C82_class_one",
    "C82_class",
    "C82_class_defined",
    "C82_generators",
    "C82_advances",
    "C82_density",
    "C82_one_by_one",
    "C82_extra_draw_refuted",
    "C82_object_parameters_refuted",
    "C82_class_without_density"
   ],
   "note": "proved for every density, object, class, sample count and generator; scipy's inverse is abstract with its u-resolution. Refuted parts: a class sampled n>=2 times takes n+1 numbers (np.vectorize calls the function once more for the output type), so many samples differ from one by one (C82_extra_draw_refuted); parameters given together with a distribution object are ignored (C82_object_parameters_refuted)"
  },
  {
   "property": "C83",
   "status": "proved",
   "theorems": [
    "C83_distances",
    "C83_distmod",
    "C83_constants",
    "C83_integer_refuted",
    "C83_rate",
    "C83_bins",
    "C83_numbers",
    "C83_hubble",
    "C83_solid_angle",
    "C83_positive",
    "C83_tripp",
    "C83_inverse_square",
    "C83_x1_density",
    "C83_x1_samples",
    "C83_x1_distinct",
    "C83_x1_generators",
    "C83_light_speed",
    "C83_rate"
   ],
   "note": "for flat Lambda-CDM without radiation, exact integrals (astropy's FlatLambdaCDM is modelled), scipy's inverse abstract. Finding: H0 or Omega_m given as an integer is refused (C83_integer_refuted)"
  },
  {
   "property": "C84",
   "status": "partial",
   "theorems": [
    "C84_offset",
    "C84_separation",
    "C84_position",
    "C84_objects",
    "C84_errors",
    "C84_zero_redshift",
    "C84_constants",
    "C84_generator_refuted",
    "C84_global_refuted"
   ],
   "note": "geometry proved for hosts with cos(dec) >= 1e-12 or exactly at a pole. Refuted: the random direction comes from numpy's global generator, the given generator and the seed have no influence (C84_generator_refuted, C84_global_refuted); redshift 0 has no position (C84_zero_redshift)"
  },
  {
   "property": "C85",
   "status": "partial",
   "theorems": [
    "C85_apply",
    "C85_own_number",
    "C85_apply_band",
    "C85_errors",
    "C85_zero_sigma",
    "C85_plain",
    "C85_plain_bands",
    "C85_reproducible",
    "C85_reproducible_bands",
    "C85_sed_noise",
    "C85_band_noise",
    "C85_simulate",
    "C85_simulate_refuted",
    "C85_two_effects_refuted",
    "C85_survey_noise",
    "C85_bands_in_turn",
    "C85_bands_rows"
   ],
   "note": "Full claim proved for evaluate_sed / evaluate_bandfluxes called with a generator. Refuted for the whole simulation: simulate_lightcurves does not pass its generator to evaluate_bandfluxes, so white noise there comes from fresh entropy (C85_simulate says what holds, C85_simulate_refuted gives the counterexample); two WhiteNoise effects on one model share the first one's sigma (C85_two_effects_refuted)."
  },
  {
   "property": "C86",
   "status": "proved",
   "theorems": [
    "C86_make",
    "C86_flux",
    "C86_nodes",
    "C86_file",
    "C86_linear_interpolates",
    "C86_linear_bounds",
    "C86_outside_times",
    "C86_amplitude",
    "C86_unsorted_refuted",
    "C86_unsorted_bands_refuted"
   ],
   "note": "For times in increasing order (scipy refuses others: C86_unsorted_refuted, C86_unsorted_bands_refuted) and wavelengths in order. The polynomial pieces of the spline are an argument assumed to interpolate the grid points; proved for degree 1 (C86_linear_interpolates)."
  },
  {
   "property": "C87",
   "status": "partial",
   "theorems": [
    "C87_made_well",
    "C87_history",
    "C87_flux",
    "C87_compute_beyond",
    "C87_sample",
    "C87_made_settable",
    "C87_set",
    "C87_set_old_state_refuted",
    "C87_set_unknown_refuted",
    "C87_mask",
    "C87_mask_no_state",
    "C87_no_epoch_refuted",
    "C87_mask_values"
   ],
   "note": "Independence of the history, flux, extrapolation, sampling and mask proved for all histories of sampling, evaluation and masking. Refuted in full generality: after set() with a new name, states sampled earlier can no longer be evaluated (C87_set_old_state_refuted); set() with a name unknown to the source raises but leaves the model unusable (C87_set_unknown_refuted); a state without t0 raises TypeError (C87_no_epoch_refuted) although mask_by_time accepts it."
  },
  {
   "property": "C88",
   "status": "partial",
   "theorems": [
    "C88_conflict",
    "C88_make",
    "C88_flux",
    "C88_arguments",
    "C88_shift",
    "C88_beyond_refuted"
   ],
   "note": "Everything proved but the last clause, which is refuted: wavelengths beyond the bounds of the redback source end in RecursionError whatever the stack, because the wrapper reports the bounds 0 and infinity to the extrapolation (C88_beyond_refuted)."
  },
  {
   "property": "C89",
   "status": "partial",
   "theorems": [
    "C89_present",
    "C89_missing",
    "C89_sound",
    "C89_refused",
    "C89_crash",
    "C89_force_refuted",
    "C89_from_url",
    "C89_same_name_refuted",
    "C89_url_file",
    "C89_url_failure",
    "C89_url_sound"
   ],
   "note": "Proved over an abstract file system with pooch 1 semantics (atomic download). Refuted parts: force_download=True never downloads again (pooch treats an existing file without a known hash as up to date); OpSim.from_url returns the file of another URL with the same last component."
  },
  {
   "property": "C90",
   "status": "partial",
   "theorems": [
    "C90_sound",
    "C90_present",
    "C90_first",
    "C90_again",
    "C90_offline_refuted",
    "C90_stuck_refuted",
    "C90_second_directory_refuted",
    "C90_crash_refuted",
    "C90_crash_early",
    "C90_relative_refuted"
   ],
   "note": "Refuted parts: an interruption during unpacking, a second directory, a relative directory and a cleared cache without connection each make loading fail; the theorems say exactly when. The archive is modelled as two files unpacked in two steps."
  },
  {
   "property": "C91",
   "status": "proved",
   "theorems": [
    "C91_natural",
    "C91_only_one",
    "C91_only_solution",
    "C91_straight",
    "C91_beyond",
    "C91_at_knot"
   ],
   "note": "np.linalg.solve is modelled by elimination; C91_only_solution shows its exact result is the only solution. Strictly increasing knots, at least two."
  },
  {
   "property": "C92",
   "status": "partial",
   "theorems": [
    "C92_half",
    "C92_second_refuted",
    "C92_grid_value",
    "C92_unit_grid",
    "C92_bilinear",
    "C92_grid_refuted",
    "C92_jump_refuted"
   ],
   "note": "Refuted: the 1-d helper returns half the second derivatives (C92_half); the surface is off by second_x (h - h^2)/6 + second_y (h' - h'^2)/6 at grid points (C92_grid_value), e.g. for the 10 Angstrom steps of the Hsiao template, and jumps at phase knots."
  },
  {
   "property": "C93",
   "status": "partial",
   "theorems": [
    "C93_rest",
    "C93_observed",
    "C93_amplitude",
    "C93_theta",
    "C93_knots",
    "C93_rv_refuted",
    "C93_refused",
    "C93_defaults",
    "C93_mask",
    "C93_mask_no_state"
   ],
   "note": "Everything but the role of Rv is proved; C93_rv_refuted: the flux depends on Av and Rv only through Av/Rv, F99 is always built with its default Rv = 3.1. The dust law is an arbitrary partial function; table shapes are as documented."
  },
  {
   "property": "C94",
   "status": "proved",
   "theorems": [
    "C94_samples",
    "C94_constraint_refused",
    "C94_seed_determines",
    "C94_last_seed_wins",
    "C94_empty_refused",
    "C94_own_seed_refuted",
    "C94_numpy_generator_refuted"
   ],
   "note": "bilby's priors are arguments (draw functions on a shared generator). Refuted sub-claims: a node's own seed does not isolate it (C94_own_seed_refuted, C94_last_seed_wins: making another seeded node, even one refused for its empty prior, reseeds all); a numpy generator does not control the samples (C94_numpy_generator_refuted, documented); a prior with a Constraint entry can be made into a node but sampling it raises KeyError after writing the earlier parameters (C94_constraint_refused)."
  },
  {
   "property": "C95",
   "status": "partial",
   "theorems": [
    "C95_seed_range",
    "C95_seed_injective",
    "C95_make_iff",
    "C95_missing_input",
    "C95_unconditional",
    "C95_conditional",
    "C95_conditional_one_sample_refuted",
    "C95_reproducible",
    "C95_conditions_rectangular"
   ],
   "note": "Proved for flows without conditional columns (any number of samples) and for conditional flows with two or more samples. Refuted for conditional flows with one sample: the parameters are then numbers and pandas refuses to build the DataFrame, so compute always raises ValueError (C95_conditional_one_sample_refuted)."
  },
  {
   "property": "C96",
   "status": "proved",
   "theorems": [
    "C96_needs_position",
    "C96_wrapper",
    "C96_wrapped",
    "C96_refused",
    "C96_hemisphere",
    "C96_nan_refuted"
   ],
   "note": "SkyCoord is modelled (wrapping, latitude check). For NaN declinations ConstantHemisphereDustMap gives the southern value for one sample and the northern one for several (C96_nan_refuted)."
  },
  {
   "property": "C97",
   "status": "partial",
   "theorems": [
    "C97_host_and_milky_way",
    "C97_own_ebv_refuted",
    "C97_first_module",
    "C97_unknown_name",
    "C97_listed_found",
    "C97_frame",
    "C97_made",
    "C97_label_refuted",
    "C97_not_a_law_refuted"
   ],
   "note": "Proved: frame, parameters, lookup by name, action in both frames. Refuted: an effect whose law is given by name cannot be labelled, effect_name is passed on to the law's class (C97_label_refuted); names that a module merely imports give TypeError (C97_not_a_law_refuted); two extinction effects on one source share the first one's ebv (C97_own_ebv_refuted)."
  },
  {
   "property": "C98",
   "status": "proved",
   "theorems": [
    "C98_samples",
    "C98_seed_determines",
    "C98_given_generator",
    "C98_range",
    "C98_uniform"
   ],
   "note": "Generator: any state with batches of numbers of [0, 1). Uniformity as the area of the preimage in the unit square against the integral of cos dec (Coquelicot)."
  },
  {
   "property": "C99",
   "status": "proved",
   "theorems": [
    "C99_samples",
    "C99_disc",
    "C99_within_radius",
    "C99_observed",
    "C99_refused",
    "C99_one_sample_refuted",
    "C99_range_refuted",
    "C99_generator"
   ],
   "note": "Theorems over all histories. Findings (refuted sub-claims): with one sample and a positive radius ra and dec are stored as one-element arrays (C99_one_sample_refuted); declinations above 90 are returned near the poles (C99_range_refuted) - as a direction still within the radius."
  },
  {
   "property": "C100",
   "status": "proved",
   "theorems": [
    "C100_filters",
    "C100_defined",
    "C100_in_order",
    "C100_epoch",
    "C100_forced",
    "C100_period",
    "C100_periodic_at_rows",
    "C100_accepted",
    "C100_refused",
    "C100_file",
    "C100_read_well_formed",
    "C100_model_flux",
    "C100_at_rows",
    "C100_between_rows",
    "C100_outside_rows"
   ],
   "note": "Over tables with real numbers; text in a numeric column is an error whose kind depends on the text; the set order of a filter selection is an arbitrary permutation. A forced epoch other than zero or the first source time is refused for periodic tables (C100_refused), and the last source row of a periodic table that closes is replaced by the first one of the next period."
  },
  {
   "property": "C101",
   "status": "proved",
   "theorems": [
    "C101_opsim_tables",
    "C101_defined",
    "C101_rows",
    "C101_objects",
    "C101_sed_opsim"
   ],
   "note": "Composition of the flux pipeline (C43-C46), tables (C35, C72-C74, C71), noise (C55) and simulate (C38-C40). A run with a non-finite error bar is left out (taken as an error); a t0 that is text counts as None; the time mask must decide time by time. C101_defined gives conditions under which the run returns; C101_case is a worked run."
  },
  {
   "property": "C102",
   "status": "proved",
   "theorems": [
    "C102_defined",
    "C102_filtered_refuted",
    "C102_spectra",
    "C102_filtered_mixup_refuted",
    "C102_run",
    "C102_rows"
   ],
   "note": "For tables whose row labels are their positions. After filter_rows positions are looked up as labels: a draw fails with KeyError (C102_filtered_refuted) or, with the first row gone, times and filters come from the row before the one found while error bars come from the row itself (C102_filtered_mixup_refuted). The noise generator is made afresh inside (rng=None), so a given generator does not make the result reproducible; deviates are arbitrary in the model. Non-finite error bars are left out. The sncosmo comparison and source construction are not modelled."
  },
  {
   "property": "C103",
   "status": "proved",
   "theorems": [
    "C103_sampling_succeeds",
    "C103_names_exist",
    "C103_case"
   ],
   "note": "For acyclic graphs; a link between parameters of one node must go to an earlier, not computed one (else KeyError at run time). Recursion depth: fuel above the number of nodes."
  },
  {
   "property": "C104",
   "status": "proved",
   "theorems": [
    "C104_built",
    "C104_source",
    "C104_ranges",
    "C104_case",
    "C104_node_names",
    "C104_host_parameters"
   ],
   "note": "Model SniaSourceModel.v builds the 14 nodes of construct_snia_source with the builders of NodeGraphModel and samples them with its sample_parameters; success comes from C103. Uniform numbers are streams; a standard normal number is an arbitrary function of the stream and position; scipy's inversion is an arbitrary function pinv (C104_built: built iff it inverts the three densities). Exact reals; a table without observations is not modelled (its min and max are not numbers). That the distance modulus is finite needs z > 0 (C104_ranges); at z <= 0 x0 may be not finite (in the model: None)."
  },
  {
   "property": "C105",
   "status": "proved",
   "theorems": [
    "C105_calls_in_sequence",
    "C105_no_draw_shared"
   ],
   "note": "NodeChainProofs.v, NodeChainProps.v over the model NodeGraphModel.v. The list of calls is existentially quantified but fixed by the trace (its nodes are the compute events of the trace); failing calls (a function that raises) are not covered: the theorem is about successful runs. That positions only advance is a hypothesis of C105_no_draw_shared about the functions."
  },
  {
   "property": "C106",
   "status": "partial",
   "theorems": [
    "C106_from_file",
    "C106_units",
    "C106_cached",
    "C106_again",
    "C106_votable_unit",
    "C106_suffix",
    "C106_file_names",
    "C106_duplicates_refuted",
    "C106_one_row_refuted",
    "C106_from_dir",
    "C106_from_dir_loads",
    "C106_dir_missing",
    "C106_relative_refuted",
    "C106_lsst",
    "C106_lsst_cached",
    "C106_lsst_units",
    "C106_roman",
    "C106_roman_cached",
    "C106_roman_units_refuted",
    "C106_roman_force_refuted",
    "C106_ztf",
    "C106_ztf_ignores_refuted",
    "C106_preset_name",
    "C106_preset_filters",
    "C106_preset_again",
    "C106_svo",
    "C106_svo_name",
    "C106_svo_group",
    "C106_default_path",
    "C106_svo_path"
   ],
   "note": "PassbandFileModel.v, PassbandFileProofs.v, PassbandFileProps.v, PassbandPresetProps.v. Proved as stated for absolute directories; refuted where the code deviates: duplicate wavelengths are not averaged but raise TypeError (C106_duplicates_refuted), a one-row text file raises IndexError, a relative directory is looked for in dir/dir (C106_relative_refuted), full names are not understood as filters of from_dir (C106_dir_missing), the Roman preset cannot be given its own unit or force_download, the ZTF preset ignores all keyword arguments. What the readers (numpy.loadtxt, astropy VOTable, pandas) make of the bytes is a parameter of the model; relative paths with '..' and surveys that begin with '/' are not modelled."
  },
  {
   "property": "C107",
   "status": "partial",
   "theorems": [
    "C107_db",
    "C107_db_write",
    "C107_db_exists_refuted",
    "C107_db_added",
    "C107_db_lost_refuted",
    "C107_db_third_refuted",
    "C107_db_missing",
    "C107_time_bounds",
    "C107_own_name_refuted",
    "C107_ztf_dates_refuted",
    "C107_ztf_loader",
    "C107_ztf_query_refuted",
    "C107_old_names_refuted",
    "C107_fake_values_refuted",
    "C107_fake_constant_refuted",
    "C107_roman_refuted",
    "C107_parquet",
    "C107_parquet_write",
    "C107_parquet_columns",
    "C107_parquet_missing",
    "C107_ordinary",
    "C107_ztf_default",
    "C107_ztf_columns",
    "C107_classes",
    "C107_case_insensitive"
   ],
   "note": "Proved for tables of ObsTable, OpSim and ZTF with standard column names (C107_ordinary, C107_parquet, C107_db). Refuted in general: a ZTF table with dates, a FakeObsTable with a constant flux error, every RomanObsTable and tables with a column under a survey's own name are saved but cannot be loaded; a FakeObsTable loses its camera values; the detector footprint and (plain tables) the old names are lost; the defaults of ZTF's from_db and of write_db name different tables; write_db raises ValueError instead of FileExistsError, a failed overwrite loses the old table, and a table cannot pass through a database three times."
  },
  {
   "property": "C108",
   "status": "proved",
   "theorems": [
    "C108_binary",
    "C108_text",
    "C108_round_trip",
    "C108_text_shape_refuted",
    "C108_write_unknown",
    "C108_write_lost_refuted",
    "C108_dat_refuted",
    "C108_read_errors",
    "C108_names",
    "C108_copied",
    "C108_sed",
    "C108_sed_accepted",
    "C108_sed_by_hand",
    "C108_sed_rows_refuted",
    "C108_sed_pair_refuted",
    "C108_synphot",
    "C108_synphot_refused",
    "C108_not_sed"
   ],
   "note": "Round trip in all five formats (C108_binary, C108_text with the exact shape rule, C108_round_trip), the refused writes and reads, SEDs from files equal to SEDs from arrays (C108_sed, C108_sed_accepted, C108_sed_by_hand), synphot sources. Refuted sub-claims: text formats lose axes of length 1 (C108_text_shape_refuted), a refused text write empties the existing file (C108_write_lost_refuted), .dat can be written but not read (C108_dat_refuted), an SED saved as two lines is refused, or, with two wavelengths, silently loaded as another SED (C108_sed_rows_refuted, C108_sed_pair_refuted). Files under other names than they were written to: C108_copied."
  },
  {
   "property": "C109",
   "status": "proved",
   "theorems": [
    "C109_built",
    "C109_distance",
    "C109_derived",
    "C109_extra_refuted",
    "C109_parsec",
    "C109_succeeds",
    "C109_case",
    "C109_sampling_succeeds"
   ],
   "note": "C109_built (which nodes are made), C109_derived + C109_distance (the distances are those of the redshifts of the same state, in every larger model), C109_succeeds (sampling succeeds; via C109_sampling_succeeds, a generalisation of C103 to helper nodes that depend on the node they serve), C109_parsec (numbers of a flat universe). Restriction: arguments that are plain callables are not covered by C109_built. Finding C109_extra_refuted: with any further keyword argument (the host mass of SNIaHost, the parameters of SncosmoWrapperModel) together with a cosmology, the model is built but can never be sampled: the argument is passed on to redshift_to_distance."
  },
  {
   "property": "C110",
   "status": "proved",
   "theorems": [
    "C110_regenerated",
    "C110_same",
    "C110_get_param",
    "C110_generate",
    "C110_generate_error",
    "C110_kwargs_refuted",
    "C110_list_params",
    "C110_set_allow_gradient",
    "C110_flags_do_not_matter",
    "C110_disabled_not_in_tree",
    "C110_random_refuted",
    "C110_case"
   ],
   "note": "Round trip through the PyTree for every model (fixed parameters) and for every deterministic model that C103 samples (all parameters); generate, get_param, list_params, set_allow_gradient. Refuted sub-claims: random values do not come back, generate's keyword arguments are ignored."
  },
  {
   "property": "C111",
   "status": "proved",
   "theorems": [
    "C111_opsim",
    "C111_refused",
    "C111_ztf",
    "C111_on_the_sky",
    "C111_uniform",
    "C111_opsim_errors_refuted",
    "C111_add_random",
    "C111_seed"
   ],
   "note": "The generator is abstract (unit_spec, int_spec as in C98); floats are exact reals. C111_opsim and C111_ztf give every cell of every row; C111_on_the_sky and C111_uniform say the positions are on the sky and that the pairs of numbers landing in any RA/Dec box form a rectangle whose area is the solid angle over 4 pi (the independence and uniformity of numpy's numbers is trusted). That a random OpSim supports flux errors is refuted (C111_opsim_errors_refuted: KeyError). Time.mjd is a parameter."
  },
  {
   "property": "C112",
   "status": "proved",
   "theorems": [
    "C112_values",
    "C112_refused",
    "C112_break",
    "C112_falls_off_refuted"
   ],
   "note": "Exact reals; numpy's generator is abstract (n standard normal numbers per call); ASCII capitalisation. The falling-off clause is refuted (C112_falls_off_refuted: whenever z3 > -4). num_samples is an integer, edd_ratio one number."
  },
  {
   "property": "C113",
   "status": "proved",
   "theorems": [
    "C113_registers",
    "C113_loads",
    "C113_failure",
    "C113_missing"
   ],
   "note": "sncosmo's registry is a function from names to tables and sncosmo.Bandpass accepts every processed table; absolute directory"
  },
  {
   "property": "C114",
   "status": "partial",
   "theorems": [
    "C114_accepted",
    "C114_samples",
    "C114_max",
    "C114_two_max",
    "C114_math_many",
    "C114_clip_refuted",
    "C114_rows_refuted",
    "C114_axis"
   ],
   "note": "Proved for all expressions but max and min, whose use with numpy is refuted: max(x) gives every sample the largest of all samples (C114_max), max(x, 0) does not cut off at 0 (C114_clip_refuted), max(x, y) raises TypeError (C114_two_max); math functions fail for several samples (C114_math_many); arrays per sample are combined along the wrong axis (C114_rows_refuted). Single-number arithmetic is abstract (numpy 2 promotion, same rounding for an array and its entries)."
  },
  {
   "property": "C115",
   "status": "proved",
   "theorems": [
    "C115_dust_values",
    "C115_dust_model",
    "C115_order_refuted",
    "C115_helper_alone_refuted",
    "C115_sampling_succeeds",
    "C115_acyclic_covered"
   ],
   "note": "Success of the run for every model whose links back are to parameters that come earlier (C115_sampling_succeeds, a generalisation of C103: C115_acyclic_covered); E(B-V) at the model's own position in any model (C115_dust_values) and in the documented one (C115_dust_model, which also shows that the conditions are met). Sub-claims refuted: any order of the parameters works (C115_order_refuted: KeyError); the helper can be sampled by itself (C115_helper_alone_refuted). 'Comes before' is stated with an order (rank) of the nodes, supplied by the user of the theorem."
  },
  {
   "property": "C116",
   "status": "proved",
   "theorems": [
    "C116_depths",
    "C116_samples",
    "C116_empty_map",
    "C116_seed_determines",
    "C116_given_generator",
    "C116_from_file",
    "C116_uniform",
    "C116_pixels_of_the_map",
    "C116_inside_the_map",
    "C116_near_the_map",
    "C116_finer_map_refuted",
    "C116_built_map",
    "C116_refused",
    "C116_survey_positions"
   ],
   "note": "Contracts assumed: HEALPix (centre in its pixel, cells nested and filled by their pixels) and MOC.from_cones (covers the cones, at most slack too much, orders at most max_depth); a concrete tessellation meets them. Refuted for maps finer than the sampler's depth: positions outside of the map are drawn (C116_finer_map_refuted). FileNotFoundError is modelled as RuntimeError; MOC.load is not modelled."
  },
  {
   "property": "C117",
   "status": "partial",
   "theorems": [
    "C117_samples",
    "C117_each_once",
    "C117_mismatch",
    "C117_eight_filters_refuted",
    "C117_no_filters_refuted",
    "C117_no_filters_errors_refuted",
    "C117_bandflux",
    "C117_bandflux_ticks_refuted",
    "C117_spectrogram",
    "C117_colormap_refuted",
    "C117_template_data",
    "C117_template_times",
    "C117_template_baseline_refuted",
    "C117_template_colours",
    "C117_model_refused"
   ],
   "note": "Proved with filters given. Refuted: without filters (documented: all points belong to one filter) no point is drawn, and with error bars the call is a ValueError; without a colormap eight filters are an IndexError; an incomplete colormap is a KeyError after part was drawn; curves of different lengths without times are a ValueError in plot_bandflux_lightcurves; a template's picture at given times is 0 outside the data where the model has its baseline. Artists are what matplotlib is handed: line styles and rendering are not modelled."
  },
  {
   "property": "C118",
   "status": "partial",
   "theorems": [
    "C118_set",
    "C118_add",
    "C118_chosen_unique",
    "C118_other_keywords_irrelevant",
    "C118_function_gets_all_keywords",
    "C118_parameter_is_result",
    "C118_narrow_function_refuted",
    "C118_shared_label_refuted",
    "C118_constant_sed_built",
    "C118_constant_sed_label_refuted",
    "C118_constant_sed_plain_function",
    "C118_function_by_keyword",
    "C118_snia_host_built",
    "C118_constant_sed_recipe",
    "C118_eclipsing_no_period",
    "C118_eclipsing_binary_built",
    "C118_eclipsing_period_function",
    "C118_failed"
   ],
   "note": "Choice of the value, recipes, irrelevance of the other keywords, and the calls with all keywords are proved for all graphs and runs. The last sentence is refuted: a labelled model whose parameter is a plain function can never be sampled (the wrapping node gets the label too: C118_constant_sed_label_refuted), a function that does not take every keyword of the model always raises (C118_narrow_function_refuted, C118_constant_sed_plain_function), and a function given by keyword is called with its own result as argument (C118_function_by_keyword). Keywords named like the Python arguments of set_parameter/FunctionNode (name, value, func, outputs, fixed_params) are outside the model."
  },
  {
   "property": "C119",
   "status": "proved",
   "theorems": [
    "C119_selection",
    "C119_times_split",
    "C119_wavelengths_split",
    "C119_bandfluxes_split",
    "C119_empty_refuted"
   ],
   "note": "For models as in C42_pipeline (pointwise compute_sed, effects acting value by value, consistent bounds) and no keyword arguments; wavelength lists non-empty. With keyword arguments the claim is false (C43_kwargs_dropped_refuted). An empty wavelength list raises ValueError (C119_empty_refuted). Band fluxes: every model whose observations are computed one by one (C45_pointwise_models)."
  },
  {
   "property": "C120",
   "status": "proved",
   "theorems": [
    "C120_all_outputs_set",
    "C120_one_output_set_refuted"
   ],
   "note": "All outputs set: proved on any graph (C120_all_outputs_set). One of several set: the value is ignored (C120_one_output_set_refuted; on the sampled node, in any graph), so the natural claim 'a value set is the value sampled' fails there."
  },
  {
   "property": "C121",
   "status": "partial",
   "theorems": [
    "C121_make",
    "C121_add",
    "C121_process",
    "C121_others",
    "C121_band",
    "C121_frame",
    "C121_fresh_made",
    "C121_fresh_updated",
    "C121_fresh_kept",
    "C121_retry",
    "C121_shared_refuted",
    "C121_failed_refuted",
    "C121_band_made",
    "C121_band_reports",
    "C121_unbound"
   ],
   "note": "Proved: making, adding, processing, failing halfway, what other groups notice, freshness and its preservation, retrying, for all programs. The last sentence is refuted: a group whose passband was processed through another group (C121_shared_refuted) or by a call that failed (C121_failed_refuted) returns wrong band fluxes without an error, because its wavelengths are stale. Exceptions inside _update_internal_data cannot happen (refresh_total)."
  }
 ]
}