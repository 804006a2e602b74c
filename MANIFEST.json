{
 "claims": [
  {
   "property": "C01",
   "status": "proved",
   "theorems": [
    "C01_input_names_roundtrip",
    "C01_input_names_distinct",
    "C01_only_table_names_parse",
    "C01_dimension_known_iff_named",
    "C01_output_names_roundtrip",
    "C01_only_output_names_parse",
    "C01_unlisted_name_lost_refuted"
   ],
   "note": ""
  },
  {
   "property": "C02",
   "status": "proved",
   "theorems": [
    "C02_from_cartesian_writes_exactly_dimension",
    "C02_to_cartesian_writes_exactly_six",
    "C02_to_cartesian_reads_only_dimension",
    "C02_from_cartesian_reads_only_six"
   ],
   "note": ""
  },
  {
   "property": "C03",
   "status": "proved",
   "theorems": [
    "C03_same_parametrization_copies",
    "C03_through_cartesian",
    "C03_to_cartesian",
    "C03_no_rule_never_returns",
    "C03_every_other_is_readable"
   ],
   "note": ""
  },
  {
   "property": "C04",
   "status": "proved",
   "theorems": [
    "C04_angular_parametrizations_are_unit",
    "C04_three_parametrizations_refuted"
   ],
   "note": "Real-number model; STEREOGRAPHIC, SCHLICK_VK and COS_TK refuted by witnesses."
  },
  {
   "property": "C05",
   "status": "proved",
   "theorems": [
    "C05_mirrored_about_half_vector"
   ],
   "note": ""
  },
  {
   "property": "C06",
   "status": "proved",
   "theorems": [
    "C06_round_trip_on_domain",
    "C06_half_angles_without_pd",
    "C06_cos_tlr_negated",
    "C06_tl_tv_proj_flips_sign",
    "C06_schlick_proj_flips_sign",
    "C06_retro_flips_sign",
    "C06_neumann3_azimuth_shift",
    "C06_stark3_azimuth_shift",
    "C06_three_parametrizations_refuted"
   ],
   "note": "Exact result of the round trip per parametrization; the wrong ones are characterised (sign flip, azimuth shift) or refuted."
  },
  {
   "property": "C07",
   "status": "proved",
   "theorems": [
    "C07_output_conversion",
    "C07_dirty_destination_refuted"
   ],
   "note": "Averaging adds to the previous content of the destination: exact formula proved, witness refuted."
  },
  {
   "property": "C08",
   "status": "proved",
   "theorems": [
    "C08_hemisphere_cartesian",
    "C08_hemisphere_iff"
   ],
   "note": ""
  },
  {
   "property": "C10",
   "status": "proved",
   "theorems": [
    "C10_first_occurrence_wins",
    "C10_total_without_empty_tokens",
    "C10_undefined_iff",
    "C10_dash_value_dropped",
    "C10_empty_token_in_bracket_refuted"
   ],
   "note": "Grammar of command lines (ArgsSpec.segments) as specification; exact UB condition proved."
  },
  {
   "property": "C11",
   "status": "proved",
   "theorems": [
    "C11_update_is_map_update",
    "C11_undefined_gives_default",
    "C11_constructor_gives_map"
   ],
   "note": ""
  },
  {
   "property": "C12",
   "status": "proved",
   "theorems": [
    "C12_get_cmd_roundtrip",
    "C12_space_in_value_refuted"
   ],
   "note": "Exact lexical condition `writable`; a value with blanks outside brackets is refuted."
  },
  {
   "property": "C13",
   "status": "proved",
   "theorems": [
    "C13_get_vec_splits_at_commas",
    "C13_unbracketed_is_empty",
    "C13_empty_bracket_refuted"
   ],
   "note": "\"[]\" yields one empty element (refuted naive expectation)."
  },
  {
   "property": "C14",
   "status": "proved",
   "theorems": [
    "C14_get_vec_length",
    "C14_get_vec_elements",
    "C14_get_vec_scalar"
   ],
   "note": ""
  },
  {
   "property": "C15",
   "status": "proved",
   "theorems": [
    "C15_header_roundtrip",
    "C15_consumes_only_hash_lines",
    "C15_documented_end_marker_refuted"
   ],
   "note": "The documented end marker '#ALTA HEADER END' does not stop the reader (refuted witness)."
  },
  {
   "property": "C16",
   "status": "proved",
   "theorems": [
    "C16_binary_roundtrip",
    "C16_save_total",
    "C16_hash_payload_is_lost"
   ],
   "note": "Exact condition: first payload byte is not '#'. The bit-level codec and header are modelled; a '#' payload provably never returns the saved buffer."
  },
  {
   "property": "C17",
   "status": "proved",
   "theorems": [
    "C17_truncated_payload_throws",
    "C17_all_payload_missing_refuted"
   ],
   "note": "Exception for every cut strictly inside the payload; a cut exactly after the header is refuted (uninitialised data)."
  },
  {
   "property": "C18",
   "status": "proved",
   "theorems": [
    "C18_rows_in_box_are_kept_in_order",
    "C18_smaller_box_filters",
    "C18_save_then_load",
    "C18_blank_line_refuted",
    "C18_missing_dimensions_abort"
   ],
   "note": "Text<->number conversions of the C++ library are parameters of the model, constrained only by the stated hypotheses; a demo instance meets them. Blank lines read an unset variable (refuted)."
  },
  {
   "property": "C19",
   "status": "proved",
   "theorems": [
    "C19_absolute_tolerance_brackets",
    "C19_scaled_tolerance_brackets_iff_non_negative",
    "C19_intervals_from_file",
    "C19_cosine_correction",
    "C19_cosine_correction_leaves_interval_refuted"
   ],
   "note": "Holds for absolute tolerances; relative/max tolerances exactly for non negative measurements; cosine correction does not scale the bounds (refuted). Intervals given in the file are used for channel 0 only."
  },
  {
   "property": "C20",
   "status": "proved",
   "theorems": [
    "C20_history_of_writes",
    "C20_get_after_set",
    "C20_accepted_writes",
    "C20_rejected_accesses_stop"
   ],
   "note": ""
  },
  {
   "property": "C21",
   "status": "proved",
   "theorems": [
    "C21_min_is_least",
    "C21_max_is_greatest",
    "C21_min_max_ignore_nan",
    "C21_empty",
    "C21_writes_keep_bounds"
   ],
   "note": "Order on bit patterns proved equal to the order of the real values (Flocq). NaNs ignored; empty set gives the inverted box."
  },
  {
   "property": "C22",
   "status": "proved",
   "theorems": [
    "C22_reflexive",
    "C22_symmetric",
    "C22_shape_sensitive",
    "C22_finite_entries",
    "C22_close_entries_are_equal",
    "C22_nan_equals_everything",
    "C22_default_tolerance_refuted"
   ],
   "note": "IEEE subtraction and comparison through SpecFloat/Flocq. Default epsilon pow(1.0,-14) is 1.0 (refuted witness)."
  },
  {
   "property": "C23",
   "status": "proved",
   "theorems": [
    "C23_no_interval_brackets",
    "C23_asymmetrical_returns_stored",
    "C23_symmetrical_bounds_coincide_refuted"
   ],
   "note": "Symmetrical interval: upper bound computed as y - ci, refuted."
  },
  {
   "property": "C24",
   "status": "proved",
   "theorems": [
    "C24_equal_sizes_multiply_componentwise",
    "C24_scalars_broadcast",
    "C24_commutative",
    "C24_size_of_the_larger",
    "C24_incompatible_sizes_are_refused"
   ],
   "note": ""
  },
  {
   "property": "C25",
   "status": "proved",
   "theorems": [
    "C25_elapsed_is_the_sum_of_intervals",
    "C25_reset_is_zero",
    "C25_printed_value_determines_elapsed",
    "C25_printed_hours_refuted",
    "C25_double_start_refuted"
   ],
   "note": "Printed hours divide by 360 (refuted witness); starting a running timer loses time (refuted witness)."
  },
  {
   "property": "C26",
   "status": "proved",
   "theorems": [
    "C26_parameters_are_the_free_slots",
    "C26_set_then_get",
    "C26_get_then_set",
    "C26_short_vector_is_refused"
   ],
   "note": "Leaves are arbitrary plugin functions that respect the sizes they announce."
  },
  {
   "property": "C27",
   "status": "proved",
   "theorems": [
    "C27_jacobian_is_the_derivative",
    "C27_broadcast_product_refuted"
   ],
   "note": "For equal output dimensions. A broadcast product has a value but its Jacobian aborts (refuted witness)."
  },
  {
   "property": "C28",
   "status": "proved",
   "theorems": [
    "C28_common_parametrization",
    "C28_input_parametrization",
    "C28_incompatible_outputs_are_refused",
    "C28_empty_compound_is_refused",
    "C28_product",
    "C28_unknown_is_neutral_refuted"
   ],
   "note": "Exact result for every list; neutrality of unknown parametrizations after a known one is refuted."
  },
  {
   "property": "C29",
   "status": "proved",
   "theorems": [
    "C29_saved_parameters_are_loaded",
    "C29_file_round_trip",
    "C29_missing_parameters_refuted",
    "C29_other_functions_are_refused",
    "C29_partial_loads",
    "C29_whole_files"
   ],
   "note": "Text<->number conversions are parameters constrained by 'prints'; values come back as printed (10 digits). Plugins that override load/save_call are not covered."
  },
  {
   "property": "C30",
   "status": "proved",
   "theorems": [
    "C30_l2_distance",
    "C30_linf_distance",
    "C30_linf_is_least_bound",
    "C30_distances_compare",
    "C30_distances_defined",
    "C30_linf_mismatch_refuted",
    "C30_l2_of_empty_data_refuted"
   ],
   "note": ""
  },
  {
   "property": "C31",
   "status": "proved",
   "theorems": [
    "C31_every_monomial_once",
    "C31_graded_order",
    "C31_degree_blocks"
   ],
   "note": "All dimensions > 0 (the code does nothing for 0). Machine integers are modelled as unbounded."
  },
  {
   "property": "C32",
   "status": "proved",
   "theorems": [
    "C32_update_preserves_the_quotient",
    "C32_update_again",
    "C32_scaling",
    "C32_copy",
    "C32_growing_update_refuted",
    "C32_numerator_and_denominator_refuted",
    "C32_channels",
    "C32_missing_channel_refuted"
   ],
   "note": "Real arithmetic; rounding is not modelled. Violations are exact refuted theorems."
  },
  {
   "property": "C33",
   "status": "proved",
   "theorems": [
    "C33_save_then_load",
    "C33_loaded_function_is_the_same",
    "C33_existing_channels_keep_their_domain_refuted"
   ],
   "note": "Number printing and reading are parameters satisfying the round trip hypothesis 'prints', which an instance meets."
  },
  {
   "property": "C34",
   "status": "proved",
   "theorems": [
    "C34_basis_is_chebyshev",
    "C34_chebyshev_polynomials",
    "C34_value"
   ],
   "note": "Real arithmetic."
  },
  {
   "property": "C35",
   "status": "proved",
   "theorems": [
    "C35_basis_is_legendre",
    "C35_legendre_polynomials",
    "C35_value",
    "C35_cosine_weighted_value",
    "C35_channels"
   ],
   "note": "Real arithmetic; integrals are Coquelicot's is_RInt."
  },
  {
   "property": "C36",
   "status": "proved",
   "theorems": [
    "C36_search_path"
   ],
   "note": "getenv and the installation directory are parameters."
  },
  {
   "property": "C37",
   "status": "proved",
   "theorems": [
    "C37_first_provider_wins",
    "C37_posix_dlerror_refuted",
    "C37_data_and_fitters_by_name"
   ],
   "note": "The dynamic loader is a parameter; both dlerror() semantics are covered."
  },
  {
   "property": "C38",
   "status": "proved",
   "theorems": [
    "C38_library_names",
    "C38_suffix_without_dot_refuted"
   ],
   "note": "Linux branch of the source."
  },
  {
   "property": "C40",
   "status": "proved",
   "theorems": [
    "C40_value_is_defined",
    "C40_outside_is_black",
    "C40_azimuth_symmetry"
   ],
   "note": "Real arithmetic (no NaN)."
  },
  {
   "property": "C41",
   "status": "proved",
   "theorems": [
    "C41_samples",
    "C41_value_at_sample",
    "C41_cells",
    "C41_set"
   ],
   "note": "Real arithmetic."
  },
  {
   "property": "C42",
   "status": "proved",
   "theorems": [
    "C42_file_round_trip",
    "C42_header_check",
    "C42_truncated_file_refuted",
    "C42_wrong_dimensions_refuted"
   ],
   "note": "Byte-level model; truncated files and wrong dimensions are refuted witnesses."
  },
  {
   "property": "C43",
   "status": "proved",
   "theorems": [
    "C43_every_direction_has_a_cell",
    "C43_value",
    "C43_within_measurements",
    "C43_samples",
    "C43_set",
    "C43_outside",
    "C43_negative_elevation_refuted",
    "C43_grazing_refuted",
    "C43_load",
    "C43_save_then_load_refuted"
   ],
   "note": "Real arithmetic (the code mixes float and double weights); EXR files not modelled."
  },
  {
   "property": "C44",
   "status": "proved",
   "theorems": [
    "C44_index_bijection",
    "C44_every_point_located",
    "C44_value",
    "C44_interior_value",
    "C44_within_bounds",
    "C44_exact_on_affine",
    "C44_value_at_node",
    "C44_upper_corner_refuted",
    "C44_set",
    "C44_construction",
    "C44_resolution",
    "C44_missing_arguments_refuted"
   ],
   "note": "Real arithmetic. Points outside the domain and grids of one node per dimension are not covered. The violation at the upper ends is characterised exactly."
  },
  {
   "property": "C45",
   "status": "proved",
   "theorems": [
    "C45_construction",
    "C45_parametrization",
    "C45_samples",
    "C45_positions",
    "C45_set",
    "C45_value_at_sample",
    "C45_value_in_pixel",
    "C45_edges_refuted",
    "C45_projected_lower_bound_refuted"
   ],
   "note": "Real arithmetic; EXR reading and writing not modelled. Violations at the edges are stated exactly."
  },
  {
   "property": "C46",
   "status": "proved",
   "theorems": [
    "C46_constraints"
   ],
   "note": "Real arithmetic; the least squares matrix that is filled along is not modelled."
  },
  {
   "property": "C47",
   "status": "proved",
   "theorems": [
    "C47_fit_interpolates",
    "C47_failure_means_impossible",
    "C47_always_answers",
    "C47_no_fit_without_margin",
    "C47_more_outputs_refuted"
   ],
   "note": "QuadProg++ is a parameter with an explicit contract (sound, complete, least norm). Over the reals."
  },
  {
   "property": "C48",
   "status": "proved",
   "theorems": [
    "C48_search",
    "C48_options"
   ],
   "note": "Sizes are naturals; the float conversions of the options are not modelled."
  },
  {
   "property": "C49",
   "status": "proved",
   "theorems": [
    "C49_one_round",
    "C49_loop",
    "C49_small_data",
    "C49_last_sample_refuted",
    "C49_undefined_accepted_refuted",
    "C49_exchanged_bounds_refuted"
   ],
   "note": "Includes the refuted parts: the last sample, 0/0 values, exchanged bounds."
  },
  {
   "property": "C50",
   "status": "proved",
   "theorems": [
    "C50_metrics_of_the_errors",
    "C50_metrics_defined",
    "C50_norms_consistent",
    "C50_metrics_vanish_together",
    "C50_mask_semantics",
    "C50_full_mask_refuted",
    "C50_empty_mask_refuted"
   ],
   "note": "Real numbers; checkMaskSize counts the dropped entries, the kept rows are written at their own index."
  },
  {
   "property": "C52",
   "status": "proved",
   "theorems": [
    "C52_blinn_gradient",
    "C52_blinn_value",
    "C52_retroblinn_gradient",
    "C52_plugin_in_a_tree"
   ],
   "note": "Real arithmetic; std::pow with positive base is Rpower."
  },
  {
   "property": "C53",
   "status": "proved",
   "theorems": [
    "C53_schlick_gradient",
    "C53_schlick_value",
    "C53_half_cosine",
    "C53_schlick_range"
   ],
   "note": "Real arithmetic."
  },
  {
   "property": "C54",
   "status": "proved",
   "theorems": [
    "C54_abc_gradient",
    "C54_abc_value",
    "C54_outside_refuted"
   ],
   "note": "Real arithmetic."
  },
  {
   "property": "C55",
   "status": "proved",
   "theorems": [
    "C55_ward_value",
    "C55_ward_ks",
    "C55_ward_roughness",
    "C55_ward_roughness_refuted"
   ],
   "note": "Real arithmetic. The violation (roughness derivatives) is characterised exactly."
  },
  {
   "property": "C56",
   "status": "proved",
   "theorems": [
    "C56_beckmann_value",
    "C56_below_horizon",
    "C56_beckmann_derivatives",
    "C56_retro_value"
   ],
   "note": "Real arithmetic. The violation (roughness derivative) is characterised exactly."
  },
  {
   "property": "C57",
   "status": "proved",
   "theorems": [
    "C57_minimum",
    "C57_weighted_minimum",
    "C57_first_sample_refuted",
    "C57_constant"
   ],
   "note": "Real arithmetic. The violation with cosine weights is stated exactly."
  },
  {
   "property": "C58",
   "status": "proved",
   "theorems": [
    "C58_is_in_finds_the_first_index",
    "C58_clamp"
   ],
   "note": ""
  },
  {
   "property": "C59",
   "status": "proved",
   "theorems": [
    "C59_compound_value_is_the_sum",
    "C59_product_value_is_the_product",
    "C59_unknown_input_refuted"
   ],
   "note": "Composites of UNKNOWN_INPUT read uninitialised memory (refuted witness)."
  },
  {
   "property": "C60",
   "status": "proved",
   "theorems": [
    "C60_terminates",
    "C60_default_is_rational",
    "C60_single_function",
    "C60_compound_of_lobes",
    "C60_fresnel_factor",
    "C60_missing_lobe_refuted",
    "C60_empty_list_refuted"
   ],
   "note": "Plugins are arbitrary providers found through the search path; objects are values."
  },
  {
   "property": "C61",
   "status": "proved",
   "theorems": [
    "C61_check_compatibility",
    "C61_change_param_refuted"
   ],
   "note": "Parametrizations only; the printing of messages is not modelled."
  },
  {
   "property": "C62",
   "status": "proved",
   "theorems": [
    "C62_iteration",
    "C62_best_fit",
    "C62_schedule",
    "C62_step_zero_refuted",
    "C62_ties_refuted"
   ],
   "note": "Iterations are pure up to their critical section (they only share r's immutable domain), so a schedule is an order of critical sections."
  },
  {
   "property": "C63",
   "status": "proved",
   "theorems": [
    "C63_stored",
    "C63_one_sample",
    "C63_several_samples_refuted"
   ],
   "note": "Exact description of the array and refutation for two samples or more."
  },
  {
   "property": "C64",
   "status": "proved",
   "theorems": [
    "C64_minimises_algebraic_error",
    "C64_reproduces_quotients",
    "C64_when_it_fails",
    "C64_chosen_eigenvector",
    "C64_more_outputs_refuted"
   ],
   "note": "SelfAdjointEigenSolver is a parameter with an exactness contract (M = V D V^T, V orthogonal) whenever it reports success; real arithmetic."
  },
  {
   "property": "C65",
   "status": "proved",
   "theorems": [
    "C65_best_numerator",
    "C65_denominator",
    "C65_reproduces_inverses",
    "C65_no_iterations_refuted"
   ],
   "note": "colPivHouseholderQr().solve is a parameter with the contract of returning a minimiser of the residual (a witness solver is constructed and proved); real arithmetic, arbitrary result when the matrix holds infinities."
  },
  {
   "property": "C66",
   "status": "proved",
   "theorems": [
    "C66_lafortune_value",
    "C66_lafortune_gradient",
    "C66_lafortune_jacobian_size",
    "C66_lafortune_parameters",
    "C66_lafortune_start",
    "C66_lobes_identical_refuted"
   ],
   "note": "Real arithmetic; without USE_DIFFUSE, as the code is built."
  },
  {
   "property": "C67",
   "status": "proved",
   "theorems": [
    "C67_gaussian",
    "C67_peak",
    "C67_directions"
   ],
   "note": "Real arithmetic; the moment type is not modelled."
  },
  {
   "property": "C68",
   "status": "proved",
   "theorems": [
    "C68_schlick_shadowing",
    "C68_schlick_fraction",
    "C68_smith_jacobian_refuted",
    "C68_walter_jacobian_refuted",
    "C68_smith_value",
    "C68_walter_value"
   ],
   "note": "Real arithmetic; erf is its integral; float computations of Walter's derivative are real numbers."
  },
  {
   "property": "C69",
   "status": "proved",
   "theorems": [
    "C69_round_trip",
    "C69_sgd_round_trip",
    "C69_start_within_bounds"
   ],
   "note": "Plugins that share the per-channel layout, and SGD; Lafortune is C66."
  },
  {
   "property": "C70",
   "status": "proved",
   "theorems": [
    "C70_sgd_value",
    "C70_sgd_jacobian_refuted",
    "C70_yoo_value_refuted",
    "C70_yoo_jacobian_refuted",
    "C70_yoo_parameters_refuted"
   ],
   "note": "Real arithmetic; the content of uninitialised memory is a parameter."
  },
  {
   "property": "C71",
   "status": "proved",
   "theorems": [
    "C71_retro_schlick_gradient",
    "C71_normalized_unusable_refuted",
    "C71_normalized_jacobian_refuted"
   ],
   "note": "Real arithmetic."
  },
  {
   "property": "C72",
   "status": "proved",
   "theorems": [
    "C72_residual",
    "C72_refuses_outside_bounds",
    "C72_jacobian"
   ],
   "note": "Real arithmetic; solver buffers as lists."
  },
  {
   "property": "C73",
   "status": "proved",
   "theorems": [
    "C73_nlopt_value",
    "C73_nlopt_gradient",
    "C73_ipopt_value",
    "C73_ipopt_gradient"
   ],
   "note": "Real arithmetic."
  },
  {
   "property": "C74",
   "status": "proved",
   "theorems": [
    "C74_block",
    "C74_block_misfit",
    "C74_residual",
    "C74_refuses_outside_bounds",
    "C74_jacobian",
    "C74_log_jacobian_iff",
    "C74_log_jacobian_refuted"
   ],
   "note": "Real arithmetic; a block is the vector built from one sample. The statement contains the defect of --log-fit."
  },
  {
   "property": "C75",
   "status": "proved",
   "theorems": [
    "C75_not_nonlinear",
    "C75_no_parameter",
    "C75_eigen",
    "C75_nlopt",
    "C75_ipopt",
    "C75_ceres"
   ],
   "note": "Solvers are arbitrary adaptive programs asking finitely many evaluations; option parsing (set_parameters) is not part of it."
  },
  {
   "property": "C76",
   "status": "proved",
   "theorems": [
    "C76_target",
    "C76_samples",
    "C76_completes",
    "C76_copy",
    "C76_there_and_back",
    "C76_no_rule_refuted",
    "C76_hidden_refuted"
   ],
   "note": "Real arithmetic; after loading, before saving; output objects of class vertical_segment. The zero samples and the uncopiable parametrizations are part of the statement."
  },
  {
   "property": "C77",
   "status": "proved",
   "theorems": [
    "C77_interpolation",
    "C77_any_schedule",
    "C77_positions_kept",
    "C77_average_refuted"
   ],
   "note": "Real arithmetic; iterations are atomic and run in any order (they touch different samples)."
  },
  {
   "property": "C78",
   "status": "proved",
   "theorems": [
    "C78_export",
    "C78_value_and_difference",
    "C78_export_twice",
    "C78_rms"
   ],
   "note": "Real arithmetic."
  },
  {
   "property": "C79",
   "status": "proved",
   "theorems": [
    "C79_lines",
    "C79_polar"
   ],
   "note": "Real arithmetic; number formatting left out."
  },
  {
   "property": "C80",
   "status": "proved",
   "theorems": [
    "C80_conversion",
    "C80_average_accumulates",
    "C80_average_refuted",
    "C80_statistics",
    "C80_completes",
    "C80_cartesian_only"
   ],
   "note": "Real arithmetic. The accumulation and the restriction to CARTESIAN are part of the statement."
  },
  {
   "property": "C81",
   "status": "proved",
   "theorems": [
    "C81_moments",
    "C81_coordinates_refuted",
    "C81_overflow_refuted",
    "C81_constant_refuted"
   ],
   "note": "Real arithmetic, a division by zero gives no number; number formatting left out. Abnormal ends and overflow are part of the statement."
  },
  {
   "property": "C82",
   "status": "proved",
   "theorems": [
    "C82_distribution",
    "C82_scale_invariant",
    "C82_uniform"
   ],
   "note": "Real arithmetic."
  },
  {
   "property": "C83",
   "status": "proved",
   "theorems": [
    "C83_words",
    "C83_integers",
    "C83_no_list",
    "C83_empty_element_refuted",
    "C83_long_element_refuted"
   ],
   "note": "Byte strings; the operator >> of the element type is a function, given for words and integers (no overflow of int)."
  },
  {
   "property": "C84",
   "status": "proved",
   "theorems": [
    "C84_load",
    "C84_parametrization",
    "C84_order_refuted",
    "C84_short_file_refuted",
    "C84_cut_file_refuted",
    "C84_negative_size"
   ],
   "note": "The lexer of numbers is a parameter with the contract stated in AstmSpec; non termination is the absence of a result for every number of steps. The ways it fails are part of the statement."
  },
  {
   "property": "C85",
   "status": "proved",
   "theorems": [
    "C85_value",
    "C85_within_range",
    "C85_local",
    "C85_affine",
    "C85_near_sample",
    "C85_samples_not_reproduced_refuted",
    "C85_no_samples",
    "C85_arguments"
   ],
   "note": "Real arithmetic; the search library FLANN is any function meeting the contract of RbfSpec (an Example shows it can be met)."
  },
  {
   "property": "C86",
   "status": "proved",
   "theorems": [
    "C86_compiles",
    "C86_explorer"
   ],
   "note": "The subset of GLSL used by the exports is a small specification (Glsl.v: tokens, parser, declarations, types); numbers print as any decimal numeral."
  },
  {
   "property": "C87",
   "status": "proved",
   "theorems": [
    "C87_same_value"
   ],
   "note": "Evaluation over R (no rounding of float); parameters are those read back from the printed text. The condition that both sides are defined excludes 0 to a non-positive power, division by 0 and the degenerate back vector."
  },
  {
   "property": "C88",
   "status": "proved",
   "theorems": [
    "C88_aborts",
    "C88_masking_rejected",
    "C88_yoo_rejected",
    "C88_alone_rejected",
    "C88_compound_factor_rejected"
   ],
   "note": "Conditions are independent sufficient ones (and an exact one for stopping); nested compounds inside compounds are not covered."
  },
  {
   "property": "C89",
   "status": "proved",
   "theorems": [
    "C89_retroblinn",
    "C89_abc",
    "C89_gaussian_retro",
    "C89_retrobeckmann",
    "C89_same_value_refuted"
   ],
   "note": "Real arithmetic; a refuting instance is C89_same_value_refuted."
  },
  {
   "property": "C90",
   "status": "proved",
   "theorems": [
    "C90_saved_plugin_is_loaded"
   ],
   "note": "operator<< and operator>> of a double are parameters: any printing whose text is read back as rnd. Objects are described by the sizes of their vectors; lafortune's _isotropic, which the constructor does not set, is taken to be false."
  },
  {
   "property": "C91",
   "status": "proved",
   "theorems": [
    "C91_retrobeckmann_flag_refuted",
    "C91_retroyoo_refuted",
    "C91_lafortune_exponents_refuted",
    "C91_unsavable_refuted",
    "C91_sgd_files"
   ],
   "note": "Exact effects; retroyoo needs the fact that the text Kr is not read as a number, which is stated as a hypothesis."
  },
  {
   "property": "C92",
   "status": "proved",
   "theorems": [
    "C92_other_plugins_are_refused",
    "C92_lafortune_confusion_refuted"
   ],
   "note": "The exceptions are part of the statement."
  },
  {
   "property": "C93",
   "status": "proved",
   "theorems": [
    "C93_sum_of_plugins",
    "C93_retroyoo_hides_the_rest_refuted"
   ],
   "note": ""
  },
  {
   "property": "C94",
   "status": "proved",
   "theorems": [
    "C94_truncated_file"
   ],
   "note": "For the plugins whose numbers stand right after the first line."
  },
  {
   "property": "C95",
   "status": "proved",
   "theorems": [
    "C95_set",
    "C95_set_wrong_size",
    "C95_get",
    "C95_set_then_get",
    "C95_doubled_refuted",
    "C95_sum",
    "C95_product",
    "C95_none",
    "C95_unchanged"
   ],
   "note": "Objects are cells of a heap of shared pointers; plugin functions are any functions that respect the sizes they announce. Values and parameters over R."
  },
  {
   "property": "C96",
   "status": "proved",
   "theorems": [
    "C96_dictionary",
    "C96_vector_option"
   ],
   "note": "Texts of keys and values are those Python's str gives; printing and atof are parameters."
  },
  {
   "property": "C97",
   "status": "proved",
   "theorems": [
    "C97_get",
    "C97_list",
    "C97_set",
    "C97_add_sub"
   ],
   "note": "pybind11's conversion of indices and exceptions, and Python's iteration protocol, are modelled; over R."
  },
  {
   "property": "C98",
   "status": "proved",
   "theorems": [
    "C98_data2data",
    "C98_average_refuted",
    "C98_intervals_refuted"
   ],
   "note": "The uninitialised array is an arbitrary number; parametrizations with a name."
  },
  {
   "property": "C99",
   "status": "proved",
   "theorems": [
    "C99_brdf2data"
   ],
   "note": "The value function is any function of the position."
  },
  {
   "property": "C100",
   "status": "proved",
   "theorems": [
    "C100_set_then_get",
    "C100_wrong_size",
    "C100_value",
    "C100_new",
    "C100_jacobian",
    "C100_start",
    "C100_start_refused",
    "C100_flag_read",
    "C100_flag_refuted"
   ],
   "note": "Over R. FIT_DIFFUSE and ADAPT_TO_PARAM are not defined, as in the build."
  },
  {
   "property": "C101",
   "status": "proved",
   "theorems": [
    "C101_deterministic",
    "C101_structure",
    "C101_vector",
    "C101_vector_returns",
    "C101_vector_fixed_refuted",
    "C101_each",
    "C101_file_restores",
    "C101_file",
    "C101_failed_load",
    "C101_file_never_returns",
    "C101_missing_file",
    "C101_single_text",
    "C101_single_file_refuted",
    "C101_product_factor_refuted",
    "C101_ignored"
   ],
   "note": "What a plugin does on its own is a function parameter; plugins either pass the option to the base class or ignore it. Functions are loaded with the base class load."
  },
  {
   "property": "C102",
   "status": "proved",
   "theorems": [
    "C102_help",
    "C102_incomplete",
    "C102_only_output",
    "C102_status"
   ],
   "note": "The code called by the programs is any code (a record of functions); terminal output and full disks are left out."
  },
  {
   "property": "C103",
   "status": "proved",
   "theorems": [
    "C103_data2brdf",
    "C103_unwritable_output_refuted",
    "C103_tested_output"
   ],
   "note": "As C102; the file that cannot be opened is the same world with one name refused."
  },
  {
   "property": "C104",
   "status": "proved",
   "theorems": [
    "C104_brdf2brdf",
    "C104_brdf2data",
    "C104_brdf2gnuplot",
    "C104_silent_success_refuted"
   ],
   "note": "As C102. brdf2gnuplot: necessary conditions of a success (it also needs the two distances)."
  },
  {
   "property": "C105",
   "status": "proved",
   "theorems": [
    "C105_data2data",
    "C105_data2moments"
   ],
   "note": "As C102; the loops of the conversions are C76-C80 and C84-C85."
  },
  {
   "property": "C106",
   "status": "proved",
   "theorems": [
    "C106_fit2stat",
    "C106_data2stats",
    "C106_report_lines",
    "C106_weighted_errors_refuted"
   ],
   "note": "As C102; the errors themselves are C50, C78 and C79."
  },
  {
   "property": "C107",
   "status": "proved",
   "theorems": [
    "C107_crashes"
   ],
   "note": "As C102."
  },
  {
   "property": "C108",
   "status": "proved",
   "theorems": [
    "C108_fit_then_read",
    "C108_reexport",
    "C108_reexport_refuted"
   ],
   "note": "Printing and reading of numbers by their contract (prints); objects that are neither rational nor nonlinear are a parameter."
  },
  {
   "property": "C109",
   "status": "proved",
   "theorems": [
    "C109_text",
    "C109_value",
    "C109_unit_domain",
    "C109_same_value_refuted"
   ],
   "note": "Doubles as real numbers, printing by its contract (prints); the C++ reader is part of the specification (Cpp.v)."
  },
  {
   "property": "C110",
   "status": "proved",
   "theorems": [
    "C110_rejected",
    "C110_written"
   ],
   "note": "Necessary conditions for compiling: syntax and declared names (Cpp.well_formed)."
  },
  {
   "property": "C111",
   "status": "proved",
   "theorems": [
    "C111_brace"
   ],
   "note": "Only the braces of the Matlab text are claimed."
  },
  {
   "property": "C112",
   "status": "proved",
   "theorems": [
    "C112_file",
    "C112_in_a_stream",
    "C112_sgd_refuted"
   ],
   "note": "Printing and reading of numbers by their contract (prints); get_function is a parameter (C108 instantiates it); rational functions are never members of a sum or product."
  },
  {
   "property": "C113",
   "status": "proved",
   "theorems": [
    "C113_some_functions",
    "C113_trees",
    "C113_members",
    "C113_files"
   ],
   "note": "Members that stand alone in the sum (not nested); numbers by their contract."
  },
  {
   "property": "C114",
   "status": "proved",
   "theorems": [
    "C114_cuts",
    "C114_whole_lines",
    "C114_inside_a_line_refuted",
    "C114_last_number_refuted"
   ],
   "note": "Printing and reading of numbers by their contract (prints, prefixes_end); cuts inside the header are not covered."
  },
  {
   "property": "C115",
   "status": "proved",
   "theorems": [
    "C115_data2data",
    "C115_copy",
    "C115_brdf2data",
    "C115_brdf2data_again"
   ],
   "note": "Printing and reading of numbers by their contract (prints, reprints); binary files and data plugins are parameters."
  },
  {
   "property": "C116",
   "status": "proved",
   "theorems": [
    "C116_ceres",
    "C116_ceres_gradient_refuted",
    "C116_ceres_no_number",
    "C116_ceres_other_options",
    "C116_nlopt",
    "C116_ipopt",
    "C116_quadprog",
    "C116_quadprog_search",
    "C116_eigen",
    "C116_large_sizes_refuted",
    "C116_same_text_refuted",
    "C116_parallel_small_refuted",
    "C116_integer_options"
   ],
   "note": "std::stod and atof are parameters; float rounding is Flocq's; NaN and infinite texts, and refusals by the solver libraries, left out."
  },
  {
   "property": "C117",
   "status": "proved",
   "theorems": [
    "C117_never_accepted",
    "C117_last_number_refuted",
    "C117_unset_coefficient_refuted"
   ],
   "note": "Printing and reading of numbers by their contract (prints, prefixes_end). Whether a cut before the last number is refused or uses unset numbers is decided exactly only just before the last number; the accepted case needs two or more denominator coefficients in the last channel."
  },
  {
   "property": "C118",
   "status": "proved",
   "theorems": [
    "C118_written_numbers",
    "C118_nearest",
    "C118_error",
    "C118_order",
    "C118_stable",
    "C118_doubles_lost_refuted",
    "C118_seventeen_digits",
    "C118_literals"
   ],
   "note": "The formatting and reading of the C++ library is modelled (DecModel), for finite numbers within the range of doubles; infinities, NaN, overflow and the sign of zero are left out."
  },
  {
   "property": "C119",
   "status": "proved",
   "theorems": [
    "C119_text_data",
    "C119_functions",
    "C119_rational_functions",
    "C119_function_changed_refuted"
   ],
   "note": "Instances of C18, C29 and C33 with the number texts of C118 in place of a contract."
  },
  {
   "property": "C120",
   "status": "proved",
   "theorems": [
    "C120_result",
    "C120_every_moment",
    "C120_ends",
    "C120_one_thread",
    "C120_any_count"
   ],
   "note": "The accesses of an iteration are interleaved entry by entry; ++stats_incorrect is a load and a store. C++ calls this unsynchronised increment undefined behaviour: the theorems are about compiled code that performs the accesses of the text in order."
  },
  {
   "property": "C121",
   "status": "proved",
   "theorems": [
    "C121_loop",
    "C121_ends",
    "C121_search",
    "C121_schedules"
   ],
   "note": "Strengthens C62, where the iterations were executed one after the other in any order. Critical sections are atomic; the contents of r that the iterations read are read one by one."
  },
  {
   "property": "C122",
   "status": "proved",
   "theorems": [
    "C122_coordinates",
    "C122_plugins",
    "C122_fresnel",
    "C122_mirrored",
    "C122_lafortune",
    "C122_sgd",
    "C122_trees",
    "C122_plugin_in_a_tree",
    "C122_sgd_refuted",
    "C122_smith_refuted",
    "C122_retrobeckmann_refuted"
   ],
   "note": "Real arithmetic. The theorem for plugins compares outcomes, so it covers the directions for which the conversion aborts. The normalized Schlick factor is included although its constructor leaves the reflectance empty (C71). The two directions are exchanged as six numbers."
  },
  {
   "property": "C123",
   "status": "proved",
   "theorems": [
    "C123_lobes",
    "C123_lafortune",
    "C123_peaks",
    "C123_retro_fresnel",
    "C123_smith",
    "C123_smith_below_refuted",
    "C123_walter",
    "C123_walter_refuted"
   ],
   "note": "Real arithmetic. Parameters on the boundary where a formula divides by zero are excluded (proper). Smith's bound needs the tail of the Gauss integral, proved in RecGauss.v, and 14 digits of pi, because the plugin's constants are rounded. For Walter's term directions along the normal are excluded, where the code divides by zero."
  },
  {
   "property": "C124",
   "status": "proved",
   "theorems": [
    "C124_history",
    "C124_value",
    "C124_missing_channel",
    "C124_missing_channel_file",
    "C124_late_bounds",
    "C124_reload",
    "C124_reload_after_late_bounds_refuted",
    "C124_copy"
   ],
   "note": "Real arithmetic. Updates through get(i) are to existing channels with the sizes they were made for (growing updates are C32_growing_update_refuted). What setSize and clear leak is not represented. The file theorems need every channel that exists to have been given a denominator whose first coefficient exceeds 1e-16."
  },
  {
   "property": "C125",
   "status": "proved",
   "theorems": [
    "C125_stream_refuted",
    "C125_standard_output"
   ],
   "note": "Nothing else writes to the standard output at the same time. Refuted for streams other than the standard output."
  },
  {
   "property": "C126",
   "status": "proved",
   "theorems": [
    "C126_merl_cut",
    "C126_merl_cut_in_header_refuted",
    "C126_merl_samples",
    "C126_utia_cut",
    "C126_whole_or_absent",
    "C126_utia_longer",
    "C126_utia_refuted"
   ],
   "note": "Bytes exactly; values of MERL samples over the reals. Only the raw (not EXR) format of UTIA. Refuted: a cut header (MERL) is undefined behaviour and a cut UTIA table depends on uninitialised memory."
  },
  {
   "property": "C127",
   "status": "proved",
   "theorems": [
    "C127_fit",
    "C127_search",
    "C127_sizes",
    "C127_sizes_refuted",
    "C127_options",
    "C127_empty_ranges_refuted",
    "C127_not_accepted",
    "C127_session",
    "C127_error",
    "C127_error_in_new_session",
    "C127_error_refuted",
    "C127_unfinished_refuted",
    "C127_qpas_refuted"
   ],
   "note": "Real arithmetic. The solvers of Matlab are parameters with explicit contracts; matrices always reach the session; the changes of directory around qpas are left out. Refuted: stale answers after an error, answers of iteration limit, errors of qpas, sizes beyond the maximum."
  },
  {
   "property": "C128",
   "status": "proved",
   "theorems": [
    "C128_quadprog",
    "C128_eigen",
    "C128_matlab",
    "C128_leastsquare",
    "C128_ceres",
    "C128_ceres_caught_or_not",
    "C128_ceres_caught",
    "C128_ceres_exception_refuted",
    "C128_with_arguments",
    "C128_ceres_refuted",
    "C128_without_arguments",
    "C128_unset_refuted",
    "C128_others",
    "C128_others_python"
   ],
   "note": "Settings only; conversions of texts are parameters; an exception thrown by set_parameters ends the history, except in the theorems about Ceres with exceptions caught. Refuted: options of earlier fits in Ceres, sizes that were never set."
  },
  {
   "property": "C129",
   "status": "proved",
   "theorems": [
    "C129_classes",
    "C129_item",
    "C129_for",
    "C129_list_refuted",
    "C129_range",
    "C129_set_outside",
    "C129_setitem",
    "C129_set_get",
    "C129_set_segment",
    "C129_set_grid"
   ],
   "note": "Python's legacy iteration (only IndexError ends it) and pybind11's conversion of int are modelled. Refuted: list(d)."
  },
  {
   "property": "C130",
   "status": "proved",
   "theorems": [
    "C130_load_function",
    "C130_header_ignored",
    "C130_save_then_load",
    "C130_other_plugin_refuted",
    "C130_no_header_refuted",
    "C130_silent",
    "C130_load_function_refuted",
    "C130_rational"
   ],
   "note": "Over the function objects of C108; pybind11's argument conversion as in its documentation. Refuted: load_function of a file saved from Python, checks of header and plugin by f.load."
  }
 ]
}