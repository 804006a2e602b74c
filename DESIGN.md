# Design: a Rocq model of belcour/alta

## Method

The code in /repo is read as text and transcribed, function by function, into
small total Gallina functions. Each area of the code has up to four kinds of
files in `rocq/theories`:

* `<Area>Model.v`  – the transcription; every definition cites file and lines;
* `<Area>Spec.v` – the small independent specification the properties are phrased
  in (formulas, relations, "what the user sees");
* `<Area>Proofs.v` and similar – lemmas about the transcription;
* `Props<Area>.v`  – only the property theorems, each closed by a lemma or a
  short proof, with `Print Assumptions` beneath and `Example`s showing that the hypotheses
  are met by a concrete case.

Theorem names start with the property id. `_refuted` marks a proved
counterexample (the unchanged code violates the naive property),
`_partial` a theorem weaker than the property.

## Conventions of the model

* C++ outcomes: `Ok a | Throw | Abort | UB` (exception, failed assert / exit,
  undefined behaviour). Asserts are modelled as enabled unless said otherwise.
* `int`/`size_t` are unbounded unless the property is about wrap-around.
* Strings and files are `list ascii`; `std::map` is a sorted association list;
  an `istream` is the remaining bytes plus its state flags.
* Doubles: in binary I/O a double is its 64-bit word; where IEEE comparison
  matters it is the standard library's `SpecFloat`; in geometry, Jacobians and
  interpolation it is a real number (no rounding, no NaN) – this is the main
  idealisation and is repeated at each definition.
* Plugins, the dynamic loader, the file system and external solvers are
  parameters of the modelled functions.


* A bare `throw;` without an active exception (the NOT_IMPLEMENTED macro) is
  `Abort` (std::terminate); so are Eigen's index assertions. Reading an
  uninitialised object is `UB`, or yields an arbitrary number, a parameter named
  `junk` over which every theorem quantifies.
* External conversions and solvers (atof, number printing, QuadProg++, Eigen's
  eigenvalue and least squares solvers) are function parameters. A theorem that
  needs something of them has the contract as an explicit hypothesis, and an
  `Example` exhibits an instance that meets it.

A property the code violates is stated with its exact condition: the theorem
characterises when it holds and a `_refuted` theorem shows a violation.

## Plan per property: what is modelled, how it is proved

| id | files | modelled | proof |
|----|-------|----------|-------|
| C01 | Params*, Geo* | enumerators, name table, parse_input/output, get_name, dimension | case analysis, string equality |
| C02-C06, C08 | Params*, Geo* | params.cpp conversions over R | trigonometric identities, inverse trig lemmas |
| C07 | Params* | output conversion on buffers | induction on the channels |
| C10-C15 | Args* | args.h parsers on token lists / byte streams | induction |
| C16, C17 | Data*, Double | data_storage.cpp binary writer and reader on bytes | codec round trip, prefix argument |
| C18, C19 | Text* | text loader filter, confidence intervals | induction, case analysis over R |
| C20, C21 | Data*, Text* | vertical_segment buffer | index arithmetic, fold invariants |
| C22 | Data* | data::equals over SpecFloat (Flocq lemmas) | case analysis of IEEE classes |
| C23 | Data* | parameters and headers | codec |
| C24, C25, C58 | Common* | common.h: vector product, timer, is_in, clamp | lists; state machine with 32-bit wrap |
| C26-C29, C59 | Func*, FuncFile* | function.cpp trees, bootstrap and file format | structural induction; derivative rules; token streams |
| C30 | Dist* | distances over R | fold lemmas |
| C31-C33 | Mono*, Rat* | rational_function.cpp | graded enumeration bijection; algebra; tokens |
| C34, C35 | Basis* | Legendre / Chebyshev plugins | recurrences; integrals (Coquelicot) |
| C36-C38, C60, C61 | Plug* | plugins_manager.cpp | list splitting; first-match search; compatibility tables |
| C40-C42 | Merl* | data_merl | integer division; codec |
| C43-C45 | Utia*, Grid*, Slice* | data_utia, data_grid, data_brdf_slice | mixed radix; convexity |
| C46-C49, C62, C63 | Quad* | rational_fitter_quadprog, quadprog_parallel | permutation; algebra; loop invariants; all orders of critical sections |
| C50 | Metrics* | metrics of data2stats | inequalities over R |
| C52-C57, C66-C71 | Nl* | nonlinear function plugins | a generic loop lemma, then derivatives (Coquelicot's auto_derive) |
| C72-C75 | Fit* | nonlinear_fitter_{eigen,nlopt,ipopt,ceres} around an arbitrary solver | loop invariants, sums and derivatives; induction on the solver's interaction tree |
| C76-C80 | Conv* | the programs data2data, brdf2data, brdf2gnuplot and fit2stat between loading and saving | loop invariants row by row, frame lemmas of the conversions (C02), round trips (C06); all permutations of the parallel loop |
| C81-C82 | Mom* | the program data2moments after loading | mixed radix decomposition of the sample number, exchange of sums; Cauchy-Schwarz by non negative quadratics |
| C83 | Astm* | get_vec<T> of args.h | induction on the elements |
| C84 | Astm* | the ASTM loader | induction on header and body lines; non termination as no result for any fuel |
| C85 | Rbf* | the rbf interpolant around any neighbour search | weighted sums over R |
| C86-C89 | Glsl* | shader and explorer export of function trees | a GLSL subset (lexer, parser, types, evaluation) as specification; the generated text parses to a known syntax tree by induction on the tree, then typing and evaluation; bracket and semicolon counting for rejected texts |
| C90-C94 | Pf* | load and save_call (ALTA format) of the nineteen nonlinear plugin variants, and sums of them | tables of positions read and written per plugin; one lemma for reading back a list of label/number lines into memory cells, then coverage of the cells per plugin; induction on the lobes (lafortune) and on the list of functions (sums) |
| C95-C99 | Py* | the Python interface: function objects as a heap of shared cells, options from dictionaries, vec, data2data, brdf2data | set as a sequence of writes to the leaves, in order (induction over the heap); invariants of all histories of a script; the last write wins; frame lemma for expansion; rows as for C76-C80 |
| C100 | Laf* | the Lafortune function: members, parameters, value, Jacobian, starting point, for both values of the flag | loop invariants on flat indices (strides 3 and 4); derivative of a power of a linear form (Coquelicot); minimum by induction on the samples; a loop with a write past the end aborts |
| C101 | Boot* | bootstrap of trees of functions with a vector, a file or nothing; the loop that skips a header may not end | fuel, with monotonicity; boots/never_boots; structure kept by induction on the fuel; loading lemmas of C29; invariant of the header loop |
| C102 | Tool* | the eight main functions over a disk; everything they call is a record of functions | symbolic execution of every path (tactic `paths`) |
| C103 | Tool* | the same; the world with one file name refused | equivalence of success with the conditions on each call, both directions |
| C104 | Tool* | the same | the same |
| C105 | Tool* | the same | the same |
| C106 | Tool* | the same; the text of the reports | the same; lines of a text |
| C107 | Tool* | the same, in worlds that do not crash | every path of every program |
| C108 | Tool* | the same with the function files of C29 and C33 and the objects of C38, C60 | header and body lemmas of C29 and C33 on the file written; get_function depends on four options only |
| C109 | Cpp* | the text of save_call, a reader for the C++ subset it uses (lexer and parser of C86, evaluator over R) | lexing and parsing lemmas by induction over terms and factors; the value by induction over the coefficients; normalisation inverted by `stretch` |
| C110 | Cpp* | the same for trees | invariants of the parser over all token lists: uses of undeclared names, repeated declarations, `= ;`, parentheses |
| C111 | Cpp* | the Matlab text | counting braces by induction over the tree |
| C112 | Pt* | files of trees of plugins | structural induction over the tree with the stream invariant of C90 (blank lines before, rest after), the shader lines skipped |
| C113 | Pt* | loading part of a sum | induction over the selection |
| C114 | Cut* | cuts of the file that save_text writes | case analysis of the cut by induction over lines and numbers, then the loader on whole lines followed by a piece |
| C115 | Td* | data2data and brdf2data in the file-system world of C102-C105 with the text loader, text saver and sample loops of the library plugged in | the programs' success conditions (C104, C105) composed with the text round trip, C76 and C78 |
| C116 | Opt* | how each fitting plugin turns options into solver settings | case analysis over the options; exactness of float rounding on whole numbers by Flocq |
| C117 | Rcut* | cuts of the text that save_rf writes | each reader on a text that stops inside what it reads: it fails and leaves the stream failed, or continues on a cut; induction over coefficients and channels |
| C118 | Dec*, PropsDec | printf-like formatting (general, scientific) and operator>> on real numbers; Flocq's rounding to P decimal digits and to doubles | digits of the rounded number and their value; every prefix of a number text; relative errors (Flocq), midpoints for the re-reading |
| C119 | Dec*, PropsDec | the file models of C18, C29, C33 with the number texts of C118 | the contracts of the file theorems are discharged; error bounds of decimal and binary rounding are added up |
| C120 | Par*, PropsPar | the parallel loop of data2data as a small-step machine: entries are read and written one by one, the counter is loaded and stored | invariant of every iteration and of the counter (ghost set of stores); rank for termination; explicit schedules for every count |
| C121 | Qpar*, PropsPar | the parallel loop as a small-step machine over the shared function, counters and best distances; any list of iteration numbers is a schedule | invariant with the order of the critical sections as a ghost; the interleaved search equals the search of C62 in that order |
| C122 | Rec*, PropsRec | exchanging the six numbers given to the conversions and values | the geometry each plugin looks at is the same or its factors are exchanged; induction over trees; explicit directions for the refuted ones |
| C123 | Rec*, PropsRec | the values of the plugins as real numbers | sign and monotonicity arguments; the Gauss integral and Mills' bound for Smith's term; a quadratic for Walter's |
| C124 | Rhist*, PropsRhist | the object as a state, the calls as transitions, get and the files as in RatModel | a specification read from the past alone (last bounds, first request since the last drop); representation invariant by induction over the calls |
| C125 | RhistModel, RhistProofs4, PropsRhist | the pieces of text written by the two operators with their destinations | injectivity of the bracketed lists; induction over the channels |
| C126 | MerlModel, UtiaModel, CutTab*, PropsCutTab | the bytes of the files and of uninitialised memory | bytes of numbers as little endian words; the split of a word at any byte |
| C127 | MatModel, MatSpec, MatProofs..4, PropsMat | the session as three variables that a failing statement leaves unchanged; the constraints as in QuadModel | feasibility of the rows is strict interpolation; induction over channels, sizes and the history of the session; witnesses for the refuted parts |
| C128 | MemoModel, MemoSpec, MemoProofs, MemoProofs2, MemoProofs3, PropsMemo | a fitter object as a state machine over set_parameters and fit_data, with the settings of OptModel; Python fits as pairs of calls | induction over the history, from its end; counterexamples for the refuted parts |
| C129 | SeqModel, SeqSpec, SeqProofs, PropsSeq | indexing as conversion to int and the get of each class; a loop as calls with 0, 1, 2, ... that only IndexError ends; assignment as conversion to int and the set of each class | one lemma per class about its samples and one about assignment outside of them, then induction over the loop for any sequence |
| C130 | PyFileModel, PyFileProofs, PropsPyFile | load_from_file over the object files of C108 and the stream after parse_header | the header loop does not depend on what it collects and any sufficient fuel agrees; then the loaders' lemmas of C29 and C33 |
| C64, C65 | Lsq* | rational_fitters/eigen.cpp, leastsquare.cpp | spectral argument, normal equations |

Not expressible here: performance, floating-point rounding of transcendental
functions, thread scheduling inside external solvers, the dynamic loader itself.

## Trusted base

1. Coq 8.16.1's kernel (and `coqc`, the OCaml runtime and hardware under it). No
   check is switched off, there are no axioms, functors, module types, plugins or
   `Admitted` of our own.
2. The axioms `Print Assumptions` lists, all from Coq's standard library:
   `ClassicalDedekindReals.sig_forall_dec`, `ClassicalDedekindReals.sig_not_dec`
   and `FunctionalExtensionality.functional_extensionality_dep` (the standard
   library's real numbers), `Classical_Prop.classic` (classical lemmas of the
   standard library's Reals and of Coquelicot). One `Example`
   (`PropsQuad.complete_solver`, an existence witness and not a claim) uses
   `ClassicalEpsilon.constructive_indefinite_description`. Flocq and Coquelicot
   are used as libraries; they add no axioms.
3. The transcription: that the Gallina definitions say what the cited C++ lines
   do. Every definition cites them and states its simplifications.
4. The specifications (`*Spec.v`) and theorem statements.

### What Print Assumptions lists for each theorem

Generated from the compiled files.

<!-- ASSUMPTIONS -->
Key: F = `ClassicalDedekindReals.sig_forall_dec`, N = `ClassicalDedekindReals.sig_not_dec`, E = `FunctionalExtensionality.functional_extensionality_dep`, C = `Classical_Prop.classic`; `-` = "Closed under the global context".

* **-** (140 theorems): `C01_input_names_roundtrip`, `C01_input_names_distinct`, `C01_only_table_names_parse`, `C01_dimension_known_iff_named`, `C01_output_names_roundtrip`, `C01_only_output_names_parse`, `C01_unlisted_name_lost_refuted`, `C10_first_occurrence_wins`, `C10_total_without_empty_tokens`, `C10_undefined_iff`, `C10_dash_value_dropped`, `C10_empty_token_in_bracket_refuted`, `C11_update_is_map_update`, `C11_undefined_gives_default`, `C11_constructor_gives_map`, `C12_get_cmd_roundtrip`, `C12_space_in_value_refuted`, `C13_get_vec_splits_at_commas`, `C13_unbracketed_is_empty`, `C13_empty_bracket_refuted`, `C14_get_vec_length`, `C14_get_vec_elements`, `C14_get_vec_scalar`, `C15_header_roundtrip`, `C15_consumes_only_hash_lines`, `C15_documented_end_marker_refuted`, `C16_binary_roundtrip`, `C16_save_total`, `C16_hash_payload_is_lost`, `C17_truncated_payload_throws`, `C17_all_payload_missing_refuted`, `C20_history_of_writes`, `C20_get_after_set`, `C20_accepted_writes`, `C20_rejected_accesses_stop`, `C21_min_max_ignore_nan`, `C21_empty`, `C21_writes_keep_bounds`, `C22_reflexive`, `C22_symmetric`, `C22_shape_sensitive`, `C22_nan_equals_everything`, `C23_asymmetrical_returns_stored`, `C23_symmetrical_bounds_coincide_refuted`, `C24_equal_sizes_multiply_componentwise`, `C24_scalars_broadcast`, `C24_commutative`, `C24_size_of_the_larger`, `C24_incompatible_sizes_are_refused`, `C25_elapsed_is_the_sum_of_intervals`, `C25_reset_is_zero`, `C25_printed_value_determines_elapsed`, `C25_printed_hours_refuted`, `C25_double_start_refuted`, `C26_set_then_get`, `C26_get_then_set`, `C26_short_vector_is_refused`, `C28_common_parametrization`, `C28_input_parametrization`, `C28_incompatible_outputs_are_refused`, `C28_empty_compound_is_refused`, `C28_product`, `C28_unknown_is_neutral_refuted`, `C30_l2_of_empty_data_refuted`, `C31_every_monomial_once`, `C31_graded_order`, `C31_degree_blocks`, `C36_search_path`, `C37_first_provider_wins`, `C37_posix_dlerror_refuted`, `C37_data_and_fitters_by_name`, `C38_library_names`, `C38_suffix_without_dot_refuted`, `C42_file_round_trip`, `C42_header_check`, `C42_truncated_file_refuted`, `C42_wrong_dimensions_refuted`, `C43_load`, `C43_save_then_load_refuted`, `C44_index_bijection`, `C48_options`, `C49_small_data`, `C58_is_in_finds_the_first_index`, `C60_terminates`, `C60_default_is_rational`, `C60_single_function`, `C60_compound_of_lobes`, `C60_fresnel_factor`, `C60_missing_lobe_refuted`, `C60_empty_list_refuted`, `C61_check_compatibility`, `C61_change_param_refuted`, `C83_words`, `C83_integers`, `C83_no_list`, `C83_empty_element_refuted`, `C83_long_element_refuted`, `C84_parametrization`, `C84_order_refuted`, `C95_set`, `C95_set_wrong_size`, `C95_get`, `C95_set_then_get`, `C95_doubled_refuted`, `C95_none`, `C96_dictionary`, `C96_vector_option`, `C100_wrong_size`, `C103_data2brdf`, `C104_brdf2brdf`, `C104_brdf2data`, `C105_data2data`, `C105_data2moments`, `C106_fit2stat`, `C106_data2stats`, `C106_report_lines`, `C106_weighted_errors_refuted`, `C112_sgd_refuted`, `C114_cuts`, `C116_ipopt`, `C116_integer_options`, `C125_stream_refuted`, `C125_standard_output`, `C126_merl_cut`, `C126_merl_cut_in_header_refuted`, `C126_utia_cut`, `C126_whole_or_absent`, `C126_utia_longer`, `C126_utia_refuted`, `C127_sizes`, `C127_sizes_refuted`, `C127_not_accepted`, `C128_leastsquare`, `C129_item`, `C129_for`, `C129_list_refuted`, `C129_range`, `C129_setitem`, `C129_set_segment`, `C129_set_grid`
* **CEFN** (211 theorems): `C02_from_cartesian_writes_exactly_dimension`, `C02_to_cartesian_writes_exactly_six`, `C02_to_cartesian_reads_only_dimension`, `C02_from_cartesian_reads_only_six`, `C03_same_parametrization_copies`, `C03_through_cartesian`, `C03_to_cartesian`, `C03_no_rule_never_returns`, `C03_every_other_is_readable`, `C04_angular_parametrizations_are_unit`, `C04_three_parametrizations_refuted`, `C05_mirrored_about_half_vector`, `C06_round_trip_on_domain`, `C06_half_angles_without_pd`, `C06_cos_tlr_negated`, `C06_tl_tv_proj_flips_sign`, `C06_schlick_proj_flips_sign`, `C06_retro_flips_sign`, `C06_neumann3_azimuth_shift`, `C06_stark3_azimuth_shift`, `C06_three_parametrizations_refuted`, `C08_hemisphere_iff`, `C18_rows_in_box_are_kept_in_order`, `C18_smaller_box_filters`, `C18_save_then_load`, `C18_blank_line_refuted`, `C18_missing_dimensions_abort`, `C19_absolute_tolerance_brackets`, `C19_scaled_tolerance_brackets_iff_non_negative`, `C19_intervals_from_file`, `C19_cosine_correction`, `C19_cosine_correction_leaves_interval_refuted`, `C21_min_is_least`, `C21_max_is_greatest`, `C22_finite_entries`, `C22_close_entries_are_equal`, `C23_no_interval_brackets`, `C27_jacobian_is_the_derivative`, `C27_broadcast_product_refuted`, `C30_l2_distance`, `C30_linf_distance`, `C30_linf_is_least_bound`, `C30_distances_compare`, `C30_distances_defined`, `C30_linf_mismatch_refuted`, `C34_basis_is_chebyshev`, `C34_value`, `C35_legendre_polynomials`, `C35_cosine_weighted_value`, `C50_metrics_of_the_errors`, `C50_metrics_defined`, `C50_mask_semantics`, `C50_full_mask_refuted`, `C50_empty_mask_refuted`, `C52_blinn_gradient`, `C52_blinn_value`, `C52_retroblinn_gradient`, `C53_schlick_gradient`, `C53_schlick_value`, `C53_schlick_range`, `C54_abc_gradient`, `C54_abc_value`, `C54_outside_refuted`, `C55_ward_value`, `C55_ward_ks`, `C55_ward_roughness`, `C55_ward_roughness_refuted`, `C56_beckmann_value`, `C56_below_horizon`, `C56_beckmann_derivatives`, `C56_retro_value`, `C57_minimum`, `C57_weighted_minimum`, `C57_first_sample_refuted`, `C59_compound_value_is_the_sum`, `C59_product_value_is_the_product`, `C59_unknown_input_refuted`, `C66_lafortune_value`, `C66_lafortune_gradient`, `C66_lafortune_jacobian_size`, `C66_lobes_identical_refuted`, `C67_gaussian`, `C67_peak`, `C67_directions`, `C68_schlick_shadowing`, `C68_smith_jacobian_refuted`, `C69_start_within_bounds`, `C70_sgd_value`, `C70_sgd_jacobian_refuted`, `C70_yoo_jacobian_refuted`, `C71_retro_schlick_gradient`, `C71_normalized_unusable_refuted`, `C71_normalized_jacobian_refuted`, `C72_residual`, `C72_refuses_outside_bounds`, `C72_jacobian`, `C73_nlopt_value`, `C73_nlopt_gradient`, `C73_ipopt_value`, `C73_ipopt_gradient`, `C74_block`, `C74_block_misfit`, `C74_residual`, `C74_refuses_outside_bounds`, `C74_jacobian`, `C74_log_jacobian_iff`, `C74_log_jacobian_refuted`, `C75_not_nonlinear`, `C75_no_parameter`, `C75_eigen`, `C75_nlopt`, `C75_ipopt`, `C75_ceres`, `C76_target`, `C76_samples`, `C76_completes`, `C76_copy`, `C76_there_and_back`, `C76_no_rule_refuted`, `C76_hidden_refuted`, `C77_interpolation`, `C77_any_schedule`, `C77_positions_kept`, `C77_average_refuted`, `C78_export`, `C78_value_and_difference`, `C78_export_twice`, `C78_rms`, `C79_lines`, `C79_polar`, `C80_conversion`, `C80_average_accumulates`, `C80_average_refuted`, `C80_statistics`, `C80_completes`, `C80_cartesian_only`, `C87_same_value`, `C89_retroblinn`, `C89_abc`, `C89_gaussian_retro`, `C89_retrobeckmann`, `C89_same_value_refuted`, `C95_sum`, `C95_product`, `C95_unchanged`, `C98_data2data`, `C98_average_refuted`, `C98_intervals_refuted`, `C99_brdf2data`, `C100_value`, `C100_new`, `C100_jacobian`, `C100_flag_read`, `C100_flag_refuted`, `C109_text`, `C109_value`, `C109_unit_domain`, `C109_same_value_refuted`, `C114_whole_lines`, `C114_inside_a_line_refuted`, `C114_last_number_refuted`, `C115_data2data`, `C115_copy`, `C115_brdf2data`, `C115_brdf2data_again`, `C116_quadprog`, `C116_quadprog_search`, `C116_eigen`, `C116_large_sizes_refuted`, `C116_same_text_refuted`, `C118_written_numbers`, `C118_nearest`, `C118_error`, `C118_order`, `C118_stable`, `C118_doubles_lost_refuted`, `C118_seventeen_digits`, `C118_literals`, `C119_text_data`, `C119_functions`, `C119_rational_functions`, `C119_function_changed_refuted`, `C120_result`, `C120_every_moment`, `C120_ends`, `C120_one_thread`, `C120_any_count`, `C122_coordinates`, `C122_plugins`, `C122_fresnel`, `C122_mirrored`, `C122_lafortune`, `C122_sgd`, `C122_trees`, `C122_plugin_in_a_tree`, `C122_sgd_refuted`, `C122_smith_refuted`, `C122_retrobeckmann_refuted`, `C123_lobes`, `C123_lafortune`, `C123_peaks`, `C123_retro_fresnel`, `C123_smith`, `C123_smith_below_refuted`, `C127_options`, `C128_quadprog`, `C128_eigen`, `C128_matlab`, `C128_with_arguments`, `C128_without_arguments`, `C128_unset_refuted`
* **EF** (93 theorems): `C07_output_conversion`, `C07_dirty_destination_refuted`, `C08_hemisphere_cartesian`, `C22_default_tolerance_refuted`, `C32_update_preserves_the_quotient`, `C32_update_again`, `C32_scaling`, `C32_copy`, `C32_growing_update_refuted`, `C32_numerator_and_denominator_refuted`, `C32_channels`, `C32_missing_channel_refuted`, `C33_save_then_load`, `C33_loaded_function_is_the_same`, `C33_existing_channels_keep_their_domain_refuted`, `C35_basis_is_legendre`, `C35_value`, `C35_channels`, `C44_every_point_located`, `C44_value`, `C44_interior_value`, `C44_within_bounds`, `C44_exact_on_affine`, `C44_value_at_node`, `C44_upper_corner_refuted`, `C44_set`, `C49_one_round`, `C49_undefined_accepted_refuted`, `C49_exchanged_bounds_refuted`, `C52_plugin_in_a_tree`, `C58_clamp`, `C62_ties_refuted`, `C64_minimises_algebraic_error`, `C64_when_it_fails`, `C64_chosen_eigenvector`, `C64_more_outputs_refuted`, `C65_best_numerator`, `C65_denominator`, `C65_reproduces_inverses`, `C65_no_iterations_refuted`, `C68_schlick_fraction`, `C81_moments`, `C81_coordinates_refuted`, `C81_overflow_refuted`, `C81_constant_refuted`, `C82_distribution`, `C82_scale_invariant`, `C82_uniform`, `C85_value`, `C85_within_range`, `C85_local`, `C85_affine`, `C85_near_sample`, `C85_samples_not_reproduced_refuted`, `C85_no_samples`, `C85_arguments`, `C97_add_sub`, `C108_fit_then_read`, `C108_reexport`, `C108_reexport_refuted`, `C116_ceres`, `C116_ceres_gradient_refuted`, `C116_ceres_no_number`, `C116_ceres_other_options`, `C116_nlopt`, `C117_never_accepted`, `C117_last_number_refuted`, `C117_unset_coefficient_refuted`, `C124_history`, `C124_value`, `C124_missing_channel`, `C124_missing_channel_file`, `C124_late_bounds`, `C124_reload`, `C124_reload_after_late_bounds_refuted`, `C124_copy`, `C127_session`, `C128_ceres`, `C128_ceres_caught_or_not`, `C128_ceres_caught`, `C128_ceres_exception_refuted`, `C128_ceres_refuted`, `C128_others`, `C128_others_python`, `C130_load_function`, `C130_header_ignored`, `C130_save_then_load`, `C130_other_plugin_refuted`, `C130_no_header_refuted`, `C130_silent`, `C130_load_function_refuted`, `C130_rational`, `C129_set_outside`
* **EFN** (80 theorems): `C34_chebyshev_polynomials`, `C40_value_is_defined`, `C40_outside_is_black`, `C40_azimuth_symmetry`, `C41_samples`, `C41_value_at_sample`, `C41_cells`, `C41_set`, `C43_every_direction_has_a_cell`, `C43_value`, `C43_within_measurements`, `C43_samples`, `C43_set`, `C43_outside`, `C43_negative_elevation_refuted`, `C43_grazing_refuted`, `C44_construction`, `C44_resolution`, `C44_missing_arguments_refuted`, `C45_construction`, `C45_parametrization`, `C45_samples`, `C45_positions`, `C45_set`, `C45_value_at_sample`, `C45_value_in_pixel`, `C45_edges_refuted`, `C45_projected_lower_bound_refuted`, `C46_constraints`, `C47_fit_interpolates`, `C47_failure_means_impossible`, `C47_always_answers`, `C47_no_fit_without_margin`, `C47_more_outputs_refuted`, `C48_search`, `C49_loop`, `C49_last_sample_refuted`, `C50_norms_consistent`, `C50_metrics_vanish_together`, `C53_half_cosine`, `C62_iteration`, `C62_best_fit`, `C62_schedule`, `C62_step_zero_refuted`, `C64_reproduces_quotients`, `C68_walter_jacobian_refuted`, `C68_smith_value`, `C68_walter_value`, `C70_yoo_value_refuted`, `C70_yoo_parameters_refuted`, `C86_compiles`, `C86_explorer`, `C88_aborts`, `C88_masking_rejected`, `C88_yoo_rejected`, `C88_alone_rejected`, `C88_compound_factor_rejected`, `C100_start`, `C100_start_refused`, `C110_rejected`, `C110_written`, `C111_brace`, `C116_parallel_small_refuted`, `C121_loop`, `C121_ends`, `C121_search`, `C121_schedules`, `C123_walter`, `C123_walter_refuted`, `C126_merl_samples`, `C127_fit`, `C127_search`, `C127_empty_ranges_refuted`, `C127_error`, `C127_error_in_new_session`, `C127_error_refuted`, `C127_unfinished_refuted`, `C127_qpas_refuted`, `C129_classes`, `C129_set_get`
* **F** (64 theorems): `C26_parameters_are_the_free_slots`, `C29_saved_parameters_are_loaded`, `C29_file_round_trip`, `C29_missing_parameters_refuted`, `C29_other_functions_are_refused`, `C29_partial_loads`, `C29_whole_files`, `C57_constant`, `C63_stored`, `C63_one_sample`, `C63_several_samples_refuted`, `C66_lafortune_parameters`, `C66_lafortune_start`, `C69_round_trip`, `C69_sgd_round_trip`, `C84_load`, `C84_short_file_refuted`, `C84_cut_file_refuted`, `C84_negative_size`, `C90_saved_plugin_is_loaded`, `C91_retrobeckmann_flag_refuted`, `C91_retroyoo_refuted`, `C91_lafortune_exponents_refuted`, `C91_unsavable_refuted`, `C91_sgd_files`, `C92_other_plugins_are_refused`, `C92_lafortune_confusion_refuted`, `C93_sum_of_plugins`, `C93_retroyoo_hides_the_rest_refuted`, `C94_truncated_file`, `C97_get`, `C97_list`, `C97_set`, `C100_set_then_get`, `C101_deterministic`, `C101_structure`, `C101_vector`, `C101_vector_returns`, `C101_vector_fixed_refuted`, `C101_each`, `C101_file_restores`, `C101_file`, `C101_failed_load`, `C101_file_never_returns`, `C101_missing_file`, `C101_single_text`, `C101_single_file_refuted`, `C101_product_factor_refuted`, `C101_ignored`, `C102_help`, `C102_incomplete`, `C102_only_output`, `C102_status`, `C103_unwritable_output_refuted`, `C103_tested_output`, `C104_brdf2gnuplot`, `C104_silent_success_refuted`, `C107_crashes`, `C112_file`, `C112_in_a_stream`, `C113_some_functions`, `C113_trees`, `C113_members`, `C113_files`
<!-- END ASSUMPTIONS -->

## Modelled and not modelled

Modelled (each definition cites its lines):

| source | model | idealisations |
|--------|-------|---------------|
| core/args.h | ArgsModel.v | bytes as `ascii`; atof/atoi/stod as parameters |
| core/params.{h,cpp} | ParamsModel.v, GeoModel.v | real numbers, buffers do not overlap |
| core/common.{h,cpp} | CommonModel.v | timers with explicit clock readings |
| core/data_storage.cpp | DataModel.v (binary), TextModel.v (text) | stream state machine; number lexing/printing as parameters |
| core/vertical_segment.{h,cpp} | DataModel.v | one buffer of 64-bit words, or of reals |
| core/function.{h,cpp} | FuncModel.v, DistModel.v, FuncFile.v | real numbers; every function object occurs once in a tree |
| core/rational_function.{h,cpp} | MonoModel.v, RatModel.v | unbounded integers, real numbers |
| number texts written and read by the streams (data_storage.cpp:285, function.cpp:68, rational_function.cpp:683) | DecModel.v | reals instead of doubles in memory; no overflow, infinity, NaN or sign of zero; std::scientific stays set for the functions written after a rational one in the same file, which is not modelled |
| the shared memory of the OpenMP loops (data2data/main.cpp:234-270, quadprog_parallel.cpp:148-255) | ParModel.v, QparModel.v | sequentially consistent accesses in the order of the text; d_in->value and fit_data touch no shared variable; iterations instead of threads (all assignments of iterations to threads are included) |
| core/plugins_manager.cpp | PlugModel.v | Linux branches; loader, environment and file system as parameters |
| core/metrics.cpp | MetricsModel.v | real numbers |
| plugins/rational_fitter_matlab/ | MatModel.v | the engine session is a parameter; real numbers |
| python/wrapper_data.h, python/alta.cpp (fits, load, save) | SeqModel.v, MemoModel.v, PyModel.v, PyFileModel.v | Python's iteration protocol and pybind11's int conversion as in their documentation |
| plugins/rational_function_{chebychev,legendre,cosine} | BasisModel.v | real numbers |
| plugins/data_io/{merl,slice,utia}.cpp | MerlModel.v, SliceModel.v, UtiaModel.v | real numbers for evaluation; MERL files byte by byte; EXR I/O left out |
| plugins/data_interpolants/grid.cpp | GridModel.v | real numbers |
| plugins/rational_fitters/{quadprog,quadprog_parallel,eigen,leastsquare}.cpp, quadratic_program.h | QuadModel.v, LsqModel.v | solvers as parameters with contracts; threads as orders of critical sections |
| plugins/nonlinear_* functions, Fresnel and shadowing factors | NlModel.v, NlMoreModel.v | real numbers; std::pow with positive base as Rpower |
| plugins/nonlinear_fitter_{eigen,nlopt,ipopt,ceres}/fitter.cpp | FitModel.v | real numbers; a solver is any finite sequence of questions depending on the answers; CompoundFunctor and option parsing left out |
| softs/{data2data,brdf2data,brdf2gnuplot,fit2stat} | ConvModel.v | real numbers; loading, saving and console output left out |
| softs/data2moments | MomModel.v | real numbers, division by zero kept apart; int overflow of the number of samples is undefined behaviour |
| core/args.h get_vec<T>, plugins/data_io/astm.cpp | AstmModel.v | byte strings, number lexer a parameter; a cell that is not read stays uninitialised (None) |
| plugins/data_interpolants/rbf.cpp | RbfModel.v | real numbers; FLANN a parameter with a contract |
| core/function.cpp function::save and save_call/save_body of compound, product and the plugins (shader, explorer) | GlslModel.v | operator<< of a double is any function printing a decimal numeral |
| plugins/nonlinear_*/function.cpp load and save_call without --export | PfModel.v | conversions of doubles are parameters; vectors as lists; lafortune's uninitialised _isotropic taken false |
| python/alta.cpp (functions, data2data, brdf2data), wrapper_args.h, wrapper_vec.h | PyModel.v | pybind11 as argument conversion; data access and load_data from Python are the C++ ones and are not modelled again |
| plugins/nonlinear_function_lafortune | LafModel.v | real numbers; the members the constructor leaves uninitialised are arguments of the construction |
| core/function.cpp: bootstrap | BootModel.v | a plugin passes the option to the base class or ignores it (`obeys`), its own start is a parameter; the position a failed load leaves is restored after the function started, which cannot be observed |
| softs/*: main | ToolModel.v, ToolFiles.v | everything the programs call is a parameter (record `world`), refined by ToolFiles.v for function files; terminal output, timers and full disks left out; what a class that is neither rational nor nonlinear saves and loads is a parameter |
| core/function.cpp: save for C++ and matlab; core/rational_function.cpp: save_body for C++ and matlab, save_call | CppModel.v | text only; the reader Cpp.v (C++ subset) is specification; `precision` of the stream is inside `print` |
| core/function.cpp: compound_function and product_function load, save_body, save_call for the ALTA format over nonlinear plugins; the Lafortune save_body | PtModel.v | get_function a parameter |
| core/plugins_manager.cpp load_data for vertical_segment, core/vertical_segment.cpp constructor and get, composed with data_storage.cpp and the program loops | TdModel.v | binary files a parameter |
| set_parameters and the reading of options in fit_data of the ceres, nlopt, ipopt, quadprog, eigen, leastsquare and quadprog_parallel plugins | OptModel.v | stod, atof parameters |

Not modelled: messages printed to the console; EXR images; Windows branches;
core/clustering.*; the CGAL, DCA and Parsec fitters;
the Moment type of the spherical Gaussian; floating-point rounding
outside the binary codec and `data::equals`.

## Testing the theorems

`seeded/LOG.jsonl` records the edits of the model made in a scratch copy (one
line each: definition, edit, claim broken, theorems that failed, theorems
tightened as a consequence).
