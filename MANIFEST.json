{
 "claims": [
  {
   "property": "C01",
   "status": "proved",
   "theorems": [
    "C01_qubit_counts"
   ],
   "note": ""
  },
  {
   "property": "C02",
   "status": "proved",
   "theorems": [
    "C02_indices_except",
    "C02_index_bijection"
   ],
   "note": ""
  },
  {
   "property": "C03",
   "status": "proved",
   "theorems": [
    "C03_three_colouring"
   ],
   "note": ""
  },
  {
   "property": "C04",
   "status": "proved",
   "theorems": [
    "C04_perfect_matching"
   ],
   "note": ""
  },
  {
   "property": "C05",
   "status": "proved",
   "theorems": [
    "C05_bipartite",
    "C05_edge_canonical"
   ],
   "note": ""
  },
  {
   "property": "C06",
   "status": "proved",
   "theorems": [
    "C06_edges_around_hex",
    "C06_hex_neighbourhood",
    "C06_one_hex_per_category"
   ],
   "note": ""
  },
  {
   "property": "C07",
   "status": "proved",
   "theorems": [
    "C07_checks_commute_with_stabilizers",
    "C07_stabilizers_commute",
    "C07_stabilizer_is_product_of_checks"
   ],
   "note": ""
  },
  {
   "property": "C08",
   "status": "proved",
   "theorems": [
    "C08_observable_commutes"
   ],
   "note": ""
  },
  {
   "property": "C09",
   "status": "proved",
   "theorems": [
    "C09_observable_qubits",
    "C09_observable_moves_by_checks",
    "C09_period_six",
    "C09_observable_accepted"
   ],
   "note": ""
  },
  {
   "property": "C10",
   "status": "proved",
   "theorems": [
    "C10_two_logical_qubits"
   ],
   "note": ""
  },
  {
   "property": "C11",
   "status": "proved",
   "theorems": [
    "C11_layout_validation",
    "C11_nonpositive_accepted_refuted",
    "C11_noise_model_dispatch"
   ],
   "note": "Also shown: non-positive sizes pass validation."
  },
  {
   "property": "C12",
   "status": "proved",
   "theorems": [
    "C12_tracker_computes_parities"
   ],
   "note": ""
  },
  {
   "property": "C13",
   "status": "proved",
   "theorems": [
    "C13_record_targets_valid",
    "C13_time_counts_measurements",
    "C13_relative_to_earlier_time"
   ],
   "note": ""
  },
  {
   "property": "C14",
   "status": "proved",
   "theorems": [
    "C14_key_order_irrelevant",
    "C14_success_in_any_order",
    "C14_repeated_key_cancels",
    "C14_failures_depend_on_order"
   ],
   "note": ""
  },
  {
   "property": "C15",
   "status": "proved",
   "theorems": [
    "C15_prev_is_j_entries_back",
    "C15_too_far_back_raises",
    "C15_nested_prev_adds",
    "C15_prev_zero_is_latest",
    "C15_negative_offset",
    "C15_negative_beyond"
   ],
   "note": "Offsets from the latest entry (zero or more) and negative offsets; C15_negative_example shows a negative offset silently answering with the oldest entry."
  },
  {
   "property": "C16",
   "status": "proved",
   "theorems": [
    "C16_accepts_exactly_supported",
    "C16_negative_sub_rounds_refuted",
    "C16_generator_accepts_exactly_supported"
   ],
   "note": "For sub_rounds >= 0, for the circuit before noise and for the complete generator; also refuted: negative sub_rounds are accepted."
  },
  {
   "property": "C17",
   "status": "proved",
   "theorems": [
    "C17_loops_unroll"
   ],
   "note": ""
  },
  {
   "property": "C18",
   "status": "proved",
   "theorems": [
    "C18_detectors_deterministic"
   ],
   "note": "Pauli-frame semantics of the flattened circuit."
  },
  {
   "property": "C19",
   "status": "proved",
   "theorems": [
    "C19_observable_deterministic"
   ],
   "note": ""
  },
  {
   "property": "C20",
   "status": "proved",
   "theorems": [
    "C20_styles_measure_schedule"
   ],
   "note": ""
  },
  {
   "property": "C21",
   "status": "proved",
   "theorems": [
    "C21_each_qubit_once_per_moment"
   ],
   "note": ""
  },
  {
   "property": "C22",
   "status": "proved",
   "theorems": [
    "C22_counts",
    "C22_observables"
   ],
   "note": ""
  },
  {
   "property": "C23",
   "status": "proved",
   "theorems": [
    "C23_bulk_detectors"
   ],
   "note": ""
  },
  {
   "property": "C24",
   "status": "proved",
   "theorems": [
    "C24_single_errors_graphlike"
   ],
   "note": ""
  },
  {
   "property": "C25",
   "status": "proved",
   "theorems": [
    "C25_distance",
    "C25_attained"
   ],
   "note": ""
  },
  {
   "property": "C26",
   "status": "proved",
   "theorems": [
    "C26_noise_only_adds_noise",
    "C26_any_model"
   ],
   "note": "Models without correlated parity errors (EM3_v2 is treated in C30)."
  },
  {
   "property": "C27",
   "status": "proved",
   "theorems": [
    "C27_generated",
    "C27_zero_noise"
   ],
   "note": "C27_zero_noise is for circuits whose REPEAT blocks run at least twice, as stim stores them; C27_generated shows that every generated circuit is one and states the whole-generator version."
  },
  {
   "property": "C28",
   "status": "proved",
   "theorems": [
    "C28_noise_once",
    "C28_generated_circuits"
   ],
   "note": "For arbitrary circuits and models (cut at TICKs and REPEAT boundaries) and, per moment of the executed circuit, for every generated circuit."
  },
  {
   "property": "C29",
   "status": "proved",
   "theorems": [
    "C29_strengths",
    "C29_supported_accepted",
    "C29_unsupported_rejected"
   ],
   "note": "Strength table of the named models, acceptance and rejection."
  },
  {
   "property": "C30",
   "status": "proved",
   "theorems": [
    "C30_record_kept",
    "C30_honeycomb_record_kept"
   ],
   "note": "EM3_v2 substitution simulated both ways in the Pauli-frame semantics (record, detectors, observables, frame on the circuit qubits), for every circuit whose ancillas are fresh, and instantiated for the generated circuits."
  },
  {
   "property": "C31",
   "status": "proved",
   "theorems": [
    "C31_mixing_channel",
    "C31_errors_emitted"
   ],
   "note": "Over the reals (floating point rounding not modelled): component probabilities give the full mixing channel for every p in [0,1] and n >= 1; the 31 emitted errors are exactly the non-identity elements."
  },
  {
   "property": "C32",
   "status": "proved",
   "theorems": [
    "C32_ancilla_fresh_refuted",
    "C32_honeycomb_ancilla_fresh"
   ],
   "note": "False in general: a loop body that does not mention the highest qubit makes the ancilla collide (C32_ancilla_fresh_refuted shows a deterministic detector broken); true for every generated honeycomb circuit."
  },
  {
   "property": "C33",
   "status": "proved",
   "theorems": [
    "C33_flatten",
    "C33_events"
   ],
   "note": "For every handler state machine (also raising ones); instructions with more than 100 arguments (impossible in stim, which allows 16) are excluded by hypothesis."
  },
  {
   "property": "C34",
   "status": "proved",
   "theorems": [
    "C34_edge_probability",
    "C34_order_irrelevant",
    "C34_rejected"
   ],
   "note": "Exact rationals, probabilities in [0,1); a certain error first on its pair raises ValueError (C34_certain_error)."
  },
  {
   "property": "C35",
   "status": "proved",
   "theorems": [
    "C35_last_wins",
    "C35_keeps_first_refuted"
   ],
   "note": "False of the code (C35_keeps_first_refuted); what the code does instead is C35_last_wins."
  },
  {
   "property": "C36",
   "status": "proved",
   "theorems": [
    "C36_pymatching_graph",
    "C36_nodes",
    "C36_observables"
   ],
   "note": ""
  },
  {
   "property": "C37",
   "status": "proved",
   "theorems": [
    "C37_counts",
    "C37_unknown_decoder",
    "C37_shape",
    "C37_pymatching_input",
    "C37_answer_length"
   ],
   "note": ""
  },
  {
   "property": "C38",
   "status": "proved",
   "theorems": [
    "C38_shots_file",
    "C38_predictions_read",
    "C38_predictions_accepted",
    "C38_other_shapes_rejected_refuted",
    "C38_internal_decoder",
    "C38_binary_missing"
   ],
   "note": "Both directions; the stronger reading that trailing content is rejected too is refuted."
  },
  {
   "property": "C39",
   "status": "proved",
   "theorems": [
    "C39_budget",
    "C39_terminates",
    "C39_completes",
    "C39_stopping"
   ],
   "note": "Batches never exceed the limits when min_shots <= max_shots; C39_limits_out_of_order shows what happens otherwise, and the undocumented third stop rule (48% errors after 10) is part of the specification."
  },
  {
   "property": "C40",
   "status": "proved",
   "theorems": [
    "C40_min_shots",
    "C40_min_shots_refuted"
   ],
   "note": "False of the code when max_batch < min_shots (C40_min_shots_refuted); C40_min_shots is the true part."
  },
  {
   "property": "C41",
   "status": "proved",
   "theorems": [
    "C41_read_back"
   ],
   "note": "For text fields without commas, quotes and line breaks, and a float printer that round-trips."
  },
  {
   "property": "C42",
   "status": "proved",
   "theorems": [
    "C42_resume",
    "C42_files",
    "C42_crash_points",
    "C42_empty_file_refuted",
    "C42_any_columns",
    "C42_bad_numbers"
   ],
   "note": "Every crash point of every sampler-call sequence, any number of resumed runs; refuted for the empty file left by a crash before the header is written."
  },
  {
   "property": "C43",
   "status": "proved",
   "theorems": [
    "C43_grouped_by",
    "C43_merged_by",
    "C43_filter",
    "C43_rate"
   ],
   "note": "For data sets with distinct problems (dicts) and key equality that decides equality."
  },
  {
   "property": "C44",
   "status": "proved",
   "theorems": [
    "C44_remaining_work",
    "C44_remaining_time",
    "C44_no_data"
   ],
   "note": ""
  },
  {
   "property": "C45",
   "status": "proved",
   "theorems": [
    "C45_with_changes",
    "C45_identity",
    "C45_forget_noise"
   ],
   "note": ""
  },
  {
   "property": "C46",
   "status": "proved",
   "theorems": [
    "C46_closest",
    "C46_steps"
   ],
   "note": "For functions into the extended reals; also the number of steps is logarithmic."
  },
  {
   "property": "C47",
   "status": "proved",
   "theorems": [
    "C47_sound",
    "C47_terminates",
    "C47_eventually_crossed"
   ],
   "note": "Exact real arithmetic. Termination needs a crossing at one of the doubled steps, which follows from staying across the target beyond some distance."
  },
  {
   "property": "C48",
   "status": "proved",
   "theorems": [
    "C48_inverse",
    "C48_above_half",
    "C48_even_pieces_refuted",
    "C48_monotone",
    "C48_rejected"
   ],
   "note": "Exact reals. For rates above 1/2 and an even number of pieces the composition gives 1 - e (C48_even_pieces_refuted)."
  },
  {
   "property": "C49",
   "status": "proved",
   "theorems": [
    "C49_log_binomial",
    "C49_impossible",
    "C49_ratio",
    "C49_clipped",
    "C49_log_factorial",
    "C49_log_binomial_any"
   ],
   "note": "Exact below 20 samples; for every n the impossible outcomes and all likelihood ratios are exact, and the value is within 1/120 of the truth (Stirling bounds proved in Stirling.v)."
  },
  {
   "property": "C50",
   "status": "proved",
   "theorems": [
    "C50_bounds",
    "C50_rejected"
   ],
   "note": "For every positive ratio (also above 1), every n; closest point of the grid with step 1/(100 n)."
  },
  {
   "property": "C51",
   "status": "proved",
   "theorems": [
    "C51_fit_optimal",
    "C51_output_range",
    "C51_slope_range"
   ],
   "note": "Assuming an optimiser that is exact on quadratics (shown to exist); linregress modelled by its closed form."
  },
  {
   "property": "C52",
   "status": "proved",
   "theorems": [
    "C52_distinct_from",
    "C52_distinct",
    "C52_accepted",
    "C52_settings",
    "C52_selected",
    "C52_files"
   ],
   "note": "The honeycomb and surface-code tables as enumerated in main_collect_all, for every list of sizes and noises (C52_distinct_from) and the tables in the file."
  },
  {
   "property": "C53",
   "status": "proved",
   "theorems": [
    "C53_honeycomb",
    "C53_surface",
    "C53_refused",
    "C53_other_shapes_refuted"
   ],
   "note": "Honeycomb 4u x 6u family and surface-code families. For a representative outside the family the rounding in _d_to_q can miss a whole number (C53_other_shapes_refuted)."
  },
  {
   "property": "C54",
   "status": "proved",
   "theorems": [
    "C54_inverse",
    "C54_refused"
   ],
   "note": "Exact reals; refused exactly when the slope is zero."
  },
  {
   "property": "C55",
   "status": "proved",
   "theorems": [
    "C55_groups",
    "C55_low_confidence"
   ],
   "note": "For every list of entries, including the rejected ones."
  },
  {
   "property": "C56",
   "status": "proved",
   "theorems": [
    "C56_iterates",
    "C56_iterates_blocks",
    "C56_products",
    "C56_text",
    "C56_text_refused"
   ],
   "note": "The three expected pictures of circuit_diagrams_test.py are reproduced by the model (GoldenDiagrams.v)."
  },
  {
   "property": "C57",
   "status": "proved",
   "theorems": [
    "C57_label_numbers",
    "C57_legend_label_refuted",
    "C57_legend_label_fails_exactly_with_noise"
   ],
   "note": "The property is false of the code; the refutation and the exact failure condition are proved."
  },
  {
   "property": "C58",
   "status": "proved",
   "theorems": [
    "C58_detection_fraction"
   ],
   "note": ""
  },
  {
   "property": "C59",
   "status": "proved",
   "theorems": [
    "C59_aggregate"
   ],
   "note": "Descriptions are compared as tuples (lexicographic order given as a linear order on fields)."
  },
  {
   "property": "C60",
   "status": "proved",
   "theorems": [
    "C60_points",
    "C60_warnings"
   ],
   "note": "Exact reals; per-cell rates by the C48 inverse."
  },
  {
   "property": "C61",
   "status": "proved",
   "theorems": [
    "C61_lambda_range"
   ],
   "note": "Assuming an optimiser exact on quadratics."
  },
  {
   "property": "C62",
   "status": "proved",
   "theorems": [
    "C62_suppressing",
    "C62_required",
    "C62_range"
   ],
   "note": "Honeycomb 4u x 6u family; range under an optimiser exact on quadratics."
  },
  {
   "property": "C63",
   "status": "proved",
   "theorems": [
    "C63_picture",
    "C63_double_lines",
    "C63_crossings"
   ],
   "note": "Whole non-negative coordinates."
  },
  {
   "property": "C64",
   "status": "proved",
   "theorems": [
    "C64_levels",
    "C64_plot",
    "C64_accepted",
    "C64_long_products"
   ],
   "note": "Operations known to plot_circuit; coordinates whole after its doubling of y."
  },
  {
   "property": "C65",
   "status": "proved",
   "theorems": [
    "C65_picture",
    "C65_block",
    "C65_noisy",
    "C65_noisy_ancilla"
   ],
   "note": "C65_picture and C65_block describe the pictures of ideal circuits; C65_noisy carries them over to the noisy circuits; C65_noisy_ancilla: noisy EM3_v2 circuits cannot be drawn (KeyError)."
  },
  {
   "property": "C66",
   "status": "proved",
   "theorems": [
    "C66_logical_class",
    "C66_harmless_iff",
    "C66_sixteen_classes"
   ],
   "note": ""
  },
  {
   "property": "C67",
   "status": "proved",
   "theorems": [
    "C67_flip_horizontal",
    "C67_flip_vertical",
    "C67_flip_horizontal_attained"
   ],
   "note": ""
  },
  {
   "property": "C68",
   "status": "proved",
   "theorems": [
    "C68_curves"
   ],
   "note": "Exact reals; floats of the noise axis are any linear order with decidable equality."
  },
  {
   "property": "C69",
   "status": "proved",
   "theorems": [
    "C69_told_apart"
   ],
   "note": ""
  },
  {
   "property": "C70",
   "status": "proved",
   "theorems": [
    "C70_tick",
    "C70_axes"
   ],
   "note": "Ticks are exact rationals."
  },
  {
   "property": "C71",
   "status": "proved",
   "theorems": [
    "C71_panels",
    "C71_every_problem",
    "C71_drawn",
    "C71_legend",
    "C71_legend_texts",
    "C71_legend_refuted"
   ],
   "note": "C71_legend_refuted: when one panel lacks a size, the legend (taken from two panels) names the wrong size for a colour in it."
  },
  {
   "property": "C72",
   "status": "proved",
   "theorems": [
    "C72_detection",
    "C72_sixteen",
    "C72_legend",
    "C72_legend_refuted"
   ],
   "note": "C72_legend_refuted: the legend comes from the honeycomb_EM3 panel, a style that no problem of the tables has."
  },
  {
   "property": "C73",
   "status": "proved",
   "theorems": [
    "C73_every_problem",
    "C73_teraquop",
    "C73_lambda",
    "C73_lambda_marks_refuted"
   ],
   "note": "C73_lambda_marks_refuted: have_any_poor is never set in plot_lambda_combo, so low-confidence points are not marked."
  },
  {
   "property": "C74",
   "status": "proved",
   "theorems": [
    "C74_line_fits",
    "C74_every_problem"
   ],
   "note": ""
  },
  {
   "property": "C75",
   "status": "proved",
   "theorems": [
    "C75_double_epr_deterministic",
    "C75_test_circuit"
   ],
   "note": "The construction of the test file for every EM3 layout; the file itself uses 4x6 data qubits and 100 sub-rounds (Pauli-frame semantics as in C19)."
  },
  {
   "property": "C76",
   "status": "proved",
   "theorems": [
    "C76_error_effect",
    "C76_logical_operators",
    "C76_harmless_iff_unchanged"
   ],
   "note": "As C75; harmless = product of checks and stabilizers (C66)."
  },
  {
   "property": "C77",
   "status": "proved",
   "theorems": [
    "C77_noise_placement"
   ],
   "note": ""
  },
  {
   "property": "C78",
   "status": "proved",
   "theorems": [
    "C78_single_fault_detected",
    "C78_width_two_refuted"
   ],
   "note": "Errors are Pauli frames on the stabilizer circuit (as in C19); the probability of an error is not modelled, only which errors an instruction can cause. Several errors at once are outside this claim. Width 2 is refuted."
  },
  {
   "property": "C79",
   "status": "proved",
   "theorems": [
    "C79_at_most_two",
    "C79_observable_side",
    "C79_two_refuted",
    "C79_decomposes"
   ],
   "note": "Which side a detector is on is read off its time coordinate (watches in FaultSpec.v). The EM3_v2 bound of four is attained (C79_two_refuted); C79_decomposes splits those errors in two."
  },
  {
   "property": "C80",
   "status": "proved",
   "theorems": [
    "C80_coordinates_distinct"
   ],
   "note": ""
  },
  {
   "property": "C81",
   "status": "proved",
   "theorems": [
    "C81_observable_side",
    "C81_errors_detected",
    "C81_correctable",
    "C81_half_distance_refuted",
    "C81_half_distance_reached",
    "C81_half_code_distance_reached",
    "C81_half_distance_reached_correlated",
    "C81_half_code_distance_reached_correlated"
   ],
   "note": "An error is anything FaultSpec.fault_of lists for its instruction; errors_of allows any number of them per instruction. Random choices of the noise itself (probabilities) are not modelled. C81_half_distance_refuted: width six, three errors, nothing goes off. C81_half_distance_reached and _correlated: in the styles EM3 and EM3_v2 with at least two sub-rounds the bound is exact for every patch; for the other styles exactness is not claimed (C82 gives the exact number for errors on single data qubits)."
  },
  {
   "property": "C82",
   "status": "proved",
   "theorems": [
    "C82_one_data_qubit",
    "C82_gate_styles",
    "C82_gate_correctable",
    "C82_code_distance",
    "C82_code_distance_correctable",
    "C82_observable_distance",
    "C82_observable_distance_reached",
    "C82_smaller_distance",
    "C82_code_distance_reached",
    "C82_gate_distance_refuted"
   ],
   "note": "data_error: a Pauli on at most one data qubit and no other qubit; one_data allows measurement qubits and wrong results too. C82_gate_styles: every error of SD6, PC3, SI1000 counts. C82_observable_distance is the bound for the protected observable, C82_observable_distance_reached and C82_code_distance_reached show it is exact for every circuit with positive noise. C82_example shows three noticed errors and four unnoticed ones at distance four. C82_gate_distance_refuted: in SD6, SI1000 and PC3 three errors on a data qubit and its measurement qubit go unnoticed on a 4x6 patch of code distance four, so code_distance_1qdep does not bound all errors there and data_height/2 cannot be raised; that the number is reached for every height is not claimed."
  },
  {
   "property": "C83",
   "status": "proved",
   "theorems": [
    "C83_noticed",
    "C83_unnoticed",
    "C83_exactly"
   ],
   "note": "Errors are those of FaultSpec.fault_of, so a wrong result is also considered for the noise-free parity measurements; those lie outside the sub-rounds in question. Pauli errors need noise > 0, as C83_unnoticed assumes."
  },
  {
   "property": "C84",
   "status": "proved",
   "theorems": [
    "C84_built",
    "C84_no_conflict",
    "C84_correction",
    "C84_graph_distance",
    "C84_explained",
    "C84_model_exists"
   ],
   "note": "stim's decomposition of a circuit into an error model is not modelled: the theorems hold for every model that meets describes / side_by_side / complete, and C84_model_exists shows every circuit has one (with Classical_Prop.classic). The last edge that pymatching gets besides (C36, weight 9999999999) is not part of the graph here."
  },
  {
   "property": "C85",
   "status": "proved",
   "theorems": [
    "C85_few_errors",
    "C85_never_raises",
    "C85_case"
   ],
   "note": "The matcher's internals are not modelled: it is any function whose answer comes from a lightest set of edges of the graph it is given (C85_few_errors) or any function at all of the right output length (C85_never_raises). C85_case: every layout with enough room has a model, a graph and weights that meet the hypotheses with K = 2. Weights are real logarithms, hence the axioms of Reals."
  },
  {
   "property": "C86",
   "status": "proved",
   "theorems": [
    "C86_collect_and_plot",
    "C86_main_example",
    "C86_written_graph"
   ],
   "note": "stim's error model is any model that decomposes the circuit (C84; C86_world: one exists for each of the six circuits), its sampler and the matching are arbitrary functions with results of the right shape. Floats: any type whose values print and read back and are ordered; the three literals are in their order. plot_data's curves are real-valued, hence the axioms of Reals."
  },
  {
   "property": "C87",
   "status": "proved",
   "theorems": [
    "C87_console",
    "C87_shown_is_saved",
    "C87_old_data_kept",
    "C87_detections",
    "C87_detections_saved"
   ],
   "note": "A line printed to one place is one step; creating the file and printing its header are two, and a stop between them leaves an empty file (C42_empty_file_refuted). Operating-system buffering is not modelled (the code flushes the screen and closes the file after every line)."
  },
  {
   "property": "C88",
   "status": "proved",
   "theorems": [
    "C88_which_binary",
    "C88_answer",
    "C88_nothing_left",
    "C88_other_files",
    "C88_failure_kept",
    "C88_exact_copy_refuted",
    "C88_refines",
    "C88_no_binary"
   ],
   "note": "C88_exact_copy_refuted: the kept shots file always differs from the one the binary was given. Texts of the error model and the circuit (stim's printing) are arbitrary. repro.stim is the model circuit, which may differ from the sampled one."
  },
  {
   "property": "C89",
   "status": "proved",
   "theorems": [
    "C89_one_file",
    "C89_same_operations",
    "C89_accepted",
    "C89_noise",
    "C89_other_noise"
   ],
   "note": "A file is modelled by the circuit stim reads from it; reading the text is not modelled. C89_same_operations and C89_noise are about files without noise or aliased gate names (ideal_op)."
  }
 ]
}