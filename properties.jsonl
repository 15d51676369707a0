{"id": "C01", "title": "Qubit counts", "statement": "For every layout, data_qubit_coords has exactly data_width*data_height distinct entries, measure_qubit_coords has exactly 3/2 times as many, the two never share a position, and num_qubits equals len(used_qubit_indices) for every style.", "quantifier": "every positive even data_width, every positive data_height divisible by 6, every style", "why_tests_cant": "The tests check three sizes; the size is unbounded and wrap-around makes small sizes special.", "anchors": ["src/honeycomb_layout.py:HoneycombLayout.data_qubit_coords", "src/honeycomb_layout.py:HoneycombLayout.measure_qubit_coords", "src/honeycomb_layout.py:HoneycombLayout.num_qubits", "src/honeycomb_layout.py:HoneycombLayout.used_qubit_indices"]}
{"id": "C02", "title": "Qubit indexing is a bijection", "statement": "q2i maps the qubit positions one-to-one onto 0..N-1, data qubits getting exactly the indices below data_width*data_height, in (x, y) order; a lookup of a position that is not a qubit fails. qubit_indices_except returns all other indices in increasing order.", "quantifier": "every layout, every position", "why_tests_cant": "A collision at one untested size silently merges two qubits.", "anchors": ["src/honeycomb_layout.py:HoneycombLayout.q2i"]}
{"id": "C03", "title": "Hexes are three-coloured evenly", "statement": "_hex_center_categories holds one entry per hex; the three round_hex_centers lists are disjoint, duplicate-free, sorted, together contain every hex, and have the same length; round_hex_centers rejects any round outside 0..2.", "quantifier": "every layout, every round argument", "why_tests_cant": "Unbounded family of torus sizes; wrap-around of the odd columns at row 0.", "anchors": ["src/honeycomb_layout.py:HoneycombLayout._hex_center_categories", "src/honeycomb_layout.py:HoneycombLayout.round_hex_centers"]}
{"id": "C04", "title": "Each sub-round measures a perfect matching", "statement": "For each of the three rounds, round_edges touches every data qubit exactly once, has data_width*data_height/2 edges with distinct centres, and round_edges(r) depends only on r mod 3; no edge belongs to two rounds.", "quantifier": "every layout, every integer r", "why_tests_cant": "Unbounded sizes.", "anchors": ["src/honeycomb_layout.py:HoneycombLayout.round_edges", "src/honeycomb_layout.py:HoneycombLayout.all_edges", "src/honeycomb_layout.py:EdgeType.hex_to_edge"]}
{"id": "C05", "title": "Edges are bipartite and canonical", "statement": "Every edge of the layout has its left qubit in data_qubit_indices_1st and its right qubit in data_qubit_indices_2nd; these two lists partition the data qubits; building an Edge from swapped end points gives the same Edge.", "quantifier": "every layout, every edge", "why_tests_cant": "Parity must survive wrap-around for every width and height, including odd tile counts.", "anchors": ["src/honeycomb_layout.py:Edge", "src/honeycomb_layout.py:_data_qubit_parity", "src/honeycomb_layout.py:HoneycombLayout.data_qubit_indices_1st", "src/honeycomb_layout.py:HoneycombLayout.data_qubit_indices_2nd"]}
{"id": "C06", "title": "Hex neighbourhoods", "statement": "For every hex of category c, qubits_around_hex lists six distinct data qubits; first_edges_around_hex are three edges of round c+1 and second_edges_around_hex three edges of round c+2, each triple covering the six qubits exactly once; all_edges_around_hex lists six different edges, the ring through the six qubits, and they are exactly the edges of those two rounds that touch one of the six qubits; every data qubit lies around exactly one hex of each category.", "quantifier": "every layout, every hex, every data qubit", "why_tests_cant": "Unbounded sizes; the loop around the hex wraps on small tori.", "anchors": ["src/honeycomb_layout.py:HoneycombLayout.qubits_around_hex", "src/honeycomb_layout.py:HoneycombLayout.first_edges_around_hex", "src/honeycomb_layout.py:HoneycombLayout.second_edges_around_hex", "src/honeycomb_layout.py:HoneycombLayout.all_edges_around_hex"]}
{"id": "C07", "title": "Edge checks commute with hex stabilizers", "statement": "The Pauli product of round r's basis on any edge of round r commutes with the Pauli product of category c's basis on the six qubits of any hex of category c.", "quantifier": "every layout, every r and c, every edge and hex", "why_tests_cant": "All pairs at all sizes.", "anchors": ["src/honeycomb_layout.py:HoneycombLayout.round_edges", "src/honeycomb_layout.py:HoneycombLayout.qubits_around_hex", "src/honeycomb_layout.py:HoneycombLayout.sub_round_edge_basis"]}
{"id": "C08", "title": "Observables survive the measurements", "statement": "The operator returned by obs_before_sub_round(s) commutes with every edge check measured in sub-round s and in sub-round s-1 and with every hex stabilizer.", "quantifier": "every layout, both observables, every integer s", "why_tests_cant": "All sizes and all sub-rounds.", "anchors": ["src/honeycomb_layout.py:HoneycombLayout.obs_before_sub_round", "src/honeycomb_layout.py:HoneycombLayout.obs_h_before_sub_round", "src/honeycomb_layout.py:HoneycombLayout.obs_v_before_sub_round"]}
{"id": "C09", "title": "Observables move by the measured edges", "statement": "obs_before_sub_round(s+1) equals obs_before_sub_round(s) multiplied by the edge checks of sub-round s that lie in obs_edges; obs_before_sub_round has period 6; an obs string other than H or V is rejected.", "quantifier": "every layout, both observables, every integer s", "why_tests_cant": "All sizes and all sub-rounds.", "anchors": ["src/honeycomb_layout.py:HoneycombLayout.obs_before_sub_round", "src/honeycomb_layout.py:HoneycombLayout.obs_edges", "src/honeycomb_layout.py:HoneycombLayout.obs_h_edges", "src/honeycomb_layout.py:HoneycombLayout.obs_v_edges"]}
{"id": "C10", "title": "Two logical qubits", "statement": "At every sub-round s the four operators H(s), V(s), H(s+3), V(s+3) form two independent logical qubits: H(s) anticommutes with V(s), H(s+3) with V(s+3), and all other pairs commute.", "quantifier": "every layout, every integer s", "why_tests_cant": "The double-EPR test runs one size with samples.", "anchors": ["src/honeycomb_layout.py:HoneycombLayout.obs_h_before_sub_round", "src/honeycomb_layout.py:HoneycombLayout.obs_v_before_sub_round", "src/honeycomb_circuit_double_epr_test.py"]}
{"id": "C11", "title": "Layout validation", "statement": "Constructing a layout succeeds exactly when data_width is even and data_height is a multiple of 6; every accepted layout with positive sizes has tile_width >= 1 and tile_height >= 1, and an unknown style is rejected by noise_model.", "quantifier": "every integer width and height, every style string", "why_tests_cant": "Integer arguments are unbounded.", "anchors": ["src/honeycomb_layout.py:HoneycombLayout.__post_init__", "src/honeycomb_layout.py:HoneycombLayout.noise_model"]}
{"id": "C12", "title": "Tracker computes parities", "statement": "For any history of tracker calls and any measurement outcomes, the record targets returned for a list of keys select measurements whose XOR equals the XOR of the values the keys stand for (a measurement's outcome, 0 for a dummy, the snapshot value for a group); the result is None when a key met before any failure is an obstacle.", "quantifier": "every call history, every key list, every outcome assignment", "why_tests_cant": "Histories are unbounded.", "anchors": ["src/measure_tracker.py:MeasurementTracker.measurement_time_set", "src/measure_tracker.py:MeasurementTracker.get_record_targets", "src/measure_tracker.py:MeasurementTracker.add_group"]}
{"id": "C13", "title": "Record targets are valid", "statement": "Every target returned by get_record_targets without for_time_after_measurement is a strictly increasing list of offsets between -t and -1, where t is the number of measurements added so far; with for_time_after_measurement the offsets are relative to just after that measurement.", "quantifier": "every call history", "why_tests_cant": "Histories are unbounded.", "anchors": ["src/measure_tracker.py:MeasurementTracker.get_record_targets"]}
{"id": "C14", "title": "Key order and repetition do not matter", "statement": "measurement_time_set is unchanged by reordering its keys when it does not fail, and a key given twice cancels out.", "quantifier": "every call history, every permutation of keys", "why_tests_cant": "The circuit generator passes Python sets whose iteration order is not specified.", "anchors": ["src/measure_tracker.py:MeasurementTracker.measurement_time_set"]}
{"id": "C15", "title": "Previous-measurement references", "statement": "Prev(k, offset=j) refers to the entry j positions before the latest entry of k; nesting Prev adds the offsets; asking for more history than was recorded raises AssertionError and never a wrong value; entries once recorded never change. A negative offset is not refused: Prev(k, offset=-j) silently refers to the j-th entry ever recorded for k, counted from the oldest, and raises IndexError when there are fewer.", "quantifier": "every call history, every offset", "why_tests_cant": "Histories are unbounded.", "anchors": ["src/measure_tracker.py:Prev", "src/measure_tracker.py:MeasurementTracker.measurement_time_set"]}
{"id": "C16", "title": "Circuit generation accepts exactly the supported inputs", "statement": "generate_honeycomb_circuit returns a circuit, with no assertion failure, missing key or None target list, for every layout with sub_rounds >= 1, obs H or V and a supported style (SI1000: sub_rounds a multiple of 3), and raises NotImplementedError for sub_rounds = 0, for an unknown style, and for SI1000 with sub_rounds not a multiple of 3.", "quantifier": "every layout, every sub_rounds, every style and obs string", "why_tests_cant": "Unbounded sizes and round counts.", "anchors": ["src/honeycomb_circuit.py:generate_honeycomb_circuit", "src/honeycomb_circuit.py:generate_rounds_SI1000"]}
{"id": "C17", "title": "REPEAT folding is exact", "statement": "Flattening the REPEAT blocks of the generated circuit gives exactly the instruction list that the same style produces when its sub-rounds are generated one after another without any loop (same gates, same record offsets, same detectors).", "quantifier": "every style, every layout, every number of sub-rounds", "why_tests_cant": "The number of sub-rounds is unbounded and the loop is taken only for some residues and thresholds.", "anchors": ["src/honeycomb_circuit.py:generate_rounds_sd6", "src/honeycomb_circuit.py:generate_rounds_pc3", "src/honeycomb_circuit.py:generate_rounds_em3", "src/honeycomb_circuit.py:generate_rounds_SI1000"]}
{"id": "C18", "title": "Detectors are deterministic", "statement": "In the noiseless generated circuit no DETECTOR is ever triggered, whatever the random measurement outcomes and reset gauges are.", "quantifier": "every style, observable, layout, number of sub-rounds and every choice of gauge bits", "why_tests_cant": "stim checks it per circuit; the family of circuits is infinite.", "anchors": ["src/honeycomb_circuit.py:generate_honeycomb_circuit", "src/honeycomb_circuit.py:_sub_round_measurements_and_detectors", "src/honeycomb_circuit.py:fault_tolerant_init", "src/honeycomb_circuit.py:fault_tolerant_measurement"]}
{"id": "C19", "title": "The logical observable is deterministic", "statement": "In the noiseless generated circuit the OBSERVABLE_INCLUDE parity of the layout's observable never flips, and no other observable index is used.", "quantifier": "every style, observable, layout, number of sub-rounds and gauge choice", "why_tests_cant": "Infinite family of circuits.", "anchors": ["src/honeycomb_circuit.py:generate_honeycomb_circuit", "src/honeycomb_circuit.py:fault_tolerant_measurement", "src/honeycomb_circuit.py:generate_rounds_pc3"]}
{"id": "C20", "title": "All styles measure the same checks", "statement": "In every style, the measurement recorded for an edge in sub-round k is the two-qubit parity of basis XYZ[k mod 3] on that edge's data qubits at that point of the schedule (for PC3: XORed with the ancilla's previous outcome), and the data qubits are otherwise left untouched.", "quantifier": "every style, layout, sub-round and incoming error frame", "why_tests_cant": "Pipelined schedules differ per style; all sizes and rounds.", "anchors": ["src/honeycomb_circuit.py:_sd6_pipeline_step", "src/honeycomb_circuit.py:generate_rounds_pc3", "src/honeycomb_circuit.py:generate_rounds_em3", "src/honeycomb_circuit.py:generate_cycle_SI1000"]}
{"id": "C21", "title": "No qubit is used twice in a moment", "statement": "Between consecutive TICKs of the noiseless generated circuit every qubit is touched by at most one operation (the assertion the noise model has switched off).", "quantifier": "every style, layout, number of sub-rounds", "why_tests_cant": "Assertion disabled in the source; unbounded family.", "anchors": ["src/honeycomb_circuit.py:generate_honeycomb_circuit", "src/noise.py:NoiseModel.noisy_circuit"]}
{"id": "C22", "title": "Measurement and detector counts", "statement": "The generated circuit performs exactly sub_rounds*data_width*data_height/2 edge measurements plus data_width*data_height data measurements; all record offsets in it refer to measurements already made; the number of detectors is the stated function of size and sub-rounds; the only observable that its lines name is 0 (obs V) or 1 (obs H), so stim counts one or two observables.", "quantifier": "every style, layout, number of sub-rounds", "why_tests_cant": "Unbounded family.", "anchors": ["src/honeycomb_circuit.py:generate_honeycomb_circuit", "src/honeycomb_circuit.py:_sub_round_measurements_and_detectors"]}
{"id": "C23", "title": "Detectors are complete in the bulk", "statement": "From sub-round 4 on (all styles), every sub-round k emits exactly one detector for every hex of category (k-2) mod 3, located at that hex's coordinates.", "quantifier": "every layout, every sub-round >= 4", "why_tests_cant": "Unbounded sub-rounds and sizes.", "anchors": ["src/honeycomb_circuit.py:_sub_round_measurements_and_detectors"]}
{"id": "C24", "title": "Single data errors are graphlike", "statement": "A single Pauli X, Y or Z on a data qubit between sub-rounds of a noiseless entangling-measurement circuit flips exactly the stabilizers of the two hexes around that qubit whose category differs from the error's basis.", "quantifier": "every layout, every data qubit, every Pauli", "why_tests_cant": "All sizes; the decoder needs at most two symptoms per error component.", "anchors": ["src/honeycomb_layout.py:HoneycombLayout.qubits_around_hex", "src/decoding.py:detector_error_model_to_nx_graph"]}
{"id": "C25", "title": "Code distance", "statement": "code_distance_1qdep is a lower bound on the number of data qubits that any undetected logical error of the instantaneous code can touch, and it is attained.", "quantifier": "every layout, every sub-round, every Pauli error on the data qubits", "why_tests_cant": "Exhaustive search is infeasible; sizes unbounded.", "anchors": ["src/honeycomb_layout.py:HoneycombLayout.code_distance_1qdep"]}
{"id": "C26", "title": "Noise only adds noise", "statement": "Removing the noise channels from noisy_circuit's output gives back the input circuit instruction by instruction (models without correlated parity errors; measurement flip arguments dropped), in particular the same measurements, detectors and TICKs.", "quantifier": "every circuit, including nested REPEAT blocks, every noise model", "why_tests_cant": "Circuits are unbounded.", "anchors": ["src/noise.py:NoiseModel.noisy_circuit", "src/noise.py:NoiseModel.noisy_op"]}
{"id": "C27", "title": "Zero noise is the identity", "statement": "With noise strength 0, every named model's noisy_circuit returns the input circuit unchanged; so generate_honeycomb_circuit with noise 0 returns exactly the noise-free circuit, for every supported layout.", "quantifier": "every circuit over the supported gates", "why_tests_cant": "Circuits are unbounded.", "anchors": ["src/noise.py:NoiseModel.noisy_circuit", "src/noise.py:NoiseModel.SD6", "src/noise.py:NoiseModel.SI1000"]}
{"id": "C28", "title": "Every qubit gets its noise once per moment", "statement": "In each moment with at least one gate, every qubit of the circuit receives either its gate's noise channel or the idle channel, never both and exactly once when the moment touches each qubit at most once; in moments with a measurement or reset, exactly the qubits not measured or reset also get the measure_reset_idle channel.", "quantifier": "every circuit, every model with positive strengths", "why_tests_cant": "Circuits and moments are unbounded.", "anchors": ["src/noise.py:NoiseModel.noisy_circuit"]}
{"id": "C29", "title": "Noise strengths follow the named model", "statement": "For each of SD6, PC3, EM3_v1, EM3_v2 and SI1000 the channel attached to each supported gate has the kind and strength of the model's table, and any unsupported gate is rejected with NotImplementedError.", "quantifier": "every gate name, every strength", "why_tests_cant": "The set of gate names is open.", "anchors": ["src/noise.py:NoiseModel.noisy_op", "src/noise.py:NoiseModel.noisy_circuit"]}
{"id": "C30", "title": "Correlated noise keeps the measurement record", "statement": "Under EM3_v2 the circuit returned by noisy_circuit makes the same number of measurements in the same order as the input, and with no error sampled each substituted parity measurement acts on the other qubits exactly like the MPP it replaces, provided the ancilla index is not one of the circuit's qubits.", "quantifier": "every MPP circuit, every incoming frame, every gauge choice", "why_tests_cant": "Unbounded circuits and states.", "anchors": ["src/noise.py:parity_measurement_with_correlated_measurement_noise", "src/noise.py:NoiseModel.noisy_circuit"]}
{"id": "C31", "title": "Correlated channel is the full mixing channel", "statement": "Applying each of the 2^n-1 non-identity components independently with the probability given by mix_probability_to_independent_component_probability(p, n) yields the identity with probability 1-p+p/2^n and every other component with probability p/2^n; the 31 error instructions emitted are exactly the non-identity elements of {I,X,Y,Z}^2 x {no flip, flip}, each once.", "quantifier": "every p in [0,1], every n >= 1", "why_tests_cant": "A real-valued identity over a continuum; the test checks p=0.1, n=5.", "anchors": ["src/noise.py:mix_probability_to_independent_component_probability", "src/noise.py:parity_measurement_with_correlated_measurement_noise"]}
{"id": "C32", "title": "The noise ancilla is fresh", "statement": "The ancilla used for correlated parity measurements is never a qubit of the circuit, inside and outside REPEAT blocks.", "quantifier": "every circuit (false in general; true for honeycomb circuits)", "why_tests_cant": "Needs a REPEAT body that does not touch the highest qubit.", "anchors": ["src/noise.py:NoiseModel.noisy_circuit"]}
{"id": "C33", "title": "Error-model flattening", "statement": "iter_flatten_model reports exactly the errors and detector coordinates of the fully unrolled model, in order, with absolute detector ids and accumulated coordinate shifts, splitting decomposed errors at separators.", "quantifier": "every detector error model, any nesting and repeat counts", "why_tests_cant": "Models are unbounded.", "anchors": ["src/decoding.py:iter_flatten_model"]}
{"id": "C34", "title": "Matching-graph edge probabilities", "statement": "For errors with the same frame changes on the same detector pair, the graph edge's probability is the probability that an odd number of them occur, independent of order; errors of probability 0 or without symptoms add nothing; an error with more than two symptoms is rejected.", "quantifier": "every error list and order", "why_tests_cant": "Lists are unbounded.", "anchors": ["src/decoding.py:detector_error_model_to_nx_graph"]}
{"id": "C35", "title": "Conflicting edges keep the first frame change", "statement": "When two errors with the same symptoms have different frame changes, the graph keeps whichever was first (as the source comment states).", "quantifier": "every error list (the claim is false of the code: the last one wins)", "why_tests_cant": "Needs an error model with a distance-2 ambiguity.", "anchors": ["src/decoding.py:detector_error_model_to_nx_graph"]}
{"id": "C36", "title": "The pymatching graph is connected and complete", "statement": "detector_error_model_to_pymatching_graph's graph has exactly the nodes 0..num_detectors+1, is connected, keeps every edge of the nx graph with its attributes, and every observable id occurs on some edge.", "quantifier": "every error model", "why_tests_cant": "Models are unbounded.", "anchors": ["src/decoding.py:detector_error_model_to_pymatching_graph"]}
{"id": "C37", "title": "Counting correct shots", "statement": "sample_decode_count_correct returns the number of shots whose predicted observables all equal the sampled ones, where the decoder sees exactly the detector columns; the value lies between 0 and num_shots; unknown decoder names are rejected before sampling.", "quantifier": "every sample matrix, every number of detectors and observables including 0", "why_tests_cant": "Array sizes are unbounded; the zero-observable slice is special.", "anchors": ["src/decoding.py:sample_decode_count_correct", "src/decoding.py:decode_using_pymatching"]}
{"id": "C38", "title": "Internal decoder file formats", "statement": "The shots file lists for each shot exactly the fired detectors; the predictions file is parsed back to exactly the bits written, and any file that does not start with that many well-formed lines is rejected (content after them is ignored).", "quantifier": "every sample matrix, every prediction matrix", "why_tests_cant": "Unbounded data.", "anchors": ["src/decoding.py:decode_using_internal_decoder"]}
{"id": "C39", "title": "Shot budget", "statement": "collect_simulated_experiment_data never takes more than max_shots shots for a problem nor more than max_batch in one batch (when min_shots <= max_shots or no max_batch is given), always terminates, and stops only when a documented stopping rule holds.", "quantifier": "every sampler behaviour, every parameter setting", "why_tests_cant": "Loop over an unbounded random history.", "anchors": ["src/collect_data.py:collect_simulated_experiment_data"]}
{"id": "C40", "title": "min_shots is honoured", "statement": "At least min_shots samples are taken from each case (documented), unless max_shots is smaller.", "quantifier": "every parameter setting (false of the code when max_batch < min_shots)", "why_tests_cant": "Needs a specific parameter and outcome combination.", "anchors": ["src/collect_data.py:collect_simulated_experiment_data"]}
{"id": "C41", "title": "CSV round trip", "statement": "Reading the CSV file written by collect_simulated_experiment_data returns, for each problem description, the sums of shots, correct shots and seconds over all batches recorded for it.", "quantifier": "every problem list, every batch history", "why_tests_cant": "Histories are unbounded.", "anchors": ["src/collect_data.py:collect_simulated_experiment_data", "src/collect_data.py:read_recorded_data"]}
{"id": "C42", "title": "Crash and resume", "statement": "If collection stops after any batch, the file still reads back as the totals of the completed batches, and a later run with discard_previous_data=False adds to them without losing or double counting; reading several files adds their totals; columns may be in any order, and a row in which a column is missing or a number cannot be read is refused.", "quantifier": "every crash point between batches, every later run", "why_tests_cant": "All prefixes of an unbounded history.", "anchors": ["src/collect_data.py:collect_simulated_experiment_data", "src/collect_data.py:read_recorded_data"]}
{"id": "C43", "title": "Grouping conserves data", "statement": "grouped_by splits the data into non-empty disjoint groups whose union is the data; merged_by's totals per key are the sums over the problems with that key; filter keeps exactly the matching problems.", "quantifier": "every data set, every key function and predicate", "why_tests_cant": "Functions and data unbounded.", "anchors": ["src/collect_data.py:ProblemShotData.grouped_by", "src/collect_data.py:ProblemShotData.merged_by", "src/collect_data.py:ProblemShotData.filter"]}
{"id": "C44", "title": "Remaining work", "statement": "finished, remaining_shots and remaining_errors agree: remaining shots and errors are 0 when finished and positive otherwise, remaining_time is non-negative and 0 when finished; no data means not finished unless the limits are 0.", "quantifier": "every shot data and limits", "why_tests_cant": "Integer and real parameters unbounded.", "anchors": ["src/collect_data.py:RemainingWork"]}
{"id": "C45", "title": "with_changes changes only what is asked", "statement": "with_changes returns a description equal to the original except for the given fields; changing nothing is the identity.", "quantifier": "every description, every combination of fields", "why_tests_cant": "2^9 combinations over unbounded values.", "anchors": ["src/collect_data.py:DecodingProblemDesc.with_changes"]}
{"id": "C46", "title": "binary_search finds the closest point", "statement": "For a non-decreasing function binary_search returns an argument in [min_x, max_x] whose value is at least as close to the target as that of every other argument in the range, and terminates.", "quantifier": "every monotone function into the extended reals, every range and target", "why_tests_cant": "Functions and ranges unbounded.", "anchors": ["src/probability_util.py:binary_search"]}
{"id": "C47", "title": "binary_intercept", "statement": "If binary_intercept returns x then |func(x)-target| <= atol; for a continuous function whose value crosses the target on the searched side, it terminates without tripping its assertion.", "quantifier": "every continuous function, every start, step and tolerance > 0 (exact real arithmetic)", "why_tests_cant": "Real functions.", "anchors": ["src/probability_util.py:binary_intercept"]}
{"id": "C48", "title": "Per-piece error rate inverts composition", "statement": "Composing `pieces` independent pieces each with error rate total_error_to_per_piece_error(e, pieces) gives total error rate e.", "quantifier": "every e in [0, 1/2], every pieces >= 1; for e in (1/2, 1] true for odd pieces only", "why_tests_cant": "A continuum of rates.", "anchors": ["src/plotting.py:total_error_to_per_piece_error"]}
{"id": "C49", "title": "Binomial log likelihood", "statement": "log_binomial equals ln of the binomial probability, including the p=0 and p=1 cases (-infinity exactly when the outcome is impossible), with log_factorial exact below 20; from 20 samples on, where Stirling's formula is used, the result is within 1/120 of the true logarithm and log_factorial is too small by at most 1/(12n).", "quantifier": "every p, every n and hits <= n (exact real arithmetic)", "why_tests_cant": "Continuum of p.", "anchors": ["src/probability_util.py:log_binomial", "src/probability_util.py:log_factorial"]}
{"id": "C50", "title": "Likelihood bounds bracket the estimate", "statement": "likely_error_rate_bounds returns low <= num_errors/num_shots <= high, both in [0,1], and each bound is the closest grid point to the requested likelihood ratio.", "quantifier": "every shot data with num_shots > 0, every ratio in (0,1]", "why_tests_cant": "Continuum of ratios, unbounded shots.", "anchors": ["src/collect_data.py:ShotData.likely_error_rate_bounds"]}
{"id": "C51", "title": "Least squares ranges", "statement": "The cost of the best line through a required point (or with a required slope) is a parabola in that parameter with its minimum at the unconstrained fit, so the reported low and high values bracket the fit.", "quantifier": "every data set with at least two distinct xs, every cost increase > 0 (exact optimiser)", "why_tests_cant": "Real data.", "anchors": ["src/probability_util.py:least_squares_output_range", "src/probability_util.py:least_squares_slope_range", "src/probability_util.py:least_squares_cost"]}
{"id": "C52", "title": "Problem descriptions are distinct", "statement": "No two problems produced by main_collect_all's honeycomb_problems() + surface_code_problems() have the same description, so their CSV rows are never merged; every layout in it is accepted by the circuit generator. --problem_id selects exactly that problem (IndexError if there is none), the limits on shots and errors are the given ones or the full ones divided by --case_reduction, and two surface code problems read the same file exactly when noise kind, observable and distance agree.", "quantifier": "every pair of problems", "why_tests_cant": "Pairs over a large table; tied to grouping semantics.", "anchors": ["src/paper/main_collect_all.py:honeycomb_problems", "src/paper/main_collect_all.py:surface_code_problems", "src/honeycomb_layout.py:HoneycombLayout.as_decoder_problem_desc"]}
{"id": "C53", "title": "Projected qubit counts are whole numbers", "statement": "_d_to_q returns an integer (its assertion holds) for every target distance when the representative is any honeycomb or surface-code problem of the paper's families, and equals the qubit count of the family member of the (rounded-up) distance.", "quantifier": "every distance, every family member", "why_tests_cant": "Unbounded distances.", "anchors": ["src/paper/main_render_lambda_figure.py:LambdaGroup._d_to_q"]}
{"id": "C54", "title": "Line-fit projections are inverse", "statement": "projected_error and projected_distance are inverse to each other whenever the fitted slope is non-zero.", "quantifier": "every slope != 0, intercept, distance, error > 0", "why_tests_cant": "Continuum.", "anchors": ["src/paper/main_render_lambda_figure.py:LambdaGroup.projected_error", "src/paper/main_render_lambda_figure.py:LambdaGroup.projected_distance"]}
{"id": "C55", "title": "Lambda grouping loses nothing", "statement": "groups_from_data puts every entry under its noise and distance in the H/X or V/Z table, and raises AssertionError exactly when two entries of one observable side share noise and distance. A group has a low-confidence extrapolation exactly when one side has fewer than three entries.", "quantifier": "every data set", "why_tests_cant": "Unbounded data.", "anchors": ["src/paper/main_render_lambda_figure.py:LambdaGroup.groups_from_data"]}
{"id": "C56", "title": "Diagram iteration and MPP grouping", "statement": "_iter_circuit with nesting 0 yields exactly the flattened instruction list, and with nesting 1 the top-level qubit declarations and one pass through each repeat block; plot_circuit's MPP splitting returns the product groups of the instruction; diagram_2d writes every value so that it ends at its position, blanks elsewhere, and raises AssertionError exactly when a value would start left of the page or overwrite another.", "quantifier": "every circuit, every MPP target list, every value map", "why_tests_cant": "Unbounded input.", "anchors": ["src/circuit_diagrams.py:_iter_circuit", "src/circuit_diagrams.py:plot_circuit", "src/circuit_diagrams.py:diagram_2d"]}
{"id": "C57", "title": "legend_label is usable", "statement": "legend_label returns a label for every layout.", "quantifier": "every layout (false of the code for non-zero noise)", "why_tests_cant": "Never called by a test.", "anchors": ["src/honeycomb_layout.py:HoneycombLayout.legend_label"]}
{"id": "C58", "title": "Detection fraction rows", "statement": "collect_detection_fraction_data records, per problem, as shots the number of detector samples taken and as errors the number of them that fired, under the decoder name detection_fraction, and read_recorded_data returns these numbers.", "quantifier": "every problem list, every sample matrix", "why_tests_cant": "Unbounded samples.", "anchors": ["src/collect_data.py:collect_detection_fraction_data", "src/collect_data.py:read_recorded_data"]}
{"id": "C59", "title": "Aggregation is lossless", "statement": "main of aggregate_csv_data writes one row per distinct (description, batch) key in ascending order; each row's shots, correct count and seconds are the sums over the input rows with that key, so reading the aggregate back gives the same totals as reading the inputs.", "quantifier": "every list of recorded rows", "why_tests_cant": "Unbounded histories of merged files.", "anchors": ["src/aggregate_csv_data.py:main", "src/collect_data.py:read_recorded_data"]}
{"id": "C60", "title": "Code cell error points", "statement": "combo_data has one point per distance that has data on either side, in ascending order of distance, omitting exactly the distances where a side saw no errors; the value at a distance is the probability that at least one of two independent observables fails in one code cell, where each side's per-cell rate composes over the problem's cells to the measured rate. The warnings it prints name exactly the distances that were recorded for one observable only, together with the missing observable.", "quantifier": "every group of recorded shots", "why_tests_cant": "Real arithmetic over unbounded tables.", "anchors": ["src/paper/main_render_lambda_figure.py:LambdaGroup.combo_data"]}
{"id": "C61", "title": "Lambda range", "statement": "projected_lambda_range returns three values in descending order; the middle one is the ratio of the projected errors at distances d and d+2, for every d.", "quantifier": "every group, every optimiser exact on quadratics", "why_tests_cant": "Continuum of data.", "anchors": ["src/paper/main_render_lambda_figure.py:LambdaGroup.projected_lambda_range", "src/probability_util.py:least_squares_slope_range"]}
{"id": "C62", "title": "Projected qubit count", "statement": "projected_required_qubit_count is the qubit count of the smallest family member whose projected error does not exceed the target; projected_qubit_count_range gives counts of family members around it, in order; appears_to_be_suppressing_errors is the documented threshold test on the fit.", "quantifier": "every group, target error and honeycomb family", "why_tests_cant": "Continuum of data.", "anchors": ["src/paper/main_render_lambda_figure.py:LambdaGroup.projected_required_qubit_count", "src/paper/main_render_lambda_figure.py:LambdaGroup.projected_qubit_count_range", "src/paper/main_render_lambda_figure.py:LambdaGroup.appears_to_be_suppressing_errors"]}
{"id": "C63", "title": "Level pictures show what they are given", "statement": "diagram_3d never fails on levels of single visible characters at whole coordinates; in its text every character is seen at the place computed from its coordinates and level, links are drawn as unbroken lines between their ends (or as two marked stubs when they span the whole drawing), and all other cells are blank. Where only horizontal lines pass, an odd number of them shows as a single line and an even number as a double line; where a vertical line passes, the cell is a plus if a horizontal line drawn later, or an odd number drawn before, passes too, and a bar otherwise.", "quantifier": "every list of levels and links", "why_tests_cant": "Unbounded sizes, any arrangement of crossing lines.", "anchors": ["src/circuit_diagrams.py:diagram_3d"]}
{"id": "C64", "title": "Circuit pictures show the circuit", "statement": "plot_circuit makes one level per moment of the circuit (an empty last moment is left out); on it every qubit an operation acts on carries the operation's letter, idle qubits carry a backslash, and the pairs an operation acts on are linked, for every circuit with known operations whose qubits are declared once, before use, at different places and carry at most one letter per moment. A circuit of known operations that breaks one of these rules is refused with AssertionError or KeyError.", "quantifier": "every circuit of known operations", "why_tests_cant": "Circuits of any length and any set of qubits.", "anchors": ["src/circuit_diagrams.py:plot_circuit", "src/circuit_diagrams.py:_iter_circuit"]}
{"id": "C65", "title": "Honeycomb circuits can be plotted", "statement": "plot_circuit succeeds on every ideal circuit the generator returns; the picture starts with R on every used qubit and ends with M on every data qubit. With only_repeat_block it shows one pass of the loop, and raises ValueError when the circuit has no loop. Noise does not change the picture, whatever the strength and style, except EM3_v2 with positive noise: there plot_circuit raises KeyError, because the auxiliary measurement qubit has no coordinates.", "quantifier": "every supported layout", "why_tests_cant": "Every layout size, style and number of sub-rounds.", "anchors": ["src/circuit_diagrams.py:plot_circuit", "src/honeycomb_circuit.py:generate_honeycomb_circuit"]}
{"id": "C66", "title": "Two logical qubits, no more", "statement": "Right after sub-round r, an error on data qubits that commutes with the checks just measured and with every hex stabilizer acts, up to a product of those, as the product of exactly those of the four observables (horizontal and vertical, before sub-rounds r+1 and r+4) whose partner it anticommutes with; the sixteen products of observables are pairwise inequivalent, so an undetected error is harmless exactly when it flips none of the four.", "quantifier": "every layout, every sub-round, every Pauli error on the data qubits", "why_tests_cant": "The double-EPR test samples one small code; the claim is about every undetected error of every size of torus.", "anchors": ["src/honeycomb_layout.py:HoneycombLayout.obs_before_sub_round", "src/honeycomb_layout.py:HoneycombLayout.round_edges", "src/honeycomb_layout.py:HoneycombLayout.qubits_around_hex", "src/honeycomb_circuit_double_epr_test.py:test_circuit"]}
{"id": "C67", "title": "Distance of each observable", "statement": "An undetected error that flips the horizontal observable touches at least 2*(data_height/3) data qubits, one that flips the vertical observable touches at least data_width; the first bound is attained after every sub-round by the vertical observable.", "quantifier": "every layout, every sub-round, every Pauli error on the data qubits", "why_tests_cant": "Minimum weight over exponentially many errors on unbounded tori.", "anchors": ["src/honeycomb_layout.py:HoneycombLayout.obs_before_sub_round", "src/honeycomb_layout.py:HoneycombLayout.code_distance_1qdep"]}
{"id": "C68", "title": "Threshold curves show the recorded rates", "statement": "plot_data draws one curve per problem (descriptions up to noise), in ascending order of description, labelled with its rounds and size; its line has exactly the noise values with at least one error, its band every recorded noise value, both ascending; values are logical error rates per code cell, and the line lies inside its band. It raises IndexError exactly when more styles are needed than the 30 colours available.", "quantifier": "every data set with positive rounds, distances and shots, every marker offset", "why_tests_cant": "Unbounded data.", "anchors": ["src/plotting.py:plot_data"]}
{"id": "C69", "title": "Curves can be told apart", "statement": "In one panel no two curves have the same pair of marker and colour, and of two curves the one drawn in front is the one of the smaller problem.", "quantifier": "every data set that can be plotted", "why_tests_cant": "Two cyclic lists of different lengths; holds up to the limit only.", "anchors": ["src/plotting.py:plot_data"]}
{"id": "C70", "title": "Tick labels", "statement": "format_tick turns every number d*10^-k (digit d, k >= 1) into a label that names it and refuses other numbers below one with AssertionError; the ticks of an axis are exactly the powers of ten and 0.5 within its limits, each with its label.", "quantifier": "every tick value, every axis limits", "why_tests_cant": "Unbounded number of decades.", "anchors": ["src/plotting.py:plot_data", "src/paper/main_render_threshold_figure.py:plot_thresholds"]}
{"id": "C71", "title": "Threshold figure panels", "statement": "In the threshold figure each panel shows exactly the recorded problems of its style, observable and decoder; every problem of the paper's tables has exactly one panel, in the column of its noise model; for such data the figure can always be drawn, labels in a panel differ, and panels that show the same sizes use the same marker and colour for the same size, so one legend fits them (false in general: C71_legend_refuted).", "quantifier": "every data set of the paper's problems", "why_tests_cant": "Any subset of the problems may have been collected.", "anchors": ["src/paper/main_render_threshold_figure.py:plot_thresholds", "src/plotting.py:plot_data", "src/paper/main_collect_all.py:honeycomb_problems", "src/paper/main_collect_all.py:surface_code_problems"]}
{"id": "C72", "title": "Detection fraction figure", "statement": "Each panel has one line per noise value recorded for its style, in ascending order, through all its (distance, fraction) points; marker and colour depend only on the noise value, and different values have different markers; IndexError exactly when a plotted noise value is not among the sixteen smallest of the data. The legend lists the noise values of the last style only, which the paper's problems do not contain.", "quantifier": "every data set", "why_tests_cant": "Unbounded data.", "anchors": ["src/paper/main_render_detection_fraction_figure.py:plot_detection_fraction"]}
{"id": "C73", "title": "Summary figures", "statement": "In the Lambda and teraquop figures each column has one line per style and decoder with data, labelled by code and decoder, with a point (and range) for exactly the noise values whose fit appears to suppress errors; the teraquop figure marks exactly the low-confidence points, the Lambda figure never marks any (although it collects them). Every problem of the paper's tables has exactly one place in the columns.", "quantifier": "every data set", "why_tests_cant": "Unbounded data.", "anchors": ["src/paper/main_render_lambda_figure.py:plot_lambda_combo", "src/paper/main_render_lambda_figure.py:plot_teraquop_combo"]}
{"id": "C74", "title": "Line fit figure", "statement": "Each panel of the line fit figure shows exactly the groups of its style and decoder, by ascending noise, with the points that were fitted and, when errors appear to be suppressed, the fitted line; across panels a marker stands for one noise value.", "quantifier": "every data set", "why_tests_cant": "Unbounded data.", "anchors": ["src/paper/main_render_lambda_figure.py:plot_lambda_line_fits_combo"]}
{"id": "C75", "title": "Entanglement with two ancillas survives", "statement": "For every EM3 layout the double EPR construction yields a circuit; with its noise removed, whatever the random measurement outcomes, no detector fires and all four joint parities (H and V before sub-round 0 against ancilla a, those three sub-rounds later against ancilla b) come back as they started. It has one detector per hex of one colour in every sub-round from the seventh on.", "quantifier": "every layout size, every number of sub-rounds, every outcome of the random measurements", "why_tests_cant": "The test samples one fixed circuit.", "anchors": ["src/honeycomb_circuit_double_epr_test.py:generate_double_epr_honeycomb_circuit", "src/honeycomb_circuit_double_epr_test.py:measure_obs_anc_parities"]}
{"id": "C76", "title": "The two logical qubits seen by the ancillas", "statement": "An error just before any sub-round that commutes with the stabilizers and the checks just measured fires no detector and flips exactly those of the four observables whose current operator it anticommutes with; each logical operator flips exactly its partner's observable; an undetectable error leaves all four unchanged exactly when it is a product of checks and stabilizers.", "quantifier": "every layout, every sub-round, every Pauli error on the data, every outcome of the random measurements", "why_tests_cant": "Exponentially many errors at unboundedly many places; the test only samples weak noise.", "anchors": ["src/honeycomb_circuit_double_epr_test.py:generate_double_epr_honeycomb_circuit", "src/honeycomb_circuit_double_epr_test.py:test_circuit"]}
{"id": "C77", "title": "Noise of the double EPR circuit", "statement": "The circuit consists of the four noise-free joint measurements, the sub-rounds, and the four noise-free joint measurements again; sub-rounds from the fourth on depolarize each check's pair and measure the checks with flip probability p, the first three have no noise; ancillas never suffer noise.", "quantifier": "every layout, every number of sub-rounds, every noise strength", "why_tests_cant": "Any length; a bug in the window would only change sampled rates slightly.", "anchors": ["src/honeycomb_circuit_double_epr_test.py:generate_double_epr_honeycomb_circuit", "src/noise.py:NoiseModel.noisy_circuit"]}
{"id": "C78", "title": "A single physical error never goes unnoticed", "statement": "In the noisy circuit generated for any supported layout at least four data qubits wide, any one error that any one of its noise instructions can cause (a Pauli of a depolarizing or flip channel on one target or pair, a listed correlated error, one wrong pair-measurement result), in any repetition of a loop, either leaves the logical observable as it is or sets off at least one detector, whatever the random measurement outcomes. Two data qubits of width are not enough.", "quantifier": "every layout size from width 4, every number of sub-rounds, all five styles, both observables, every noise instruction, every error it can cause, every outcome of the random measurements", "why_tests_cant": "Unboundedly many circuits, positions and errors; sampling only estimates rates.", "anchors": ["src/paper/main_collect_all.py:generate_honeycomb_circuit", "src/noise.py:NoiseModel.noisy_circuit", "src/honeycomb_layout.py:HoneycombLayout"]}
{"id": "C79", "title": "One error is one edge of the matching graph", "statement": "The detectors split in two sides: those of the sub-rounds whose parity is the observable's, together with those of the final data measurement, and the rest. In the generated noisy circuit any single error sets off at most two detectors on each side (at most four in the EM3_v2 style, which is attained), and an error that flips the observable sets off at least one on the observable's side (from width four on), whatever the random outcomes. So away from EM3_v2 every error is an edge of a graph with two unconnected halves, one of which decides the observable. In EM3_v2 every error that is not such an edge is the combination of two errors of the circuit that are: the detectors and the observable it flips are those that exactly one of the two flips.", "quantifier": "every layout size, every number of sub-rounds, all five styles, both observables, every noise instruction, every error it can cause, every outcome of the random measurements", "why_tests_cant": "decoding_test builds the graph of a few circuits; a detector over the wrong checks would give hyperedges at other sizes or rounds.", "anchors": ["src/honeycomb_circuit.py:generate_honeycomb_circuit", "src/decoding.py:detector_error_model_to_nx_graph", "src/honeycomb_circuit_test.py:test_circuit_has_decomposing_error_model"]}
{"id": "C80", "title": "Detectors are told apart by their coordinates", "statement": "In the generated noisy circuit no two detectors have the same coordinates (x, y, time, after all coordinate shifts).", "quantifier": "every layout size, every number of sub-rounds, all styles, both observables", "why_tests_cant": "Any number of sub-rounds, through the loop and the circuit's ends.", "anchors": ["src/honeycomb_circuit.py:generate_honeycomb_circuit", "src/measure_tracker.py:MeasurementTracker.append_detector"]}
{"id": "C81", "title": "Errors up to half the code distance never go unnoticed", "statement": "In the noisy circuit generated for any supported layout, any set of fewer than code_distance_1qdep/2 physical errors (any error each noise instruction can cause, at any places and in any repetition of the loop, several at one instruction included) either leaves the logical observable as it is or sets off at least one detector, whatever the random measurement outcomes; more precisely fewer than data_width/2 errors for the vertical observable and fewer than data_height/3 for the horizontal one, already on the observable's side. Hence two sets of errors with fewer than half the distance errors together that set off the same detectors do the same to the observable, so a decoder can in principle correct them. In the styles EM3 and EM3_v2 with at least two sub-rounds the bound is exact: for every patch, half the width (a third of the height) errors flip the observable unnoticed, whatever the random choices.", "quantifier": "every layout size, every number of sub-rounds, all five styles, both observables, every set of errors of that size, every outcome of the random measurements", "why_tests_cant": "Sets of errors on unbounded circuits; exponentially many.", "anchors": ["src/honeycomb_circuit.py:generate_honeycomb_circuit", "src/noise.py:NoiseModel.noisy_circuit", "src/honeycomb_layout.py:HoneycombLayout.code_distance_1qdep"]}
{"id": "C82", "title": "The code distance counts single-qubit errors", "statement": "In the noisy circuit generated for any supported layout, fewer than code_distance_1qdep Pauli errors that each hit one data qubit (as noise instructions of the circuit can cause them, at any places) never flip the logical observable without setting off a detector; hence fewer than half that many can be corrected. The bound is exact: each observable has its own distance (data_width for the vertical, 2*(data_height/3) for the horizontal one, code_distance_1qdep is the smaller), and in every circuit with positive noise there are exactly that many such errors that flip the observable with no detector noticing. If such errors may hit measurement qubits too, the same holds for fewer than data_width errors (vertical observable) or data_height/2 (horizontal); in the styles SD6, PC3 and SI1000 this covers every error that can happen, because none touches two data qubits. There the smaller number is real: on a patch four wide and six high (in each of these styles, horizontal observable, code_distance_1qdep 4) three errors of the two-qubit gates flip the observable unnoticed.", "quantifier": "every layout size, every number of sub-rounds, all five styles, both observables, every set of errors of that size, every outcome of the random measurements", "why_tests_cant": "Sets of errors on unbounded circuits; exponentially many.", "anchors": ["src/honeycomb_circuit.py:generate_honeycomb_circuit", "src/noise.py:NoiseModel.noisy_circuit", "src/honeycomb_layout.py:HoneycombLayout.code_distance_1qdep"]}
{"id": "C83", "title": "Single errors seen by the ancilla test", "statement": "In the double EPR circuit for any EM3 layout at least four data qubits wide, any one error that the circuit's noise can cause in sub-round s (counting from 0) leaves all four observables as they are or sets off a detector, whatever the random outcomes, exactly when 4 <= s <= sub_rounds - 3 and, for s = 4, sub_rounds >= 8. In every other noisy sub-round (the fourth, the last two, and s = 4 of seven sub-rounds) some single error flips an observable and no detector notices: the test's circuit has such errors in sub-rounds 3, 98 and 99.", "quantifier": "every layout size, every number of sub-rounds, every sub-round, every error the circuit's noise can cause, every outcome of the random measurements", "why_tests_cant": "The test draws ten thousand samples at noise 1e-5 and allows fifty failures; it cannot tell which sub-rounds are protected.", "anchors": ["src/honeycomb_circuit_double_epr_test.py:generate_double_epr_honeycomb_circuit", "src/honeycomb_circuit_double_epr_test.py:test_circuit"]}
{"id": "C84", "title": "The matching graph of a generated circuit", "statement": "Take any error model whose errors are pieces (everything, or the part on one side) of errors of a generated circuit. If each piece belongs to one side, detector_error_model_to_nx_graph builds a graph from it in every style (in EM3_v2 provided no piece has more than two symptoms), every edge joins detectors of one side or one detector and the boundary, and only edges of the observable's side change an observable. On a patch two errors cannot go around, errors on the same edge agree on the observable, so every edge carries the probability that an odd number of all its errors occur (the overwriting of C35 never happens). Whatever errors happen, any set of edges that ends at the detectors set off on the observable's side changes the observable exactly as the errors did, as long as errors and edges together are fewer than data_width (vertical observable) or data_height/2 (horizontal), in the EM3 styles data_width/2 or data_height/3; in particular closed sets of edges that change the observable are at least that long. If the model lists every error, such sets of edges exist, with at most four edges for each error.", "quantifier": "every layout size, every number of sub-rounds, all styles, both observables, every such model, every set of errors and of edges, every outcome of the random measurements", "why_tests_cant": "Unboundedly many graphs and exponentially many sets of edges; sampling shows average success rates only.", "anchors": ["src/decoding.py:detector_error_model_to_nx_graph", "src/decoding.py:decode_using_pymatching", "src/honeycomb_circuit.py:generate_honeycomb_circuit", "src/paper/write_honeycomb_networkx_graph.py"]}
{"id": "C85", "title": "Few errors are always decoded", "statement": "sample_decode_count_correct with the pymatching decoder, applied to a generated circuit and an error model that describes it completely, counts every shot as correct when no shot has more than n physical errors, the matcher returns the observables changed by some lightest set of edges that ends at the detectors set off (edges that connect the parts of the graph included), the weights of the ordinary edges lie between lo and K*lo (and 4nK*lo is below the 9999999999 of the connecting edges), and n + 4nK is less than data_width (vertical observable) or data_height/2 (horizontal), in the EM3 styles data_width/2 or data_height/3. With any other matcher, or more errors, it still returns the number of shots whose observables the matcher got right and never raises.", "quantifier": "every layout size, every number of sub-rounds, all styles, both observables, every such error model, every number of shots and errors in each, every matcher, every outcome of the random measurements", "why_tests_cant": "decoding_test samples a few circuits and checks that most shots are right; which shots must be right ranges over all sets of errors.", "anchors": ["src/decoding.py:sample_decode_count_correct", "src/decoding.py:decode_using_pymatching", "src/decoding.py:detector_error_model_to_pymatching_graph", "src/honeycomb_circuit.py:generate_honeycomb_circuit"]}
{"id": "C86", "title": "Collect, read back, plot", "statement": "Collecting data with collect_simulated_experiment_data into a new file, reading it with read_recorded_data and plotting it with plot_data ends without an exception for any different problems whose sampler counts correct shots (at most thirty apart from noise, positive rounds and distances, min_shots at most max_shots and max_batch): one curve per problem, in ascending order, over all its noise strengths, drawn from the sums of the sampler's answers, every point with min_shots to max_shots shots. main_example.py in particular draws two curves, labelled 10 rounds, 4x6 data and 10 rounds, 8x12 data, each over the noise strengths 0.001, 0.002, 0.003, with a thousand to a million shots a point, and a hundred errors unless there are a million shots, whatever stim draws and the matching answers and whatever test.csv held before.", "quantifier": "every list of problems, sampler, clock, previous file; for the script every outcome of stim's sampling and of the matching", "why_tests_cant": "The script takes hours, has no test, and its result is random.", "anchors": ["src/main_example.py:main", "src/collect_data.py:collect_simulated_experiment_data", "src/collect_data.py:read_recorded_data", "src/plotting.py:plot_data", "src/honeycomb_layout.py:HoneycombLayout.as_decoder_problem"]}
{"id": "C87", "title": "Shown and saved", "statement": "While data is collected the screen shows the CSV header and one line for every completed batch (or, for detection fractions, every problem), in order, also when the call ends by an exception; with out_path=None the same is shown and no file is touched. With an out_path, whenever the program is stopped - between any two steps, not only between batches - every record that was shown is already in the file: the file reads back as the totals of the earlier runs (unless discarded) and of the batches shown, or of these and one more. Without discard_previous_data the earlier contents of the file stay in place at every moment.", "quantifier": "every problem list, sampler, earlier file history, and every point at which the program stops", "why_tests_cant": "All crash points of an unbounded history of writes to two places.", "anchors": ["src/collect_data.py:collect_simulated_experiment_data", "src/collect_data.py:collect_detection_fraction_data"]}
{"id": "C88", "title": "Files of the internal decoder", "statement": "The internal decoder's binary is the first that exists of ./, src/ and ../internal_decoder.binary (RuntimeError if there is none). It is given the error model's text and the shots file in a new temporary directory, and the call returns exactly the rows of the predictions file it wrote there, FileNotFoundError if it wrote none. However the call ends, the temporary directory is gone; no other file is changed if the binary changes none, except that a failed command leaves repro.dem, repro.dets and repro.stim and raises CalledProcessError. These hold the model, the shots and the circuit, but not exactly: each copied file gets one more newline.", "quantifier": "every shot matrix, every error model text, every behaviour of the binary, every state of the file system", "why_tests_cant": "Behaviours of an external program and states of the file system are unbounded.", "anchors": ["src/decoding.py:decode_using_internal_decoder", "src/decoding.py:internal_decoder_path"]}
{"id": "C89", "title": "Circuits of the surface code problems", "statement": "Every surface code problem of main_collect_all.py reads one file, the one named by its description's noise, observable and distance: its circuit depends on no other file, and a missing file raises. The circuit runs exactly the file's instructions in order, with only noise channels between them; every qubit gets the noise of its gate or of idling once per moment (provided the moment touches no qubit twice), with the strengths of the noise and physical error rate in the description. It is made exactly when that noise knows every gate of the file, otherwise NotImplementedError is raised. Other noise names are refused, but only after the file has been read.", "quantifier": "every directory, contents of the files, and problem of the table", "why_tests_cant": "Any circuit may be in the files, with any nesting of loops; the files are not part of the tests.", "anchors": ["src/paper/main_collect_all.py:surface_code_circuit", "src/paper/main_collect_all.py:surface_code_problem", "src/noise.py:NoiseModel.noisy_circuit"]}
