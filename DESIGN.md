# Formal model of honeycomb_threshold in Rocq

Model: `/verif/rocq/theories` (logical name `Verif`), Coq 8.16.1, standard library only.
Source: `/repo/src` at the pinned commit, read as text and never executed.

## Method

* Each Python function becomes an executable Gallina function with the same
  case structure; every definition cites the file and lines it models.
* Exceptions are values (`res A = Ok a | Err e`), so "never raises" and
  "raises exactly when" are theorems.
* Python `complex` positions are pairs of `Z` in half units (all positions in
  the layout are multiples of 1/2), so `wrap` is `mod`.
* stim circuits are a syntax tree (`Stim.v`): instructions with a name,
  targets and arguments, and REPEAT blocks; `append_operation` fuses exactly
  as stim's does, `+=` concatenates.
* Meaning of circuits is a separate specification (`Frame.v`): the Pauli-frame
  semantics with gauge randomisation (stim's detector sampler).  A detector is
  deterministic iff its parity is 0 in every run, for every gauge stream.
* Properties are stated in `Prop_*.v` files in terms of the modelled API and
  small specifications; each theorem sits beside an `Example` that meets its
  hypotheses.  Claims the code violates become `*_refuted` theorems with a
  witness, next to the strongest true variant.

## Trusted base

* Coq's kernel (and `vm_compute`, used in examples and finite case checks).
* `Print Assumptions` per theorem (printed by the build): "Closed under the
  global context" for everything not about real numbers; the theorems about
  probabilities, logarithms and real search use the axioms of Coq's `Reals`
  (`ClassicalDedekindReals.sig_forall_dec`, `sig_not_dec`,
  `FunctionalExtensionality.functional_extensionality_dep`) and
  `Classical_Prop.classic` where continuity/`ln`/`Rpower` facts need it. `C84_model_exists` uses `Classical_Prop.classic` only.
* The reading of Python/stim/numpy/networkx/csv semantics written in the
  comments of the model.

Not modelled: floating-point rounding (reals or rationals are used), the stim
sampler and pymatching / internal decoder themselves (arbitrary functions),
operating-system behaviour (files are lists of lines; atomic line append),
matplotlib/SVG rendering.

## Per-property plan

| id | modelled | how |
|----|----------|-----|
| C01-C06 | `Layout.v`: every property of `HoneycombLayout`, `Edge`, `EdgeType` | characterise positions by arithmetic conditions (`In` lemmas), then `lia`/case analysis on residues; counting by NoDup + bijections |
| C07-C10 | observables `obs_*`; Pauli products as functions position -> (x,z) bits | anticommutation parity computed by residues; rows/columns wrap |
| C11 | `__post_init__`, `noise_model` dispatch | case analysis; refuted variant for non-positive sizes |
| C12-C15 | `Tracker.v`: `MeasurementTracker`, `Prev` | induction over call histories against an abstract value semantics; negative offsets (`Prop_Tracker2.v`) count from the front of the list |
| C16,C22,C23 | `Circuit.v`: all generators for SD6, SI1000, PC3, EM3 | invariants on tracker histories; fuel-free structural recursion on rounds |
| C17 | same + `flatten` spec and an unrolled reference generator | time-shift simulation relation between tracker states |
| C18-C20 | `Frame.v` semantics | data-frame invariant: hex parity S_h is conserved by edge measurements; per-style refinement to the abstract edge-measurement program |
| C21 | moments of the flattened circuit | per-moment distinctness from matching (C04) |
| C24 | anticommutation of single Paulis with hexes | C06 counting |
| C25, C66, C67 | the stabilizer group right after one sub-round: its checks and all hex stabilizers (`Distance.v`) | the syndrome equations in grid coordinates are closed curves on a torus (`Torus.v`); four winding numbers decide the class, zero winding is filled by an explicit product, non-zero winding forces a qubit in every column or every row |
| C26-C30,C32 | `Noise.v`: `NoiseModel`, `noisy_op`, `noisy_circuit`, gadget | induction on circuits |
| C31 | reals | Walsh-Hadamard / product over characters |
| C33-C38 | `Decoding.v`: flattening, nx graph, counting, file formats | induction; sampler and decoder abstract |
| C39-C45 | `Collect.v`: loop, CSV rows, aggregation | loop over arbitrary sampler/clock streams; crash points = prefixes |
| C46-C51 | `Prob.v`: searches, likelihood, least squares | exact reals; Stirling bounds of C49 from `Stirling.v` (Wallis product by derivatives, standard library only) |
| C52-C55, C59 | `Paper.v` | enumeration + arithmetic; induction over entry lists |
| C54, C60-C62 | `PaperFit.v` | exact reals, least squares of C51 |
| C56-C57 | `Diagrams.v`, `legend_label` | induction; refutation |
| C58 | `Collect.v`: detection fraction rows | induction over the problem list |
| C63 | `Diagrams.v`: `_diagram_3d`, strokes | cell-by-cell specification of the drawing, invariant of the drawing loop |
| C64 | `Diagrams.v`: `plot_circuit` | simulation between the plotting loop and the moments of the circuit, in both directions (accepted exactly if drawable) |
| C65 | C64 + generator shape (`Gen3.v`) | every instruction of every style is drawable on declared qubits; noisy circuits (`Prop_Diagrams6.v`): induction over the noise loop, what the picture looks at stays the same; EM3_v2 meets its auxiliary qubit first |
| C68-C70 | `Plot.v`: `plot_data`, `format_tick`, the axis ticks | sorted grouping of C43, likelihood bounds of C50, per-cell rates of C48; tick loop by powers of ten |
| C71 | `Plot.v`: `plot_thresholds` and its legend | group lookup; the panels of a table problem by its shape; legend refuted when a panel lacks a size |
| C72 | `Plot.v`: `plot_detection_fraction` and its legend | rank of a noise value among all values; legend refuted for the paper's data |
| C73-C74 | `Plot.v`: `plot_lambda_combo`, `plot_teraquop_combo`, `plot_lambda_line_fits_combo` | induction over cases and groups; missing marks of the Lambda figure refuted |
| C75-C77 | `Epr.v`: the double EPR circuit, for any layout | invariant of the sub-round loop relating the tracker, the record, the detectors and the four joint parities; the C66 classification of undetected errors |
| C78 | `FaultSpec.v`: what one error of a noise instruction is, and a run in which it happens; `FaultRun.v` and the other `Fault*.v`: the generated noisy circuit cut at its TICKs | an invariant of the faulty run for each moment of each style: the state is that of a fault-free run changed by a Pauli on the ends of one check and one wrong result of that check; every noise instruction moves between such states; the final record then has no silent effect (C66-style argument on the hexagons around the check). `C78_width_two_refuted`: width 2 fails |
| C79 | `FaultCount.v`: `watches` splits the detectors by the parity of their sub-round | the same final error as in C78; the value of every detector in terms of it; the ones that fire are listed by sub-round and hexagon and counted by C80. `Prop_Match2.v`: an EM3_v2 error is located in its check, split into its data part and its record part, and runs add up (`FaultLin.v`) |
| C80 | `FaultCount.v` | coordinates of the detectors of each sub-round and of the end (C23) |
| C81 | `run_errors`, `errors_of`, `error_count` in `FaultSpec.v`; `FaultLin.v`, `FaultLine.v`, `FaultDist.v` | runs are linear: a run with errors is the fault-free run plus one run per error (`errors_add`). The detectors inside a strip of hexagons between the observable and a parallel line add up to what the errors do to the observable, except for errors that touch the line; fewer errors than half the width (a third of the height) leave a line free. Reached for EM3 and EM3_v2 (`FaultPairs.v`, `Prop_Dist4.v`, `Prop_Dist5.v`): the two-qubit noise of one sub-round's pair measurements hits the chain of C82 two qubits at a time |
| C82 | `one_data`, `data_only` in `FaultSpec.v`; `FaultTilt.v`, `FaultReach.v`, `FaultFinal.v` | the induction of C81 with finer lines: an error on one data qubit crosses the observable's winding line at most at one of `data_width` columns (or at one of `data_height` tilted sheets, a data-only error at two of every three heights), so a sheet that no error crosses is left, and the detectors between it and the observable add up to the flip. Reached: X errors on a row (or a zigzag column) of data qubits just before the final measurement satisfy every detector and flip the observable; the noise model puts an X_ERROR on all data qubits there. With measurement qubits in play the bound for the horizontal observable drops to `data_height/2`; `Prop_Dist6.v` runs one circuit of each style with three errors of one DEPOLARIZE2 on the model to show that this is needed, and carries the result to all random outcomes by linearity |
| C83 | `Epr.v`, `FaultSpec.v`; `EprFault.v` | a run with an error is the run without it plus the run of the error alone (linearity, `FaultLin.v`); the latter by an invariant giving every tracked result, detector and observable as a sum of wrong check results. Noticed: the hexagons at the two ends leave only the check itself, which commutes with all four operators. Unnoticed: a Pauli in the basis of the neighbouring sub-round on an observable, or on both ends of a check that has one end on one |
| C84 | `Decoding.v`, `FaultSpec.v`; `Prop_Graph.v`, `Prop_Graph2.v` | a spec of error models in terms of single faulty runs; the graph's edges are histories of the errors on a pair (C34); each edge is turned into the record of an error, and C81/C82 applied to errors and edges together; C79 for the existence of edges |
| C85 | `Decoding.v`, `FaultSpec.v`; `Prop_Decode.v` | lightest solutions in the graph given to pymatching have at most 4nK edges and none of the connecting ones (weights); C84 on errors and edges together; C37 for the counting |
| C86 | `Example.v`; `Prop_Example.v` | C39-C41 (loop, file), C68 (curves) put together; for the script C84/C37 show that its sampler counts |
| C87 | `Console.v`; `Prop_Console.v` | the steps of the two collecting functions as a list (show, create, save); any prefix of the list is a crash point; the number of shown and saved records follows by induction over the batches, reading back by C41/C42's `holds` |
| C88 | `InternalDecoder.v`; `Prop_InternalDecoder.v` | files as a function from paths to contents, the command as an arbitrary function of command line and files; case analysis on how the call ends; C38 for the predictions file |
| C89 | `Surface.v`; `Prop_Surface.v` | files as a function from paths to circuits; the table's problems by case analysis, then C26, C28, C29 for the circuit read |

## Coverage of /repo/src

| file | modelled | not modelled |
|------|----------|--------------|
| honeycomb_layout.py | everything (`Layout.v`) | `__repr__`, `__hash__` |
| measure_tracker.py | everything (`Tracker.v`) | `Prev.__repr__` |
| honeycomb_circuit.py | everything (`Circuit.v`) | - |
| noise.py | everything (`Noise.v`) | - |
| decoding.py | everything (`Decoding.v`, `InternalDecoder.v`) | what stim's sampler, pymatching and the internal decoder compute; the message on stderr |
| collect_data.py | everything (`Collect.v`, `Console.v`) | - |
| circuit_diagrams.py | everything (`Diagrams.v`) | float rounding of coordinates |
| probability_util.py | everything (`Prob.v`) | float rounding; numpy broadcasting (scalars only); scipy's optimiser (any exact one) |
| plotting.py | everything (`Prob.v`, `Plot.v`) | matplotlib itself, grid lines, axis titles |
| paper/aggregate_csv_data.py | everything (`Collect.v`, `Paper.v`) | command line parsing |
| paper/main_collect_all.py | everything (`Paper.v`, `Surface.v`) | parsing the text of the circuit files; command line parsing |
| paper/main_render_threshold_figure.py | panels, curves, ticks, legend texts (`Plot.v`) | figure sizes, titles, saving |
| paper/main_render_detection_fraction_figure.py | panels, lines, legend (`Plot.v`) | axis decoration, saving |
| paper/main_render_lambda_figure.py | `LambdaGroup` (`Paper.v`, `PaperFit.v`, `Warnings.v`), the three figures' data (`Plot.v`) | axis decoration, saving |
| honeycomb_circuit_double_epr_test.py | the circuit generator (`Epr.v`) | the sampled test itself |
| main_example.py, paper/write_honeycomb_networkx_graph.py | everything (`Example.v`) | pickling the graph, showing the plot |
| hack_pycharm_pybind_pytest_workaround.py | - | changes how objects are printed in a debugger |
