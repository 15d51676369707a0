(** Model of src/main_example.py: collecting data, reading it back and plotting it; and of
    the batches that collect_simulated_experiment_data takes for honeycomb layouts.

    What stim, pymatching and the clock answer is arbitrary: [dem] is the error model of a
    circuit, [draw] the sampler of the t-th call, [matcher] the matching (which
    sees only the circuit's graph), [clock] the
    seconds of the t-th call.  [lit] is the float that a decimal literal denotes. *)
From Coq Require Import QArith.
From Coq Require Import Reals.
From Coq Require Import Ascii.
From Verif Require Import Prelude Layout Stim Circuit Noise Frame Detectors Decoding Collect Paper Plot.
Open Scope Z_scope.

Section Script.
Context {F : Type} (fmt : F -> string) (parse : string -> option F) (fadd : F -> F -> F) (fzero : F) (feqb fleb : F -> F -> bool) (lit : Q -> F).

(** honeycomb_layout.py lines 137-151: as_decoder_problem; the circuit maker is the layout *)
Definition as_decoder_problem (lay : layout) (decoder : string) : desc F * layout :=
  let d := as_decoder_problem_desc lay decoder in
  (mkDesc (d_width d) (d_height d) (d_distance d) (d_qubits d) (d_rounds d) (lit (d_noise d)) (d_style d) (d_obs d) (d_decoder d), lay).

Section World.
Context (dem : circuit -> dmodel) (draw : nat -> circuit -> nat -> res array) (matcher : circuit -> graph -> list bool -> list bool)
  (internal : array -> bool -> res array) (clock : nat -> F).

(** stim.Circuit.num_detectors, num_observables *)
Definition circuit_detectors (c : circuit) : nat := length (detectors 0 0 0 0 (flatten c)).
(** stim.Circuit.num_observables *)
Definition circuit_observables (c : circuit) : nat :=
  fold_right (fun i n => Nat.max (if (canon (iname i) =? "OBSERVABLE_INCLUDE")%string then match obs_arg (iargs i) with Ok k => S k | Err _ => O end else O) n) O (flatten c).
(** collect_data.py lines 155-161: one batch *)
Definition take_batch (lay : layout) (decoder : string) (t : nat) (n : Z) : res (Z * F) :=
  let! c := generate_honeycomb_circuit lay in
  let nd := circuit_detectors c in
  let no := circuit_observables c in
  let! k := sample_decode_count_correct nd no None (draw t c) (decode_using_pymatching (matcher c) (dem c) nd no) internal (Z.to_nat n) decoder in
  Ok (Z.of_nat k, clock t).
(** The problem with this description is asked.  Simplification: if several problems have
    the same description, the first one's circuit is used. *)
Definition ask (problems : list (desc F * layout)) (t : nat) (d : desc F) (n : Z) : res (Z * F) :=
  match find (fun p => desc_eqb feqb d (fst p)) problems with
  | Some (d, lay) => take_batch lay (d_decoder d) t n
  | None => Err RuntimeError
  end.
End World.

(** main_example.py lines 7-30, for any problems and sampler: the file after the call, and
    the curves drawn *)
Definition collect_and_plot (P : params) (sample : nat -> desc F -> Z -> res (Z * F)) (ds : list (desc F)) (f : file) : file * res (list (curve F)) :=
  let '(f, o) := collect_simulated_experiment_data fmt P sample ds true f in
  (f, let! _ := o in
      let! data := read_recorded_data parse fadd fzero feqb [f] in
      plot_data fzero feqb fleb data 0).
(** lines 9-18 *)
Definition example_layouts : list layout :=
  flat_map (fun d => map (fun p => mkLayout (d * 4) (d * 6) 30 "EM3_v2" "H" p) [1 # 1000; 2 # 1000; 3 # 1000]%Q) [1; 2].
(** lines 9-18: the problems *)
Definition example_problems : list (desc F * layout) := map (fun lay => as_decoder_problem lay "pymatching") example_layouts.
(** lines 22-24, and the defaults of collect_data.py lines 100-101 *)
Definition example_params : params := mkParams (10 ^ 3) (10 ^ 6) None 1 (10 ^ 2).
(** lines 6-30: main *)
Definition main_example dem draw matcher internal clock (f : file) : file * res (list (curve F)) :=
  collect_and_plot example_params (ask dem draw matcher internal clock example_problems) (map fst example_problems) f.
End Script.

(** paper/write_honeycomb_networkx_graph.py lines 15-24: the graph that is written *)
Definition graph_layout : layout := mkLayout 4 6 (12 * 3) "SD6" "H" (1 # 1000).
(** paper/write_honeycomb_networkx_graph.py lines 15-24 *)
Definition written_graph (dem : circuit -> dmodel) : res graph :=
  let! c := generate_honeycomb_circuit graph_layout in
  detector_error_model_to_nx_graph (dem c).
