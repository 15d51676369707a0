(** src/honeycomb_circuit_double_epr_test.py: two logical qubits of an EM3 honeycomb
    memory entangled with two noise-free ancilla qubits.

    The generator in the file builds one fixed layout (4 by 6 data qubits, 100
    sub-rounds); [double_epr_circuit] takes the layout as an argument, and
    [generate_double_epr_honeycomb_circuit] is its value at that layout. *)
From Coq Require Import QArith.
From Verif Require Import Prelude Layout LayoutFacts Tracker Stim Circuit Noise.
Open Scope Z_scope.

(** noise.py 133-213 with an explicit qs *)
Definition noisy_circuit_on (nm : noise_model) (qubits : list nat) (c : circuit) : res circuit := noisy_body nm qubits (Rep 1 c).

(** lines 27-52.  Observable ids are natural numbers here; the code passes 0..3. *)
Definition anc_a (lay : layout) : nat := Z.to_nat (num_qubits lay).
(** line 29 *)
Definition anc_b (lay : layout) : nat := S (anc_a lay).
(** lines 30-35 *)
Definition ancilla_observables (lay : layout) : list target :=
  [TP PX (anc_a lay); TP PZ (anc_a lay); TP PX (anc_b lay); TP PZ (anc_b lay)].
(** lines 36-41 *)
Definition logical_observables (lay : layout) (sub_round : Z) : list (pauli * list cpx) :=
  [obs_h_before_sub_round lay sub_round; obs_v_before_sub_round lay sub_round;
   obs_h_before_sub_round lay (sub_round + 3); obs_v_before_sub_round lay (sub_round + 3)].
(** lines 27-52 *)
Definition measure_obs_anc_parities (lay : layout) (sub_round : Z) (observable_ids : list nat) : res circuit :=
  for_ observable_ids (fun obs_id c =>
    match nth_error (ancilla_observables lay) obs_id, nth_error (logical_observables lay sub_round) obs_id with
    | Some a, Some (p, obs_qubits) =>
        let! l := mapM (q2i lay) obs_qubits in
        let c := append_operation c "MPP" (a :: flat_map (fun i => [TComb; TP p i]) l) [] in
        Ok (append_operation c "OBSERVABLE_INCLUDE" [TRec (-1)] [int_arg (Z.of_nat obs_id)])
    | _, _ => Err IndexError
    end) [].

(** lines 67-98: one pass of the loop, before the noise. *)
Definition epr_sub_round (lay : layout) (observable_ids : list nat) (sub_round : Z) (tr : mtrack) : res (circuit * mtrack) :=
  let edges := round_edges lay sub_round in
  let p := sub_round_edge_basis lay sub_round in
  (* 72-81 *)
  let! ts := mapM (fun e => let! a := q2i lay (e_left e) in let! b := q2i lay (e_right e) in
                            Ok [TP p a; TComb; TP p b]) edges in
  let c := append_operation [] "MPP" (concat ts) [] in
  (* 83 *)
  let! tr := add_measurements key_eqb tr (map (fun e => K1 (KE e)) edges) in
  (* 84-90 *)
  let! c := for_ observable_ids (fun obs_id c =>
      let oe := if Nat.even obs_id then obs_h_edges lay else obs_v_edges lay in
      let! ts := get_record_targets tr (map (fun e => K1 (KE e)) (obs_edges_in oe edges)) None in
      append_obs c ts obs_id) c in
  (* 91-92 *)
  let! hs1 := round_hex_centers lay ((sub_round - 1) mod 3) in
  let! tr := for_ hs1 (fun h tr =>
      add_group key_eqb tr (map (fun e => K1 (KE e)) (first_edges_around_hex lay h)) (K1 (KHalf (KC h)))) tr in
  (* 93-97 *)
  let! hs2 := round_hex_centers lay ((sub_round - 2) mod 3) in
  let! (c, tr) := for_ hs2 (fun h '(c, tr) =>
      let! tr := (if 3 <=? sub_round
                  then add_group key_eqb tr (map (fun e => K1 (KE e)) (second_edges_around_hex lay h) ++ [K1 (KHalf (KC h))]) (K1 (KC h))
                  else Ok tr) in
      let! c := (if 6 <=? sub_round then append_detector tr [K1 (KC h); Prev (K1 (KC h)) 1] c [] else Ok c) in
      Ok (c, tr)) (c, tr) in
  (* 98 *)
  Ok (tick c, tr).

(** lines 62-107 *)
Definition double_epr_circuit (lay : layout) : res circuit :=
  let qubits := seq 0 (Z.to_nat (num_qubits lay)) in
  let observable_ids := [0; 1; 2; 3]%nat in
  let! (mem, _) := for_ (zrange 0 (sub_rounds lay)) (fun sub_round '(mem, tr) =>
      let! (c, tr) := epr_sub_round lay observable_ids sub_round tr in
      let! c := (if (3 <=? sub_round) && (sub_round <=? sub_rounds lay)
                 then let! nm := layout_noise_model lay in noisy_circuit_on nm qubits c
                 else Ok c) in
      Ok (mem ++ c, tr)) ([], tr_init) in
  let! first := measure_obs_anc_parities lay 0 observable_ids in
  let! last := measure_obs_anc_parities lay (sub_rounds lay) observable_ids in
  Ok (first ++ mem ++ last).

(** lines 55-61; the noise is the number 1e-5 *)
Definition epr_layout (dw dh sr : Z) (p : Q) : res layout :=
  HoneycombLayout dw dh sr "EM3" "--- X1 Z1 X2 Z2 all entangled with ancillae ----" p.
(** lines 55-107 *)
Definition generate_double_epr_honeycomb_circuit : res circuit :=
  let! lay := epr_layout 4 6 100 (1 # 100000) in double_epr_circuit lay.
