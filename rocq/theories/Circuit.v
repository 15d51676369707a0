(** Model of src/honeycomb_circuit.py: the generators before noise is added.

    The tracker, which the Python code mutates, is threaded through the calls.
    A Python set of edges is a duplicate-free list: the order in which Python
    iterates over it does not matter (C14). *)
From Coq Require Import QArith.
From Verif Require Import Prelude Layout Tracker Stim.
Open Scope Z_scope.

(** Tracker keys used by the generators: a position, an edge, or ('1/2', k). *)
Inductive key :=
| KC (c : cpx)
| KE (e : edge)
| KHalf (k : key).
(** equality of keys *)
Fixpoint key_eqb (a b : key) : bool :=
  match a, b with
  | KC x, KC y => cpx_eqb x y
  | KE x, KE y => edge_eqb x y
  | KHalf x, KHalf y => key_eqb x y
  | _, _ => false
  end.
(** the MeasurementTracker of the generators *)
Definition mtrack := tracker (K := key).
(** a key as an argument of the tracker *)
Definition K1 (k : key) : karg (K := key) := AKey (Some k).

(** qubit indices as targets *)
Definition qs (l : list nat) : list target := map TQ l.
(** a coordinate in half units as an argument *)
Definition coord (z : Z) : num := Num (z # 2).
(** an integer as an argument *)
Definition int_arg (z : Z) : num := Num (z # 1).
(** [c.real, c.imag, 0] as arguments (lines 91, 101, 110, 410 and 418) *)
Definition coords3 (c : cpx) : list num := [coord (fst c); coord (snd c); int_arg 0].

(** measure_tracker.py 74-82 *)
Definition append_detector (tr : mtrack) (keys : list (karg (K := key))) (out : circuit) (coords : list num) : res circuit :=
  let! ts := get_record_targets tr keys None in
  match ts with
  | None => Ok out
  | Some ts => Ok (append_operation out "DETECTOR" (map TRec ts) coords)
  end.
(** append_operation("OBSERVABLE_INCLUDE", targets, index); passing None as the
    targets raises TypeError. *)
Definition append_obs (out : circuit) (ts : option (list Z)) (index : nat) : res circuit :=
  match ts with
  | None => Err TypeError
  | Some ts => Ok (append_operation out "OBSERVABLE_INCLUDE" (map TRec ts) [int_arg (Z.of_nat index)])
  end.

(** for x in xs: <body>, threading a state. *)
Fixpoint for_ {A S} (xs : list A) (body : A -> S -> res S) (s : S) : res S :=
  match xs with
  | [] => Ok s
  | x :: r => let! s' := body x s in for_ r body s'
  end.
(** while cond: body.  The fuel is always enough (see [CircuitFacts]). *)
Fixpoint while_ {S} (fuel : nat) (cond : S -> bool) (body : S -> res S) (s : S) : res S :=
  if cond s then
    match fuel with
    | O => Err OutOfFuel
    | Datatypes.S f => let! s' := body s in while_ f cond body s'
    end
  else Ok s.

(** set(lay.obs_edges) & set(lay.round_edges(k)): lines 224 and 402 *)
Definition obs_edges_in (oe re : list edge) : list edge :=
  filter (fun e => if in_dec edge_dec e oe then true else false) re.

(** lines 370-421 *)
Definition sub_round_measurements_and_detectors (lay : layout) (tr : mtrack) (sub_round : Z)
  : res (circuit * mtrack) :=
  let xor_vs_previous := (style lay =? "PC3")%string in
  let do_measurement := negb (is_em3 (style lay)) in
  let edges := round_edges lay sub_round in
  (* 391-392 *)
  let! moment :=
    (if do_measurement
     then let! cs := mapM (q2i lay) (map e_center edges) in Ok (append_operation [] "M" (qs cs) [])
     else Ok []) in
  (* 393 *)
  let! tr := add_measurements key_eqb tr (map (fun e => K1 (KHalf (KE e))) edges) in
  (* 395-397 *)
  let offsets := if xor_vs_previous then [0; 1] else [0] in
  let! tr := for_ edges (fun e tr =>
      add_group key_eqb tr (map (fun t => Prev (K1 (KHalf (KE e))) t) offsets) (K1 (KE e))) tr in
  (* 400-407 *)
  let! moment :=
    (if negb xor_vs_previous then
       let! oe := obs_edges lay in
       let! ts := get_record_targets tr (map (fun e => K1 (KE e)) (obs_edges_in oe edges)) None in
       let! ix := obs_index lay in
       append_obs moment ts ix
     else Ok moment) in
  (* 409-411 *)
  let! moment :=
    (if sub_round =? 0 then
       let! ob := obs_before_sub_round lay 0 in
       if pauli_eqb (fst ob) PX then
         for_ (round_edges lay 0) (fun e m => append_detector tr [K1 (KE e)] m (coords3 (e_center e))) moment
       else Ok moment
     else Ok moment) in
  (* 413-415 *)
  let! hs1 := round_hex_centers lay ((sub_round - 1) mod 3) in
  let! tr := for_ hs1 (fun h tr =>
      add_group key_eqb tr (map (fun e => K1 (KE e)) (first_edges_around_hex lay h)) (K1 (KHalf (KC h)))) tr in
  (* 417-419 *)
  let! hs2 := round_hex_centers lay ((sub_round - 2) mod 3) in
  let! (moment, tr) := for_ hs2 (fun h '(moment, tr) =>
      let! tr := add_group key_eqb tr
                   (map (fun e => K1 (KE e)) (second_edges_around_hex lay h) ++ [K1 (KHalf (KC h))]) (K1 (KC h)) in
      let! moment := append_detector tr [K1 (KC h); Prev (K1 (KC h)) 1] moment (coords3 h) in
      Ok (moment, tr)) (moment, tr) in
  (* 420 *)
  Ok (append_operation moment "SHIFT_COORDS" [] [int_arg 0; int_arg 0; int_arg 1], tr).

(** lines 361-367 *)
Definition sub_round_resets (lay : layout) (sub_round : Z) : res circuit :=
  let! cs := mapM (q2i lay) (map e_center (round_edges lay sub_round)) in
  Ok (append_operation [] "R" (qs cs) []).

(** lines 345-358 *)
Definition sub_round_2q_ops (lay : layout) (sub_round : Z) : res (circuit * circuit) :=
  let! triples := mapM (fun e => let! qa := q2i lay (e_left e) in let! qb := q2i lay (e_right e) in
                                 let! qc := q2i lay (e_center e) in Ok (qa, qb, qc)) (round_edges lay sub_round) in
  Ok (append_operation [] "CNOT" (qs (flat_map (fun '(qa, qb, qc) => [qa; qc]) triples)) [],
      append_operation [] "CNOT" (qs (flat_map (fun '(qa, qb, qc) => [qb; qc]) triples)) []).

(** lines 334-342 *)
Definition cycle_data (lay : layout) (first second : bool) : res circuit :=
  if first && second then let! l := data_qubit_indices lay in Ok (append_operation [] "C_ZYX" (qs l) [])
  else if first then let! l := data_qubit_indices_1st lay in Ok (append_operation [] "C_ZYX" (qs l) [])
  else if second then let! l := data_qubit_indices_2nd lay in Ok (append_operation [] "C_ZYX" (qs l) [])
  else Ok [].

(** append_operation("TICK", []) *)
Definition tick (c : circuit) : circuit := append_operation c "TICK" [] [].

(** lines 314-331 *)
Definition sd6_pipeline_step (lay : layout) (sub_round : Z) (tr : mtrack) : res (circuit * mtrack) :=
  let! (_, b1) := sub_round_2q_ops lay sub_round in
  let! (a2, _) := sub_round_2q_ops lay (sub_round + 1) in
  let! r3 := sub_round_resets lay (sub_round + 2) in
  let! c := cycle_data lay true true in
  let result := tick (a2 ++ b1) ++ r3 ++ c in
  let! (m, tr) := sub_round_measurements_and_detectors lay tr sub_round in
  Ok (tick (result ++ m), tr).

(** One iteration of a loop that appends sd6_pipeline_step to the result. *)
Definition sd6_add_step (lay : layout) (sub_round : Z) (s : circuit * mtrack) : res (circuit * mtrack) :=
  let '(result, tr) := s in
  let! (c, tr) := sd6_pipeline_step lay sub_round tr in Ok (result ++ c, tr).

(** lines 127-135: a single sub-round. *)
Definition sd6_single (lay : layout) (tr : mtrack) : res (circuit * mtrack) :=
  let! r := sub_round_resets lay 0 in
  let! c := cycle_data lay true true in
  let result := tick (r ++ c) in
  let! (a, _) := sub_round_2q_ops lay 0 in
  let result := tick (result ++ a) in
  let! (_, b) := sub_round_2q_ops lay 0 in
  let result := tick (result ++ b) in
  let! (m, tr) := sub_round_measurements_and_detectors lay tr 0 in
  Ok (result ++ m, tr).
(** lines 138-145: filling the pipeline. *)
Definition sd6_begin (lay : layout) : res circuit :=
  let! r := sub_round_resets lay 0 in
  let! c := cycle_data lay true false in
  let result := tick (r ++ c) in
  let! (a, _) := sub_round_2q_ops lay 0 in
  let result := tick (result ++ a) in
  let! r := sub_round_resets lay 1 in
  let! c := cycle_data lay true true in
  Ok (tick (result ++ r ++ c)).
(** lines 164-174: draining the pipeline. *)
Definition sd6_end (lay : layout) (s : circuit * mtrack) : res (circuit * mtrack) :=
  let '(result, tr) := s in
  let n := sub_rounds lay in
  let! (_, b2) := sub_round_2q_ops lay (n - 2) in
  let! (a3, b3) := sub_round_2q_ops lay (n - 1) in
  let result := tick (result ++ a3 ++ b2) in
  let! (m, tr) := sub_round_measurements_and_detectors lay tr (n - 2) in
  let result := tick (result ++ m) in
  let! c := cycle_data lay false true in
  let result := tick (result ++ c) in
  let result := tick (result ++ b3) in
  let! (m, tr) := sub_round_measurements_and_detectors lay tr (n - 1) in
  Ok (result ++ m, tr).
(** lines 176-182: undoing the basis changes. *)
Definition sd6_close (lay : layout) (result : circuit) : res circuit :=
  let n := sub_rounds lay in
  let! l := data_qubit_indices lay in
  let result :=
    if (n + 1) mod 3 =? 0 then append_operation result "C_ZYX" (qs l) []
    else if (n + 2) mod 3 =? 0 then append_operation result "C_XYZ" (qs l) []
    else result in
  Ok (tick result).

(** lines 121-183 *)
Definition generate_rounds_sd6 (lay : layout) (tr : mtrack) : res (circuit * mtrack) :=
  let n := sub_rounds lay in
  let! (result, tr) :=
    (if n =? 0 then Err NotImplementedError
     else if n =? 1 then sd6_single lay tr
     else
       let! result := sd6_begin lay in
       (* 148-151 *)
       let! (next, result, tr) :=
         while_ 5 (fun '(next, _, _) => (next <? 4) && (next <? n - 2))
           (fun '(next, result, tr) =>
              let! (result, tr) := sd6_add_step lay next (result, tr) in Ok (next + 1, result, tr))
           (0, result, tr) in
       (* 152-159 *)
       let iterations := Z.max 0 (n - next - 2) / 3 in
       let! (next, result, tr) :=
         (if 1 <? iterations then
            let! (loop_body, tr) := sd6_add_step lay next ([], tr) in
            let! (loop_body, tr) := sd6_add_step lay (next + 1) (loop_body, tr) in
            let! (loop_body, tr) := sd6_add_step lay (next + 2) (loop_body, tr) in
            Ok (next + iterations * 3, result ++ circuit_mul loop_body iterations, tr)
          else Ok (next, result, tr)) in
       (* 160-161 *)
       let! (result, tr) := for_ (zrange next (n - 2)) (sd6_add_step lay) (result, tr) in
       sd6_end lay (result, tr)) in
  let! result := sd6_close lay result in
  Ok (result, tr).

(** f"{basis}CX" *)
Definition basis_cx (p : pauli) : string := match p with PX => "XCX" | PY => "YCX" | PZ => "ZCX" end.

(** lines 194-206: one pass of the loop body, up to [moments.append(circuit)]. *)
Definition pc3_moment (lay : layout) (k : Z) (tr : mtrack) : res (circuit * mtrack) :=
  let n := sub_rounds lay in
  let! circ :=
    (if (0 <=? k) && (k <? n) then
       let! l := mapM (q2i lay) (flat_map (fun e => [e_left e; e_center e]) (round_edges lay k)) in
       Ok (append_operation [] (basis_cx (sub_round_edge_basis lay k)) (qs l) [])
     else Ok []) in
  let! circ :=
    (if (0 <=? k - 1) && (k - 1 <? n) then
       let! l := mapM (q2i lay) (flat_map (fun e => [e_right e; e_center e]) (round_edges lay (k - 1))) in
       Ok (append_operation circ (basis_cx (sub_round_edge_basis lay (k - 1))) (qs l) [])
     else Ok circ) in
  let! (circ, tr) :=
    (if (0 <=? k - 2) && (k - 2 <? n) then
       let! (m, tr) := sub_round_measurements_and_detectors lay tr (k - 2) in Ok (circ ++ m, tr)
     else if k - 2 <=? 0 then let! r := sub_round_resets lay (k - 2) in Ok (circ ++ r, tr)
     else Ok (circ, tr)) in
  Ok (tick circ, tr).

(** moments[-3:] = [(moments[-3] + moments[-2] + moments[-1]) * iterations], for a
    list of at least three moments (it is only used with exactly 12 or 7). *)
Definition fold_last3 (moments : list circuit) (iterations : Z) : list circuit :=
  let l := length moments in
  firstn (l - 3) moments ++ [circuit_mul (concat (skipn (l - 3) moments)) iterations].

(** lines 221-231: the latest outcome of every ancilla on the observable. *)
Definition pc3_observable (lay : layout) (result : circuit) (tr : mtrack) : res circuit :=
  for_ [0; 1; 2] (fun k result =>
      let! oe := obs_edges lay in
      let! edges := get_record_targets tr (map (fun e => K1 (KHalf (KE e))) (obs_edges_in oe (round_edges lay k))) None in
      match edges with
      | None => Ok result
      | Some _ => let! ix := obs_index lay in append_obs result edges ix
      end) result.

(** lines 186-233 *)
Definition generate_rounds_pc3 (lay : layout) (tr : mtrack) : res (circuit * mtrack) :=
  let n := sub_rounds lay in
  if n =? 0 then Err NotImplementedError else
  let! (_, moments, tr) :=
    while_ (Z.to_nat (n + 2) + 1) (fun '(k, _, _) => k <? n + 2)
      (fun '(k, moments, tr) =>
         let! (circ, tr) := pc3_moment lay k tr in
         let moments := moments ++ [circ] in
         let k := k + 1 in
         if k =? 12 then
           let iterations := (n - k + 3) / 3 in
           if 1 <? iterations then Ok (k + (iterations * 3 - 3), fold_last3 moments iterations, tr)
           else Ok (k, moments, tr)
         else Ok (k, moments, tr))
      (0, [], tr) in
  let! result := pc3_observable lay (concat moments) tr in
  Ok (result, tr).

(** lines 244-251: one pass of the loop body, up to [moments.append(circuit)]. *)
Definition em3_moment (lay : layout) (k : Z) (tr : mtrack) : res (circuit * mtrack) :=
  let p := sub_round_edge_basis lay k in
  let! ts := mapM (fun e => let! a := q2i lay (e_left e) in let! b := q2i lay (e_right e) in
                            Ok [TP p a; TComb; TP p b]) (round_edges lay k) in
  let circ := append_operation [] "MPP" (concat ts) [] in
  let! (m, tr) := sub_round_measurements_and_detectors lay tr k in
  Ok (tick (circ ++ m), tr).

(** lines 236-264 *)
Definition generate_rounds_em3 (lay : layout) (tr : mtrack) : res (circuit * mtrack) :=
  let n := sub_rounds lay in
  if n =? 0 then Err NotImplementedError else
  let! (_, moments, tr) :=
    while_ (Z.to_nat n + 1) (fun '(k, _, _) => k <? n)
      (fun '(k, moments, tr) =>
         let! (circ, tr) := em3_moment lay k tr in
         let moments := moments ++ [circ] in
         let k := k + 1 in
         if k =? 7 then
           let iterations := (n - k + 3) / 3 in
           if 1 <? iterations then Ok (k + (iterations * 3 - 3), fold_last3 moments iterations, tr)
           else Ok (k, moments, tr)
         else Ok (k, moments, tr))
      (0, [], tr) in
  Ok (concat moments, tr).

(** lines 267-292 *)
Definition generate_cycle_SI1000 (subround : Z) (lay : layout) (tr : mtrack) : res (circuit * mtrack) :=
  let! ms := measure_qubit_indices lay in
  let! d1 := data_qubit_indices_1st lay in
  let! d2 := data_qubit_indices_2nd lay in
  let circ := if 0 <? subround then tick (append_operation [] "R" (qs ms) []) else [] in
  let circ := append_operation circ "C_ZYX" (qs d1) [] in
  let circ := tick (append_operation circ "H" (qs ms) []) in
  let! circ := for_ [0; 1; 2] (fun k circ =>
      let circ := append_operation circ "C_ZYX" (qs d2) [] in
      let! l := mapM (q2i lay) (flat_map (fun e => [e_left e; e_center e]) (round_edges lay k)) in
      let circ := tick (append_operation circ "CZ" (qs l) []) in
      let circ := if k <? 2 then append_operation circ "C_ZYX" (qs d1) [] else circ in
      let! l := mapM (q2i lay) (flat_map (fun e => [e_right e; e_center e]) (round_edges lay k)) in
      Ok (tick (append_operation circ "CZ" (qs l) []))) circ in
  let circ := tick (append_operation circ "H" (qs ms) []) in
  let! (circ, tr) := for_ [0; 1; 2] (fun k '(circ, tr) =>
      let! (m, tr) := sub_round_measurements_and_detectors lay tr (subround + k) in Ok (circ ++ m, tr)) (circ, tr) in
  Ok (tick circ, tr).

(** lines 295-311 *)
Definition generate_rounds_SI1000 (lay : layout) (tr : mtrack) : res (circuit * mtrack) :=
  let n := sub_rounds lay in
  if n =? 0 then Err NotImplementedError
  else if negb (n mod 3 =? 0) then Err NotImplementedError
  else
    let! (c0, tr) := generate_cycle_SI1000 0 lay tr in
    let! (c1, tr) := (if 3 <? n then generate_cycle_SI1000 3 lay tr else Ok ([], tr)) in
    let! (c2, tr) :=
      (if 6 <? n then let! (c, tr) := generate_cycle_SI1000 6 lay tr in Ok (circuit_mul c ((n - 6) / 3), tr)
       else Ok ([], tr)) in
    Ok (c0 ++ c1 ++ c2, tr).

(** f"H_{basis}Z" for a basis other than Z *)
Definition basis_h (p : pauli) : string := match p with PX => "H_XZ" | PY => "H_YZ" | PZ => "H_ZZ" end.

(** lines 46-69 *)
Definition fault_tolerant_init (lay : layout) (tr : mtrack) : res (circuit * mtrack) :=
  let! used := used_qubit_indices lay in
  let result := tick (append_operation [] "R" (qs used) []) in
  let! ob := obs_before_sub_round lay 0 in
  let init_basis := fst ob in
  let! result :=
    (if negb (pauli_eqb init_basis PZ)
     then let! l := data_qubit_indices lay in Ok (tick (append_operation result (basis_h init_basis) (qs l) []))
     else Ok result) in
  let! tr := for_ [0; 1; 2] (fun sub_round tr =>
      let edge_init := xyz_index init_basis in
      let half_init := (edge_init - 1) mod 3 in
      let! tr := add_dummies key_eqb tr (negb (sub_round =? edge_init)) (map (fun e => K1 (KE e)) (round_edges lay sub_round)) in
      let! tr := add_dummies key_eqb tr false (map (fun e => K1 (KHalf (KE e))) (round_edges lay sub_round)) in
      let! hs := round_hex_centers lay sub_round in
      let! tr := add_dummies key_eqb tr (negb (sub_round =? edge_init)) (map (fun h => K1 (KC h)) hs) in
      add_dummies key_eqb tr (negb (sub_round =? half_init)) (map (fun h => K1 (KHalf (KC h))) hs)) tr in
  Ok (result, tr).

(** lines 82-118 *)
Definition other_basis (a b : pauli) : res pauli :=
  match filter (fun p => negb (pauli_eqb p a) && negb (pauli_eqb p b)) [PX; PY; PZ] with
  | [p] => Ok p
  | _ => Err ValueError
  end.
(** lines 72-118 *)
Definition fault_tolerant_measurement (lay : layout) (tr : mtrack) : res (circuit * mtrack) :=
  let! (obs_basis, oq) := obs_before_sub_round lay (sub_rounds lay) in
  let! l := data_qubit_indices lay in
  let result :=
    if negb (pauli_eqb obs_basis PZ) then tick (append_operation [] (basis_h obs_basis) (qs l) []) else [] in
  let result := append_operation result "M" (qs l) [] in
  let! tr := add_measurements key_eqb tr (map (fun q => K1 (KC q)) (data_qubit_coords lay)) in
  let last_measure_basis := xyz (sub_rounds lay - 1) in
  let! (result, tr) :=
    (if pauli_eqb last_measure_basis obs_basis then
       for_ (round_edges lay (xyz_index obs_basis)) (fun e '(result, tr) =>
         let! tr := add_group key_eqb tr [K1 (KC (e_left e)); K1 (KC (e_right e))] (K1 (KE e)) in
         let! result := append_detector tr [K1 (KE e); Prev (K1 (KE e)) 1] result (coords3 (e_center e)) in
         Ok (result, tr)) (result, tr)
     else
       let! ob := other_basis last_measure_basis obs_basis in
       let! hs := round_hex_centers lay (xyz_index ob) in
       for_ hs (fun h '(result, tr) =>
         let! tr := add_group key_eqb tr (map (fun q => K1 (KC q)) (qubits_around_hex lay h) ++ [K1 (KHalf (KC h))]) (K1 (KC h)) in
         let! result := append_detector tr [K1 (KC h); Prev (K1 (KC h)) 1] result (coords3 h) in
         Ok (result, tr)) (result, tr)) in
  let! hs := round_hex_centers lay (xyz_index obs_basis) in
  let! (result, tr) := for_ hs (fun h '(result, tr) =>
      let! tr := add_group key_eqb tr (map (fun q => K1 (KC q)) (qubits_around_hex lay h)) (K1 (KC h)) in
      let! result := append_detector tr [K1 (KC h); Prev (K1 (KC h)) 1] result (coords3 h) in
      Ok (result, tr)) (result, tr) in
  let! ts := get_record_targets tr (map (fun q => K1 (KC q)) oq) None in
  let! ix := obs_index lay in
  let! result := append_obs result ts ix in
  Ok (result, tr).

(** lines 25-28 *)
Definition qubit_coords (lay : layout) : res circuit :=
  for_ (used_qubit_coords lay) (fun q result =>
    let! i := q2i lay q in Ok (append_operation result "QUBIT_COORDS" [TQ i] [coord (fst q); coord (snd q)])) [].

(** lines 30-40 *)
Definition generate_rounds (lay : layout) (tr : mtrack) : res (circuit * mtrack) :=
  if (style lay =? "SD6")%string then generate_rounds_sd6 lay tr
  else if (style lay =? "PC3")%string then generate_rounds_pc3 lay tr
  else if is_em3 (style lay) then generate_rounds_em3 lay tr
  else if (style lay =? "SI1000")%string then generate_rounds_SI1000 lay tr
  else Err NotImplementedError.

(** lines 9-41: the circuit passed to lay.noise_model.noisy_circuit. *)
Definition generate_ideal_circuit (lay : layout) : res circuit :=
  let! c0 := qubit_coords lay in
  let! (c1, tr) := fault_tolerant_init lay tr_init in
  let! (c2, tr) := generate_rounds lay tr in
  let! (c3, tr) := fault_tolerant_measurement lay tr in
  Ok (c0 ++ c1 ++ c2 ++ c3).
