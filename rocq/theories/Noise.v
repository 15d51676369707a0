(** Model of src/noise.py and of HoneycombLayout.noise_model, up to the complete
    generator.  Noise strengths are exact rationals instead of floats. *)
From Coq Require Import QArith.
From Verif Require Import Prelude Layout Tracker Stim Circuit.
Open Scope Z_scope.

(** op.name in the set *)
Definition in_names (name : string) (l : list string) : bool := existsb (String.eqb name) l.

(** lines 6-10 *)
Definition ANY_CLIFFORD_1_OPS : list string := ["C_XYZ"; "C_ZYX"; "H"; "H_YZ"; "I"]%string.
(** line 7 *)
Definition ANY_CLIFFORD_2_OPS : list string := ["CX"; "CY"; "CZ"; "XCX"; "XCY"; "XCZ"; "YCX"; "YCY"; "YCZ"]%string.
(** line 8 *)
Definition RESET_OPS : list string := ["R"; "RX"; "RY"]%string.
(** line 9 *)
Definition MEASURE_OPS : list string := ["M"; "MX"; "MY"]%string.
(** line 10 *)
Definition ANNOTATION_OPS : list string := ["OBSERVABLE_INCLUDE"; "DETECTOR"; "SHIFT_COORDS"; "QUBIT_COORDS"; "TICK"]%string.

(** lines 13-20 *)
Record noise_model := mkNM {
  idle : Q;
  measure_reset_idle : Q;
  noisy_gates : list (string * Q);
  any_clifford_1 : option Q;
  any_clifford_2 : option Q;
  use_correlated : bool
}.

(** lines 22-33 *)
Definition NM_SD6 (p : Q) : noise_model := mkNM p 0 [("CX", p); ("R", p); ("M", p)]%string (Some p) None false.
(** lines 35-46 *)
Definition NM_PC3 (p : Q) : noise_model := mkNM p 0 [("R", p); ("M", p)]%string (Some p) (Some p) false.
(** lines 48-60 *)
Definition NM_EM3_v1 (p : Q) : noise_model := mkNM p 0 [("R", p); ("M", p); ("MPP", p)]%string (Some p) None false.
(** lines 62-76 *)
Definition NM_EM3_v2 (p : Q) : noise_model :=
  mkNM p 0 [("R", p / (2 # 1)); ("M", p / (2 # 1)); ("MPP", p)]%string%Q (Some 0%Q) (Some 0%Q) true.
(** lines 78-89 *)
Definition NM_SI1000 (p : Q) : noise_model :=
  mkNM (p / (10 # 1)) ((2 # 1) * p) [("CZ", p); ("R", (2 # 1) * p); ("M", (5 # 1) * p)]%string%Q (Some (p / (10 # 1))%Q) None false.

(** honeycomb_layout.py 114-126 *)
Definition layout_noise_model (lay : layout) : res noise_model :=
  if (style lay =? "SD6")%string then Ok (NM_SD6 (noise lay))
  else if (style lay =? "PC3")%string then Ok (NM_PC3 (noise lay))
  else if (style lay =? "EM3")%string then Ok (NM_EM3_v1 (noise lay))
  else if (style lay =? "EM3_v2")%string then Ok (NM_EM3_v2 (noise lay))
  else if (style lay =? "SI1000")%string then Ok (NM_SI1000 (noise lay))
  else Err NotImplementedError.

(** a < b on strengths *)
Definition Qlt_bool (a b : Q) : bool := negb (Qle_bool b a).

(** The qubit a target touches (t.value of qubit and Pauli targets). *)
Definition tqubit (t : target) : list nat :=
  match t with TQ q => [q] | TP _ q => [q] | _ => [] end.
(** the qubits of lines 190-194 *)
Definition tqubits (ts : list target) : list nat := flat_map tqubit ts.
(** t.is_combiner *)
Definition is_combiner (t : target) : bool := match t with TComb => true | _ => false end.
(** t.value of any target that is not a combiner (a record target's value is its
    look-back; MPP never has those). *)
Definition tvalue (t : target) : target :=
  match t with TP _ q => TQ q | t => t end.

(** stim.Circuit.num_qubits: one more than the largest qubit mentioned. *)
Definition max1 (l : list nat) : nat := fold_right (fun q a => Nat.max (S q) a) O l.
(** stim.Circuit.num_qubits of an item *)
Fixpoint item_num_qubits (x : item) : nat :=
  match x with
  | I i => max1 (tqubits (itargets i))
  | Rep _ body => fold_right (fun y a => Nat.max (item_num_qubits y) a) O body
  end.
(** stim.Circuit.num_qubits *)
Definition circuit_num_qubits (c : circuit) : nat := fold_right (fun y a => Nat.max (item_num_qubits y) a) O c.

(** Name of the two qubit gate controlled by a Pauli target, lines 243-254 (ZCX is
    an alias of CX). *)
Definition pauli_cx (p : pauli) : string := match p with PX => "XCX" | PY => "YCX" | PZ => "ZCX" end.

(** lines 256-273: the 31 non-trivial errors in loop order. *)
Definition opt_paulis (q : nat) : list (list target) := [[]; [TP PX q]; [TP PY q]; [TP PZ q]].
(** lines 260-273 *)
Definition correlated_errors (q1 q2 ancilla : nat) : list (list target) :=
  filter (fun e => negb (Nat.eqb (length e) 0))
    (flat_map (fun a => flat_map (fun b => map (fun m => a ++ b ++ m) [[]; [TP PX ancilla]]) (opt_paulis q2)) (opt_paulis q1)).

(** lines 243-254.  The targets are Pauli targets, as in MPP; for any other target
    none of the is_x/is_y/is_z branches is taken.  The probability
    mix_probability_to_independent_component_probability(p, 5) is kept as [Mix p 5]. *)
Definition couple (t : target) (ancilla : nat) (c : circuit) : circuit :=
  match t with
  | TP p q => append_operation c (pauli_cx p) (qs [q; ancilla]) []
  | _ => c
  end.
(** t.value *)
Definition target_value (t : target) : nat := match t with TQ q => q | TP _ q => q | _ => O end.
(** lines 221-280 *)
Definition parity_measurement_with_correlated_measurement_noise (t1 t2 : target) (ancilla : nat) (mix_probability : Q) : circuit :=
  let c := append_operation [] "R" (qs [ancilla]) [] in
  let c := couple t2 ancilla (couple t1 ancilla c) in
  let c := fold_left (fun c e => append_operation c "CORRELATED_ERROR" e [Mix mix_probability 5])
             (correlated_errors (target_value t1) (target_value t2) ancilla) c in
  append_operation c "M" (qs [ancilla]) [].

(** targets[k], targets[k+1], targets[k+2] for k = 0, 3, 6, ...; None when the
    length is not a multiple of 3. *)
Fixpoint triples {A} (l : list A) : option (list (A * A * A)) :=
  match l with
  | [] => Some []
  | a :: b :: c :: r => option_map (cons (a, b, c)) (triples r)
  | _ => None
  end.

(** op.name.endswith("X") *)
Definition ends_with_X (name : string) : bool := in_names name ["RX"; "MX"]%string.
(** the name of lines 104 and 106 *)
Definition flip_name (name : string) : string := if ends_with_X name then "Z_ERROR" else "X_ERROR".

(** lines 91-127: pre, mid and post. *)
Definition noisy_op (nm : noise_model) (op : instr) (p : Q) (ancilla : nat) : res (circuit * circuit * circuit) :=
  let ts := itargets op in
  let mid0 args := append_operation [] (iname op) ts args in
  if Qlt_bool 0 p then
    if in_names (iname op) ANY_CLIFFORD_1_OPS then
      Ok ([], mid0 (iargs op), append_operation [] "DEPOLARIZE1" ts [Num p])
    else if in_names (iname op) ANY_CLIFFORD_2_OPS then
      Ok ([], mid0 (iargs op), append_operation [] "DEPOLARIZE2" ts [Num p])
    else if in_names (iname op) RESET_OPS || in_names (iname op) MEASURE_OPS then
      Ok (if in_names (iname op) MEASURE_OPS then append_operation [] (flip_name (iname op)) ts [Num p] else [],
          mid0 (iargs op),
          if in_names (iname op) RESET_OPS then append_operation [] (flip_name (iname op)) ts [Num p] else [])
    else if (iname op =? "MPP")%string then
      match triples ts with
      | None => Err AssertionError
      | Some tri =>
          let! _ := assert_ (forallb (fun '(_, b, _) => is_combiner b) tri) in
          let! _ := assert_ (nums_eqb (iargs op) [] || nums_eqb (iargs op) [Num 0]) in
          if use_correlated nm then
            Ok ([], flat_map (fun '(a, _, c) => parity_measurement_with_correlated_measurement_noise a c ancilla p) tri, [])
          else
            Ok (append_operation [] "DEPOLARIZE2" (map tvalue (filter (fun t => negb (is_combiner t)) ts)) [Num p],
                mid0 [Num p], [])
      end
    else Err NotImplementedError
  else Ok ([], mid0 (iargs op), []).

(** lines 174-183: the strength for an operation. *)
Definition op_strength (nm : noise_model) (op : instr) : res Q :=
  match dict_get String.eqb (iname op) (noisy_gates nm) with
  | Some p => Ok p
  | None =>
      match any_clifford_1 nm, in_names (iname op) ANY_CLIFFORD_1_OPS with
      | Some p, true => Ok p
      | _, _ =>
          match any_clifford_2 nm, in_names (iname op) ANY_CLIFFORD_2_OPS with
          | Some p, true => Ok p
          | _, _ => if in_names (iname op) ANNOTATION_OPS then Ok 0%Q else Err NotImplementedError
          end
      end
  end.

(** lines 130-137: the variables of noisy_circuit. *)
Record nstate := mkNS {
  n_result : circuit;
  n_pre : circuit; n_mid : circuit; n_post : circuit;
  n_used : list nat;
  n_mr : list nat
}.
(** the variables at the start, lines 130-137 *)
Definition ns_init : nstate := mkNS [] [] [] [] [] [].

(** sorted(qs - s) *)
Definition sorted_diff (qubits s : list nat) : list nat := isort Nat.leb (filter (fun q => negb (memb q s)) qubits).
(** bool of a circuit, list or set *)
Definition nonempty {A} (l : list A) : bool := match l with [] => false | _ => true end.

(** lines 141-162 *)
Definition flush (nm : noise_model) (qubits : list nat) (st : nstate) : nstate :=
  if nonempty (n_mid st) then
    let idle1 := sorted_diff qubits (n_used st) in
    let post := if nonempty (n_used st) && nonempty idle1 && Qlt_bool 0 (idle nm)
                then append_operation (n_post st) "DEPOLARIZE1" (qs idle1) [Num (idle nm)] else n_post st in
    let idle2 := sorted_diff qubits (n_mr st) in
    let post := if nonempty (n_mr st) && nonempty idle2 && Qlt_bool 0 (measure_reset_idle nm)
                then append_operation post "DEPOLARIZE1" (qs idle2) [Num (measure_reset_idle nm)] else post in
    mkNS (n_result st ++ n_pre st ++ n_mid st ++ post) [] [] [] [] []
  else st.

(** set union on duplicate-free lists *)
Definition union (a b : list nat) : list nat := a ++ filter (fun q => negb (memb q a)) (nodup Nat.eq_dec b).

(** lines 168-201: one instruction of the loop. *)
Definition noisy_instr (nm : noise_model) (ancilla : nat) (qubits : list nat) (op : instr) (st : nstate) : res nstate :=
  if (iname op =? "TICK")%string then
    let st := flush nm qubits st in
    Ok (mkNS (append_operation (n_result st) "TICK" [] []) (n_pre st) (n_mid st) (n_post st) (n_used st) (n_mr st))
  else
    let! p := op_strength nm op in
    let! (pre, mid, post) := noisy_op nm op p ancilla in
    let touched := if in_names (iname op) ANNOTATION_OPS then [] else tqubits (itargets op) in
    Ok (mkNS (n_result st) (n_pre st ++ pre) (n_mid st ++ mid) (n_post st ++ post)
          (union (n_used st) touched)
          (if in_names (iname op) MEASURE_OPS || in_names (iname op) RESET_OPS
           then union (n_mr st) touched else n_mr st)).

(** lines 129-206, for the body of a REPEAT block (a whole circuit is treated as the
    body of a block executed once). *)
Fixpoint noisy_body (nm : noise_model) (qubits : list nat) (x : item) {struct x} : res circuit :=
  match x with
  | I _ => Ok []
  | Rep _ body =>
      let ancilla := circuit_num_qubits body in
      let! st := (fix loop (l : list item) (st : nstate) {struct l} : res nstate :=
                    match l with
                    | [] => Ok st
                    | y :: r =>
                        let! st' :=
                          match y with
                          | I op => noisy_instr nm ancilla qubits op st
                          | Rep k _ =>
                              let st := flush nm qubits st in
                              let! c := noisy_body nm qubits y in
                              Ok (mkNS (n_result st ++ circuit_mul c k) (n_pre st) (n_mid st) (n_post st) (n_used st) (n_mr st))
                          end in
                        loop r st'
                    end) body ns_init in
      Ok (n_result (flush nm qubits st))
  end.
(** lines 129-206 with the default qs = None *)
Definition noisy_circuit (nm : noise_model) (c : circuit) : res circuit :=
  noisy_body nm (seq 0 (circuit_num_qubits c)) (Rep 1 c).

(** honeycomb_circuit.py 9-43 *)
Definition generate_honeycomb_circuit (lay : layout) : res circuit :=
  let! c := generate_ideal_circuit lay in
  let! nm := layout_noise_model lay in
  noisy_circuit nm c.
