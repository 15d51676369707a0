(** The part of stim's circuit format that the code uses.

    A circuit is a list of instructions and REPEAT blocks.  Numbers in
    parentheses are exact rationals, except the noise code's mixing probability,
    kept symbolic as [Mix p n] (see Noise.v). *)
From Coq Require Import QArith.
From Verif Require Import Prelude Layout.
Open Scope Z_scope.

(** stim.GateTarget *)
Inductive target :=
| TQ (q : nat)               (* a qubit *)
| TRec (k : Z)               (* rec[k] *)
| TP (p : pauli) (q : nat)   (* X5, Y5, Z5 *)
| TComb.                     (* the combiner * in MPP *)

(** arguments of instructions: floats as exact rationals *)
Inductive num :=
| Num (q : Q)
| Mix (p : Q) (n : Z).

(** stim.CircuitInstruction *)
Record instr := mkI { iname : string; itargets : list target; iargs : list num }.
(** an instruction, or stim.CircuitRepeatBlock *)
Inductive item :=
| I (i : instr)
| Rep (n : Z) (body : list item).
(** stim.Circuit *)
Definition circuit := list item.

(** equality of targets *)
Definition target_eqb (a b : target) : bool :=
  match a, b with
  | TQ x, TQ y => Nat.eqb x y
  | TRec x, TRec y => x =? y
  | TP p x, TP q y => pauli_eqb p q && Nat.eqb x y
  | TComb, TComb => true
  | _, _ => false
  end.
(** equality of arguments *)
Definition num_eqb (a b : num) : bool :=
  match a, b with
  | Num x, Num y => Qeq_bool x y
  | Mix p n, Mix q m => Qeq_bool p q && (n =? m)
  | _, _ => false
  end.
(** equality of argument lists *)
Fixpoint nums_eqb (a b : list num) : bool :=
  match a, b with
  | [], [] => true
  | x :: a, y :: b => num_eqb x y && nums_eqb a b
  | _, _ => false
  end.

(** stim's canonical names for the aliases the code uses. *)
Definition canon (name : string) : string :=
  if (name =? "CNOT")%string then "CX"
  else if (name =? "ZCX")%string then "CX"
  else if (name =? "H_XZ")%string then "H"
  else if (name =? "ZCZ")%string then "CZ"
  else if (name =? "RZ")%string then "R"
  else if (name =? "MZ")%string then "M"
  else if (name =? "MRZ")%string then "MR"
  else if (name =? "CORRELATED_ERROR")%string then "E"
  else name.

(** Instructions stim never merges with their predecessor. *)
Definition not_fusable (name : string) : bool :=
  existsb (String.eqb name)
    ["DETECTOR"; "OBSERVABLE_INCLUDE"; "TICK"; "SHIFT_COORDS"; "E"; "ELSE_CORRELATED_ERROR"; "REPEAT"]%string.

(** stim.Circuit.append_operation: the targets are added to the last instruction
    when that has the same name and arguments. *)
Fixpoint append_instr (c : circuit) (i : instr) : circuit :=
  match c with
  | [] => [I i]
  | [I j] =>
      if negb (not_fusable (iname i)) && (iname i =? iname j)%string && nums_eqb (iargs i) (iargs j)
      then [I (mkI (iname j) (itargets j ++ itargets i) (iargs j))]
      else [I j; I i]
  | x :: r => x :: append_instr r i
  end.
(** stim.Circuit.append_operation *)
Definition append_operation (c : circuit) (name : string) (ts : list target) (args : list num) : circuit :=
  append_instr c (mkI (canon name) ts args).

(** circuit * k for k >= 0 *)
Definition circuit_mul (c : circuit) (k : Z) : circuit :=
  if k =? 0 then [] else if k =? 1 then c else [Rep k c].

(** The instructions executed, in order, with REPEAT blocks unrolled. *)
Fixpoint flatten_item (x : item) : list instr :=
  match x with
  | I i => [i]
  | Rep n body => concat (repeat (flat_map flatten_item body) (Z.to_nat n))
  end.
(** the instructions executed by a circuit *)
Definition flatten (c : circuit) : list instr := flat_map flatten_item c.

Lemma flatten_app a b : flatten (a ++ b) = flatten a ++ flatten b.
Proof. apply flat_map_app. Qed.
Lemma flatten_I l : flatten (map I l) = l.
Proof. induction l as [|x l IH]; [reflexivity|]. cbn. now rewrite <- IH at 2. Qed.
Lemma flatten_mul c k : 0 <= k -> flatten (circuit_mul c k) = concat (repeat (flatten c) (Z.to_nat k)).
Proof.
  intros Hk. unfold circuit_mul. destruct (Z.eqb_spec k 0) as [->|N0]; [reflexivity|].
  destruct (Z.eqb_spec k 1) as [->|N1].
  - change (Z.to_nat 1) with 1%nat. cbn [repeat concat]. now rewrite app_nil_r.
  - unfold flatten at 1. cbn [flat_map flatten_item]. rewrite app_nil_r. reflexivity.
Qed.

(** Appending after an instruction with another name. *)
Lemma append_new c j i : iname i <> iname j -> append_instr (c ++ [I j]) i = c ++ [I j; I i].
Proof.
  intros H. induction c as [|x c IH].
  - cbn. destruct (String.eqb_spec (iname i) (iname j)) as [E|_]; [contradiction|]. now rewrite andb_false_r.
  - cbn [app]. destruct (c ++ [I j]) as [|y r] eqn:E; [destruct c; discriminate|].
    replace (append_instr (x :: y :: r) i) with (x :: append_instr (y :: r) i) by (destruct x; reflexivity).
    now rewrite IH.
Qed.
Lemma append_nf c i : not_fusable (iname i) = true -> append_instr c i = c ++ [I i].
Proof.
  intros H. induction c as [|x c IH]; [reflexivity|]. destruct c as [|y r].
  - destruct x; cbn [append_instr app]; [rewrite H; reflexivity | reflexivity].
  - replace (append_instr (x :: y :: r) i) with (x :: append_instr (y :: r) i) by (destruct x; reflexivity). now rewrite IH.
Qed.
