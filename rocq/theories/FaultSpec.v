(** Specification: one physical error of a noisy circuit, and what it does to a run.

    A noise instruction stands for a random choice between doing nothing and one of
    several errors; which ones is stim's documentation of that instruction.  The
    random choice itself is not modelled: [fault_of] lists what can happen. *)
From Coq Require Import QArith.
From Verif Require Import Prelude Layout LayoutFacts LayoutIndex Pauli Stim Frame Detectors NoiseMoments.
Open Scope Z_scope.

(** The Pauli error [err] happens on the qubits. *)
Definition strike (err : nat -> bits) (st : fstate) : fstate := with_fr st (fun x => bxor (fr st x) (err x)).
(** It acts on these qubits only. *)
Definition only (l : list nat) (err : nat -> bits) : Prop := forall x, ~ In x l -> err x = bzero.
(** Result number j is recorded wrongly. *)
Fixpoint flip (j : nat) (l : list bool) : list bool :=
  match l, j with
  | [], _ => []
  | b :: l, O => negb b :: l
  | b :: l, S j => b :: flip j l
  end.
Definition misread (j : nat) (st : fstate) : fstate := mkF (fr st) (flip j (frec st)) (fdets st) (fobs st) (fgi st).
(** The product of the Pauli targets, at qubit x. *)
Fixpoint product_at (ts : list target) (x : nat) : bits :=
  match ts with
  | [] => bzero
  | TP p q :: r => if Nat.eqb q x then bxor (pbits p) (product_at r x) else product_at r x
  | _ :: r => product_at r x
  end.

Inductive fault := Kick (err : nat -> bits) | Misread (k : nat).
(** The error acts on no more than one data qubit; on data qubits only. *)
Definition one_data (lay : layout) (f : fault) : Prop :=
  match f with Kick err => exists q0, forall q, isdata lay q -> q <> q0 -> err (ix lay q) = bzero | Misread _ => True end.
Definition data_only (lay : layout) (f : fault) : Prop :=
  match f with Kick err => forall x, (forall q, isdata lay q -> ix lay q <> x) -> err x = bzero | Misread _ => False end.
Inductive fault_of : instr -> fault -> Prop :=
  (** any Pauli on one of the targets *)
| fault_dep1 ts args q err : In (TQ q) ts -> only [q] err -> fault_of (mkI "DEPOLARIZE1" ts args) (Kick err)
  (** any two Paulis on one of the pairs of targets *)
| fault_dep2 ts1 a b ts2 args err : Nat.Even (length ts1) -> only [a; b] err -> fault_of (mkI "DEPOLARIZE2" (ts1 ++ TQ a :: TQ b :: ts2) args) (Kick err)
| fault_x ts args q err : In (TQ q) ts -> only [q] err -> err q = pbits PX -> fault_of (mkI "X_ERROR" ts args) (Kick err)
| fault_z ts args q err : In (TQ q) ts -> only [q] err -> err q = pbits PZ -> fault_of (mkI "Z_ERROR" ts args) (Kick err)
  (** the product of Paulis that is written *)
| fault_e ts args err : (forall x, err x = product_at ts x) -> fault_of (mkI "E" ts args) (Kick err)
  (** the k-th result of a pair measurement is wrong *)
| fault_mpp ts args l k : products ts = Ok l -> (k < length l)%nat -> fault_of (mkI "MPP" ts args) (Misread k).

(** The circuit l1 ++ i :: l2 is run; [f] is the only error that happens, at i. *)
Definition happens (f : fault) (made : nat) (st : fstate) : fstate :=
  match f with Kick err => strike err st | Misread k => misread (made + k) st end.
Definition run_faulty (g : nat -> bool) (l1 : list instr) (i : instr) (f : fault) (l2 : list instr) (st : fstate) : res fstate :=
  let! s1 := run g (gates l1) st in
  let! s2 := run g (gates [i]) s1 in
  run g (gates l2) (happens f (length (frec s1)) s2).

(** The circuit is run and any number of errors happen: each instruction is listed with
    the errors that happen at it. *)
Fixpoint run_errors (g : nat -> bool) (l : list (instr * list fault)) (st : fstate) : res fstate :=
  match l with
  | [] => Ok st
  | (i, fs) :: r =>
      let! s := run g (gates [i]) st in
      run_errors g r (fold_left (fun s f => happens f (length (frec st)) s) fs s)
  end.
(** [l] lists the instructions of the circuit, and errors those can have. *)
Definition errors_of (c : list instr) (l : list (instr * list fault)) : Prop :=
  map fst l = c /\ forall i fs f, In (i, fs) l -> In f fs -> fault_of i f.
Definition error_count (l : list (instr * list fault)) : nat := length (flat_map snd l).

(** The detectors on the observable's side: those of the odd sub-rounds for a vertical
    observable, of the even sub-rounds for a horizontal one, and those that use the
    final data measurement. *)
Definition watches (lay : layout) (d : detector) : bool :=
  Qeq_bool (d_t d) (sub_rounds lay # 1) || (if (obs lay =? "V")%string then Z.odd (Qnum (d_t d)) else Z.even (Qnum (d_t d))).

