(** The meaning of the circuits: Pauli-frame semantics.

    Two noiseless runs of a stabilizer circuit differ by a Pauli operator (the
    frame), a set of flipped measurement results, and hence a set of flipped
    detectors and observables.  Resets and measurements randomise the part of the
    frame that commutes with them: the stream [g] supplies those random bits.
    A detector is deterministic when no choice of [g] flips it.  This is how stim
    decides it too; the rules below are trusted (see DESIGN.md). *)
From Coq Require Import QArith.
From Verif Require Import Prelude Layout LayoutFacts Pauli Stim.
Open Scope Z_scope.

Record fstate := mkF {
  fr : nat -> bits;        (* the frame *)
  frec : list bool;        (* flips of the measurement results, in order *)
  fdets : list bool;       (* flips of the detectors, in order *)
  fobs : nat -> bool;      (* flips of the logical observables *)
  fgi : nat }.             (* random bits used *)

(** ** Gates, up to phase *)
Definition gate1 (name : string) : option (bits -> bits) :=
  if (name =? "H")%string then Some (fun b => (snd b, fst b))
  else if (name =? "H_YZ")%string then Some (fun b => (xorb (fst b) (snd b), snd b))
  else if (name =? "C_ZYX")%string then Some (fun b => (snd b, xorb (fst b) (snd b)))
  else if (name =? "C_XYZ")%string then Some (fun b => (xorb (fst b) (snd b), fst b))
  else None.
(** controlled Paulis: the basis of the control, the Pauli on the target *)
Definition gate2 (name : string) : option (pauli * pauli) :=
  if (name =? "CX")%string then Some (PZ, PX)
  else if (name =? "CY")%string then Some (PZ, PY)
  else if (name =? "CZ")%string then Some (PZ, PZ)
  else if (name =? "XCX")%string then Some (PX, PX)
  else if (name =? "XCY")%string then Some (PX, PY)
  else if (name =? "XCZ")%string then Some (PX, PZ)
  else if (name =? "YCX")%string then Some (PY, PX)
  else if (name =? "YCY")%string then Some (PY, PY)
  else if (name =? "YCZ")%string then Some (PY, PZ)
  else None.
Definition reset_gate (name : string) : option pauli :=
  if (name =? "R")%string then Some PZ else if (name =? "RX")%string then Some PX else if (name =? "RY")%string then Some PY else None.
Definition measure_gate (name : string) : option pauli :=
  if (name =? "M")%string then Some PZ else if (name =? "MX")%string then Some PX else if (name =? "MY")%string then Some PY else None.

Definition ap1 (f : bits -> bits) (fr : nat -> bits) (q : nat) : nat -> bits := fun x => if Nat.eqb x q then f (fr x) else fr x.
Definition bsel (b : bool) (p : bits) : bits := if b then p else bzero.
Definition ap2 (P Q : pauli) (fr : nat -> bits) (c t : nat) : nat -> bits :=
  fun x => if Nat.eqb x c then bxor (fr c) (bsel (anti2 (pbits Q) (fr t)) (pbits P))
           else if Nat.eqb x t then bxor (fr t) (bsel (anti2 (pbits P) (fr c)) (pbits Q))
           else fr x.

Definition with_fr (st : fstate) (f : nat -> bits) : fstate := mkF f (frec st) (fdets st) (fobs st) (fgi st).

Section Run.
  Variable g : nat -> bool.

  (** A measurement of a product of Paulis. *)
  Definition do_measure (st : fstate) (P : list (pauli * nat)) : fstate :=
    mkF (fold_left (fun f pq => ap1 (bxor (bsel (g (fgi st)) (pbits (fst pq)))) f (snd pq)) P (fr st))
        (frec st ++ [xsum (fun pq => anti2 (pbits (fst pq)) (fr st (snd pq))) P])
        (fdets st) (fobs st) (S (fgi st)).
  Definition do_reset (p : pauli) (st : fstate) (q : nat) : fstate :=
    mkF (ap1 (fun _ => bsel (g (fgi st)) (pbits p)) (fr st) q) (frec st) (fdets st) (fobs st) (S (fgi st)).

  Fixpoint qubit_targets (ts : list target) : res (list nat) :=
    match ts with
    | [] => Ok []
    | TQ q :: r => let! l := qubit_targets r in Ok (q :: l)
    | _ => Err ValueError
    end.
  Fixpoint run_pairs (P Q : pauli) (l : list nat) (f : nat -> bits) : res (nat -> bits) :=
    match l with
    | [] => Ok f
    | [_] => Err ValueError
    | c :: t :: r => if Nat.eqb c t then Err ValueError else run_pairs P Q r (ap2 P Q f c t)
    end.
  Fixpoint products (ts : list target) : res (list (list (pauli * nat))) :=
    match ts with
    | [] => Ok []
    | TP p q :: TComb :: r =>
        let! l := products r in match l with P :: l => Ok (((p, q) :: P) :: l) | [] => Err ValueError end
    | TP p q :: r => let! l := products r in Ok ([(p, q)] :: l)
    | _ => Err ValueError
    end.
  (** rec[k], k < 0, counted back from the latest result *)
  Fixpoint record_parity (record : list bool) (ts : list target) : res bool :=
    match ts with
    | [] => Ok false
    | TRec k :: r =>
        if (k <? 0) && (- k <=? Z.of_nat (length record))
        then let! b := record_parity record r in Ok (xorb (nth (Z.to_nat (Z.of_nat (length record) + k)) record false) b)
        else Err IndexError
    | _ => Err ValueError
    end.
  Definition obs_arg (args : list num) : res nat :=
    match args with
    | [Num (k # 1)] => if 0 <=? k then Ok (Z.to_nat k) else Err ValueError
    | _ => Err ValueError
    end.

  Definition annotation (name : string) : bool := existsb (String.eqb name) ["QUBIT_COORDS"; "TICK"; "SHIFT_COORDS"]%string.

  Definition run_instr (i : instr) (st : fstate) : res fstate :=
    let name := canon (iname i) in
    if annotation name then Ok st
    else if (name =? "DETECTOR")%string then
      let! b := record_parity (frec st) (itargets i) in Ok (mkF (fr st) (frec st) (fdets st ++ [b]) (fobs st) (fgi st))
    else if (name =? "OBSERVABLE_INCLUDE")%string then
      let! k := obs_arg (iargs i) in
      let! b := record_parity (frec st) (itargets i) in
      Ok (mkF (fr st) (frec st) (fdets st) (fun x => xorb (fobs st x) (Nat.eqb x k && b)) (fgi st))
    else if (name =? "MPP")%string then
      let! l := products (itargets i) in Ok (fold_left do_measure l st)
    else match gate1 name with
    | Some f => let! l := qubit_targets (itargets i) in Ok (with_fr st (fold_left (ap1 f) l (fr st)))
    | None => match gate2 name with
    | Some (P, Q) => let! l := qubit_targets (itargets i) in let! f := run_pairs P Q l (fr st) in Ok (with_fr st f)
    | None => match reset_gate name with
    | Some p => let! l := qubit_targets (itargets i) in Ok (fold_left (do_reset p) l st)
    | None => match measure_gate name with
    | Some p => let! l := qubit_targets (itargets i) in Ok (fold_left (fun st q => do_measure st [(p, q)]) l st)
    | None => Err NotImplementedError
    end end end end.

  Fixpoint run (l : list instr) (st : fstate) : res fstate :=
    match l with
    | [] => Ok st
    | i :: r => let! st := run_instr i st in run r st
    end.

  (** ** Basic facts *)
  Lemma run_app l1 l2 st : run (l1 ++ l2) st = let! st := run l1 st in run l2 st.
  Proof. revert st. induction l1 as [|i l1 IH]; intros st; [reflexivity|]. cbn [app run]. destruct (run_instr i st); cbn [bind]; auto. Qed.
  Lemma qubit_targets_ok l : qubit_targets (map TQ l) = Ok l.
  Proof. induction l as [|q l IH]; [reflexivity|]. cbn. now rewrite IH. Qed.

  (** ** Gates on many qubits at once *)
  Lemma fold_ap1 f l : forall s, NoDup l ->
    (forall x, In x l -> fold_left (ap1 f) l s x = f (s x)) /\ (forall x, ~ In x l -> fold_left (ap1 f) l s x = s x).
  Proof.
    induction l as [|q l IH]; intros s Hn; [split; [intros x [] | reflexivity]|]. inversion Hn as [|? ? Hq Hl]; subst.
    destruct (IH (ap1 f s q) Hl) as [I1 I2]. cbn [fold_left]. split; intros x Hx.
    - destruct Hx as [<-|Hx].
      + rewrite I2 by exact Hq. unfold ap1. now rewrite Nat.eqb_refl.
      + rewrite I1 by exact Hx. f_equal. unfold ap1. destruct (Nat.eqb_spec x q) as [->|_]; [contradiction | reflexivity].
    - rewrite I2 by (intros K; apply Hx; now right). unfold ap1. destruct (Nat.eqb_spec x q) as [->|_]; [exfalso; apply Hx; now left | reflexivity].
  Qed.

  Lemma fold_reset p l : forall st, NoDup l ->
    let st' := fold_left (do_reset p) l st in
    frec st' = frec st /\ fdets st' = fdets st /\ fobs st' = fobs st /\
    (forall x, In x l -> exists b, fr st' x = bsel b (pbits p)) /\ (forall x, ~ In x l -> fr st' x = fr st x).
  Proof.
    induction l as [|q l IH]; intros st Hn; [repeat split; intros x []|]. inversion Hn as [|? ? Hq Hl]; subst. cbn [fold_left].
    destruct (IH (do_reset p st q) Hl) as (I1 & I2 & I3 & I4 & I5). cbn zeta. rewrite I1, I2, I3. repeat split; intros x Hx.
    - destruct Hx as [<-|Hx]; [|now apply I4]. rewrite I5 by exact Hq. exists (g (fgi st)). cbn [do_reset fr]. unfold ap1. now rewrite Nat.eqb_refl.
    - rewrite I5 by (intros K; apply Hx; now right). cbn [do_reset fr]. unfold ap1. destruct (Nat.eqb_spec x q) as [->|_]; [exfalso; apply Hx; now left | reflexivity].
  Qed.

  Lemma fold_measure p l : forall st, NoDup l ->
    let st' := fold_left (fun st q => do_measure st [(p, q)]) l st in
    frec st' = frec st ++ map (fun q => anti2 (pbits p) (fr st q)) l /\ fdets st' = fdets st /\ fobs st' = fobs st /\
    (forall x, In x l -> exists b, fr st' x = bxor (bsel b (pbits p)) (fr st x)) /\ (forall x, ~ In x l -> fr st' x = fr st x).
  Proof.
    induction l as [|q l IH]; intros st Hn; [cbn; rewrite app_nil_r; repeat split; intros x []|]. inversion Hn as [|? ? Hq Hl]; subst. cbn [fold_left].
    destruct (IH (do_measure st [(p, q)]) Hl) as (I1 & I2 & I3 & I4 & I5). cbn zeta. rewrite I1, I2, I3.
    assert (F : forall x, fr (do_measure st [(p, q)]) x = if Nat.eqb x q then bxor (bsel (g (fgi st)) (pbits p)) (fr st x) else fr st x) by reflexivity.
    split; [|repeat split; intros x Hx].
    - unfold do_measure at 1. cbn [frec fst snd map]. unfold xsum. cbn [fold_right]. rewrite xorb_false_r, <- app_assoc. cbn [app]. f_equal. f_equal.
      apply map_ext_in. intros x Hx. rewrite F. destruct (Nat.eqb_spec x q) as [->|_]; [contradiction | reflexivity].
    - destruct Hx as [<-|Hx].
      + rewrite I5 by exact Hq. exists (g (fgi st)). rewrite F. now rewrite Nat.eqb_refl.
      + destruct (I4 x Hx) as [b Eb]. exists b. rewrite Eb, F. destruct (Nat.eqb_spec x q) as [->|_]; [contradiction | reflexivity].
    - rewrite I5 by (intros K; apply Hx; now right). rewrite F. destruct (Nat.eqb_spec x q) as [->|_]; [exfalso; apply Hx; now left | reflexivity].
  Qed.

  (** Controlled Paulis on disjoint pairs (c e, t e). *)
  Lemma run_pairs_ok {X} P Q (c t : X -> nat) l : forall s, NoDup (flat_map (fun e => [c e; t e]) l) ->
    exists s', run_pairs P Q (flat_map (fun e => [c e; t e]) l) s = Ok s' /\
    (forall e, In e l -> s' (c e) = bxor (s (c e)) (bsel (anti2 (pbits Q) (s (t e))) (pbits P)) /\
                         s' (t e) = bxor (s (t e)) (bsel (anti2 (pbits P) (s (c e))) (pbits Q))) /\
    (forall x, ~ In x (flat_map (fun e => [c e; t e]) l) -> s' x = s x).
  Proof.
    induction l as [|e l IH]; intros s Hn; [exists s; repeat split; destruct H|]. cbn [flat_map app] in *.
    inversion Hn as [|? ? H1 Hn1]; subst. inversion Hn1 as [|? ? H2 Hn2]; subst. cbn [In] in H1.
    assert (Nct : c e <> t e) by (intros K; apply H1; now left). cbn [run_pairs].
    destruct (Nat.eqb_spec (c e) (t e)) as [K|_]; [contradiction|].
    destruct (IH (ap2 P Q s (c e) (t e)) Hn2) as (s' & Es & I1 & I2). exists s'. split; [exact Es|].
    assert (O : forall x, x <> c e -> x <> t e -> ap2 P Q s (c e) (t e) x = s x).
    { intros x N1 N2. unfold ap2. destruct (Nat.eqb_spec x (c e)); [contradiction|]. destruct (Nat.eqb_spec x (t e)); [contradiction | reflexivity]. }
    split.
    - intros e' [<-|He'].
      + rewrite (I2 (c e)) by (intros K; apply H1; now right). rewrite (I2 (t e)) by exact H2. unfold ap2. rewrite Nat.eqb_refl.
        destruct (Nat.eqb_spec (t e) (c e)) as [K|_]; [congruence|]. rewrite Nat.eqb_refl. auto.
      + destruct (I1 e' He') as [J1 J2]. rewrite J1, J2.
        assert (M1 : In (c e') (flat_map (fun e => [c e; t e]) l)) by (apply in_flat_map; exists e'; cbn; auto).
        assert (M2 : In (t e') (flat_map (fun e => [c e; t e]) l)) by (apply in_flat_map; exists e'; cbn; auto).
        rewrite (O (c e')), (O (t e')); auto; intros K; rewrite K in *; try contradiction; apply H1; now right.
    - intros x Hx. cbn [In] in Hx. rewrite I2 by tauto. apply O; intros K; apply Hx; subst; auto.
  Qed.

  (** Products of two Paulis on disjoint pairs. *)
  Lemma products_pairs {X} p (a b : X -> nat) l :
    products (flat_map (fun e => [TP p (a e); TComb; TP p (b e)]) l) = Ok (map (fun e => [(p, a e); (p, b e)]) l).
  Proof.
    induction l as [|e l IH]; [reflexivity|]. cbn [flat_map app map]. cbn [products]. destruct l as [|e' l]; [reflexivity|].
    cbn [flat_map app] in *. rewrite IH. reflexivity.
  Qed.
  Lemma fold_products {X} p (a b : X -> nat) (eqb : X -> X -> bool) (Heq : forall x y, eqb x y = true <-> x = y) l : forall st,
    NoDup (flat_map (fun e => [a e; b e]) l) ->
    let st' := fold_left do_measure (map (fun e => [(p, a e); (p, b e)]) l) st in
    frec st' = frec st ++ map (fun e => xorb (anti2 (pbits p) (fr st (a e))) (anti2 (pbits p) (fr st (b e)))) l /\
    fdets st' = fdets st /\ fobs st' = fobs st /\
    (exists z : X -> bool, forall e, In e l -> fr st' (a e) = bxor (bsel (z e) (pbits p)) (fr st (a e)) /\
                                               fr st' (b e) = bxor (bsel (z e) (pbits p)) (fr st (b e))) /\
    (forall x, ~ In x (flat_map (fun e => [a e; b e]) l) -> fr st' x = fr st x).
  Proof.
    induction l as [|e l IH]; intros st Hn; [cbn; rewrite app_nil_r; repeat split; exists (fun _ => false); intros x []|].
    cbn [flat_map app] in Hn. inversion Hn as [|? ? H1 Hn1]; subst. inversion Hn1 as [|? ? H2 Hn2]; subst. cbn [In] in H1.
    cbn [map fold_left]. destruct (IH (do_measure st [(p, a e); (p, b e)]) Hn2) as (I1 & I2 & I3 & (z & I4) & I5). cbn zeta. rewrite I1, I2, I3.
    assert (F : forall x, x <> a e -> x <> b e -> fr (do_measure st [(p, a e); (p, b e)]) x = fr st x).
    { intros x N1 N2. cbn. unfold ap1. destruct (Nat.eqb_spec x (b e)); [contradiction|]. destruct (Nat.eqb_spec x (a e)); [contradiction | reflexivity]. }
    assert (Fa : fr (do_measure st [(p, a e); (p, b e)]) (a e) = bxor (bsel (g (fgi st)) (pbits p)) (fr st (a e))).
    { cbn. unfold ap1. destruct (Nat.eqb_spec (a e) (b e)) as [K|_]; [exfalso; apply H1; now left|]. now rewrite Nat.eqb_refl. }
    assert (Fb : fr (do_measure st [(p, a e); (p, b e)]) (b e) = bxor (bsel (g (fgi st)) (pbits p)) (fr st (b e))).
    { cbn. unfold ap1. rewrite Nat.eqb_refl. destruct (Nat.eqb_spec (b e) (a e)) as [K|_]; [exfalso; apply H1; now left | reflexivity]. }
    assert (In' : forall e', In e' l -> a e' <> a e /\ a e' <> b e /\ b e' <> a e /\ b e' <> b e).
    { intros e' He'. assert (M1 : In (a e') (flat_map (fun e => [a e; b e]) l)) by (apply in_flat_map; exists e'; cbn; auto).
      assert (M2 : In (b e') (flat_map (fun e => [a e; b e]) l)) by (apply in_flat_map; exists e'; cbn; auto).
      repeat split; intros K; rewrite K in *; try contradiction; apply H1; now right. }
    split; [|repeat split].
    - unfold do_measure at 1. cbn [frec fst snd map]. rewrite !xsum_cons. unfold xsum. cbn [fold_right fst snd]. rewrite xorb_false_r, <- app_assoc. cbn [app]. f_equal. f_equal.
      apply map_ext_in. intros x Hx. destruct (In' x Hx) as (N1 & N2 & N3 & N4). now rewrite !F.
    - exists (fun e' => if eqb e' e then g (fgi st) else z e'). intros e' [<-|He'].
      + rewrite (proj2 (Heq e e) eq_refl). rewrite (I5 (a e)), (I5 (b e)) by tauto. auto.
      + destruct (In' e' He') as (N1 & N2 & N3 & N4). replace (eqb e' e) with false.
        2:{ symmetry. destruct (eqb e' e) eqn:K; [|reflexivity]. apply Heq in K. congruence. }
        destruct (I4 e' He') as [-> ->]. now rewrite !F.
    - intros x Hx. cbn [flat_map app In] in Hx. rewrite I5 by tauto. apply F; intros K; apply Hx; subst; auto.
  Qed.
End Run.
