(** The state between two instructions of a generated circuit, and the effect of
    each kind of instruction on it. *)
From Coq Require Import QArith.
From Verif Require Import Prelude Layout LayoutFacts LayoutEdges LayoutLists LayoutHex LayoutHex2 Pauli LayoutObs LayoutLogic LayoutIndex
  Tracker TrackerFacts Stim Circuit Annot Shift Ends Gen Traj Eval Frame Exec.
Open Scope Z_scope.

(** C_ZYX on a frame *)
Definition rotb (b : bits) : bits := (snd b, xorb (fst b) (snd b)).
Fixpoint rotn (k : nat) (b : bits) : bits := match k with O => b | S k => rotb (rotn k b) end.
Lemma rotn_bxor k a b : rotn k (bxor a b) = bxor (rotn k a) (rotn k b).
Proof. induction k as [|k IH]; [reflexivity|]. cbn [rotn]. rewrite IH. destruct (rotn k a) as [[] []], (rotn k b) as [[] []]; reflexivity. Qed.
Lemma rotn_bsel k c b : rotn k (bsel c b) = bsel c (rotn k b).
Proof. destruct c; [reflexivity|]. induction k as [|k IH]; [reflexivity|]. cbn [rotn bsel] in *. now rewrite IH. Qed.
Lemma rotn_anti k a b : anti2 (rotn k a) (rotn k b) = anti2 a b.
Proof. induction k as [|k IH]; [reflexivity|]. cbn [rotn]. rewrite <- IH. destruct (rotn k a) as [[] []], (rotn k b) as [[] []]; reflexivity. Qed.
Lemma rotb3 b : rotb (rotb (rotb b)) = b.
Proof. destruct b as [[] []]; reflexivity. Qed.
Lemma rotn_3 k b : rotn (S (S (S k))) b = rotn k b.
Proof. cbn [rotn]. apply rotb3. Qed.
Lemma rotn_mod k b : rotn k b = rotn (k mod 3) b.
Proof.
  assert (forall j r, rotn (3 * j + r) b = rotn r b).
  { induction j as [|j IH]; intros r; [reflexivity|]. replace (3 * S j + r)%nat with (S (S (S (3 * j + r)))) by lia. now rewrite rotn_3. }
  rewrite (Nat.div_mod k 3) at 1 by lia. apply H.
Qed.
Lemma rotn_xyz s : rotn (S s) (pbits (xyz (Z.of_nat s))) = pbits PZ.
Proof.
  rewrite rotn_mod. unfold xyz. replace (Z.of_nat s mod 3) with (Z.of_nat (s mod 3)) by (rewrite Nat2Z.inj_mod; reflexivity).
  replace (S s mod 3)%nat with (S (s mod 3) mod 3)%nat by (rewrite <- (Nat.add_1_r (s mod 3)), <- (Nat.add_1_r s); apply Nat.add_mod_idemp_l; lia).
  assert (H : (s mod 3 < 3)%nat) by (apply Nat.mod_upper_bound; lia). destruct (s mod 3)%nat as [|[|[|x]]]; [reflexivity | reflexivity | reflexivity | lia].
Qed.

Definition sw (hm : bool) (b : bits) : bits := if hm then (snd b, fst b) else b.
Inductive phase := Idle | LeftD | BothD.

Lemma comb_some vs : (forall v, In v vs -> v <> None) -> comb vs <> None.
Proof.
  unfold comb. generalize (@nil nat). induction vs as [|v vs IH]; intros a H; cbn [fold_left]; [discriminate|].
  destruct v as [s|]; [|exfalso; apply (H None); [now left | reflexivity]]. cbn [combine_entry]. apply IH. intros; apply H; now right.
Qed.

(** ** Instructions with one meaning *)
Section Gates.
  Variable gs : nat -> bool.
  Lemma run2 name P Q l st : In (name, (P, Q)) [("CX", (PZ, PX)); ("XCX", (PX, PX)); ("YCX", (PY, PX)); ("CZ", (PZ, PZ))]%string ->
    run_instr gs (Gen.g name l) st = let! f := run_pairs P Q l (fr st) in Ok (with_fr st f).
  Proof.
    intros H. cbn [In] in H. destruct H as [H|[H|[H|[H|[]]]]]; injection H as <- <- <-; unfold run_instr, Gen.g, qs; cbn [iname itargets];
    rewrite qubit_targets_ok; reflexivity.
  Qed.
  Lemma run1 name f l st : In (name, f) [("H", fun b => (snd b, fst b)); ("H_YZ", fun b => (xorb (fst b) (snd b), snd b)); ("C_ZYX", rotb); ("C_XYZ", fun b => (xorb (fst b) (snd b), fst b))]%string ->
    run_instr gs (Gen.g name l) st = Ok (with_fr st (fold_left (ap1 f) l (fr st))).
  Proof.
    intros H. cbn [In] in H. destruct H as [H|[H|[H|[H|[]]]]]; injection H as <- <-; unfold run_instr, Gen.g, qs; cbn [iname itargets];
    rewrite qubit_targets_ok; reflexivity.
  Qed.
  Lemma run_R l st : run_instr gs (Gen.g "R" l) st = Ok (fold_left (do_reset gs PZ) l st).
  Proof. unfold run_instr, Gen.g, qs; cbn [iname itargets]. rewrite qubit_targets_ok. reflexivity. Qed.
  Lemma run_M l st : run_instr gs (Gen.g "M" l) st = Ok (fold_left (fun st q => do_measure gs st [(PZ, q)]) l st).
  Proof. unfold run_instr, Gen.g, qs; cbn [iname itargets]. rewrite qubit_targets_ok. reflexivity. Qed.
  Lemma run_annotation i st : annotation (canon (iname i)) = true -> run_instr gs i st = Ok st.
  Proof. intros H. unfold run_instr. now rewrite H. Qed.

  (** ** Sequencing *)
  Definition runs (l : list instr) (Post : fstate -> Prop) (st : fstate) : Prop := exists st', run gs l st = Ok st' /\ Post st'.
  Lemma runs_app l1 l2 Mid Post st : runs l1 Mid st -> (forall st', Mid st' -> runs l2 Post st') -> runs (l1 ++ l2) Post st.
  Proof.
    intros (s1 & E1 & M1) H. destruct (H s1 M1) as (s2 & E2 & P2). exists s2. split; [|exact P2]. rewrite run_app, E1. exact E2.
  Qed.
  Lemma runs_cons i l (Mid Post : fstate -> Prop) st : (exists st', run_instr gs i st = Ok st' /\ Mid st') -> (forall st', Mid st' -> runs l Post st') ->
    runs (i :: l) Post st.
  Proof.
    intros (s1 & E1 & M1) H. destruct (H s1 M1) as (s2 & E2 & P2). exists s2. split; [|exact P2]. cbn [run]. rewrite E1. exact E2.
  Qed.
  Lemma runs_nil (Post : fstate -> Prop) st : Post st -> runs [] Post st.
  Proof. intros H. exists st. split; [reflexivity | exact H]. Qed.
  Lemma runs_weaken l (P Q : fstate -> Prop) st : (forall s, P s -> Q s) -> runs l P st -> runs l Q st.
  Proof. intros H (s & E & K). exists s. auto. Qed.
  Lemma runs_flat_map (f : nat -> list instr) (P : nat -> fstate -> Prop) a c : forall st,
    (forall k st, (a <= k < a + c)%nat -> P k st -> runs (f k) (P (S k)) st) -> P a st -> runs (flat_map f (seq a c)) (P (a + c)%nat) st.
  Proof.
    revert a. induction c as [|c IH]; intros a st H Ha; cbn [seq flat_map].
    - replace (a + 0)%nat with a by lia. now apply runs_nil.
    - eapply runs_app; [apply H; [lia | exact Ha]|]. intros st' H'. replace (a + S c)%nat with (S a + c)%nat by lia.
      apply IH; [|exact H']. intros k s Hk. apply H. lia.
  Qed.
End Gates.

Section X.
  Variable lay : layout.
  Hypothesis Hv : valid lay.
  Hypothesis Hobs : obs lay = "V"%string \/ obs lay = "H"%string.
  Variable gs : nat -> bool.
  Variable A0 : cpx -> bits.
  Notation E := (round_edges lay).
  Notation zk := Z.of_nat.
  Notation ne := (length (E 0)).
  Notation D := (data_qubit_coords lay).
  Notation trk := (trk lay (tr0 lay)).
  Notation annk := (annk lay (tr0 lay)).
  Notation ix := (ix lay).
  Notation run := (run gs).
  Notation runs := (runs gs).
  Local Opaque data_qubit_coords measure_qubit_coords q2i_dict hex_entries hexes round_edges all_edges isort.

  Notation A z := (A lay z A0).
  Notation m z := (m lay z A0).
  Notation acc z := (acc lay z A0).
  Notation bit z := (bit lay z A0).
  Notation recl z := (recl lay z A0).
  Notation obs_total z := (obs_total lay z A0).

  (** The data start in the observable's basis. *)
  Definition start_ok : Prop := forall q, isdata lay q -> anti2 (pbits (init_basis lay)) (A0 q) = false.

  Definition pbase (z : nat -> edge -> bool) (s : nat) (e : edge) : bool := if pc3 lay then acc z s e else false.
  (** The ancillas of sub-round s (hm: with a Hadamard on them). *)
  Definition Anc (z : nat -> edge -> bool) (hm : bool) (st : fstate) (sp : nat * phase) : Prop :=
    let (s, p) := sp in
    forall e, In e (E (zk s)) ->
      let v := sw hm (fr st (ix (e_center e))) in
      match p with
      | Idle => fst v = pbase z s e
      | LeftD => fst v = xorb (pbase z s e) (anti2 (pbits (xyz (zk s))) (A z s (e_left e))) /\ snd v = z s e
      | BothD => fst v = bit z s e
      end.
  Definition bd (L : nat) (sp : nat * phase) : Prop := match snd sp with Idle => (fst sp <= L + 2)%nat | _ => (fst sp < L)%nat end.

  (** L (R) sub-rounds have been applied to the left (right) qubits, M measured;
      the left (right) qubits have been rotated kL (kR) times. *)
  Record Inv (z : nat -> edge -> bool) (L R M kL kR : nat) (st : fstate) : Prop := {
    i_left : forall q, isdata lay q -> data_qubit_parity q = false -> fr st (ix q) = rotn kL (A z L q);
    i_right : forall q, isdata lay q -> data_qubit_parity q = true -> fr st (ix q) = rotn kR (A z R q);
    i_rec : frec st = recl z M;
    i_ann : start_ok -> Forall (eq false) (fdets st) /\
            forall x, fobs st x = Nat.eqb x (oidx lay) && (if pc3 lay then false else obs_total z M);
    i_ord : (M <= R <= L)%nat }.
  Definition St (L R M kL kR : nat) (hm : bool) (pa : list (nat * phase)) (st : fstate) : Prop :=
    exists z, Inv z L R M kL kR st /\ forall sp, In sp pa -> bd L sp /\ Anc z hm st sp.

  Lemma St_incl L R M kL kR hm pa pa' st : incl pa' pa -> St L R M kL kR hm pa st -> St L R M kL kR hm pa' st.
  Proof. intros H (z & HI & HP). exists z. split; [exact HI|]. intros sp Hsp. apply HP, H, Hsp. Qed.
  Lemma St_rot L R M kL kR kL' kR' hm pa st : (kL mod 3 = kL' mod 3)%nat -> (kR mod 3 = kR' mod 3)%nat ->
    St L R M kL kR hm pa st -> St L R M kL' kR' hm pa st.
  Proof.
    intros EL ER (z & HI & HP). exists z. split; [|exact HP]. destruct HI. split; auto.
    - intros q Hq Pq. rewrite (rotn_mod kL'), <- EL, <- rotn_mod. auto.
    - intros q Hq Pq. rewrite (rotn_mod kR'), <- ER, <- rotn_mod. auto.
  Qed.

  (** Anything that leaves the frame alone leaves the ancillas alone. *)
  Lemma Anc_fr z hm st st' s p : (forall e, In e (E (zk s)) -> fr st' (ix (e_center e)) = fr st (ix (e_center e))) -> Anc z hm st (s, p) -> Anc z hm st' (s, p).
  Proof. intros H K e He. specialize (K e He). cbn zeta in *. now rewrite H. Qed.
  Lemma Anc_ext z z' hm st L sp : (forall t e, (t < L)%nat -> z t e = z' t e) -> bd L sp -> Anc z hm st sp -> Anc z' hm st sp.
  Proof.
    intros Hz Hb K. destruct sp as [s p]. intros e He. specialize (K e He). cbn zeta in *. unfold bd in Hb. cbn [fst snd] in Hb.
    assert (Ep : (s <= L + 2)%nat -> pbase z s e = pbase z' s e).
    { intros Hs. unfold pbase. destruct (pc3 lay); [|reflexivity]. destruct s as [|s]; [reflexivity|].
      rewrite !(acc_other lay Hv _ _ s e (zk (S s)) He) by dlia. apply acc_ext. intros; apply Hz; lia. }
    destruct p.
    - rewrite <- Ep by lia. exact K.
    - rewrite <- Ep by lia. rewrite <- Hz by lia. rewrite <- (A_ext lay z z') by (intros; apply Hz; lia). exact K.
    - rewrite <- (bit_ext lay z z') by (intros; apply Hz; lia). exact K.
  Qed.
  Lemma bd_mono L sp : bd L sp -> bd (S L) sp.
  Proof. destruct sp as [s []]; unfold bd; cbn; lia. Qed.
  Lemma bd_class (rest : list (nat * phase)) s : (forall sp, In sp rest -> zk (fst sp) mod 3 <> zk s mod 3) ->
    forall s' p e e', In (s', p) rest -> In e (E (zk s)) -> In e' (E (zk s')) -> ix (e_center e') <> ix (e_center e).
  Proof. intros H s' p e e' Hin He He'. eapply ix_centers; eauto. apply (H (s', p) Hin). Qed.

  (** ** Two-qubit gates *)
  Lemma op_left name P Q L R M kL kR (hm : bool) (rest : list (nat * phase)) st :
    In (name, (P, Q)) [("CX", (PZ, PX)); ("XCX", (PX, PX)); ("YCX", (PY, PX)); ("CZ", (PZ, PZ))]%string ->
    rotn kL (pbits (xyz (zk L))) = pbits P -> Q = (if hm then PZ else PX) ->
    (forall sp, In sp rest -> zk (fst sp) mod 3 <> zk L mod 3) ->
    St L R M kL kR hm ((L, Idle) :: rest) st ->
    exists st', run_instr gs (Gen.g name (lpairs lay (zk L))) st = Ok st' /\ St (S L) R M kL kR hm ((L, LeftD) :: rest) st'.
  Proof.
    intros Hname HP HQ Hcl (z & HI & Hpa). destruct HI as [IL IR IM IA IO].
    rewrite (run2 gs name P Q _ _ Hname). unfold lpairs.
    destruct (run_pairs_ok gs P Q (fun e => ix (e_left e)) (fun e => ix (e_center e)) (E (zk L)) (fr st) (NoDup_lpairs lay Hv (zk L))) as (f & Ef & F1 & F2).
    rewrite Ef. cbn [bind]. eexists. split; [reflexivity|].
    set (z' := fun s e => if Nat.eqb s L then snd (sw hm (fr st (ix (e_center e)))) else z s e).
    assert (Hz : forall t e, (t < L)%nat -> z t e = z' t e).
    { intros t e Ht. unfold z'. destruct (Nat.eqb_spec t L); [lia | reflexivity]. }
    assert (HzL : forall e, z' L e = snd (sw hm (fr st (ix (e_center e))))) by (intros e; unfold z'; now rewrite Nat.eqb_refl).
    assert (Hcom : forall e, anti2 (pbits Q) (fr st (ix (e_center e))) = z' L e).
    { intros e. rewrite HzL, HQ. destruct hm; destruct (fr st (ix (e_center e))) as [[] []]; reflexivity. }
    exists z'. split.
    - split; cbn [fr frec fdets fobs with_fr].
      + intros q Hq Pq. set (e := touch lay (zk L) q).
        assert (He : In e (E (zk L))) by now apply touch_in.
        assert (El : e_left e = q).
        { destruct (proj2 (touch_unique lay Hv (zk L) q e Hq He) eq_refl) as [K|K]; [exact K|].
          destruct (round_edge_facts lay Hv _ e He) as (_ & _ & _ & Pr & _). rewrite K in Pr. congruence. }
        destruct (F1 e He) as [K _]. rewrite El in K. rewrite K, IL by assumption. cbn [Traj.A]. unfold kick. fold e.
        rewrite rotn_bxor, Hcom. rewrite (A_ext lay z z' A0 L Hz q). f_equal. change (if z' L e then pbits (xyz (zk L)) else bzero) with (bsel (z' L e) (pbits (xyz (zk L)))).
        now rewrite rotn_bsel, HP.
      + intros q Hq Pq. rewrite F2.
        * rewrite IR by assumption. f_equal. apply A_ext. intros; apply Hz; lia.
        * apply (out_pairs lay). intros e He. destruct (round_edge_facts lay Hv _ e He) as (Hl & _ & Pl & _). split.
          -- apply (ix_data_ne lay Hv); auto. intros ->. congruence.
          -- eapply ix_data_center; eauto.
      + rewrite IM. apply recl_ext. intros; apply Hz; lia.
      + intros Hs. destruct (IA Hs) as [I1 I2]. split; [exact I1|]. intros x. rewrite I2. destruct (pc3 lay); [reflexivity|].
        f_equal. apply obs_total_ext. intros; apply Hz; lia.
      + lia.
    - intros sp [<-|Hin].
      + split; [unfold bd; cbn; lia|]. intros e He. cbn [fr with_fr].
        destruct (F1 e He) as [_ K]. rewrite K.
        destruct (Hpa (L, Idle) (or_introl eq_refl)) as [_ HA]. specialize (HA e He). cbn zeta in HA.
        assert (Ep : pbase z L e = pbase z' L e).
        { unfold pbase. destruct (pc3 lay); [|reflexivity]. apply acc_ext. intros; apply Hz; lia. }
        destruct (round_edge_facts lay Hv _ e He) as (Hl & _ & Pl & _).
        rewrite (IL _ Hl Pl). rewrite (A_ext lay z z' A0 L Hz). rewrite <- HP, rotn_anti.
        rewrite <- Ep, <- HA, HzL, HQ. generalize (anti2 (pbits (xyz (zk L))) (A z' L (e_left e))). clear.
        destruct hm; destruct (fr st (ix (e_center e))) as [[] []]; intros []; split; reflexivity.
      + destruct sp as [s p]. destruct (Hpa (s, p) (or_intror Hin)) as [Hb HA]. split; [now apply bd_mono|].
        eapply Anc_ext; [exact Hz | exact Hb |]. eapply Anc_fr; [|exact HA]. intros e He. cbn [fr with_fr]. apply F2, (out_pairs lay). intros e' He'. split.
        * intros K. symmetry in K. revert K. eapply ix_data_center; [exact Hv | | exact He]. now apply (round_edge_facts lay Hv (zk L)).
        * eapply bd_class; eauto.
  Qed.

  Lemma op_right name P Q L R M kL kR (hm : bool) (rest : list (nat * phase)) st :
    In (name, (P, Q)) [("CX", (PZ, PX)); ("XCX", (PX, PX)); ("YCX", (PY, PX)); ("CZ", (PZ, PZ))]%string ->
    rotn kR (pbits (xyz (zk R))) = pbits P -> Q = (if hm then PZ else PX) ->
    (forall sp, In sp rest -> zk (fst sp) mod 3 <> zk R mod 3) ->
    St L R M kL kR hm ((R, LeftD) :: rest) st ->
    exists st', run_instr gs (Gen.g name (rpairs lay (zk R))) st = Ok st' /\ St L (S R) M kL kR hm ((R, BothD) :: rest) st'.
  Proof.
    intros Hname HP HQ Hcl (z & HI & Hpa). destruct HI as [IL IR IM IA IO].
    rewrite (run2 gs name P Q _ _ Hname). unfold rpairs.
    destruct (run_pairs_ok gs P Q (fun e => ix (e_right e)) (fun e => ix (e_center e)) (E (zk R)) (fr st) (NoDup_rpairs lay Hv (zk R))) as (f & Ef & F1 & F2).
    rewrite Ef. cbn [bind]. eexists. split; [reflexivity|].
    destruct (Hpa (R, LeftD) (or_introl eq_refl)) as [Hb0 HA]. unfold bd in Hb0. cbn [fst snd] in Hb0.
    assert (Hcom : forall e, In e (E (zk R)) -> anti2 (pbits Q) (fr st (ix (e_center e))) = z R e).
    { intros e He. destruct (HA e He) as [_ K]. rewrite <- K, HQ. destruct hm; destruct (fr st (ix (e_center e))) as [[] []]; reflexivity. }
    exists z. split.
    - split; cbn [fr frec fdets fobs with_fr]; auto; [| |lia].
      + intros q Hq Pq. rewrite F2; [now apply IL|].
        apply (out_pairs lay). intros e He. destruct (round_edge_facts lay Hv _ e He) as (_ & Hr & _ & Pr & _). split.
        * apply (ix_data_ne lay Hv); auto. intros ->. congruence.
        * eapply ix_data_center; eauto.
      + intros q Hq Pq. set (e := touch lay (zk R) q).
        assert (He : In e (E (zk R))) by now apply touch_in.
        assert (El : e_right e = q).
        { destruct (proj2 (touch_unique lay Hv (zk R) q e Hq He) eq_refl) as [K|K]; [|exact K].
          destruct (round_edge_facts lay Hv _ e He) as (_ & _ & Pl & _). rewrite K in Pl. congruence. }
        destruct (F1 e He) as [K _]. rewrite El in K. rewrite K, IR by assumption. cbn [Traj.A]. unfold kick. fold e.
        rewrite rotn_bxor, Hcom by exact He. f_equal. change (if z R e then pbits (xyz (zk R)) else bzero) with (bsel (z R e) (pbits (xyz (zk R)))).
        now rewrite rotn_bsel, HP.
    - intros sp [<-|Hin].
      + split; [unfold bd; cbn; lia|]. intros e He. cbn [fr with_fr].
        destruct (F1 e He) as [_ K]. rewrite K. destruct (HA e He) as [HA1 _].
        destruct (round_edge_facts lay Hv _ e He) as (Hl & Hr & _ & Pr & _).
        rewrite (IR _ Hr Pr). rewrite <- HP, rotn_anti.
        replace (bit z R e) with (xorb (pbase z R e) (m z R e)).
        2:{ unfold Eval.bit, pbase. destruct (pc3 lay); [reflexivity | apply xorb_false_l]. }
        replace (m z R e) with (xorb (anti2 (pbits (xyz (zk R))) (A z R (e_left e))) (anti2 (pbits (xyz (zk R))) (A z R (e_right e)))).
        2:{ unfold Traj.m, edge_op. rewrite par_pstr, !xsum_cons. unfold xsum. cbn [fold_right]. now rewrite xorb_false_r. }
        rewrite <- xorb_assoc, <- HA1. rewrite HQ. generalize (anti2 (pbits (xyz (zk R))) (A z R (e_right e))). clear.
        destruct hm; destruct (fr st (ix (e_center e))) as [[] []]; intros []; reflexivity.
      + destruct sp as [s p]. destruct (Hpa (s, p) (or_intror Hin)) as [Hb HA']. split; [exact Hb|].
        eapply Anc_fr; [|exact HA']. intros e He. cbn [fr with_fr]. apply F2, (out_pairs lay). intros e' He'. split.
        * intros K. symmetry in K. revert K. eapply ix_data_center; [exact Hv | | exact He]. now apply (round_edge_facts lay Hv (zk R)).
        * eapply bd_class; eauto.
  Qed.

  (** ** Rotations of the data *)
  Definition rots (name : string) (f : bits -> bits) (j : nat) : Prop :=
    (name = "C_ZYX"%string /\ f = rotb /\ j = 1%nat) \/ (name = "C_XYZ"%string /\ f = (fun b => (xorb (fst b) (snd b), fst b)) /\ j = 2%nat).
  Lemma rots_add name f j k b : rots name f j -> f (rotn k b) = rotn (k + j) b.
  Proof.
    intros [(_ & -> & ->)|(_ & -> & ->)]; [now rewrite Nat.add_1_r|]. rewrite Nat.add_comm. cbn [rotn Nat.add].
    destruct (rotn k b) as [[] []]; reflexivity.
  Qed.
  Lemma op_rotate name f j (sel : cpx -> bool) kL' kR' L R M kL kR hm pa st :
    rots name f j ->
    (forall q, data_qubit_parity q = false -> (kL' = kL + if sel q then j else 0)%nat) ->
    (forall q, data_qubit_parity q = true -> (kR' = kR + if sel q then j else 0)%nat) ->
    St L R M kL kR hm pa st ->
    exists st', run_instr gs (Gen.g name (map ix (filter sel D))) st = Ok st' /\ St L R M kL' kR' hm pa st'.
  Proof.
    intros Hr HL HR (z & HI & Hpa). destruct HI as [IL IR IM IA IO].
    rewrite (run1 gs name f).
    2:{ destruct Hr as [(-> & -> & _)|(-> & -> & _)]; cbn [In]; auto. }
    assert (Hsub : forall q, In q (filter sel D) -> isdata lay q) by (intros q Hq; apply filter_In in Hq; apply in_data; tauto).
    destruct (fold_ap1 f (map ix (filter sel D)) (fr st)) as [F1 F2].
    { apply NoDup_ix; [exact Hv | | apply NoDup_filter, NoDup_data]. intros q Hq. apply data_in_qubits; [exact Hv|]. now apply Hsub. }
    assert (F : forall q, isdata lay q -> fold_left (ap1 f) (map ix (filter sel D)) (fr st) (ix q) = if sel q then f (fr st (ix q)) else fr st (ix q)).
    { intros q Hq. destruct (sel q) eqn:Es.
      - apply F1, in_map, filter_In. split; [now apply in_data | exact Es].
      - apply F2. intros K. apply in_map_iff in K. destruct K as (q' & K & Hq'). pose proof (Hsub q' Hq') as Hd. apply filter_In in Hq'.
        apply (ix_inj lay Hv) in K; try now apply data_in_qubits. subst. destruct Hq'. congruence. }
    eexists. split; [reflexivity|]. exists z. split.
    - split; cbn [fr frec fdets fobs with_fr]; auto.
      + intros q Hq Pq. rewrite F by exact Hq. rewrite IL by assumption. specialize (HL q Pq). rewrite HL.
        destruct (sel q); [eapply rots_add; eauto | now rewrite Nat.add_0_r].
      + intros q Hq Pq. rewrite F by exact Hq. rewrite IR by assumption. specialize (HR q Pq). rewrite HR.
        destruct (sel q); [eapply rots_add; eauto | now rewrite Nat.add_0_r].
    - intros [s p] Hin. destruct (Hpa _ Hin) as [Hb HA]. split; [exact Hb|]. eapply Anc_fr; [|exact HA]. intros e He. cbn [fr with_fr]. apply F2.
      intros K. apply in_map_iff in K. destruct K as (q & K & Hq). revert K. eapply ix_data_center; [exact Hv | | exact He]. now apply Hsub.
  Qed.
  Lemma op_rot_all L R M kL kR hm pa st : St L R M kL kR hm pa st ->
    exists st', run_instr gs (Gen.g "C_ZYX" (Gen.data_ix lay)) st = Ok st' /\ St L R M (S kL) (S kR) hm pa st'.
  Proof.
    intros H. replace (Gen.data_ix lay) with (map ix (filter (fun _ => true) D)).
    - eapply op_rotate; [left; split; [reflexivity | split; reflexivity] | | | exact H]; intros; lia.
    - unfold Gen.data_ix, Ends.data_ix. f_equal. clear. induction D as [|q l IH]; [reflexivity|]. cbn. now rewrite IH.
  Qed.
  Lemma op_unrot_all L R M kL kR hm pa st : St L R M kL kR hm pa st ->
    exists st', run_instr gs (Gen.g "C_XYZ" (Gen.data_ix lay)) st = Ok st' /\ St L R M (kL + 2) (kR + 2) hm pa st'.
  Proof.
    intros H. replace (Gen.data_ix lay) with (map ix (filter (fun _ => true) D)).
    - eapply op_rotate; [right; split; [reflexivity | split; reflexivity] | | | exact H]; intros; lia.
    - unfold Gen.data_ix, Ends.data_ix. f_equal. clear. induction D as [|q l IH]; [reflexivity|]. cbn. now rewrite IH.
  Qed.
  Lemma op_rot1 L R M kL kR hm pa st : St L R M kL kR hm pa st ->
    exists st', run_instr gs (Gen.g "C_ZYX" (data1 lay)) st = Ok st' /\ St L R M (S kL) kR hm pa st'.
  Proof.
    intros H. eapply (op_rotate _ _ _ (fun q => negb (data_qubit_parity q))); [left; split; [reflexivity | split; reflexivity] | | | exact H]; intros q ->; cbn; lia.
  Qed.
  Lemma op_rot2 L R M kL kR hm pa st : St L R M kL kR hm pa st ->
    exists st', run_instr gs (Gen.g "C_ZYX" (data2 lay)) st = Ok st' /\ St L R M kL (S kR) hm pa st'.
  Proof.
    intros H. eapply (op_rotate _ _ _ data_qubit_parity); [left; split; [reflexivity | split; reflexivity] | | | exact H]; intros q ->; cbn; lia.
  Qed.

  (** ** Resets and Hadamards of ancillas *)
  Lemma fresh_base z s e : In e (E (zk s)) -> pc3 lay = false \/ (s < 3)%nat -> pbase z s e = false.
  Proof.
    intros He H. unfold pbase. destruct (pc3 lay); [|reflexivity]. destruct H as [H|H]; [discriminate|].
    destruct s as [|[|[|s]]]; [reflexivity | | | lia].
    - now rewrite (acc_other lay Hv z A0 0 e (zk 1) He) by (vm_compute; discriminate).
    - rewrite (acc_other lay Hv z A0 1 e (zk 2) He) by (vm_compute; discriminate). now rewrite (acc_other lay Hv z A0 0 e (zk 2) He) by (vm_compute; discriminate).
  Qed.
  Lemma op_reset s L R M kL kR (rest : list (nat * phase)) st : pc3 lay = false \/ (s < 3)%nat -> (s <= L + 2)%nat ->
    (forall sp, In sp rest -> zk (fst sp) mod 3 <> zk s mod 3) ->
    St L R M kL kR false rest st ->
    exists st', run_instr gs (Gen.g "R" (centers lay (zk s))) st = Ok st' /\ St L R M kL kR false ((s, Idle) :: rest) st'.
  Proof.
    intros H3 HsL Hcl (z & HI & Hpa). destruct HI as [IL IR IM IA IO]. rewrite run_R.
    destruct (fold_reset gs PZ (centers lay (zk s)) st (NoDup_centers lay Hv (zk s))) as (F1 & F2 & F3 & F4 & F5).
    eexists. split; [reflexivity|]. cbn zeta in *.
    assert (O : forall q, isdata lay q -> fr (fold_left (do_reset gs PZ) (centers lay (zk s)) st) (ix q) = fr st (ix q)).
    { intros q Hq. apply F5, out_centers. intros e He. eapply ix_data_center; eauto. }
    exists z. split.
    - split; rewrite ?F1, ?F2, ?F3; auto; intros; rewrite O; auto.
    - intros sp [<-|Hin].
      + split; [unfold bd; cbn; lia|]. intros e He. rewrite fresh_base by assumption. cbn [sw].
        destruct (F4 (ix (e_center e))) as [b ->]; [unfold centers; apply in_map_iff; eauto|]. now destruct b.
      + destruct sp as [s' p]. destruct (Hpa _ Hin) as [Hb HA]. split; [exact Hb|]. eapply Anc_fr; [|exact HA]. intros e He. apply F5, out_centers. intros e' He'.
        eapply bd_class; eauto.
  Qed.
  Lemma meas_ix_in s e : In e (E s) -> In (ix (e_center e)) (meas_ix lay).
  Proof. intros He. unfold meas_ix. apply in_map, in_measure; [exact Hv|]. eapply center_of; eauto. Qed.
  Lemma NoDup_meas : NoDup (meas_ix lay).
  Proof.
    unfold meas_ix. apply NoDup_ix; [exact Hv | | apply NoDup_measure]. intros q Hq. apply in_measure in Hq; [|exact Hv]. now apply center_in_qubits.
  Qed.
  Lemma data_not_meas_ix q : isdata lay q -> ~ In (ix q) (meas_ix lay).
  Proof.
    intros Hq K. unfold meas_ix in K. apply in_map_iff in K. destruct K as (c & K & Hc). apply in_measure in Hc; [|exact Hv].
    apply (ix_inj lay Hv) in K; [|now apply center_in_qubits | now apply data_in_qubits]. subst. eapply data_not_measure; eauto.
  Qed.
  Lemma op_reset_all s L R M kL kR st : pc3 lay = false \/ s = 0%nat -> (s <= L)%nat ->
    St L R M kL kR false [] st ->
    exists st', run_instr gs (Gen.g "R" (meas_ix lay)) st = Ok st' /\ St L R M kL kR false [(s, Idle); (s + 1, Idle); (s + 2, Idle)]%nat st'.
  Proof.
    intros H3 HsL (z & HI & Hpa). destruct HI as [IL IR IM IA IO]. rewrite run_R.
    destruct (fold_reset gs PZ (meas_ix lay) st NoDup_meas) as (F1 & F2 & F3 & F4 & F5). cbn zeta in *.
    eexists. split; [reflexivity|]. exists z. split.
    - split; rewrite ?F1, ?F2, ?F3; auto; intros; rewrite F5 by (now apply data_not_meas_ix); auto.
    - intros [s' p] Hin. assert (Hs' : p = Idle /\ (s' = s \/ s' = s + 1 \/ s' = s + 2)%nat).
      { destruct Hin as [K|[K|[K|[]]]]; injection K as <- <-; auto. }
      destruct Hs' as [-> Hs']. split; [unfold bd; cbn; lia|]. intros e He. rewrite fresh_base; [|exact He | destruct H3; [auto | right; lia]]. cbn [sw].
      destruct (F4 (ix (e_center e))) as [b ->]; [eapply meas_ix_in; eauto|]. now destruct b.
  Qed.
  Lemma op_H L R M kL kR hm pa st : St L R M kL kR hm pa st ->
    exists st', run_instr gs (Gen.g "H" (meas_ix lay)) st = Ok st' /\ St L R M kL kR (negb hm) pa st'.
  Proof.
    intros (z & HI & Hpa). destruct HI as [IL IR IM IA IO]. rewrite (run1 gs "H" (fun b => (snd b, fst b))) by (cbn [In]; auto).
    destruct (fold_ap1 (fun b : bits => (snd b, fst b)) (meas_ix lay) (fr st) NoDup_meas) as [F1 F2].
    eexists. split; [reflexivity|]. exists z. split.
    - split; cbn [fr frec fdets fobs with_fr]; auto; intros; rewrite F2 by (now apply data_not_meas_ix); auto.
    - intros [s p] Hin. destruct (Hpa _ Hin) as [Hb HA]. split; [exact Hb|]. intros e He. specialize (HA e He). cbn [fr with_fr] in *.
      rewrite F1 by (eapply meas_ix_in; eauto). destruct hm, (fr st (ix (e_center e))) as [x0 z0]; exact HA.
  Qed.
  Lemma op_tick L R M kL kR hm pa st : St L R M kL kR hm pa st ->
    exists st', run_instr gs tick_i st = Ok st' /\ St L R M kL kR hm pa st'.
  Proof. intros H. exists st. split; [reflexivity | exact H]. Qed.

  (** ** Annotations of a measured sub-round *)
  Lemma run_shift st : run [shift_i] st = Ok st.
  Proof. reflexivity. Qed.
  Lemma in_dval B t v b x : gd B t v b -> In x (dval B v) -> x = b.
  Proof. destruct v as [s|]; cbn; [|tauto]. intros (_ & _ & <-) [<-|[]]. reflexivity. Qed.

  Lemma run_annk z k st : frec st = recl z (S k) ->
    exists dl, run (annk k) st = Ok (add_dets (if pc3 lay then st else add_obs st (oidx lay) (xsum (m z k) (oat lay (zk k)))) dl) /\
    (start_ok -> Forall (eq false) dl).
  Proof.
    intros Hrec. set (B := fun i => nth i (frec st) false).
    assert (Hlen : length (frec st) = (S k * ne)%nat) by (rewrite Hrec; apply length_recl, Hv).
    assert (Htm : (tm (trk k) + length (E (zk k)))%nat = length (frec st)) by (rewrite tm_trk, (length_E lay Hv (zk k)), Hlen by exact Hv; cbn [tm tr0]; lia).
    assert (HR : rows lay z A0 B (S k)).
    { unfold B. rewrite Hrec. rewrite <- (app_nil_r (recl z (S k))). apply rows_recl, Hv. }
    assert (HRk : forall e, In e (E (zk k)) -> B (k * ne + index edge_eqb e (E (zk k)))%nat = bit z k e) by (intros e He; apply HR; [lia | exact He]).
    assert (HT : start_ok -> TI lay z A0 B k) by (intros Hs; apply TI_all; auto; intros s e Hs'; apply HR; lia).
    pose proof (wf_trk lay Hv k) as W.
    unfold Shift.annk, ann.
    (* the observable *)
    assert (EO : run (obsinc lay (zk k) (trk k)) st = Ok (if pc3 lay then st else add_obs st (oidx lay) (xsum (m z k) (oat lay (zk k))))).
    { unfold obsinc. destruct (pc3 lay) eqn:P; [reflexivity|]. rewrite Htm.
      assert (Wc : wf_entry (length (frec st)) (comb (map (vedge lay (zk k) (trk k)) (oat lay (zk k))))).
      { apply wf_comb_map. intros e He. rewrite <- Htm. apply wf_vedge; [exact W|]. rewrite oat_filter in He. apply filter_In in He. tauto. }
      assert (G : gd B (length (frec st)) (comb (map (vedge lay (zk k) (trk k)) (oat lay (zk k)))) (xsum (m z k) (oat lay (zk k)))).
      { apply gd_comb_map. intros e He. rewrite vedge_some by exact P. rewrite oat_filter in He. apply filter_In in He. destruct He as [He _].
        rewrite tm_trk by exact Hv. cbn [tm tr0]. rewrite Nat.add_0_l. replace (m z k e) with (bit z k e) by (unfold Eval.bit; now rewrite P). rewrite <- HRk by exact He. apply gd_single.
        pose proof (index_lt edge_eqb edge_eqb_eq e _ He) as K. rewrite (length_E lay Hv (zk k)) in K. lia. }
      destruct (comb (map (vedge lay (zk k) (trk k)) (oat lay (zk k)))) as [s|] eqn:F.
      - rewrite run_obs by exact Wc. cbn [gd] in G. destruct G as (_ & _ & G). unfold B in G. now rewrite G.
      - exfalso. revert F. apply comb_some. intros v Hin. apply in_map_iff in Hin. destruct Hin as (e & <- & _). rewrite vedge_some by exact P. discriminate. }
    set (st1 := if pc3 lay then st else _) in *.
    assert (R1 : frec st1 = frec st) by (unfold st1; destruct (pc3 lay); reflexivity).
    (* the first sub-round's edges *)
    assert (ED : exists dl, run (dets0 lay (zk k) (trk k)) st1 = Ok (add_dets st1 dl) /\ (start_ok -> Forall (eq false) dl)).
    { unfold dets0. destruct ((zk k =? 0) && pauli_eqb (fst (obr lay 0)) PX) eqn:F; [|exists []; rewrite add_dets_nil; auto].
      rewrite Htm, <- R1. rewrite run_dets.
      - eexists. split; [reflexivity|]. intros Hs. apply Forall_forall. intros x Hx. rewrite R1 in Hx. apply in_flat_map in Hx. destruct Hx as (e & He & Hx).
        symmetry. apply andb_prop in F. destruct F as [F1 F2]. apply Z.eqb_eq in F1. assert (k = O) by lia. subst k. apply pauli_eqb_eq in F2.
        eapply in_dval; [|exact Hx]. apply (dets0_gd lay Hv Hobs z A0 Hs B e); auto.
      - intros e He. rewrite R1, <- Htm. now apply wf_vedge. }
    destruct ED as (d1 & ED & HD1).
    (* the stabilizers *)
    assert (EH : exists dl, run (hexdets lay (zk k) (trk k)) (add_dets st1 d1) = Ok (add_dets (add_dets st1 d1) dl) /\ (start_ok -> Forall (eq false) dl)).
    { unfold hexdets. rewrite Htm. replace (length (frec st)) with (length (frec (add_dets st1 d1))) by (cbn [frec add_dets]; now rewrite R1). rewrite run_dets.
      - eexists. split; [reflexivity|]. intros Hs. apply Forall_forall. intros x Hx. apply in_flat_map in Hx. destruct Hx as (h & Hh & Hx).
        symmetry. cbn [frec add_dets] in Hx. rewrite R1 in Hx. eapply in_dval; [|exact Hx]. eapply hexdet_gd; eauto.
      - intros h Hh. cbn [frec add_dets]. rewrite R1, <- Htm. apply wf_comb. intros v [<-|[<-|[]]]; [now apply wf_vhex|].
        eapply wf_entry_mono; [|now apply wf_cur]. lia. }
    destruct EH as (d2 & EH & HD2).
    exists (d1 ++ d2). split.
    - rewrite run_app, EO. cbn [bind]. rewrite run_app, ED. cbn [bind]. rewrite run_app, EH. cbn [bind]. rewrite run_shift. now rewrite add_dets_app.
    - intros Hs. apply Forall_app. auto.
  Qed.

  Lemma Inv_ann z L R M kL kR st st' dl : Inv z L R M kL kR st ->
    fr st' = fr st \/ (forall q, isdata lay q -> fr st' (ix q) = fr st (ix q)) ->
    frec st' = recl z (S M) -> (S M <= R)%nat ->
    fdets st' = fdets st ++ dl -> (start_ok -> Forall (eq false) dl) ->
    (forall x, fobs st' x = if pc3 lay then fobs st x else xorb (fobs st x) (Nat.eqb x (oidx lay) && xsum (m z M) (oat lay (zk M)))) ->
    Inv z L R (S M) kL kR st'.
  Proof.
    intros [IL IR IM IA IO] Hfr Hrec HMR Hd Hdl Ho.
    assert (Hfr' : forall q, isdata lay q -> fr st' (ix q) = fr st (ix q)) by (destruct Hfr as [->|Hfr]; auto).
    split.
    - intros q Hq Pq. rewrite Hfr' by exact Hq. auto.
    - intros q Hq Pq. rewrite Hfr' by exact Hq. auto.
    - exact Hrec.
    - intros Hs. destruct (IA Hs) as [I1 I2]. split; [rewrite Hd; apply Forall_app; auto|]. intros x. rewrite Ho, I2. destruct (pc3 lay); [reflexivity|].
      cbn [Eval.obs_total]. destruct (Nat.eqb x (oidx lay)); [reflexivity | reflexivity].
    - lia.
  Qed.

  (** Measuring sub-round M's ancillas, and its annotations. *)
  Definition after_measure (s : nat) : list (nat * phase) := if pc3 lay then [((s + 3)%nat, Idle)] else [].
  Lemma op_measure L R M kL kR (rest : list (nat * phase)) st : is_em3 (style lay) = false -> (S M <= R)%nat ->
    (forall sp, In sp rest -> zk (fst sp) mod 3 <> zk M mod 3) -> (pc3 lay = true -> (S M <= L)%nat) ->
    St L R M kL kR false ((M, BothD) :: rest) st ->
    runs (mop lay (zk M) ++ annk M) (St L R (S M) kL kR false (after_measure M ++ rest)) st.
  Proof.
    intros Hem HMR Hcl HL (z & HI & Hpa). unfold mop. rewrite Hem.
    change (mkI "M" (qs (map (fun e => ix (e_center e)) (E (zk M)))) []) with (Gen.g "M" (centers lay (zk M))).
    destruct (fold_measure gs PZ (centers lay (zk M)) st (NoDup_centers lay Hv (zk M))) as (F1 & F2 & F3 & F4 & F5). cbn zeta in *.
    set (st1 := fold_left _ (centers lay (zk M)) st) in *.
    destruct (Hpa (M, BothD) (or_introl eq_refl)) as [_ HB].
    assert (Hrec : frec st1 = recl z (S M)).
    { rewrite F1, recl_S, (i_rec _ _ _ _ _ _ _ HI). f_equal. unfold centers. rewrite map_map. apply map_ext_in. intros e He. rewrite <- (HB e He).
      cbn [sw]. destruct (fr st (ix (e_center e))) as [[] []]; reflexivity. }
    destruct (run_annk z M st1 Hrec) as (dl & Er & Hdl).
    eexists. split.
    - cbn [app Frame.run]. rewrite run_M. fold st1. cbn [bind]. exact Er.
    - exists z. split.
      + eapply Inv_ann with (dl := dl); [exact HI | right | | exact HMR | | exact Hdl |].
        * intros q Hq. transitivity (fr st1 (ix q)); [destruct (pc3 lay); reflexivity|]. apply F5, out_centers. intros e He. eapply ix_data_center; eauto.
        * destruct (pc3 lay); exact Hrec.
        * destruct (pc3 lay); cbn [fdets add_dets add_obs]; now rewrite F2.
        * intros x. destruct (pc3 lay); cbn [fobs add_dets add_obs]; now rewrite F3.
      + assert (Hfr : forall x, fr (add_dets (if pc3 lay then st1 else add_obs st1 (oidx lay) (xsum (m z M) (oat lay (zk M)))) dl) x = fr st1 x) by (intros; destruct (pc3 lay); reflexivity).
        intros sp Hin. apply in_app_or in Hin. destruct Hin as [Hin|Hin].
        * unfold after_measure in Hin. destruct (pc3 lay) eqn:P; [|destruct Hin]. destruct Hin as [<-|[]]. specialize (HL eq_refl). split; [unfold bd; cbn; lia|].
          intros e He. assert (He' : In e (E (zk M))) by (rewrite <- (E_cong lay (zk (M + 3)) (zk M)); [exact He | dlia]).
          cbn [sw]. change (fr (add_dets st1 dl)) with (fr st1). destruct (F4 (ix (e_center e))) as [b ->]; [unfold centers; apply in_map_iff; eauto|].
          specialize (HB e He'). cbn [sw] in HB. unfold pbase. rewrite P, acc_own by assumption. rewrite P.
          unfold Eval.bit in HB. rewrite P in HB. rewrite <- HB. destruct b, (fr st (ix (e_center e))) as [[] []]; reflexivity.
        * destruct sp as [s p]. destruct (Hpa _ (or_intror Hin)) as [Hb HA]. split; [exact Hb|].
          eapply Anc_fr; [|exact HA]. intros e He. rewrite Hfr. apply F5, out_centers. intros e' He'. eapply bd_class; eauto.
  Qed.
End X.
