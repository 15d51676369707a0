(** The state between two instructions of a generated circuit, as in Exec2,
    when the data carry an extra error [X s] from sub-round s on and some
    check results are flipped ([Y]). *)
From Coq Require Import QArith.
From Verif Require Import Prelude Layout LayoutFacts LayoutEdges LayoutLists LayoutHex LayoutHex2 Pauli LayoutObs LayoutLogic LayoutIndex
  Tracker TrackerFacts Stim Circuit Annot Shift Ends Gen Gen2 Gen3 Traj Eval Frame Exec Exec2.
Open Scope Z_scope.

(** ** Records of arbitrary check outcomes *)
Section W.
  Variable lay : layout.
  Hypothesis Hv : valid lay.
  Notation E := (round_edges lay).
  Notation zk := Z.of_nat.
  Notation ne := (length (E 0)).
  Local Opaque data_qubit_coords measure_qubit_coords q2i_dict hex_entries hexes round_edges all_edges isort.

  Fixpoint accw (w : nat -> edge -> bool) (k : nat) (e : edge) : bool :=
    match k with
    | O => false
    | S k => if emem e (E (zk k)) then (if pc3 lay then xorb (accw w k e) (w k e) else w k e) else accw w k e
    end.
  Definition bitw (w : nat -> edge -> bool) (k : nat) (e : edge) : bool := if pc3 lay then xorb (accw w k e) (w k e) else w k e.
  Definition recw (w : nat -> edge -> bool) (k : nat) : list bool := flat_map (fun s => map (bitw w s) (E (zk s))) (seq 0 k).

  Lemma accw_ext w w' k e : (forall t, (t < k)%nat -> In e (E (zk t)) -> w t e = w' t e) -> accw w k e = accw w' k e.
  Proof.
    induction k as [|k IH]; intros H; [reflexivity|]. cbn [accw]. rewrite IH by (intros; apply H; auto; lia).
    destruct (emem e (E (zk k))) eqn:F; [|reflexivity]. apply emem_In in F. now rewrite (H k) by (auto; lia).
  Qed.
  Lemma bitw_ext w w' k e : In e (E (zk k)) -> (forall t, (t <= k)%nat -> In e (E (zk t)) -> w t e = w' t e) -> bitw w k e = bitw w' k e.
  Proof. intros He H. unfold bitw. rewrite (H k) by auto. rewrite (accw_ext w w') by (intros; apply H; auto; lia). reflexivity. Qed.
  Lemma accw_other w k e s : In e (E s) -> zk k mod 3 <> s mod 3 -> accw w (S k) e = accw w k e.
  Proof.
    intros He N. cbn [accw]. destruct (emem e (E (zk k))) eqn:F; [|reflexivity]. apply emem_In in F. exfalso. apply N.
    eapply round_edges_disjoint; eauto.
  Qed.
  Lemma accw_own w k e : In e (E (zk k)) -> accw w (k + 3) e = if pc3 lay then xorb (accw w k e) (w k e) else w k e.
  Proof.
    intros He. replace (k + 3)%nat with (S (S (S k))) by lia. rewrite (accw_other _ _ _ (zk k) He) by dlia. rewrite (accw_other _ _ _ (zk k) He) by dlia.
    cbn [accw]. apply emem_In in He. now rewrite He.
  Qed.
  (** the ancilla of an edge holds only what has been measured *)
  Lemma accw_near w w' M s e : In e (E (zk s)) -> (s <= M + 2)%nat -> (forall t, (t < M)%nat -> In e (E (zk t)) -> w t e = w' t e) -> accw w s e = accw w' s e.
  Proof.
    intros He Hs H. destruct (Nat.le_gt_cases s M) as [L|L]; [apply accw_ext; intros; apply H; auto; lia|].
    destruct (Nat.eq_dec s (S M)) as [->|N1].
    - rewrite !(accw_other _ M e (zk (S M)) He) by dlia. now apply accw_ext.
    - replace s with (S (S M)) in * by lia. rewrite !(accw_other _ (S M) e (zk (S (S M))) He) by dlia.
      rewrite !(accw_other _ M e (zk (S (S M))) He) by dlia. now apply accw_ext.
  Qed.
  Lemma recw_S w k : recw w (S k) = recw w k ++ map (bitw w k) (E (zk k)).
  Proof. unfold recw. rewrite seq_S, flat_map_app. cbn [flat_map]. now rewrite app_nil_r. Qed.
  Lemma length_recw w k : length (recw w k) = (k * ne)%nat.
  Proof. induction k as [|k IH]; [reflexivity|]. rewrite recw_S, app_length, map_length, IH, (length_E lay Hv (zk k)). lia. Qed.
  Lemma recw_ext w w' k : (forall t e, (t < k)%nat -> In e (E (zk t)) -> w t e = w' t e) -> recw w k = recw w' k.
  Proof.
    intros H. unfold recw. apply flat_map_ext_in. intros s Hs. apply in_seq in Hs. apply map_ext_in. intros e He. apply bitw_ext; [exact He|].
    intros; apply H; auto; lia.
  Qed.
  Lemma nth_recw w k tail s e : (s < k)%nat -> In e (E (zk s)) -> nth (s * ne + index edge_eqb e (E (zk s))) (recw w k ++ tail) false = bitw w s e.
  Proof.
    revert tail. induction k as [|k IH]; intros tail Hs He; [lia|]. rewrite recw_S, <- app_assoc.
    destruct (Nat.eq_dec s k) as [->|Ns]; [|apply IH; [lia | exact He]].
    rewrite app_nth2 by (rewrite length_recw; lia). rewrite length_recw.
    replace (k * ne + index edge_eqb e (E (zk k)) - k * ne)%nat with (index edge_eqb e (E (zk k))) by lia.
    rewrite app_nth1 by (rewrite map_length; apply index_lt; [apply edge_eqb_eq | exact He]).
    apply nth_index; [apply edge_eqb_eq | exact He].
  Qed.
  Lemma accw_xor w w' k e : accw (fun s e => xorb (w s e) (w' s e)) k e = xorb (accw w k e) (accw w' k e).
  Proof.
    induction k as [|k IH]; [reflexivity|]. cbn [accw]. destruct (emem e (E (zk k))); [|exact IH]. destruct (pc3 lay); [|reflexivity].
    rewrite IH. now destruct (accw w k e), (accw w' k e), (w k e), (w' k e).
  Qed.
  Lemma bitw_xor w w' k e : bitw (fun s e => xorb (w s e) (w' s e)) k e = xorb (bitw w k e) (bitw w' k e).
  Proof. unfold bitw. destruct (pc3 lay); [|reflexivity]. rewrite accw_xor. now destruct (accw w k e), (accw w' k e), (w k e), (w' k e). Qed.
  Lemma bit_bitw z A0 k e : bit lay z A0 k e = bitw (m lay z A0) k e.
  Proof.
    unfold bit, bitw. assert (H : forall k, acc lay z A0 k e = accw (m lay z A0) k e); [|now rewrite H].
    clear k. induction k as [|k IH]; [reflexivity|]. cbn [acc accw]. now rewrite IH.
  Qed.
End W.

(** The annotations of a sub-round only read the record. *)
Lemma annk_ok lay (Hv : valid lay) gs k st : length (frec st) = (S k * length (round_edges lay 0))%nat ->
  exists st', run gs (annk lay (tr0 lay) k) st = Ok st' /\ fr st' = fr st /\ frec st' = frec st.
Proof.
  intros Hlen.
  assert (Htm : (tm (trk lay (tr0 lay) k) + length (round_edges lay (Z.of_nat k)))%nat = length (frec st)) by (rewrite tm_trk, (length_E lay Hv (Z.of_nat k)), Hlen by exact Hv; cbn [tm tr0]; lia).
  pose proof (wf_trk lay Hv k) as W. unfold annk, ann.
  assert (EO : exists s1, run gs (obsinc lay (Z.of_nat k) (trk lay (tr0 lay) k)) st = Ok s1 /\ fr s1 = fr st /\ frec s1 = frec st).
  { unfold obsinc. destruct (pc3 lay) eqn:P; [exists st; auto|]. rewrite Htm.
    assert (Wc : wf_entry (length (frec st)) (comb (map (vedge lay (Z.of_nat k) (trk lay (tr0 lay) k)) (oat lay (Z.of_nat k))))).
    { apply wf_comb_map. intros e He. rewrite <- Htm. apply wf_vedge; [exact W|]. rewrite oat_filter in He. apply filter_In in He. tauto. }
    destruct (comb _) as [s|]; [|exists st; auto]. rewrite run_obs by exact Wc. eexists. split; [reflexivity | split; reflexivity]. }
  destruct EO as (s1 & E1 & F1 & R1).
  assert (ED : exists dl, run gs (dets0 lay (Z.of_nat k) (trk lay (tr0 lay) k)) s1 = Ok (add_dets s1 dl)).
  { unfold dets0. destruct (_ && _); [|exists []; now rewrite add_dets_nil]. rewrite Htm, <- R1. rewrite run_dets; [eauto|].
    intros e He. rewrite R1, <- Htm. now apply wf_vedge. }
  destruct ED as (d1 & ED).
  assert (EH : exists dl, run gs (hexdets lay (Z.of_nat k) (trk lay (tr0 lay) k)) (add_dets s1 d1) = Ok (add_dets (add_dets s1 d1) dl)).
  { unfold hexdets. rewrite Htm. replace (length (frec st)) with (length (frec (add_dets s1 d1))) by (cbn [frec add_dets]; now rewrite R1). rewrite run_dets; [eauto|].
    intros h Hh. cbn [frec add_dets]. rewrite R1, <- Htm. apply wf_comb. intros v [<-|[<-|[]]]; [now apply wf_vhex|].
    eapply wf_entry_mono; [|now apply wf_cur]. lia. }
  destruct EH as (d2 & EH).
  exists (add_dets (add_dets s1 d1) d2). split; [|auto].
  rewrite run_app, E1. cbn [bind]. rewrite run_app, ED. cbn [bind]. rewrite run_app, EH. reflexivity.
Qed.

Section X.
  Variable lay : layout.
  Hypothesis Hv : valid lay.
  Variable gs : nat -> bool.
  Variable A0 : cpx -> bits.
  Variable X : nat -> cpx -> bits.
  Variable Y : nat -> edge -> bool.
  Notation E := (round_edges lay).
  Notation zk := Z.of_nat.
  Notation ne := (length (E 0)).
  Notation D := (data_qubit_coords lay).
  Notation annk := (annk lay (tr0 lay)).
  Notation ix := (ix lay).
  Notation run := (run gs).
  Notation runs := (runs gs).
  Local Opaque data_qubit_coords measure_qubit_coords q2i_dict hex_entries hexes round_edges all_edges isort.
  Notation A z := (A lay z A0).
  Notation m z := (m lay z A0).

  (** the frame of the data before sub-round s *)
  Definition C (z : nat -> edge -> bool) (s : nat) (q : cpx) : bits := bxor (A z s q) (X s q).
  (** the change of the outcomes *)
  Definition fl (s : nat) (e : edge) : bool := xorb (par (X s) (edge_op (xyz (zk s)) e)) (Y s e).
  Definition mm (z : nat -> edge -> bool) (s : nat) (e : edge) : bool := xorb (m z s e) (fl s e).
  Lemma mm_split z s e : mm z s e = xorb (xorb (anti2 (pbits (xyz (zk s))) (C z s (e_left e))) (anti2 (pbits (xyz (zk s))) (C z s (e_right e)))) (Y s e).
  Proof.
    unfold mm, fl, C, Traj.m, edge_op. rewrite !par_pstr, !xsum_cons. unfold xsum. cbn [fold_right]. rewrite !xorb_false_r, !anti2_bxor_r.
    generalize (anti2 (pbits (xyz (zk s))) (A z s (e_left e))), (anti2 (pbits (xyz (zk s))) (A z s (e_right e))),
      (anti2 (pbits (xyz (zk s))) (X s (e_left e))), (anti2 (pbits (xyz (zk s))) (X s (e_right e))), (Y s e). now intros [] [] [] [] [].
  Qed.
  Lemma C_ext z z' s q : (forall t e, (t < s)%nat -> z t e = z' t e) -> C z s q = C z' s q.
  Proof. intros H. unfold C. now rewrite (A_ext lay z z' A0 s H q). Qed.
  Lemma mm_ext z z' s e : (forall t e, (t < s)%nat -> z t e = z' t e) -> mm z s e = mm z' s e.
  Proof. intros H. unfold mm. now rewrite (m_ext lay z z') by exact H. Qed.

  Definition pb (z : nat -> edge -> bool) (s : nat) (e : edge) : bool := if pc3 lay then accw lay (mm z) s e else false.
  Definition Anc (z : nat -> edge -> bool) (hm : bool) (st : fstate) (sp : nat * phase) : Prop :=
    let (s, p) := sp in
    forall e, In e (E (zk s)) ->
      let v := sw hm (fr st (ix (e_center e))) in
      match p with
      | Idle => fst v = xorb (pb z s e) (Y s e)
      | LeftD => fst v = xorb (xorb (pb z s e) (Y s e)) (anti2 (pbits (xyz (zk s))) (C z s (e_left e))) /\ snd v = z s e
      | BothD => fst v = bitw lay (mm z) s e
      end.
  Definition bd (L R M : nat) (sp : nat * phase) : Prop :=
    (fst sp <= M + 2)%nat /\ match snd sp with Idle => (L <= fst sp)%nat | LeftD => (R <= fst sp < L)%nat | BothD => (M <= fst sp < R)%nat end.

  Record Inv (z : nat -> edge -> bool) (L R M kL kR : nat) (pa : list (nat * phase)) (st : fstate) : Prop := {
    i_left : forall q, isdata lay q -> data_qubit_parity q = false -> fr st (ix q) = rotn kL (C z L q);
    i_right : forall q, isdata lay q -> data_qubit_parity q = true -> fr st (ix q) = rotn kR (C z R q);
    i_rec : frec st = recw lay (mm z) M;
    i_setL : forall t q, isdata lay q -> data_qubit_parity q = false -> (L <= t)%nat -> X t q = X L q;
    i_setR : forall t q, isdata lay q -> data_qubit_parity q = true -> (R <= t)%nat -> X t q = X R q;
    i_calm : forall s e, Y s e = true -> (s < L)%nat \/ In (s, Idle) pa;
    i_ord : (M <= R <= L)%nat }.
  Definition St (L R M kL kR : nat) (hm : bool) (pa : list (nat * phase)) (st : fstate) : Prop :=
    exists z, Inv z L R M kL kR pa st /\ forall sp, In sp pa -> bd L R M sp /\ Anc z hm st sp.

  Lemma St_incl L R M kL kR hm pa pa' st : incl pa' pa -> (forall s, In (s, Idle) pa -> In (s, Idle) pa') -> St L R M kL kR hm pa st -> St L R M kL kR hm pa' st.
  Proof.
    intros H K (z & HI & HP). exists z. split; [|intros sp Hsp; apply HP, H, Hsp]. destruct HI as [I1 I2 I3 I4 I5 I6 I7]. split; auto.
    intros s e Hs. destruct (I6 s e Hs); auto.
  Qed.
  Lemma St_rot L R M kL kR kL' kR' hm pa st : (kL mod 3 = kL' mod 3)%nat -> (kR mod 3 = kR' mod 3)%nat ->
    St L R M kL kR hm pa st -> St L R M kL' kR' hm pa st.
  Proof.
    intros EL ER (z & HI & HP). exists z. split; [|exact HP]. destruct HI. split; auto.
    - intros q Hq Pq. rewrite (rotn_mod kL'), <- EL, <- rotn_mod. auto.
    - intros q Hq Pq. rewrite (rotn_mod kR'), <- ER, <- rotn_mod. auto.
  Qed.
  Lemma Anc_fr z hm st st' s p : (forall e, In e (E (zk s)) -> fr st' (ix (e_center e)) = fr st (ix (e_center e))) -> Anc z hm st (s, p) -> Anc z hm st' (s, p).
  Proof. intros H K e He. specialize (K e He). cbn zeta in *. now rewrite H. Qed.
  Lemma pb_near z z' M s e : In e (E (zk s)) -> (s <= M + 2)%nat -> (forall t e, (t < M)%nat -> z t e = z' t e) -> pb z s e = pb z' s e.
  Proof.
    intros He Hs Hz. unfold pb. destruct (pc3 lay); [|reflexivity]. eapply accw_near; eauto. intros t Ht _. apply mm_ext. intros; apply Hz; lia.
  Qed.
  Lemma Anc_ext z z' hm st L R M sp : (M <= R <= L)%nat -> (forall t e, (t < L)%nat -> z t e = z' t e) -> bd L R M sp -> Anc z hm st sp -> Anc z' hm st sp.
  Proof.
    intros Ho Hz Hb K. destruct sp as [s p]. intros e He. specialize (K e He). cbn zeta in *. unfold bd in Hb. cbn [fst snd] in Hb. destruct Hb as [Hb1 Hb2].
    assert (Ep : pb z s e = pb z' s e) by (eapply pb_near; eauto; intros; apply Hz; lia).
    destruct p.
    - rewrite <- Ep. exact K.
    - rewrite <- Ep. rewrite <- Hz by lia. rewrite <- (C_ext z z') by (intros; apply Hz; lia). exact K.
    - rewrite K. apply bitw_ext; [exact He|]. intros t Ht _. apply mm_ext. intros; apply Hz; lia.
  Qed.
  Lemma bd_class (rest : list (nat * phase)) s : (forall sp, In sp rest -> zk (fst sp) mod 3 <> zk s mod 3) ->
    forall s' p e e', In (s', p) rest -> In e (E (zk s)) -> In e' (E (zk s')) -> ix (e_center e') <> ix (e_center e).
  Proof. intros H s' p e e' Hin He He'. eapply ix_centers; eauto. apply (H (s', p) Hin). Qed.

  (** ** Two-qubit gates *)
  Lemma op_left name P Q L R M kL kR (hm : bool) (rest : list (nat * phase)) st :
    In (name, (P, Q)) [("CX", (PZ, PX)); ("XCX", (PX, PX)); ("YCX", (PY, PX)); ("CZ", (PZ, PZ))]%string ->
    rotn kL (pbits (xyz (zk L))) = pbits P -> Q = (if hm then PZ else PX) ->
    (forall sp, In sp rest -> zk (fst sp) mod 3 <> zk L mod 3) ->
    St L R M kL kR hm ((L, Idle) :: rest) st ->
    exists st', run_instr gs (Gen.g name (lpairs lay (zk L))) st = Ok st' /\ St (S L) R M kL kR hm ((L, LeftD) :: rest) st'.
  Proof.
    intros Hname HP HQ Hcl (z & HI & Hpa). destruct HI as [IL IR IM SL SR IC IO].
    rewrite (run2 gs name P Q _ _ Hname). unfold lpairs.
    destruct (run_pairs_ok gs P Q (fun e => ix (e_left e)) (fun e => ix (e_center e)) (E (zk L)) (fr st) (NoDup_lpairs lay Hv (zk L))) as (f & Ef & F1 & F2).
    rewrite Ef. cbn [bind]. eexists. split; [reflexivity|].
    set (z' := fun s e => if Nat.eqb s L then snd (sw hm (fr st (ix (e_center e)))) else z s e).
    assert (Hz : forall t e, (t < L)%nat -> z t e = z' t e).
    { intros t e Ht. unfold z'. destruct (Nat.eqb_spec t L); [lia | reflexivity]. }
    assert (HzL : forall e, z' L e = snd (sw hm (fr st (ix (e_center e))))) by (intros e; unfold z'; now rewrite Nat.eqb_refl).
    assert (Hcom : forall e, anti2 (pbits Q) (fr st (ix (e_center e))) = z' L e).
    { intros e. rewrite HzL, HQ. destruct hm; destruct (fr st (ix (e_center e))) as [[] []]; reflexivity. }
    destruct (Hpa (L, Idle) (or_introl eq_refl)) as [Hb0 HA]. destruct Hb0 as [Hb0 _]. cbn [fst] in Hb0.
    exists z'. split.
    - split; cbn [fr frec fdets fobs with_fr].
      + intros q Hq Pq. set (e := touch lay (zk L) q).
        assert (He : In e (E (zk L))) by now apply touch_in.
        assert (El : e_left e = q).
        { destruct (proj2 (touch_unique lay Hv (zk L) q e Hq He) eq_refl) as [K|K]; [exact K|].
          destruct (round_edge_facts lay Hv _ e He) as (_ & _ & _ & Pr & _). rewrite K in Pr. congruence. }
        destruct (F1 e He) as [K _]. rewrite El in K. rewrite K, IL by assumption. unfold C. cbn [Traj.A]. unfold kick. fold e.
        rewrite (SL (S L)) by (auto; lia). rewrite !rotn_bxor, Hcom. rewrite (A_ext lay z z' A0 L Hz q).
        rewrite <- bxor_assoc, (bxor_comm (rotn kL (X L q))), bxor_assoc. f_equal. f_equal.
        change (if z' L e then pbits (xyz (zk L)) else bzero) with (bsel (z' L e) (pbits (xyz (zk L)))).
        now rewrite rotn_bsel, HP.
      + intros q Hq Pq. rewrite F2.
        * rewrite IR by assumption. f_equal. apply C_ext. intros; apply Hz; lia.
        * apply (out_pairs lay). intros e He. destruct (round_edge_facts lay Hv _ e He) as (Hl & _ & Pl & _). split.
          -- apply (ix_data_ne lay Hv); auto. intros ->. congruence.
          -- eapply ix_data_center; eauto.
      + rewrite IM. apply recw_ext. intros t e Ht _. apply mm_ext. intros; apply Hz; lia.
      + intros t q Hq Pq Ht. rewrite (SL t), (SL (S L)) by (auto; lia). reflexivity.
      + exact SR.
      + intros s e Hs. destruct (IC s e Hs) as [K|[K|K]]; [left; lia | injection K as <-; left; lia | right; now right].
      + lia.
    - intros sp [<-|Hin].
      + split; [split; cbn [fst snd]; lia|]. intros e He. cbn [fr with_fr].
        destruct (F1 e He) as [_ K]. rewrite K. specialize (HA e He). cbn zeta in HA.
        rewrite <- (pb_near z z' M L e He) by (auto; intros; apply Hz; lia).
        destruct (round_edge_facts lay Hv _ e He) as (Hl & _ & Pl & _).
        rewrite (IL _ Hl Pl). rewrite <- (C_ext z z') by exact Hz. rewrite <- HP, rotn_anti.
        rewrite <- HA, HzL, HQ. generalize (anti2 (pbits (xyz (zk L))) (C z L (e_left e))). clear.
        destruct hm; destruct (fr st (ix (e_center e))) as [[] []]; intros []; split; reflexivity.
      + destruct sp as [s p]. destruct (Hpa (s, p) (or_intror Hin)) as [Hb HA']. split.
        { pose proof (Hcl _ Hin) as Nc. cbn [fst] in Nc. destruct Hb as [Hb1 Hb2]. split; [exact Hb1|]. cbn [fst snd] in *.
          destruct p; try lia. assert (s <> L) by (intros ->; now apply Nc). lia. }
        eapply Anc_ext; [exact IO | exact Hz | exact Hb |]. eapply Anc_fr; [|exact HA']. intros e He. cbn [fr with_fr]. apply F2, (out_pairs lay). intros e' He'. split.
        * intros K. symmetry in K. revert K. eapply ix_data_center; [exact Hv | | exact He]. now apply (round_edge_facts lay Hv (zk L)).
        * eapply bd_class; eauto.
  Qed.

  Lemma op_right name P Q L R M kL kR (hm : bool) (rest : list (nat * phase)) st :
    In (name, (P, Q)) [("CX", (PZ, PX)); ("XCX", (PX, PX)); ("YCX", (PY, PX)); ("CZ", (PZ, PZ))]%string ->
    rotn kR (pbits (xyz (zk R))) = pbits P -> Q = (if hm then PZ else PX) ->
    (forall sp, In sp rest -> zk (fst sp) mod 3 <> zk R mod 3) ->
    St L R M kL kR hm ((R, LeftD) :: rest) st ->
    exists st', run_instr gs (Gen.g name (rpairs lay (zk R))) st = Ok st' /\ St L (S R) M kL kR hm ((R, BothD) :: rest) st'.
  Proof.
    intros Hname HP HQ Hcl (z & HI & Hpa). destruct HI as [IL IR IM SL SR IC IO].
    rewrite (run2 gs name P Q _ _ Hname). unfold rpairs.
    destruct (run_pairs_ok gs P Q (fun e => ix (e_right e)) (fun e => ix (e_center e)) (E (zk R)) (fr st) (NoDup_rpairs lay Hv (zk R))) as (f & Ef & F1 & F2).
    rewrite Ef. cbn [bind]. eexists. split; [reflexivity|].
    destruct (Hpa (R, LeftD) (or_introl eq_refl)) as [Hb0 HA]. unfold bd in Hb0. cbn [fst snd] in Hb0. destruct Hb0 as [Hb0 Hb1].
    assert (Hcom : forall e, In e (E (zk R)) -> anti2 (pbits Q) (fr st (ix (e_center e))) = z R e).
    { intros e He. destruct (HA e He) as [_ K]. rewrite <- K, HQ. destruct hm; destruct (fr st (ix (e_center e))) as [[] []]; reflexivity. }
    exists z. split.
    - split; cbn [fr frec fdets fobs with_fr]; auto; [| | | |lia].
      + intros q Hq Pq. rewrite F2; [now apply IL|].
        apply (out_pairs lay). intros e He. destruct (round_edge_facts lay Hv _ e He) as (_ & Hr & _ & Pr & _). split.
        * apply (ix_data_ne lay Hv); auto. intros ->. congruence.
        * eapply ix_data_center; eauto.
      + intros q Hq Pq. set (e := touch lay (zk R) q).
        assert (He : In e (E (zk R))) by now apply touch_in.
        assert (El : e_right e = q).
        { destruct (proj2 (touch_unique lay Hv (zk R) q e Hq He) eq_refl) as [K|K]; [|exact K].
          destruct (round_edge_facts lay Hv _ e He) as (_ & _ & Pl & _). rewrite K in Pl. congruence. }
        destruct (F1 e He) as [K _]. rewrite El in K. rewrite K, IR by assumption. unfold C. cbn [Traj.A]. unfold kick. fold e.
        rewrite (SR (S R)) by (auto; lia). rewrite !rotn_bxor, Hcom by exact He.
        rewrite <- bxor_assoc, (bxor_comm (rotn kR (X R q))), bxor_assoc. f_equal. f_equal.
        change (if z R e then pbits (xyz (zk R)) else bzero) with (bsel (z R e) (pbits (xyz (zk R)))).
        now rewrite rotn_bsel, HP.
      + intros t q Hq Pq Ht. rewrite (SR t), (SR (S R)) by (auto; lia). reflexivity.
      + intros s e Hs. destruct (IC s e Hs) as [K|[K|K]]; [now left | discriminate | right; now right].
    - intros sp [<-|Hin].
      + split; [split; cbn [fst snd]; lia|]. intros e He. cbn [fr with_fr].
        destruct (F1 e He) as [_ K]. rewrite K. destruct (HA e He) as [HA1 _].
        destruct (round_edge_facts lay Hv _ e He) as (Hl & Hr & _ & Pr & _).
        rewrite (IR _ Hr Pr). rewrite <- HP, rotn_anti.
        replace (bitw lay (mm z) R e) with (xorb (pb z R e) (mm z R e)).
        2:{ unfold bitw, pb. destruct (pc3 lay); [reflexivity | apply xorb_false_l]. }
        rewrite mm_split. revert HA1.
        generalize (anti2 (pbits (xyz (zk R))) (C z R (e_right e))), (anti2 (pbits (xyz (zk R))) (C z R (e_left e))), (pb z R e), (Y R e). rewrite HQ. clear.
        destruct hm; destruct (fr st (ix (e_center e))) as [[] []]; intros [] [] [] []; cbn; intros; congruence.
      + destruct sp as [s p]. destruct (Hpa (s, p) (or_intror Hin)) as [Hb HA']. split.
        { pose proof (Hcl _ Hin) as Nc. cbn [fst] in Nc. destruct Hb as [Hc1 Hc2]. split; [exact Hc1|]. cbn [fst snd] in *.
          destruct p; try lia. assert (s <> R) by (intros ->; now apply Nc). lia. }
        eapply Anc_fr; [|exact HA']. intros e He. cbn [fr with_fr]. apply F2, (out_pairs lay). intros e' He'. split.
        * intros K. symmetry in K. revert K. eapply ix_data_center; [exact Hv | | exact He]. now apply (round_edge_facts lay Hv (zk R)).
        * eapply bd_class; eauto.
  Qed.

  (** ** Rotations of the data *)
  Lemma op_rotate name f j (sel : cpx -> bool) kL' kR' L R M kL kR hm pa st :
    rots name f j ->
    (forall q, data_qubit_parity q = false -> (kL' = kL + if sel q then j else 0)%nat) ->
    (forall q, data_qubit_parity q = true -> (kR' = kR + if sel q then j else 0)%nat) ->
    St L R M kL kR hm pa st ->
    exists st', run_instr gs (Gen.g name (map ix (filter sel D))) st = Ok st' /\ St L R M kL' kR' hm pa st'.
  Proof.
    intros Hr HL HR (z & HI & Hpa). destruct HI as [IL IR IM SL SR IC IO].
    rewrite (run1 gs name f).
    2:{ destruct Hr as [(-> & -> & _)|(-> & -> & _)]; cbn [In]; auto. }
    assert (Hsub : forall q, In q (filter sel D) -> isdata lay q) by (intros q Hq; apply filter_In in Hq; apply in_data; tauto).
    destruct (fold_ap1 f (map ix (filter sel D)) (fr st)) as [F1 F2].
    { apply NoDup_ix; [exact Hv | | apply NoDup_filter, NoDup_data]. intros q Hq. apply data_in_qubits; [exact Hv|]. now apply Hsub. }
    assert (F : forall q, isdata lay q -> fold_left (ap1 f) (map ix (filter sel D)) (fr st) (ix q) = if sel q then f (fr st (ix q)) else fr st (ix q)).
    { intros q Hq. destruct (sel q) eqn:Es.
      - apply F1, in_map, filter_In. split; [now apply in_data | exact Es].
      - apply F2. intros K. apply in_map_iff in K. destruct K as (q' & K & Hq'). pose proof (Hsub q' Hq') as Hd. apply filter_In in Hq'.
        apply (ix_inj lay Hv) in K; try now apply data_in_qubits. subst. destruct Hq'. congruence. }
    eexists. split; [reflexivity|]. exists z. split.
    - split; cbn [fr frec fdets fobs with_fr]; auto.
      + intros q Hq Pq. rewrite F by exact Hq. rewrite IL by assumption. specialize (HL q Pq). rewrite HL.
        destruct (sel q); [eapply rots_add; eauto | now rewrite Nat.add_0_r].
      + intros q Hq Pq. rewrite F by exact Hq. rewrite IR by assumption. specialize (HR q Pq). rewrite HR.
        destruct (sel q); [eapply rots_add; eauto | now rewrite Nat.add_0_r].
    - intros [s p] Hin. destruct (Hpa _ Hin) as [Hb HA]. split; [exact Hb|]. eapply Anc_fr; [|exact HA]. intros e He. cbn [fr with_fr]. apply F2.
      intros K. apply in_map_iff in K. destruct K as (q & K & Hq). revert K. eapply ix_data_center; [exact Hv | | exact He]. now apply Hsub.
  Qed.
  Lemma filter_all {T} (l : list T) : filter (fun _ => true) l = l.
  Proof. induction l as [|q l IH]; [reflexivity|]. cbn. now rewrite IH. Qed.
  Lemma op_rot_all L R M kL kR hm pa st : St L R M kL kR hm pa st ->
    exists st', run_instr gs (Gen.g "C_ZYX" (Gen.data_ix lay)) st = Ok st' /\ St L R M (S kL) (S kR) hm pa st'.
  Proof.
    intros H. replace (Gen.data_ix lay) with (map ix (filter (fun _ => true) D)); [|now rewrite filter_all].
    eapply op_rotate; [left; split; [reflexivity | split; reflexivity] | | | exact H]; intros; lia.
  Qed.
  Lemma op_unrot_all L R M kL kR hm pa st : St L R M kL kR hm pa st ->
    exists st', run_instr gs (Gen.g "C_XYZ" (Gen.data_ix lay)) st = Ok st' /\ St L R M (kL + 2) (kR + 2) hm pa st'.
  Proof.
    intros H. replace (Gen.data_ix lay) with (map ix (filter (fun _ => true) D)); [|now rewrite filter_all].
    eapply op_rotate; [right; split; [reflexivity | split; reflexivity] | | | exact H]; intros; lia.
  Qed.
  Lemma op_rot1 L R M kL kR hm pa st : St L R M kL kR hm pa st ->
    exists st', run_instr gs (Gen.g "C_ZYX" (data1 lay)) st = Ok st' /\ St L R M (S kL) kR hm pa st'.
  Proof.
    intros H. eapply (op_rotate _ _ _ (fun q => negb (data_qubit_parity q))); [left; split; [reflexivity | split; reflexivity] | | | exact H]; intros q ->; cbn; lia.
  Qed.
  Lemma op_rot2 L R M kL kR hm pa st : St L R M kL kR hm pa st ->
    exists st', run_instr gs (Gen.g "C_ZYX" (data2 lay)) st = Ok st' /\ St L R M kL (S kR) hm pa st'.
  Proof.
    intros H. eapply (op_rotate _ _ _ data_qubit_parity); [left; split; [reflexivity | split; reflexivity] | | | exact H]; intros q ->; cbn; lia.
  Qed.

  (** ** Resets and Hadamards of ancillas *)
  Lemma fresh_pb z s e : In e (E (zk s)) -> pc3 lay = false \/ (s < 3)%nat -> pb z s e = false.
  Proof.
    intros He H. unfold pb. destruct (pc3 lay); [|reflexivity]. destruct H as [H|H]; [discriminate|].
    destruct s as [|[|[|s]]]; [reflexivity | | | lia].
    - now rewrite (accw_other lay Hv _ 0 e (zk 1) He) by (vm_compute; discriminate).
    - rewrite (accw_other lay Hv _ 1 e (zk 2) He) by (vm_compute; discriminate). now rewrite (accw_other lay Hv _ 0 e (zk 2) He) by (vm_compute; discriminate).
  Qed.
  (** [keep]: whether the ancillas are used again *)
  Lemma op_reset (keep : bool) s L R M kL kR (rest : list (nat * phase)) st : pc3 lay = false \/ (s < 3)%nat -> (L <= s <= M + 2)%nat ->
    (forall sp, In sp rest -> zk (fst sp) mod 3 <> zk s mod 3) ->
    St L R M kL kR false rest st ->
    exists st', run_instr gs (Gen.g "R" (centers lay (zk s))) st = Ok st' /\ St L R M kL kR false ((if keep then [(s, Idle)] else []) ++ rest) st'.
  Proof.
    intros H3 HsL Hcl (z & HI & Hpa). destruct HI as [IL IR IM SL SR IC IO]. rewrite run_R.
    destruct (fold_reset gs PZ (centers lay (zk s)) st (NoDup_centers lay Hv (zk s))) as (F1 & F2 & F3 & F4 & F5).
    eexists. split; [reflexivity|]. cbn zeta in *.
    assert (O : forall q, isdata lay q -> fr (fold_left (do_reset gs PZ) (centers lay (zk s)) st) (ix q) = fr st (ix q)).
    { intros q Hq. apply F5, out_centers. intros e He. eapply ix_data_center; eauto. }
    exists z. split.
    - split; rewrite ?F1, ?F2, ?F3; auto; try (intros; rewrite O; auto).
      intros s' e Hs'. destruct (IC s' e Hs'); [now left | right; apply in_or_app; now right].
    - intros sp Hin. apply in_app_or in Hin. destruct Hin as [Hin|Hin].
      + destruct keep; [|destruct Hin]. destruct Hin as [<-|[]].
        split; [split; cbn [fst snd]; lia|]. intros e He. rewrite fresh_pb by assumption. cbn [sw].
        assert (Hy : Y s e = false).
        { destruct (Y s e) eqn:Ey; [|reflexivity]. destruct (IC s e Ey) as [K|K]; [lia|]. exfalso. now apply (Hcl _ K). }
        rewrite Hy. destruct (F4 (ix (e_center e))) as [b ->]; [unfold centers; apply in_map_iff; eauto|]. now destruct b.
      + destruct sp as [s' p]. destruct (Hpa _ Hin) as [Hb HA]. split; [exact Hb|]. eapply Anc_fr; [|exact HA]. intros e He. apply F5, out_centers. intros e' He'.
        eapply bd_class; eauto.
  Qed.
  Lemma op_reset_all s L R M kL kR st : pc3 lay = false \/ s = 0%nat -> (L <= s <= M)%nat ->
    St L R M kL kR false [] st ->
    exists st', run_instr gs (Gen.g "R" (meas_ix lay)) st = Ok st' /\ St L R M kL kR false [(s, Idle); (s + 1, Idle); (s + 2, Idle)]%nat st'.
  Proof.
    intros H3 HsL (z & HI & Hpa). destruct HI as [IL IR IM SL SR IC IO]. rewrite run_R.
    destruct (fold_reset gs PZ (meas_ix lay) st (NoDup_meas lay Hv)) as (F1 & F2 & F3 & F4 & F5). cbn zeta in *.
    eexists. split; [reflexivity|]. exists z. split.
    - split; rewrite ?F1, ?F2, ?F3; auto; try (intros; rewrite F5 by (now apply data_not_meas_ix); auto).
      intros s' e Hs'. destruct (IC s' e Hs') as [|[]]; now left.
    - intros [s' p] Hin. assert (Hs' : p = Idle /\ (s' = s \/ s' = s + 1 \/ s' = s + 2)%nat).
      { destruct Hin as [K|[K|[K|[]]]]; injection K as <- <-; auto. }
      destruct Hs' as [-> Hs']. split; [split; cbn [fst snd]; lia|]. intros e He. rewrite fresh_pb; [|exact He | destruct H3; [auto | right; lia]]. cbn [sw].
      assert (Hy : Y s' e = false).
      { destruct (Y s' e) eqn:Ey; [|reflexivity]. destruct (IC s' e Ey) as [K|[]]. lia. }
      rewrite Hy. destruct (F4 (ix (e_center e))) as [b ->]; [eapply meas_ix_in; eauto|]. now destruct b.
  Qed.
  Lemma op_H L R M kL kR hm pa st : St L R M kL kR hm pa st ->
    exists st', run_instr gs (Gen.g "H" (meas_ix lay)) st = Ok st' /\ St L R M kL kR (negb hm) pa st'.
  Proof.
    intros (z & HI & Hpa). destruct HI as [IL IR IM SL SR IC IO]. rewrite (run1 gs "H" (fun b => (snd b, fst b))) by (cbn [In]; auto).
    destruct (fold_ap1 (fun b : bits => (snd b, fst b)) (meas_ix lay) (fr st) (NoDup_meas lay Hv)) as [F1 F2].
    eexists. split; [reflexivity|]. exists z. split.
    - split; cbn [fr frec fdets fobs with_fr]; auto; intros; rewrite F2 by (now apply data_not_meas_ix); auto.
    - intros [s p] Hin. destruct (Hpa _ Hin) as [Hb HA]. split; [exact Hb|]. intros e He. specialize (HA e He). cbn [fr with_fr] in *.
      rewrite F1 by (eapply meas_ix_in; eauto). destruct hm, (fr st (ix (e_center e))) as [x0 z0]; exact HA.
  Qed.

  (** ** Measuring the ancillas of sub-round M *)
  Lemma op_measure (keep : bool) L R M kL kR (rest : list (nat * phase)) st : is_em3 (style lay) = false -> (S M <= R)%nat ->
    (forall sp, In sp rest -> zk (fst sp) mod 3 <> zk M mod 3) -> (keep = true -> pc3 lay = true /\ (L <= M + 3)%nat) ->
    St L R M kL kR false ((M, BothD) :: rest) st ->
    runs (mop lay (zk M) ++ annk M) (St L R (S M) kL kR false ((if keep then [((M + 3)%nat, Idle)] else []) ++ rest)) st.
  Proof.
    intros Hem HMR Hcl HL (z & HI & Hpa). unfold mop. rewrite Hem.
    change (mkI "M" (qs (map (fun e => ix (e_center e)) (E (zk M)))) []) with (Gen.g "M" (centers lay (zk M))).
    destruct (fold_measure gs PZ (centers lay (zk M)) st (NoDup_centers lay Hv (zk M))) as (F1 & F2 & F3 & F4 & F5). cbn zeta in *.
    set (st1 := fold_left _ (centers lay (zk M)) st) in *.
    destruct (Hpa (M, BothD) (or_introl eq_refl)) as [_ HB]. destruct HI as [IL IR IM SL SR IC IO].
    assert (Hrec : frec st1 = recw lay (mm z) (S M)).
    { rewrite F1, recw_S, IM. f_equal. unfold centers. rewrite map_map. apply map_ext_in. intros e He. rewrite <- (HB e He).
      cbn [sw]. destruct (fr st (ix (e_center e))) as [[] []]; reflexivity. }
    destruct (annk_ok lay Hv gs M st1) as (st2 & Er & G1 & G2); [rewrite Hrec; now apply length_recw|].
    exists st2. split; [cbn [app Frame.run]; rewrite run_M; fold st1; cbn [bind]; exact Er|].
    assert (O : forall q, isdata lay q -> fr st2 (ix q) = fr st (ix q)).
    { intros q Hq. rewrite G1. apply F5, out_centers. intros e He. eapply ix_data_center; eauto. }
    exists z. split.
    - split; auto; try (intros; rewrite O; auto); [now rewrite G2 | | lia].
      intros s e Hs. destruct (IC s e Hs) as [K|[K|K]]; [now left | discriminate | right; apply in_or_app; now right].
    - intros sp Hin. apply in_app_or in Hin. destruct Hin as [Hin|Hin].
      + destruct keep; [|destruct Hin]. destruct (HL eq_refl) as [P HLM]. destruct Hin as [<-|[]]. split; [split; cbn [fst snd]; lia|].
        intros e He. assert (He' : In e (E (zk M))) by (rewrite <- (E_cong lay (zk (M + 3)) (zk M)); [exact He | dlia]).
        cbn [sw]. rewrite G1. destruct (F4 (ix (e_center e))) as [b ->]; [unfold centers; apply in_map_iff; eauto|].
        assert (Hy : Y (M + 3) e = false).
        { destruct (Y (M + 3)%nat e) eqn:Ey; [|reflexivity]. destruct (IC _ _ Ey) as [K|[K|K]]; [lia | discriminate |]. exfalso. apply (Hcl _ K). cbn [fst]. dlia. }
        specialize (HB e He'). cbn [sw] in HB. unfold pb. rewrite P, Hy, (accw_own lay Hv) by assumption. rewrite P.
        unfold bitw in HB. rewrite P in HB. rewrite <- HB. destruct b, (fr st (ix (e_center e))) as [[] []]; reflexivity.
      + destruct sp as [s p]. destruct (Hpa _ (or_intror Hin)) as [Hb HA]. split.
        { pose proof (Hcl _ Hin) as Nc. cbn [fst] in Nc. destruct Hb as [Hc1 Hc2]. split; cbn [fst snd] in *; [lia|].
          destruct p; try lia. assert (s <> M) by (intros ->; now apply Nc). lia. }
        eapply Anc_fr; [|exact HA]. intros e He. rewrite G1. apply F5, out_centers. intros e' He'. eapply bd_class; eauto.
  Qed.
End X.

(** ** Measuring the checks of a sub-round directly, with an error [u] on the
    data afterwards and the results in [w] flipped *)
Lemma checks_step lay (Hv : valid lay) A0 X Y X' Y' M w u st st1 :
  pc3 lay = false ->
  (forall t q, isdata lay q -> (t <= M)%nat -> X' t q = X t q) -> (forall t q, isdata lay q -> (M < t)%nat -> X' t q = bxor (X M q) (u q)) ->
  (forall s e, (s < M)%nat -> Y' s e = Y s e) -> (forall e, Y' M e = w e) -> (forall s e, (M < s)%nat -> Y' s e = false) ->
  St lay A0 X Y M M M 0 0 false [] st ->
  frec st1 = frec st ++ map (fun e => xorb (xorb (anti2 (pbits (xyz (Z.of_nat M))) (fr st (ix lay (e_left e)))) (anti2 (pbits (xyz (Z.of_nat M))) (fr st (ix lay (e_right e))))) (w e)) (round_edges lay (Z.of_nat M)) ->
  (exists z : edge -> bool, forall e, In e (round_edges lay (Z.of_nat M)) ->
     fr st1 (ix lay (e_left e)) = bxor (bxor (bsel (z e) (pbits (xyz (Z.of_nat M)))) (fr st (ix lay (e_left e)))) (u (e_left e)) /\
     fr st1 (ix lay (e_right e)) = bxor (bxor (bsel (z e) (pbits (xyz (Z.of_nat M)))) (fr st (ix lay (e_right e)))) (u (e_right e))) ->
  St lay A0 X' Y' (S M) (S M) (S M) 0 0 false [] st1.
Proof.
  intros Hp X1 X2 Y1 Y2 Y3 (z & HI & _) F1 (zM & F4). destruct HI as [IL IR IM SL SR IC IO]. cbn [rotn] in IL, IR.
  set (z' := fun s e => if Nat.eqb s M then zM e else z s e).
  assert (Hz : forall t e, (t < M)%nat -> z t e = z' t e).
  { intros t e Ht. unfold z'. destruct (Nat.eqb_spec t M); [lia | reflexivity]. }
  assert (HzM : forall e, z' M e = zM e) by (intros e; unfold z'; now rewrite Nat.eqb_refl).
  assert (Hlr : forall t e, In e (round_edges lay (Z.of_nat t)) -> isdata lay (e_left e) /\ isdata lay (e_right e)) by (intros t e He; destruct (round_edge_facts lay Hv _ e He) as (Hl & Hr & _); auto).
  assert (Hm : forall t e, (t < M)%nat -> In e (round_edges lay (Z.of_nat t)) -> mm lay A0 X Y z t e = mm lay A0 X' Y' z' t e).
  { intros t e Ht He. destruct (Hlr t e He) as [Hl Hr]. rewrite !mm_split. rewrite !(C_ext lay A0 X z z' t) by (intros; apply Hz; lia). unfold C.
    rewrite !X1, Y1 by (auto; lia). reflexivity. }
  assert (HC : forall q, isdata lay q -> fr st (ix lay q) = C lay A0 X z M q) by (intros q Hq; destruct (data_qubit_parity q) eqn:Pq; auto).
  exists z'. split; [|intros sp []]. split; cbn [rotn].
  1,2: intros q Hq Pq; set (e := touch lay (Z.of_nat M) q); assert (He : In e (round_edges lay (Z.of_nat M))) by (now apply touch_in);
    assert (Hf : fr st1 (ix lay q) = bxor (bxor (bsel (zM e) (pbits (xyz (Z.of_nat M)))) (fr st (ix lay q))) (u q))
     by (destruct (F4 e He) as [Fl Fr]; destruct (proj2 (touch_unique lay Hv (Z.of_nat M) q e Hq He) eq_refl) as [K|K]; rewrite K in *; assumption);
    rewrite Hf, HC by exact Hq; unfold C; cbn [A]; unfold kick; fold e; rewrite HzM, <- (A_ext lay z z' A0 M Hz q);
    change (if zM e then pbits (xyz (Z.of_nat M)) else bzero) with (bsel (zM e) (pbits (xyz (Z.of_nat M))));
    rewrite (X2 (S M)) by (auto; lia); rewrite !bxor_assoc; now rewrite (bxor_comm (bsel (zM e) _)).
  - rewrite F1, recw_S, IM. f_equal; [now apply recw_ext|]. apply map_ext_in. intros e He. destruct (Hlr M e He) as [Hl Hr].
    unfold bitw. rewrite Hp, mm_split, Y2, !HC by assumption. rewrite <- !(C_ext lay A0 X' z z') by exact Hz. unfold C. now rewrite !X1 by (auto; lia).
  - intros t q Hq _ Ht. rewrite !X2 by (auto; lia). reflexivity.
  - intros t q Hq _ Ht. rewrite !X2 by (auto; lia). reflexivity.
  - intros s e Hs. left. destruct (Nat.lt_ge_cases M s) as [L|L]; [rewrite Y3 in Hs by exact L; discriminate | lia].
  - lia.
Qed.
