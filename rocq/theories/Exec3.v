(** Running each style's rounds, and the whole circuit. *)
From Coq Require Import QArith.
From Verif Require Import Prelude Layout LayoutFacts LayoutEdges LayoutLists LayoutHex LayoutHex2 Pauli LayoutObs LayoutLogic LayoutIndex
  Tracker TrackerFacts Stim Circuit Annot Shift Ends Gen Gen2 Gen3 Traj Eval Frame Exec Exec2.
Open Scope Z_scope.

Section X.
  Variable lay : layout.
  Hypothesis Hv : valid lay.
  Hypothesis Hobs : obs lay = "V"%string \/ obs lay = "H"%string.
  Variable gs : nat -> bool.
  Notation E := (round_edges lay).
  Notation zk := Z.of_nat.
  Notation ne := (length (E 0)).
  Notation D := (data_qubit_coords lay).
  Notation trk := (trk lay (tr0 lay)).
  Notation annk := (annk lay (tr0 lay)).
  Notation ix := (ix lay).
  Notation run := (run gs).
  Notation runs := (runs gs).
  Notation n := (sub_rounds lay).
  Notation N := (Z.to_nat n).
  Local Opaque data_qubit_coords measure_qubit_coords q2i_dict hex_entries hexes round_edges all_edges isort.

  Section Body.
  Variable A0 : cpx -> bits.
  Notation St := (St lay A0).

  (** ** EM3 *)
  Lemma op_mpp M st : is_em3 (style lay) = true ->
    St M M M 0 0 false [] st -> runs (em3_i lay M) (St (S M) (S M) (S M) 0 0 false []) st.
  Proof.
    intros Hem (z & HI & _). unfold em3_i, mop. rewrite Hem. cbn [app].
    pose proof HI as [IL IR IM IA IO]. cbn [rotn] in IL, IR.
    destruct (fold_products gs (xyz (zk M)) (fun e => ix (e_left e)) (fun e => ix (e_right e)) edge_eqb edge_eqb_eq (E (zk M)) st (NoDup_lr lay Hv (zk M)))
      as (F1 & F2 & F3 & (zM & F4) & F5). cbn zeta in *.
    set (st1 := fold_left _ _ st) in *.
    set (z' := fun s e => if Nat.eqb s M then zM e else z s e).
    assert (Hz : forall t e, (t < M)%nat -> z t e = z' t e).
    { intros t e Ht. unfold z'. destruct (Nat.eqb_spec t M); [lia | reflexivity]. }
    assert (HzM : forall e, z' M e = zM e) by (intros e; unfold z'; now rewrite Nat.eqb_refl).
    assert (Hp : pc3 lay = false).
    { unfold pc3. destruct (String.eqb_spec (style lay) "PC3") as [K|_]; [rewrite K in Hem; discriminate | reflexivity]. }
    assert (Hrec : frec st1 = recl lay z' A0 (S M)).
    { rewrite F1, recl_S, IM. rewrite (recl_ext lay z z' A0 M) by exact Hz. f_equal. apply map_ext_in. intros e He.
      destruct (round_edge_facts lay Hv _ e He) as (Hl & Hr & Pl & Pr & _). rewrite (IL _ Hl Pl), (IR _ Hr Pr).
      unfold bit. rewrite Hp. rewrite <- (m_ext lay z z') by exact Hz. unfold m, edge_op. rewrite par_pstr, !xsum_cons. unfold xsum. cbn [fold_right]. now rewrite xorb_false_r. }
    destruct (run_annk lay Hv Hobs gs A0 z' M st1 Hrec) as (dl & Er & Hdl). rewrite Hp in Er.
    eapply runs_cons with (Mid := eq st1).
    { exists st1. split; [|reflexivity]. unfold run_instr, mpp_targets. cbn [iname itargets]. change (canon "MPP") with "MPP"%string.
      cbn [annotation existsb String.eqb Ascii.eqb Bool.eqb orb]. rewrite products_pairs. reflexivity. }
    intros st' <-. eapply runs_app with (Mid := eq (add_dets (add_obs st1 (oidx lay) (xsum (m lay z' A0 M) (oat lay (zk M)))) dl)).
    { eexists. split; [exact Er | reflexivity]. }
    intros st' <-. eexists. split; [reflexivity|]. exists z'. split; [|intros sp []].
    assert (Hd : forall q, isdata lay q -> fr st1 (ix q) = A lay z' A0 (S M) q).
    { intros q Hq. set (e := touch lay (zk M) q). assert (He : In e (E (zk M))) by now apply touch_in.
      cbn [A]. unfold kick. fold e. rewrite HzM, <- (A_ext lay z z' A0 M Hz q), bxor_comm.
      change (if zM e then pbits (xyz (zk M)) else bzero) with (bsel (zM e) (pbits (xyz (zk M)))).
      destruct (round_edge_facts lay Hv _ e He) as (Hl & Hr & Pl & Pr & _). destruct (F4 e He) as [Fl Fr].
      destruct (proj2 (touch_unique lay Hv (zk M) q e Hq He) eq_refl) as [K|K]; rewrite K in *.
      - rewrite Fl, IL by assumption. reflexivity.
      - rewrite Fr, IR by assumption. reflexivity. }
    split; cbn [fr frec fdets fobs add_dets add_obs rotn]; auto.
    - intros Hs. destruct (IA Hs) as [I1 I2]. rewrite F2, F3. split; [apply Forall_app; auto|]. intros x. rewrite I2, Hp. cbn [obs_total].
      rewrite (obs_total_ext lay z z') by (intros; apply Hz; lia). destruct (Nat.eqb x (oidx lay)); reflexivity.
  Qed.
  Lemma body_em3 st : is_em3 (style lay) = true -> 1 <= n -> St 0 0 0 0 0 false [] st -> runs (em3_body lay) (St N N N 0 0 false []) st.
  Proof.
    intros Hem Hn H. unfold em3_body. apply (runs_flat_map gs (em3_i lay) (fun k => St k k k 0 0 false []) 0 N); [|exact H].
    intros k s _ Hs. now apply op_mpp.
  Qed.

  Ltac cls := intros ? Hsp; cbn [In] in Hsp; repeat (destruct Hsp as [<-|Hsp]; [cbn [fst]; clear; dlia|]); destruct Hsp.
  Lemma em3_pc3 s : style lay = s -> is_em3 s = false -> is_em3 (style lay) = false.
  Proof. now intros ->. Qed.

  (** ** SD6 *)
  Section SD6.
    Hypothesis Hp : pc3 lay = false.
    Hypothesis Hem : is_em3 (style lay) = false.
    Lemma am s : after_measure lay s = [].
    Proof. unfold after_measure. now rewrite Hp. Qed.
    Lemma cx_left L R M kR (rest : list (nat * phase)) s st : s mod 3 = zk L mod 3 -> (forall sp, In sp rest -> zk (fst sp) mod 3 <> zk L mod 3) ->
      St L R M (S L) kR false ((L, Idle) :: rest) st ->
      exists st', run_instr gs (Gen.g "CX" (lpairs lay s)) st = Ok st' /\ St (S L) R M (S L) kR false ((L, LeftD) :: rest) st'.
    Proof.
      intros Es Hc H. rewrite (lpairs_cong lay s (zk L) Es). eapply (op_left lay Hv gs A0 "CX" PZ PX); eauto; [cbn [In]; auto | apply rotn_xyz].
    Qed.
    Lemma cx_right L R M kL (rest : list (nat * phase)) s st : s mod 3 = zk R mod 3 -> (forall sp, In sp rest -> zk (fst sp) mod 3 <> zk R mod 3) ->
      St L R M kL (S R) false ((R, LeftD) :: rest) st ->
      exists st', run_instr gs (Gen.g "CX" (rpairs lay s)) st = Ok st' /\ St L (S R) M kL (S R) false ((R, BothD) :: rest) st'.
    Proof.
      intros Es Hc H. rewrite (rpairs_cong lay s (zk R) Es). eapply (op_right lay Hv gs A0 "CX" PZ PX); eauto; [cbn [In]; auto | apply rotn_xyz].
    Qed.
    Lemma reset s k L R M kL kR (rest : list (nat * phase)) st : s mod 3 = zk k mod 3 -> (k <= L + 2)%nat -> (forall sp, In sp rest -> zk (fst sp) mod 3 <> zk k mod 3) ->
      St L R M kL kR false rest st ->
      exists st', run_instr gs (Gen.g "R" (centers lay s)) st = Ok st' /\ St L R M kL kR false ((k, Idle) :: rest) st'.
    Proof. intros Es Hk Hc H. rewrite (centers_cong lay s (zk k) Es). eapply op_reset; eauto. Qed.
    Lemma swap L R M kL kR hm a b st : St L R M kL kR hm [a; b] st -> St L R M kL kR hm [b; a] st.
    Proof. apply St_incl. intros x [<-|[<-|[]]]; cbn; auto. Qed.

    Definition sd6_at (k : nat) : fstate -> Prop := St (S k) k k (S (S k)) (S k) false [(k, LeftD); (S k, Idle)].
    Lemma sd6_begin_ok st : St 0 0 0 0 0 false [] st -> runs (sd6_begin_i lay) (sd6_at 0) st.
    Proof.
      intros H. unfold sd6_begin_i.
      eapply runs_cons; [apply (reset 0 0%nat 0 0 0 0 0 []); [reflexivity | lia | cls | exact H]|]. clear st H. intros st H.
      eapply runs_cons; [apply (op_rot1 lay Hv Hobs gs A0 _ _ _ _ _ _ _ _ H)|]. clear st H. intros st H.
      eapply runs_cons; [apply (op_tick lay gs A0 _ _ _ _ _ _ _ _ H)|]. clear st H. intros st H.
      eapply runs_cons; [apply (cx_left 0 0 0 0 [] 0 st); [reflexivity | cls | exact H]|]. clear st H. intros st H.
      eapply runs_cons; [apply (op_tick lay gs A0 _ _ _ _ _ _ _ _ H)|]. clear st H. intros st H.
      eapply runs_cons; [apply (reset 1 1%nat 1 0 0 1 0 [(0%nat, LeftD)] st); [reflexivity | lia | cls | exact H]|]. clear st H. intros st H.
      eapply runs_cons; [apply (op_rot_all lay Hv Hobs gs A0 _ _ _ _ _ _ _ _ H)|]. clear st H. intros st H.
      eapply runs_cons; [apply (op_tick lay gs A0 _ _ _ _ _ _ _ _ H)|]. clear st H. intros st H.
      apply runs_nil. now apply swap.
    Qed.
    Lemma sd6_step_ok k st : sd6_at k st -> runs (sd6_step_i lay k) (sd6_at (S k)) st.
    Proof.
      intros H. unfold sd6_step_i, sd6_at in *. cbn [app]. apply swap in H.
      eapply runs_cons; [apply (cx_left (S k) k k (S k) [(k, LeftD)] (zk k + 1) st); [dlia | cls | exact H]|]. clear st H. intros st H. apply swap in H.
      eapply runs_cons; [apply (cx_right (S (S k)) k k (S (S k)) [(S k, LeftD)] (zk k) st); [reflexivity | cls | exact H]|]. clear st H. intros st H.
      eapply runs_cons; [apply (op_tick lay gs A0 _ _ _ _ _ _ _ _ H)|]. clear st H. intros st H.
      eapply runs_cons; [apply (reset (zk k + 2) (S (S k)) (S (S k)) (S k) k (S (S k)) (S k) [(k, BothD); (S k, LeftD)] st); [dlia | lia | cls | exact H]|]. clear st H. intros st H.
      eapply runs_cons; [apply (op_rot_all lay Hv Hobs gs A0 _ _ _ _ _ _ _ _ H)|]. clear st H. intros st H.
      rewrite app_assoc. eapply runs_app.
      { eapply (op_measure lay Hv Hobs gs A0 (S (S k)) (S k) k _ _ [(S (S k), Idle); (S k, LeftD)] st Hem); [lia | cls | lia |].
        eapply St_incl; [|exact H]. intros x [<-|[<-|[<-|[]]]]; cbn; auto. }
      clear st H. intros st H. rewrite am in H. cbn [app] in H.
      eapply runs_cons; [apply (op_tick lay gs A0 _ _ _ _ _ _ _ _ H)|]. clear st H. intros st H.
      apply runs_nil. now apply swap.
    Qed.
    Lemma sd6_end_ok k st : sd6_at k st -> runs (sd6_end_i lay k) (St (S (S k)) (S (S k)) (S (S k)) (S (S k)) (S (S k)) false []) st.
    Proof.
      intros H. unfold sd6_end_i, sd6_at in *. cbn [app]. apply swap in H.
      eapply runs_cons; [apply (cx_left (S k) k k (S k) [(k, LeftD)] (zk k + 1) st); [dlia | cls | exact H]|]. clear st H. intros st H. apply swap in H.
      eapply runs_cons; [apply (cx_right (S (S k)) k k (S (S k)) [(S k, LeftD)] (zk k) st); [reflexivity | cls | exact H]|]. clear st H. intros st H.
      eapply runs_cons; [apply (op_tick lay gs A0 _ _ _ _ _ _ _ _ H)|]. clear st H. intros st H.
      rewrite app_assoc. eapply runs_app.
      { eapply (op_measure lay Hv Hobs gs A0 (S (S k)) (S k) k _ _ [(S k, LeftD)] st Hem); [lia | cls | lia | exact H]. }
      clear st H. intros st H. rewrite am in H. cbn [app] in H.
      eapply runs_cons; [apply (op_tick lay gs A0 _ _ _ _ _ _ _ _ H)|]. clear st H. intros st H.
      eapply runs_cons; [apply (op_rot2 lay Hv Hobs gs A0 _ _ _ _ _ _ _ _ H)|]. clear st H. intros st H.
      eapply runs_cons; [apply (op_tick lay gs A0 _ _ _ _ _ _ _ _ H)|]. clear st H. intros st H.
      eapply runs_cons; [apply (cx_right (S (S k)) (S k) (S k) (S (S k)) [] (zk k + 1) st); [dlia | cls | exact H]|]. clear st H. intros st H.
      eapply runs_cons; [apply (op_tick lay gs A0 _ _ _ _ _ _ _ _ H)|]. clear st H. intros st H.
      replace (zk k + 1) with (zk (S k)) by lia.
      eapply runs_weaken; [|eapply (op_measure lay Hv Hobs gs A0 (S (S k)) (S (S k)) (S k) _ _ [] st Hem); [lia | cls | lia | exact H]].
      intros s. now rewrite am.
    Qed.
    Lemma sd6_single_ok st : St 0 0 0 0 0 false [] st -> runs (sd6_single_i lay) (St 1 1 1 1 1 false []) st.
    Proof.
      intros H. unfold sd6_single_i. cbn [app].
      eapply runs_cons; [apply (reset 0 0%nat 0 0 0 0 0 []); [reflexivity | lia | cls | exact H]|]. clear st H. intros st H.
      eapply runs_cons; [apply (op_rot_all lay Hv Hobs gs A0 _ _ _ _ _ _ _ _ H)|]. clear st H. intros st H.
      eapply runs_cons; [apply (op_tick lay gs A0 _ _ _ _ _ _ _ _ H)|]. clear st H. intros st H.
      eapply runs_cons; [apply (cx_left 0 0 0 1 [] 0 st); [reflexivity | cls | exact H]|]. clear st H. intros st H.
      eapply runs_cons; [apply (op_tick lay gs A0 _ _ _ _ _ _ _ _ H)|]. clear st H. intros st H.
      eapply runs_cons; [apply (cx_right 1 0 0 1 [] 0 st); [reflexivity | cls | exact H]|]. clear st H. intros st H.
      eapply runs_cons; [apply (op_tick lay gs A0 _ _ _ _ _ _ _ _ H)|]. clear st H. intros st H.
      eapply runs_weaken; [|eapply (op_measure lay Hv Hobs gs A0 1 1 0 _ _ [] st Hem); [lia | cls | lia | exact H]].
      intros s. now rewrite am.
    Qed.
    Lemma sd6_close_ok st : 1 <= n -> St N N N N N false [] st -> runs (sd6_close_i lay) (St N N N 0 0 false []) st.
    Proof.
      intros Hn H. unfold sd6_close_i. eapply runs_app with (Mid := St N N N 0 0 false []).
      - destruct (Z.eqb_spec ((n + 1) mod 3) 0) as [C|C]; [|destruct (Z.eqb_spec ((n + 2) mod 3) 0) as [C2|C2]].
        + eapply runs_cons; [apply (op_rot_all lay Hv Hobs gs A0 _ _ _ _ _ _ _ _ H)|]. intros st' H'. apply runs_nil.
          eapply St_rot; [| |exact H']; apply Nat2Z.inj; rewrite Nat2Z.inj_mod; clear -C Hn; change (zk (0 mod 3)) with 0; change (zk 3) with 3; dlia.
        + eapply runs_cons; [apply (op_unrot_all lay Hv Hobs gs A0 _ _ _ _ _ _ _ _ H)|]. intros st' H'. apply runs_nil.
          eapply St_rot; [| |exact H']; apply Nat2Z.inj; rewrite Nat2Z.inj_mod; clear -C2 Hn; change (zk (0 mod 3)) with 0; change (zk 3) with 3; dlia.
        + apply runs_nil. eapply St_rot; [| |exact H]; apply Nat2Z.inj; rewrite Nat2Z.inj_mod; clear -C C2 Hn; change (zk (0 mod 3)) with 0; change (zk 3) with 3; dlia.
      - intros st' H'. eapply runs_cons; [apply (op_tick lay gs A0 _ _ _ _ _ _ _ _ H')|]. intros s Hs. now apply runs_nil.
    Qed.
    Lemma body_sd6 st : 1 <= n -> St 0 0 0 0 0 false [] st -> runs (sd6_body lay) (St N N N 0 0 false []) st.
    Proof.
      intros Hn H. unfold sd6_body. eapply runs_app with (Mid := St N N N N N false []); [|intros st' H'; now apply sd6_close_ok].
      destruct (Z.eqb_spec n 1) as [E1|N1].
      - rewrite E1. now apply sd6_single_ok.
      - eapply runs_app; [now apply sd6_begin_ok|]. intros s1 H1. eapply runs_app.
        + apply (runs_flat_map gs (sd6_step_i lay) sd6_at 0 (Z.to_nat (n - 2))); [|exact H1]. intros k s _ Hs. now apply sd6_step_ok.
        + intros s2 H2. rewrite Nat.add_0_l in H2. replace N with (S (S (Z.to_nat (n - 2)))) by lia. now apply sd6_end_ok.
    Qed.

    (** ** SI1000 *)
    Lemma cz_left k L R M kL kR (rest : list (nat * phase)) st : L = k -> (kL mod 3 = S L mod 3)%nat -> (forall sp, In sp rest -> zk (fst sp) mod 3 <> zk L mod 3) ->
      St L R M kL kR true ((L, Idle) :: rest) st ->
      exists st', run_instr gs (Gen.g "CZ" (lpairs lay (zk k))) st = Ok st' /\ St (S L) R M kL kR true ((L, LeftD) :: rest) st'.
    Proof.
      intros -> Ek Hc H. eapply (op_left lay Hv gs A0 "CZ" PZ PZ); eauto; [cbn [In]; auto | rewrite rotn_mod, Ek, <- rotn_mod; apply rotn_xyz].
    Qed.
    Lemma cz_right k L R M kL kR (rest : list (nat * phase)) st : R = k -> (kR mod 3 = S R mod 3)%nat -> (forall sp, In sp rest -> zk (fst sp) mod 3 <> zk R mod 3) ->
      St L R M kL kR true ((R, LeftD) :: rest) st ->
      exists st', run_instr gs (Gen.g "CZ" (rpairs lay (zk k))) st = Ok st' /\ St L (S R) M kL kR true ((R, BothD) :: rest) st'.
    Proof.
      intros -> Ek Hc H. eapply (op_right lay Hv gs A0 "CZ" PZ PZ); eauto; [cbn [In]; auto | rewrite rotn_mod, Ek, <- rotn_mod; apply rotn_xyz].
    Qed.
    Definition si_at (j : nat) : fstate -> Prop :=
      St (3 * j) (3 * j) (3 * j) 0 0 false (match j with O => [(0, Idle); (1, Idle); (2, Idle)] | _ => [] end)%nat.
    Lemma mod3_add j a : ((3 * j + a) mod 3 = a mod 3)%nat.
    Proof. rewrite Nat.add_comm, Nat.mul_comm. apply Nat.mod_add. lia. Qed.
    Lemma si_ok j st : si_at j st -> runs (si_i lay j) (si_at (S j)) st.
    Proof.
      intros H. unfold si_i, si_at in *.
      set (a := (3 * j)%nat) in *.
      eapply runs_app with (Mid := St a a a 0 0 false [(a, Idle); (S a, Idle); (S (S a), Idle)]).
      { destruct j as [|j]; [apply runs_nil; exact H|]. cbn [si_head].
        eapply runs_cons; [apply (op_reset_all lay Hv gs A0 a a a a 0 0 st (or_introl Hp) (le_n _)); eapply St_incl; [|exact H]; intros x []|].
        intros s Hs. eapply runs_cons; [apply (op_tick lay gs A0 _ _ _ _ _ _ _ _ Hs)|]. intros s' Hs'. apply runs_nil.
        now rewrite Nat.add_1_r, (Nat.add_comm a 2) in Hs'. }
      clear st H. intros st H.
      assert (La : forall i, lpairs lay (zk i) = lpairs lay (zk (a + i))) by (intros i; apply lpairs_cong; unfold a; dlia).
      assert (Ra : forall i, rpairs lay (zk i) = rpairs lay (zk (a + i))) by (intros i; apply rpairs_cong; unfold a; dlia).
      assert (Ma : forall i, mop lay (zk i) = mop lay (zk (a + i))) by (intros i; apply mop_cong; unfold a; dlia).
      assert (H3 : forall i, ((S (a + i)) mod 3 = S i mod 3)%nat) by (intros i; unfold a; rewrite <- Nat.add_succ_r; apply mod3_add).
      unfold si_gates.
      change 0 with (zk 0). change 1 with (zk 1). change 2 with (zk 2). rewrite (La 0%nat), (La 1%nat), (La 2%nat), (Ra 0%nat), (Ra 1%nat), (Ra 2%nat), (Ma 0%nat), (Ma 1%nat), (Ma 2%nat).
      rewrite Nat.add_0_r, Nat.add_1_r, (Nat.add_comm a 2). change (2 + a)%nat with (S (S a)).
      specialize (H3 0%nat) as M0. specialize (H3 1%nat) as M1. specialize (H3 2%nat) as M2.
      rewrite Nat.add_0_r in M0. rewrite Nat.add_1_r in M1. rewrite (Nat.add_comm a 2) in M2. change (2 + a)%nat with (S (S a)) in M2.
      replace (3 * S j)%nat with (S (S (S a))) by (unfold a; lia).
      clear La Ra Ma H3. clearbody a.
      cbn [app].
      eapply runs_cons; [apply (op_rot1 lay Hv Hobs gs A0 _ _ _ _ _ _ _ _ H)|]. clear st H. intros st H.
      eapply runs_cons; [apply (op_H lay Hv gs A0 _ _ _ _ _ _ _ _ H)|]. clear st H. intros st H. cbn [negb] in H.
      eapply runs_cons; [apply (op_tick lay gs A0 _ _ _ _ _ _ _ _ H)|]. clear st H. intros st H.
      eapply runs_cons; [apply (op_rot2 lay Hv Hobs gs A0 _ _ _ _ _ _ _ _ H)|]. clear st H. intros st H.
      eapply runs_cons; [apply (cz_left a a a a 1 1 [(S a, Idle); (S (S a), Idle)] st); [reflexivity | rewrite M0; reflexivity | cls | exact H]|]. clear st H. intros st H.
      eapply runs_cons; [apply (op_tick lay gs A0 _ _ _ _ _ _ _ _ H)|]. clear st H. intros st H.
      eapply runs_cons; [apply (op_rot1 lay Hv Hobs gs A0 _ _ _ _ _ _ _ _ H)|]. clear st H. intros st H.
      eapply runs_cons; [apply (cz_right a (S a) a a 2 1 [(S a, Idle); (S (S a), Idle)] st); [reflexivity | rewrite M0; reflexivity | cls | exact H]|]. clear st H. intros st H.
      eapply runs_cons; [apply (op_tick lay gs A0 _ _ _ _ _ _ _ _ H)|]. clear st H. intros st H.
      eapply runs_cons; [apply (op_rot2 lay Hv Hobs gs A0 _ _ _ _ _ _ _ _ H)|]. clear st H. intros st H.
      eapply runs_cons; [apply (cz_left (S a) (S a) (S a) a 2 2 [(a, BothD); (S (S a), Idle)] st); [reflexivity | rewrite M1; reflexivity | cls |]|].
      { eapply St_incl; [|exact H]. intros x [<-|[<-|[<-|[]]]]; cbn; auto. } clear st H. intros st H.
      eapply runs_cons; [apply (op_tick lay gs A0 _ _ _ _ _ _ _ _ H)|]. clear st H. intros st H.
      eapply runs_cons; [apply (op_rot1 lay Hv Hobs gs A0 _ _ _ _ _ _ _ _ H)|]. clear st H. intros st H.
      eapply runs_cons; [apply (cz_right (S a) (S (S a)) (S a) a 3 2 [(a, BothD); (S (S a), Idle)] st); [reflexivity | rewrite M1; reflexivity | cls | exact H]|]. clear st H. intros st H.
      eapply runs_cons; [apply (op_tick lay gs A0 _ _ _ _ _ _ _ _ H)|]. clear st H. intros st H.
      eapply runs_cons; [apply (op_rot2 lay Hv Hobs gs A0 _ _ _ _ _ _ _ _ H)|]. clear st H. intros st H.
      eapply runs_cons; [apply (cz_left (S (S a)) (S (S a)) (S (S a)) a 3 3 [(a, BothD); (S a, BothD)] st); [reflexivity | rewrite M2; reflexivity | cls |]|].
      { eapply St_incl; [|exact H]. intros x [<-|[<-|[<-|[]]]]; cbn; auto. } clear st H. intros st H.
      eapply runs_cons; [apply (op_tick lay gs A0 _ _ _ _ _ _ _ _ H)|]. clear st H. intros st H.
      eapply runs_cons; [apply (cz_right (S (S a)) (S (S (S a))) (S (S a)) a 3 3 [(a, BothD); (S a, BothD)] st); [reflexivity | rewrite M2; reflexivity | cls | exact H]|]. clear st H. intros st H.
      eapply runs_cons; [apply (op_tick lay gs A0 _ _ _ _ _ _ _ _ H)|]. clear st H. intros st H.
      eapply runs_cons; [apply (op_H lay Hv gs A0 _ _ _ _ _ _ _ _ H)|]. clear st H. intros st H. cbn [negb] in H.
      eapply runs_cons; [apply (op_tick lay gs A0 _ _ _ _ _ _ _ _ H)|]. clear st H. intros st H.
      eapply runs_app.
      { eapply (op_measure lay Hv Hobs gs A0 (S (S (S a))) (S (S (S a))) a _ _ [(S a, BothD); (S (S a), BothD)] st Hem); [lia | cls | lia |].
        eapply St_incl; [|exact H]. intros x [<-|[<-|[<-|[]]]]; cbn; auto. }
      clear st H. intros st H. rewrite am in H. cbn [app] in H.
      eapply runs_app; [eapply (op_measure lay Hv Hobs gs A0 (S (S (S a))) (S (S (S a))) (S a) _ _ [(S (S a), BothD)] st Hem); [lia | cls | lia | exact H]|].
      clear st H. intros st H. rewrite am in H. cbn [app] in H.
      eapply runs_app; [eapply (op_measure lay Hv Hobs gs A0 (S (S (S a))) (S (S (S a))) (S (S a)) _ _ [] st Hem); [lia | cls | lia | exact H]|].
      clear st H. intros st H. rewrite am in H. cbn [app] in H.
      eapply runs_cons; [apply (op_tick lay gs A0 _ _ _ _ _ _ _ _ H)|]. clear st H. intros st H. apply runs_nil.
      eapply St_rot; [| |exact H]; reflexivity.
    Qed.
    Lemma body_si st : 1 <= n -> n mod 3 = 0 -> St 0 0 0 0 0 false [(0, Idle); (1, Idle); (2, Idle)]%nat st -> runs (si_body lay) (St N N N 0 0 false []) st.
    Proof.
      intros Hn H3 H. unfold si_body. eapply runs_weaken; [|apply (runs_flat_map gs (si_i lay) si_at 0 (Z.to_nat (n / 3))); [|exact H]].
      - intros s Hs. unfold si_at in Hs. rewrite Nat.add_0_l in Hs. replace (3 * Z.to_nat (n / 3))%nat with N in Hs by (revert H3; dlia).
        eapply St_incl; [|exact Hs]. intros x [].
      - intros k s _ Hs. now apply si_ok.
    Qed.
  End SD6.

  (** ** PC3 *)
  Section PC3.
    Hypothesis Hp : pc3 lay = true.
    Hypothesis Hem : is_em3 (style lay) = false.
    Definition pc3_pa (k : nat) : list (nat * phase) :=
      (k, Idle) :: (if (1 <=? zk k) && (zk k <=? n) then [((k - 1)%nat, LeftD)] else []) ++
                   (if (2 <=? zk k) && (zk k <=? n + 1) then [((k - 2)%nat, BothD)] else []).
    Definition pc3_at (k : nat) : fstate -> Prop := St (Nat.min k N) (Nat.min (k - 1) N) (k - 2) 0 0 false (pc3_pa k).
    Lemma pcx_name k : In (pcx k, (xyz k, PX)) [("CX", (PZ, PX)); ("XCX", (PX, PX)); ("YCX", (PY, PX)); ("CZ", (PZ, PZ))]%string.
    Proof. unfold pcx. destruct (xyz k); cbn; auto. Qed.
    Lemma pc_left L R M (rest : list (nat * phase)) st : (forall sp, In sp rest -> zk (fst sp) mod 3 <> zk L mod 3) ->
      St L R M 0 0 false ((L, Idle) :: rest) st ->
      exists st', run_instr gs (Gen.g (pcx (zk L)) (lpairs lay (zk L))) st = Ok st' /\ St (S L) R M 0 0 false ((L, LeftD) :: rest) st'.
    Proof. intros Hc H. apply (op_left lay Hv gs A0 _ (xyz (zk L)) PX); [apply pcx_name | reflexivity | reflexivity | exact Hc | exact H]. Qed.
    Lemma pc_right L R M (rest : list (nat * phase)) st : (forall sp, In sp rest -> zk (fst sp) mod 3 <> zk R mod 3) ->
      St L R M 0 0 false ((R, LeftD) :: rest) st ->
      exists st', run_instr gs (Gen.g (pcx (zk R)) (rpairs lay (zk R))) st = Ok st' /\ St L (S R) M 0 0 false ((R, BothD) :: rest) st'.
    Proof. intros Hc H. apply (op_right lay Hv gs A0 _ (xyz (zk R)) PX); [apply pcx_name | reflexivity | reflexivity | exact Hc | exact H]. Qed.
    Lemma am3 s : after_measure lay s = [((s + 3)%nat, Idle)].
    Proof. unfold after_measure. now rewrite Hp. Qed.

    Lemma pc3_ok k st : 1 <= n -> (k < Z.to_nat (n + 2))%nat -> pc3_at k st -> runs (pc3_i lay k) (pc3_at (S k)) st.
    Proof.
      intros Hn Hk H. unfold pc3_i, pc3_at in *.
      (* the left halves of sub-round k *)
      eapply runs_app with (Mid := St (Nat.min (S k) N) (Nat.min (k - 1) N) (k - 2) 0 0 false
        ((if zk k <? n then [(k, LeftD)] else []) ++ (if (1 <=? zk k) && (zk k <=? n) then [((k - 1)%nat, LeftD)] else []) ++
                   (if (2 <=? zk k) && (zk k <=? n + 1) then [((k - 2)%nat, BothD)] else []))).
      { destruct (Z.ltb_spec (zk k) n) as [L|L].
        - replace (Nat.min (S k) N) with (S k) by lia. replace (Nat.min k N) with k in H by lia.
          eapply runs_cons; [eapply pc_left; [|exact H]|intros; apply runs_nil; eassumption].
          intros sp Hin. apply in_app_or in Hin. destruct Hin as [Hin|Hin];
          match type of Hin with In _ (if ?b then _ else _) => destruct b eqn:B; [|destruct Hin] end; apply andb_prop in B; destruct B as [B _]; apply Z.leb_le in B;
          destruct Hin as [<-|[]]; cbn [fst]; clear -B; dlia.
        - apply runs_nil. replace (Nat.min (S k) N) with (Nat.min k N) by lia. eapply St_incl; [|exact H]. intros x Hx. now right. }
      clear st H. intros st H.
      (* the right halves of sub-round k - 1 *)
      eapply runs_app with (Mid := St (Nat.min (S k) N) (Nat.min k N) (k - 2) 0 0 false
        ((if (2 <=? zk k) && (zk k <=? n + 1) then [((k - 2)%nat, BothD)] else []) ++ (if zk k <? n then [(k, LeftD)] else []) ++
         (if (1 <=? zk k) && (zk k <=? n) then [((k - 1)%nat, BothD)] else []))).
      { destruct ((1 <=? zk k) && (zk k <=? n)) eqn:B.
        - apply andb_prop in B. destruct B as [B1 B2]. apply Z.leb_le in B1, B2.
          replace (Nat.min k N) with (S (k - 1)) by lia. replace (Nat.min (k - 1) N) with (k - 1)%nat in H by lia. replace (zk k - 1) with (zk (k - 1)) by lia.
          eapply runs_cons; [eapply (pc_right (Nat.min (S k) N) (k - 1) (k - 2) ((if zk k <? n then [(k, LeftD)] else []) ++ (if (2 <=? zk k) && (zk k <=? n + 1) then [((k - 2)%nat, BothD)] else [])))|].
          + intros sp Hin. apply in_app_or in Hin. destruct Hin as [Hin|Hin];
            match type of Hin with In _ (if ?b then _ else _) => destruct b eqn:B; [|destruct Hin] end; rewrite ?andb_true_iff, ?Z.leb_le in B;
            destruct Hin as [<-|[]]; cbn [fst]; clear -B B1; [dlia | destruct B as [B _]; dlia].
          + eapply St_incl; [|exact H]. intros x [<-|Hx]; [apply in_or_app; right; now left|]. apply in_app_or in Hx. apply in_or_app. destruct Hx; [now left | right; now right].
          + clear st H. intros st H. apply runs_nil. eapply St_incl; [|exact H]. intros x Hx. apply in_app_or in Hx. destruct Hx as [Hx|Hx]; [right; apply in_or_app; now right|].
            apply in_app_or in Hx. destruct Hx as [Hx|[<-|[]]]; [right; apply in_or_app; now left | now left].
        - apply runs_nil. replace (Nat.min k N) with (Nat.min (k - 1) N) by (apply andb_false_iff in B; rewrite !Z.leb_gt in B; lia).
          eapply St_incl; [|exact H]. intros x Hx. rewrite app_nil_r in Hx. cbn [app]. apply in_app_or in Hx. apply in_or_app. tauto. }
      clear st H. intros st H.
      (* measuring sub-round k - 2, or resetting *)
      eapply runs_app with (Mid := St (Nat.min (S k) N) (Nat.min k N) (S k - 2) 0 0 false
        ((S k, Idle) :: (if zk k <? n then [(k, LeftD)] else []) ++ (if (1 <=? zk k) && (zk k <=? n) then [((k - 1)%nat, BothD)] else []))).
      { assert (Hr : forall sp, In sp ((if zk k <? n then [(k, LeftD)] else []) ++ (if (1 <=? zk k) && (zk k <=? n) then [((k - 1)%nat, BothD)] else [])) ->
          zk (fst sp) mod 3 <> zk (S k) mod 3).
        { intros sp Hin. apply in_app_or in Hin. destruct Hin as [Hin|Hin];
            match type of Hin with In _ (if ?b then _ else _) => destruct b eqn:B; [|destruct Hin] end; rewrite ?andb_true_iff, ?Z.leb_le in B;
            destruct Hin as [<-|[]]; cbn [fst]; clear -B; [dlia | destruct B as [B _]; dlia]. }
        destruct (Z.leb_spec 2 (zk k)) as [H2|H2].
        - replace (zk k <=? n + 1) with true in H by (symmetry; apply Z.leb_le; lia). cbn [andb app] in H.
          replace (S k - 2)%nat with (S (k - 2)) by lia. eapply runs_weaken; [|eapply (op_measure lay Hv Hobs gs A0 _ _ (k - 2) _ _ _ st Hem); [| | |exact H]].
          + intros s. rewrite am3. replace (k - 2 + 3)%nat with (S k) by lia. cbn [app]. auto.
          + lia.
          + intros sp Hin. specialize (Hr sp Hin). replace (zk (k - 2) mod 3) with (zk (S k) mod 3); [exact Hr|]. clear -H2. dlia.
          + intros _. lia.
        - eapply runs_cons; [|intros s Hs; apply runs_nil; exact Hs].
          replace (centers lay (zk k - 2)) with (centers lay (zk (S k))) by (apply centers_cong; dlia).
          replace (S k - 2)%nat with (k - 2)%nat by lia. apply op_reset; [exact Hv | right; lia | lia | exact Hr | exact H]. }
      clear st H. intros st H.
      eapply runs_cons; [apply (op_tick lay gs A0 _ _ _ _ _ _ _ _ H)|]. clear st H. intros st H. apply runs_nil.
      replace (S k - 1)%nat with k by lia. eapply St_incl; [|exact H]. unfold pc3_pa.
      replace (1 <=? zk (S k)) with true by (symmetry; apply Z.leb_le; lia).
      replace (zk (S k) <=? n) with (zk k <? n) by (destruct (Z.ltb_spec (zk k) n), (Z.leb_spec (zk (S k)) n); lia).
      replace (2 <=? zk (S k)) with (1 <=? zk k) by (destruct (Z.leb_spec 1 (zk k)), (Z.leb_spec 2 (zk (S k))); lia).
      replace (zk (S k) <=? n + 1) with (zk k <=? n) by (destruct (Z.leb_spec (zk k) n), (Z.leb_spec (zk (S k)) (n + 1)); lia).
      replace (S k - 1)%nat with k by lia. replace (S k - 2)%nat with (k - 1)%nat by lia. cbn [andb]. apply incl_refl.
    Qed.
  End PC3.

  (** ** The state after the rounds *)
  Definition Done (st : fstate) : Prop := exists z,
    (forall q, isdata lay q -> fr st (ix q) = A lay z A0 N q) /\ frec st = recl lay z A0 N /\
    (start_ok lay A0 -> Forall (eq false) (fdets st) /\ forall x, fobs st x = Nat.eqb x (oidx lay) && obs_total lay z A0 N).
  Lemma Done_St pa st : pc3 lay = false -> St N N N 0 0 false pa st -> Done st.
  Proof.
    intros Hp (z & [IL IR IM IA _] & _). exists z. cbn [rotn] in *. rewrite Hp in IA. repeat split; auto; try (intros; now apply IA).
    intros q Hq. destruct (data_qubit_parity q) eqn:P; auto.
  Qed.

  Lemma body_pc3 st : pc3 lay = true -> is_em3 (style lay) = false -> 1 <= n -> St 0 0 0 0 0 false [(0, Idle); (1, Idle); (2, Idle)]%nat st ->
    runs (pc3_body lay) Done st.
  Proof.
    intros Hp Hem Hn H. unfold pc3_body. eapply runs_app.
    - apply (runs_flat_map gs (pc3_i lay) pc3_at 0 (Z.to_nat (n + 2))).
      + intros k s Hk Hs. now apply pc3_ok.
      + unfold pc3_at, pc3_pa. cbn [Nat.min Nat.sub Nat.add andb app]. change (1 <=? zk 0) with false. change (2 <=? zk 0) with false. cbn [andb app].
        eapply St_incl; [|exact H]. intros x [<-|[]]. now left.
    - clear st H. intros st H. unfold pc3_at in H. cbn [Nat.add] in H.
      replace (Nat.min (Z.to_nat (n + 2)) N) with N in H by lia. replace (Nat.min (Z.to_nat (n + 2) - 1) N) with N in H by lia.
      replace (Z.to_nat (n + 2) - 2)%nat with N in H by lia. destruct H as (z & [IL IR IM IA _] & _). rewrite Hp in IA. cbn [rotn] in IL, IR.
      assert (Hl : tm (trk N) = length (frec st)) by (rewrite IM, (length_recl lay Hv), (tm_trk lay Hv); reflexivity).
      set (P := fun (b : bool) (s : fstate) => fr s = fr st /\ frec s = frec st /\ fdets s = fdets st /\ forall x, fobs s x = xorb (fobs st x) (Nat.eqb x (oidx lay) && b)).
      assert (HT : start_ok lay A0 -> TI lay z A0 (fun i => nth i (frec st) false) N).
      { intros Hs. apply TI_all; auto. rewrite IM, <- (app_nil_r (recl lay z A0 N)). apply rows_recl, Hv. }
      assert (S1 : forall l b s0, P b s0 -> runs (flat_map (fun k => match comb (map (fun e => cur (trk N) (KHalf (KE e))) (oat lay k)) with
                       | Some s => [mkI "OBSERVABLE_INCLUDE" (tg (tm (trk N)) s) [int_arg (Z.of_nat (oidx lay))]]
                       | None => []
                       end) l) (fun s1 => exists b', P b' s1 /\ (start_ok lay A0 -> b' = xorb b (xsum (fun k => xsum (acc lay z A0 N) (oat lay k)) l))) s0).
      { intros l. induction l as [|k l IH]; intros b s0 H0; cbn [flat_map].
        - apply runs_nil. exists b. split; [exact H0|]. intros _. unfold xsum. cbn. now rewrite xorb_false_r.
        - assert (W' : wf_entry (tm (trk N)) (comb (map (fun e => cur (trk N) (KHalf (KE e))) (oat lay k)))).
          { apply wf_comb_map. intros e _. apply wf_cur, wf_trk; assumption. }
          assert (G : start_ok lay A0 -> gd (fun x => nth x (frec st) false) (tm (trk N)) (comb (map (fun e => cur (trk N) (KHalf (KE e))) (oat lay k))) (xsum (acc lay z A0 N) (oat lay k)) /\
             comb (map (fun e => cur (trk N) (KHalf (KE e))) (oat lay k)) <> None).
          { intros Hs. specialize (HT Hs).
            assert (Hc : forall e, In e (oat lay k) -> exists s, cur (trk N) (KHalf (KE e)) = Some s /\ gd (fun x => nth x (frec st) false) (tm (trk N)) (Some s) (acc lay z A0 N e)).
            { intros e He. rewrite (tm_trk lay Hv). apply (ti_half _ _ _ _ _ HT). apply (in_all_of_round lay k). eapply oat_in; eauto. }
            split.
            - apply gd_comb_map. intros e He. destruct (Hc e He) as (s & -> & Hg). exact Hg.
            - apply comb_some. intros v Hin. apply in_map_iff in Hin. destruct Hin as (e & <- & He). destruct (Hc e He) as (s & -> & _). discriminate. }
          destruct H0 as (P1 & P2 & P3 & P4).
          set (bk := xsum (fun x => nth x (frec st) false) (match comb (map (fun e => cur (trk N) (KHalf (KE e))) (oat lay k)) with Some s => s | None => [] end)).
          eapply runs_app with (Mid := P (xorb b bk)).
          + destruct (comb (map (fun e => cur (trk N) (KHalf (KE e))) (oat lay k))) as [s|] eqn:Ec; subst bk.
            * rewrite Hl, <- P2 in W' |- *. eexists. split; [now apply run_obs|]. repeat split; auto. intros x. cbn [fobs add_obs]. rewrite P4.
              generalize (fobs st x) (Nat.eqb x (oidx lay)) b (xsum (fun x => nth x (frec s0) false) s). now intros [] [] [] [].
            * apply runs_nil. repeat split; auto. intros x. unfold xsum. cbn. now rewrite xorb_false_r.
          + intros s1 H1. eapply runs_weaken; [|apply (IH _ s1 H1)]. intros s2 (b' & Hb & K). exists b'. split; [exact Hb|]. intros Hs. rewrite (K Hs), xsum_cons.
            destruct (G Hs) as [G1 G2]. subst bk. destruct (comb (map (fun e => cur (trk N) (KHalf (KE e))) (oat lay k))) as [s|]; [|now destruct G2].
            cbn [gd] in G1. destruct G1 as (_ & _ & <-). now rewrite xorb_assoc. }
      eapply runs_weaken; [|apply (S1 [0; 1; 2] false st)].
      + intros s1 (b & (P1 & P2 & P3 & P4) & Hb). exists z. rewrite P1, P2, P3. split; [|split; [exact IM|]].
        * intros q Hq. destruct (data_qubit_parity q) eqn:Pq; auto.
        * intros Hs. destruct (IA Hs) as [I1 I2]. split; [exact I1|]. intros x. rewrite P4, I2, andb_false_r, xorb_false_l. f_equal. rewrite (Hb Hs), xorb_false_l.
          rewrite <- (acc_total lay Hv Hobs z A0 (fun _ => false) N Hp), !xsum_cons. unfold xsum at 4. cbn [fold_right]. now rewrite xorb_false_r, xorb_assoc.
      + repeat split; auto. intros x. now rewrite andb_false_r, xorb_false_r.
  Qed.
  End Body.
End X.
