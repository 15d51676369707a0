(** Running the whole circuit: initialisation, rounds, final measurement. *)
From Coq Require Import QArith.
From Verif Require Import Prelude Layout LayoutFacts LayoutEdges LayoutLists LayoutHex LayoutHex2 Pauli LayoutObs LayoutLogic LayoutIndex
  Tracker TrackerFacts Stim Circuit Annot Shift Ends Gen Gen2 Gen3 Traj Eval Frame Exec Exec2 Exec3.
Open Scope Z_scope.

Section X.
  Variable lay : layout.
  Hypothesis Hv : valid lay.
  Hypothesis Hobs : obs lay = "V"%string \/ obs lay = "H"%string.
  Variable gs : nat -> bool.
  Notation E := (round_edges lay).
  Notation zk := Z.of_nat.
  Notation ne := (length (E 0)).
  Notation D := (data_qubit_coords lay).
  Notation trk := (trk lay (tr0 lay)).
  Notation annk := (annk lay (tr0 lay)).
  Notation ix := (ix lay).
  Notation run := (run gs).
  Notation runs := (runs gs).
  Notation n := (sub_rounds lay).
  Notation N := (Z.to_nat n).
  Local Opaque data_qubit_coords measure_qubit_coords q2i_dict hex_entries hexes round_edges all_edges isort.

  (** ** The rounds *)
  Definition idle3 : list (nat * phase) := if is_em3 (style lay) then [] else [(0, Idle); (1, Idle); (2, Idle)]%nat.
  Lemma body_ok A0 st : supported lay -> St lay A0 0 0 0 0 0 false idle3 st -> runs (body_i lay) (Done lay A0) st.
  Proof.
    intros (Hn & Hs) H. unfold body_i, idle3 in *.
    assert (Hp : forall s, style lay = s -> (s =? "PC3")%string = false -> pc3 lay = false) by (intros s <-; auto).
    destruct Hs as [Es|[Es|[Es|[Es|[Es H3]]]]]; pose proof Es as Es'; rewrite Es in H |- *; cbn [String.eqb Ascii.eqb Bool.eqb is_em3 orb] in H |- *.
    - eapply runs_weaken; [|eapply (body_sd6 lay Hv Hobs gs A0); eauto; [now rewrite Es | eapply St_incl; [|exact H]; intros x []]]. intros s. apply Done_St; eauto.
    - eapply (body_pc3 lay Hv Hobs gs A0); eauto; [unfold pc3; now rewrite Es | now rewrite Es].
    - eapply runs_weaken; [|eapply (body_em3 lay Hv Hobs gs A0); eauto; now rewrite Es]. intros s. apply Done_St; eauto.
    - eapply runs_weaken; [|eapply (body_em3 lay Hv Hobs gs A0); eauto; now rewrite Es]. intros s. apply Done_St; eauto.
    - eapply runs_weaken; [|eapply (body_si lay Hv Hobs gs A0); eauto; now rewrite Es]. intros s. apply Done_St; eauto.
  Qed.

  (** ** A basis change on the data *)
  Definition hb (p : pauli) (b : bits) : bits :=
    match p with PX => (snd b, fst b) | PY => (xorb (fst b) (snd b), snd b) | PZ => b end.
  Lemma NoDup_data_ix : NoDup (data_ix lay).
  Proof. unfold data_ix. apply NoDup_ix; auto. - intros q Hq. now apply data_in_qubits, in_data. - apply NoDup_data. Qed.
  Lemma in_data_ix q : isdata lay q -> In (ix q) (data_ix lay).
  Proof. intros H. unfold data_ix. apply in_map. now apply in_data. Qed.
  Lemma hdata_ok p st : exists st', run (hdata lay p) st = Ok st' /\ frec st' = frec st /\ fdets st' = fdets st /\ fobs st' = fobs st /\
    (forall q, isdata lay q -> fr st' (ix q) = hb p (fr st (ix q))) /\ (forall x, ~ In x (data_ix lay) -> fr st' x = fr st x).
  Proof.
    assert (K : forall name f, In (name, f) [("H", fun b => (snd b, fst b)); ("H_YZ", fun b => (xorb (fst b) (snd b), snd b)); ("C_ZYX", rotb); ("C_XYZ", fun b => (xorb (fst b) (snd b), fst b))]%string ->
      exists st', run [mkI name (qs (data_ix lay)) []; tick_i] st = Ok st' /\ frec st' = frec st /\ fdets st' = fdets st /\ fobs st' = fobs st /\
      (forall q, isdata lay q -> fr st' (ix q) = f (fr st (ix q))) /\ (forall x, ~ In x (data_ix lay) -> fr st' x = fr st x)).
    { intros name f Hf. cbn [Frame.run]. change (mkI name (qs (data_ix lay)) []) with (Gen.g name (data_ix lay)). rewrite (run1 gs name f _ _ Hf), bind_ok.
      rewrite (run_annotation gs tick_i) by reflexivity. rewrite bind_ok. eexists. split; [reflexivity|]. cbn [with_fr frec fdets fobs fr].
      destruct (fold_ap1 f (data_ix lay) (fr st) NoDup_data_ix) as [F1 F2]. repeat split; auto. intros q Hq. apply F1, in_data_ix, Hq. }
    unfold hdata. destruct p; cbn [pauli_eqb].
    - apply (K "H"%string). cbn; auto.
    - apply (K "H_YZ"%string). cbn; auto.
    - exists st. repeat split; auto.
  Qed.
  Lemma hb_anti p b : anti2 (pbits PZ) (hb p b) = anti2 (pbits p) b.
  Proof. destruct p, b as [[] []]; reflexivity. Qed.
  Lemma hb_sel p b : hb p (bsel b (pbits PZ)) = bsel b (pbits p).
  Proof. destruct p, b; reflexivity. Qed.

  (** ** Initialisation *)
  Lemma init_ok st : frec st = [] -> fdets st = [] -> (forall x, fobs st x = false) ->
    runs (coords_i lay ++ init_i lay) (fun st' => exists A0, start_ok lay A0 /\ St lay A0 0 0 0 0 0 false idle3 st') st.
  Proof.
    intros Hr Hd Ho. eapply runs_app with (Mid := eq st).
    - unfold coords_i. generalize (used_qubit_coords lay). intros l. induction l as [|q l IH]; [now apply runs_nil|]. cbn [map].
      eapply runs_cons with (Mid := eq st); [|intros s <-; exact IH]. eexists. split; [apply run_annotation; reflexivity | reflexivity].
    - intros s <-. unfold init_i.
      assert (HN : NoDup (used_ix lay)).
      { unfold used_ix. apply NoDup_ix; auto; [intros q Hq; now apply (Gen3.used_in lay Hv) | now apply NoDup_used]. }
      destruct (fold_reset gs PZ (used_ix lay) st HN) as (F1 & F2 & F3 & F4 & F5). cbn zeta in *. set (st1 := fold_left _ _ st) in *.
      eapply runs_app with (Mid := eq st1).
      + eapply runs_cons with (Mid := eq st1); [exists st1; split; [apply (run_R gs) | reflexivity]|]. intros s <-.
        eapply runs_cons with (Mid := eq st1); [eexists; split; [apply run_annotation; reflexivity | reflexivity]|]. intros s <-. now apply runs_nil.
      + intros s <-. destruct (hdata_ok (init_basis lay) st1) as (st2 & E2 & G1 & G2 & G3 & G4 & G5).
        exists st2. split; [exact E2|]. exists (fun q => fr st2 (ix q)). split.
        * intros q Hq. rewrite (G4 q Hq). destruct (F4 (ix q)) as [b ->].
          { unfold used_ix. apply in_map. unfold used_qubit_coords. destruct (is_em3 (style lay)); [now apply in_data|]. rewrite q2i_dict_keys by exact Hv. now apply data_in_qubits. }
          rewrite hb_sel. destruct b, (init_basis lay); reflexivity.
        * exists (fun _ _ => false). split; [split; cbn [rotn A recl]; auto|].
          -- rewrite G1, F1. exact Hr.
          -- intros _. rewrite G2, F2, Hd. split; [constructor|]. intros x. rewrite G3, F3, Ho. cbn [obs_total]. destruct (pc3 lay); now rewrite andb_false_r.
          -- intros sp Hin. unfold idle3 in Hin. destruct (is_em3 (style lay)) eqn:Hem; [destruct Hin|].
             assert (Hs : exists s, sp = (s, Idle) /\ (s < 3)%nat) by (cbn in Hin; destruct Hin as [<-|[<-|[<-|[]]]]; eauto with arith).
             destruct Hs as (s & -> & Hs). split; [unfold bd; cbn; lia|]. intros e He. cbn [sw].
             rewrite G5 by (intros K; unfold data_ix in K; apply in_map_iff in K; destruct K as (q & Eq & Hq); apply (in_data lay Hv) in Hq; revert Eq; eapply ix_data_center; eauto).
             destruct (F4 (ix (e_center e))) as [b ->].
             { unfold used_ix. apply in_map. unfold used_qubit_coords. rewrite Hem, q2i_dict_keys by exact Hv.
               apply (center_in_qubits lay Hv). exact (proj1 (center_of lay Hv _ e He)). }
             unfold pbase. replace (acc lay (fun _ _ => false) (fun q => fr st2 (ix q)) s e) with false.
             { destruct (pc3 lay), b; reflexivity. }
             symmetry. revert Hs He. clear -Hv. intros Hs He.
             destruct s as [|[|[|s]]]; [reflexivity | | | lia].
             ++ rewrite (acc_other lay Hv _ _ 0 e _ He) by (cbn; discriminate). reflexivity.
             ++ rewrite (acc_other lay Hv _ _ 1 e _ He), (acc_other lay Hv _ _ 0 e _ He) by (cbn; discriminate). reflexivity.
  Qed.

  (** ** The final measurement *)
  Lemma dval_false B t v x : gd B t v x -> x = false -> Forall (eq false) (dval B v).
  Proof. intros G ->. destruct v as [s|]; cbn [dval]; [|constructor]. cbn [gd] in G. destruct G as (_ & _ & ->). repeat constructor. Qed.
  Lemma Forall_flat_map' {X Y} (P : Y -> Prop) (f : X -> list Y) l : (forall x, In x l -> Forall P (f x)) -> Forall P (flat_map f l).
  Proof. induction l as [|x l IH]; intros H; cbn [flat_map]; [constructor|]. apply Forall_app. split; [apply H; now left | apply IH; intros; apply H; now right]. Qed.
  Definition AllFalse (st : fstate) : Prop := Forall (eq false) (fdets st) /\ forall x, fobs st x = false.
  Lemma fin_ok A0 st : 1 <= n -> start_ok lay A0 -> Done lay A0 st -> runs (fin lay (trk N)) AllFalse st.
  Proof.
    intros Hn Hs (z & HF & HR & HA). destruct (HA Hs) as [HD HO]. unfold fin.
    destruct (hdata_ok (final_basis lay) st) as (s1 & E1 & G1 & G2 & G3 & G4 & _).
    eapply runs_app with (Mid := eq s1); [exists s1; auto|]. intros ? <-.
    destruct (fold_measure gs PZ (data_ix lay) s1 NoDup_data_ix) as (F1 & F2 & F3 & _ & _). cbn zeta in *.
    set (s2 := fold_left _ (data_ix lay) s1) in *.
    eapply runs_app with (Mid := eq s2).
    { eapply runs_cons with (Mid := eq s2); [exists s2; split; [apply (run_M gs) | reflexivity]|]. intros s <-. now apply runs_nil. }
    intros ? <-.
    assert (Erec : frec s2 = recl lay z A0 N ++ map (dbit lay z A0) D).
    { rewrite F1, G1, HR. f_equal. unfold data_ix, Ends.data_ix. rewrite map_map. apply map_ext_in. intros q Hq. apply (in_data lay Hv) in Hq.
      rewrite G4, hb_anti, HF by exact Hq. reflexivity. }
    set (B := fun i => nth i (frec s2) false).
    assert (HRows : rows lay z A0 B N) by (unfold B; rewrite Erec; apply rows_recl, Hv).
    assert (HDb : forall q, In q D -> B (N * ne + index cpx_eqb q D)%nat = dbit lay z A0 q).
    { intros q Hq. unfold B. rewrite Erec. rewrite app_nth2; rewrite (length_recl lay Hv); [|lia].
      replace (N * ne + index cpx_eqb q D - N * ne)%nat with (index cpx_eqb q D) by lia. apply nth_index; [apply cpx_eqb_eq | exact Hq]. }
    assert (Hft : ftime lay (trk N) = length (frec s2)).
    { unfold ftime. rewrite Erec, app_length, map_length, (length_recl lay Hv), (tm_trk lay Hv). reflexivity. }
    assert (Dets : forall {X} (v : X -> entry) co l s, frec s = frec s2 -> (forall x, In x l -> gd B (ftime lay (trk N)) (v x) false) -> Forall (eq false) (fdets s) ->
      runs (flat_map (fun x => det (ftime lay (trk N)) (v x) (co x)) l) (fun s' => frec s' = frec s2 /\ fobs s' = fobs s /\ Forall (eq false) (fdets s')) s).
    { intros X v co l s Es Hg Hfd. rewrite Hft, <- Es. eexists. split.
      - apply run_dets. intros x Hx. rewrite Es, <- Hft. specialize (Hg x Hx). destruct (v x); cbn in *; tauto.
      - cbn [frec fobs fdets add_dets]. repeat split; auto. apply Forall_app. split; [exact Hfd|].
        apply Forall_flat_map'. intros x Hx. rewrite Es. eapply dval_false; [apply Hg, Hx | reflexivity]. }
    assert (Hfd2 : Forall (eq false) (fdets s2)) by (rewrite F2, G2; exact HD).
    eapply runs_app with (Mid := fun s' => frec s' = frec s2 /\ fobs s' = fobs s2 /\ Forall (eq false) (fdets s')).
    { destruct (pauli_eqb (xyz (n - 1)) (final_basis lay)) eqn:Eb.
      - unfold fin_edges. apply Dets; auto. intros e He. eapply fin_edge_gd; eauto. destruct (xyz (n - 1)), (final_basis lay); try discriminate; reflexivity.
      - unfold fin_other. apply Dets; auto. intros h Hh. eapply fin_other_gd; eauto. }
    intros s3 (R3 & O3 & D3).
    eapply runs_app with (Mid := fun s' => frec s' = frec s2 /\ fobs s' = fobs s3 /\ Forall (eq false) (fdets s')).
    { unfold fin_hexes. apply Dets; auto. intros h Hh. eapply fin_hex_gd; eauto. }
    intros s4 (R4 & O4 & D4). unfold fin_obs. destruct (fin_obs_gd lay Hv Hobs z A0 Hs B Hn HDb) as (ss & Ess & Gss).
    rewrite Ess. rewrite Hft, <- R4. cbn [gd] in Gss. destruct Gss as (W1 & W2 & W3). eexists. split.
    - apply run_obs. split; [exact W1|]. intros x Hx. rewrite R4, <- Hft. now apply W2.
    - split; [exact D4|]. intros x. cbn [fobs add_obs]. rewrite O4, O3, F3, G3, HO, R4. unfold B in W3. rewrite W3.
      destruct (Nat.eqb x (oidx lay)), (obs_total lay z A0 N); reflexivity.
  Qed.

  (** ** The whole circuit *)
  Definition start (f : nat -> bits) : fstate := mkF f [] [] (fun _ => false) 0.
  Theorem circuit_deterministic f : supported lay -> runs (circuit_i lay) AllFalse (start f).
  Proof.
    intros Hsup. unfold circuit_i. rewrite app_assoc. eapply runs_app; [apply init_ok; reflexivity|].
    intros s1 (A0 & Hs & H1). eapply runs_app; [apply body_ok; [exact Hsup | exact H1]|]. intros s2 H2.
    eapply fin_ok; eauto. apply Hsup.
  Qed.
End X.
