(** The moments of a generated circuit, one after the other: a run with one error
    stays explained by what that error leaves behind. *)
From Coq Require Import QArith.
From Verif Require Import Prelude Layout LayoutFacts LayoutEdges LayoutLists LayoutHex LayoutHex2 Pauli LayoutObs LayoutLogic LayoutIndex
  Tracker TrackerFacts Stim Circuit Noise Annot Shift Ends Gen Gen2 Gen3 Traj Eval Frame Exec Exec2 Exec3 Exec4 Moments NoiseFacts NoiseMoments NoiseAlign NoiseCorr
  FaultSpec FaultInv FaultZ FaultInj FaultStep FaultNoise.
Open Scope Z_scope.
Notation St := FaultInv.St.
Notation Anc := FaultInv.Anc.
Notation bd := FaultInv.bd.
Notation Inv := FaultInv.Inv.

Lemma even_pairs {A B} (f g : A -> B) l : forall a x y b, flat_map (fun e => [f e; g e]) l = a ++ x :: y :: b -> Nat.Even (length a) -> exists e, In e l /\ x = f e /\ y = g e.
Proof.
  induction l as [|e l IH]; intros a x y b H Ha; cbn [flat_map app] in H; [destruct a; discriminate|].
  destruct a as [|u [|v a]]; cbn [app] in H.
  - injection H as <- <- _. exists e. repeat split; auto. now left.
  - destruct Ha as (k & K). cbn in K. lia.
  - injection H as _ _ H. destruct (IH a x y b H) as (e' & He & K); [|exists e'; split; [now right | exact K]]. destruct Ha as (k & K). exists (k - 1)%nat. cbn [length] in K. lia.
Qed.
Lemma qs_flat {A} (f g : A -> nat) l : qs (flat_map (fun e => [f e; g e]) l) = flat_map (fun e => [TQ (f e); TQ (g e)]) l.
Proof. unfold qs. induction l as [|e l IH]; [reflexivity|]. cbn [flat_map app map]. now rewrite IH. Qed.

(** instructions that neither act on two qubits nor measure a product *)
Definition calm (i : instr) : Prop := iname i <> "MPP"%string /\ in_names (iname i) ANY_CLIFFORD_2_OPS = false /\ is_tick i = false.
Lemma calm_tick m : Forall calm m -> no_tick m.
Proof. intros H. unfold no_tick. apply forallb_forall. intros i Hi. apply (proj1 (Forall_forall _ _) H) in Hi. now rewrite (proj2 (proj2 Hi)). Qed.
Lemma calm_flat {A} (f : A -> list instr) l : (forall x, Forall calm (f x)) -> Forall calm (flat_map f l).
Proof. intros H. induction l as [|x l IH]; [constructor|]. cbn [flat_map]. apply Forall_app. auto. Qed.
Lemma calm_g name l : name <> "MPP"%string -> in_names name ANY_CLIFFORD_2_OPS = false -> (canon name =? "TICK")%string = false -> calm (Gen.g name l).
Proof. intros H1 H2 H3. repeat split; auto. Qed.
Lemma calm_det t v co : Forall calm (det t v co).
Proof. destruct v; repeat constructor. discriminate. Qed.
Lemma calm_annk lay k : Forall calm (annk lay (tr0 lay) k).
Proof.
  unfold annk, ann. repeat (apply Forall_app; split).
  - unfold obsinc. destruct (pc3 lay); [constructor|]. destruct (comb _); repeat constructor. discriminate.
  - unfold dets0. destruct (_ && _); [|constructor]. apply calm_flat. intros x. apply calm_det.
  - unfold hexdets. apply calm_flat. intros x. apply calm_det.
  - repeat constructor. discriminate.
Qed.
Lemma calm_mop lay s : Forall calm (mop lay s).
Proof. unfold mop. destruct (is_em3 _); repeat constructor. discriminate. Qed.
Lemma calm_pc3_obs lay tr : Forall calm (pc3_obs_i lay tr).
Proof. apply calm_flat. intros k. destruct (comb _); repeat constructor. discriminate. Qed.
Lemma calm_coords lay : Forall calm (coords_i lay).
Proof. unfold coords_i. apply Forall_forall. intros i Hi. apply in_map_iff in Hi. destruct Hi as (q & <- & _). repeat split; discriminate. Qed.

Section Ch.
  Variable lay : layout.
  Hypothesis Hv : valid lay.
  Hypothesis Hobs : obs lay = "V"%string \/ obs lay = "H"%string.
  Hypothesis Hs : supported lay.
  Variable gs : nat -> bool.
  Variable nm : noise_model.
  Variable An : nat -> Prop.
  Notation E := (round_edges lay).
  Notation zk := Z.of_nat.
  Notation ne := (length (E 0)).
  Notation D := (data_qubit_coords lay).
  Notation trk := (trk lay (tr0 lay)).
  Notation annk := (annk lay (tr0 lay)).
  Notation ix := (ix lay).
  Notation run := (run gs).
  Notation runs := (runs gs).
  Notation n := (sub_rounds lay).
  Notation N := (Z.to_nat n).
  Local Opaque data_qubit_coords measure_qubit_coords q2i_dict hex_entries hexes round_edges all_edges isort.

  Definition expl : Type := (nat -> cpx -> bits) * (nat -> edge -> bool).
  Definition okx (f : fault) (t : expl) : Prop := core lay (fst t) (snd t) (is_em3 (style lay) = false \/ one_data lay f) (data_only lay f).
  Definition tx0 : expl := (noX, noY).
  Definition Sx (L R M kL kR : nat) (hm : bool) (pa : list (nat * phase)) : fam expl :=
    fun t st => exists A0, start_ok lay A0 /\ St lay A0 (fst t) (snd t) L R M kL kR hm pa st.
  Notation rel := (noise_rel nm An).
  Notation step := (step expl okx tx0 gs rel).
  Notation seg := (seg expl okx tx0 gs rel).
  Notation path := (path expl okx tx0 gs rel).
  Notation elem := (elem expl okx tx0 gs).
  Notation robust := (robust expl okx tx0).
  Notation pairwise := (pairwise expl okx tx0).

  Lemma ok0 f : okx f tx0.
  Proof. unfold okx, tx0. cbn [fst snd]. exact (core_none lay Hv _ _ Hs). Qed.
  Lemma robust_Sx L R M kL kR hm pa : boundary lay L R M pa -> robust (Sx L R M kL kR hm pa).
  Proof.
    intros HB x err st Ho (A0 & H0 & H). destruct (kind_single lay Hv Hs A0 L R M kL kR hm pa HB x err st Ho H) as (X & Y & Hc & H'). exists (X, Y). split; [exact Hc|]. exists A0. auto.
  Qed.
  Lemma pairs_left L R M kL kR hm pa s : boundary lay L R M pa -> In (s, LeftD) pa -> pairwise (Sx L R M kL kR hm pa) (qs (lpairs lay (zk s))).
  Proof.
    intros HB Hin a x y b err st Et Ha Ho (A0 & H0 & H). unfold lpairs in Et. rewrite qs_flat in Et. destruct (even_pairs _ _ _ _ _ _ _ Et Ha) as (e & He & Ex & Ey). injection Ex as ->. injection Ey as ->.
    destruct (kind_left lay Hv A0 L R M kL kR hm pa HB s e err st Hin He Ho H) as (X & Y & Hc & H'). exists (X, Y). split; [exact Hc|]. exists A0. auto.
  Qed.
  Lemma pairs_right L R M kL kR hm pa s : boundary lay L R M pa -> In (s, BothD) pa -> R = S s -> pairwise (Sx L R M kL kR hm pa) (qs (rpairs lay (zk s))).
  Proof.
    intros HB Hin HR a x y b err st Et Ha Ho (A0 & H0 & H). unfold rpairs in Et. rewrite qs_flat in Et. destruct (even_pairs _ _ _ _ _ _ _ Et Ha) as (e & He & Ex & Ey). injection Ex as ->. injection Ey as ->.
    destruct (kind_right lay Hv A0 L R M kL kR hm pa HB s e err st Hin He Ho (or_intror HR) H) as (X & Y & Hc & H'). exists (X, Y). split; [exact Hc|]. exists A0. auto.
  Qed.
  Lemma runs_Sx l L R M kL kR hm pa L' R' M' kL' kR' hm' pa' :
    (forall A0 X Y st, St lay A0 X Y L R M kL kR hm pa st -> runs l (St lay A0 X Y L' R' M' kL' kR' hm' pa') st) ->
    forall t st, Sx L R M kL kR hm pa t st -> runs l (Sx L' R' M' kL' kR' hm' pa' t) st.
  Proof. intros H t st (A0 & H0 & K). eapply runs_weaken; [|apply (H A0 (fst t) (snd t) st K)]. intros s Hs'. exists A0. auto. Qed.

  (** a moment whose operations act on single qubits, or on the pairs of a half-round *)
  Definition half (L R : nat) (pa : list (nat * phase)) (op : instr) : Prop :=
    (exists s, In (s, LeftD) pa /\ itargets op = qs (lpairs lay (zk s))) \/ (exists s, In (s, BothD) pa /\ R = S s /\ itargets op = qs (rpairs lay (zk s))).
  Lemma step_Sx m L R M kL kR hm pa L' R' M' kL' kR' hm' pa' :
    boundary lay L R M pa -> boundary lay L' R' M' pa' ->
    (forall op, In op m -> calm op \/ iname op <> "MPP"%string /\ half L' R' pa' op) ->
    (forall A0 X Y st, St lay A0 X Y L R M kL kR hm pa st -> runs m (St lay A0 X Y L' R' M' kL' kR' hm' pa') st) ->
    step (Sx L R M kL kR hm pa) m (Sx L' R' M' kL' kR' hm' pa').
  Proof.
    intros B1 B2 Ho Hr. assert (Nm : forall op, In op m -> iname op <> "MPP"%string) by (intros op Hin; destruct (Ho op Hin) as [(K & _)|(K & _)]; exact K).
    apply step_elem; [now right|]. apply elem_simple; [exact Nm | now apply runs_Sx | now apply robust_Sx | now apply robust_Sx|].
    intros op Hin E2. destruct (Ho op Hin) as [(_ & K & _)|(_ & [(s & K & ->)|(s & K & KR & ->)])]; [congruence | now apply pairs_left | now apply pairs_right].
  Qed.
  Lemma seg_Sx m L R M kL kR hm pa L' R' M' kL' kR' hm' pa' : no_tick m ->
    boundary lay L R M pa -> boundary lay L' R' M' pa' ->
    (forall op, In op m -> calm op \/ iname op <> "MPP"%string /\ half L' R' pa' op) ->
    (forall A0 X Y st, St lay A0 X Y L R M kL kR hm pa st -> runs m (St lay A0 X Y L' R' M' kL' kR' hm' pa') st) ->
    seg (Sx L R M kL kR hm pa) (m ++ [tick_i]) (Sx L' R' M' kL' kR' hm' pa').
  Proof. intros Ht B1 B2 Ho Hr. apply seg_tick; [exact Ht|]. now apply step_Sx. Qed.
  Lemma within_Sx L R M kL kR hm pa L' R' M' kL' kR' hm' pa' :
    (forall A0 X Y st, St lay A0 X Y L R M kL kR hm pa st -> St lay A0 X Y L' R' M' kL' kR' hm' pa' st) -> within expl (Sx L R M kL kR hm pa) (Sx L' R' M' kL' kR' hm' pa').
  Proof. intros H t st (A0 & H0 & K). exists A0. auto. Qed.

  (** ** The first moments *)
  Lemma St_ext A0 X Y L R M kL kR hm pa st st' : frec st' = frec st -> (forall q, isdata lay q -> fr st' (ix q) = fr st (ix q)) ->
    (forall s e, In e (E (zk s)) -> fr st' (ix (e_center e)) = fr st (ix (e_center e))) -> St lay A0 X Y L R M kL kR hm pa st -> St lay A0 X Y L R M kL kR hm pa st'.
  Proof.
    intros Er Ed Ec (z & HI & HP). exists z. destruct HI as [IL IR IM SL SR IC IO]. split; [split; auto|].
    - intros q Hq Pq. rewrite Ed by exact Hq. auto.
    - intros q Hq Pq. rewrite Ed by exact Hq. auto.
    - congruence.
    - intros [s p] Hin. destruct (HP _ Hin) as [Hb HA]. split; [exact Hb|]. eapply Anc_fr; [|exact HA]. apply Ec.
  Qed.
  (** the state before a change of basis, seen after it *)
  Definition hmap (p : pauli) (st : fstate) : fstate := with_fr st (fun x => if memb x (Ends.data_ix lay) then hb p (fr st x) else fr st x).
  Lemma hb_bxor p a b : hb p (bxor a b) = bxor (hb p a) (hb p b).
  Proof. destruct p, a as [[] []], b as [[] []]; reflexivity. Qed.
  Lemma hb_hb p a : hb p (hb p a) = a.
  Proof. destruct p, a as [[] []]; reflexivity. Qed.
  Lemma hb_zero p : hb p bzero = bzero.
  Proof. destruct p; reflexivity. Qed.
  Definition Sh (p : pauli) (S : fam expl) : fam expl := fun t st => S t (hmap p st).
  Definition pointwise (S : fam expl) : Prop := forall t st st', (forall x, fr st' x = fr st x) -> frec st' = frec st -> S t st -> S t st'.
  Lemma pointwise_Sx L R M kL kR hm pa : pointwise (Sx L R M kL kR hm pa).
  Proof. intros t st st' H1 H2 (A0 & H0 & K). exists A0. split; [exact H0|]. eapply St_ext; [exact H2 | | |exact K]; intros; apply H1. Qed.
  Lemma okx_same err' err t : (forall x, err x = bzero -> err' x = bzero) -> okx (Kick err') t -> okx (Kick err) t.
  Proof.
    intros Hz (k & e0 & P & f & H1 & H2 & H3 & H4 & H5 & H6 & H7 & H8). exists k, e0, P, f. refine (conj H1 (conj H2 (conj H3 (conj H4 (conj H5 (conj H6 (conj _ _))))))).
    - intros [Q|(q0 & Q)]; apply H7; [now left | right; exists q0; auto].
    - intros Q. apply H8. intros x Hx. auto.
  Qed.
  Lemma robust_Sh p S : pointwise S -> robust S -> robust (Sh p S).
  Proof.
    intros HP HR x err st Ho H. unfold Sh in *. set (err' := fun y => if memb y (Ends.data_ix lay) then hb p (err y) else err y).
    assert (Ho' : only [x] err') by (intros y Hy; unfold err'; rewrite (Ho y Hy), hb_zero; now destruct (memb _ _)).
    destruct (HR x err' (hmap p st) Ho' H) as (t & Ht & K). exists t. split; [apply (okx_same err'); [|exact Ht]; unfold err'; intros y ->; rewrite hb_zero; now destruct (memb _ _)|]. eapply HP; [| |exact K]; [|reflexivity].
    intros y. unfold strike, hmap, err'. cbn [fr with_fr]. destruct (memb y _); [apply hb_bxor | reflexivity].
  Qed.
  Lemma memb_data q : isdata lay q -> memb (ix q) (Ends.data_ix lay) = true.
  Proof. intros H. apply memb_In. exact (in_data_ix lay Hv q H). Qed.
  Lemma memb_center s e : In e (E (zk s)) -> memb (ix (e_center e)) (Ends.data_ix lay) = false.
  Proof.
    intros He. apply not_true_is_false. intros K. apply memb_In in K. unfold Ends.data_ix in K. apply in_map_iff in K. destruct K as (q & Eq & Hq). apply (proj1 (in_data lay Hv q)) in Hq.
    revert Eq. eapply ix_data_center; eauto.
  Qed.
  Lemma run_h p st : pauli_eqb p PZ = false -> exists st', run [mkI (canon (basis_h p)) (qs (Ends.data_ix lay)) []] st = Ok st' /\ frec st' = frec st /\
    (forall q, isdata lay q -> fr st' (ix q) = hb p (fr st (ix q))) /\ (forall s e, In e (E (zk s)) -> fr st' (ix (e_center e)) = fr st (ix (e_center e))).
  Proof.
    intros Hp. destruct (hdata_ok lay Hv gs p st) as (st' & R & H1 & _ & _ & H2 & H3). exists st'. unfold hdata in R. rewrite Hp in R.
    split; [|split; [exact H1|]; split; [exact H2|]; intros s e He; apply H3; intros K; change (In (ix (e_center e)) (Ends.data_ix lay)) in K; apply memb_In in K; rewrite (memb_center s e He) in K; discriminate].
    change (run ([mkI (canon (basis_h p)) (qs (Ends.data_ix lay)) []] ++ [tick_i]) st = Ok st') in R. rewrite run_app in R. destruct (run [mkI (canon (basis_h p)) (qs (Ends.data_ix lay)) []] st) as [s|]; [|discriminate].
    cbn [bind Frame.run] in R. rewrite (run_annotation gs tick_i) in R by reflexivity. exact R.
  Qed.
  Lemma calm_h p : calm (mkI (canon (basis_h p)) (qs (Ends.data_ix lay)) []).
  Proof. destruct p; repeat split; discriminate. Qed.
  Lemma runs_ann l (S : fam expl) : Forall (fun i => In (canon (iname i)) ["QUBIT_COORDS"; "TICK"; "SHIFT_COORDS"]%string) l -> forall t st, S t st -> runs l (S t) st.
  Proof.
    intros H t. induction H as [|i l Hi Hl IH]; intros st K; [now apply runs_nil|]. eapply runs_cons with (Mid := S t); [|exact IH].
    exists st. split; [|exact K]. apply run_annotation. cbn [In] in Hi. destruct Hi as [<-|[<-|[<-|[]]]]; reflexivity.
  Qed.

  Definition begin_at : fam expl := fun t st => t = tx0 /\ frec st = [].
  Lemma robust_begin : robust begin_at.
  Proof. intros x err st _ (_ & H). exists tx0. split; [apply ok0|]. split; [reflexivity | exact H]. Qed.
  Lemma elem_calm (S : fam expl) m S' : Forall calm m -> (forall t st, S t st -> runs m (S' t) st) -> robust S -> robust S' -> elem S m S'.
  Proof.
    intros Hc Hr H1 H2. apply elem_simple; auto; intros op Ho; apply (proj1 (Forall_forall _ _) Hc) in Ho; destruct Ho as (K1 & K2 & _); [exact K1 | congruence].
  Qed.
  Lemma step_calm (S : fam expl) m S' : Forall calm m -> (forall t st, S t st -> runs m (S' t) st) -> robust S -> robust S' -> step S m S'.
  Proof.
    intros Hc Hr H1 H2. apply step_elem; [right; intros op Ho; apply (proj1 (Forall_forall _ _) Hc) in Ho; apply Ho|]. now apply elem_calm.
  Qed.
  (** ancillas ready for their first check *)
  Definition starts (pa : list (nat * phase)) : Prop := forall sp, In sp pa -> exists s, sp = (s, Idle) /\ (s < 3)%nat /\ is_em3 (style lay) = false.
  Lemma begin_ok pa t st : starts pa -> begin_at t st -> runs (coords_i lay ++ [mkI "R" (qs (used_ix lay)) []]) (Sh (init_basis lay) (Sx 0 0 0 0 0 false pa) t) st.
  Proof.
    intros Hpa (-> & Hr). eapply runs_app with (Mid := eq st).
    { refine (runs_ann (coords_i lay) (fun _ s => st = s) _ tx0 st eq_refl). unfold coords_i. apply Forall_forall. intros i Hi. apply in_map_iff in Hi. destruct Hi as (q & <- & _). now left. }
    intros s <-.
    assert (HN : NoDup (used_ix lay)).
    { unfold used_ix. apply NoDup_ix; auto; [intros q Hq; now apply (Gen3.used_in lay Hv) | now apply NoDup_used]. }
    destruct (fold_reset gs PZ (used_ix lay) st HN) as (F1 & F2 & F3 & F4 & F5). cbn zeta in *. set (st1 := fold_left _ _ st) in *.
    eapply runs_cons with (Mid := eq st1); [exists st1; split; [apply (run_R gs) | reflexivity]|]. intros s <-. apply runs_nil.
    exists (fun q => hb (init_basis lay) (fr st1 (ix q))). split.
    - intros q Hq. destruct (F4 (ix q)) as [b ->].
      { unfold used_ix. apply in_map. unfold used_qubit_coords. destruct (is_em3 (style lay)); [now apply in_data|]. rewrite q2i_dict_keys by exact Hv. now apply data_in_qubits. }
      rewrite hb_sel. destruct b, (init_basis lay); reflexivity.
    - exists (fun _ _ => false). split; [split|].
      + intros q Hq Pq. cbn [rotn]. unfold C, hmap. cbn [fst tx0 fr with_fr A]. rewrite memb_data by exact Hq. unfold noX. now rewrite bxor_zero_r.
      + intros q Hq Pq. cbn [rotn]. unfold C, hmap. cbn [fst tx0 fr with_fr A]. rewrite memb_data by exact Hq. unfold noX. now rewrite bxor_zero_r.
      + unfold hmap. cbn [frec with_fr]. rewrite F1, Hr. reflexivity.
      + reflexivity.
      + reflexivity.
      + discriminate.
      + lia.
      + intros sp Hin. destruct (Hpa sp Hin) as (s & -> & Hs3 & Hem). split; [unfold bd; cbn; lia|]. intros e He. cbn zeta. cbn [sw].
        unfold hmap. cbn [fr with_fr]. rewrite (memb_center s e He).
        destruct (F4 (ix (e_center e))) as [b ->].
        { unfold used_ix. apply in_map. unfold used_qubit_coords. rewrite Hem, q2i_dict_keys by exact Hv. apply (center_in_qubits lay Hv). exact (proj1 (center_of lay Hv _ e He)). }
        rewrite (fresh_pb lay Hv) by (auto; right; exact Hs3). now destruct b.
  Qed.
  Lemma boundary_start pa : starts pa -> NoDup (map fst pa) -> boundary lay 0 0 0 pa.
  Proof.
    intros Hpa Hnd. refine (conj _ (conj _ (conj _ _))); [lia | lia | | ].
    - intros sp sp' H1 H2 Em. destruct (Hpa sp H1) as (s & -> & Hs3 & _), (Hpa sp' H2) as (s' & -> & Hs3' & _). cbn [fst] in Em. f_equal. revert Em. clear -Hs3 Hs3'. dlia.
    - intros s Hin. destruct (Hpa _ Hin) as (s' & K & _). discriminate.
  Qed.
  Lemma seg_begin pa : starts pa -> NoDup (map fst pa) -> seg begin_at (coords_i lay ++ init_i lay) (Sx 0 0 0 0 0 false pa).
  Proof.
    intros Hpa Hnd. pose proof (boundary_start pa Hpa Hnd) as HB. unfold init_i.
    replace (coords_i lay ++ [mkI "R" (qs (used_ix lay)) []; tick_i] ++ hdata lay (init_basis lay)) with (((coords_i lay ++ [mkI "R" (qs (used_ix lay)) []]) ++ [tick_i]) ++ hdata lay (init_basis lay)) by (rewrite <- !app_assoc; reflexivity).
    eapply seg_app.
    - apply seg_tick with (S1 := Sh (init_basis lay) (Sx 0 0 0 0 0 false pa)).
      + apply calm_tick, Forall_app. split; [apply calm_coords | repeat constructor; discriminate].
      + apply step_calm; [apply Forall_app; split; [apply calm_coords | repeat constructor; discriminate] | intros t st; now apply begin_ok | exact robust_begin |].
        apply robust_Sh; [apply pointwise_Sx | now apply robust_Sx].
    - unfold hdata. destruct (pauli_eqb (init_basis lay) PZ) eqn:Ep.
      + apply seg_nil. intros t st (A0 & H0 & K). exists A0. split; [exact H0|]. eapply St_ext; [| | |exact K]; [reflexivity| |].
        * intros q Hq. unfold hmap. cbn [fr with_fr]. rewrite memb_data by exact Hq. destruct (init_basis lay); try discriminate. reflexivity.
        * intros s e He. unfold hmap. cbn [fr with_fr]. now rewrite (memb_center s e He).
      + change [mkI (canon (basis_h (init_basis lay))) (qs (Ends.data_ix lay)) []; tick_i] with ([mkI (canon (basis_h (init_basis lay))) (qs (Ends.data_ix lay)) []] ++ [tick_i]).
        apply seg_tick; [apply calm_tick; repeat constructor; apply calm_h|]. apply step_calm; [repeat constructor; apply calm_h | | apply robust_Sh; [apply pointwise_Sx | now apply robust_Sx] | now apply robust_Sx].
        intros t st (A0 & H0 & K). destruct (run_h (init_basis lay) st Ep) as (st' & R & H1 & H2 & H3). exists st'. split; [exact R|]. exists A0. split; [exact H0|].
        eapply St_ext; [| | |exact K].
        * exact H1.
        * intros q Hq. rewrite H2 by exact Hq. unfold hmap. cbn [fr with_fr]. now rewrite memb_data.
        * intros s e He. rewrite (H3 s e He). unfold hmap. cbn [fr with_fr]. now rewrite (memb_center s e He).
  Qed.
End Ch.
