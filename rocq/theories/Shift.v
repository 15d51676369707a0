(** Shifting all measurement times: why the tracker repeats every three sub-rounds. *)
From Coq Require Import QArith.
From Verif Require Import Prelude Layout LayoutFacts LayoutEdges LayoutLists LayoutHex LayoutHex2 Pauli LayoutLogic LayoutIndex
  Tracker TrackerFacts Stim Circuit Annot.
Open Scope Z_scope.

Definition shiftv (d : nat) (v : entry) : entry := option_map (map (fun x => (x + d)%nat)) v.

Lemma memb_shift d x l : memb (x + d)%nat (map (fun x => (x + d)%nat) l) = memb x l.
Proof.
  induction l as [|y l IH]; [reflexivity|]. unfold memb in *. cbn [map existsb]. rewrite IH. f_equal. destruct (Nat.eqb_spec x y), (Nat.eqb_spec (x + d) (y + d)); lia || reflexivity.
Qed.
Lemma filter_map_comm {A B} (f : A -> B) p l : filter p (map f l) = map f (filter (fun x => p (f x)) l).
Proof. induction l as [|x l IH]; [reflexivity|]. cbn. rewrite IH. now destruct (p (f x)). Qed.
Lemma symdiff_shift d a b : symdiff (map (fun x => (x + d)%nat) a) (map (fun x => (x + d)%nat) b) = map (fun x => (x + d)%nat) (symdiff a b).
Proof.
  unfold symdiff. rewrite map_app, !filter_map_comm. f_equal; f_equal; apply filter_ext; intros x; now rewrite memb_shift.
Qed.
Lemma combine_shift d a v : combine_entry (shiftv d a) (shiftv d v) = shiftv d (combine_entry a v).
Proof. destruct a as [a|], v as [v|]; cbn; try reflexivity. now rewrite symdiff_shift. Qed.
Lemma comb_shift d vs : comb (map (shiftv d) vs) = shiftv d (comb vs).
Proof.
  unfold comb. change (Some []) with (shiftv d (Some [])) at 1. generalize (Some [] : entry) as acc.
  induction vs as [|v vs IH]; intros acc; [reflexivity|]. cbn [map fold_left]. now rewrite combine_shift, IH.
Qed.
Lemma insert_shift d x l : insert Nat.leb (x + d)%nat (map (fun x => (x + d)%nat) l) = map (fun x => (x + d)%nat) (insert Nat.leb x l).
Proof.
  induction l as [|y l IH]; [reflexivity|]. cbn [map insert].
  destruct (Nat.leb_spec x y), (Nat.leb_spec (x + d) (y + d)); try lia; [reflexivity|]. cbn [map]. now rewrite IH.
Qed.
Lemma isort_shift d l : isort Nat.leb (map (fun x => (x + d)%nat) l) = map (fun x => (x + d)%nat) (isort Nat.leb l).
Proof. induction l as [|x l IH]; [reflexivity|]. cbn [map isort fold_right]. fold (isort Nat.leb (map (fun x => (x + d)%nat) l)). rewrite IH. apply insert_shift. Qed.
Lemma tg_shift d t s : tg (t + d) (map (fun x => (x + d)%nat) s) = tg t s.
Proof. unfold tg. rewrite isort_shift, map_map. apply map_ext. intros x. f_equal. lia. Qed.
Lemma det_shift d t v co : det (t + d) (shiftv d v) co = det t v co.
Proof. destruct v as [s|]; [|reflexivity]. cbn. now rewrite tg_shift. Qed.
Lemma shiftv_0 v : shiftv 0 v = v.
Proof. destruct v as [s|]; [|reflexivity]. cbn. f_equal. rewrite <- (map_id s) at 2. apply map_ext. intros; lia. Qed.
Lemma shiftv_add a b v : shiftv b (shiftv a v) = shiftv (a + b) v.
Proof. destruct v as [s|]; [|reflexivity]. cbn. f_equal. rewrite map_map. apply map_ext. intros; lia. Qed.

(** [simP d P tr u]: u is d measurements ahead of tr, and the latest entries of
    the keys in P agree up to that shift. *)
Definition simP (d : nat) (P : key -> Prop) (tr u : mtrack) : Prop :=
  tm u = (tm tr + d)%nat /\ forall k, P k -> cur u k = shiftv d (cur tr k).

Section S.
  Variable lay : layout.
  Hypothesis Hv : valid lay.
  Notation E := (round_edges lay).
  Notation pc3 := (pc3 lay).
  Notation H1 := (H1 lay).
  Notation H2 := (H2 lay).
  Notation post := (post lay).
  Notation ann := (ann lay).
  Local Opaque data_qubit_coords measure_qubit_coords q2i_dict hex_entries hexes round_edges all_edges isort.

  Lemma E_cong s s' : s mod 3 = s' mod 3 -> E s = E s'.
  Proof. intros H. rewrite <- round_edges_mod, H. apply round_edges_mod. Qed.
  Lemma H1_cong s s' : s mod 3 = s' mod 3 -> H1 s = H1 s'.
  Proof. intros H. unfold Annot.H1. f_equal. revert H. dlia. Qed.
  Lemma H2_cong s s' : s mod 3 = s' mod 3 -> H2 s = H2 s'.
  Proof. intros H. unfold Annot.H2. f_equal. revert H. dlia. Qed.

  Lemma H1_first s h e : In h (H1 s) -> In e (first_edges_around_hex lay h) -> In e (E s).
  Proof.
    intros Hh He. apply in_hexes in Hh; [|exact Hv]. destruct Hh as [Hh Hc]. apply first_edges_round in He; auto.
    rewrite <- round_edges_mod. rewrite <- round_edges_mod in He. replace (s mod 3) with ((hexcat h + 1) mod 3); [exact He|]. rewrite Hc. dlia.
  Qed.
  Lemma H2_second s h e : In h (H2 s) -> In e (second_edges_around_hex lay h) -> In e (E s).
  Proof.
    intros Hh He. apply in_hexes in Hh; [|exact Hv]. destruct Hh as [Hh Hc]. apply second_edges_round in He; auto.
    rewrite <- round_edges_mod. rewrite <- round_edges_mod in He. replace (s mod 3) with ((hexcat h + 2) mod 3); [exact He|]. rewrite Hc. dlia.
  Qed.

  Section Step.
    Variables (d : nat) (P : key -> Prop) (tr u : mtrack) (s s' : Z).
    Hypothesis Hs : s' mod 3 = s mod 3.
    Hypothesis HP : simP d P tr u.
    Lemma raw_sim e : raw lay s' u e = shiftv d (raw lay s tr e).
    Proof. unfold raw. rewrite (E_cong s' s Hs). destruct HP as [-> _]. cbn. f_equal. f_equal. lia. Qed.
    Lemma vedge_sim e : (pc3 = true -> P (KHalf (KE e))) -> vedge lay s' u e = shiftv d (vedge lay s tr e).
    Proof.
      intros H. unfold vedge. rewrite raw_sim, <- comb_shift. cbn [map]. destruct (Annot.pc3 lay); [|reflexivity].
      cbn [map]. destruct HP as [_ ->]; [reflexivity | now apply H].
    Qed.
    Lemma vhalf_sim h : (pc3 = true -> forall e, In e (first_edges_around_hex lay h) -> P (KHalf (KE e))) ->
      vhalf lay s' u h = shiftv d (vhalf lay s tr h).
    Proof.
      intros H. unfold vhalf. rewrite <- comb_shift, map_map. f_equal. apply map_ext_in. intros e He. apply vedge_sim. auto.
    Qed.
    Lemma vhex_sim h : P (KHalf (KC h)) -> (pc3 = true -> forall e, In e (second_edges_around_hex lay h) -> P (KHalf (KE e))) ->
      vhex lay s' u h = shiftv d (vhex lay s tr h).
    Proof.
      intros H0 H. unfold vhex. rewrite <- comb_shift, map_app, map_map. cbn [map]. f_equal. f_equal.
      - apply map_ext_in. intros e He. apply vedge_sim. auto.
      - f_equal. destruct HP as [_ ->]; [reflexivity | exact H0].
    Qed.

    Lemma post_sim (P' : key -> Prop) :
      (forall e, P' (KHalf (KE e)) -> emem e (E s) = false -> P (KHalf (KE e))) ->
      (forall e, P' (KE e) -> if emem e (E s) then pc3 = true -> P (KHalf (KE e)) else P (KE e)) ->
      (forall h, P' (KHalf (KC h)) -> if cmem h (H1 s) then pc3 = true -> forall e, In e (E s) -> P (KHalf (KE e)) else P (KHalf (KC h))) ->
      (forall h, P' (KC h) -> if cmem h (H2 s) then P (KHalf (KC h)) /\ (pc3 = true -> forall e, In e (E s) -> P (KHalf (KE e))) else P (KC h)) ->
      (forall k, P' (KHalf (KHalf k)) -> P (KHalf (KHalf k))) ->
      simP d P' (post s tr) (post s' u).
    Proof.
      intros Q1 Q2 Q3 Q4 Q5. destruct HP as [T C]. split.
      - cbn [Annot.post tm]. rewrite T, (E_cong s' s Hs). lia.
      - intros k Hk. unfold cur. destruct k as [h|e|[h|e|k]]; cbn [Annot.post hist]; rewrite ?(E_cong s' s Hs), ?(H1_cong s' s Hs), ?(H2_cong s' s Hs).
        + specialize (Q4 h Hk). destruct (cmem h (H2 s)) eqn:F; cbn [hd]; [|apply C, Q4]. destruct Q4 as [Q4 Q4'].
          apply vhex_sim; [exact Q4|]. intros Ep e He. apply Q4'; [exact Ep|]. apply cmem_In in F. eapply H2_second; eauto.
        + specialize (Q2 e Hk). destruct (emem e (E s)); cbn [hd]; [now apply vedge_sim | apply C, Q2].
        + specialize (Q3 h Hk). destruct (cmem h (H1 s)) eqn:F; cbn [hd]; [|apply C, Q3].
          apply vhalf_sim. intros Ep e He. apply Q3; [exact Ep|]. apply cmem_In in F. eapply H1_first; eauto.
        + specialize (Q1 e Hk). destruct (emem e (E s)); cbn [hd]; [apply raw_sim | apply C, Q1; reflexivity].
        + apply C, Q5, Hk.
    Qed.

    Lemma ann_sim : (s' =? 0) = (s =? 0) ->
      (pc3 = true -> forall e, In e (E s) -> P (KHalf (KE e))) ->
      (forall h, In h (H2 s) -> P (KC h) /\ P (KHalf (KC h))) ->
      ann s' u = ann s tr.
    Proof.
      intros H0 Q1 Q2. pose proof HP as [T C]. assert (TT : (tm u + length (E s') = tm tr + length (E s) + d)%nat) by (rewrite T, (E_cong s' s Hs); lia).
      assert (VE : forall e, In e (E s) -> vedge lay s' u e = shiftv d (vedge lay s tr e)) by (intros e He; apply vedge_sim; auto).
      unfold Annot.ann. f_equal; [|f_equal; [|f_equal]].
      - unfold obsinc. destruct (Annot.pc3 lay); [reflexivity|].
        assert (EQ : comb (map (vedge lay s' u) (oat lay s')) = shiftv d (comb (map (vedge lay s tr) (oat lay s)))).
        { rewrite <- comb_shift, map_map. f_equal. unfold oat. rewrite (E_cong s' s Hs). apply map_ext_in. intros e He. apply VE.
          unfold obs_edges_in in He. apply filter_In in He. tauto. }
        rewrite EQ, TT. clear EQ. destruct (comb _) as [x|]; [|reflexivity]. cbn [shiftv option_map]. now rewrite tg_shift.
      - unfold dets0. rewrite H0, TT. destruct ((s =? 0) && _); [|reflexivity]. rewrite (E_cong s' s Hs). apply flat_map_ext_in.
        intros e He. rewrite VE by exact He. apply det_shift.
      - unfold hexdets. rewrite TT, (H2_cong s' s Hs). apply flat_map_ext_in. intros h Hh. destruct (Q2 h Hh) as [K1 K2].
        rewrite (C _ K1), vhex_sim; [|exact K2|].
        + change [shiftv d (vhex lay s tr h); shiftv d (cur tr (KC h))] with (map (shiftv d) [vhex lay s tr h; cur tr (KC h)]).
          rewrite comb_shift. apply det_shift.
        + intros Ep e He. apply Q1; [exact Ep|]. eapply H2_second; eauto.
    Qed.
  End Step.

  (** The keys that matter. *)
  Definition univ (k : key) : Prop :=
    match k with
    | KE e | KHalf (KE e) => In e (all_edges lay)
    | KC h | KHalf (KC h) => ishex lay h
    | _ => False
    end.
  Lemma univ_post d tr u s s' : s' mod 3 = s mod 3 -> simP d univ tr u -> simP d univ (post s tr) (post s' u).
  Proof.
    intros Hs HP. apply (post_sim d univ tr u s s' Hs HP); cbn [univ].
    - auto.
    - intros e He. destruct (emem e (E s)); auto.
    - intros h Hh. destruct (cmem h (H1 s)); [|exact Hh]. intros _ e. apply in_all_of_round.
    - intros h Hh. destruct (cmem h (H2 s)); [|exact Hh]. split; [exact Hh|]. intros _ e. apply in_all_of_round.
    - intros k [].
  Qed.
  Lemma univ_ann d tr u s s' : s' mod 3 = s mod 3 -> (s' =? 0) = (s =? 0) -> simP d univ tr u -> ann s' u = ann s tr.
  Proof.
    intros Hs H0 HP. apply (ann_sim d univ tr u s s' Hs HP H0); cbn [univ].
    - intros _ e. apply in_all_of_round.
    - intros h Hh. apply in_hexes in Hh; tauto.
  Qed.
  Lemma sim_trans d1 d2 P a b c : simP d1 P a b -> simP d2 P b c -> simP (d1 + d2) P a c.
  Proof.
    intros [T1 C1] [T2 C2]. split; [lia|]. intros k Hk. rewrite C2, C1 by exact Hk. apply shiftv_add.
  Qed.
  Lemma treq_sim P a b : treq a b -> simP 0 P a b.
  Proof. intros [T H]. split; [lia|]. intros k _. rewrite shiftv_0. unfold cur. now rewrite H. Qed.

  (** ** Known keys after some rounds *)
  Definition upd (f : Z -> bool) (c : Z) (b : bool) : Z -> bool := fun r => if r =? c then b else f r.
  Definition known (A B C F : Z -> bool) (k : key) : Prop :=
    match k with
    | KHalf (KE e) => exists r, 0 <= r < 3 /\ A r = true /\ In e (E r)
    | KE e => exists r, 0 <= r < 3 /\ B r = true /\ In e (E r)
    | KHalf (KC h) => ishex lay h /\ C (hexcat h) = true
    | KC h => ishex lay h /\ F (hexcat h) = true
    | _ => False
    end.
  Definition kstep (s : Z) (st : (Z -> bool) * (Z -> bool) * (Z -> bool) * (Z -> bool)) :=
    let '(A, B, C, F) := st in
    let b := negb pc3 || A (s mod 3) in
    (upd A (s mod 3) true, upd B (s mod 3) b, upd C ((s - 1) mod 3) b, upd F ((s - 2) mod 3) (b && C ((s - 2) mod 3))).
  Definition knownT st := let '(A, B, C, F) := st in known A B C F.

  Lemma edge_round_eq r s e : 0 <= r < 3 -> In e (E r) -> emem e (E s) = (r =? s mod 3).
  Proof.
    intros Hr He. destruct (Z.eqb_spec r (s mod 3)) as [->|N].
    - apply emem_In. now rewrite <- round_edges_mod.
    - destruct (emem e (E s)) eqn:F; [|reflexivity]. apply emem_In in F. exfalso. apply N.
      pose proof (round_edges_disjoint lay Hv r s e He F). rewrite <- H. symmetry. now apply Z.mod_small.
  Qed.
  Lemma hex_cat_eq (c : Z) h : ishex lay h -> cmem h (hexes lay c) = (hexcat h =? c).
  Proof.
    intros Hh. destruct (Z.eqb_spec (hexcat h) c) as [<-|N].
    - apply cmem_In, in_hexes; auto.
    - destruct (cmem h (hexes lay c)) eqn:F; [|reflexivity]. apply cmem_In, in_hexes in F; [|exact Hv]. tauto.
  Qed.
  Lemma kstep_sim d tr u st s s' : s' mod 3 = s mod 3 -> simP d (knownT st) tr u -> simP d (knownT (kstep s st)) (post s tr) (post s' u).
  Proof.
    intros Hs HP. destruct st as [[[A B] C] F]. cbn [kstep knownT] in *.
    assert (PE : negb pc3 || A (s mod 3) = true -> pc3 = true -> forall e, In e (E s) -> known A B C F (KHalf (KE e))).
    { intros Hb Ep e He. rewrite Ep in Hb. cbn in Hb. exists (s mod 3). split; [dlia|]. split; [exact Hb|]. now rewrite round_edges_mod. }
    apply (post_sim d _ tr u s s' Hs HP); cbn [known].
    - intros e (r & Hr & HA & He) Hm. exists r. split; [exact Hr|]. split; [|exact He].
      rewrite (edge_round_eq r s e Hr He) in Hm. unfold upd in HA. now rewrite Hm in HA.
    - intros e (r & Hr & HB & He). rewrite (edge_round_eq r s e Hr He). unfold upd in HB. destruct (Z.eqb_spec r (s mod 3)) as [->|N].
      + intros Ep. apply PE; auto. now rewrite <- round_edges_mod.
      + exists r. auto.
    - intros h [Hh HC]. unfold Annot.H1. rewrite hex_cat_eq by exact Hh. unfold upd in HC.
      destruct (hexcat h =? (s - 1) mod 3); [|auto]. intros Ep. now apply PE.
    - intros h [Hh HF]. unfold Annot.H2. rewrite hex_cat_eq by exact Hh. unfold upd in HF.
      destruct (Z.eqb_spec (hexcat h) ((s - 2) mod 3)) as [Eh|]; [|auto]. apply andb_prop in HF. destruct HF as [Hb HC].
      split; [rewrite Eh; auto|]. intros Ep. now apply PE.
    - auto.
  Qed.

  (** ** The unrolled run *)
  Variable tr0 : mtrack.
  Fixpoint trk (k : nat) : mtrack := match k with O => tr0 | S k => post (Z.of_nat k) (trk k) end.
  Definition period : nat := (3 * length (E 0))%nat.
  Lemma length_E s : length (E s) = length (E 0).
  Proof. now rewrite (count_round_edges lay Hv s), (count_round_edges lay Hv 0). Qed.
  Lemma tm_trk k : tm (trk k) = (tm tr0 + k * length (E 0))%nat.
  Proof. induction k as [|k IH]; [cbn; lia|]. cbn [trk Annot.post tm]. rewrite IH, (length_E (Z.of_nat k)). lia. Qed.

  Fixpoint kst (k : nat) := match k with
    | O => (fun _ : Z => false, fun _ : Z => false, fun _ : Z => false, fun _ : Z => false)
    | S k => kstep (Z.of_nat k) (kst k) end.
  Lemma trk_known k : simP period (knownT (kst k)) (trk k) (trk (k + 3)).
  Proof.
    induction k as [|k IH].
    - split; [rewrite !tm_trk; unfold period; lia|]. intros key Hk. exfalso. cbn in Hk. destruct key as [h|e|[h|e|k]]; cbn in Hk.
      + destruct Hk; discriminate. + destruct Hk as (r & _ & K & _); discriminate. + destruct Hk; discriminate.
      + destruct Hk as (r & _ & K & _); discriminate. + exact Hk.
    - cbn [Nat.add trk kst]. apply kstep_sim; [|exact IH]. rewrite Nat2Z.inj_add. change (Z.of_nat 3) with 3. dlia.
  Qed.
  (** From this sub-round on the run repeats. *)
  Definition settle : nat := if pc3 then 7%nat else 4%nat.
  Lemma settled : forall k, univ k -> knownT (kst settle) k.
  Proof.
    assert (G : forall b, Annot.pc3 lay = b -> forall r, 0 <= r < 3 ->
      let '(A, B, C, F) := kst (if b then 7 else 4)%nat in A r = true /\ B r = true /\ C r = true /\ F r = true).
    { intros b Eb r Hr. assert (R : r = 0 \/ r = 1 \/ r = 2) by lia. destruct b; cbn [kst kstep]; rewrite Eb; destruct R as [->|[->| ->]]; vm_compute; auto. }
    specialize (G _ eq_refl). unfold settle. destruct (kst _) as [[[A B] C] F]. cbn [knownT].
    assert (HC : forall h, 0 <= hexcat h < 3) by (intros h; unfold hexcat; dlia).
    intros [h|e|[h|e|k]]; cbn [univ known]; intros Hk.
    - split; [exact Hk|]. now apply G.
    - apply in_all_edges_round in Hk. destruct Hk as (r & Hr & He). exists r. split; [exact Hr|]. split; [now apply G | exact He].
    - split; [exact Hk|]. now apply G.
    - apply in_all_edges_round in Hk. destruct Hk as (r & Hr & He). exists r. split; [exact Hr|]. split; [now apply G | exact He].
    - destruct Hk.
  Qed.
  Lemma simP_weaken d (P Q : key -> Prop) a b : (forall k, Q k -> P k) -> simP d P a b -> simP d Q a b.
  Proof. intros H [T C]. split; [exact T|]. intros k Hk. apply C, H, Hk. Qed.
  Lemma trk_periodic k : (settle <= k)%nat -> simP period univ (trk k) (trk (k + 3)).
  Proof.
    intros Hk. replace k with (settle + (k - settle))%nat by lia. induction (k - settle)%nat as [|j IH].
    - rewrite Nat.add_0_r. eapply simP_weaken; [apply settled | apply trk_known].
    - rewrite Nat.add_succ_r. cbn [Nat.add trk]. apply univ_post; [|exact IH]. rewrite (Nat2Z.inj_add _ 3). change (Z.of_nat 3) with 3. dlia.
  Qed.
  Lemma trk_jump k j : (settle <= k)%nat -> simP (j * period) univ (trk k) (trk (k + 3 * j)).
  Proof.
    intros Hk. induction j as [|j IH].
    - replace (k + 3 * 0)%nat with k by lia. apply treq_sim, treq_refl.
    - replace (S j * period)%nat with (j * period + period)%nat by lia. replace (k + 3 * S j)%nat with (k + 3 * j + 3)%nat by lia.
      eapply sim_trans; [exact IH|]. apply trk_periodic. lia.
  Qed.
  (** The instructions of sub-round k of the unrolled run. *)
  Definition annk (k : nat) : list instr := ann (Z.of_nat k) (trk k).
  Lemma annk_periodic k j : (settle <= k)%nat -> annk (k + 3 * j) = annk k.
  Proof.
    intros Hk. unfold annk. apply (univ_ann (j * period)); [| |now apply trk_jump].
    - rewrite Nat2Z.inj_add, Nat2Z.inj_mul. change (Z.of_nat 3) with 3. dlia.
    - assert (1 <= settle)%nat by (unfold settle; destruct pc3; lia).
      destruct (Z.eqb_spec (Z.of_nat (k + 3 * j)) 0), (Z.eqb_spec (Z.of_nat k) 0); lia || reflexivity.
  Qed.
End S.
