(** The detectors of each sub-round: which are emitted, and which measurements
    they compare. *)
From Coq Require Import QArith.
From Verif Require Import Prelude Layout LayoutFacts LayoutEdges LayoutLists LayoutHex LayoutHex2 Pauli LayoutObs LayoutLogic LayoutIndex
  Tracker TrackerFacts Stim Circuit Annot Shift Ends Traj Eval Frame Exec Exec2.
Open Scope Z_scope.

(** The entry is present and its outcomes add up to x. *)
Definition sd (B : nat -> bool) (t : nat) (v : entry) (x : bool) : Prop := v <> None /\ gd B t v x.

Lemma sd_mono B t t' v x : (t <= t')%nat -> sd B t v x -> sd B t' v x.
Proof. intros L [H G]. split; [exact H | eapply gd_mono; eauto]. Qed.
Lemma sd_eq B t v x y : x = y -> sd B t v x -> sd B t v y.
Proof. now intros ->. Qed.
Lemma sd_comb_map {X} B t (v : X -> entry) (x : X -> bool) l : (forall a, In a l -> sd B t (v a) (x a)) -> sd B t (comb (map v l)) (xsum x l).
Proof.
  intros H. split.
  - apply comb_some. intros w Hw. apply in_map_iff in Hw. destruct Hw as (a & <- & Ha). now apply H.
  - apply gd_comb_map. intros a Ha. now apply H.
Qed.
Lemma sd_comb_last {X} B t (v : X -> entry) (x : X -> bool) l w y : (forall a, In a l -> sd B t (v a) (x a)) -> sd B t w y ->
  sd B t (comb (map v l ++ [w])) (xorb (xsum x l) y).
Proof.
  intros H [H1 H2]. split.
  - apply comb_some. intros u Hu. apply in_app_or in Hu. destruct Hu as [Hu|[<-|[]]]; [|exact H1]. apply in_map_iff in Hu. destruct Hu as (a & <- & Ha). now apply H.
  - apply gd_comb_last; [intros a Ha; now apply H | exact H2].
Qed.
Lemma sd_comb2 B t v w x y : sd B t v x -> sd B t w y -> sd B t (comb [v; w]) (xorb x y).
Proof.
  intros [H1 H2] [H3 H4]. split; [|now apply gd_comb2]. apply comb_some. intros u [<-|[<-|[]]]; assumption.
Qed.
Lemma sd_single B t x : (x < t)%nat -> sd B t (Some [x]) (B x).
Proof. intros H. split; [discriminate | now apply gd_single]. Qed.
Lemma sd_nil B t : sd B t (Some []) false.
Proof. split; [discriminate|]. repeat split; [constructor | intros y []]. Qed.
Lemma comb_none_r v l w : comb (l ++ [None]) = None /\ comb [v; None] = None /\ comb [None; w] = None.
Proof.
  repeat split.
  - unfold comb. rewrite fold_left_app. cbn [fold_left]. unfold combine_entry at 1. now destruct (fold_left _ _ _).
  - now destruct v.
Qed.

Section S.
  Variable lay : layout.
  Hypothesis Hv : valid lay.
  Hypothesis Hobs : obs lay = "V"%string \/ obs lay = "H"%string.
  Notation E := (round_edges lay).
  Notation zk := Z.of_nat.
  Notation ne := (length (E 0)).
  Notation D := (data_qubit_coords lay).
  Notation trk := (trk lay (tr0 lay)).
  Local Opaque data_qubit_coords measure_qubit_coords q2i_dict hex_entries hexes round_edges all_edges isort.

  Variable B : nat -> bool.
  (** the bit recorded for e in sub-round s *)
  Definition R (s : nat) (e : edge) : bool := B (s * ne + index edge_eqb e (E (zk s)))%nat.
  Fixpoint LR (k : nat) (e : edge) : bool := match k with O => false | S k => if emem e (E (zk k)) then R k e else LR k e end.
  (** the check's result *)
  Definition VE (s : nat) (e : edge) : bool := xorb (R s e) (if pc3 lay then LR s e else false).
  Definition vfirst (s : nat) (h : cpx) : bool := xsum (VE s) (first_edges_around_hex lay h).
  Definition vsecond (s : nat) (h : cpx) : bool := xsum (VE s) (second_edges_around_hex lay h).

  Record SI (k : nat) : Prop := {
    si_he : forall e, In e (all_edges lay) -> sd B (k * ne) (cur (trk k) (KHalf (KE e))) (LR k e);
    si_e : forall s e, (s < k <= s + 3)%nat -> In e (E (zk s)) -> sd B (k * ne) (cur (trk k) (KE e)) (VE s e);
    si_hh : forall s h, (s < k <= s + 3)%nat -> In h (H1 lay (zk s)) -> sd B (k * ne) (cur (trk k) (KHalf (KC h))) (vfirst s h);
    si_hh0 : forall c h, 0 <= c < 3 -> zk k <= (c + 1) mod 3 -> In h (hexes lay c) -> cur (trk k) (KHalf (KC h)) = dummy (c =? half_init lay);
    si_h : forall s h, (1 <= s < k)%nat -> (k <= s + 3)%nat -> In h (H2 lay (zk s)) ->
           sd B (k * ne) (cur (trk k) (KC h)) (xorb (vsecond s h) (vfirst (s - 1) h));
    si_h0 : forall h, (0 < k <= 3)%nat -> In h (H2 lay 0) ->
           if half_init lay =? 1 then sd B (k * ne) (cur (trk k) (KC h)) (vsecond 0 h) else cur (trk k) (KC h) = None;
    si_hi : forall c h, 0 <= c < 3 -> zk k <= (c + 2) mod 3 -> In h (hexes lay c) -> cur (trk k) (KC h) = dummy (c =? edge_init lay) }.

  Lemma cmem_cat c d h : 0 <= c < 3 -> 0 <= d < 3 -> In h (hexes lay c) -> cmem h (hexes lay d) = (c =? d).
  Proof.
    intros Hc Hd H. destruct (Z.eqb_spec c d) as [->|N]; [now apply cmem_In|]. apply (cmem_excl lay Hv c d); [exact N | now apply cmem_In].
  Qed.
  Lemma cmem_all c h : 0 <= c < 3 -> In h (hexes lay c) -> cmem h (hexes lay 0 ++ hexes lay 1 ++ hexes lay 2) = true.
  Proof.
    intros Hc H. apply cmem_In. assert (C : c = 0 \/ c = 1 \/ c = 2) by lia. destruct C as [->|[->| ->]]; rewrite !in_app_iff; auto.
  Qed.
  Lemma init_range : 0 <= edge_init lay < 3 /\ 0 <= half_init lay < 3.
  Proof. destruct (edge_init_range lay) as [->|[->| ->]], (half_init_range lay) as [->|[->| ->]]; lia. Qed.

  Lemma SI_0 : SI 0.
  Proof.
    destruct init_range as [He Hh].
    constructor; cbn [Shift.trk]; try (intros; lia).
    - intros e H. unfold cur, tr0. cbn [hist LR]. apply emem_In in H. rewrite H. apply sd_nil.
    - intros c h Hc _ H. unfold cur, tr0. cbn [hist]. rewrite (cmem_all c h Hc H), (cmem_cat c _ h Hc Hh H). reflexivity.
    - intros c h Hc _ H. unfold cur, tr0. cbn [hist]. rewrite (cmem_all c h Hc H), (cmem_cat c _ h Hc He H). reflexivity.
  Qed.

  Section Step.
    Variable k : nat.
    Hypothesis IH : SI k.
    Notation t' := (S k * ne)%nat.
    Lemma le_t : (k * ne <= t')%nat.
    Proof. lia. Qed.
    Lemma raw_sd e : In e (E (zk k)) -> sd B t' (raw lay (zk k) (trk k) e) (R k e).
    Proof.
      intros He. unfold raw, R. rewrite (tmk lay Hv). apply sd_single.
      pose proof (index_lt edge_eqb edge_eqb_eq e _ He) as L. rewrite (length_E lay Hv (zk k)) in L. lia.
    Qed.
    Lemma vedge_sd e : In e (E (zk k)) -> sd B t' (vedge lay (zk k) (trk k) e) (VE k e).
    Proof.
      intros He. unfold vedge, VE. destruct (pc3 lay).
      - apply sd_comb2; [now apply raw_sd|]. eapply sd_mono; [apply le_t|]. apply (si_he k IH). now apply (in_all_of_round lay (zk k)).
      - rewrite comb_single, xorb_false_r. now apply raw_sd.
    Qed.
    Lemma vhalf_sd h : In h (H1 lay (zk k)) -> sd B t' (vhalf lay (zk k) (trk k) h) (vfirst k h).
    Proof. intros H. unfold vhalf, vfirst. apply sd_comb_map. intros e He. apply vedge_sd. eapply H1_first; eauto. Qed.
    Lemma vsecond_sd h w y : In h (H2 lay (zk k)) -> sd B t' w y -> sd B t' (comb (map (vedge lay (zk k) (trk k)) (second_edges_around_hex lay h) ++ [w])) (xorb (vsecond k h) y).
    Proof. intros H Hw. unfold vsecond. apply sd_comb_last; [|exact Hw]. intros e He. apply vedge_sd. eapply H2_second; eauto. Qed.
    Lemma H2_H1 s h : In h (H2 lay s) <-> In h (H1 lay (s - 1)).
    Proof. unfold H1, H2. replace (s - 1 - 1) with (s - 2) by lia. reflexivity. Qed.
    Lemma vhex_sd h : (1 <= k)%nat -> In h (H2 lay (zk k)) -> sd B t' (vhex lay (zk k) (trk k) h) (xorb (vsecond k h) (vfirst (k - 1) h)).
    Proof.
      intros Hk H. unfold vhex. apply vsecond_sd; [exact H|]. eapply sd_mono; [apply le_t|]. apply (si_hh k IH); [lia|].
      apply H2_H1 in H. now replace (zk (k - 1)) with (zk k - 1) by lia.
    Qed.
    Lemma H_disj s t h : In h (H1 lay s) -> In h (H1 lay t) -> s mod 3 = t mod 3.
    Proof.
      unfold H1. intros H1' H2'. apply in_hexes in H1'; [|exact Hv]. apply in_hexes in H2'; [|exact Hv]. destruct H1' as [_ C1], H2' as [_ C2].
      rewrite C1 in C2. revert C2. dlia.
    Qed.
    Lemma H2_cat c h s : 0 <= c < 3 -> In h (hexes lay c) -> In h (H2 lay s) -> s mod 3 = (c + 2) mod 3.
    Proof.
      intros Hc H K. unfold H2 in K. apply in_hexes in H; [|exact Hv]. apply in_hexes in K; [|exact Hv]. destruct H as [_ C1], K as [_ C2]. rewrite C1 in C2. revert C2. dlia.
    Qed.
    Lemma SI_S : SI (S k).
    Proof.
      constructor; cbn [Shift.trk].
      - intros e He. unfold cur, post. cbn [hist LR]. destruct (emem e (E (zk k))) eqn:F; cbn [hd].
        + now apply raw_sd, emem_In.
        + eapply sd_mono; [apply le_t | now apply (si_he k IH)].
      - intros s e Hs He. unfold cur, post. cbn [hist]. destruct (emem e (E (zk k))) eqn:F; cbn [hd].
        + apply emem_In in F. assert (s = k) as -> by (pose proof (round_edges_disjoint lay Hv _ _ e He F); revert H; clear -Hs; dlia). now apply vedge_sd.
        + eapply sd_mono; [apply le_t|]. apply (si_e k IH); [|exact He]. destruct (Nat.eq_dec s k) as [->|N]; [|lia]. apply emem_In in He. congruence.
      - intros s h Hs Hh. unfold cur, post. cbn [hist]. destruct (cmem h (H1 lay (zk k))) eqn:F; cbn [hd].
        + apply cmem_In in F. assert (s = k) as -> by (pose proof (H_disj _ _ h Hh F) as K; revert K; clear -Hs; dlia). now apply vhalf_sd.
        + eapply sd_mono; [apply le_t|]. apply (si_hh k IH); [|exact Hh]. destruct (Nat.eq_dec s k) as [->|N]; [|lia]. apply cmem_In in Hh. congruence.
      - intros c h Hc Hk Hh. unfold cur, post. cbn [hist]. destruct (cmem h (H1 lay (zk k))) eqn:F; cbn [hd].
        + exfalso. apply cmem_In in F. unfold H1 in F. apply in_hexes in F; [|exact Hv]. apply in_hexes in Hh; [|exact Hv]. destruct F as [_ F], Hh as [_ Hh].
          rewrite Hh in F. revert F Hk. clear -Hc. dlia.
        + apply (si_hh0 k IH c h Hc); [lia | exact Hh].
      - intros s h Hs Hs' Hh. unfold cur, post. cbn [hist]. destruct (cmem h (H2 lay (zk k))) eqn:F; cbn [hd].
        + apply cmem_In in F. assert (s = k) as ->.
          { apply H2_H1 in Hh, F. pose proof (H_disj _ _ h Hh F) as K. revert K. clear -Hs Hs'. dlia. }
          apply vhex_sd; [lia | exact F].
        + eapply sd_mono; [apply le_t|]. apply (si_h k IH); [|lia|exact Hh]. destruct (Nat.eq_dec s k) as [->|N]; [|lia]. apply cmem_In in Hh. congruence.
      - intros h Hk Hh. unfold cur, post. cbn [hist]. destruct (cmem h (H2 lay (zk k))) eqn:F; cbn [hd].
        + apply cmem_In in F. assert (K0 : k = O).
          { apply H2_H1 in Hh, F. pose proof (H_disj _ _ h Hh F) as K. revert K. clear -Hk. dlia. }
          assert (Hc : In h (hexes lay 1)) by exact Hh.
          unfold vhex. rewrite (si_hh0 k IH 1 h) by (first [exact Hc | lia | rewrite K0; vm_compute; discriminate]).
          destruct (Z.eqb_spec (half_init lay) 1) as [Hi|Hi].
          * rewrite Hi. cbn [Z.eqb Pos.eqb dummy]. eapply sd_eq; [|apply vsecond_sd; [exact F | apply sd_nil]]. rewrite K0. now rewrite xorb_false_r.
          * replace (1 =? half_init lay) with false by (symmetry; apply Z.eqb_neq; congruence). apply (proj1 (comb_none_r None _ None)).
        + assert (Hk' : (0 < k <= 3)%nat) by (destruct k; [exfalso; apply cmem_In in Hh; change (zk 0) with 0 in F; congruence | lia]).
          pose proof (si_h0 k IH h Hk' Hh) as K. destruct (half_init lay =? 1); [|exact K]. eapply sd_mono; [apply le_t | exact K].
      - intros c h Hc Hk Hh. unfold cur, post. cbn [hist]. destruct (cmem h (H2 lay (zk k))) eqn:F; cbn [hd].
        + exfalso. apply cmem_In in F. pose proof (H2_cat c h _ Hc Hh F) as K. revert K Hk. clear. dlia.
        + apply (si_hi k IH c h Hc); [lia | exact Hh].
    Qed.
  End Step.
  Lemma SI_all k : SI k.
  Proof. induction k as [|k IH]; [apply SI_0 | now apply SI_S]. Qed.

  (** ** The hexagon detectors of sub-round k *)
  Definition hexval (k : nat) (h : cpx) : entry := comb [vhex lay (zk k) (trk k) h; cur (trk k) (KC h)].
  Lemma hexval_bulk k h : (4 <= k)%nat -> In h (H2 lay (zk k)) ->
    sd B (S k * ne) (hexval k h) (xorb (xorb (vsecond k h) (vfirst (k - 1) h)) (xorb (vsecond (k - 3) h) (vfirst (k - 4) h))).
  Proof.
    intros Hk Hh. unfold hexval. apply sd_comb2; [apply vhex_sd; auto; [apply SI_all | lia]|].
    eapply sd_mono; [apply (le_t k)|]. replace (k - 4)%nat with (k - 3 - 1)%nat by lia. apply (si_h k (SI_all k)); [lia | lia |].
    unfold H2 in *. replace ((zk (k - 3) - 2) mod 3) with ((zk k - 2) mod 3); [exact Hh|]. rewrite Nat2Z.inj_sub by lia. change (zk 3) with 3. dlia.
  Qed.
  (** Does sub-round k emit its hexagon detectors? *)
  Definition emits (k : nat) : bool := (4 <=? k)%nat || (if (obs lay =? "V")%string then (k =? 1)%nat || (k =? 3)%nat else (k =? 2)%nat).
  Lemma inits : (obs lay = "V"%string -> edge_init lay = 2 /\ half_init lay = 1) /\ (obs lay = "H"%string -> edge_init lay = 0 /\ half_init lay = 2).
  Proof.
    unfold half_init, edge_init, init_basis, obr. split; intros ->; cbn [String.eqb Ascii.eqb Bool.eqb]; rewrite ?obs_v_basis, ?obs_h_basis; split; reflexivity.
  Qed.
  Lemma hexval_some k h : In h (H2 lay (zk k)) -> emits k = true <-> hexval k h <> None.
  Proof.
    intros Hh. destruct inits as [IV IH].
    destruct (Nat.leb_spec 4 k) as [L|L].
    - unfold emits. apply Nat.leb_le in L as L'. rewrite L'. cbn [orb]. split; [|reflexivity]. intros _. now apply hexval_bulk.
    - pose proof (SI_all k) as K. assert (C : k = 0%nat \/ k = 1%nat \/ k = 2%nat \/ k = 3%nat) by lia.
      assert (W : (1 <= k)%nat -> vhex lay (zk k) (trk k) h <> None) by (intros; now apply vhex_sd).
      unfold hexval. destruct C as [->|[->|[->| ->]]].
      + (* k = 0: the previous value is absent *)
        rewrite (si_hi 0 K 1 h) by (first [exact Hh | lia | vm_compute; discriminate]).
        replace (1 =? edge_init lay) with false by (destruct Hobs as [O|O]; [destruct (IV O) as [-> _] | destruct (IH O) as [-> _]]; reflexivity).
        unfold emits. destruct Hobs as [O|O]; rewrite O; cbn [Z.eqb Pos.eqb dummy Nat.leb Nat.eqb orb String.eqb Ascii.eqb Bool.eqb]; (split; [discriminate|]); rewrite (proj1 (proj2 (comb_none_r _ [] None))); congruence.
      + rewrite (si_hi 1 K 2 h) by (first [exact Hh | lia | vm_compute; discriminate]).
        destruct Hobs as [O|O]; [destruct (IV O) as [-> _] | destruct (IH O) as [-> _]]; unfold emits; rewrite O; cbn [Z.eqb Pos.eqb dummy Nat.leb Nat.eqb orb String.eqb Ascii.eqb Bool.eqb].
        * split; [intros _ | reflexivity]. apply comb_some. intros v [<-|[<-|[]]]; [apply W; lia | discriminate].
        * split; [discriminate|]. rewrite (proj1 (proj2 (comb_none_r _ [] None))); congruence.
      + rewrite (si_hi 2 K 0 h) by (first [exact Hh | lia | vm_compute; discriminate]).
        destruct Hobs as [O|O]; [destruct (IV O) as [-> _] | destruct (IH O) as [-> _]]; unfold emits; rewrite O; cbn [Z.eqb Pos.eqb dummy Nat.leb Nat.eqb orb String.eqb Ascii.eqb Bool.eqb].
        * split; [discriminate|]. rewrite (proj1 (proj2 (comb_none_r _ [] None))); congruence.
        * split; [intros _ | reflexivity]. apply comb_some. intros v [<-|[<-|[]]]; [apply W; lia | discriminate].
      + pose proof (si_h0 3 K h ltac:(lia) Hh) as K0.
        destruct Hobs as [O|O]; [destruct (IV O) as [_ Eh] | destruct (IH O) as [_ Eh]]; rewrite Eh in K0; unfold emits; rewrite O; cbn [Z.eqb Pos.eqb dummy Nat.leb Nat.eqb orb String.eqb Ascii.eqb Bool.eqb] in *.
        * split; [intros _ | reflexivity]. apply comb_some. intros v [<-|[<-|[]]]; [apply W; lia | apply K0].
        * rewrite K0. split; [discriminate|]. rewrite (proj1 (proj2 (comb_none_r _ [] None))); congruence.
  Qed.
  Lemma det_length t v co : length (det t v co) = match v with None => 0%nat | Some _ => 1%nat end.
  Proof. destruct v; reflexivity. Qed.
End S.
