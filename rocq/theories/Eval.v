(** What the tracker's entries evaluate to along a trajectory. *)
From Coq Require Import QArith.
From Verif Require Import Prelude Layout LayoutFacts LayoutEdges LayoutLists LayoutHex LayoutHex2 Pauli LayoutObs LayoutLogic LayoutIndex
  Tracker TrackerFacts Stim Circuit Annot Shift Ends Traj.
Open Scope Z_scope.

(** The entry is an obstacle, or a set of measurements before time t whose
    outcomes add up to x. *)
Definition gd (B : nat -> bool) (t : nat) (v : entry) (x : bool) : Prop :=
  match v with None => True | Some s => NoDup s /\ (forall y, In y s -> (y < t)%nat) /\ xsum B s = x end.

Lemma gd_mono B t t' v x : (t <= t')%nat -> gd B t v x -> gd B t' v x.
Proof. destruct v as [s|]; cbn; [|auto]. intros L (H1 & H2 & H3). repeat split; auto. intros y Hy. specialize (H2 y Hy). lia. Qed.
Lemma gd_combine B t v w x y : gd B t v x -> gd B t w y -> gd B t (combine_entry v w) (xorb x y).
Proof.
  destruct v as [a|], w as [b|]; cbn [gd combine_entry]; auto. intros (A1 & A2 & <-) (B1 & B2 & <-). split; [|split].
  - apply NoDup_symdiff; assumption.
  - intros u Hu. apply in_symdiff in Hu. destruct Hu as [[Hu _]|[Hu _]]; auto.
  - apply xsum_symdiff; assumption.
Qed.
Lemma gd_fold B t vs : forall xs a x, gd B t a x -> Forall2 (gd B t) vs xs -> gd B t (fold_left combine_entry vs a) (xorb x (xsum (fun b => b) xs)).
Proof.
  induction vs as [|v vs IH]; intros xs a x Ha H; inversion H; subst; cbn [fold_left].
  - now rewrite xorb_false_r.
  - rewrite xsum_cons, <- xorb_assoc. apply IH; [apply gd_combine; assumption | assumption].
Qed.
Lemma gd_comb B t vs xs : Forall2 (gd B t) vs xs -> gd B t (comb vs) (xsum (fun b => b) xs).
Proof.
  intros H. unfold comb. rewrite <- (xorb_false_l (xsum _ xs)). apply gd_fold; [|exact H]. cbn. repeat split; [constructor | intros y []].
Qed.
Lemma gd_map {X} B t (v : X -> entry) (x : X -> bool) l : (forall a, In a l -> gd B t (v a) (x a)) -> Forall2 (gd B t) (map v l) (map x l).
Proof. induction l as [|a l IH]; intros H; constructor; [apply H; now left | apply IH; intros; apply H; now right]. Qed.
Lemma gd_comb_map {X} B t (v : X -> entry) (x : X -> bool) l : (forall a, In a l -> gd B t (v a) (x a)) -> gd B t (comb (map v l)) (xsum x l).
Proof. intros H. erewrite <- (xsum_map (fun b => b) x). apply gd_comb, gd_map, H. Qed.
Lemma gd_comb2 B t v w x y : gd B t v x -> gd B t w y -> gd B t (comb [v; w]) (xorb x y).
Proof.
  intros H1 H2. rewrite <- (xorb_false_r y). change (gd B t (comb [v; w]) (xsum (fun b => b) [x; y])). apply gd_comb. repeat constructor; assumption.
Qed.
Lemma gd_comb_last {X} B t (v : X -> entry) (x : X -> bool) l w y : (forall a, In a l -> gd B t (v a) (x a)) -> gd B t w y ->
  gd B t (comb (map v l ++ [w])) (xorb (xsum x l) y).
Proof.
  intros H H'. replace (xorb (xsum x l) y) with (xsum (fun b => b) (map x l ++ [y])).
  - apply gd_comb. apply Forall2_app; [now apply gd_map | repeat constructor; assumption].
  - rewrite xsum_app, xsum_map. unfold xsum at 2. cbn [fold_right]. now rewrite xorb_false_r.
Qed.
Lemma gd_single B t x : (x < t)%nat -> gd B t (Some [x]) (B x).
Proof.
  intros H. cbn. repeat split.
  - repeat constructor. intros [].
  - intros y [<-|[]]. exact H.
  - now rewrite xorb_false_r.
Qed.
Lemma gd_eq B t v x y : x = y -> gd B t v x -> gd B t v y.
Proof. now intros ->. Qed.

Lemma index_lt {A} (eqb : A -> A -> bool) (Heq : forall a b, eqb a b = true <-> a = b) x l : In x l -> (index eqb x l < length l)%nat.
Proof.
  induction l as [|a l IH]; intros H; [destruct H|]. cbn [index length]. destruct (eqb x a) eqn:Ex; [lia|].
  destruct H as [->|H]; [|specialize (IH H); lia]. assert (eqb x x = true) by now apply Heq. congruence.
Qed.

Section E.
  Variable lay : layout.
  Hypothesis Hv : valid lay.
  Hypothesis Hobs : obs lay = "V"%string \/ obs lay = "H"%string.
  Notation E := (round_edges lay).
  Notation zk := Z.of_nat.
  Notation ne := (length (E 0)).
  Notation D := (data_qubit_coords lay).
  Notation trk := (trk lay (tr0 lay)).
  Local Opaque data_qubit_coords measure_qubit_coords q2i_dict hex_entries hexes round_edges all_edges isort.

  Variable z : nat -> edge -> bool.
  Variable A0 : cpx -> bits.
  Notation A := (A lay z A0).
  Notation m := (m lay z A0).

  (** PC3 does not reset its ancillas, so each records the running total of
      the checks it has measured. *)
  Fixpoint acc (k : nat) (e : edge) : bool :=
    match k with
    | O => false
    | S k => if emem e (E (zk k)) then (if pc3 lay then xorb (acc k e) (m k e) else m k e) else acc k e
    end.
  (** the bit recorded for e in sub-round k *)
  Definition bit (k : nat) (e : edge) : bool := if pc3 lay then xorb (acc k e) (m k e) else m k e.
  Definition rows (B : nat -> bool) (k : nat) : Prop :=
    forall s e, (s < k)%nat -> In e (E (zk s)) -> B (s * ne + index edge_eqb e (E (zk s)))%nat = bit s e.

  (** The data qubits start in the observable's basis. *)
  Hypothesis HA0 : forall q, isdata lay q -> anti2 (pbits (init_basis lay)) (A0 q) = false.
  Lemma par_init l : (forall q, In q l -> isdata lay q) -> par A0 (pstr (init_basis lay) l) = false.
  Proof. intros H. rewrite par_pstr. apply xsum_false. intros q Hq. apply HA0, H, Hq. Qed.

  Variable B : nat -> bool.

  Record TI (k : nat) : Prop := {
    ti_half : forall e, In e (all_edges lay) -> exists s, cur (trk k) (KHalf (KE e)) = Some s /\ gd B (k * ne) (Some s) (acc k e);
    ti_edge : forall j e, k = S j -> In e (E (zk j)) -> gd B (k * ne) (cur (trk k) (KE e)) (m j e);
    ti_hhex : forall h, ishex lay h -> k = O \/ zk k mod 3 <> (hexcat h + 1) mod 3 ->
              gd B (k * ne) (cur (trk k) (KHalf (KC h))) (par (A k) (half_op lay h));
    ti_hex : forall h, ishex lay h -> gd B (k * ne) (cur (trk k) (KC h)) (par (A k) (hex_op lay h)) }.

  Lemma tmk k : tm (trk k) = (k * ne)%nat.
  Proof. rewrite tm_trk by exact Hv. reflexivity. Qed.
  Lemma pbits_xyz_index p : xyz (xyz_index p) = p.
  Proof. destruct p; reflexivity. Qed.
  Lemma hexcat_range h : ishex lay h -> hexcat h = 0 \/ hexcat h = 1 \/ hexcat h = 2.
  Proof. intros _. unfold hexcat. dlia. Qed.

  Lemma TI_0 : TI 0.
  Proof.
    constructor; cbn [Shift.trk Traj.A].
    - intros e He. apply emem_In in He. exists []. unfold cur, tr0. cbn [hist]. rewrite He. split; [reflexivity|].
      cbn. repeat split; [constructor | intros y []].
    - intros j e H. discriminate.
    - intros h Hh _. unfold cur, tr0. cbn [hist]. destruct (cmem h _); [|exact Logic.I]. cbn [hd]. unfold dummy.
      destruct (cmem h (hexes lay (half_init lay))) eqn:F; [|exact Logic.I]. cbn. repeat split; [constructor | intros y [] |].
      symmetry. rewrite <- (par_init (qubits_around_hex lay h)) by (intros q Hq; apply in_around in Hq; tauto).
      unfold half_op. do 2 f_equal. apply cmem_In, in_hexes in F; [|exact Hv]. destruct F as [_ F].
      rewrite <- (pbits_xyz_index (init_basis lay)). apply xyz_eq. fold (edge_init lay). unfold half_init in F. rewrite F. dlia.
    - intros h Hh. unfold cur, tr0. cbn [hist]. destruct (cmem h _); [|exact Logic.I]. cbn [hd]. unfold dummy.
      destruct (cmem h (hexes lay (edge_init lay))) eqn:F; [|exact Logic.I]. cbn. repeat split; [constructor | intros y [] |].
      symmetry. rewrite <- (par_init (qubits_around_hex lay h)) by (intros q Hq; apply in_around in Hq; tauto).
      unfold hex_op. do 2 f_equal. apply cmem_In, in_hexes in F; [|exact Hv]. destruct F as [_ F].
      rewrite F. apply pbits_xyz_index.
  Qed.

  Section Step.
    Variable k : nat.
    Hypothesis IH : TI k.
    Hypothesis HB : forall e, In e (E (zk k)) -> B (k * ne + index edge_eqb e (E (zk k)))%nat = bit k e.
    Notation t' := (S k * ne)%nat.

    Lemma raw_gd e : In e (E (zk k)) -> gd B t' (raw lay (zk k) (trk k) e) (bit k e).
    Proof.
      intros He. unfold raw. rewrite tmk, <- HB by exact He. apply gd_single.
      pose proof (index_lt edge_eqb edge_eqb_eq e _ He) as L. rewrite (length_E lay Hv (zk k)) in L. lia.
    Qed.
    Lemma vedge_gd e : In e (E (zk k)) -> exists s, vedge lay (zk k) (trk k) e = Some s /\ gd B t' (Some s) (m k e).
    Proof.
      intros He. unfold vedge. pose proof (raw_gd e He) as G. unfold bit in G. destruct (pc3 lay) eqn:P.
      - destruct (ti_half k IH e (in_all_of_round lay _ _ He)) as (s & Es & Gs). rewrite Es.
        unfold raw, comb. cbn [fold_left combine_entry]. eexists. split; [reflexivity|].
        change (gd B t' (comb [raw lay (zk k) (trk k) e; Some s]) (m k e)).
        eapply gd_eq; [|apply gd_comb2; [exact G | eapply gd_mono; [|exact Gs]; lia]].
        destruct (acc k e), (m k e); reflexivity.
      - rewrite comb_single. eexists. split; [reflexivity | exact G].
    Qed.
    Lemma vedge_gd' e : In e (E (zk k)) -> gd B t' (vedge lay (zk k) (trk k) e) (m k e).
    Proof. intros He. destruct (vedge_gd e He) as (s & -> & G). exact G. Qed.

    Lemma hexcat_H1 h : In h (H1 lay (zk k)) -> ishex lay h /\ zk k mod 3 = (hexcat h + 1) mod 3.
    Proof. intros H. unfold H1 in H. apply in_hexes in H; [|exact Hv]. destruct H as [H ->]. split; [exact H|]. dlia. Qed.
    Lemma hexcat_H2 h : In h (H2 lay (zk k)) -> ishex lay h /\ zk k mod 3 = (hexcat h + 2) mod 3.
    Proof. intros H. unfold H2 in H. apply in_hexes in H; [|exact Hv]. destruct H as [H ->]. split; [exact H|]. dlia. Qed.

    Lemma vhalf_gd h : In h (H1 lay (zk k)) -> gd B t' (vhalf lay (zk k) (trk k) h) (par (A k) (half_op lay h)).
    Proof.
      intros H. destruct (hexcat_H1 h H) as [Hh Hc]. rewrite <- (first_sum lay z A0 k h Hh Hc).
      unfold vhalf. apply gd_comb_map. intros e He. apply vedge_gd'. eapply H1_first; eauto.
    Qed.
    Lemma vhex_gd h : In h (H2 lay (zk k)) -> gd B t' (vhex lay (zk k) (trk k) h) (par (A k) (hex_op lay h)).
    Proof.
      intros H. destruct (hexcat_H2 h H) as [Hh Hc]. rewrite hex_halves, <- (second_sum lay z A0 k h Hh Hc).
      unfold vhex. apply gd_comb_last.
      - intros e He. apply vedge_gd'. eapply H2_second; eauto.
      - eapply gd_mono; [|apply (ti_hhex k IH h Hh)]; [lia|]. right. rewrite Hc. dlia.
    Qed.
    Lemma hexdet_gd h : In h (H2 lay (zk k)) -> gd B t' (comb [vhex lay (zk k) (trk k) h; cur (trk k) (KC h)]) false.
    Proof.
      intros H. rewrite <- (xorb_nilpotent (par (A k) (hex_op lay h))). apply gd_comb2; [now apply vhex_gd|].
      eapply gd_mono; [|apply (ti_hex k IH)]; [lia|]. now apply hexcat_H2.
    Qed.

    Lemma TI_S : TI (S k).
    Proof.
      constructor; cbn [Shift.trk].
      - intros e He. unfold cur, post. cbn [hist acc]. destruct (emem e (E (zk k))) eqn:F; cbn [hd].
        + apply emem_In in F. pose proof (raw_gd e F) as G. unfold raw in *. eexists. split; [reflexivity|]. exact G.
        + destruct (ti_half k IH e He) as (s & Es & Gs). exists s. split; [exact Es|]. eapply gd_mono; [|exact Gs]. lia.
      - intros j e Ej He. injection Ej as <-. unfold cur, post. cbn [hist]. rewrite (proj2 (emem_In e _) He). cbn [hd]. now apply vedge_gd'.
      - intros h Hh Hk. destruct Hk as [Hk|Hk]; [discriminate|].
        rewrite half_step by (try exact Hv; try exact Hh; clear -Hk; dlia).
        unfold cur, post. cbn [hist]. destruct (cmem h (H1 lay (zk k))) eqn:F; cbn [hd].
        + now apply vhalf_gd, cmem_In.
        + eapply gd_mono; [|apply (ti_hhex k IH h Hh)]; [lia|]. right. intros Hc. apply cmem_false in F. apply F.
          unfold H1. apply in_hexes; [exact Hv|]. split; [exact Hh|]. destruct (hexcat_range h Hh) as [Z0|[Z0|Z0]]; rewrite Z0 in *; clear -Hc; dlia.
      - intros h Hh. rewrite hex_step by assumption. unfold cur, post. cbn [hist]. destruct (cmem h (H2 lay (zk k))) eqn:F; cbn [hd].
        + now apply vhex_gd, cmem_In.
        + eapply gd_mono; [|apply (ti_hex k IH h Hh)]. lia.
    Qed.
  End Step.

  Lemma TI_all k : rows B k -> TI k.
  Proof.
    induction k as [|k IH]; intros H; [apply TI_0|]. apply TI_S.
    - apply IH. intros s e Hs. apply H. lia.
    - intros e He. apply H; [lia | exact He].
  Qed.

  (** ** The first sub-round's edge detectors *)
  Lemma dets0_gd e : rows B 1 -> fst (obr lay 0) = PX -> In e (E 0) -> gd B ne (vedge lay 0 (trk 0) e) false.
  Proof.
    intros HB Hx He. replace ne with (1 * ne)%nat by lia.
    eapply gd_eq; [|apply (vedge_gd' 0 TI_0)].
    - unfold Traj.m. cbn [Traj.A]. unfold edge_op. change (xyz (zk 0)) with PX. rewrite <- Hx. apply par_init.
      intros q Hq. destruct (round_edge_facts lay Hv 0 e He) as (Hl & Hr & _). destruct Hq as [<-|[<-|[]]]; assumption.
    - intros e' He'. apply (HB O e'); [lia | exact He'].
    - exact He.
  Qed.

  (** ** The observable *)
  Definition Oop (s : Z) : pstring := pstr (fst (obr lay s)) (snd (obr lay s)).
  Lemma oat_filter s : oat lay s = filter (fun e => emem e (oedges lay)) (E s).
  Proof.
    unfold oat, obs_edges_in. apply filter_ext. intros e. destruct (in_dec edge_dec e (oedges lay)) as [i|i].
    - symmetry. now apply emem_In.
    - destruct (emem e (oedges lay)) eqn:F; [|reflexivity]. apply emem_In in F. contradiction.
  Qed.
  Lemma O_step s : same_operator (Oop (s + 1)) (Oop s ++ flat_map (edge_op (xyz s)) (oat lay s)).
  Proof.
    rewrite oat_filter. unfold Oop, obr, oedges. destruct (obs lay =? "V")%string; [apply (V_step lay Hv) | apply (H_step lay Hv)].
  Qed.
  Lemma O_edge_commute s e : In e (E s) -> anticommutes (edge_op (xyz s) e) (Oop s) = false.
  Proof.
    intros He. unfold Oop, obr. destruct (obs lay =? "V")%string.
    - apply (V_edge_commute lay Hv s s e); auto.
    - apply (H_edge_commute lay Hv s s e); auto.
  Qed.
  Lemma data_Oop s pq : In pq (Oop s) -> isdata lay (snd pq).
  Proof. unfold Oop, pstr. rewrite in_map_iff. intros (q & <- & Hq). cbn [snd]. eapply (obr_data lay Hv Hobs), Hq. Qed.

  (** The checks multiplied into the observable account for its change. *)
  Lemma obs_step s : par (A (S s)) (Oop (zk (S s))) = xorb (par (A s) (Oop (zk s))) (xsum (m s) (oat lay (zk s))).
  Proof.
    replace (zk (S s)) with (zk s + 1) by lia. rewrite (par_same _ _ _ (O_step (zk s))), par_app, par_flat_map. f_equal.
    - cbn [Traj.A]. apply par_kick_commute; [exact Hv | apply data_Oop |]. intros e He. now apply O_edge_commute.
    - apply xsum_ext. intros e He. symmetry. apply m_after; [exact Hv|]. rewrite oat_filter in He. now apply filter_In in He.
  Qed.
  Fixpoint obs_total (k : nat) : bool := match k with O => false | S k => xorb (obs_total k) (xsum (m k) (oat lay (zk k))) end.
  Lemma obs_total_eq k : par (A k) (Oop (zk k)) = obs_total k.
  Proof.
    induction k as [|k IH]; [|rewrite obs_step, IH; reflexivity]. cbn [Traj.A obs_total]. unfold Oop. fold (init_basis lay). apply par_init.
    intros q Hq. now apply (obr_data lay Hv Hobs) in Hq.
  Qed.
  (** PC3: the accumulated outcomes of the observable's edges. *)
  Lemma acc_step k r : pc3 lay = true -> 0 <= r < 3 ->
    xsum (acc (S k)) (oat lay r) = xorb (xsum (acc k) (oat lay r)) (if r =? zk k mod 3 then xsum (m k) (oat lay (zk k)) else false).
  Proof.
    intros P Hr. destruct (Z.eqb_spec r (zk k mod 3)) as [Er|Nr].
    - replace (oat lay (zk k)) with (oat lay r) by (rewrite !oat_filter; f_equal; rewrite Er; apply round_edges_mod).
      rewrite <- xsum_xorb. apply xsum_ext. intros e He. cbn [acc]. rewrite P.
      replace (emem e (E (zk k))) with true; [reflexivity|]. symmetry. apply emem_In. rewrite oat_filter in He. apply filter_In in He.
      rewrite <- round_edges_mod, <- Er. tauto.
    - rewrite xorb_false_r. apply xsum_ext. intros e He. cbn [acc]. replace (emem e (E (zk k))) with false; [reflexivity|]. symmetry.
      destruct (emem e (E (zk k))) eqn:F; [|reflexivity]. apply emem_In in F. rewrite oat_filter in He. apply filter_In in He. exfalso. apply Nr.
      rewrite <- (Z.mod_small r 3) by lia. eapply round_edges_disjoint; [exact Hv | apply He | exact F].
  Qed.
  Lemma acc_total k : pc3 lay = true -> xorb (xorb (xsum (acc k) (oat lay 0)) (xsum (acc k) (oat lay 1))) (xsum (acc k) (oat lay 2)) = obs_total k.
  Proof.
    intros P. induction k as [|k IH].
    - cbn [acc obs_total]. rewrite !xsum_false by auto. reflexivity.
    - rewrite !acc_step by (auto; lia). cbn [obs_total]. rewrite <- IH.
      generalize (xsum (acc k) (oat lay 0)) (xsum (acc k) (oat lay 1)) (xsum (acc k) (oat lay 2)) (xsum (m k) (oat lay (zk k))).
      assert (C : zk k mod 3 = 0 \/ zk k mod 3 = 1 \/ zk k mod 3 = 2) by dlia.
      destruct C as [->|[->| ->]]; cbn; intros [] [] [] []; reflexivity.
  Qed.

  (** ** The final data measurement *)
  Notation n := (sub_rounds lay).
  Notation N := (Z.to_nat n).
  Notation fb := (final_basis lay).
  Definition dbit (q : cpx) : bool := anti2 (pbits fb) (A N q).
  Section Final.
    Hypothesis Hn : 1 <= n.
    Hypothesis HR : rows B N.
    Hypothesis HD : forall q, In q D -> B (N * ne + index cpx_eqb q D)%nat = dbit q.
    Notation ft := (ftime lay (trk N)).
    Lemma ft_ge : (N * ne <= ft)%nat.
    Proof. unfold ftime. rewrite tmk. lia. Qed.
    Lemma dq_gd q : isdata lay q -> gd B ft (dq lay (trk N) q) (dbit q).
    Proof.
      intros Hq. apply in_data in Hq; [|exact Hv]. unfold dq, ftime. rewrite tmk, <- HD by exact Hq. apply gd_single.
      pose proof (index_lt cpx_eqb cpx_eqb_eq q D Hq). lia.
    Qed.
    Lemma dbit_sum l : xsum dbit l = par (A N) (pstr fb l).
    Proof. rewrite par_pstr. reflexivity. Qed.
    Lemma basis_cases s : fst (obr lay s) = xyz s \/ fst (obr lay s) = xyz (s - 1).
    Proof.
      unfold obr. destruct (obs lay =? "V")%string; rewrite ?obs_v_basis, ?obs_h_basis; unfold vbasis, hbasis, xyz;
      destruct (mod6_cases s) as [K|[K|[K|[K|[K|K]]]]]; rewrite K;
      [ replace (s mod 3) with 0 by (revert K; dlia); replace ((s - 1) mod 3) with 2 by (revert K; dlia)
      | replace (s mod 3) with 1 by (revert K; dlia); replace ((s - 1) mod 3) with 0 by (revert K; dlia)
      | replace (s mod 3) with 2 by (revert K; dlia); replace ((s - 1) mod 3) with 1 by (revert K; dlia)
      | replace (s mod 3) with 0 by (revert K; dlia); replace ((s - 1) mod 3) with 2 by (revert K; dlia)
      | replace (s mod 3) with 1 by (revert K; dlia); replace ((s - 1) mod 3) with 0 by (revert K; dlia)
      | replace (s mod 3) with 2 by (revert K; dlia); replace ((s - 1) mod 3) with 1 by (revert K; dlia)
      | replace (s mod 3) with 0 by (revert K; dlia); replace ((s - 1) mod 3) with 2 by (revert K; dlia)
      | replace (s mod 3) with 1 by (revert K; dlia); replace ((s - 1) mod 3) with 0 by (revert K; dlia)
      | replace (s mod 3) with 2 by (revert K; dlia); replace ((s - 1) mod 3) with 1 by (revert K; dlia)
      | replace (s mod 3) with 0 by (revert K; dlia); replace ((s - 1) mod 3) with 2 by (revert K; dlia)
      | replace (s mod 3) with 1 by (revert K; dlia); replace ((s - 1) mod 3) with 0 by (revert K; dlia)
      | replace (s mod 3) with 2 by (revert K; dlia); replace ((s - 1) mod 3) with 1 by (revert K; dlia)]; cbn; auto.
    Qed.
    Lemma fin_edge_gd e : xyz (n - 1) = fb -> In e (E (xyz_index fb)) ->
      gd B ft (comb [comb [dq lay (trk N) (e_left e); dq lay (trk N) (e_right e)]; cur (trk N) (KE e)]) false.
    Proof.
      intros Hb He. destruct (round_edge_facts lay Hv _ e He) as (Hl & Hr & _).
      assert (EN : N = S (Z.to_nat (n - 1))) by lia. set (j := Z.to_nat (n - 1)) in *. assert (Ej : zk j = n - 1) by lia.
      assert (Hb' : xyz (zk j) = fb) by now rewrite Ej.
      assert (He' : In e (E (zk j))).
      { rewrite <- round_edges_mod. replace (zk j mod 3) with (xyz_index fb mod 3); [rewrite round_edges_mod; exact He|].
        apply xyz_eq. now rewrite pbits_xyz_index. }
      rewrite <- (xorb_nilpotent (m j e)). apply gd_comb2.
      - eapply gd_eq; [|apply gd_comb2; apply dq_gd; assumption].
        rewrite m_after by assumption. rewrite Hb'. unfold edge_op. rewrite par_pstr, !xsum_cons. unfold xsum. cbn [fold_right]. rewrite xorb_false_r.
        rewrite <- EN. reflexivity.
      - eapply gd_mono; [apply ft_ge|]. apply (ti_edge N (TI_all N HR) j e EN He').
    Qed.
    Lemma fin_hex_gd h : In h (hexes lay (xyz_index fb)) ->
      gd B ft (comb [comb (map (dq lay (trk N)) (qubits_around_hex lay h)); cur (trk N) (KC h)]) false.
    Proof.
      intros H. apply in_hexes in H; [|exact Hv]. destruct H as [Hh Hc].
      rewrite <- (xorb_nilpotent (par (A N) (hex_op lay h))). apply gd_comb2.
      - unfold hex_op. rewrite Hc, pbits_xyz_index, <- dbit_sum. apply gd_comb_map. intros q Hq. apply dq_gd. apply in_around in Hq; tauto.
      - eapply gd_mono; [apply ft_ge|]. now apply ti_hex, Hh; apply TI_all.
    Qed.
    Lemma fin_other_gd h : pauli_eqb (xyz (n - 1)) fb = false -> In h (hexes lay (xyz_index (third (xyz (n - 1)) fb))) ->
      gd B ft (comb [comb (map (dq lay (trk N)) (qubits_around_hex lay h) ++ [cur (trk N) (KHalf (KC h))]); cur (trk N) (KC h)]) false.
    Proof.
      intros Hne H. apply in_hexes in H; [|exact Hv]. destruct H as [Hh Hc].
      assert (Hb : fb = xyz n).
      { destruct (basis_cases n) as [K|K]; [exact K|]. unfold final_basis in *. rewrite K in Hne. destruct (xyz (n - 1)); discriminate. }
      assert (Hc' : hexcat h mod 3 = (n + 1) mod 3).
      { rewrite Hc. apply xyz_eq. rewrite pbits_xyz_index. rewrite Hb. clear -Hne Hb. unfold xyz.
        assert (C : n mod 3 = 0 \/ n mod 3 = 1 \/ n mod 3 = 2) by dlia.
        destruct C as [C|[C|C]]; rewrite C;
        [ replace ((n - 1) mod 3) with 2 by (revert C; dlia); replace ((n + 1) mod 3) with 1 by (revert C; dlia)
        | replace ((n - 1) mod 3) with 0 by (revert C; dlia); replace ((n + 1) mod 3) with 2 by (revert C; dlia)
        | replace ((n - 1) mod 3) with 1 by (revert C; dlia); replace ((n + 1) mod 3) with 0 by (revert C; dlia)]; reflexivity. }
      rewrite <- (xorb_nilpotent (par (A N) (hex_op lay h))). apply gd_comb2.
      - rewrite hex_halves. unfold half_op2. replace (xyz (hexcat h + 2)) with fb.
        2:{ rewrite Hb. apply xyz_eq. clear -Hc'. dlia. }
        rewrite <- dbit_sum. apply gd_comb_last.
        + intros q Hq. apply dq_gd. apply in_around in Hq; tauto.
        + eapply gd_mono; [apply ft_ge|]. apply ti_hhex; [now apply TI_all | exact Hh |]. right. rewrite Z2Nat.id by lia. clear -Hc'. dlia.
      - eapply gd_mono; [apply ft_ge|]. now apply ti_hex, Hh; apply TI_all.
    Qed.
    Lemma fin_obs_gd : exists s, comb (map (dq lay (trk N)) (snd (obr lay n))) = Some s /\ gd B ft (Some s) (obs_total N).
    Proof.
      assert (G : gd B ft (comb (map (dq lay (trk N)) (snd (obr lay n)))) (obs_total N)).
      { rewrite <- obs_total_eq, Z2Nat.id by lia. unfold Oop. fold fb. rewrite <- dbit_sum. apply gd_comb_map. intros q Hq. apply dq_gd.
        now apply (obr_data lay Hv Hobs) in Hq. }
      destruct (comb _) as [s|] eqn:F in G; [exists s; rewrite F; split; [reflexivity | exact G]|].
      exfalso. revert F. generalize (snd (obr lay n)). intros l. unfold comb. generalize (@nil nat). induction l as [|q l IHl]; intros a; cbn [map fold_left]; [discriminate|].
      apply IHl.
    Qed.
  End Final.
End E.
