(** What it means for a measurement record that no detector fires: the checks, the
    hexagons and the final data measurement agree with what was known before. *)
From Coq Require Import QArith.
From Verif Require Import Prelude Layout LayoutFacts LayoutEdges LayoutLists LayoutHex LayoutHex2 Pauli LayoutObs LayoutLogic LayoutIndex Prop_Layout
  Tracker TrackerFacts Stim Circuit Annot Shift Ends Gen Gen2 Gen3 Traj Eval Frame Exec Exec2 Exec3 Exec4 Detectors Struct Struct2 Struct3 FaultSpec.
Open Scope Z_scope.

(** Sub-round numbers as coordinates. *)
Lemma Qred_whole z : Qnum (Qred (z # 1)) = z.
Proof. unfold Qred. cbn [Z.ggcd]. pose proof (Z.ggcd_correct_divisors z 1) as K. pose proof (Z.ggcd_gcd z 1) as G. destruct (Z.ggcd z 1) as [g [a b]]. cbn [fst snd Qnum] in *. rewrite Z.gcd_1_r in G. subst g. lia. Qed.

Section S.
  Variable lay : layout.
  Hypothesis Hv : valid lay.
  Hypothesis Hobs : obs lay = "V"%string \/ obs lay = "H"%string.
  Notation E := (round_edges lay).
  Notation zk := Z.of_nat.
  Notation ne := (length (E 0)).
  Notation D := (data_qubit_coords lay).
  Notation n := (sub_rounds lay).
  Notation N := (Z.to_nat n).
  Notation trk := (trk lay (tr0 lay)).
  Notation supported := (supported lay).
  Local Opaque data_qubit_coords measure_qubit_coords q2i_dict hex_entries hexes round_edges all_edges isort.

  Variable B : nat -> bool.
  Notation VE := (VE lay B).
  Notation vfirst := (vfirst lay B).
  Notation vsecond := (vsecond lay B).
  Notation SIB := (SI_all lay Hv B).

  Definition quiet : Prop := forall d, In d (detectors 0 0 0 0 (circuit_i lay)) -> watches lay d = true -> xsum B (d_meas d) = false.
  (** the observable is in the basis that sub-round s measures *)
  Definition ahead (s : Z) : bool := if (obs lay =? "V")%string then s mod 2 =? 1 else s mod 2 =? 0.
  (** the bit recorded for data qubit q at the end *)
  Definition dat (q : cpx) : bool := B (N * ne + index cpx_eqb q D)%nat.
  (** the hexagon's value as measured by sub-rounds s - 1 and s *)
  Definition val (s : nat) (h : cpx) : bool := xorb (vsecond s h) (if (s =? 0)%nat then false else vfirst (s - 1) h).
  (** the value before sub-round k *)
  Definition before (k : nat) (h : cpx) : bool := if (3 <=? k)%nat then val (k - 3) h else false.

  Lemma silent_at t c t' v x : (forall d, In d (at_ t v c) -> xsum B (d_meas d) = false) -> sd B t' v x -> x = false.
  Proof.
    intros H [Hn G]. destruct v as [s|]; [|congruence]. destruct G as (_ & _ & G). specialize (H _ (or_introl eq_refl)). cbn [d_meas] in H.
    rewrite <- (xsum_perm _ _ _ (isort_perm _ s)) in H. congruence.
  Qed.
  Lemma kc_last s k h : (s < k <= s + 3)%nat -> In h (H2 lay (zk s)) -> cur (trk k) (KC h) <> None -> sd B (k * ne) (cur (trk k) (KC h)) (val s h).
  Proof.
    intros Hs Hh Hn. unfold val. destruct (Nat.eqb_spec s 0) as [->|N0].
    - pose proof (si_h0 lay B k (SIB k) h ltac:(lia) Hh) as K. rewrite xorb_false_r. destruct (half_init lay =? 1); [exact K | congruence].
    - apply (si_h lay B k (SIB k)); [lia | lia | exact Hh].
  Qed.
  Lemma kc_first c k h : 0 <= c < 3 -> zk k <= (c + 2) mod 3 -> In h (hexes lay c) -> cur (trk k) (KC h) <> None -> sd B (k * ne) (cur (trk k) (KC h)) false.
  Proof. intros Hc Hk Hh Hn. rewrite (si_hi lay B k (SIB k) c h Hc Hk Hh) in *. destruct (c =? edge_init lay); [apply sd_nil | exfalso; now apply Hn]. Qed.
  Lemma H2_mod s t : s mod 3 = t mod 3 -> H2 lay s = H2 lay t.
  Proof. intros H. unfold H2. f_equal. revert H. dlia. Qed.
  Lemma H1_mod s t : s mod 3 = t mod 3 -> H1 lay s = H1 lay t.
  Proof. intros H. unfold H1. f_equal. revert H. dlia. Qed.
  (** of category k + 1: last measured in sub-round k - 3 *)
  Lemma kc_before k h : In h (H2 lay (zk k)) -> cur (trk k) (KC h) <> None -> sd B (k * ne) (cur (trk k) (KC h)) (before k h).
  Proof.
    intros Hh Hn. unfold before. destruct (Nat.leb_spec 3 k) as [L|L].
    - apply kc_last; [lia | | exact Hn]. rewrite (H2_mod (zk (k - 3)) (zk k)); [exact Hh|]. rewrite Nat2Z.inj_sub by lia. change (zk 3) with 3. dlia.
    - apply (kc_first ((zk k - 2) mod 3)); [dlia | | exact Hh | exact Hn]. assert (C : k = 0%nat \/ k = 1%nat \/ k = 2%nat) by lia. destruct C as [->|[->| ->]]; vm_compute; discriminate.
  Qed.

  Section Quiet.
    Hypothesis Hs : supported.
    Lemma watches_row k d : In d (row_dets lay k) -> ahead (zk k) = true -> watches lay d = true.
    Proof.
      intros Hd Ha. unfold watches. rewrite (row_time lay k d Hd). apply orb_true_iff. right. replace (Qnum (Qred (zk k # 1))) with (zk k).
      - unfold ahead in Ha. rewrite Zodd_mod, Zeven_mod. destruct (obs lay =? "V")%string; apply Z.eqb_eq in Ha; now rewrite Ha.
      - symmetry. apply Qred_whole.
    Qed.
    Lemma watches_fin d : In d (fin_dets lay) -> watches lay d = true.
    Proof. intros Hd. unfold watches. rewrite (fin_time lay d Hd), time_eq. reflexivity. Qed.
    Lemma n_pos : 1 <= n.
    Proof. apply Hs. Qed.

    (** ** What each detector compares *)
    Lemma hex_sd k h : (1 <= k)%nat -> In h (H2 lay (zk k)) -> hexval lay k h <> None -> sd B (S k * ne) (hexval lay k h) (xorb (val k h) (before k h)).
    Proof.
      intros K1 Hh Hn. assert (Hc : cur (trk k) (KC h) <> None) by (intros F; apply Hn; unfold hexval; rewrite F; apply (proj1 (proj2 (comb_none_r _ [] None)))).
      unfold hexval. apply sd_comb2; [|eapply sd_mono; [apply (le_t lay k) | now apply kc_before]]. unfold val. destruct (Nat.eqb_spec k 0) as [->|_]; [lia|]. now apply (vhex_sd lay Hv B k (SIB k)).
    Qed.
    Lemma dq_sd q : In q D -> sd B (N * ne + length D) (dq lay (trk N) q) (dat q).
    Proof. intros Hq. unfold dq, dat. rewrite (tmk lay Hv). apply sd_single. pose proof (index_lt cpx_eqb cpx_eqb_eq q D Hq). lia. Qed.
    Lemma around_data h q : ishex lay h -> In q (qubits_around_hex lay h) -> In q D.
    Proof. intros Hh Hq. apply (proj2 (in_data lay Hv q)). apply (in_around lay Hv h q Hh) in Hq. apply Hq. Qed.
    Lemma hexes_ishex c h : In h (hexes lay c) -> ishex lay h.
    Proof. intros H. now apply in_hexes in H. Qed.
    Lemma around_sd h : ishex lay h -> sd B (N * ne + length D) (comb (map (dq lay (trk N)) (qubits_around_hex lay h))) (xsum dat (qubits_around_hex lay h)).
    Proof. intros Hh. apply sd_comb_map. intros q Hq. apply dq_sd. eapply around_data; eauto. Qed.
    Lemma edge_sd e : In e (E (n - 1)) -> sd B (N * ne + length D) (comb [comb [dq lay (trk N) (e_left e); dq lay (trk N) (e_right e)]; cur (trk N) (KE e)]) (xorb (xorb (dat (e_left e)) (dat (e_right e))) (VE (N - 1) e)).
    Proof.
      intros He. pose proof n_pos. assert (He' : In e (E (zk (N - 1)))) by (rewrite Nat2Z.inj_sub, Z2Nat.id by lia; exact He).
      destruct (round_edge_facts lay Hv (n - 1) e He) as (Hl & Hr & _).
      apply sd_comb2; [apply sd_comb2; [apply (dq_sd (e_left e)) | apply (dq_sd (e_right e))]|eapply sd_mono; [|apply (si_e lay B N (SIB N) (N - 1) e); [lia | exact He']]; lia].
      - exact (proj2 (in_data lay Hv _) Hl).
      - exact (proj2 (in_data lay Hv _) Hr).
    Qed.
    Lemma other_sd h : same_basis lay = false -> In h (H2 lay n) ->
      sd B (N * ne + length D) (comb [comb (map (dq lay (trk N)) (qubits_around_hex lay h) ++ [cur (trk N) (KHalf (KC h))]); cur (trk N) (KC h)]) (xorb (xorb (xsum dat (qubits_around_hex lay h)) (vfirst (N - 1) h)) (before N h)).
    Proof.
      intros Sb Hh. pose proof n_pos. assert (Hh' : In h (hexes lay ((n + 1) mod 3))) by (unfold H2 in Hh; replace ((n + 1) mod 3) with ((n - 2) mod 3) by dlia; exact Hh).
      pose proof (hexes_ishex _ _ Hh') as Ih.
      apply sd_comb2; [apply sd_comb_last; [intros q Hq; apply dq_sd; eapply around_data; eauto|]|].
      - eapply sd_mono; [|apply (si_hh lay B N (SIB N) (N - 1) h); [lia|]]; [lia|]. rewrite Nat2Z.inj_sub, Z2Nat.id by lia. change (zk 1) with 1.
        unfold H1. replace ((n - 1 - 1) mod 3) with ((n - 2) mod 3) by (f_equal; lia). exact Hh.
      - eapply sd_mono; [|apply kc_before]; [lia | rewrite Z2Nat.id by lia; exact Hh |]. apply (known lay Hv Hobs ((n + 1) mod 3)); [lia | dlia | exact Hh' |]. right. auto.
    Qed.
    Lemma same_sd h : same_basis lay = true -> In h (hexes lay ((n - 1) mod 3)) ->
      sd B (N * ne + length D) (comb [comb (map (dq lay (trk N)) (qubits_around_hex lay h)); cur (trk N) (KC h)]) (xorb (xsum dat (qubits_around_hex lay h)) (if (2 <=? N)%nat then val (N - 2) h else false)).
    Proof.
      intros Sb Hh. pose proof n_pos. pose proof (hexes_ishex _ _ Hh) as Ih.
      assert (Hn : cur (trk N) (KC h) <> None) by (apply (known lay Hv Hobs ((n - 1) mod 3)); [lia | dlia | exact Hh |]; left; auto).
      apply sd_comb2; [apply (around_sd h Ih)|]. eapply sd_mono with (t := (N * ne)%nat); [lia|]. destruct (Nat.leb_spec 2 N) as [L|L].
      + apply kc_last; [lia | | exact Hn]. unfold H2. rewrite Nat2Z.inj_sub, Z2Nat.id by lia. change (zk 2) with 2. replace ((n - 2 - 2) mod 3) with ((n - 1) mod 3) by dlia. exact Hh.
      + assert (n = 1) by lia. apply (kc_first ((n - 1) mod 3)); [dlia | | exact Hh | exact Hn]. rewrite Z2Nat.id by lia. rewrite H0. vm_compute. discriminate.
    Qed.
    Lemma diff_sd h : same_basis lay = false -> In h (hexes lay (n mod 3)) ->
      sd B (N * ne + length D) (comb [comb (map (dq lay (trk N)) (qubits_around_hex lay h)); cur (trk N) (KC h)]) (xorb (xsum dat (qubits_around_hex lay h)) (val (N - 1) h)).
    Proof.
      intros Sb Hh. pose proof n_pos. pose proof (hexes_ishex _ _ Hh) as Ih.
      assert (Hn : cur (trk N) (KC h) <> None) by (apply (known lay Hv Hobs (n mod 3)); [lia | dlia | exact Hh |]; right; auto).
      apply sd_comb2; [apply (around_sd h Ih)|]. eapply sd_mono with (t := (N * ne)%nat); [lia|].
      apply kc_last; [lia | | exact Hn]. unfold H2. rewrite Nat2Z.inj_sub, Z2Nat.id by lia. change (zk 1) with 1. replace ((n - 1 - 2) mod 3) with (n mod 3) by dlia. exact Hh.
    Qed.

    (** ** No detector on the observable's side fires *)
    Hypothesis HQ : quiet.
    Lemma in_row k d : (k < N)%nat -> ahead (zk k) = true -> In d (row_dets lay k) -> xsum B (d_meas d) = false.
    Proof. intros Hk Ha Hd. apply HQ; [|now apply (watches_row k)]. rewrite (circuit_detectors lay Hv Hs). apply in_or_app. left. apply in_flat_map. exists k. split; [apply in_seq; lia | exact Hd]. Qed.
    Lemma in_fin d : In d (fin_dets lay) -> xsum B (d_meas d) = false.
    Proof. intros Hd. apply HQ; [|now apply watches_fin]. rewrite (circuit_detectors lay Hv Hs). apply in_or_app. now right. Qed.
    (** the checks of the first sub-round, when the data starts in the X basis *)
    Lemma quiet_first e : obs lay = "H"%string -> In e (E 0) -> VE 0 e = false.
    Proof.
      intros O He. eapply (silent_at 0 (e_center e)); [|apply (vedge_sd lay Hv B 0 (SIB 0) e He)]. intros d Hd. apply (in_row 0); [pose proof n_pos; lia | unfold ahead; now rewrite O |].
      unfold row_dets. rewrite (init_X lay Hobs). unfold basis_H. rewrite O. cbn [String.eqb Ascii.eqb Bool.eqb andb Z.eqb Z.of_nat]. apply in_or_app. left. apply in_flat_map. exists e. split; [exact He | exact Hd].
    Qed.
    (** the hexagons completed by sub-round k *)
    Lemma quiet_hex k h : (k < N)%nat -> ahead (zk k) = true -> emits lay k = true -> In h (H2 lay (zk k)) -> val k h = before k h.
    Proof.
      intros Hk Ha He Hh. assert (K1 : (1 <= k)%nat) by (destruct k; [revert He; unfold emits; destruct Hobs as [->| ->]; discriminate | lia]).
      pose proof (proj1 (hexval_some lay Hv Hobs B k h Hh) He) as Hn.
      apply xorb_eq. eapply (silent_at (zk k) h); [|exact (hex_sd k h K1 Hh Hn)]. intros d Hd. apply (in_row k d Hk Ha). unfold row_dets. apply in_or_app. right. apply in_flat_map. exists h. split; [exact Hh | exact Hd].
    Qed.
    (** the final data measurement *)
    Lemma quiet_edge e : same_basis lay = true -> In e (E (n - 1)) -> xorb (dat (e_left e)) (dat (e_right e)) = VE (N - 1) e.
    Proof.
      intros Sb He. apply xorb_eq. eapply (silent_at n (e_center e)); [|exact (edge_sd e He)].
      intros d Hd. apply in_fin. unfold fin_dets. rewrite (same_spec lay), Sb. apply in_or_app. left. apply in_flat_map. exists e. split; [|exact Hd].
      rewrite (final_cases lay), Sb, xyz_index_xyz, round_edges_mod. exact He.
    Qed.
    Lemma quiet_other h : same_basis lay = false -> In h (H2 lay n) -> xorb (xsum dat (qubits_around_hex lay h)) (vfirst (N - 1) h) = before N h.
    Proof.
      intros Sb Hh. apply xorb_eq. eapply (silent_at n h); [|exact (other_sd h Sb Hh)].
      intros d Hd. apply in_fin. unfold fin_dets. rewrite (same_spec lay), Sb. apply in_or_app. left. apply in_flat_map. exists h. split; [|exact Hd].
      rewrite (third_spec lay) by exact Sb. unfold H2 in Hh. replace ((n + 1) mod 3) with ((n - 2) mod 3) by dlia. exact Hh.
    Qed.
    (** the stabilizers of the basis measured at the end *)
    Lemma quiet_same h : same_basis lay = true -> In h (hexes lay ((n - 1) mod 3)) -> xsum dat (qubits_around_hex lay h) = if (2 <=? N)%nat then val (N - 2) h else false.
    Proof.
      intros Sb Hh. apply xorb_eq. eapply (silent_at n h); [|exact (same_sd h Sb Hh)].
      intros d Hd. apply in_fin. unfold fin_dets. apply in_or_app. right. apply in_flat_map. exists h. split; [|exact Hd]. rewrite (final_cases lay), Sb, xyz_index_xyz. exact Hh.
    Qed.
    Lemma quiet_diff h : same_basis lay = false -> In h (hexes lay (n mod 3)) -> xsum dat (qubits_around_hex lay h) = val (N - 1) h.
    Proof.
      intros Sb Hh. apply xorb_eq. eapply (silent_at n h); [|exact (diff_sd h Sb Hh)].
      intros d Hd. apply in_fin. unfold fin_dets. apply in_or_app. right. apply in_flat_map. exists h. split; [|exact Hd]. rewrite (final_cases lay), Sb, xyz_index_xyz. exact Hh.
    Qed.
  End Quiet.
End S.
