(** How many detectors there are, and where. *)
From Coq Require Import QArith.
From Verif Require Import Prelude Layout LayoutFacts LayoutEdges LayoutLists LayoutHex LayoutHex2 Pauli LayoutObs LayoutLogic LayoutIndex Prop_Layout
  Tracker TrackerFacts Stim Circuit Annot Shift Ends Gen Gen2 Gen3 Traj Eval Frame Exec Exec2 Exec3 Exec4 Detectors Struct Struct2.
Open Scope Z_scope.

Section S.
  Variable lay : layout.
  Hypothesis Hv : valid lay.
  Hypothesis Hobs : obs lay = "V"%string \/ obs lay = "H"%string.
  Notation E := (round_edges lay).
  Notation zk := Z.of_nat.
  Notation ne := (length (E 0)).
  Notation D := (data_qubit_coords lay).
  Notation n := (sub_rounds lay).
  Notation N := (Z.to_nat n).
  Notation trk := (trk lay (tr0 lay)).
  Notation supported := (supported lay).
  Notation tw := (tile_width lay).
  Notation th := (tile_height lay).
  Local Opaque data_qubit_coords measure_qubit_coords q2i_dict hex_entries hexes round_edges all_edges isort.

  (** Whether the observable's basis at the end is the one last measured. *)
  Definition same_basis : bool := if (obs lay =? "V")%string then n mod 2 =? 0 else n mod 2 =? 1.
  Lemma final_cases : final_basis lay = (if same_basis then xyz (n - 1) else xyz n).
  Proof.
    unfold final_basis, obr, same_basis. destruct (obs lay =? "V")%string; rewrite ?obs_v_basis, ?obs_h_basis; unfold vbasis, hbasis, xyz;
    destruct (mod6_cases n) as [K|[K|[K|[K|[K|K]]]]]; rewrite K;
    match type of K with _ = ?c =>
      let a := eval vm_compute in (c mod 2) in let b := eval vm_compute in (c mod 3) in let d := eval vm_compute in ((c - 1) mod 3) in
      replace (n mod 2) with a by (revert K; clear; dlia); replace (n mod 3) with b by (revert K; clear; dlia); replace ((n - 1) mod 3) with d by (revert K; clear; dlia) end; reflexivity.
  Qed.
  Lemma xyz_index_xyz s : xyz_index (xyz s) = s mod 3.
  Proof. unfold xyz. assert (C : s mod 3 = 0 \/ s mod 3 = 1 \/ s mod 3 = 2) by dlia. destruct C as [->|[->| ->]]; reflexivity. Qed.
  Lemma same_spec : pauli_eqb (xyz (n - 1)) (final_basis lay) = same_basis.
  Proof.
    rewrite final_cases. destruct same_basis; [destruct (xyz (n - 1)); reflexivity|].
    unfold xyz. assert (C : n mod 3 = 0 \/ n mod 3 = 1 \/ n mod 3 = 2) by dlia. destruct C as [C|[C|C]]; rewrite C;
    [replace ((n - 1) mod 3) with 2 by (revert C; dlia) | replace ((n - 1) mod 3) with 0 by (revert C; dlia) | replace ((n - 1) mod 3) with 1 by (revert C; dlia)]; reflexivity.
  Qed.
  Lemma third_spec : same_basis = false -> xyz_index (third (xyz (n - 1)) (final_basis lay)) = (n + 1) mod 3.
  Proof.
    intros Hs. rewrite final_cases, Hs. unfold xyz. assert (C : n mod 3 = 0 \/ n mod 3 = 1 \/ n mod 3 = 2) by dlia. destruct C as [C|[C|C]]; rewrite C;
    [ replace ((n - 1) mod 3) with 2 by (revert C; dlia); replace ((n + 1) mod 3) with 1 by (revert C; dlia)
    | replace ((n - 1) mod 3) with 0 by (revert C; dlia); replace ((n + 1) mod 3) with 2 by (revert C; dlia)
    | replace ((n - 1) mod 3) with 1 by (revert C; dlia); replace ((n + 1) mod 3) with 0 by (revert C; dlia)]; reflexivity.
  Qed.

  Lemma same_V : obs lay = "V"%string -> same_basis = (n mod 2 =? 0).
  Proof. unfold same_basis. now intros ->. Qed.
  Lemma same_H : obs lay = "H"%string -> same_basis = (n mod 2 =? 1).
  Proof. unfold same_basis. now intros ->. Qed.

  Definition nb : nat -> bool := fun _ => false.
  Lemma SIk k : SI lay nb k.
  Proof. now apply SI_all. Qed.
  (** The stabilizers of category c have a value before sub-round k. *)
  Lemma known c h : 1 <= n -> 0 <= c < 3 -> In h (hexes lay c) ->
    (same_basis = true /\ c = (n - 1) mod 3) \/ (same_basis = false /\ (c = n mod 3 \/ c = (n + 1) mod 3)) ->
    cur (trk N) (KC h) <> None.
  Proof.
    intros Hn Hc Hh Hcase. destruct (inits lay) as [IV IH]. pose proof (SIk N) as K.
    assert (Step : forall s, (1 <= s < N)%nat -> (N <= s + 3)%nat -> zk s mod 3 = (c + 2) mod 3 -> cur (trk N) (KC h) <> None).
    { intros s H1' H2' H3. refine (proj1 (si_h lay nb N K s h H1' H2' _)). unfold H2. replace ((zk s - 2) mod 3) with c; [exact Hh|]. revert H3. clear -Hc. dlia. }
    assert (Zero : (N <= 3)%nat -> c = 1 -> obs lay = "V"%string -> cur (trk N) (KC h) <> None).
    { intros HN Ec EV. subst c. pose proof (si_h0 lay nb N K h ltac:(lia) Hh) as Z0. destruct (IV EV) as [_ Ei]. rewrite Ei in Z0. cbn [Z.eqb Pos.eqb] in Z0. apply Z0. }
    assert (Init : zk N <= (c + 2) mod 3 -> c = edge_init lay -> cur (trk N) (KC h) <> None).
    { intros HN Ec. rewrite (si_hi lay nb N K c h Hc HN Hh), Ec, Z.eqb_refl. discriminate. }
    assert (Cn : n = 1 \/ n = 2 \/ n = 3 \/ 4 <= n) by lia.
    destruct Cn as [En|[En|[En|En]]].
    - assert (EN : N = 1%nat) by (rewrite En; reflexivity). rewrite En in Hcase. cbn in Hcase. destruct Hobs as [O|O]; [rewrite (same_V O), En in Hcase | rewrite (same_H O), En in Hcase]; cbn in Hcase.
      + destruct Hcase as [[F _]|[_ [F|F]]]; [discriminate | |]; change (1 mod 3) with 1 in F || change ((1 + 1) mod 3) with 2 in F.
        * apply Zero; auto; lia.
        * apply Init; [rewrite EN, F; vm_compute; discriminate|]. rewrite F. symmetry. apply (IV O).
      + destruct Hcase as [[_ F]|[F _]]; [|discriminate]. apply Init; [rewrite EN, F; vm_compute; discriminate|]. rewrite F. symmetry. apply (IH O).
    - assert (EN : N = 2%nat) by (rewrite En; reflexivity). rewrite En in Hcase. destruct Hobs as [O|O]; [rewrite (same_V O), En in Hcase | rewrite (same_H O), En in Hcase]; cbn in Hcase.
      + destruct Hcase as [[_ F]|[F _]]; [|discriminate]. apply Zero; auto. lia.
      + destruct Hcase as [[F _]|[_ [F|F]]]; [discriminate | |].
        * apply (Step 1%nat); [lia | lia |]. rewrite F. reflexivity.
        * apply Init; [rewrite EN, F; vm_compute; discriminate|]. rewrite F. symmetry. apply (IH O).
    - assert (EN : N = 3%nat) by (rewrite En; reflexivity). rewrite En in Hcase. destruct Hobs as [O|O]; [rewrite (same_V O), En in Hcase | rewrite (same_H O), En in Hcase]; cbn in Hcase.
      + destruct Hcase as [[F _]|[_ [F|F]]]; [discriminate | |].
        * apply (Step 2%nat); [lia | lia |]. rewrite F. reflexivity.
        * apply Zero; auto. lia.
      + destruct Hcase as [[_ F]|[F _]]; [|discriminate]. apply (Step 1%nat); [lia | lia |]. rewrite F. reflexivity.
    - destruct Hcase as [[_ F]|[_ [F|F]]].
      + apply (Step (N - 2)%nat); [lia | lia |]. rewrite F, Nat2Z.inj_sub, Z2Nat.id by lia. change (zk 2) with 2. clear. dlia.
      + apply (Step (N - 1)%nat); [lia | lia |]. rewrite F, Nat2Z.inj_sub, Z2Nat.id by lia. change (zk 1) with 1. clear. dlia.
      + apply (Step (N - 3)%nat); [lia | lia |]. rewrite F, Nat2Z.inj_sub, Z2Nat.id by lia. change (zk 3) with 3. clear. dlia.
  Qed.

  (** ** Counting *)
  Lemma at_some t v c : v <> None -> exists s, v = Some s /\ at_ t v c = [mkDet (Qred (fst c # 2)) (Qred (snd c # 2)) (Qred (t # 1)) (isort Nat.leb s)].
  Proof. destruct v as [s|]; [|congruence]. intros _. exists s. auto. Qed.
  Lemma length_at {X} t (v : X -> entry) (c : X -> cpx) l : (forall x, In x l -> v x <> None) -> length (flat_map (fun x => at_ t (v x) (c x)) l) = length l.
  Proof.
    induction l as [|x l IH]; intros H; [reflexivity|]. cbn [flat_map]. rewrite app_length, IH by (intros; apply H; now right).
    destruct (at_some t (v x) (c x) (H x (or_introl eq_refl))) as (s & _ & ->). reflexivity.
  Qed.
  Lemma none_at {X} t (v : X -> entry) (c : X -> cpx) l : (forall x, In x l -> v x = None) -> flat_map (fun x => at_ t (v x) (c x)) l = [].
  Proof. induction l as [|x l IH]; intros H; [reflexivity|]. cbn [flat_map]. rewrite (H x) by now left. apply IH. intros; apply H; now right. Qed.
  Definition basis_H : bool := (obs lay =? "H")%string.
  Lemma init_X : pauli_eqb (init_basis lay) PX = basis_H.
  Proof. unfold init_basis, obr, basis_H. destruct Hobs as [->| ->]; cbn [String.eqb Ascii.eqb Bool.eqb]; rewrite ?obs_v_basis, ?obs_h_basis; reflexivity. Qed.
  Lemma count_row k : length (row_dets lay k) = ((if (k =? 0)%nat && basis_H then ne else 0) + (if emits lay k then Z.to_nat (2 * (tw * th)) else 0))%nat.
  Proof.
    unfold row_dets. rewrite app_length, init_X. f_equal.
    - replace (zk k =? 0) with (k =? 0)%nat by (destruct k; reflexivity). destruct ((k =? 0)%nat && basis_H); [|reflexivity].
      rewrite length_at; [apply length_E, Hv|]. intros e He. now apply (vedge_sd lay Hv nb k (SIk k)).
    - destruct (emits lay k) eqn:Ek.
      + rewrite length_at; [apply length_hexes, Hv|]. intros h Hh. now apply (hexval_some lay Hv Hobs nb).
      + rewrite none_at; [reflexivity|]. intros h Hh. destruct (hexval lay k h) eqn:F; [|reflexivity].
        assert (T : emits lay k = true) by (apply (hexval_some lay Hv Hobs nb k h Hh); congruence). congruence.
  Qed.
  Lemma dq_some tr q : dq lay tr q <> None.
  Proof. discriminate. Qed.
  Lemma comb_dq tr l : comb (map (dq lay tr) l) <> None.
  Proof. apply comb_some. intros v Hin. apply in_map_iff in Hin. destruct Hin as (q & <- & _). discriminate. Qed.
  Lemma comb2_some v w : v <> None -> w <> None -> comb [v; w] <> None.
  Proof. intros H1' H2'. apply comb_some. intros u [<-|[<-|[]]]; assumption. Qed.
  Lemma pos_hexes : length (hexes lay 0) = Z.to_nat (2 * (tw * th)).
  Proof. apply (length_hexes lay 0 Hv). Qed.
  Lemma fin_some_edges e : 1 <= n -> same_basis = true -> In e (E (xyz_index (final_basis lay))) ->
    comb [comb [dq lay (trk N) (e_left e); dq lay (trk N) (e_right e)]; cur (trk N) (KE e)] <> None.
  Proof.
    intros Hn Hs He. apply comb2_some; [apply comb2_some; apply dq_some|]. rewrite final_cases, Hs, xyz_index_xyz, round_edges_mod in He.
    refine (proj1 (si_e lay nb N (SIk N) (N - 1) e ltac:(lia) _)). rewrite Nat2Z.inj_sub, Z2Nat.id by lia. exact He.
  Qed.
  Lemma fin_some_other h : 1 <= n -> same_basis = false -> In h (hexes lay ((n + 1) mod 3)) ->
    comb [comb (map (dq lay (trk N)) (qubits_around_hex lay h) ++ [cur (trk N) (KHalf (KC h))]); cur (trk N) (KC h)] <> None.
  Proof.
    intros Hn Hs Hh. apply comb2_some.
    - apply comb_some. intros v Hin. apply in_app_or in Hin. destruct Hin as [Hin|[<-|[]]]; [apply in_map_iff in Hin; destruct Hin as (q & <- & _); discriminate|].
      refine (proj1 (si_hh lay nb N (SIk N) (N - 1) h ltac:(lia) _)). unfold H1. rewrite Nat2Z.inj_sub, Z2Nat.id by lia. change (zk 1) with 1.
      replace ((n - 1 - 1) mod 3) with ((n + 1) mod 3) by (clear; dlia). exact Hh.
    - apply (known ((n + 1) mod 3)); auto. clear. dlia.
  Qed.
  Lemma fin_some_hexes h : 1 <= n -> In h (hexes lay (xyz_index (final_basis lay))) ->
    comb [comb (map (dq lay (trk N)) (qubits_around_hex lay h)); cur (trk N) (KC h)] <> None.
  Proof.
    intros Hn Hh. apply comb2_some; [apply comb_dq|]. rewrite final_cases in Hh. destruct same_basis eqn:Hs; rewrite xyz_index_xyz in Hh.
    - apply (known ((n - 1) mod 3)); auto. clear. dlia.
    - apply (known (n mod 3)); auto. clear. dlia.
  Qed.
  Lemma count_fin : 1 <= n -> length (fin_dets lay) = ((if same_basis then ne else Z.to_nat (2 * (tw * th))) + Z.to_nat (2 * (tw * th)))%nat.
  Proof.
    intros Hn. unfold fin_dets. rewrite same_spec, app_length. f_equal.
    - destruct same_basis eqn:Hs.
      + rewrite length_at; [apply length_E, Hv|]. intros e He. now apply fin_some_edges.
      + rewrite third_spec by exact Hs. rewrite length_at; [apply length_hexes, Hv|]. intros h Hh. now apply fin_some_other.
    - rewrite length_at; [|intros h Hh; now apply fin_some_hexes]. rewrite final_cases. destruct same_basis; rewrite xyz_index_xyz; apply length_hexes, Hv.
  Qed.
  Lemma flat_map_length {X Y} (f : X -> list Y) l : length (flat_map f l) = list_sum (map (fun x => length (f x)) l).
  Proof. induction l as [|x l IH]; [reflexivity|]. cbn [flat_map map]. rewrite app_length, IH. reflexivity. Qed.
  Theorem count_detectors : supported -> length (detectors 0 0 0 0 (circuit_i lay)) =
    (list_sum (map (fun k => (if (k =? 0)%nat && basis_H then ne else 0) + (if emits lay k then Z.to_nat (2 * (tw * th)) else 0)) (seq 0 N)) +
     ((if same_basis then ne else Z.to_nat (2 * (tw * th))) + Z.to_nat (2 * (tw * th))))%nat.
  Proof.
    intros Hs. rewrite (circuit_detectors lay Hv Hs), app_length, count_fin by apply Hs. f_equal. rewrite flat_map_length. f_equal. apply map_ext. apply count_row.
  Qed.

  (** ** Closed form of the count *)
  Definition bulk_dets (k : nat) : Z :=
    (if basis_H then (if (0 <? k)%nat then 6 * (tw * th) else 0) + (if (2 <? k)%nat then 2 * (tw * th) else 0)
     else (if (1 <? k)%nat then 2 * (tw * th) else 0) + (if (3 <? k)%nat then 2 * (tw * th) else 0)) + Z.max 0 (zk k - 4) * (2 * (tw * th)).
  Lemma bulk_sum k : zk (list_sum (map (fun k => (if (k =? 0)%nat && basis_H then ne else 0) + (if emits lay k then Z.to_nat (2 * (tw * th)) else 0))%nat (seq 0 k))) = bulk_dets k.
  Proof.
    destruct (valid_tiles lay Hv) as (W & H & _). assert (P : 0 <= tw * th) by nia.
    assert (Ene : zk ne = 6 * (tw * th)) by (rewrite (count_round_edges lay Hv 0); lia).
    induction k as [|k IH]; [unfold bulk_dets; cbn; destruct basis_H; reflexivity|].
    rewrite seq_S, map_app, list_sum_app. cbn [map list_sum fold_right Nat.add]. rewrite Nat.add_0_r, Nat2Z.inj_add, IH, Nat2Z.inj_add. clear IH. unfold bulk_dets, emits, basis_H.
    assert (G : zk (Z.to_nat (2 * (tw * th))) = 2 * (tw * th)) by lia.
    destruct Hobs as [O|O]; rewrite O; cbn [String.eqb Ascii.eqb Bool.eqb andb orb].
    - destruct k as [|[|[|[|k]]]]; cbn [Nat.eqb Nat.ltb Nat.leb andb orb]; lia.
    - destruct k as [|[|[|[|k]]]]; cbn [Nat.eqb Nat.ltb Nat.leb andb orb]; lia.
  Qed.

  (** ** Where *)
  Lemma at_time t v c d : In d (at_ t v c) -> d_t d = Qred (t # 1).
  Proof. destruct v as [s|]; [intros [<-|[]]; reflexivity | intros []]. Qed.
  Lemma time_neq a b : a <> b -> Qeq_bool (Qred (a # 1)) (b # 1) = false.
  Proof. intros H. apply not_true_iff_false. intros K. apply Qeq_bool_iff in K. rewrite Qred_correct in K. unfold Qeq in K. cbn in K. lia. Qed.
  Lemma time_eq a : Qeq_bool (Qred (a # 1)) (a # 1) = true.
  Proof. apply Qeq_bool_iff. apply Qred_correct. Qed.
  Lemma filter_all {X} (p : X -> bool) l : (forall x, In x l -> p x = true) -> filter p l = l.
  Proof. induction l as [|x l IH]; intros H; [reflexivity|]. cbn. rewrite H by now left. f_equal. apply IH. intros; apply H; now right. Qed.
  Lemma row_time k d : In d (row_dets lay k) -> d_t d = Qred (zk k # 1).
  Proof.
    unfold row_dets. intros H. apply in_app_or in H. destruct H as [H|H]; [destruct (_ && _); [|destruct H]|]; apply in_flat_map in H; destruct H as (x & _ & H); eapply at_time; eauto.
  Qed.
  Lemma fin_time d : In d (fin_dets lay) -> d_t d = Qred (n # 1).
  Proof.
    unfold fin_dets. intros H. apply in_app_or in H. destruct H as [H|H]; [destruct (pauli_eqb _ _)|]; apply in_flat_map in H; destruct H as (x & _ & H); eapply at_time; eauto.
  Qed.
  Lemma dets_at_time k : supported -> zk k < n -> filter (fun d => Qeq_bool (d_t d) (zk k # 1)) (detectors 0 0 0 0 (circuit_i lay)) = row_dets lay k.
  Proof.
    intros Hs Hk. rewrite (circuit_detectors lay Hv Hs), filter_app.
    replace (filter _ (fin_dets lay)) with (@nil detector).
    2:{ symmetry. apply filter_none. apply Forall_forall. intros d Hd. rewrite (fin_time d Hd). apply time_neq. lia. }
    rewrite app_nil_r, filter_flat_map. assert (HN : (k < N)%nat) by lia.
    replace N with (k + S (N - k - 1))%nat by lia. rewrite seq_app, flat_map_app. cbn [seq flat_map Nat.add].
    rewrite (filter_all _ (row_dets lay k)) by (intros d Hd; rewrite (row_time k d Hd); apply time_eq).
    assert (Z0 : forall a b, (forall j, In j (seq a b) -> j <> k) -> flat_map (fun j => filter (fun d => Qeq_bool (d_t d) (zk k # 1)) (row_dets lay j)) (seq a b) = []).
    { intros a b Hj. rewrite <- filter_flat_map. apply filter_none, Forall_forall. intros d Hd. apply in_flat_map in Hd. destruct Hd as (j & Hin & Hd).
      rewrite (row_time j d Hd). apply time_neq. specialize (Hj j Hin). lia. }
    rewrite !Z0; [now rewrite app_nil_r| |]; intros j Hj; apply in_seq in Hj; lia.
  Qed.

  (** ** What *)
  (** The result of the check on e in sub-round s, from the record B. *)
  Definition result (B : nat -> bool) (s : nat) (e : edge) : bool :=
    let rec s := B (s * ne + index edge_eqb e (E (zk s)))%nat in
    xorb (rec s) (if pc3 lay && (3 <=? s)%nat then rec (s - 3)%nat else false).
  Lemma LR_other B s e t : In e (E (zk t)) -> zk s mod 3 <> zk t mod 3 -> LR lay B (S s) e = LR lay B s e.
  Proof.
    intros He Hne. cbn [LR]. destruct (emem e (E (zk s))) eqn:F; [|reflexivity]. apply emem_In in F. exfalso. apply Hne. eapply round_edges_disjoint; eauto.
  Qed.
  Lemma VE_result B s e : In e (E (zk s)) -> VE lay B s e = result B s e.
  Proof.
    intros He. unfold VE, result. cbv zeta. f_equal. destruct (pc3 lay); cbn [andb]; [|reflexivity].
    destruct (Nat.leb_spec 3 s) as [L|L].
    - replace s with (S (S (S (s - 3)))) at 1 by lia. rewrite !(LR_other B _ e s He) by (rewrite ?Nat2Z.inj_succ, Nat2Z.inj_sub by lia; clear; dlia).
      cbn [LR]. replace (emem e (E (zk (s - 3)))) with true; [reflexivity|]. symmetry. apply emem_In. rewrite <- (E_cong lay (zk s)); [exact He|].
      rewrite Nat2Z.inj_sub by lia. clear. dlia.
    - destruct s as [|[|[|s]]]; [reflexivity | | | lia]; rewrite !(LR_other B _ e _ He) by (vm_compute; discriminate); reflexivity.
  Qed.
  Lemma sum_result_first B s h : In h (H1 lay (zk s)) -> vfirst lay B s h = xsum (result B s) (first_edges_around_hex lay h).
  Proof. intros H. unfold vfirst. apply xsum_ext. intros e He. apply VE_result. eapply H1_first; eauto. Qed.
  Lemma sum_result_second B s h : In h (H2 lay (zk s)) -> vsecond lay B s h = xsum (result B s) (second_edges_around_hex lay h).
  Proof. intros H. unfold vsecond. apply xsum_ext. intros e He. apply VE_result. eapply H2_second; eauto. Qed.

  Definition compares (k : nat) (d : detector) (h : cpx) : Prop :=
    d_x d = Qred (fst h # 2) /\ d_y d = Qred (snd h # 2) /\ NoDup (d_meas d) /\
    forall B, xsum B (d_meas d) =
      xorb (xorb (xsum (result B k) (second_edges_around_hex lay h)) (xsum (result B (k - 1)) (first_edges_around_hex lay h)))
           (xorb (xsum (result B (k - 3)) (second_edges_around_hex lay h)) (xsum (result B (k - 4)) (first_edges_around_hex lay h))).
  Lemma row_compares k : (4 <= k)%nat -> Forall2 (compares k) (row_dets lay k) (hexes lay ((zk k - 2) mod 3)).
  Proof.
    intros Hk. unfold row_dets. replace (zk k =? 0) with false by (symmetry; apply Z.eqb_neq; lia). cbn [andb app].
    change (hexes lay ((zk k - 2) mod 3)) with (H2 lay (zk k)).
    assert (HH : forall h, In h (H2 lay (zk k)) -> In h (H2 lay (zk k))) by auto. revert HH. generalize (H2 lay (zk k)) at 1 3 4. intros l. induction l as [|h l IH]; intros HH; [constructor|]. cbn [flat_map].
    assert (Hh : In h (H2 lay (zk k))) by (apply HH; now left).
    destruct (hexval lay k h) as [s|] eqn:F.
    2:{ exfalso. apply (proj1 (hexval_bulk lay Hv nb k h Hk Hh)). exact F. }
    cbn [at_ app]. constructor; [|apply IH; intros; apply HH; now right].
    assert (P : Permutation s (isort Nat.leb s)) by apply isort_perm.
    split; [reflexivity|]. split; [reflexivity|]. cbn [d_meas]. split.
    - eapply Permutation_NoDup; [exact P|]. pose proof (hexval_bulk lay Hv nb k h Hk Hh) as [_ G]. rewrite F in G. apply G.
    - intros B. pose proof (hexval_bulk lay Hv B k h Hk Hh) as [_ G]. rewrite F in G. cbn [gd] in G. destruct G as (_ & _ & G).
      rewrite <- (xsum_perm _ _ _ P), G. unfold H2 in Hh.
      rewrite !sum_result_first, !sum_result_second; [reflexivity|..]; unfold H1, H2; rewrite ?Nat2Z.inj_sub by lia; cbn [Z.of_nat Pos.of_succ_nat Pos.succ];
      match goal with |- In _ (hexes _ ?a) => replace a with ((zk k - 2) mod 3) by (clear; dlia); exact Hh end.
  Qed.
End S.
