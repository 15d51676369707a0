(** The detectors of the generated circuits, style by style. *)
From Coq Require Import QArith Qcanon.
From Verif Require Import Prelude Layout LayoutFacts LayoutEdges LayoutLists LayoutHex LayoutHex2 Pauli LayoutObs LayoutLogic LayoutIndex
  Tracker TrackerFacts Stim Circuit Annot Shift Ends Gen Gen2 Gen3 Traj Eval Frame Exec Exec2 Exec3 Exec4 Detectors Struct.
Open Scope Z_scope.

Lemma filter_flat_map {X Y} (p : Y -> bool) (f : X -> list Y) l : filter p (flat_map f l) = flat_map (fun x => filter p (f x)) l.
Proof. induction l as [|x l IH]; [reflexivity|]. cbn [flat_map]. now rewrite filter_app, IH. Qed.
Lemma filter_if {X} (p : X -> bool) (b : bool) (l l' : list X) : filter p (if b then l else l') = if b then filter p l else filter p l'.
Proof. now destruct b. Qed.

Lemma filter_none {X} (p : X -> bool) l : Forall (fun x => p x = false) l -> filter p l = [].
Proof. induction 1 as [|x l Hx _ IH]; [reflexivity|]. cbn. now rewrite Hx. Qed.

Section S.
  Variable lay : layout.
  Hypothesis Hv : valid lay.
  Hypothesis Hobs : obs lay = "V"%string \/ obs lay = "H"%string.
  Notation ix := (ix lay).
  Notation E := (round_edges lay).
  Notation zk := Z.of_nat.
  Notation ne := (length (E 0)).
  Notation D := (data_qubit_coords lay).
  Notation n := (sub_rounds lay).
  Notation N := (Z.to_nat n).
  Notation trk := (trk lay (tr0 lay)).
  Notation annk := (annk lay (tr0 lay)).
  Notation mop := (mop lay).
  Notation supported := (supported lay).
  Local Opaque data_qubit_coords measure_qubit_coords q2i_dict hex_entries hexes round_edges all_edges isort.

  Lemma keep_g name l : canon name = name -> name <> "DETECTOR"%string -> name <> "SHIFT_COORDS"%string -> name <> "MPP"%string -> measure_gate name = None ->
    relevant (g name l) = false.
  Proof.
    intros H H1 H2 H3 H4. unfold relevant, results, g. cbn [iname]. rewrite H. apply String.eqb_neq in H1, H2, H3. rewrite H1, H2, H3, H4. reflexivity.
  Qed.
  Lemma E_pos s : E s <> [].
  Proof.
    intros K. pose proof (count_round_edges lay Hv s) as L. rewrite K in L. cbn [length] in L. destruct (valid_tiles lay Hv) as (W & H & _). nia.
  Qed.
  (** The measurements of sub-round s. *)
  Definition mline (s : Z) : list instr := if is_em3 (style lay) then [mkI "MPP" (mpp_targets lay s) []] else mop s.
  Lemma results_M l : results (mkI "M" (qs l) []) = length l.
  Proof. unfold results, qs. cbn. apply map_length. Qed.
  Lemma products_edges p (l : list edge) : products (flat_map (fun e => [TP p (ix (e_left e)); TComb; TP p (ix (e_right e))]) l) = Ok (map (fun e => [(p, ix (e_left e)); (p, ix (e_right e))]) l).
  Proof.
    induction l as [|e l IH]; [reflexivity|]. cbn [flat_map app map].
    change (products (TP p (ix (e_left e)) :: TComb :: ?r)) with (let! l := products r in match l with P :: l => Ok (((p, ix (e_left e)) :: P) :: l) | [] => Err ValueError end).
    replace (products (TP p (ix (e_right e)) :: flat_map (fun e => [TP p (ix (e_left e)); TComb; TP p (ix (e_right e))]) l))
      with (let! l := products (flat_map (fun e => [TP p (ix (e_left e)); TComb; TP p (ix (e_right e))]) l) in Ok ([(p, ix (e_right e))] :: l)) by (destruct l; reflexivity).
    rewrite IH. reflexivity.
  Qed.
  Lemma results_mline s : forall i, In i (mline s) -> results i = ne.
  Proof.
    intros i. unfold mline, mop. destruct (is_em3 (style lay)); intros [<-|[]].
    - unfold results. cbn [iname itargets canon String.eqb Ascii.eqb Bool.eqb]. unfold mpp_targets. rewrite products_edges, map_length. apply length_E, Hv.
    - rewrite results_M, map_length. apply length_E, Hv.
  Qed.
  Lemma ne_pos : (0 < ne)%nat.
  Proof. pose proof (E_pos 0). destruct (E 0); [congruence | cbn; lia]. Qed.
  Lemma keep_mline s : filter relevant (mline s) = mline s.
  Proof.
    pose proof (results_mline s) as R. unfold mline, mop in *. pose proof ne_pos.
    destruct (is_em3 (style lay)); cbn [filter]; (replace (relevant _) with true; [reflexivity|]); symmetry; unfold relevant; rewrite (R _ (or_introl eq_refl)); apply orb_true_iff; right; destruct ne; [lia | reflexivity | lia | reflexivity].
  Qed.
  Lemma keep_mop s : is_em3 (style lay) = false -> filter relevant (mop s) = mline s.
  Proof. intros H. pose proof (keep_mline s) as K. unfold mline in *. now rewrite H in *. Qed.

  Definition row (k : nat) : list instr := mline (zk k) ++ filter relevant (annk k).

  Lemma keep_tick : relevant tick_i = false.
  Proof. reflexivity. Qed.
  Ltac kg := rewrite ?filter_app; cbn [filter]; rewrite ?keep_g by (reflexivity || discriminate); rewrite ?keep_tick; cbn [app]; rewrite ?app_nil_r.
  Lemma mop_cong s t : s mod 3 = t mod 3 -> mop s = mop t.
  Proof. intros H. unfold mop. now rewrite (E_cong lay s t H). Qed.

  Lemma keep_em3 k : is_em3 (style lay) = true -> filter relevant (em3_i lay k) = row k.
  Proof.
    intros H. unfold em3_i, row. rewrite !filter_app. pose proof (keep_mline (zk k)) as K. unfold mline, mop in *. rewrite H in *. rewrite K.
    cbn [filter app]. now rewrite app_nil_r.
  Qed.
  Lemma keep_body_em3 : is_em3 (style lay) = true -> filter relevant (em3_body lay) = flat_map row (seq 0 N).
  Proof. intros H. unfold em3_body. rewrite filter_flat_map. apply flat_map_ext. intros k. now apply keep_em3. Qed.
  Lemma keep_body_sd6 : is_em3 (style lay) = false -> 1 <= n -> filter relevant (sd6_body lay) = flat_map row (seq 0 N).
  Proof.
    intros H Hn. unfold sd6_body. rewrite filter_app.
    replace (filter relevant (sd6_close_i lay)) with (@nil instr).
    2:{ unfold sd6_close_i. rewrite filter_app. destruct (_ =? 0); [|destruct (_ =? 0)]; kg; reflexivity. }
    rewrite app_nil_r. destruct (Z.eqb_spec n 1) as [->|N1].
    - unfold sd6_single_i. kg. rewrite keep_mop by exact H. cbn [Z.to_nat Pos.to_nat Pos.iter_op Nat.add seq flat_map]. change (Pos.to_nat 1) with 1%nat. cbn [seq flat_map]. unfold row. now rewrite app_nil_r.
    - rewrite !filter_app, filter_flat_map. replace (filter relevant (sd6_begin_i lay)) with (@nil instr) by (unfold sd6_begin_i; kg; reflexivity). cbn [app].
      replace N with (Z.to_nat (n - 2) + 2)%nat by lia. rewrite seq_app, flat_map_app. f_equal.
      + apply flat_map_ext. intros k. unfold sd6_step_i, row. kg. rewrite keep_mop by exact H. reflexivity.
      + unfold sd6_end_i, row. kg. rewrite !keep_mop by exact H. cbn [seq flat_map app Nat.add]. rewrite ?app_nil_r. rewrite <- !app_assoc. repeat f_equal. lia.
  Qed.
  Lemma keep_body_si : is_em3 (style lay) = false -> 0 <= n -> n mod 3 = 0 -> filter relevant (si_body lay) = flat_map row (seq 0 N).
  Proof.
    intros H Hn H3. unfold si_body. rewrite filter_flat_map.
    replace N with (3 * Z.to_nat (n / 3))%nat by (revert H3; dlia). generalize (Z.to_nat (n / 3)). intros k.
    induction k as [|k IH]; [reflexivity|]. rewrite seq_S, flat_map_app, IH. replace (3 * S k)%nat with (3 * k + 3)%nat by lia. rewrite seq_app, flat_map_app. f_equal.
    cbn [flat_map seq Nat.add app]. rewrite !app_nil_r. unfold si_i. rewrite !filter_app.
    replace (filter relevant (si_head lay k)) with (@nil instr) by (unfold si_head; destruct k; [reflexivity|]; kg; reflexivity).
    replace (filter relevant (si_gates lay)) with (@nil instr) by (symmetry; apply filter_none; unfold si_gates; repeat (apply Forall_cons; [first [reflexivity | apply keep_g; reflexivity || discriminate]|]); apply Forall_nil).
    change (filter relevant [tick_i]) with (@nil instr). cbn [app]. rewrite app_nil_r. rewrite !keep_mop by exact H. unfold row. rewrite <- !app_assoc.
    assert (M : forall a b, a mod 3 = b mod 3 -> mline a = mline b) by (intros a b K; unfold mline; rewrite H; now apply mop_cong).
    rewrite (M 0 (zk (3 * k))), (M 1 (zk (S (3 * k)))), (M 2 (zk (S (S (3 * k))))) by dlia.
    replace (3 * k + 1)%nat with (S (3 * k)) by lia. replace (3 * k + 2)%nat with (S (S (3 * k))) by lia. reflexivity.
  Qed.
  Lemma keep_body_pc3 : is_em3 (style lay) = false -> 0 <= n -> filter relevant (pc3_body lay) = flat_map row (seq 0 N).
  Proof.
    intros H Hn. unfold pc3_body. rewrite filter_app, filter_flat_map.
    replace (filter relevant (pc3_obs_i lay (trk N))) with (@nil instr).
    2:{ unfold pc3_obs_i. rewrite filter_flat_map. symmetry. rewrite (flat_map_ext _ (fun _ => [])); [reflexivity|]. intros k. destruct (comb _); reflexivity. }
    rewrite app_nil_r. replace (Z.to_nat (n + 2)) with (2 + N)%nat by lia. rewrite seq_app, flat_map_app.
    assert (P : forall k, filter relevant (pc3_i lay k) = if 2 <=? zk k then row (k - 2) else []).
    { intros k. unfold pc3_i. rewrite !filter_app.
      replace (filter relevant (if zk k <? n then _ else _)) with (@nil instr).
      2:{ destruct (_ <? _); [|reflexivity]. cbn [filter]. rewrite keep_g; [reflexivity|..]; unfold pcx; destruct (xyz _); reflexivity || discriminate. }
      replace (filter relevant (if (1 <=? zk k) && (zk k <=? n) then _ else _)) with (@nil instr).
      2:{ destruct (_ && _); [|reflexivity]. cbn [filter]. rewrite keep_g; [reflexivity|..]; unfold pcx; destruct (xyz _); reflexivity || discriminate. }
      change (filter relevant [tick_i]) with (@nil instr). rewrite app_nil_r. cbn [app]. destruct (2 <=? zk k); [|kg; reflexivity].
      rewrite filter_app, keep_mop by exact H. reflexivity. }
    cbn [seq flat_map]. rewrite !P. cbn [Z.of_nat Z.leb Z.compare Pos.of_succ_nat Pos.compare Pos.compare_cont app].
    replace (seq (0 + 2) N) with (map (fun k => (k + 2)%nat) (seq 0 N)).
    2:{ generalize N as l0. intros l0. induction l0 as [|m IH]; [reflexivity|]. rewrite !seq_S, map_app, IH. cbn [map]. do 2 f_equal. lia. }
    rewrite flat_map_concat_map, map_map, <- flat_map_concat_map. apply flat_map_ext. intros k. rewrite P.
    replace (2 <=? zk (k + 2)) with true by (symmetry; apply Z.leb_le; lia). f_equal. lia.
  Qed.
  Lemma keep_body : supported -> filter relevant (body_i lay) = flat_map row (seq 0 N).
  Proof.
    intros (Hn & Hs). unfold body_i. destruct Hs as [Es|[Es|[Es|[Es|[Es H3]]]]]; rewrite Es; cbn [String.eqb Ascii.eqb Bool.eqb].
    - apply keep_body_sd6; [now rewrite Es | exact Hn].
    - apply keep_body_pc3; [now rewrite Es | lia].
    - apply keep_body_em3. now rewrite Es.
    - apply keep_body_em3. now rewrite Es.
    - apply keep_body_si; [now rewrite Es | lia | exact H3].
  Qed.

  (** ** The detectors, in order *)
  Definition at_ (t : Z) (v : entry) (c : cpx) : list detector :=
    match v with Some s => [mkDet (Qred (fst c # 2)) (Qred (snd c # 2)) (Qred (t # 1)) (isort Nat.leb s)] | None => [] end.
  Definition row_dets (k : nat) : list detector :=
    (if (zk k =? 0) && pauli_eqb (init_basis lay) PX then flat_map (fun e => at_ (zk k) (vedge lay (zk k) (trk k) e) (e_center e)) (E (zk k)) else []) ++
    flat_map (fun h => at_ (zk k) (hexval lay k h) h) (H2 lay (zk k)).
  Definition fin_dets : list detector :=
    (if pauli_eqb (xyz (n - 1)) (final_basis lay)
     then flat_map (fun e => at_ n (comb [comb [dq lay (trk N) (e_left e); dq lay (trk N) (e_right e)]; cur (trk N) (KE e)]) (e_center e)) (E (xyz_index (final_basis lay)))
     else flat_map (fun h => at_ n (comb [comb (map (dq lay (trk N)) (qubits_around_hex lay h) ++ [cur (trk N) (KHalf (KC h))]); cur (trk N) (KC h)]) h)
       (hexes lay (xyz_index (third (xyz (n - 1)) (final_basis lay))))) ++
    flat_map (fun h => at_ n (comb [comb (map (dq lay (trk N)) (qubits_around_hex lay h)); cur (trk N) (KC h)]) h) (hexes lay (xyz_index (final_basis lay))).

  Lemma abs_tg t s : flat_map (absolute t) (tg t s) = isort Nat.leb s.
  Proof.
    unfold tg. induction (isort Nat.leb s) as [|x l IH]; [reflexivity|]. cbn [map flat_map absolute app]. rewrite IH. f_equal. lia.
  Qed.
  Lemma dets_at {X} (v : X -> entry) (c : X -> cpx) (t : Z) m rest l :
    detectors 0 0 (t # 1) m (flat_map (fun x => det m (v x) (coords3 (c x))) l ++ rest) = flat_map (fun x => at_ t (v x) (c x)) l ++ detectors 0 0 (t # 1) m rest.
  Proof.
    induction l as [|x l IH]; [reflexivity|]. cbn [flat_map]. rewrite <- !app_assoc. unfold det at 1, at_ at 1. destruct (v x) as [s|]; cbn [app]; [|exact IH].
    cbn [detectors iname itargets canon String.eqb Ascii.eqb Bool.eqb]. rewrite abs_tg, IH. f_equal. unfold arg, coords3, coord, int_arg. cbn [iargs nth].
    f_equal; apply Qred_complete; ring.
  Qed.
  Lemma keep_dets {X} (v : X -> entry) (c : X -> list num) m l : filter relevant (flat_map (fun x => det m (v x) (c x)) l) = flat_map (fun x => det m (v x) (c x)) l.
  Proof. rewrite filter_flat_map. apply flat_map_ext. intros x. unfold det. now destruct (v x). Qed.
  Lemma dets_mline k t rest : detectors 0 0 t (k * ne) (mline (zk k) ++ rest) = detectors 0 0 t (S k * ne) rest.
  Proof.
    pose proof (results_mline (zk k)) as R. replace (S k * ne)%nat with (k * ne + ne)%nat by lia. unfold mline, mop in *.
    destruct (is_em3 (style lay)); specialize (R _ (or_introl eq_refl)); cbn [app detectors iname canon String.eqb Ascii.eqb Bool.eqb]; now rewrite R.
  Qed.
  Lemma Qred_int z : Qred (z # 1) = (z # 1)%Q.
  Proof. apply Qcanon.Qred_identity. cbn [Qnum Qden]. apply Z.gcd_1_r. Qed.
  Lemma dets_shift t m rest : detectors 0 0 (t # 1) m (shift_i :: rest) = detectors 0 0 (t + 1 # 1) m rest.
  Proof.
    unfold shift_i. cbn [detectors iname canon String.eqb Ascii.eqb Bool.eqb]. unfold arg. cbn [iargs nth int_arg]. change (Qred (0 + (0 # 1))) with 0%Q.
    rewrite (Qred_complete _ (t + 1 # 1)) by (unfold Qeq; cbn [Qnum Qden Qplus]; lia). now rewrite Qred_int.
  Qed.
  Lemma dets_row k rest : detectors 0 0 (zk k # 1) (k * ne) (row k ++ rest) = row_dets k ++ detectors 0 0 (zk (S k) # 1) (S k * ne) rest.
  Proof.
    unfold row, row_dets. rewrite <- !app_assoc. rewrite dets_mline. unfold Shift.annk, ann. rewrite !filter_app, <- !app_assoc.
    replace (filter relevant (obsinc lay (zk k) (trk k))) with (@nil instr) by (unfold obsinc; destruct (pc3 lay); [|destruct (comb _)]; reflexivity). cbn [app].
    assert (Ht : (tm (trk k) + length (E (zk k)))%nat = (S k * ne)%nat) by (rewrite (tmk lay Hv), (length_E lay Hv (zk k)); lia).
    unfold dets0, hexdets, init_basis. rewrite Ht.
    assert (Hz : zk (S k) = zk k + 1) by lia. rewrite Hz. change (filter relevant [shift_i]) with [shift_i].
    destruct ((zk k =? 0) && _); cbn [filter app]; rewrite ?keep_dets, ?dets_at; rewrite <- ?app_assoc; rewrite ?dets_at; rewrite <- ?app_assoc; cbn [app]; now rewrite dets_shift.
  Qed.
  Lemma dets_rows k rest : detectors 0 0 0 0 (flat_map row (seq 0 k) ++ rest) = flat_map row_dets (seq 0 k) ++ detectors 0 0 (zk k # 1) (k * ne) rest.
  Proof.
    revert rest. induction k as [|k IH]; intros rest; [reflexivity|]. rewrite seq_S, !flat_map_app, <- !app_assoc, IH. cbn [flat_map Nat.add]. now rewrite !app_nil_r, dets_row.
  Qed.
  Lemma hdata_keep p : filter relevant (hdata lay p) = [].
  Proof. unfold hdata. destruct p; reflexivity. Qed.
  Lemma D_pos : (0 < length D)%nat.
  Proof. pose proof (count_data lay Hv) as L. destruct Hv as (W & _ & H & _). nia. Qed.
  Lemma circuit_keep : supported ->
    filter relevant (circuit_i lay) = flat_map row (seq 0 N) ++ mkI "M" (qs (Ends.data_ix lay)) [] ::
      (if pauli_eqb (xyz (n - 1)) (final_basis lay) then fin_edges lay (trk N) else fin_other lay (trk N)) ++ fin_hexes lay (trk N).
  Proof.
    intros Hs. unfold circuit_i, init_i, fin. rewrite !filter_app, keep_body, !hdata_keep by exact Hs.
    replace (filter relevant (coords_i lay)) with (@nil instr).
    2:{ symmetry. apply filter_none. unfold coords_i. apply Forall_forall. intros i Hi. apply in_map_iff in Hi. destruct Hi as (q & <- & _). reflexivity. }
    cbn [filter app]. change (relevant (mkI "R" (qs (used_ix lay)) [])) with false. rewrite keep_tick. cbn [app]. f_equal.
    replace (relevant (mkI "M" (qs (Ends.data_ix lay)) [])) with true.
    2:{ unfold relevant. cbv zeta. rewrite results_M. unfold Ends.data_ix. rewrite map_length. pose proof D_pos. destruct (length D); [lia | reflexivity]. }
    cbn [app]. f_equal.
    replace (filter relevant (fin_obs lay (trk N))) with (@nil instr) by (unfold fin_obs; destruct (comb _); reflexivity). rewrite app_nil_r.
    unfold fin_edges, fin_other, fin_hexes. destruct (pauli_eqb (xyz (n - 1)) (final_basis lay)); now rewrite !keep_dets.
  Qed.
  Theorem circuit_detectors : supported -> detectors 0 0 0 0 (circuit_i lay) = flat_map row_dets (seq 0 N) ++ fin_dets.
  Proof.
    intros Hs. rewrite detectors_keep, circuit_keep, dets_rows by exact Hs. f_equal.
    cbn [detectors iname canon String.eqb Ascii.eqb Bool.eqb]. rewrite results_M. unfold Ends.data_ix. rewrite map_length.
    assert (Hf : ftime lay (trk N) = (N * ne + length D)%nat) by (unfold ftime; now rewrite (tmk lay Hv)).
    replace (zk N) with n by (destruct Hs; lia).
    unfold fin_edges, fin_other, fin_hexes, fin_dets. rewrite Hf. destruct (pauli_eqb (xyz (n - 1)) (final_basis lay)); rewrite dets_at; f_equal; rewrite <- (app_nil_r (flat_map (fun h => det _ _ (coords3 h)) _)), dets_at; cbn [detectors]; now rewrite app_nil_r.
  Qed.
  Theorem circuit_measurements : supported -> measurements (circuit_i lay) = (N * ne + length D)%nat.
  Proof.
    intros Hs. rewrite measurements_keep, circuit_keep, measurements_app by exact Hs.
    assert (Hd : forall {X} (v : X -> entry) c m l, measurements (flat_map (fun x => det m (v x) (c x)) l) = 0%nat).
    { intros X v c m l. induction l as [|x l IH]; [reflexivity|]. cbn [flat_map]. rewrite measurements_app, IH. unfold det. destruct (v x); reflexivity. }
    f_equal.
    - generalize N as k. intros k. induction k as [|k IH]; [reflexivity|]. rewrite seq_S, flat_map_app, measurements_app, IH. cbn [flat_map Nat.add]. rewrite app_nil_r.
      unfold row. rewrite measurements_app. rewrite <- measurements_keep.
      replace (measurements (annk k)) with 0%nat.
      2:{ unfold Shift.annk, ann. rewrite !measurements_app. unfold obsinc, dets0, hexdets. rewrite Hd. destruct (pc3 lay); [|destruct (comb _)]; destruct (_ && _); rewrite ?Hd; reflexivity. }
      pose proof (results_mline (zk k)) as R. unfold mline, mop in *. destruct (is_em3 (style lay)); specialize (R _ (or_introl eq_refl)); unfold measurements; cbn [map list_sum fold_right]; rewrite R; lia.
    - match goal with |- measurements (?a :: ?b) = _ => change (measurements ([a] ++ b) = length D) end.
      rewrite !measurements_app. unfold fin_edges, fin_other, fin_hexes. rewrite Hd. destruct (pauli_eqb (xyz (n - 1)) (final_basis lay)); rewrite Hd; unfold measurements; cbn [map list_sum fold_right]; rewrite results_M; unfold Ends.data_ix; rewrite map_length; lia.
  Qed.
End S.
