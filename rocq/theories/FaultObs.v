(** What a circuit includes in each observable, as positions in the record; and
    for the generated circuits, as check results and data measurements. *)
From Coq Require Import QArith.
From Verif Require Import Prelude Layout LayoutFacts LayoutEdges LayoutLists LayoutHex LayoutHex2 Pauli LayoutObs LayoutLogic LayoutIndex
  Tracker TrackerFacts Stim Circuit Annot Shift Ends Gen Gen2 Gen3 Traj Eval Frame Exec Exec2 Exec3 Exec4 Detectors Struct Struct2 FaultQuiet FaultCore.
Open Scope Z_scope.

(** The indices in the record included in observable x. *)
Fixpoint includes (x made : nat) (l : list instr) : list nat :=
  match l with
  | [] => []
  | i :: r =>
      if (canon (iname i) =? "OBSERVABLE_INCLUDE")%string
      then (match obs_arg (iargs i) with Ok k => if Nat.eqb x k then flat_map (absolute made) (itargets i) else [] | Err _ => [] end) ++ includes x made r
      else includes x (made + results i) r
  end.
Lemma results_obs i : canon (iname i) = "OBSERVABLE_INCLUDE"%string -> results i = 0%nat.
Proof. unfold results. now intros ->. Qed.

Section R.
  Variable g : nat -> bool.
  Lemma fobs_products l : forall st, fobs (fold_left (do_measure g) l st) = fobs st.
  Proof. induction l as [|P l IH]; intros st; [reflexivity|]. cbn [fold_left]. now rewrite IH. Qed.
  Lemma fobs_measure p l : forall st, fobs (fold_left (fun st q => do_measure g st [(p, q)]) l st) = fobs st.
  Proof. induction l as [|P l IH]; intros st; [reflexivity|]. cbn [fold_left]. now rewrite IH. Qed.
  Lemma fobs_reset p l : forall st, fobs (fold_left (do_reset g p) l st) = fobs st.
  Proof. induction l as [|P l IH]; intros st; [reflexivity|]. cbn [fold_left]. now rewrite IH. Qed.
  Lemma run_instr_fobs i st st' : run_instr g i st = Ok st' -> (canon (iname i) =? "OBSERVABLE_INCLUDE")%string = false -> fobs st' = fobs st.
  Proof.
    unfold run_instr. intros H E. rewrite E in H.
    destruct (annotation _); [now inversion H|]. destruct (_ =? "DETECTOR")%string.
    { destruct (record_parity _ _); [|discriminate]. now inversion H. }
    destruct (_ =? "MPP")%string.
    { destruct (products _); [|discriminate]. inversion H. apply fobs_products. }
    destruct (gate1 _).
    { destruct (qubit_targets _); [|discriminate]. now inversion H. }
    destruct (gate2 _) as [[P Q]|].
    { destruct (qubit_targets _); [|discriminate]. cbn [bind] in H. destruct (run_pairs _ _ _ _); [|discriminate]. now inversion H. }
    destruct (reset_gate _).
    { destruct (qubit_targets _); [|discriminate]. inversion H. apply fobs_reset. }
    destruct (measure_gate _); [|discriminate]. destruct (qubit_targets _); [|discriminate]. inversion H. apply fobs_measure.
  Qed.
  Theorem run_includes x l : forall st st', run g l st = Ok st' ->
    (fobs st' x = xorb (fobs st x) (xsum (fun j => nth j (frec st') false) (includes x (length (frec st)) l))) /\
    (forall j, In j (includes x (length (frec st)) l) -> (j < length (frec st'))%nat).
  Proof.
    induction l as [|i l IH]; intros st st' H; cbn [run] in H.
    - inversion H; subst. cbn. split; [now rewrite xorb_false_r | intros j []].
    - destruct (run_instr g i st) as [s1|] eqn:E1; [|discriminate]. cbn [bind] in H.
      destruct (run_instr_record g i st s1 E1) as (r1 & A1 & A2 & _). cbn [includes].
      destruct (IH s1 st' H) as [I1 I2].
      destruct (run_detectors g l s1 st' 0%Q 0%Q 0%Q H) as (r2 & B1 & _).
      destruct (canon (iname i) =? "OBSERVABLE_INCLUDE")%string eqn:Eo.
      + apply String.eqb_eq in Eo. rewrite (results_obs i Eo) in A2. destruct r1; [|discriminate]. rewrite app_nil_r in A1. rewrite A1 in I1, I2.
        unfold run_instr in E1. rewrite Eo in E1. cbn [annotation existsb String.eqb Ascii.eqb Bool.eqb orb] in E1.
        destruct (obs_arg (iargs i)) as [k|]; [|discriminate]. cbn [bind] in E1. destruct (record_parity (frec st) (itargets i)) as [b|] eqn:RP; [|discriminate].
        cbn [bind] in E1. inversion E1; subst s1. cbn [fobs frec] in *.
        assert (Hle : forall j, In j (flat_map (absolute (length (frec st))) (itargets i)) -> (j < length (frec st))%nat) by (intros j; eapply absolute_le; eauto).
        split.
        * rewrite I1, xsum_app, <- xorb_assoc. f_equal. f_equal. destruct (Nat.eqb x k); cbn [andb]; [|reflexivity].
          rewrite (record_parity_abs _ _ _ r2 RP), <- B1. reflexivity.
        * intros j Hj. apply in_app_or in Hj. destruct Hj as [Hj|Hj]; [|now apply I2]. rewrite B1, app_length. destruct (Nat.eqb x k); [|destruct Hj]. specialize (Hle j Hj). lia.
      + rewrite (run_instr_fobs _ _ _ E1 Eo) in I1. replace (length (frec s1)) with (length (frec st) + results i)%nat in I1, I2 by (rewrite A1, app_length; lia).
        split; [exact I1 | exact I2].
  Qed.
End R.

Definition relob (i : instr) : bool := (canon (iname i) =? "OBSERVABLE_INCLUDE")%string || negb (Nat.eqb (results i) 0).
Lemma includes_keep x l : forall m, includes x m l = includes x m (filter relob l).
Proof.
  induction l as [|i l IH]; intros m; [reflexivity|]. cbn [filter]. unfold relob at 1. cbn [includes].
  destruct (_ =? "OBSERVABLE_INCLUDE")%string eqn:E1; cbn [orb]; [cbn [includes]; rewrite E1; now f_equal|].
  destruct (Nat.eqb_spec (results i) 0) as [E3|E3]; cbn [negb].
  - rewrite E3, Nat.add_0_r. apply IH.
  - cbn [includes]. rewrite E1. apply IH.
Qed.

Section S.
  Variable lay : layout.
  Hypothesis Hv : valid lay.
  Hypothesis Hobs : obs lay = "V"%string \/ obs lay = "H"%string.
  Notation ix := (ix lay).
  Notation E := (round_edges lay).
  Notation zk := Z.of_nat.
  Notation ne := (length (E 0)).
  Notation D := (data_qubit_coords lay).
  Notation n := (sub_rounds lay).
  Notation N := (Z.to_nat n).
  Notation trk := (trk lay (tr0 lay)).
  Notation annk := (annk lay (tr0 lay)).
  Notation mop := (mop lay).
  Notation mline := (mline lay).
  Notation supported := (supported lay).
  Local Opaque data_qubit_coords measure_qubit_coords q2i_dict hex_entries hexes round_edges all_edges isort.

  Lemma kob_g name l : canon name = name -> name <> "OBSERVABLE_INCLUDE"%string -> name <> "MPP"%string -> measure_gate name = None -> relob (g name l) = false.
  Proof.
    intros H H1 H3 H4. unfold relob, results, g. cbn [iname]. rewrite H. apply String.eqb_neq in H1, H3. rewrite H1, H3, H4. reflexivity.
  Qed.
  Lemma kob_mline s : filter relob (mline s) = mline s.
  Proof.
    pose proof (results_mline lay Hv s) as R. unfold Struct2.mline, Annot.mop in *. pose proof (ne_pos lay Hv).
    destruct (is_em3 (style lay)); cbn [filter]; (replace (relob _) with true; [reflexivity|]); symmetry; unfold relob; rewrite (R _ (or_introl eq_refl)); apply orb_true_iff; right; destruct ne; [lia | reflexivity | lia | reflexivity].
  Qed.
  Lemma kob_mop s : is_em3 (style lay) = false -> filter relob (mop s) = mline s.
  Proof. intros H. pose proof (kob_mline s) as K. unfold Struct2.mline in *. now rewrite H in *. Qed.
  Lemma kob_dets {X} (v : X -> entry) (c : X -> list num) m l : filter relob (flat_map (fun x => det m (v x) (c x)) l) = [].
  Proof. rewrite filter_flat_map. induction l as [|x l IH]; [reflexivity|]. cbn [flat_map]. rewrite IH. unfold det. now destruct (v x). Qed.
  Lemma kob_annk k : filter relob (annk k) = obsinc lay (zk k) (trk k).
  Proof.
    unfold Shift.annk, ann. rewrite !filter_app. unfold hexdets. rewrite kob_dets.
    replace (filter relob (dets0 lay (zk k) (trk k))) with (@nil instr) by (unfold dets0; destruct (_ && _); [now rewrite kob_dets | reflexivity]).
    cbn [filter app]. change (relob shift_i) with false. cbn iota. rewrite app_nil_r. unfold obsinc. destruct (pc3 lay); [reflexivity|]. destruct (comb _); reflexivity.
  Qed.
  Definition orow (k : nat) : list instr := mline (zk k) ++ obsinc lay (zk k) (trk k).
  Lemma kob_tick : relob tick_i = false.
  Proof. reflexivity. Qed.
  Ltac kg := rewrite ?filter_app; cbn [filter]; rewrite ?kob_g by (reflexivity || discriminate); rewrite ?kob_tick; cbn [app]; rewrite ?app_nil_r.

  Lemma kob_body_em3 : is_em3 (style lay) = true -> filter relob (em3_body lay) = flat_map orow (seq 0 N).
  Proof.
    intros H. unfold em3_body. rewrite filter_flat_map. apply flat_map_ext. intros k. unfold em3_i, orow. rewrite !filter_app, kob_annk.
    pose proof (kob_mline (zk k)) as K. unfold Struct2.mline, Annot.mop in *. rewrite H in *. rewrite K. cbn [filter app]. now rewrite app_nil_r.
  Qed.
  Lemma kob_body_sd6 : is_em3 (style lay) = false -> 1 <= n -> filter relob (sd6_body lay) = flat_map orow (seq 0 N).
  Proof.
    intros H Hn. unfold sd6_body. rewrite filter_app.
    replace (filter relob (sd6_close_i lay)) with (@nil instr).
    2:{ unfold sd6_close_i. rewrite filter_app. destruct (_ =? 0); [|destruct (_ =? 0)]; kg; reflexivity. }
    rewrite app_nil_r. destruct (Z.eqb_spec n 1) as [->|N1].
    - unfold sd6_single_i. kg. rewrite kob_mop by exact H. change (Z.to_nat 1) with 1%nat. cbn [seq flat_map]. unfold orow. rewrite kob_annk. now rewrite app_nil_r.
    - rewrite !filter_app, filter_flat_map. replace (filter relob (sd6_begin_i lay)) with (@nil instr) by (unfold sd6_begin_i; kg; reflexivity). cbn [app].
      replace N with (Z.to_nat (n - 2) + 2)%nat by lia. rewrite seq_app, flat_map_app. f_equal.
      + apply flat_map_ext. intros k. unfold sd6_step_i, orow. kg. rewrite kob_mop, kob_annk by exact H. reflexivity.
      + unfold sd6_end_i, orow. kg. rewrite !kob_mop, !kob_annk by exact H. cbn [seq flat_map app Nat.add]. rewrite ?app_nil_r. rewrite <- !app_assoc. repeat f_equal; lia.
  Qed.
  Lemma kob_body_si : is_em3 (style lay) = false -> 0 <= n -> n mod 3 = 0 -> filter relob (si_body lay) = flat_map orow (seq 0 N).
  Proof.
    intros H Hn H3. unfold si_body. rewrite filter_flat_map.
    replace N with (3 * Z.to_nat (n / 3))%nat by (revert H3; dlia). generalize (Z.to_nat (n / 3)). intros k.
    induction k as [|k IH]; [reflexivity|]. rewrite seq_S, flat_map_app, IH. replace (3 * S k)%nat with (3 * k + 3)%nat by lia. rewrite seq_app, flat_map_app. f_equal.
    cbn [flat_map seq Nat.add app]. rewrite !app_nil_r. unfold si_i. rewrite !filter_app.
    replace (filter relob (si_head lay k)) with (@nil instr) by (unfold si_head; destruct k; [reflexivity|]; kg; reflexivity).
    replace (filter relob (si_gates lay)) with (@nil instr) by (symmetry; apply filter_none; unfold si_gates; repeat (apply Forall_cons; [first [reflexivity | apply kob_g; reflexivity || discriminate]|]); apply Forall_nil).
    change (filter relob [tick_i]) with (@nil instr). cbn [app]. rewrite app_nil_r. rewrite !kob_mop, !kob_annk by exact H. unfold orow. rewrite <- !app_assoc.
    assert (M : forall a b, a mod 3 = b mod 3 -> mline a = mline b) by (intros a b K; unfold Struct2.mline; rewrite H; now apply mop_cong).
    rewrite (M 0 (zk (3 * k))), (M 1 (zk (S (3 * k)))), (M 2 (zk (S (S (3 * k))))) by dlia.
    replace (3 * k + 1)%nat with (S (3 * k)) by lia. replace (3 * k + 2)%nat with (S (S (3 * k))) by lia. reflexivity.
  Qed.
  Lemma kob_body_pc3 : is_em3 (style lay) = false -> 0 <= n -> filter relob (pc3_body lay) = flat_map orow (seq 0 N) ++ pc3_obs_i lay (trk N).
  Proof.
    intros H Hn. unfold pc3_body. rewrite filter_app, filter_flat_map. f_equal.
    2:{ unfold pc3_obs_i. rewrite filter_flat_map. apply flat_map_ext. intros k. destruct (comb _); reflexivity. }
    replace (Z.to_nat (n + 2)) with (2 + N)%nat by lia. rewrite seq_app, flat_map_app.
    assert (P : forall k, filter relob (pc3_i lay k) = if 2 <=? zk k then orow (k - 2) else []).
    { intros k. unfold pc3_i. rewrite !filter_app.
      replace (filter relob (if zk k <? n then _ else _)) with (@nil instr).
      2:{ destruct (_ <? _); [|reflexivity]. cbn [filter]. rewrite kob_g; [reflexivity|..]; unfold pcx; destruct (xyz _); reflexivity || discriminate. }
      replace (filter relob (if (1 <=? zk k) && (zk k <=? n) then _ else _)) with (@nil instr).
      2:{ destruct (_ && _); [|reflexivity]. cbn [filter]. rewrite kob_g; [reflexivity|..]; unfold pcx; destruct (xyz _); reflexivity || discriminate. }
      change (filter relob [tick_i]) with (@nil instr). rewrite app_nil_r. cbn [app]. destruct (2 <=? zk k) eqn:Ek; [|kg; reflexivity].
      rewrite filter_app, kob_mop, kob_annk by exact H. unfold orow. apply Z.leb_le in Ek. do 2 f_equal; lia. }
    cbn [seq flat_map]. rewrite !P. cbn [Z.of_nat Z.leb Z.compare Pos.of_succ_nat Pos.compare Pos.compare_cont app].
    replace (seq (0 + 2) N) with (map (fun k => (k + 2)%nat) (seq 0 N)).
    2:{ generalize N as l0. intros l0. induction l0 as [|m IH]; [reflexivity|]. rewrite !seq_S, map_app, IH. cbn [map]. do 2 f_equal. lia. }
    rewrite flat_map_concat_map, map_map, <- flat_map_concat_map. apply flat_map_ext. intros k. rewrite P.
    replace (2 <=? zk (k + 2)) with true by (symmetry; apply Z.leb_le; lia). f_equal. lia.
  Qed.
  Lemma pc3_style s : style lay = s -> pc3 lay = (s =? "PC3")%string.
  Proof. unfold pc3. now intros ->. Qed.
  Lemma kob_body : supported -> filter relob (body_i lay) = flat_map orow (seq 0 N) ++ (if pc3 lay then pc3_obs_i lay (trk N) else []).
  Proof.
    intros (Hn & Hs). unfold body_i. destruct Hs as [Es|[Es|[Es|[Es|[Es H3]]]]]; rewrite (pc3_style _ Es), Es; cbn [String.eqb Ascii.eqb Bool.eqb]; rewrite ?app_nil_r.
    - apply kob_body_sd6; [now rewrite Es | exact Hn].
    - apply kob_body_pc3; [now rewrite Es | lia].
    - apply kob_body_em3. now rewrite Es.
    - apply kob_body_em3. now rewrite Es.
    - apply kob_body_si; [now rewrite Es | lia | exact H3].
  Qed.
  Lemma hdata_kob p : filter relob (hdata lay p) = [].
  Proof. unfold hdata. destruct p; reflexivity. Qed.
  Lemma circuit_kob : supported ->
    filter relob (circuit_i lay) = flat_map orow (seq 0 N) ++ (if pc3 lay then pc3_obs_i lay (trk N) else []) ++ mkI "M" (qs (Ends.data_ix lay)) [] :: fin_obs lay (trk N).
  Proof.
    intros Hs. unfold circuit_i, init_i, fin. rewrite !filter_app, kob_body, !hdata_kob by exact Hs.
    replace (filter relob (coords_i lay)) with (@nil instr).
    2:{ symmetry. apply filter_none. unfold coords_i. apply Forall_forall. intros i Hi. apply in_map_iff in Hi. destruct Hi as (q & <- & _). reflexivity. }
    cbn [filter app]. change (relob (mkI "R" (qs (used_ix lay)) [])) with false. rewrite kob_tick. cbn [app]. rewrite <- app_assoc. f_equal. f_equal.
    replace (relob (mkI "M" (qs (Ends.data_ix lay)) [])) with true.
    2:{ unfold relob. rewrite results_M. unfold Ends.data_ix. rewrite map_length. pose proof (D_pos lay Hv). destruct (length D); [lia | reflexivity]. }
    cbn [app]. f_equal. unfold fin_edges, fin_other, fin_hexes. rewrite kob_dets.
    replace (filter relob (if pauli_eqb (xyz (n - 1)) (final_basis lay) then _ else _)) with (@nil instr) by (destruct (pauli_eqb (xyz (n - 1)) (final_basis lay)); now rewrite kob_dets).
    cbn [app]. unfold fin_obs. destruct (comb _); reflexivity.
  Qed.

  (** ** The parity of the included results *)
  Variable B : nat -> bool.
  Notation VE := (VE lay B).
  Definition mine (x : nat) (b : bool) : bool := Nat.eqb x (oidx lay) && b.
  Lemma one_include x m v b rest : (forall s, v = Some s -> xsum B s = b) -> v <> None ->
    xsum B (includes x m ((match v with Some s => [mkI "OBSERVABLE_INCLUDE" (tg m s) [int_arg (zk (oidx lay))]] | None => [] end) ++ rest)) =
    xorb (mine x b) (xsum B (includes x m rest)).
  Proof.
    intros H Hn. destruct v as [s|]; [|congruence]. cbn [app includes iname itargets iargs canon String.eqb Ascii.eqb Bool.eqb].
    unfold int_arg, obs_arg, inject_Z. destruct (Z.leb_spec 0 (zk (oidx lay))) as [_|L]; [|lia]. rewrite Nat2Z.id.
    rewrite xsum_app. f_equal. unfold mine. destruct (Nat.eqb x (oidx lay)); cbn [andb]; [|reflexivity].
    rewrite abs_tg, <- (xsum_perm _ _ _ (isort_perm Nat.leb s)). now apply H.
  Qed.
  Lemma sd_value t v x : sd B t v x -> v <> None /\ forall s, v = Some s -> xsum B s = x.
  Proof. intros [H G]. split; [exact H|]. intros s ->. cbn in G. tauto. Qed.

  Lemma inc_row x k rest : xsum B (includes x (k * ne) (orow k ++ rest)) =
    xorb (mine x (if pc3 lay then false else xsum (VE k) (oat lay (zk k)))) (xsum B (includes x (S k * ne) rest)).
  Proof.
    unfold orow. rewrite <- app_assoc.
    assert (Em : includes x (k * ne) (mline (zk k) ++ obsinc lay (zk k) (trk k) ++ rest) = includes x (S k * ne) (obsinc lay (zk k) (trk k) ++ rest)).
    { pose proof (results_mline lay Hv (zk k)) as R. replace (S k * ne)%nat with (k * ne + ne)%nat by lia. unfold Struct2.mline, Annot.mop in *.
      destruct (is_em3 (style lay)); specialize (R _ (or_introl eq_refl)); cbn [app includes iname canon String.eqb Ascii.eqb Bool.eqb]; now rewrite R. }
    rewrite Em. unfold obsinc. destruct (pc3 lay) eqn:P.
    { cbn [app]. unfold mine. now rewrite andb_false_r, xorb_false_l. }
    assert (Ht : (tm (trk k) + length (E (zk k)))%nat = (S k * ne)%nat) by (rewrite (tmk lay Hv), (length_E lay Hv (zk k)); lia).
    rewrite Ht. apply one_include.
    - apply (sd_value (S k * ne)). apply sd_comb_map. intros e He. apply oat_in in He. destruct He as [He _].
      rewrite (vedge_some lay) by exact P. unfold Struct.VE, R. rewrite P, xorb_false_r, (tmk lay Hv). apply sd_single.
      pose proof (index_lt edge_eqb edge_eqb_eq e _ He) as K. rewrite (length_E lay Hv (zk k)) in K. lia.
    - apply comb_some. intros v Hin. apply in_map_iff in Hin. destruct Hin as (e & <- & _). rewrite (vedge_some lay) by exact P. discriminate.
  Qed.
  Lemma inc_rows x k rest : xsum B (includes x 0 (flat_map orow (seq 0 k) ++ rest)) =
    xorb (mine x (if pc3 lay then false else total lay B k)) (xsum B (includes x (k * ne) rest)).
  Proof.
    revert rest. induction k as [|k IH]; intros rest.
    - cbn [seq flat_map app total Nat.mul]. unfold mine. destruct (pc3 lay); now rewrite andb_false_r, xorb_false_l.
    - rewrite seq_S, flat_map_app, <- app_assoc, IH. cbn [flat_map Nat.add]. rewrite app_nil_r, inc_row. cbn [total]. unfold mine.
      destruct (Nat.eqb x (oidx lay)), (pc3 lay); cbn [andb]; rewrite ?xorb_false_l; try reflexivity. now rewrite xorb_assoc.
  Qed.
  (** PC3: the ancillas' last results add up to all the check results. *)
  Lemma LR_step k r : pc3 lay = true -> 0 <= r < 3 ->
    xsum (LR lay B (S k)) (oat lay r) = xorb (xsum (LR lay B k) (oat lay r)) (if zk k mod 3 =? r then xsum (VE k) (oat lay (zk k)) else false).
  Proof.
    intros P Hr. destruct (Z.eqb_spec (zk k mod 3) r) as [Er|Nr].
    - assert (Eo : oat lay (zk k) = oat lay r).
      { rewrite !oat_filter. rewrite (E_cong lay (zk k) r) by (rewrite Er; symmetry; apply Z.mod_small; lia). reflexivity. }
      rewrite Eo, <- xsum_xorb. apply xsum_ext. intros e He. rewrite <- Eo in He. apply oat_in in He. destruct He as [He _].
      cbn [LR]. pose proof He as He'. apply emem_In in He'. rewrite He'. unfold Struct.VE. rewrite P. rewrite (xorb_comm (R lay B k e)), <- xorb_assoc, xorb_nilpotent, xorb_false_l. reflexivity.
    - rewrite xorb_false_r. apply xsum_ext. intros e He. apply oat_in in He. destruct He as [He _]. cbn [LR].
      destruct (emem e (E (zk k))) eqn:F; [|reflexivity]. apply emem_In in F. exfalso. apply Nr. rewrite (round_edges_disjoint lay Hv (zk k) r e F He). apply Z.mod_small; lia.
  Qed.
  Lemma LR_total k : pc3 lay = true -> xorb (xorb (xsum (LR lay B k) (oat lay 0)) (xsum (LR lay B k) (oat lay 1))) (xsum (LR lay B k) (oat lay 2)) = total lay B k.
  Proof.
    intros P. induction k as [|k IH].
    - cbn [LR total]. rewrite !xsum_false by auto. reflexivity.
    - rewrite !LR_step by (auto; lia). cbn [total]. rewrite <- IH.
      assert (Hk : zk k mod 3 = 0 \/ zk k mod 3 = 1 \/ zk k mod 3 = 2) by dlia.
      generalize (xsum (LR lay B k) (oat lay 0)), (xsum (LR lay B k) (oat lay 1)), (xsum (LR lay B k) (oat lay 2)), (xsum (VE k) (oat lay (zk k))).
      destruct Hk as [->|[->| ->]]; cbn [Z.eqb Pos.eqb]; now intros [] [] [] [].
  Qed.
  Theorem circuit_includes x : supported -> xsum B (includes x 0 (circuit_i lay)) = mine x (effect lay B).
  Proof.
    intros Hs. rewrite includes_keep, circuit_kob, inc_rows by exact Hs.
    assert (Hf : ftime lay (trk N) = (N * ne + length D)%nat) by (unfold ftime; now rewrite (tmk lay Hv)).
    assert (HM : xsum B (includes x (N * ne) (mkI "M" (qs (Ends.data_ix lay)) [] :: fin_obs lay (trk N))) = mine x (xsum (dat lay B) (snd (obr lay n)))).
    { cbn [includes iname canon String.eqb Ascii.eqb Bool.eqb]. rewrite results_M. unfold Ends.data_ix. rewrite map_length.
      unfold fin_obs. rewrite Hf, <- (app_nil_r (match comb _ with Some _ => _ | None => _ end)).
      assert (G : sd B (N * ne + length D) (comb (map (dq lay (trk N)) (snd (obr lay n)))) (xsum (dat lay B) (snd (obr lay n)))).
      { apply sd_comb_map. intros q Hq. apply (dq_sd lay Hv B q). exact (proj2 (in_data lay Hv _) (obr_data lay Hv Hobs n q Hq)). }
      apply sd_value in G. destruct G as [G1 G2].
      transitivity (xorb (mine x (xsum (dat lay B) (snd (obr lay n)))) (xsum B (includes x (N * ne + length D) []))); [|apply xorb_false_r].
      apply one_include; assumption. }
    unfold effect. destruct (pc3 lay) eqn:P.
    - rewrite <- (LR_total N P).
      assert (S1 : forall k rest, In k [0; 1; 2] -> xsum B (includes x (N * ne) ((match comb (map (fun e => cur (trk N) (KHalf (KE e))) (oat lay k)) with
                       | Some s => [mkI "OBSERVABLE_INCLUDE" (tg (tm (trk N)) s) [int_arg (Z.of_nat (oidx lay))]] | None => [] end) ++ rest)) =
          xorb (mine x (xsum (LR lay B N) (oat lay k))) (xsum B (includes x (N * ne) rest))).
      { intros k rest Hk. rewrite (tmk lay Hv).
        assert (G : sd B (N * ne) (comb (map (fun e => cur (trk N) (KHalf (KE e))) (oat lay k))) (xsum (LR lay B N) (oat lay k))).
        { apply sd_comb_map. intros e He. apply (si_he lay B N (SI_all lay Hv B N)). apply oat_in in He. destruct He as [He _]. now apply (in_all_of_round lay k). }
        apply sd_value in G. destruct G. now apply one_include. }
      unfold pc3_obs_i. cbn [flat_map]. rewrite <- !app_assoc. cbn [app]. rewrite !S1 by (cbn; auto). rewrite HM. unfold mine.
      destruct (Nat.eqb x (oidx lay)); cbn [andb]; [|reflexivity]. rewrite xorb_false_l, !xorb_assoc. reflexivity.
    - cbn [app]. rewrite HM. unfold mine. destruct (Nat.eqb x (oidx lay)); reflexivity.
  Qed.
End S.
