(** The double EPR circuit with its noise, and its closed form. *)
From Coq Require Import QArith.
From Verif Require Import Prelude Layout LayoutFacts LayoutEdges LayoutLists LayoutHex LayoutHex2 Pauli LayoutObs LayoutLogic LayoutIndex Prop_Layout
  Tracker TrackerFacts Stim Circuit Annot Shift Ends Gen Gen2 Traj Eval Frame Exec Exec2 Exec4 Noise NoiseFacts NoiseMoments Epr EprRun EprRun2.
Open Scope Z_scope.

(** ** Noise on one moment: products of pairs, then annotations, then TICK *)
Lemma triples_flat {A X} (a b c : X -> A) l : triples (flat_map (fun e => [a e; b e; c e]) l) = Some (map (fun e => (a e, b e, c e)) l).
Proof. induction l as [|e l IH]; [reflexivity|]. cbn [flat_map app triples map]. now rewrite IH. Qed.
Lemma union_nil a : union a [] = a.
Proof. unfold union. cbn. apply app_nil_r. Qed.

Definition annot (i : instr) : Prop := (iname i = "OBSERVABLE_INCLUDE"%string \/ iname i = "DETECTOR"%string).
Lemma noisy_annot p a qubits op r pre mid post u w : annot op ->
  noisy_instr (NM_EM3_v1 p) a qubits op (mkNS r pre mid post u w) = Ok (mkNS r pre (mid ++ [I op]) post u w).
Proof.
  intros H. unfold noisy_instr, op_strength, noisy_op. destruct op as [nm ts args]. cbn [iname itargets iargs] in *.
  destruct H as [H|H]; cbn [iname] in H; subst nm; cbn -[union app]; change (Qlt_bool 0 0) with false; cbn -[union app]; rewrite union_nil, !app_nil_r; reflexivity.
Qed.
Lemma noisy_annots p a qubits l r pre post u w : Forall annot l -> forall mid,
  noisy_list (NM_EM3_v1 p) a qubits (map I l) (mkNS r pre mid post u w) = Ok (mkNS r pre (mid ++ map I l) post u w).
Proof.
  induction 1 as [|op l Ho H IH]; intros mid; [cbn; now rewrite app_nil_r|]. cbn [map noisy_list]. rewrite noisy_annot by exact Ho. cbn [bind]. rewrite IH.
  now rewrite <- app_assoc.
Qed.
Lemma noisy_list_app nm a qubits l1 l2 st : noisy_list nm a qubits (l1 ++ l2) st = let! st := noisy_list nm a qubits l1 st in noisy_list nm a qubits l2 st.
Proof.
  revert st. induction l1 as [|y l1 IH]; intros st; [reflexivity|]. cbn [app noisy_list].
  destruct (match y with I op => _ | Rep k _ => _ end) as [st'|]; [cbn [bind]; apply IH | reflexivity].
Qed.
Lemma sorted_diff_all qubits s : (forall q, In q qubits -> In q s) -> sorted_diff qubits s = [].
Proof.
  intros H. unfold sorted_diff. replace (filter _ qubits) with (@nil nat); [reflexivity|]. symmetry.
  induction qubits as [|q l IH]; [reflexivity|]. cbn [filter]. replace (memb q s) with true; [cbn [negb]; apply IH; intros; apply H; now right|].
  symmetry. apply memb_In. apply H. now left.
Qed.

Definition pair_targets {X} (p : pauli) (a b : X -> nat) (l : list X) : list target := flat_map (fun e => [TP p (a e); TComb; TP p (b e)]) l.
Definition pair_qubits {X} (a b : X -> nat) (l : list X) : list nat := flat_map (fun e => [a e; b e]) l.
Lemma noisy_moment {X} p (pl : pauli) (a b : X -> nat) l ann qubits : Forall annot ann -> (forall q, In q qubits -> In q (pair_qubits a b l)) ->
  noisy_circuit_on (NM_EM3_v1 p) qubits (map I (mkI "MPP" (pair_targets pl a b l) [] :: ann ++ [tick_i])) =
  Ok (map I ((if Qlt_bool 0 p then [mkI "DEPOLARIZE2" (qs (pair_qubits a b l)) [Num p]; mkI "MPP" (pair_targets pl a b l) [Num p]]
              else [mkI "MPP" (pair_targets pl a b l) []]) ++ ann ++ [tick_i])).
Proof.
  intros Ha Hq. unfold noisy_circuit_on. rewrite noisy_body_eq. generalize (circuit_num_qubits (map I (mkI "MPP" (pair_targets pl a b l) [] :: ann ++ [tick_i]))). intros anc.
  assert (Q1 : tqubits (pair_targets pl a b l) = pair_qubits a b l).
  { unfold tqubits, pair_targets, pair_qubits. clear. induction l as [|e l IH]; [reflexivity|]. cbn [flat_map app]. rewrite IH. reflexivity. }
  assert (Q2 : map tvalue (filter (fun t => negb (is_combiner t)) (pair_targets pl a b l)) = qs (pair_qubits a b l)).
  { unfold pair_targets, pair_qubits, qs. clear. induction l as [|e l IH]; [reflexivity|]. cbn [flat_map app filter is_combiner negb map tvalue]. rewrite IH. reflexivity. }
  assert (Q3 : forallb (fun '(_, t, _) => is_combiner t) (map (fun e => (TP pl (a e), TComb, TP pl (b e))) l) = true).
  { apply forallb_forall. intros t Ht. apply in_map_iff in Ht. destruct Ht as (e & <- & _). reflexivity. }
  cbn [map noisy_list].
  assert (M : noisy_instr (NM_EM3_v1 p) anc qubits (mkI "MPP" (pair_targets pl a b l) []) ns_init =
    Ok (mkNS [] (if Qlt_bool 0 p then [I (mkI "DEPOLARIZE2" (qs (pair_qubits a b l)) [Num p])] else [])
             (if Qlt_bool 0 p then [I (mkI "MPP" (pair_targets pl a b l) [Num p])] else [I (mkI "MPP" (pair_targets pl a b l) [])]) []
             (union [] (pair_qubits a b l)) [])).
  { unfold noisy_instr. cbn [iname itargets iargs String.eqb Ascii.eqb Bool.eqb]. unfold op_strength, NM_EM3_v1. cbn [noisy_gates iname].
    cbn [dict_get find fst String.eqb Ascii.eqb Bool.eqb snd option_map]. cbn [bind]. unfold noisy_op. cbn [iname itargets iargs].
    cbn [in_names existsb ANY_CLIFFORD_1_OPS ANY_CLIFFORD_2_OPS RESET_OPS MEASURE_OPS ANNOTATION_OPS String.eqb Ascii.eqb Bool.eqb orb].
    destruct (Qlt_bool 0 p); cbn [bind].
    - change (triples (pair_targets pl a b l)) with (triples (flat_map (fun e => [TP pl (a e); TComb; TP pl (b e)]) l)). rewrite triples_flat, Q3. cbn [assert_ bind nums_eqb orb use_correlated].
      rewrite Q2, Q1. reflexivity.
    - cbn [bind]. rewrite Q1. reflexivity. }
  rewrite M. cbn [bind]. rewrite map_app, noisy_list_app, noisy_annots by exact Ha. cbn [bind map noisy_list].
  unfold noisy_instr. change (iname tick_i =? "TICK")%string with true. cbn iota zeta.
  unfold flush at 1. cbn [n_mid n_pre n_post n_used n_mr n_result idle measure_reset_idle NM_EM3_v1].
  rewrite (sorted_diff_all qubits (union [] (pair_qubits a b l))) by (intros q Hin; apply in_union; right; now apply Hq).
  assert (Z0 : forall x, nonempty (@nil nat) && x = false) by reflexivity. assert (Z1 : forall x y, x && nonempty (@nil nat) && y = false) by (intros [] []; reflexivity).
  rewrite !Z1. rewrite andb_false_l. destruct (Qlt_bool 0 p) eqn:Eq0; cbn [app nonempty n_mid n_pre n_post n_used n_mr n_result bind];
    unfold flush; cbn [n_mid nonempty n_result]; rewrite append_tick; f_equal; cbn [map app]; rewrite !map_app; cbn [map app]; rewrite ?app_nil_r, <- ?app_assoc; reflexivity.
Qed.

(** ** The whole circuit *)
Definition epr_body (lay : layout) (sub_round : Z) (s : circuit * mtrack) : res (circuit * mtrack) :=
  let '(mem, tr) := s in
  let! (c, tr) := epr_sub_round lay [0; 1; 2; 3]%nat sub_round tr in
  let! c := (if (3 <=? sub_round) && (sub_round <=? sub_rounds lay)
             then let! nm := layout_noise_model lay in noisy_circuit_on nm (seq 0 (Z.to_nat (num_qubits lay))) c
             else Ok c) in
  Ok (mem ++ c, tr).
Lemma double_epr_eq lay : double_epr_circuit lay =
  let! (mem, _) := for_ (zrange 0 (sub_rounds lay)) (epr_body lay) ([], tr_init) in
  let! first := measure_obs_anc_parities lay 0 [0; 1; 2; 3]%nat in
  let! last := measure_obs_anc_parities lay (sub_rounds lay) [0; 1; 2; 3]%nat in
  Ok (first ++ mem ++ last).
Proof. reflexivity. Qed.

Lemma strip_app a b : strip (a ++ b) = strip a ++ strip b.
Proof. unfold strip. now rewrite filter_app, map_app. Qed.
Lemma zrange_split a b c : a <= b -> b <= c -> zrange a c = zrange a b ++ zrange b c.
Proof.
  intros H1 H2. unfold zrange. replace (Z.to_nat (c - a)) with (Z.to_nat (b - a) + Z.to_nat (c - b))%nat by lia. rewrite seq_app, map_app. f_equal.
  assert (K : forall m j, map (fun i => a + Z.of_nat i) (seq (Z.to_nat (b - a) + j) m) = map (fun i => b + Z.of_nat i) (seq j m)).
  { induction m as [|m IH]; intros j; [reflexivity|]. cbn [seq map]. f_equal; [lia|]. rewrite <- IH. do 2 f_equal. lia. }
  rewrite <- K. do 2 f_equal. lia.
Qed.
Lemma zrange_one k : zrange k (k + 1) = [k].
Proof. unfold zrange. replace (Z.to_nat (k + 1 - k)) with 1%nat by lia. cbn [seq map]. f_equal. lia. Qed.
Lemma map_I_inj a b : map I a = map I b -> a = b.
Proof. intros H. rewrite <- (flatten_I a), H. apply flatten_I. Qed.

Section N.
  Variable lay : layout.
  Hypothesis Hv : valid lay.
  Hypothesis Hst : style lay = "EM3"%string.
  Notation E := (round_edges lay).
  Notation zk := Z.of_nat.
  Notation ne := (length (E 0)).
  Notation nh := (length (hexes lay 0)).
  Notation ix := (ix lay).
  Notation ids := [0; 1; 2; 3]%nat.
  Notation n := (sub_rounds lay).
  Local Opaque data_qubit_coords measure_qubit_coords q2i_dict hex_entries hexes round_edges all_edges isort.
  Lemma Hem : is_em3 (style lay) = true.
  Proof. now rewrite Hst. Qed.

  Definition pairs (s : Z) : list nat := pair_qubits (fun e => ix (e_left e)) (fun e => ix (e_right e)) (E s).
  Definition noisy (s : Z) : bool := (3 <=? s) && Qlt_bool 0 (noise lay).
  Definition checks_i (s : Z) : list instr :=
    if noisy s then [mkI "DEPOLARIZE2" (qs (pairs s)) [Num (noise lay)]; mkI "MPP" (mpp_targets lay s) [Num (noise lay)]]
    else [mkI "MPP" (mpp_targets lay s) []].
  Definition notes (s : Z) : list (string * list num) :=
    map (fun j => ("OBSERVABLE_INCLUDE"%string, [int_arg (zk j)])) ids ++ repeat ("DETECTOR"%string, []) (if 6 <=? s then nh else 0).
  Definition moment_shape (s : Z) (ch : list instr) : Prop :=
    exists ann, ch = checks_i s ++ ann ++ [tick_i] /\ map (fun i => (iname i, iargs i)) ann = notes s.

  Lemma notes_annot s ann : map (fun i => (iname i, iargs i)) ann = notes s -> Forall annot ann.
  Proof.
    intros H. apply Forall_forall. intros i Hi. assert (K : In (iname i, iargs i) (notes s)) by (rewrite <- H; apply in_map_iff; now exists i).
    unfold notes in K. apply in_app_iff in K. destruct K as [K|K].
    - apply in_map_iff in K. destruct K as (j & K & _). left. congruence.
    - apply repeat_spec in K. right. congruence.
  Qed.
  Lemma all_paired s q : In q (seq 0 (Z.to_nat (num_qubits lay))) -> In q (pairs s).
  Proof.
    intros H. apply in_seq in H. unfold num_qubits in H. rewrite Hem in H.
    assert (L : (q < length (data_qubit_coords lay))%nat) by (rewrite count_data by exact Hv; lia).
    destruct (nth_error (data_qubit_coords lay) q) as [d|] eqn:En; [|apply nth_error_None in En; lia].
    assert (Hd : In d (data_qubit_coords lay)) by (eapply nth_error_In; eauto).
    assert (Ei : ix d = q).
    { unfold LayoutIndex.ix. rewrite (proj2 (q2i_spec lay Hv d q)); [reflexivity|]. unfold qubits. rewrite nth_error_app1 by exact L. exact En. }
    pose proof (proj1 (C04_perfect_matching lay s Hv)) as P. apply (Permutation_in d (Permutation_sym P)) in Hd. apply in_flat_map in Hd. destruct Hd as (e & Hin & Hd).
    unfold pairs, pair_qubits. apply in_flat_map. exists e. split; [exact Hin|]. destruct Hd as [<-|[<-|[]]]; cbn; auto.
  Qed.

  Lemma strip_annots ann : Forall annot ann -> strip ann = ann.
  Proof.
    unfold strip. induction 1 as [|i l H F IH]; [reflexivity|]. destruct i as [nm ts ag]. destruct H as [H|H]; cbn [iname] in H; subst nm; cbn [filter is_noise existsb iname String.eqb Ascii.eqb Bool.eqb orb negb map bare]; f_equal; exact IH.
  Qed.
  Lemma strip_moment s ch : moment_shape s ch -> exists ann, Forall annot ann /\ ch = checks_i s ++ ann ++ [tick_i] /\ strip ch = mpp_e lay s :: ann ++ [tick_i].
  Proof.
    intros (ann & -> & Hn). apply notes_annot in Hn. exists ann. split; [exact Hn|]. split; [reflexivity|]. rewrite !strip_app, (strip_annots ann) by exact Hn.
    unfold checks_i, mpp_e. destruct (noisy s); reflexivity.
  Qed.

  Section G.
    Variable g : nat -> bool.
    Lemma epr_notes off s tr c st : 0 <= s -> EI lay off s tr c st -> exists ann, epr_i lay s tr = mpp_e lay s :: ann ++ [tick_i] /\ map (fun i => (iname i, iargs i)) ann = notes s.
    Proof.
      intros H0 HI. exists (flat_map (eobs lay s tr) ids ++ edets lay s tr). split; [unfold epr_i; now rewrite <- app_assoc|].
      rewrite map_app. unfold notes. f_equal.
      - assert (K : forall l, map (fun i => (iname i, iargs i)) (flat_map (eobs lay s tr) l) = map (fun j => ("OBSERVABLE_INCLUDE"%string, [int_arg (zk j)])) l); [|apply K].
        induction l as [|j l IH]; [reflexivity|]. cbn [flat_map map]. rewrite map_app, IH. unfold eobs. destruct (comb_raw lay s tr (eoat lay j s)) as (ts & ->). reflexivity.
      - unfold edets. destruct (Z.leb_spec 6 s) as [L|L]; [|reflexivity]. rewrite <- (len_H2 lay Hv s).
        assert (K : forall l, (forall h, In h l -> live (comb [ehex lay s tr h; cur tr (KC h)])) ->
          map (fun i => (iname i, iargs i)) (flat_map (fun h => det (tm tr + length (E s)) (comb [ehex lay s tr h; cur tr (KC h)]) []) l) = repeat ("DETECTOR"%string, []) (length l)).
        { induction l as [|h l IH]; intros HL; [reflexivity|]. cbn [flat_map length repeat]. rewrite map_app, IH by (intros; apply HL; now right).
          specialize (HL h (or_introl eq_refl)). unfold live in HL. unfold det. destruct (comb _); [reflexivity | congruence]. }
        apply K. intros h Hh. apply live_comb. intros v [<-|[<-|[]]].
        + unfold ehex. apply live_comb. intros v Hin. apply in_app_iff in Hin. destruct Hin as [Hin|[<-|[]]].
          * apply in_map_iff in Hin. destruct Hin as (e & <- & _). discriminate.
          * apply (ei_half _ _ _ _ _ _ HI); [lia | exact Hh].
        + apply (ei_live _ _ _ _ _ _ HI (s - 3)); [lia|]. unfold H2 in *. now replace ((s - 3 - 2) mod 3) with ((s - 2) mod 3) by dlia.
    Qed.

    Lemma body_step off s mem tr c st : 0 <= s < n -> EI lay off s tr c st ->
      exists ch tr' st', epr_body lay s (mem, tr) = Ok (mem ++ map I ch, tr') /\ moment_shape s ch /\ run g (strip ch) st = Ok st' /\ EI lay off (s + 1) tr' c st'.
    Proof.
      intros Hs HI. destruct (epr_step lay Hv Hem g off s tr c st (proj1 Hs) HI) as (tr' & E1 & st' & R & HI').
      destruct (epr_notes off s tr c st (proj1 Hs) HI) as (ann & Ea & Hn). pose proof (notes_annot _ _ Hn) as Ha.
      exists (checks_i s ++ ann ++ [tick_i]), tr', st'. split; [|split; [now exists ann|split; [|exact HI']]].
      - unfold epr_body. rewrite E1, Ea. cbn [bind]. unfold checks_i, noisy. replace (s <=? n) with true by (symmetry; apply Z.leb_le; lia). rewrite andb_true_r.
        destruct (3 <=? s); cbn [andb]; [|reflexivity]. unfold layout_noise_model. rewrite Hst. cbn [String.eqb Ascii.eqb Bool.eqb bind].
        unfold mpp_e. change (mpp_targets lay s) with (pair_targets (xyz s) (fun e => ix (e_left e)) (fun e => ix (e_right e)) (E s)).
        rewrite noisy_moment; [reflexivity | exact Ha | apply all_paired].
      - rewrite !strip_app, (strip_annots ann) by exact Ha. replace (strip (checks_i s)) with [mpp_e lay s] by (unfold checks_i, mpp_e; destruct (noisy s); reflexivity).
        rewrite Ea in R. exact R.
    Qed.

    Lemma segment off c m : forall k mem tr st, 0 <= k -> k + zk m <= n -> EI lay off k tr c st ->
      exists chs tr' st', for_ (zrange k (k + zk m)) (epr_body lay) (mem, tr) = Ok (mem ++ map I (concat chs), tr') /\
        Forall2 moment_shape (zrange k (k + zk m)) chs /\ run g (strip (concat chs)) st = Ok st' /\ EI lay off (k + zk m) tr' c st'.
    Proof.
      induction m as [|m IH]; intros k mem tr st Hk Hn HI.
      - exists [], tr, st. rewrite Z.add_0_r. unfold zrange. rewrite Z.sub_diag. cbn. rewrite app_nil_r. split; [reflexivity|]. split; [constructor|]. split; [reflexivity | exact HI].
      - destruct (body_step off k mem tr c st ltac:(lia) HI) as (ch & tr1 & st1 & B1 & B2 & B3 & B4).
        destruct (IH (k + 1) (mem ++ map I ch) tr1 st1 ltac:(lia) ltac:(lia) B4) as (chs & tr2 & st2 & C1 & C2 & C3 & C4).
        replace (k + 1 + zk m) with (k + zk (S m)) in * by lia.
        exists (ch :: chs), tr2, st2. rewrite (zrange_split k (k + 1) (k + zk (S m))) by lia. rewrite zrange_one. cbn [app]. split; [|split; [|split]].
        + change (for_ (k :: zrange (k + 1) (k + zk (S m))) (epr_body lay) (mem, tr)) with (let! s := epr_body lay k (mem, tr) in for_ (zrange (k + 1) (k + zk (S m))) (epr_body lay) s).
          rewrite B1, bind_ok. eapply eq_trans; [exact C1|]. cbn [concat]. now rewrite map_app, app_assoc.
        + now constructor.
        + cbn [concat]. rewrite strip_app, run_app, B3. exact C3.
        + exact C4.
    Qed.
  End G.

  Lemma parities_eq s : measure_obs_anc_parities lay s ids = Ok (map I (flat_map (parity_i lay s) ids)).
  Proof.
    assert (HH : forall s, mapM (q2i lay) (snd (obs_h_before_sub_round lay s)) = Ok (map ix (snd (obs_h_before_sub_round lay s)))).
    { intros s'. apply mapM_q2i; [exact Hv|]. intros q Hq. apply data_in_qubits; [exact Hv|]. apply in_obs_h in Hq; [tauto | exact Hv]. }
    assert (HV : forall s, mapM (q2i lay) (snd (obs_v_before_sub_round lay s)) = Ok (map ix (snd (obs_v_before_sub_round lay s)))).
    { intros s'. apply mapM_q2i; [exact Hv|]. intros q Hq. apply data_in_qubits; [exact Hv|]. apply in_obs_v in Hq; [tauto | exact Hv]. }
    assert (P : forall s j, parity_i lay s j = [mkI "MPP" (TP (fst (anc lay j)) (snd (anc lay j)) :: flat_map (fun i => [TComb; TP (fst (nth j (logical_observables lay s) (PX, []))) i]) (map ix (snd (nth j (logical_observables lay s) (PX, []))))) [];
       mkI "OBSERVABLE_INCLUDE" [TRec (-1)] [int_arg (zk j)]] \/ (4 <= j)%nat).
    { intros s' j. destruct j as [|[|[|[|j]]]]; [left..|right; lia]; unfold parity_i, Oi, Hop, Vop, pstr; rewrite !flat_map_concat_map, !map_map; reflexivity. }
    unfold measure_obs_anc_parities. cbn [for_ nth_error ancilla_observables logical_observables].
    destruct (obs_h_before_sub_round lay s) as [p0 l0] eqn:E0, (obs_v_before_sub_round lay s) as [p1 l1] eqn:E1,
      (obs_h_before_sub_round lay (s + 3)) as [p2 l2] eqn:E2, (obs_v_before_sub_round lay (s + 3)) as [p3 l3] eqn:E3.
    pose proof (HH s) as M0. pose proof (HV s) as M1. pose proof (HH (s + 3)) as M2. pose proof (HV (s + 3)) as M3.
    rewrite E0 in M0. rewrite E1 in M1. rewrite E2 in M2. rewrite E3 in M3. cbn [snd] in *. rewrite M0, M1, M2, M3. cbn [bind].
    cbn [flat_map]. destruct (P s 0%nat) as [P0|P0]; [|lia]. destruct (P s 1%nat) as [P1|P1]; [|lia]. destruct (P s 2%nat) as [P2|P2]; [|lia]. destruct (P s 3%nat) as [P3|P3]; [|lia].
    rewrite P0, P1, P2, P3. unfold logical_observables. rewrite E0, E1, E2, E3. cbn [nth fst snd]. reflexivity.
  Qed.
End N.
