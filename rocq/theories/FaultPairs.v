(** A chain of errors on the pairs of one sub-round that no detector sees and that flips
    the observable: half as many as the chain has qubits. *)
From Coq Require Import QArith.
From Verif Require Import Prelude Layout LayoutFacts LayoutEdges LayoutLists LayoutHex LayoutHex2 Pauli LayoutObs LayoutLogic LayoutIndex
  Tracker TrackerFacts Stim Circuit Noise Annot Shift Ends Gen Gen2 Gen3 Traj Eval Frame Exec Exec2 Exec3 Exec4 Detectors Struct Struct2 Struct3 Moments NoiseFacts NoiseMoments NoiseAlign NoiseCorr
  FaultSpec FaultQuiet FaultCore FaultObs FaultStep FaultNoise FaultChain FaultEnd FaultRun FaultLin FaultLine FaultDist FaultReach FaultFinal.
Open Scope Z_scope.

Section S.
  Variable lay : layout.
  Hypothesis Hv : valid lay.
  Hypothesis Hobs : obs lay = "V"%string \/ obs lay = "H"%string.
  Notation E := (round_edges lay).
  Notation zk := Z.of_nat.
  Notation ne := (length (E 0)).
  Notation D := (data_qubit_coords lay).
  Notation n := (sub_rounds lay).
  Notation N := (Z.to_nat n).
  Notation W := (data_width lay).
  Local Opaque data_qubit_coords measure_qubit_coords q2i_dict hex_entries hexes round_edges all_edges isort.

  (** ** Which qubits, which sub-round, which Pauli *)
  Definition when : Z := if same_basis lay then n - 1 else n - 2.
  Definition what : pauli := if same_basis lay then xyz n else xyz (n - 1).
  Definition pchain : list cpx := if (obs lay =? "V")%string then map (fun a => (4 * a + 2, 2 * (when mod 3))) (zrange 0 W) else snd (obs_v_before_sub_round lay (when + 1)).
  Lemma pchain_data q : In q pchain -> isdata lay q.
  Proof.
    pose proof (valid_tiles lay Hv) as (T1 & T2 & T3 & T4). unfold pchain. destruct (obs lay =? "V")%string.
    - rewrite in_map_iff. intros (a & <- & Ha). apply in_zrange in Ha. unfold isdata, inbox. cbn [fst snd]. repeat split; dlia.
    - rewrite in_obs_v by exact Hv. tauto.
  Qed.
  Lemma pchain_NoDup : NoDup pchain.
  Proof. unfold pchain. destruct (obs lay =? "V")%string; [apply NoDup_map_inj; [intros x y _ _ K; injection K; lia | apply NoDup_zrange] | now apply NoDup_obs_v]. Qed.
  Lemma pmem_row q : isdata lay q -> obs lay = "V"%string -> cmem q pchain = (snd q =? 2 * (when mod 3)).
  Proof.
    intros Hq O. unfold pchain. rewrite O. cbn [String.eqb Ascii.eqb Bool.eqb]. destruct (data_ab lay Hv q Hq) as (a & b & -> & Ha & Hb). cbn [snd]. destruct (Z.eqb_spec (2 * b) (2 * (when mod 3))) as [K|K].
    - apply cmem_In, in_map_iff. exists a. split; [congruence | apply in_zrange; lia].
    - apply cmem_false. rewrite in_map_iff. intros (c & Q & _). apply K. congruence.
  Qed.
  Lemma pmem_col q : isdata lay q -> obs lay = "H"%string -> cmem q pchain = vmem (when + 1) q.
  Proof. intros Hq O. unfold pchain. rewrite O. cbn [String.eqb Ascii.eqb Bool.eqb]. now apply cmem_obs_v. Qed.
  (** the sub-round is odd for the vertical and even for the horizontal observable *)
  Lemma when_parity : when mod 2 = if (obs lay =? "V")%string then 1 else 0.
  Proof. unfold when, same_basis. destruct (obs lay =? "V")%string; [destruct (Z.eqb_spec (n mod 2) 0) | destruct (Z.eqb_spec (n mod 2) 1)]; dlia. Qed.

  Lemma pchain_pairs e : In e (E when) -> cmem (e_left e) pchain = cmem (e_right e) pchain.
  Proof.
    intros He. destruct (round_edge_facts lay Hv when e He) as (Hl & Hr & _ & _ & Ep & _). pose proof (valid_tiles lay Hv) as (T1 & T2 & T3 & T4). pose proof when_parity as Wp. destruct Hobs as [O|O].
    - rewrite !pmem_row by assumption. rewrite Ep. clear Ep Hr. destruct (data_ab lay Hv _ Hl) as (a & b & K & Ha & Hb). rewrite K in *. destruct (partner_ab lay Hv when a b Hl) as (x & y & -> & C). cbn [snd].
      destruct (Z.eqb_spec (2 * b) (2 * (when mod 3))) as [Q|Q], (Z.eqb_spec y (2 * (when mod 3))) as [Q'|Q']; try reflexivity; exfalso; revert Q Q' C T4 Hb; dlia.
    - rewrite !pmem_col by assumption. rewrite Ep. symmetry. rewrite O in Wp. cbn [String.eqb Ascii.eqb Bool.eqb] in Wp. apply vmem_partner; [exact Hv | exact Hl | right; lia |].
      unfold xyz, vbasis. destruct (mod6_cases (when + 1)) as [D6|[D6|[D6|[D6|[D6|D6]]]]]; try (exfalso; revert Wp D6; clear; dlia); rewrite D6;
        [replace (when mod 3) with 0 by (revert D6; clear; dlia) | replace (when mod 3) with 2 by (revert D6; clear; dlia) | replace (when mod 3) with 1 by (revert D6; clear; dlia)]; reflexivity.
  Qed.
  Lemma pchain_edge e : same_basis lay = true -> In e (E (n - 1)) -> cmem (e_left e) pchain = cmem (e_right e) pchain.
  Proof. intros Sb He. apply pchain_pairs. unfold when. rewrite Sb. exact He. Qed.
  Lemma pchain_hex h : ishex lay h -> obs lay = "V"%string \/ pneq (xyz (hexcat h)) (vbasis n) = true -> xsum (fun q => cmem q pchain) (qubits_around_hex lay h) = false.
  Proof.
    intros Hh Hc. destruct (String.eqb_spec (obs lay) "V") as [O|O].
    - rewrite (xsum_ext (fun q => cmem q pchain) (fun q : cpx => snd q =? 2 * (when mod 3))).
      2:{ intros q Hq. apply pmem_row; [|exact O]. apply (in_around lay Hv h q Hh) in Hq. apply Hq. }
      unfold qubits_around_hex, sorted_complex. rewrite <- (xsum_perm _ _ _ (isort_perm _ _)). destruct h as [hx hy]. unfold EDGE_TYPES. cbn [flat_map map snd fst app]. unfold cadd, cscale. cbn [fst snd]. unfold xsum. cbn [fold_right].
      rewrite !(wrap_row lay Hv). unfold pos. cbn [fst snd]. change (-1 * (2 * -1)) with (1 * (2 * 1)). change (-1 * (2 * 1)) with (1 * (2 * -1)). change (-1 * (2 * 0)) with (1 * (2 * 0)).
      repeat match goal with |- context [?x =? ?y] => generalize (x =? y); intros [] end; reflexivity.
    - destruct Hc as [Hc|Hc]; [contradiction|]. assert (OH : obs lay = "H"%string) by (destruct Hobs; [contradiction | assumption]).
      assert (Vb : vbasis (when + 1) = vbasis n).
      { unfold when. destruct (same_basis lay) eqn:Sb; [f_equal; lia|]. unfold same_basis in Sb. rewrite OH in Sb. cbn [String.eqb Ascii.eqb Bool.eqb] in Sb. apply Z.eqb_neq in Sb. unfold vbasis.
        destruct (mod6_cases n) as [D6|[D6|[D6|[D6|[D6|D6]]]]]; try (exfalso; revert Sb D6; clear; dlia); rewrite D6;
          [replace ((n - 2 + 1) mod 6) with 5 by (revert D6; clear; dlia) | replace ((n - 2 + 1) mod 6) with 1 by (revert D6; clear; dlia) | replace ((n - 2 + 1) mod 6) with 3 by (revert D6; clear; dlia)]; reflexivity. }
      pose proof (V_hex_commute lay Hv (when + 1) h Hh) as K. rewrite anticommutes_sym in K. unfold Vop, hex_op in K. rewrite anticommutes_pstr, obs_v_basis, Vb, Hc in K by now apply NoDup_obs_v. cbn [andb] in K.
      unfold pchain. rewrite OH. cbn [String.eqb Ascii.eqb Bool.eqb]. exact K.
  Qed.
  Lemma pchain_flips : xsum (fun q => cmem q pchain) (snd (obr lay n)) = true.
  Proof.
    unfold obr. destruct Hobs as [O|O]; rewrite O; cbn [String.eqb Ascii.eqb Bool.eqb].
    - pose proof (valid_tiles lay Hv) as (T1 & T2 & T3 & T4). set (q0 := (2, 2 * (when mod 3))).
      assert (D0 : isdata lay q0) by (unfold q0, isdata, inbox; cbn [fst snd]; repeat split; dlia).
      rewrite (xsum_ext (fun q => cmem q pchain) (fun q : cpx => snd q =? 2 * (when mod 3))).
      2:{ intros q Hq. apply in_obs_v in Hq; [|exact Hv]. apply pmem_row; [apply Hq | exact O]. }
      rewrite (xsum_single _ _ q0); [unfold q0; cbn [snd]; apply Z.eqb_refl | now apply NoDup_obs_v | |].
      + apply in_obs_v; [exact Hv|]. split; [exact D0|]. unfold vmem, q0. cbn [fst snd]. change (2 =? 2) with true. rewrite andb_true_l. replace (2 * (when mod 3) / 2) with (when mod 3) by dlia. unfold when, same_basis. rewrite O. cbn [String.eqb Ascii.eqb Bool.eqb].
        destruct (mod6_cases n) as [D6|[D6|[D6|[D6|[D6|D6]]]]]; rewrite D6;
        (destruct (Z.eqb_spec (n mod 2) 0) as [Q|Q]; try (exfalso; revert Q D6; clear; dlia)); rewrite negb_true_iff, Z.eqb_neq; revert D6; clear; dlia.
      + intros q Hq Hne. apply in_obs_v in Hq; [|exact Hv]. destruct Hq as [_ Hm]. unfold vmem in Hm. apply andb_prop in Hm. destruct Hm as [Hm _]. apply Z.eqb_eq in Hm. apply Z.eqb_neq. intros K. apply Hne. destruct q as [x y]. cbn [fst snd] in *. unfold q0. congruence.
    - assert (K : anticommutes (Hop lay n) (Vop lay (when + 1)) = true).
      { unfold when. destruct (same_basis lay); [replace (n - 1 + 1) with n by lia; now apply HV_anti|]. replace (n - 2 + 1) with (n - 1) by lia. pose proof (HV_anti lay Hv n) as K. rewrite anticommutes_sym in K.
        pose proof (V_step lay Hv (n - 1)) as Vs. replace (n - 1 + 1) with n in Vs by lia. rewrite (anticommutes_same_l _ _ _ Vs), anticommutes_app_l in K. rewrite anticommutes_sym.
        destruct (anticommutes (Vop lay (n - 1)) (Hop lay n)); [reflexivity|]. rewrite anticommutes_flat_map_l in K; [discriminate K|]. intros e He. apply filter_In in He. apply (H_edge_commute lay Hv n (n - 1)); [now right | tauto]. }
      unfold Hop, Vop in K. rewrite anticommutes_pstr in K by now apply NoDup_obs_v. apply andb_prop in K. unfold pchain. rewrite O. exact (proj2 K).
  Qed.
End S.

(** ** The noise in front of a pair measurement, and the run from there on *)
Lemma run_tick g i st : is_tick i = true -> run_instr g i st = Ok st.
Proof. unfold is_tick, run_instr. intros H. apply String.eqb_eq in H. rewrite H. reflexivity. Qed.
Lemma run_moments g l : forall now st, run g (gates (now ++ l)) st = run g (gates (concat (moments now l))) st.
Proof.
  induction l as [|i l IH]; intros now st; cbn [moments]; [cbn [concat]; reflexivity|]. destruct (is_tick i) eqn:Ti.
  - cbn [concat]. rewrite !gates_app, !run_app. destruct (run g (gates now) st) as [s|]; [|reflexivity]. cbn [bind]. rewrite <- (IH [] s). cbn [app]. unfold gates. cbn [filter]. destruct (negb (is_noise i)); [|reflexivity].
    cbn [run]. now rewrite run_tick.
  - rewrite <- IH, <- app_assoc. reflexivity.
Qed.
Lemma run_sub g nm a m : use_correlated nm = false -> (forall op, In op m -> is_noise op = false) -> forall st, run g (gates (flat_map (sub_any nm a) m)) st = run g m st.
Proof.
  intros Uc. induction m as [|op m IH]; intros Hi st; [reflexivity|]. cbn [flat_map]. rewrite gates_app, run_app. change (op :: m) with ([op] ++ m). rewrite run_app.
  assert (K : run g (gates (sub_any nm a op)) st = run g [op] st).
  { assert (Hn : gates [op] = [op]) by (unfold gates; cbn [filter]; now rewrite (Hi op (or_introl eq_refl))).
    unfold sub_any. destruct (op_strength nm op) as [p|]; [|now rewrite Hn]. destruct (String.eqb_spec (iname op) "MPP") as [M|M]; cbn [andb]; [|now rewrite Hn].
    destruct (Qlt_bool 0 p); [|now rewrite Hn]. rewrite Uc, M. unfold gates. cbn [filter is_noise iname existsb String.eqb Ascii.eqb Bool.eqb orb negb run]. unfold run_instr. cbn [iname itargets]. rewrite M.
    change (canon "MPP") with "MPP"%string. reflexivity. }
  rewrite K. destruct (run g [op] st) as [s|]; [|reflexivity]. cbn [bind]. apply IH. intros o Ho. apply Hi. now right.
Qed.
Lemma run_flip g nm m out st : use_correlated nm = false -> flip_rel nm m out -> run g (gates out) st = run g (gates m) st.
Proof.
  intros Uc (Hi & a & pre & post & -> & [H1 H2] & _). rewrite !gates_app, (gates_noise pre), (gates_noise post), app_nil_r by (intros i H; (apply (H1 i H) || apply (H2 i H))). cbn [app].
  rewrite run_sub; [|exact Uc | intros op Ho; apply (Hi op Ho)]. f_equal. unfold gates. symmetry. clear H1 H2. induction m as [|op m IH]; [reflexivity|]. cbn [filter]. destruct (Hi op (or_introl eq_refl)) as (_ & _ & ->). cbn [negb]. f_equal. apply IH. intros o Ho. apply Hi. now right.
Qed.
Lemma run_rest g nm ms ms' : use_correlated nm = false -> Forall2 (flip_rel nm) ms ms' -> forall st, run g (gates (concat ms')) st = run g (gates (concat ms)) st.
Proof.
  intros Uc F. induction F as [|m out ms ms' R F IH]; intros st; [reflexivity|]. cbn [concat]. rewrite !gates_app, !run_app, (run_flip g nm m out st Uc R). destruct (run g (gates m) st); [|reflexivity]. cbn [bind]. apply IH.
Qed.
Lemma moments_some l : forall now, exists x ms, moments now l = x :: ms.
Proof. induction l as [|i l IH]; intros now; cbn [moments]; [eauto|]. destruct (is_tick i); eauto. Qed.
Lemma moments_cut l : forall now ms1 out m2 ms2, moments now l = ms1 ++ out :: m2 :: ms2 ->
  exists l0 t r, now ++ l = l0 ++ out ++ t :: r /\ is_tick t = true /\ moments [] r = m2 :: ms2.
Proof.
  induction l as [|i l IH]; intros now ms1 out m2 ms2 H; cbn [moments] in H; [destruct ms1 as [|? [|]]; discriminate|]. destruct (is_tick i) eqn:Ti.
  - destruct ms1 as [|x ms1]; cbn [app] in H; injection H as <- H.
    + exists [], i, l. auto.
    + destruct (IH [] ms1 out m2 ms2 H) as (l0 & t & r & K & Kt & Km). cbn [app] in K. exists (now ++ i :: l0), t, r. split; [|auto]. rewrite <- app_assoc. cbn [app]. now rewrite K.
  - destruct (IH _ _ _ _ _ H) as (l0 & t & r & K & Kt & Km). exists l0, t, r. split; [|auto]. rewrite <- app_assoc in K. exact K.
Qed.
Lemma mid_noise nm l l' A m B op p i : Forall2 (flip_rel nm) (moments [] l) (moments [] l') -> use_correlated nm = false -> l = A ++ tick_i :: m ++ tick_i :: B -> no_tick m ->
  In op m -> op_strength nm op = Ok p -> Qlt_bool 0 p = true -> before_op nm op p i ->
  exists l1 l2, l' = l1 ++ i :: l2 /\ forall g st, run g (gates l2) st = run g (gates (m ++ tick_i :: B)) st.
Proof.
  intros F Uc -> Hm Ho Es Hp Hb. rewrite moments_tick in F by reflexivity. rewrite (moments_tick m) in F by reflexivity. rewrite (moments_notick m) in F by exact Hm. cbn [app] in F.
  apply Forall2_app_inv_l in F. destruct F as (ms1 & ms' & _ & F & El). inversion F as [|? out ? ms2 R F2]; subst. destruct (moments_some B []) as (b & bs & Eb). rewrite Eb in F2. inversion F2 as [|? m2 ? ms3 R2 F3]; subst.
  destruct (moments_cut l' [] ms1 out m2 ms3 El) as (l0 & t & r & K & Kt & Km). cbn [app] in K.
  pose proof R as (Hi & a & pre & post & Eo & [H1 H2] & Hfl). pose proof (Hfl op p i Ho Es Hp Hb) as Hin. apply in_split in Hin. destruct Hin as (x1 & x2 & ->).
  exists (l0 ++ x1), (x2 ++ flat_map (sub_any nm a) m ++ post ++ t :: r). split; [rewrite K, Eo, <- !app_assoc; reflexivity|].
  intros g st. rewrite !gates_app, (gates_noise x2) by (intros j Hj; apply (H1 j); apply in_or_app; right; now right). cbn [app]. rewrite (gates_noise post) by (intros j Hj; apply (H2 j Hj)). cbn [app].
  rewrite !run_app, run_sub by (exact Uc || (intros o Ho'; apply (Hi o Ho'))).
  assert (Gm : gates m = m). { clear -Hi. induction m as [|o m IH]; [reflexivity|]. unfold gates in *. cbn [filter]. destruct (Hi o (or_introl eq_refl)) as (_ & _ & ->). cbn [negb]. f_equal. apply IH. intros o' Ho'. apply Hi. now right. }
  rewrite Gm. destruct (run g m st) as [s|]; [|reflexivity]. cbn [bind]. clear Gm.
  assert (T : forall j q u, is_tick j = true -> run g (gates (j :: q)) u = run g (gates q) u).
  { intros j q u Hj. unfold gates. cbn [filter]. destruct (negb (is_noise j)); [|reflexivity]. cbn [run]. now rewrite run_tick. }
  rewrite !T by (exact Kt || reflexivity). change r with ([] ++ r). change B with ([] ++ B). rewrite !run_moments, Km, Eb. apply (run_rest g nm); [exact Uc|]. now constructor.
Qed.

Definition quiet (i : instr) : Prop := In (canon (iname i)) ["DETECTOR"; "OBSERVABLE_INCLUDE"; "QUBIT_COORDS"; "TICK"; "SHIFT_COORDS"]%string.
Lemma quiet_run g l : Forall quiet l -> forall st st', run g l st = Ok st' -> fr st' = fr st /\ frec st' = frec st.
Proof.
  induction 1 as [|i l Hi Hl IH]; intros st st' H; cbn [run] in H; [injection H as <-; auto|]. destruct (run_instr g i st) as [s|] eqn:Er; [|discriminate]. cbn [bind] in H. destruct (IH s st' H) as [-> ->]. clear IH H.
  unfold run_instr in Er. destruct Hi as [K|[K|[K|[K|[K|[]]]]]]; rewrite <- K in Er; cbn [annotation existsb String.eqb Ascii.eqb Bool.eqb orb] in Er.
  - destruct (record_parity _ _); [|discriminate]. injection Er as <-. auto.
  - destruct (obs_arg _); [|discriminate]. cbn [bind] in Er. destruct (record_parity _ _); [|discriminate]. injection Er as <-. auto.
  - injection Er as <-. auto.
  - injection Er as <-. auto.
  - injection Er as <-. auto.
Qed.
Lemma quiet_flat {A} (f : A -> list instr) l : (forall x, Forall quiet (f x)) -> Forall quiet (flat_map f l).
Proof. intros H. induction l as [|x l IH]; [constructor|]. cbn [flat_map]. apply Forall_app. auto. Qed.
Lemma quiet_det t v co : Forall quiet (det t v co).
Proof. destruct v; cbn [det]; repeat (constructor; try (unfold quiet; cbn; tauto)). Qed.
Lemma quiet_annk lay k : Forall quiet (annk lay (tr0 lay) k).
Proof.
  unfold annk, ann. repeat (apply Forall_app; split).
  - unfold obsinc. destruct (pc3 lay); [constructor|]. destruct (comb _); [|constructor]. constructor; [unfold quiet; cbn; tauto | constructor].
  - unfold dets0. destruct (_ && _); [|constructor]. apply quiet_flat. intros x. apply quiet_det.
  - unfold hexdets. apply quiet_flat. intros x. apply quiet_det.
  - constructor; [unfold quiet; cbn; tauto | constructor].
Qed.
Lemma quiet_fin_ann lay : Forall quiet (fin_ann lay).
Proof.
  unfold fin_ann. repeat (apply Forall_app; split).
  - destruct (pauli_eqb _ _); apply quiet_flat; intros x; apply quiet_det.
  - apply quiet_flat. intros x. apply quiet_det.
  - unfold fin_obs. destruct (comb _); repeat (constructor; try (unfold quiet; cbn; tauto)).
Qed.
Lemma pairs_still {X} p (a b : X -> nat) l : forall st, (forall e, In e l -> xorb (anti2 (pbits p) (fr st (a e))) (anti2 (pbits p) (fr st (b e))) = false) ->
  let st' := fold_left (do_measure still) (map (fun e => [(p, a e); (p, b e)]) l) st in (forall x, fr st' x = fr st x) /\ frec st' = frec st ++ repeat false (length l).
Proof.
  induction l as [|e l IH]; intros st Hc; cbn [map fold_left length repeat]; [split; [reflexivity | now rewrite app_nil_r]|].
  set (s1 := do_measure still st [(p, a e); (p, b e)]).
  assert (F1 : forall x, fr s1 x = fr st x).
  { intros x. unfold s1, do_measure, still. cbn [fr fold_left fst snd bsel]. unfold ap1. destruct (Nat.eqb x (b e)), (Nat.eqb x (a e)); rewrite ?bxor_zero_l; reflexivity. }
  assert (R1 : frec s1 = frec st ++ [false]).
  { unfold s1, do_measure. cbn [frec]. do 2 f_equal. unfold xsum. cbn [fold_right fst snd]. rewrite xorb_false_r. apply Hc. now left. }
  destruct (IH s1) as [F2 R2]; [intros e' He'; rewrite !F1; apply Hc; now right|]. cbn zeta in *. split; [intros x; now rewrite F2, F1|]. rewrite R2, R1, <- app_assoc. reflexivity.
Qed.

Section R.
  Variable lay : layout.
  Hypothesis Hv : valid lay.
  Hypothesis Hobs : obs lay = "V"%string \/ obs lay = "H"%string.
  Hypothesis Hem : is_em3 (style lay) = true.
  Notation E := (round_edges lay).
  Notation zk := Z.of_nat.
  Notation ne := (length (E 0)).
  Notation D := (data_qubit_coords lay).
  Notation n := (sub_rounds lay).
  Notation N := (Z.to_nat n).
  Notation trk := (trk lay (tr0 lay)).
  Notation ix := (ix lay).
  Local Opaque data_qubit_coords measure_qubit_coords q2i_dict hex_entries hexes round_edges all_edges isort.

  Lemma round_still k st st' : run still (em3_i lay k) st = Ok st' -> (forall e, In e (E (zk k)) -> xorb (anti2 (pbits (xyz (zk k))) (fr st (ix (e_left e)))) (anti2 (pbits (xyz (zk k))) (fr st (ix (e_right e)))) = false) ->
    (forall x, fr st' x = fr st x) /\ frec st' = frec st ++ repeat false ne.
  Proof.
    intros R Hc. unfold em3_i, mop in R. rewrite Hem in R. rewrite run_app in R. cbn [run] in R. unfold run_instr in R. cbn [iname itargets] in R. change (canon "MPP") with "MPP"%string in R. cbn [annotation existsb String.eqb Ascii.eqb Bool.eqb orb] in R.
    unfold mpp_targets in R. rewrite products_pairs in R. cbn [bind app] in R. destruct (pairs_still (xyz (zk k)) (fun e => ix (e_left e)) (fun e => ix (e_right e)) (E (zk k)) st Hc) as [F1 R1]. cbn zeta in F1, R1.
    apply quiet_run in R; [|apply Forall_app; split; [apply quiet_annk | constructor; [unfold quiet; cbn; tauto | constructor]]]. destruct R as [-> ->]. rewrite (length_E lay Hv) in R1. auto.
  Qed.
  Definition marked (st : fstate) : Prop := forall q, isdata lay q -> fr st (ix q) = if cmem q (pchain lay) then pbits (what lay) else bzero.
  Lemma commutes_here k st e : (when lay <= zk k < n) -> marked st -> In e (E (zk k)) -> xorb (anti2 (pbits (xyz (zk k))) (fr st (ix (e_left e)))) (anti2 (pbits (xyz (zk k))) (fr st (ix (e_right e)))) = false.
  Proof.
    intros Hk Hm He. destruct (round_edge_facts lay Hv (zk k) e He) as (Hl & Hr & _). rewrite !Hm by assumption.
    destruct (Z.eq_dec (zk k) (when lay)) as [K|K].
    - rewrite K in He. rewrite (pchain_pairs lay Hv Hobs e He). apply xorb_nilpotent.
    - unfold when, what in *. destruct (same_basis lay); [lia|]. replace (zk k) with (n - 1) by lia.
      assert (C : forall p, anti2 (pbits p) (pbits p) = false) by (intros []; reflexivity). assert (Z0 : forall p, anti2 (pbits p) bzero = false) by (intros []; reflexivity).
      destruct (cmem (e_left e) _), (cmem (e_right e) _); rewrite ?C, ?Z0; reflexivity.
  Qed.
  Lemma rounds_still m : forall k st st', run still (flat_map (em3_i lay) (seq k m)) st = Ok st' -> when lay <= zk k -> zk k + zk m <= n -> marked st ->
    marked st' /\ frec st' = frec st ++ repeat false (m * ne).
  Proof.
    induction m as [|m IH]; intros k st st' R Hk Hm Hst; cbn [seq flat_map] in R; [injection R as <-; split; [exact Hst | cbn; now rewrite app_nil_r]|].
    rewrite run_app in R. destruct (run still (em3_i lay k) st) as [s|] eqn:E1; [|discriminate]. cbn [bind] in R.
    destruct (round_still k st s E1) as [F1 R1]; [intros e He; apply commutes_here; auto; lia|].
    destruct (IH (S k) s st' R) as [M2 R2]; [lia | lia | intros q Hq; rewrite F1; now apply Hst |]. split; [exact M2|]. rewrite R2, R1, <- app_assoc, <- repeat_app. reflexivity.
  Qed.
  Lemma what_seen q : anti2 (pbits (final_basis lay)) (if cmem q (pchain lay) then pbits (what lay) else bzero) = cmem q (pchain lay).
  Proof.
    destruct (cmem _ _); [|destruct (final_basis lay); reflexivity]. rewrite (final_cases lay). unfold what, xyz. assert (C : n mod 3 = 0 \/ n mod 3 = 1 \/ n mod 3 = 2) by dlia.
    destruct (same_basis lay); (destruct C as [C|[C|C]]; rewrite C;
    [replace ((n - 1) mod 3) with 2 by (revert C; clear; dlia) | replace ((n - 1) mod 3) with 0 by (revert C; clear; dlia) | replace ((n - 1) mod 3) with 1 by (revert C; clear; dlia)]; reflexivity).
  Qed.
  Lemma fin_still st st' : run still (fin lay (trk N)) st = Ok st' -> marked st -> frec st' = frec st ++ map (fun q => cmem q (pchain lay)) D.
  Proof.
    intros R Hst. unfold fin in R. rewrite run_app in R. destruct (hdata_ok lay Hv still (final_basis lay) st) as (s1 & E1 & G1 & _ & _ & G4 & _). rewrite E1 in R. cbn [bind] in R.
    rewrite run_app in R. cbn [run] in R.
    assert (Rm : run_instr still (mkI "M" (qs (Ends.data_ix lay)) []) s1 = Ok (fold_left (fun st q => do_measure still st [(PZ, q)]) (Ends.data_ix lay) s1)) by apply (run_M still).
    rewrite Rm in R. cbn [bind] in R. apply (quiet_run still (fin_ann lay)) in R; [|apply quiet_fin_ann]. destruct R as [_ ->].
    destruct (fold_measure still PZ (Ends.data_ix lay) s1 (NoDup_data_ix lay Hv)) as (K1 & _). cbn zeta in K1. rewrite K1, G1. f_equal. unfold Ends.data_ix. rewrite map_map. apply map_ext_in. intros q Hq. apply (in_data lay Hv) in Hq.
    rewrite G4, hb_anti, Hst by exact Hq. apply what_seen.
  Qed.
  Lemma tail_still s st st' : (s < N)%nat -> when lay = zk s -> marked st -> run still (flat_map (em3_i lay) (seq s (N - s)) ++ fin lay (trk N)) st = Ok st' ->
    frec st' = frec st ++ repeat false ((N - s) * ne) ++ map (fun q => cmem q (pchain lay)) D.
  Proof.
    intros L Hw Hst R. rewrite run_app in R. destruct (run still (flat_map (em3_i lay) (seq s (N - s))) st) as [s1|] eqn:E1; [|discriminate]. cbn [bind] in R.
    destruct (rounds_still (N - s) s st s1 E1) as [M1 R1]; [lia | lia | exact Hst |]. rewrite (fin_still s1 st' R M1), R1, <- app_assoc. reflexivity.
  Qed.
End R.
