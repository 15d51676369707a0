(** The generators' output as explicit instruction lists, and the loop-free
    reference generators. *)
From Coq Require Import QArith.
From Verif Require Import Prelude Layout LayoutFacts LayoutEdges LayoutLists LayoutHex LayoutHex2 Pauli LayoutObs LayoutLogic LayoutIndex
  Tracker TrackerFacts Stim Circuit Annot Shift Ends.
Open Scope Z_scope.

(** ** The shape of a folded circuit: plain instructions, a loop without inner loops
    whose body starts with the instructions [mi j] of some unit j, plain
    instructions; the loop starts right after a TICK and its body ends with a TICK *)
Definition ends_tick (l : list instr) : Prop := exists x, l = x ++ [mkI "TICK" [] []].
Definition folded (mi : nat -> list instr) (c : circuit) : Prop :=
  exists X Y Z k, c = map I X ++ circuit_mul (map I Y) k ++ map I Z /\ 0 <= k /\ (X = [] \/ ends_tick X) /\ ends_tick Y /\ exists j l, Y = mi j ++ l.
Lemma ends_tick_app a b : ends_tick b -> ends_tick (a ++ b).
Proof. intros (x & ->). exists (a ++ x). now rewrite app_assoc. Qed.
Lemma folded_I mi l : ends_tick (mi O) -> folded mi (map I l).
Proof. intros H. exists [], (mi O), l, 0. repeat split; auto; [lia|]. exists O, []. now rewrite app_nil_r. Qed.
Lemma folded_loop mi X j l k : 0 <= k -> X = [] \/ ends_tick X -> ends_tick (mi j ++ l) -> folded mi (map I X ++ circuit_mul (map I (mi j ++ l)) k).
Proof. intros Hk HX HY. exists X, (mi j ++ l), [], k. cbn [map]. rewrite app_nil_r. repeat split; auto. eauto. Qed.
Lemma folded_post mi c l : folded mi c -> folded mi (c ++ map I l).
Proof. intros (X & Y & Z & k & -> & Hk & HX & HY & Hj). exists X, Y, (Z ++ l), k. rewrite map_app, <- !app_assoc. repeat split; auto. Qed.
Lemma folded_pre mi c l : ends_tick l -> folded mi c -> folded mi (map I l ++ c).
Proof.
  intros Hl (X & Y & Z & k & -> & Hk & HX & HY & Hj). exists (l ++ X), Y, Z, k. rewrite map_app, <- !app_assoc. repeat split; auto.
  right. destruct HX as [->|HX]; [now rewrite app_nil_r | now apply ends_tick_app].
Qed.

(** ** Reference generators without loops: the sub-rounds one after another *)
(** generate_rounds_sd6 with every pipeline step generated in turn. *)
Definition unrolled_sd6 (lay : layout) (tr : mtrack) : res (circuit * mtrack) :=
  let n := sub_rounds lay in
  let! (result, tr) :=
    (if n =? 0 then Err NotImplementedError
     else if n =? 1 then sd6_single lay tr
     else
       let! result := sd6_begin lay in
       let! (result, tr) := for_ (zrange 0 (n - 2)) (sd6_add_step lay) (result, tr) in
       sd6_end lay (result, tr)) in
  let! result := sd6_close lay result in
  Ok (result, tr).
(** generate_rounds_pc3 and _em3 with every moment generated in turn. *)
Definition moments_in_turn (moment : Z -> mtrack -> res (circuit * mtrack)) (count : Z) (tr : mtrack) : res (circuit * mtrack) :=
  for_ (zrange 0 count) (fun k '(result, tr) => let! (c, tr) := moment k tr in Ok (result ++ c, tr)) ([], tr).
Definition unrolled_pc3 (lay : layout) (tr : mtrack) : res (circuit * mtrack) :=
  if sub_rounds lay =? 0 then Err NotImplementedError else
  let! (result, tr) := moments_in_turn (pc3_moment lay) (sub_rounds lay + 2) tr in
  let! result := pc3_observable lay result tr in
  Ok (result, tr).
Definition unrolled_em3 (lay : layout) (tr : mtrack) : res (circuit * mtrack) :=
  if sub_rounds lay =? 0 then Err NotImplementedError else moments_in_turn (em3_moment lay) (sub_rounds lay) tr.
(** generate_rounds_SI1000 with every cycle of three sub-rounds generated in turn. *)
Definition unrolled_SI1000 (lay : layout) (tr : mtrack) : res (circuit * mtrack) :=
  if sub_rounds lay =? 0 then Err NotImplementedError
  else if negb (sub_rounds lay mod 3 =? 0) then Err NotImplementedError
  else moments_in_turn (fun j => generate_cycle_SI1000 (3 * j) lay) (sub_rounds lay / 3) tr.
Definition unrolled_rounds (lay : layout) (tr : mtrack) : res (circuit * mtrack) :=
  if (style lay =? "SD6")%string then unrolled_sd6 lay tr
  else if (style lay =? "PC3")%string then unrolled_pc3 lay tr
  else if is_em3 (style lay) then unrolled_em3 lay tr
  else if (style lay =? "SI1000")%string then unrolled_SI1000 lay tr
  else Err NotImplementedError.
(** generate_honeycomb_circuit's circuit before noise, without loops. *)
Definition unrolled_circuit (lay : layout) : res circuit :=
  let! c0 := qubit_coords lay in
  let! (c1, tr) := fault_tolerant_init lay tr_init in
  let! (c2, tr) := unrolled_rounds lay tr in
  let! (c3, tr) := fault_tolerant_measurement lay tr in
  Ok (c0 ++ c1 ++ c2 ++ c3).

(** ** Lists *)
Lemma for_app {A S} (xs ys : list A) (body : A -> S -> res S) s :
  for_ (xs ++ ys) body s = bind (for_ xs body s) (for_ ys body).
Proof.
  revert s. induction xs as [|x xs IH]; intros s; [reflexivity|]. cbn [app for_]. destruct (body x s); cbn [bind]; [apply IH | reflexivity].
Qed.
Lemma repeat_periodic {A} (f : nat -> list A) k it : (forall j, (k <= j)%nat -> f (j + 3)%nat = f j) ->
  concat (repeat (f k ++ f (k + 1)%nat ++ f (k + 2)%nat) it) = flat_map f (seq k (3 * it)).
Proof.
  revert k. induction it as [|it IH]; intros k H; [reflexivity|]. replace (3 * S it)%nat with (S (S (S (3 * it)))) by lia.
  cbn [repeat concat seq flat_map]. rewrite <- !app_assoc.
  replace (k + 1)%nat with (S k) by lia. replace (k + 2)%nat with (S (S k)) by lia. do 3 f_equal.
  replace (S (S (S k))) with (k + 3)%nat by lia. rewrite <- IH.
  - rewrite <- (H k), <- (H (S k)), <- (H (S (S k))) by lia.
    replace (k + 3 + 1)%nat with (S k + 3)%nat by lia. replace (k + 3 + 2)%nat with (S (S k) + 3)%nat by lia. reflexivity.
  - intros j Hj. apply H. lia.
Qed.
Lemma zrange_seq k m : zrange (Z.of_nat k) m = map Z.of_nat (seq k (Z.to_nat m - k)).
Proof.
  unfold zrange. replace (Z.to_nat (m - Z.of_nat k)) with (Z.to_nat m - k)%nat by lia.
  generalize (Z.to_nat m - k)%nat as j. intros j.
  revert k. induction j as [|j IH]; intros k; [reflexivity|]. cbn [seq map]. f_equal; [lia|].
  rewrite <- IH, <- seq_shift, map_map. apply map_ext. intros; lia.
Qed.

(** Rewrite the computation of a bind, up to conversion of the tracker's type. *)
Ltac hd_of t := match t with ?f _ => hd_of f | _ => t end.
Ltac step H :=
  match type of H with ?l = ?r =>
    let h := hd_of l in
    match goal with |- context [bind ?m _] =>
      let h' := hd_of m in constr_eq h h';
      let X := fresh in assert (X : m = r) by exact H; rewrite X; clear X; rewrite ?bind_ok
    end
  end.

Section G.
  Variable lay : layout.
  Hypothesis Hv : valid lay.
  Hypothesis Hobs : obs lay = "V"%string \/ obs lay = "H"%string.
  Notation E := (round_edges lay).
  Notation ix := (ix lay).
  Notation n := (sub_rounds lay).
  Notation trk := (trk lay (tr0 lay)).
  Notation annk := (annk lay (tr0 lay)).
  Notation mop := (mop lay).
  Local Opaque data_qubit_coords measure_qubit_coords q2i_dict hex_entries hexes round_edges all_edges isort.

  (** A tracker that behaves like the one before sub-round k of the unrolled run. *)
  Definition follows (d : nat) (tr : mtrack) (k : nat) : Prop :=
    wf tr /\ ready lay tr /\ simP d (univ lay) tr (trk k).

  Lemma cong3 a b : a mod 3 = b mod 3 -> E a = E b.
  Proof. apply E_cong. Qed.
  Lemma mop_cong a b : a mod 3 = b mod 3 -> mop a = mop b.
  Proof. intros H. unfold Annot.mop. now rewrite (cong3 a b H). Qed.

  Lemma smd_follow d tr k s : follows d tr k -> s mod 3 = Z.of_nat k mod 3 -> (s =? 0) = (Z.of_nat k =? 0) ->
    exists tr', sub_round_measurements_and_detectors lay tr s = Ok (map I (mop (Z.of_nat k) ++ annk k), tr') /\ follows d tr' (S k).
  Proof.
    intros (Hw & Hr & Hs) H3 H0. destruct (smd_spec lay Hv Hobs s tr Hw Hr) as (tr' & Eq & Hw' & Ht).
    exists tr'. split.
    - rewrite Eq. do 4 f_equal; [now apply mop_cong|]. unfold Shift.annk. symmetry. eapply univ_ann; eauto.
    - split; [exact Hw'|]. split; [eapply ready_treq; [exact Ht|]; now apply post_ready|].
      change d with (0 + d)%nat. eapply sim_trans; [apply treq_sim, Ht|]. cbn [Shift.trk]. apply univ_post; [exact Hv | now symmetry | exact Hs].
  Qed.
  Lemma follow_jump d tr k j : follows d tr k -> (settle lay <= k)%nat -> follows (d + j * period lay) tr (k + 3 * j).
  Proof. intros (Hw & Hr & Hs) Hk. split; [exact Hw|]. split; [exact Hr|]. eapply sim_trans; [exact Hs|]. now apply trk_jump. Qed.
  Lemma fin_follow d tr k : follows d tr k -> exists tr', fault_tolerant_measurement lay tr = Ok (map I (fin lay (trk k)), tr').
  Proof.
    intros (Hw & Hr & Hs). destruct (fin_spec lay Hv Hobs tr Hw Hr) as (tr' & Eq). exists tr'. rewrite Eq.
    now rewrite (fin_sim lay Hv Hobs d _ _ Hs).
  Qed.
  Lemma init_follow : exists tr', fault_tolerant_init lay tr_init = Ok (map I (init_i lay), tr') /\ follows 0 tr' 0.
  Proof.
    destruct (init_spec lay Hv Hobs) as (tr' & Eq & Hw & Ht). exists tr'. split; [exact Eq|]. split; [exact Hw|].
    split; [eapply ready_treq; [exact Ht | now apply tr0_ready]|]. now apply treq_sim.
  Qed.

  (** ** Gates *)
  Definition centers (s : Z) : list nat := map (fun e => ix (e_center e)) (E s).
  Definition lpairs (s : Z) : list nat := flat_map (fun e => [ix (e_left e); ix (e_center e)]) (E s).
  Definition rpairs (s : Z) : list nat := flat_map (fun e => [ix (e_right e); ix (e_center e)]) (E s).
  Definition data1 : list nat := map ix (filter (fun q => negb (data_qubit_parity q)) (data_qubit_coords lay)).
  Definition data2 : list nat := map ix (filter data_qubit_parity (data_qubit_coords lay)).
  Definition meas_ix : list nat := map ix (measure_qubit_coords lay).
  Definition data_ix := data_ix lay.
  Definition g (name : string) (l : list nat) : instr := mkI name (qs l) [].

  Lemma ends_in r e : In e (E r) -> In (e_left e) (qubits lay) /\ In (e_right e) (qubits lay) /\ In (e_center e) (qubits lay).
  Proof.
    intros He. destruct (round_edge_facts lay Hv r e He) as (Hl & Hr & _). split; [now apply data_in_qubits|]. split; [now apply data_in_qubits|].
    apply center_in_qubits; [exact Hv|]. now apply in_round_edges in He.
  Qed.
  Lemma resets_eq s : sub_round_resets lay s = Ok [I (g "R" (centers s))].
  Proof. unfold sub_round_resets. rewrite (centers_eq lay Hv). reflexivity. Qed.
  Lemma twoq_eq s : sub_round_2q_ops lay s = Ok ([I (g "CX" (lpairs s))], [I (g "CX" (rpairs s))]).
  Proof.
    unfold sub_round_2q_ops. rewrite (mapM_ok _ (fun e => (ix (e_left e), ix (e_right e), ix (e_center e)))).
    - rewrite bind_ok. unfold append_operation, g, lpairs, rpairs. cbn [append_instr canon String.eqb Ascii.eqb Bool.eqb].
      rewrite !flat_map_concat_map, !map_map. reflexivity.
    - intros e He. destruct (ends_in s e He) as (H1 & H2 & H3). now rewrite !q2i_ix by assumption.
  Qed.
  Lemma data1_eq : data_qubit_indices_1st lay = Ok data1.
  Proof. unfold data_qubit_indices_1st. apply mapM_q2i; [exact Hv|]. intros q Hq. apply filter_In in Hq. apply in_or_app. tauto. Qed.
  Lemma data2_eq : data_qubit_indices_2nd lay = Ok data2.
  Proof. unfold data_qubit_indices_2nd. apply mapM_q2i; [exact Hv|]. intros q Hq. apply filter_In in Hq. apply in_or_app. tauto. Qed.
  Lemma meas_eq : measure_qubit_indices lay = Ok meas_ix.
  Proof. unfold measure_qubit_indices. apply mapM_q2i; [exact Hv|]. intros q Hq. apply in_or_app. tauto. Qed.
  Lemma lpairs_eq s : mapM (q2i lay) (flat_map (fun e => [e_left e; e_center e]) (E s)) = Ok (lpairs s).
  Proof.
    rewrite mapM_q2i; [|exact Hv|].
    - f_equal. unfold lpairs. induction (E s) as [|e l IH]; [reflexivity|]. cbn [flat_map map app]. now rewrite IH.
    - intros q Hq. apply in_flat_map in Hq. destruct Hq as (e & He & Hq). destruct (ends_in s e He) as (H1 & H2 & H3).
      destruct Hq as [<-|[<-|[]]]; assumption.
  Qed.
  Lemma rpairs_eq s : mapM (q2i lay) (flat_map (fun e => [e_right e; e_center e]) (E s)) = Ok (rpairs s).
  Proof.
    rewrite mapM_q2i; [|exact Hv|].
    - f_equal. unfold rpairs. induction (E s) as [|e l IH]; [reflexivity|]. cbn [flat_map map app]. now rewrite IH.
    - intros q Hq. apply in_flat_map in Hq. destruct Hq as (e & He & Hq). destruct (ends_in s e He) as (H1 & H2 & H3).
      destruct Hq as [<-|[<-|[]]]; assumption.
  Qed.
  Lemma centers_cong a b : a mod 3 = b mod 3 -> centers a = centers b.
  Proof. intros H. unfold centers. now rewrite (cong3 a b H). Qed.
  Lemma lpairs_cong a b : a mod 3 = b mod 3 -> lpairs a = lpairs b.
  Proof. intros H. unfold lpairs. now rewrite (cong3 a b H). Qed.
  Lemma rpairs_cong a b : a mod 3 = b mod 3 -> rpairs a = rpairs b.
  Proof. intros H. unfold rpairs. now rewrite (cong3 a b H). Qed.

  Notation tick_i := tick_i.
  Notation zk := Z.of_nat.

  (** ** SD6 *)
  Definition sd6_begin_i : list instr :=
    [g "R" (centers 0); g "C_ZYX" data1; tick_i; g "CX" (lpairs 0); tick_i; g "R" (centers 1); g "C_ZYX" data_ix; tick_i].
  Definition sd6_step_i (k : nat) : list instr :=
    [g "CX" (lpairs (zk k + 1)); g "CX" (rpairs (zk k)); tick_i; g "R" (centers (zk k + 2)); g "C_ZYX" data_ix] ++
    mop (zk k) ++ annk k ++ [tick_i].
  Definition sd6_end_i (m : nat) : list instr :=
    [g "CX" (lpairs (zk m + 1)); g "CX" (rpairs (zk m)); tick_i] ++ mop (zk m) ++ annk m ++
    [tick_i; g "C_ZYX" data2; tick_i; g "CX" (rpairs (zk m + 1)); tick_i] ++ mop (zk m + 1) ++ annk (S m).
  Definition sd6_single_i : list instr :=
    [g "R" (centers 0); g "C_ZYX" data_ix; tick_i; g "CX" (lpairs 0); tick_i; g "CX" (rpairs 0); tick_i] ++ mop 0 ++ annk 0.
  Definition sd6_close_i : list instr :=
    (if (n + 1) mod 3 =? 0 then [g "C_ZYX" data_ix] else if (n + 2) mod 3 =? 0 then [g "C_XYZ" data_ix] else []) ++ [tick_i].
  Definition sd6_body : list instr :=
    (if n =? 1 then sd6_single_i
     else sd6_begin_i ++ flat_map sd6_step_i (seq 0 (Z.to_nat (n - 2))) ++ sd6_end_i (Z.to_nat (n - 2))) ++ sd6_close_i.

  Lemma cycle_eq f s : cycle_data lay f s =
    Ok (if f && s then [I (g "C_ZYX" data_ix)] else if f then [I (g "C_ZYX" data1)] else if s then [I (g "C_ZYX" data2)] else []).
  Proof. unfold cycle_data. rewrite (data_indices_eq lay Hv), data1_eq, data2_eq. destruct f, s; reflexivity. Qed.

  Ltac norm := rewrite ?tick_eq, ?map_app, <- ?app_assoc; cbn [map app].

  Lemma sd6_begin_eq : sd6_begin lay = Ok (map I sd6_begin_i).
  Proof. unfold sd6_begin. rewrite !resets_eq, !cycle_eq, !twoq_eq. cbn [bind andb]. norm. reflexivity. Qed.
  Lemma sd6_step_eq d tr k s : follows d tr k -> s mod 3 = zk k mod 3 -> (s =? 0) = (zk k =? 0) ->
    exists tr', sd6_pipeline_step lay s tr = Ok (map I (sd6_step_i k), tr') /\ follows d tr' (S k).
  Proof.
    intros Hf H3 H0. destruct (smd_follow d tr k s Hf H3 H0) as (tr' & Eq & Hf'). exists tr'. split; [|exact Hf'].
    unfold sd6_pipeline_step. rewrite !twoq_eq, !resets_eq, !cycle_eq. cbn [bind andb]. rewrite Eq. cbn [bind].
    unfold sd6_step_i. norm. rewrite (lpairs_cong (s + 1) (zk k + 1)), (rpairs_cong s (zk k)), (centers_cong (s + 2) (zk k + 2)) by (revert H3; dlia).
    reflexivity.
  Qed.
  Lemma sd6_add_eq d tr k s c : follows d tr k -> s mod 3 = zk k mod 3 -> (s =? 0) = (zk k =? 0) ->
    exists tr', sd6_add_step lay s (c, tr) = Ok (c ++ map I (sd6_step_i k), tr') /\ follows d tr' (S k).
  Proof.
    intros Hf H3 H0. destruct (sd6_step_eq d tr k s Hf H3 H0) as (tr' & Eq & Hf'). exists tr'. split; [|exact Hf'].
    unfold sd6_add_step. rewrite Eq. reflexivity.
  Qed.
  Lemma sd6_for d j : forall k tr c, follows d tr k ->
    exists tr', for_ (map Z.of_nat (seq k j)) (sd6_add_step lay) (c, tr) = Ok (c ++ map I (flat_map sd6_step_i (seq k j)), tr') /\ follows d tr' (k + j).
  Proof.
    induction j as [|j IH]; intros k tr c Hf.
    - exists tr. cbn. rewrite app_nil_r, Nat.add_0_r. auto.
    - destruct (sd6_add_eq d tr k (zk k) c Hf eq_refl eq_refl) as (t1 & E1 & F1).
      destruct (IH (S k) t1 (c ++ map I (sd6_step_i k)) F1) as (t2 & E2 & F2).
      exists t2. split; [|replace (k + S j)%nat with (S k + j)%nat by lia; exact F2].
      cbn [seq map for_ flat_map]. rewrite E1, bind_ok. eapply eq_trans; [exact E2|]. now rewrite map_app, app_assoc.
  Qed.
  Lemma sd6_while d : forall fuel k tr c, follows d tr k -> (k <= 4)%nat -> (4 - k < fuel)%nat ->
    let m := Nat.max k (Nat.min 4 (Z.to_nat (n - 2))) in
    exists tr', while_ fuel (fun '(next, _, _) => (next <? 4) && (next <? n - 2))
           (fun '(next, result, tr) =>
              let! (result, tr) := sd6_add_step lay next (result, tr) in Ok (next + 1, result, tr)) (zk k, c, tr)
      = Ok (zk m, c ++ map I (flat_map sd6_step_i (seq k (m - k))), tr') /\ follows d tr' m.
  Proof.
    induction fuel as [|fuel IH]; intros k tr c Hf Hk Hfu m; [lia|]. cbn [while_].
    destruct ((zk k <? 4) && (zk k <? n - 2)) eqn:Ec.
    - apply andb_prop in Ec. destruct Ec as [E1 E2]. apply Z.ltb_lt in E1, E2.
      destruct (sd6_add_eq d tr k (zk k) c Hf eq_refl eq_refl) as (t1 & Eq1 & F1). rewrite Eq1, bind_ok.
      destruct (IH (S k) t1 (c ++ map I (sd6_step_i k)) F1) as (t2 & Eq2 & F2); [lia | lia|].
      replace (zk k + 1) with (zk (S k)) by lia. cbv zeta in Eq2, F2. replace (Nat.max (S k) (Nat.min 4 (Z.to_nat (n - 2)))) with m in Eq2, F2 by lia.
      exists t2. split; [|exact F2]. rewrite bind_ok. eapply eq_trans; [exact Eq2|]. do 2 f_equal. f_equal.
      replace (m - k)%nat with (S (m - S k)) by lia. cbn [seq flat_map]. now rewrite map_app, app_assoc.
    - assert (m = k). { apply andb_false_iff in Ec. rewrite !Z.ltb_ge in Ec. lia. }
      rewrite H. exists tr. split; [|exact Hf]. rewrite Nat.sub_diag. cbn. now rewrite app_nil_r.
  Qed.
  Lemma sd6_step_periodic k : pc3 lay = false -> (4 <= k)%nat -> sd6_step_i (k + 3) = sd6_step_i k.
  Proof.
    intros Hp Hk. unfold sd6_step_i. change (k + 3)%nat with (k + 3 * 1)%nat at 5. rewrite annk_periodic by (exact Hv || (unfold settle; rewrite Hp; exact Hk)).
    rewrite Nat2Z.inj_add. change (zk 3) with 3.
    rewrite (lpairs_cong (zk k + 3 + 1) (zk k + 1)), (rpairs_cong (zk k + 3) (zk k)), (centers_cong (zk k + 3 + 2) (zk k + 2)), (mop_cong (zk k + 3) (zk k)) by dlia.
    reflexivity.
  Qed.
  Lemma sd6_end_eq d tr c : 2 <= n -> follows d tr (Z.to_nat (n - 2)) ->
    exists tr', sd6_end lay (c, tr) = Ok (c ++ map I (sd6_end_i (Z.to_nat (n - 2))), tr') /\ follows d tr' (Z.to_nat n).
  Proof.
    intros Hn Hf. set (m := Z.to_nat (n - 2)) in *. assert (Em : n - 2 = zk m) by lia.
    destruct (smd_follow d tr m (zk m) Hf eq_refl eq_refl) as (t1 & E1 & F1).
    destruct (smd_follow d t1 (S m) (zk m + 1) F1) as (t2 & E2 & F2).
    { f_equal. lia. } { f_equal. lia. }
    exists t2. split; [|replace (Z.to_nat n) with (S (S m)) by lia; exact F2].
    unfold sd6_end. rewrite !twoq_eq, !cycle_eq. cbn [bind andb]. replace (n - 1) with (zk m + 1) by lia. rewrite Em, E1. cbn [bind]. rewrite E2. cbn [bind].
    unfold sd6_end_i. norm. replace (zk (S m)) with (zk m + 1) by lia. reflexivity.
  Qed.
  Lemma sd6_single_eq d tr : follows d tr 0 ->
    exists tr', sd6_single lay tr = Ok (map I sd6_single_i, tr') /\ follows d tr' 1.
  Proof.
    intros Hf. destruct (smd_follow d tr 0 0 Hf eq_refl eq_refl) as (t1 & E1 & F1). exists t1. split; [|exact F1].
    unfold sd6_single. rewrite !twoq_eq, !resets_eq, !cycle_eq. cbn [bind andb]. rewrite E1. cbn [bind]. unfold sd6_single_i. norm. reflexivity.
  Qed.
  Lemma append_shift c name ts args : canon name <> "SHIFT_COORDS"%string ->
    append_operation (c ++ [I shift_i]) name ts args = c ++ [I shift_i; I (mkI (canon name) ts args)].
  Proof. intros H. unfold append_operation. now rewrite append_new. Qed.
  (** Appending after a sub-round never merges, because it ends with SHIFT_COORDS. *)
  Lemma sd6_close_eq c : sd6_close lay (c ++ [I shift_i]) = Ok (c ++ [I shift_i] ++ map I sd6_close_i).
  Proof.
    unfold sd6_close, sd6_close_i. rewrite (data_indices_eq lay Hv), bind_ok.
    destruct (_ =? 0); [|destruct (_ =? 0)]; rewrite ?append_shift by discriminate; norm; reflexivity.
  Qed.
  Lemma annk_last k : exists l, annk k = l ++ [shift_i].
  Proof. unfold Shift.annk, ann. rewrite !app_assoc. eexists. reflexivity. Qed.
  Lemma close_after l k : sd6_close lay (map I (l ++ annk k)) = Ok (map I (l ++ annk k ++ sd6_close_i)).
  Proof.
    destruct (annk_last k) as (x & ->). rewrite !map_app. cbn [map]. rewrite app_assoc, sd6_close_eq. norm. reflexivity.
  Qed.

  Lemma unrolled_sd6_eq tr : 1 <= n -> follows 0 tr 0 ->
    exists tr', unrolled_sd6 lay tr = Ok (map I sd6_body, tr') /\ follows 0 tr' (Z.to_nat n).
  Proof.
    intros Hn Hf. unfold unrolled_sd6, sd6_body. destruct (Z.eqb_spec n 0) as [?|N0]; [lia|]. destruct (Z.eqb_spec n 1) as [E1|N1].
    - destruct (sd6_single_eq 0 tr Hf) as (t1 & Eq & F1). rewrite Eq, bind_ok. unfold sd6_single_i. rewrite app_assoc, close_after, bind_ok.
      exists t1. rewrite E1. split; [|exact F1]. now rewrite <- !app_assoc.
    - rewrite sd6_begin_eq, bind_ok. change 0 with (zk 0) at 1. rewrite zrange_seq, Nat.sub_0_r.
      destruct (sd6_for 0 (Z.to_nat (n - 2)) 0 tr (map I sd6_begin_i) Hf) as (t1 & Eq1 & F1). rewrite Eq1, bind_ok.
      destruct (sd6_end_eq 0 t1 (map I sd6_begin_i ++ map I (flat_map sd6_step_i (seq 0 (Z.to_nat (n - 2))))) ltac:(lia) F1) as (t2 & Eq2 & F2).
      rewrite Eq2, bind_ok. exists t2. split; [|exact F2]. rewrite <- !map_app. unfold sd6_end_i. rewrite !app_assoc, close_after, bind_ok.
      now rewrite <- !app_assoc.
  Qed.

  Lemma flatten_map_I l : flatten (map I l) = l.
  Proof. apply flatten_I. Qed.
  Lemma sd6_step_tick k : ends_tick (sd6_step_i k).
  Proof. unfold sd6_step_i. do 3 apply ends_tick_app. exists []. reflexivity. Qed.
  Lemma steps_tick k m l : ends_tick l -> ends_tick (l ++ flat_map sd6_step_i (seq k m)).
  Proof.
    revert k l. induction m as [|m IH]; intros k l Hl; cbn [seq flat_map]; [now rewrite app_nil_r|]. rewrite app_assoc. apply IH. apply ends_tick_app, sd6_step_tick.
  Qed.
  Lemma sd6_begin_tick : ends_tick sd6_begin_i.
  Proof. unfold sd6_begin_i. exists (removelast sd6_begin_i). reflexivity. Qed.
  Lemma gen_sd6_eq tr : pc3 lay = false -> 1 <= n -> follows 0 tr 0 ->
    exists c tr' d, generate_rounds_sd6 lay tr = Ok (c, tr') /\ (flatten c = sd6_body /\ folded sd6_step_i c) /\ follows d tr' (Z.to_nat n).
  Proof.
    intros Hp Hn Hf. unfold generate_rounds_sd6, sd6_body. destruct (Z.eqb_spec n 0) as [?|N0]; [lia|]. destruct (Z.eqb_spec n 1) as [E1|N1].
    - destruct (sd6_single_eq 0 tr Hf) as (t1 & Eq & F1). rewrite Eq, bind_ok. unfold sd6_single_i. rewrite app_assoc, close_after, bind_ok.
      eexists _, t1, 0%nat. split; [reflexivity|]. split; [split; [rewrite flatten_I; now rewrite <- !app_assoc | apply folded_I, sd6_step_tick]|]. rewrite E1. exact F1.
    - rewrite sd6_begin_eq, bind_ok.
      destruct (sd6_while 0 5 0 tr (map I sd6_begin_i) Hf) as (t1 & Eq1 & F1); [lia | lia|].
      cbv zeta in Eq1, F1. set (m := Nat.max 0 (Nat.min 4 (Z.to_nat (n - 2)))) in *.
      change (zk 0) with 0 in Eq1. rewrite Eq1, bind_ok. clear Eq1.
      set (it := Z.max 0 (n - zk m - 2) / 3).
      match goal with |- context [bind (if 1 <? it then ?a else ?b) _] =>
        assert (G : exists c2 t2 d2 m2, (if 1 <? it then a else b) = Ok (zk m2, c2, t2) /\
          (flatten c2 = sd6_begin_i ++ flat_map sd6_step_i (seq 0 m2) /\ folded sd6_step_i c2) /\ follows d2 t2 m2 /\ (m2 <= Z.to_nat (n - 2))%nat) end.
      { destruct (Z.ltb_spec 1 it) as [Hit|Hit].
        - assert (m = 4%nat) as Em. { assert (it <= (n - zk m - 2) / 3 \/ it = 0) by (unfold it; dlia). unfold it in Hit. revert Hit. dlia. }
          rewrite Em in *. change (zk 4) with 4.
          destruct (sd6_add_eq 0 t1 4 4 [] F1 eq_refl eq_refl) as (s1 & S1 & G1).
          destruct (sd6_add_eq 0 s1 5 (4 + 1) ([] ++ map I (sd6_step_i 4)) G1 eq_refl eq_refl) as (s2 & S2 & G2).
          destruct (sd6_add_eq 0 s2 6 (4 + 2) (([] ++ map I (sd6_step_i 4)) ++ map I (sd6_step_i 5)) G2 eq_refl eq_refl) as (s3 & S3 & G3).
          set (j := Z.to_nat it).
          eexists _, s3, (0 + (j - 1) * period lay)%nat, (7 + 3 * (j - 1))%nat. split.
          { do 3 (eapply eq_trans; [apply (f_equal (fun m => bind m _)); eassumption|]; rewrite bind_ok). do 3 f_equal; unfold j; lia. }
          split; [|split].
          + split; [|cbn [app]; rewrite <- !map_app, <- app_assoc; apply folded_loop; [lia | right; apply steps_tick, sd6_begin_tick | do 2 apply ends_tick_app; apply sd6_step_tick]].
            rewrite flatten_app, flatten_mul by lia. rewrite flatten_app, !flatten_I. cbn [app]. rewrite flatten_app, flatten_app, !flatten_I. fold j.
            rewrite <- app_assoc. change (5%nat) with (4 + 1)%nat at 1. change (6%nat) with (4 + 2)%nat at 1.
            replace (7 + 3 * (j - 1))%nat with (4 + 3 * j)%nat by (unfold j; lia). rewrite seq_app, flat_map_app. cbn [Nat.add].
            rewrite <- app_assoc. do 2 f_equal.
            apply (repeat_periodic sd6_step_i 4 j). intros i Hi. now apply sd6_step_periodic.
          + apply follow_jump; [exact G3|]. unfold settle. rewrite Hp. lia.
          + unfold j, it. change (zk 4) with 4. dlia.
        - eexists _, t1, 0%nat, m. split; [reflexivity|]. split; [split; [rewrite flatten_app, !flatten_I, Nat.sub_0_r; reflexivity | rewrite <- map_app; apply folded_I, sd6_step_tick]|]. split; [exact F1|]. lia. }
      destruct G as (c2 & t2 & d2 & m2 & Eq2 & (Fl2 & Lo2) & F2 & Hm2). rewrite Eq2, bind_ok. clear Eq2.
      rewrite zrange_seq. destruct (sd6_for d2 (Z.to_nat (n - 2) - m2) m2 t2 c2 F2) as (t3 & Eq3 & F3). step Eq3.
      replace (m2 + (Z.to_nat (n - 2) - m2))%nat with (Z.to_nat (n - 2)) in F3 by lia.
      destruct (sd6_end_eq d2 t3 (c2 ++ map I (flat_map sd6_step_i (seq m2 (Z.to_nat (n - 2) - m2)))) ltac:(lia) F3) as (t4 & Eq4 & F4).
      step Eq4.
      unfold sd6_end_i at 1. destruct (annk_last (S (Z.to_nat (n - 2)))) as (x & Ex).
      match goal with |- context [sd6_close lay ?c] => assert (Ec : c = (c2 ++ map I (flat_map sd6_step_i (seq m2 (Z.to_nat (n - 2) - m2)) ++
        [g "CX" (lpairs (zk (Z.to_nat (n - 2)) + 1)); g "CX" (rpairs (zk (Z.to_nat (n - 2)))); tick_i] ++ mop (zk (Z.to_nat (n - 2))) ++ annk (Z.to_nat (n - 2)) ++
        [tick_i; g "C_ZYX" data2; tick_i; g "CX" (rpairs (zk (Z.to_nat (n - 2)) + 1)); tick_i] ++ mop (zk (Z.to_nat (n - 2)) + 1) ++ x)) ++ [I shift_i]) end.
      { rewrite Ex, !map_app, <- !app_assoc. reflexivity. }
      rewrite Ec, sd6_close_eq, bind_ok. eexists _, t4, d2. split; [reflexivity|]. split; [|exact F4].
      split; [|rewrite <- app_assoc; change [I shift_i] with (map I [shift_i]); rewrite <- !map_app; apply folded_post; exact Lo2].
      rewrite !flatten_app, !flatten_I, Fl2. unfold sd6_end_i. rewrite Ex.
      replace (seq 0 (Z.to_nat (n - 2))) with (seq 0 m2 ++ seq (0 + m2) (Z.to_nat (n - 2) - m2)) by (rewrite <- seq_app; f_equal; lia).
      rewrite flat_map_app. cbn [Nat.add]. rewrite <- !app_assoc. reflexivity.
  Qed.
End G.
