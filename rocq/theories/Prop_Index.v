(** C02, continued: the indices left over by a set of qubits. *)
From Coq Require Import QArith.
From Verif Require Import Prelude Layout LayoutFacts LayoutEdges LayoutLists LayoutIndex Pauli LayoutObs LayoutLogic Prop_Layout.
Open Scope Z_scope.

Lemma map_snd_combine {A B} (l : list A) (m : list B) : length l = length m -> map snd (combine l m) = m.
Proof. revert m. induction l as [|x l IH]; intros [|y m] H; try discriminate; [reflexivity|]. cbn [combine map snd]. f_equal. apply IH. now injection H. Qed.
Lemma filter_sorted {A} (R : A -> A -> Prop) (f : A -> bool) l : StronglySorted R l -> StronglySorted R (filter f l).
Proof.
  induction 1 as [|x l H IH F]; [constructor|]. cbn [filter]. destruct (f x); [|exact IH]. constructor; [exact IH|]. apply Forall_forall. intros y Hy. apply filter_In in Hy as [Hy _]. rewrite Forall_forall in F. now apply F.
Qed.
Lemma seq_sorted n : forall a, StronglySorted (le_ Nat.leb) (seq a n).
Proof. induction n as [|n IH]; intros a; [constructor|]. cbn [seq]. constructor; [apply IH|]. apply Forall_forall. intros y Hy. apply in_seq in Hy. unfold le_. apply Nat.leb_le. lia. Qed.

(** All other qubits' indices, in increasing order; numbers that are no index are ignored. *)
Theorem C02_indices_except : forall lay indices, valid lay ->
  qubit_indices_except lay indices =
  filter (fun i => if in_dec Nat.eq_dec i indices then false else true) (seq 0 (length (data_qubit_coords lay) + length (measure_qubit_coords lay))).
Proof.
  intros lay indices Hv. unfold qubit_indices_except. rewrite (q2i_dict_eq lay Hv), map_snd_combine by (now rewrite seq_length).
  rewrite nodup_fixed_point by apply seq_NoDup. rewrite isort_id by (apply filter_sorted, seq_sorted). unfold qubits. rewrite app_length. apply filter_ext. intros i.
  destruct (in_dec Nat.eq_dec i indices) as [H|H]; [apply memb_In in H; now rewrite H|]. apply memb_false in H. now rewrite H.
Qed.
Print Assumptions C02_indices_except.
Example C02_indices_except_example : let lay := mkLayout 2 6 3 "SD6" "H" (0 # 1) in valid lay /\ qubit_indices_except lay [3; 2; 4; 99]%nat = ([0; 1] ++ seq 5 25)%nat.
Proof. intros lay. split; [repeat split; vm_compute; reflexivity|]. vm_compute. reflexivity. Qed.

(** ** C06: the six edges around a hex *)
Lemma NoDup_of_ends (l : list edge) : NoDup (flat_map (fun e => [e_left e; e_right e]) l) -> NoDup l.
Proof.
  induction l as [|e l IH]; intros H; [constructor|]. cbn [flat_map app] in H. inversion H as [|? ? N1 H1]; subst. inversion H1 as [|? ? N2 H2]; subst.
  constructor; [|apply IH, H2]. intros Hin. apply N2, in_flat_map. exists e. split; [exact Hin | right; left; reflexivity].
Qed.
Lemma ends_unique (l : list edge) q e f : NoDup (flat_map (fun e => [e_left e; e_right e]) l) -> In e l -> In f l ->
  In q [e_left e; e_right e] -> In q [e_left f; e_right f] -> e = f.
Proof.
  induction l as [|x l IH]; intros H He Hf Qe Qf; [destruct He|].
  change (flat_map _ (x :: l)) with ([e_left x; e_right x] ++ flat_map (fun e => [e_left e; e_right e]) l) in H.
  assert (D : forall y, In y l -> In q [e_left x; e_right x] -> In q [e_left y; e_right y] -> False).
  { intros y Hy Q1 Q2. assert (Q3 : In q (flat_map (fun e => [e_left e; e_right e]) l)) by (apply in_flat_map; exists y; auto).
    cbn [app] in H. inversion H as [|? ? N1 H1]; subst. inversion H1 as [|? ? N2 H2]; subst. destruct Q1 as [<-|[<-|[]]]; [apply N1; right; exact Q3 | apply N2, Q3]. }
  destruct He as [<-|He], Hf as [<-|Hf]; [reflexivity | exfalso; eauto | exfalso; eauto |].
  apply IH; auto. cbn [app] in H. inversion H as [|? ? N1 H1]; subst. now inversion H1.
Qed.

(** Six different edges forming a ring through the six qubits (every qubit in two of them), and they
    are exactly the edges of the two other colours that touch the hex. *)
Theorem C06_edges_around_hex : forall lay h c, valid lay -> hex_of lay h c ->
  length (all_edges_around_hex lay h) = 6%nat /\ NoDup (all_edges_around_hex lay h) /\
  Permutation (flat_map (fun e => [e_left e; e_right e]) (all_edges_around_hex lay h)) (qubits_around_hex lay h ++ qubits_around_hex lay h) /\
  (forall e, In e (all_edges_around_hex lay h) <->
    (In e (round_edges lay (c + 1)) \/ In e (round_edges lay (c + 2))) /\
    (In (e_left e) (qubits_around_hex lay h) \/ In (e_right e) (qubits_around_hex lay h))).
Proof.
  intros lay h c Hv Hh. destruct (C06_hex_neighbourhood lay h c Hv Hh) as (N & L & D & R1 & R2 & L1 & L2 & P1 & P2). unfold all_edges_around_hex.
  assert (M : forall r, NoDup (flat_map (fun e => [e_left e; e_right e]) (round_edges lay r))).
  { intros r. destruct (C04_perfect_matching lay r Hv) as (P & _). eapply Permutation_NoDup; [symmetry; exact P | apply NoDup_data]. }
  assert (G : forall r l, (forall e, In e l -> In e (round_edges lay r)) -> Permutation (flat_map (fun e => [e_left e; e_right e]) l) (qubits_around_hex lay h) ->
     forall e, In e l <-> In e (round_edges lay r) /\ (In (e_left e) (qubits_around_hex lay h) \/ In (e_right e) (qubits_around_hex lay h))).
  { intros r l S P e. split.
    - intros He. split; [apply S, He|]. left. apply (Permutation_in _ P), in_flat_map. exists e. split; [exact He | left; reflexivity].
    - intros [He Hq]. assert (exists q, In q [e_left e; e_right e] /\ In q (qubits_around_hex lay h)) as (q & Q1 & Q2).
      { destruct Hq as [Hq|Hq]; eexists; (split; [|exact Hq]); [left; reflexivity | right; left; reflexivity]. }
      apply (Permutation_in _ (Permutation_sym P)), in_flat_map in Q2. destruct Q2 as (f & Hf & Qf).
      rewrite (ends_unique _ q e f (M r) He (S f Hf) Q1 Qf). exact Hf. }
  split; [rewrite app_length; rewrite L1, L2; reflexivity|]. split; [|split].
  - apply NoDup_app_intro.
    + apply NoDup_of_ends. eapply Permutation_NoDup; [symmetry; exact P1 | exact N].
    + apply NoDup_of_ends. eapply Permutation_NoDup; [symmetry; exact P2 | exact N].
    + intros e H1 H2. destruct (C04_perfect_matching lay (c + 1) Hv) as (_ & _ & _ & _ & X). specialize (X (c + 2) e (R1 e H1) (R2 e H2)).
      revert X. clear. intros X. pose proof (Z.div_mod (c + 1) 3). pose proof (Z.div_mod (c + 2) 3). lia.
  - rewrite flat_map_app. now apply Permutation_app.
  - intros e. rewrite in_app_iff, (G _ _ R1 P1), (G _ _ R2 P2). tauto.
Qed.
Print Assumptions C06_edges_around_hex.
Example C06_edges_around_hex_example : hex_of lay_4_12 (pos 0 0) 0 /\ In (mkEdge (pos 7 11) (pos 1 11) (pos 0 11)) (all_edges_around_hex lay_4_12 (pos 0 0)).
Proof. split; [exact (proj1 C06_example) | apply emem_In; vm_compute; reflexivity]. Qed.

(** ** C57: without noise the label shows the rounds (three sub-rounds each), the width and
    the height of the patch, in this order. *)
Theorem C57_label_numbers : forall lay rounds, (noise lay == 0)%Q -> 3 * rounds <= sub_rounds lay < 3 * rounds + 3 -> legend_label lay = Ok [rounds; data_width lay; data_height lay].
Proof.
  intros lay r H0 Hr. unfold legend_label. apply Qeq_bool_iff in H0. rewrite H0. do 2 f_equal. symmetry. apply Z.div_unique with (sub_rounds lay - 3 * r); lia.
Qed.
Print Assumptions C57_label_numbers.
Example C57_label_example : legend_label (mkLayout 4 6 20 "SD6" "V" 0) = Ok [6; 4; 6].
Proof. reflexivity. Qed.

(** The observable's qubits are the ones its operator acts on before some sub-round. *)
Theorem C09_observable_qubits : forall lay qs, valid lay -> obs_qubits lay = Ok qs ->
  NoDup qs /\ forall q, In q qs <-> exists s op p, obs_op (obs_before_sub_round lay s) op /\ In (p, q) op.
Proof.
  intros lay qs Hv E. unfold obs_qubits in E.
  destruct (String.eqb_spec (obs lay) "V") as [Ho|Ho]; [|destruct (String.eqb_spec (obs lay) "H") as [Hh|]; [|discriminate]]; injection E as <-.
  - unfold obs_v_qubits. split; [unfold sorted_complex; apply (Permutation_NoDup (isort_perm _ _)), NoDup_filter, NoDup_data|].
    intros q. unfold sorted_complex. rewrite in_isort, filter_In, in_data by exact Hv. unfold obs_op, obs_before_sub_round. rewrite Ho. cbn [String.eqb Ascii.eqb Bool.eqb]. split.
    + intros [Hq Hx].
      assert (K : exists s, vmem s q = true).
      { unfold vmem. rewrite Hx. cbn [andb]. destruct ((snd q / 2) mod 3 =? 0) eqn:D; [|exists 0; change (0 mod 6) with 0; reflexivity].
        exists 2. change (2 mod 6) with 2. cbv iota. apply Z.eqb_eq in D. rewrite D. reflexivity. }
      destruct K as (s & K). exists s, (map (fun r => (fst (obs_v_before_sub_round lay s), r)) (snd (obs_v_before_sub_round lay s))), (fst (obs_v_before_sub_round lay s)). split.
      * eexists _, _. split; [now rewrite <- surjective_pairing | reflexivity].
      * apply in_map. apply in_obs_v; auto.
    + intros (s & op & p & (p' & qs & E & ->) & Hin). injection E as E. apply in_map_iff in Hin. destruct Hin as (r & [= <- <-] & Hr). assert (Hr' : In r (snd (obs_v_before_sub_round lay s))) by (rewrite E; exact Hr).
      apply in_obs_v in Hr'; [|exact Hv]. destruct Hr' as [H1 H2]. split; [exact H1|]. unfold vmem in H2. now apply andb_true_iff in H2.
  - unfold obs_h_qubits. split; [apply (Permutation_NoDup (isort_perm _ _)), NoDup_filter, NoDup_data|].
    intros q. rewrite in_isort, filter_In, in_data by exact Hv. unfold obs_op, obs_before_sub_round. rewrite Hh. cbn [String.eqb Ascii.eqb Bool.eqb]. split.
    + intros [Hq Hx]. exists 0, (map (fun r => (fst (obs_h_before_sub_round lay 0), r)) (snd (obs_h_before_sub_round lay 0))), (fst (obs_h_before_sub_round lay 0)). split.
      * eexists _, _. split; [now rewrite <- surjective_pairing | reflexivity].
      * apply in_map. apply in_obs_h; auto.
    + intros (s & op & p & (p' & qs & E & ->) & Hin). injection E as E. apply in_map_iff in Hin. destruct Hin as (r & [= <- <-] & Hr). assert (Hr' : In r (snd (obs_h_before_sub_round lay s))) by (rewrite E; exact Hr).
      apply in_obs_h in Hr'; [|exact Hv]. destruct Hr' as [H1 H2]. split; [exact H1|]. unfold hmem in H2. unfold in_h_rows. destruct (mod6_cases s) as [D|[D|[D|[D|[D|D]]]]]; rewrite D in H2; cbv iota in H2; try exact H2; rewrite H2; try reflexivity; apply orb_true_r.
Qed.
Print Assumptions C09_observable_qubits.
Example C09_observable_qubits_example : obs_qubits lay_4_12 <> Err NotImplementedError /\ valid lay_4_12 /\ exists qs, obs_qubits (with_obs lay_4_12 "H") = Ok qs /\ length qs = 8%nat.
Proof. split; [vm_compute; discriminate|]. split; [repeat split; vm_compute; congruence || reflexivity|]. eexists. split; vm_compute; reflexivity. Qed.
