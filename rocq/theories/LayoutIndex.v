(** Qubit indices. *)
From Verif Require Import Prelude Layout LayoutFacts LayoutEdges LayoutLists.
From Coq Require Import QArith.
Open Scope Z_scope.

Lemma map_fst_combine {A B} (l : list A) (m : list B) : length l = length m -> map fst (combine l m) = l.
Proof. revert m. induction l as [|a l IH]; intros [|b m] H; simpl in *; try lia; [reflexivity|]. f_equal. apply IH. lia. Qed.
Lemma map_snd_combine {A B} (l : list A) (m : list B) : length l = length m -> map snd (combine l m) = m.
Proof. revert m. induction l as [|a l IH]; intros [|b m] H; simpl in *; try lia; [reflexivity|]. f_equal. apply IH. lia. Qed.

Lemma dict_get_enum (l : list cpx) k q i :
  NoDup l -> dict_get cpx_eqb q (combine l (seq k (length l))) = Some i <-> (k <= i)%nat /\ nth_error l (i - k) = Some q.
Proof.
  intros Hnd. revert k. induction Hnd as [|a l Hn Hnd IH]; intros k; cbn [combine length seq dict_get].
  - split; [discriminate|]. intros [_ H]. destruct (i - k)%nat; discriminate.
  - destruct (cpx_eqb q a) eqn:E.
    + apply cpx_eqb_eq in E. subst a. split.
      * intros H. injection H as <-. rewrite Nat.sub_diag. auto.
      * intros [L H]. destruct (i - k)%nat as [|j] eqn:D; [f_equal; lia|]. cbn in H. exfalso. apply Hn.
        eapply nth_error_In; eauto.
    + rewrite IH. apply cpx_eqb_neq in E. split.
      * intros [L H]. split; [lia|]. replace (i - k)%nat with (S (i - S k)) by lia. exact H.
      * intros [L H]. destruct (i - k)%nat as [|j] eqn:D; [cbn in H; congruence|]. split; [lia|].
        replace (i - S k)%nat with j by lia. exact H.
Qed.
Lemma dict_get_none {V} (d : list (cpx * V)) q : dict_get cpx_eqb q d = None <-> ~ In q (map fst d).
Proof.
  induction d as [|[k v] d IH]; cbn [dict_get map fst In]; [tauto|].
  destruct (cpx_eqb q k) eqn:E.
  - apply cpx_eqb_eq in E. subst. split; [discriminate | tauto].
  - apply cpx_eqb_neq in E. rewrite IH. split; intros H; [intros [K|K]; [congruence | contradiction] | tauto].
Qed.

Section I.
  Variable lay : layout.
  Hypothesis Hv : valid lay.
  Notation tw := (tile_width lay).
  Notation th := (tile_height lay).

  Definition qubits : list cpx := data_qubit_coords lay ++ measure_qubit_coords lay.

  Lemma NoDup_qubits : NoDup qubits.
  Proof.
    apply NoDup_app_intro; [apply NoDup_data | apply NoDup_measure |].
    intros x H1 H2. rewrite in_data in H1 by exact Hv. rewrite in_measure in H2 by exact Hv.
    eapply data_not_measure; eauto.
  Qed.
  Lemma q2i_dict_eq : q2i_dict lay = combine qubits (seq 0 (length qubits)).
  Proof.
    unfold q2i_dict, sorted_complex. rewrite !isort_id; [|apply measure_sorted; assumption | apply data_sorted; assumption].
    apply dict_of_nodup. fold qubits. rewrite map_fst_combine by (now rewrite seq_length). apply NoDup_qubits.
  Qed.
  Lemma q2i_dict_keys : map fst (q2i_dict lay) = qubits.
  Proof. rewrite q2i_dict_eq. apply map_fst_combine. now rewrite seq_length. Qed.
  Lemma q2i_spec q i : q2i lay q = Ok i <-> nth_error qubits i = Some q.
  Proof.
    unfold q2i. rewrite q2i_dict_eq. pose proof (dict_get_enum qubits 0 q i NoDup_qubits) as H.
    rewrite Nat.sub_0_r in H. destruct (dict_get _ _ _) as [j|] eqn:E.
    - split.
      + intros K. injection K as ->. now apply H.
      + intros K. destruct H as [_ H]. f_equal. specialize (H (conj (Nat.le_0_l i) K)). congruence.
    - split; [discriminate|]. intros K. destruct H as [_ H]. discriminate H. split; [lia | exact K].
  Qed.
  Lemma q2i_err q : ~ In q qubits -> q2i lay q = Err KeyError.
  Proof.
    intros Hn. unfold q2i. rewrite (proj2 (dict_get_none _ _)); [reflexivity|]. now rewrite q2i_dict_keys.
  Qed.
  Lemma q2i_in q : In q qubits -> exists i, q2i lay q = Ok i /\ (i < length qubits)%nat.
  Proof.
    intros H. apply In_nth_error in H. destruct H as [i H]. exists i. split; [now apply q2i_spec|].
    apply nth_error_Some. congruence.
  Qed.
  Lemma q2i_inj q1 q2 i : q2i lay q1 = Ok i -> q2i lay q2 = Ok i -> q1 = q2.
  Proof. rewrite !q2i_spec. congruence. Qed.

  (** The index as a total function, for qubits only. *)
  Definition ix (q : cpx) : nat := match q2i lay q with Ok i => i | Err _ => 0%nat end.
  Lemma q2i_ix q : In q qubits -> q2i lay q = Ok (ix q).
  Proof. intros H. destruct (q2i_in q H) as (i & E & _). unfold ix. now rewrite E. Qed.
  Lemma ix_inj q1 q2 : In q1 qubits -> In q2 qubits -> ix q1 = ix q2 -> q1 = q2.
  Proof. intros H1 H2 E. apply q2i_ix in H1, H2. rewrite E in H1. eapply q2i_inj; eauto. Qed.
  Lemma data_in_qubits q : isdata lay q -> In q qubits.
  Proof. intros H. apply in_or_app. left. now apply in_data. Qed.
  Lemma center_in_qubits c : iscenter lay c -> In c qubits.
  Proof. intros H. apply in_or_app. right. now apply in_measure. Qed.
  Lemma mapM_q2i l : (forall q, In q l -> In q qubits) -> mapM (q2i lay) l = Ok (map ix l).
  Proof. intros H. apply mapM_ok. intros q Hq. apply q2i_ix, H, Hq. Qed.

  Lemma length_qubits : length qubits = Z.to_nat (30 * (tw * th)).
  Proof.
    unfold qubits. rewrite app_length, count_data, count_measure by exact Hv.
    destruct (valid_tiles lay Hv) as (Hw & Hh & -> & ->). nia.
  Qed.
  Lemma nth_sorted {A} (R : A -> A -> Prop) l i j a b : StronglySorted R l -> (i < j)%nat ->
    nth_error l i = Some a -> nth_error l j = Some b -> R a b.
  Proof.
    intros Hs. revert i j. induction Hs as [|x l Hs IH Hf]; intros i j Hij Ha Hb; [destruct i; discriminate|].
    destruct j as [|j]; [lia|]. destruct i as [|i]; cbn in *.
    - injection Ha as ->. rewrite Forall_forall in Hf. apply Hf. eapply nth_error_In; eauto.
    - apply (IH i j); auto. lia.
  Qed.
  Lemma q2i_data q i : isdata lay q -> q2i lay q = Ok i -> nth_error (data_qubit_coords lay) i = Some q /\ (i < length (data_qubit_coords lay))%nat.
  Proof.
    intros Hq H. apply q2i_spec in H. unfold qubits in H. destruct (Nat.ltb_spec i (length (data_qubit_coords lay))) as [L|L].
    - rewrite nth_error_app1 in H by exact L. auto.
    - rewrite nth_error_app2 in H by exact L. apply nth_error_In in H. apply in_measure in H; [|exact Hv].
      exfalso. eapply data_not_measure; eauto.
  Qed.
  Lemma q2i_measure c i : iscenter lay c -> q2i lay c = Ok i -> (length (data_qubit_coords lay) <= i)%nat.
  Proof.
    intros Hq H. apply q2i_spec in H. unfold qubits in H. destruct (Nat.ltb_spec i (length (data_qubit_coords lay))) as [L|L]; [|lia].
    rewrite nth_error_app1 in H by exact L. apply nth_error_In in H. apply in_data in H; [|exact Hv].
    exfalso. eapply data_not_measure; eauto.
  Qed.
End I.
