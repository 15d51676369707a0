(** Running the generated instruction lists: the frame follows a trajectory. *)
From Coq Require Import QArith.
From Verif Require Import Prelude Layout LayoutFacts LayoutEdges LayoutLists LayoutHex LayoutHex2 Pauli LayoutObs LayoutLogic LayoutIndex
  Tracker TrackerFacts Stim Circuit Annot Shift Ends Gen Traj Eval Frame.
Open Scope Z_scope.

Lemma NoDup_pairs {A B} (f h : A -> B) l : NoDup (map f l) -> NoDup (map h l) ->
  (forall a b, In a l -> In b l -> f a <> h b) -> NoDup (flat_map (fun a => [f a; h a]) l).
Proof.
  induction l as [|a l IH]; intros Hf Hh Hd; [constructor|]. cbn [map flat_map app] in *.
  inversion Hf as [|? ? Hf1 Hf2]; inversion Hh as [|? ? Hh1 Hh2]; subst.
  assert (IH' : NoDup (flat_map (fun a => [f a; h a]) l)) by (apply IH; auto; intros; apply Hd; now right).
  constructor; [|constructor; [|exact IH']].
  - intros [K|K]; [apply (Hd a a); [now left | now left | congruence]|]. apply in_flat_map in K. destruct K as (b & Hb & [K|[K|[]]]).
    + apply Hf1. rewrite <- K. now apply in_map.
    + apply (Hd a b); [now left | now right | congruence].
  - intros K. apply in_flat_map in K. destruct K as (b & Hb & [K|[K|[]]]).
    + apply (Hd b a); [now right | now left | congruence].
    + apply Hh1. rewrite <- K. now apply in_map.
Qed.

(** ** Annotations *)
Lemma record_parity_tg rec s : (forall x, In x s -> (x < length rec)%nat) ->
  record_parity rec (tg (length rec) s) = Ok (xsum (fun x => nth x rec false) s).
Proof.
  intros H. unfold tg. rewrite (xsum_perm _ _ _ (isort_perm Nat.leb s)).
  assert (H' : forall x, In x (isort Nat.leb s) -> (x < length rec)%nat) by (intros x Hx; apply H; revert Hx; apply in_isort).
  revert H'. generalize (isort Nat.leb s). intros l. induction l as [|x l IH]; intros Hl; [reflexivity|].
  cbn [map record_parity]. specialize (Hl x (or_introl eq_refl)) as Hx.
  replace (Z.of_nat x - Z.of_nat (length rec) <? 0) with true by (symmetry; apply Z.ltb_lt; lia).
  replace (- (Z.of_nat x - Z.of_nat (length rec)) <=? Z.of_nat (length rec)) with true by (symmetry; apply Z.leb_le; lia). cbn [andb].
  rewrite IH by (intros; apply Hl; now right). cbn [bind]. rewrite xsum_cons. do 3 f_equal. lia.
Qed.

Definition add_dets (st : fstate) (l : list bool) : fstate := mkF (fr st) (frec st) (fdets st ++ l) (fobs st) (fgi st).
Definition add_obs (st : fstate) (k : nat) (b : bool) : fstate :=
  mkF (fr st) (frec st) (fdets st) (fun x => xorb (fobs st x) (Nat.eqb x k && b)) (fgi st).
Definition dval (B : nat -> bool) (v : entry) : list bool := match v with None => [] | Some s => [xsum B s] end.

Lemma add_dets_nil st : add_dets st [] = st.
Proof. destruct st. unfold add_dets. cbn. now rewrite app_nil_r. Qed.
Lemma add_dets_app st a b : add_dets (add_dets st a) b = add_dets st (a ++ b).
Proof. unfold add_dets. cbn. now rewrite app_assoc. Qed.

Section Annotations.
  Variable g : nat -> bool.
  Notation run := (run g).
  Lemma run_det st v co : wf_entry (length (frec st)) v ->
    run (det (length (frec st)) v co) st = Ok (add_dets st (dval (fun x => nth x (frec st) false) v)).
  Proof.
    intros H. unfold det, dval. destruct v as [s|]; [|now rewrite add_dets_nil].
    change (run ?l st) with (let! st := run_instr g (mkI "DETECTOR" (tg (length (frec st)) s) co) st in Frame.run g [] st).
    unfold run_instr. cbn [iname itargets]. change (canon "DETECTOR") with "DETECTOR"%string. cbn [annotation existsb String.eqb Ascii.eqb Bool.eqb orb].
    rewrite record_parity_tg by apply H. reflexivity.
  Qed.
  Lemma run_dets {X} (v : X -> entry) (co : X -> list num) l : forall st, (forall x, In x l -> wf_entry (length (frec st)) (v x)) ->
    run (flat_map (fun x => det (length (frec st)) (v x) (co x)) l) st =
    Ok (add_dets st (flat_map (fun x => dval (fun i => nth i (frec st) false) (v x)) l)).
  Proof.
    induction l as [|x l IH]; intros st H; cbn [flat_map]; [now rewrite add_dets_nil|].
    rewrite run_app, run_det by (apply H; now left). cbn [bind].
    rewrite (IH (add_dets st _)) by (intros; apply H; now right). cbn [frec add_dets]. now rewrite add_dets_app.
  Qed.
  Lemma run_obs st s k : wf_entry (length (frec st)) (Some s) ->
    run [mkI "OBSERVABLE_INCLUDE" (tg (length (frec st)) s) [int_arg (Z.of_nat k)]] st = Ok (add_obs st k (xsum (fun x => nth x (frec st) false) s)).
  Proof.
    intros H. cbn [Frame.run]. unfold run_instr. cbn [iname itargets iargs].
    change (canon "OBSERVABLE_INCLUDE") with "OBSERVABLE_INCLUDE"%string. cbn [annotation existsb String.eqb Ascii.eqb Bool.eqb orb].
    unfold int_arg, obs_arg, inject_Z. destruct (Z.leb_spec 0 (Z.of_nat k)) as [_|L]; [|lia]. cbn [bind].
    rewrite record_parity_tg by apply H. cbn [bind]. now rewrite Nat2Z.id.
  Qed.
End Annotations.

(** ** Well-formed entries of the model trackers *)
Lemma wf_gd t v : wf_entry t v <-> gd (fun _ => false) t v false.
Proof.
  destruct v as [s|]; cbn; [|tauto]. split; [intros [H1 H2]; repeat split; auto; now apply xsum_false | tauto].
Qed.
Lemma wf_comb t vs : (forall v, In v vs -> wf_entry t v) -> wf_entry t (comb vs).
Proof.
  intros H. apply wf_gd. eapply gd_eq; [|apply (gd_comb _ _ vs (map (fun _ => false) vs))].
  - rewrite xsum_map. now apply xsum_false.
  - induction vs as [|v vs IH]; constructor; [apply wf_gd, H; now left | apply IH; intros; apply H; now right].
Qed.
Lemma wf_comb_map {X} t (f : X -> entry) l : (forall x, In x l -> wf_entry t (f x)) -> wf_entry t (comb (map f l)).
Proof. intros H. apply wf_comb. intros v Hv. apply in_map_iff in Hv. destruct Hv as (x & <- & Hx). auto. Qed.
Lemma wf_cur tr k : wf tr -> wf_entry (tm tr) (cur tr k).
Proof. intros H. unfold cur. specialize (H k). destruct (hist tr k) as [|v l]; [exact Logic.I|]. apply H. now left. Qed.

Section X.
  Variable lay : layout.
  Hypothesis Hv : valid lay.
  Hypothesis Hobs : obs lay = "V"%string \/ obs lay = "H"%string.
  Notation E := (round_edges lay).
  Notation zk := Z.of_nat.
  Notation ne := (length (E 0)).
  Notation D := (data_qubit_coords lay).
  Notation trk := (trk lay (tr0 lay)).
  Notation ix := (ix lay).
  Local Opaque data_qubit_coords measure_qubit_coords q2i_dict hex_entries hexes round_edges all_edges isort.

  Lemma wf_raw s tr e : In e (E s) -> wf_entry (tm tr + length (E s)) (raw lay s tr e).
  Proof.
    intros He. split; [repeat constructor; intros []|]. intros x [<-|[]]. pose proof (index_lt edge_eqb edge_eqb_eq e _ He). lia.
  Qed.
  Lemma wf_vedge s tr e : wf tr -> In e (E s) -> wf_entry (tm tr + length (E s)) (vedge lay s tr e).
  Proof.
    intros W He. unfold vedge. apply wf_comb. intros v [<-|Hin]; [now apply wf_raw|].
    destruct (pc3 lay); [|destruct Hin]. destruct Hin as [<-|[]]. eapply wf_entry_mono; [|now apply wf_cur]. lia.
  Qed.
  Lemma wf_vhalf s tr h : wf tr -> In h (H1 lay s) -> wf_entry (tm tr + length (E s)) (vhalf lay s tr h).
  Proof. intros W Hh. unfold vhalf. apply wf_comb_map. intros e He. apply wf_vedge; [exact W|]. eapply H1_first; eauto. Qed.
  Lemma wf_vhex s tr h : wf tr -> In h (H2 lay s) -> wf_entry (tm tr + length (E s)) (vhex lay s tr h).
  Proof.
    intros W Hh. unfold vhex. apply wf_comb. intros v Hin. apply in_app_or in Hin. destruct Hin as [Hin|[<-|[]]].
    - apply in_map_iff in Hin. destruct Hin as (e & <- & He). apply wf_vedge; [exact W|]. eapply H2_second; eauto.
    - eapply wf_entry_mono; [|now apply wf_cur]. lia.
  Qed.
  Lemma wf_post s tr : wf tr -> wf (post lay s tr).
  Proof.
    intros W k v Hin. unfold post in *. cbn [hist tm] in *.
    assert (Old : In v (hist tr k) -> wf_entry (tm tr + length (E s)) v) by (intros K; eapply wf_entry_mono; [|eapply W, K]; lia).
    destruct k as [h|e|[h|e|k]]; auto.
    - destruct (cmem h (H2 lay s)) eqn:F; auto. destruct Hin as [<-|Hin]; auto. apply wf_vhex; [exact W | now apply cmem_In].
    - destruct (emem e (E s)) eqn:F; auto. destruct Hin as [<-|Hin]; auto. apply wf_vedge; [exact W | now apply emem_In].
    - destruct (cmem h (H1 lay s)) eqn:F; auto. destruct Hin as [<-|Hin]; auto. apply wf_vhalf; [exact W | now apply cmem_In].
    - destruct (emem e (E s)) eqn:F; auto. destruct Hin as [<-|Hin]; auto. apply wf_raw. now apply emem_In.
  Qed.
  Lemma wf_tr0 : wf (tr0 lay).
  Proof.
    intros k v Hin. unfold tr0 in *. cbn [hist tm] in *. unfold dummy in *.
    assert (D0 : wf_entry 0 (Some [])) by (split; [constructor | intros x []]).
    destruct k as [h|e|[h|e|k]]; try destruct Hin;
    match type of Hin with In _ (if ?b then _ else _) => destruct b; [|destruct Hin] end; destruct Hin as [<-|[]];
    try exact D0; match goal with |- wf_entry _ (if ?b then _ else _) => destruct b; [exact D0 | exact Logic.I] end.
  Qed.
  Lemma wf_trk k : wf (trk k).
  Proof. induction k as [|k IH]; [apply wf_tr0 | now apply wf_post]. Qed.

  (** ** Trajectories agree when their outcomes do *)
  Lemma acc_ext z z' A0 k e : (forall t e, (S t < k)%nat -> z t e = z' t e) -> acc lay z A0 k e = acc lay z' A0 k e.
  Proof.
    induction k as [|k IH]; intros H; [reflexivity|]. cbn [acc]. rewrite IH by (intros; apply H; lia).
    rewrite (m_ext lay z z') by (intros; apply H; lia). reflexivity.
  Qed.
  Lemma bit_ext z z' A0 k e : (forall t e, (t < k)%nat -> z t e = z' t e) -> bit lay z A0 k e = bit lay z' A0 k e.
  Proof.
    intros H. unfold bit. rewrite (m_ext lay z z') by exact H. rewrite (acc_ext z z') by (intros; apply H; lia). reflexivity.
  Qed.
  Lemma acc_other z A0 k e s : In e (E s) -> zk k mod 3 <> s mod 3 -> acc lay z A0 (S k) e = acc lay z A0 k e.
  Proof.
    intros He N. cbn [acc]. destruct (emem e (E (zk k))) eqn:F; [|reflexivity]. apply emem_In in F. exfalso. apply N.
    eapply round_edges_disjoint; eauto.
  Qed.
  Lemma acc_own z A0 k e : In e (E (zk k)) -> acc lay z A0 (k + 3) e = if pc3 lay then xorb (acc lay z A0 k e) (m lay z A0 k e) else m lay z A0 k e.
  Proof.
    intros He. replace (k + 3)%nat with (S (S (S k))) by lia. rewrite (acc_other _ _ _ _ (zk k) He) by dlia. rewrite (acc_other _ _ _ _ (zk k) He) by dlia.
    cbn [acc]. apply emem_In in He. now rewrite He.
  Qed.
  Lemma obs_total_ext z z' A0 k : (forall t e, (S t < k)%nat -> z t e = z' t e) -> obs_total lay z A0 k = obs_total lay z' A0 k.
  Proof.
    induction k as [|k IH]; intros H; [reflexivity|]. cbn [obs_total]. rewrite IH by (intros; apply H; lia). f_equal.
    apply xsum_ext. intros e _. apply m_ext. intros; apply H; lia.
  Qed.

  (** ** The measurement record *)
  Definition recl (z : nat -> edge -> bool) (A0 : cpx -> bits) (k : nat) : list bool :=
    flat_map (fun s => map (bit lay z A0 s) (E (zk s))) (seq 0 k).
  Lemma recl_S z A0 k : recl z A0 (S k) = recl z A0 k ++ map (bit lay z A0 k) (E (zk k)).
  Proof. unfold recl. rewrite seq_S, flat_map_app. cbn [flat_map]. now rewrite app_nil_r. Qed.
  Lemma length_recl z A0 k : length (recl z A0 k) = (k * ne)%nat.
  Proof.
    induction k as [|k IH]; [reflexivity|]. rewrite recl_S, app_length, map_length, IH, (length_E lay Hv (zk k)). lia.
  Qed.
  Lemma nth_index {X Y} (eqb : X -> X -> bool) (Heq : forall a b, eqb a b = true <-> a = b) (f : X -> Y) x l d : In x l -> nth (index eqb x l) (map f l) d = f x.
  Proof.
    induction l as [|a l IH]; intros H; [destruct H|]. cbn [index map]. destruct (eqb x a) eqn:Ex; [apply Heq in Ex; now subst|].
    cbn [nth]. apply IH. destruct H as [->|H]; [|exact H]. assert (eqb x x = true) by now apply Heq. congruence.
  Qed.
  Lemma rows_recl z A0 k tail : rows lay z A0 (fun i => nth i (recl z A0 k ++ tail) false) k.
  Proof.
    intros s e Hs He.
    assert (K : forall k, (s < k)%nat -> forall tail, nth (s * ne + index edge_eqb e (E (zk s))) (recl z A0 k ++ tail) false = bit lay z A0 s e); [|now apply K].
    clear k Hs tail. intros k. induction k as [|k IH]; intros Hs tail; [lia|]. rewrite recl_S, <- app_assoc.
    destruct (Nat.eq_dec s k) as [->|Ns].
    - rewrite app_nth2 by (rewrite length_recl; lia). rewrite length_recl.
      replace (k * ne + index edge_eqb e (E (zk k)) - k * ne)%nat with (index edge_eqb e (E (zk k))) by lia.
      rewrite app_nth1 by (rewrite map_length; apply index_lt; [apply edge_eqb_eq | exact He]).
      apply nth_index; [apply edge_eqb_eq | exact He].
    - apply IH. lia.
  Qed.
  Lemma recl_ext z z' A0 k : (forall t e, (t < k)%nat -> z t e = z' t e) -> recl z A0 k = recl z' A0 k.
  Proof.
    intros H. unfold recl. apply flat_map_ext_in. intros s Hs. apply in_seq in Hs. apply map_ext. intros e. apply bit_ext. intros; apply H; lia.
  Qed.

  (** ** Qubit indices *)
  Lemma ix_data_ne q q' : isdata lay q -> isdata lay q' -> q <> q' -> ix q <> ix q'.
  Proof. intros H H' N K. apply N. eapply (ix_inj lay Hv); eauto using data_in_qubits. Qed.
  Lemma center_of s e : In e (E s) -> iscenter lay (e_center e) /\ ecolor (e_center e) = s mod 3.
  Proof. intros He. destruct (round_edge_facts lay Hv s e He) as (_ & _ & _ & _ & _ & _ & _ & _ & H). exact H. Qed.
  Lemma ix_data_center q s e : isdata lay q -> In e (E s) -> ix q <> ix (e_center e).
  Proof.
    intros Hq He K. destruct (center_of s e He) as [Hc _]. apply (ix_inj lay Hv) in K; [|now apply data_in_qubits | now apply center_in_qubits].
    subst. eapply data_not_measure; eauto.
  Qed.
  Lemma ix_centers s s' e e' : In e (E s) -> In e' (E s') -> s mod 3 <> s' mod 3 -> ix (e_center e) <> ix (e_center e').
  Proof.
    intros He He' N K. destruct (center_of s e He) as [Hc Cc]. destruct (center_of s' e' He') as [Hc' Cc'].
    apply (ix_inj lay Hv) in K; try now apply center_in_qubits. apply N. rewrite <- Cc, <- Cc'. now f_equal.
  Qed.
  Lemma NoDup_ix l : (forall q, In q l -> In q (qubits lay)) -> NoDup l -> NoDup (map ix l).
  Proof. intros H Hn. apply NoDup_map_inj; [|exact Hn]. intros a b Ha Hb K. eapply (ix_inj lay Hv); eauto. Qed.
  Lemma NoDup_centers s : NoDup (centers lay s).
  Proof.
    unfold centers. rewrite <- (map_map e_center ix). apply NoDup_ix; [|now apply NoDup_round_edges_centers].
    intros q Hq. apply in_map_iff in Hq. destruct Hq as (e & <- & He). apply center_in_qubits; [exact Hv|]. eapply center_of; eauto.
  Qed.
  Lemma NoDup_lefts s : NoDup (map (fun e => ix (e_left e)) (E s)).
  Proof.
    rewrite <- (map_map e_left ix). apply NoDup_ix.
    - intros q Hq. apply in_map_iff in Hq. destruct Hq as (e & <- & He). now apply (ends_in lay Hv s).
    - eapply Permutation_NoDup; [apply Permutation_sym, lefts_perm, Hv | apply NoDup_filter, NoDup_data].
  Qed.
  Lemma NoDup_rights s : NoDup (map (fun e => ix (e_right e)) (E s)).
  Proof.
    rewrite <- (map_map e_right ix). apply NoDup_ix.
    - intros q Hq. apply in_map_iff in Hq. destruct Hq as (e & <- & He). now apply (ends_in lay Hv s).
    - eapply Permutation_NoDup; [apply Permutation_sym, rights_perm, Hv | apply NoDup_filter, NoDup_data].
  Qed.
  Lemma NoDup_lpairs s : NoDup (lpairs lay s).
  Proof.
    apply NoDup_pairs; [apply NoDup_lefts | apply NoDup_centers |]. intros a b Ha Hb. eapply ix_data_center; [|exact Hb]. now apply (round_edge_facts lay Hv s).
  Qed.
  Lemma NoDup_rpairs s : NoDup (rpairs lay s).
  Proof.
    apply NoDup_pairs; [apply NoDup_rights | apply NoDup_centers |]. intros a b Ha Hb. eapply ix_data_center; [|exact Hb]. now apply (round_edge_facts lay Hv s).
  Qed.
  Lemma NoDup_lr s : NoDup (flat_map (fun e => [ix (e_left e); ix (e_right e)]) (E s)).
  Proof.
    apply NoDup_pairs; [apply NoDup_lefts | apply NoDup_rights |]. intros a b Ha Hb.
    destruct (round_edge_facts lay Hv s a Ha) as (Hl & _ & Pl & _). destruct (round_edge_facts lay Hv s b Hb) as (_ & Hr & _ & Pr & _).
    apply ix_data_ne; auto. intros K. rewrite K in Pl. congruence.
  Qed.
  (** indices outside the gates of one sub-round *)
  Lemma out_centers s x : (forall e, In e (E s) -> x <> ix (e_center e)) -> ~ In x (centers lay s).
  Proof. intros H K. unfold centers in K. apply in_map_iff in K. destruct K as (e & <- & He). now apply (H e He). Qed.
  Lemma out_pairs s (f : edge -> cpx) x : (forall e, In e (E s) -> x <> ix (f e) /\ x <> ix (e_center e)) ->
    ~ In x (flat_map (fun e => [ix (f e); ix (e_center e)]) (E s)).
  Proof. intros H K. apply in_flat_map in K. destruct K as (e & He & [<-|[<-|[]]]); destruct (H e He); congruence. Qed.
End X.
