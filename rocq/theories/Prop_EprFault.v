(** C83: single errors in the double EPR circuit
    (src/honeycomb_circuit_double_epr_test.py). *)
From Coq Require Import QArith String.
From Verif Require Import Prelude Layout LayoutFacts LayoutEdges LayoutLists LayoutHex LayoutHex2 Pauli LayoutObs LayoutLogic LayoutIndex Prop_Layout
  Distance Distance2 Prop_Distance
  Tracker TrackerFacts Stim Circuit Annot Shift Ends Gen Gen2 Traj Eval Frame Exec Exec2 Exec4 Prop_Circuit
  Noise NoiseFacts NoiseMoments Epr EprRun EprRun2 EprNoise Prop_Epr Struct Struct2 Struct3 FaultSpec FaultLin FaultQuiet FaultCore FaultChain EprFault.
Open Scope Z_scope.

(** ** Specification *)
(** Instruction i of the circuit, with the instructions before and after it, is in
    sub-round s: s TICKs come before it. *)
Definition in_sub_round (c : circuit) (s : Z) (l1 : list instr) (i : instr) (l2 : list instr) : Prop :=
  flatten c = l1 ++ i :: l2 /\ Z.of_nat (length (filter is_tick l1)) = s.
(** No observable differs from its value without errors. *)
Definition no_effect (st : fstate) : Prop := forall j, fobs st j = false.
(** Some detector fires. *)
Definition noticed (st : fstate) : Prop := In true (fdets st).

(** ** A run with an error is the sum of a run without errors and the difference that the error makes *)
Lemma faulty_sum g l1 i f l2 f0 base d : run g (gates (l1 ++ i :: l2)) (start f0) = Ok base -> run_faulty still l1 i f l2 (start (fun _ => bzero)) = Ok d ->
  exists st, run_faulty g l1 i f l2 (start f0) = Ok st /\ sums base d st.
Proof.
  intros Rb Rd. replace (l1 ++ i :: l2) with (l1 ++ [i] ++ l2) in Rb by reflexivity. rewrite !gates_app, run_app in Rb. unfold run_faulty in *.
  assert (Hg : forall j, g j = xorb (g j) (still j)) by (intros j; unfold still; now rewrite xorb_false_r).
  assert (S0 : sums (start f0) (start (fun _ => bzero)) (start f0)) by (apply sums_clean; try reflexivity; repeat split; constructor).
  destruct (run g (gates l1) (start f0)) as [b1|] eqn:R1; [|discriminate]. cbn [bind] in Rb. rewrite run_app in Rb.
  destruct (run_sum g still g Hg _ _ _ _ b1 S0 R1) as (d1 & c1 & Rd1 & Rc1 & S1). rewrite Rd1 in Rd. cbn [bind] in Rd. assert (c1 = b1) as -> by congruence.
  destruct (run g (gates [i]) b1) as [b2|] eqn:R2; [|discriminate]. cbn [bind] in Rb |- *.
  destruct (run_sum g still g Hg _ _ _ _ b2 S1 R2) as (d2 & c2 & Rd2 & Rc2 & S2). rewrite Rd2 in Rd. cbn [bind] in Rd. assert (c2 = b2) as -> by congruence.
  destruct (sums_same _ _ _ S1) as (_ & _ & _). destruct S1 as (_ & (L1 & _) & _). rewrite <- L1 in Rd.
  destruct (run_sum g still g Hg _ _ _ _ base (happens_sum f (length (frec b1)) _ _ _ S2) Rb) as (d3 & c3 & Rd3 & Rc3 & S3).
  exists c3. split; [rewrite Rc2; exact Rc3|]. assert (d3 = d) as <- by congruence. exact S3.
Qed.

Section P.
  Variable lay : layout.
  Hypothesis Hv : valid lay.
  Hypothesis Hst : style lay = "EM3"%string.
  Notation E := (round_edges lay).
  Notation zk := Z.of_nat.
  Notation ix := (ix lay).
  Notation ids := [0; 1; 2; 3]%nat.
  Notation n := (sub_rounds lay).
  Notation par0 := (flat_map (parity_i lay 0) ids).
  Notation parn := (flat_map (parity_i lay n) ids).
  Local Opaque data_qubit_coords measure_qubit_coords q2i_dict hex_entries hexes round_edges all_edges isort.

  Lemma difference c l1 i f l2 d : 0 <= n -> double_epr_circuit lay = Ok c -> flatten c = l1 ++ i :: l2 -> run_faulty still l1 i f l2 (start (fun _ => bzero)) = Ok d ->
    forall g f0, exists st, run_faulty g l1 i f l2 (start f0) = Ok st /\ fdets st = fdets d /\ forall j, fobs st j = fobs d j.
  Proof.
    intros Hn Hc Ef Rd g f0. destruct (epr_circuit lay Hv Hst Hn) as (c' & Hc' & Fc). rewrite Hc in Hc'. injection Hc' as <-.
    destruct (base_ok lay Hv Hst g f0) as (base & Rb & B). specialize (B Hn). destruct B as [Bd Bo].
    assert (Rb' : run g (gates (l1 ++ i :: l2)) (start f0) = Ok base) by (rewrite <- Ef, Fc, !gates_app, (gates_chunks lay Hv Hst); exact Rb).
    destruct (faulty_sum g l1 i f l2 f0 base d Rb' Rd) as (st & Rs & _ & _ & (Ld & Sd) & So & _). exists st. split; [exact Rs|]. split.
    - rewrite Sd, xors_comm. apply xors_false; [symmetry; exact Ld | exact Bd].
    - intros j. rewrite So, Bo. apply xorb_false_l.
  Qed.

  (** ** Errors that can be made *)
  Lemma kick_made c s err e0 : 3 <= zk s < n -> (0 < noise lay)%Q -> double_epr_circuit lay = Ok c -> In e0 (E (zk s)) -> only [ix (e_left e0); ix (e_right e0)] err ->
    exists l1 i l2, flatten c = l1 ++ i :: l2 /\ length (filter is_tick l1) = s /\ fault_of i (Kick err) /\
      forall g f0, exists st, run_faulty g l1 i (Kick err) l2 (start f0) = Ok st /\ outcome lay s e0 (acted lay err) false st.
  Proof.
    intros Hs Hp Hc Hin Ho. destruct (epr_circuit lay Hv Hst ltac:(lia)) as (c' & Hc' & Fc). rewrite Hc in Hc'. injection Hc' as <-.
    assert (En : noisy lay (zk s) = true) by (unfold noisy; replace (3 <=? zk s) with true by (symmetry; apply Z.leb_le; lia); cbn [andb]; unfold Qlt_bool; destruct (Qle_bool (noise lay) 0) eqn:K; [apply Qle_bool_iff in K; exfalso; exact (Qlt_not_le _ _ Hp K) | reflexivity]).
    assert (Sq : seq 0 (Z.to_nat n) = seq 0 s ++ s :: seq (S s) (Z.to_nat n - S s)) by (replace (Z.to_nat n) with (s + S (Z.to_nat n - S s))%nat at 1 by lia; now rewrite seq_app).
    set (i := mkI "DEPOLARIZE2" (qs (pairs lay (zk s))) [Num (noise lay)]).
    set (l1 := par0 ++ flat_map (chunk lay) (seq 0 s)).
    set (l2 := (mkI "MPP" (mpp_targets lay (zk s)) [Num (noise lay)] :: ann lay s) ++ flat_map (chunk lay) (seq (S s) (Z.to_nat n - S s)) ++ parn).
    assert (Ef : flatten c = l1 ++ i :: l2).
    { rewrite Fc, Sq, flat_map_app. cbn [flat_map]. unfold chunk at 2. unfold checks_i. rewrite En. unfold l1, i, l2. rewrite <- !app_assoc. reflexivity. }
    assert (Ht : length (filter is_tick l1) = s).
    { unfold l1. rewrite ticks_app. change (length (filter is_tick par0)) with 0%nat. cbn [Nat.add]. clear - Hv Hst. induction s as [|s IH]; [reflexivity|]. rewrite seq_S, flat_map_app, ticks_app, IH. cbn [flat_map Nat.add]. rewrite app_nil_r.
      destruct (chunk_tick lay Hv Hst s) as (b & -> & Hb). rewrite ticks_app, Hb. change (length (filter is_tick [tick_i])) with 1%nat. cbn [length]. lia. }
    assert (Hf : fault_of i (Kick err)).
    { unfold i, pairs, pair_qubits. rewrite (qs_flat (fun e => ix (e_left e)) (fun e => ix (e_right e))). destruct (in_split _ _ Hin) as (x & y & ->). rewrite flat_map_app. cbn [flat_map app].
      apply fault_dep2; [|exact Ho]. exists (length x). clear. induction x as [|u x IH]; [reflexivity|]. cbn [flat_map app length]. rewrite IH. lia. }
    exists l1, i, l2. split; [exact Ef|]. split; [exact Ht|]. split; [exact Hf|].
    destruct (kicked lay Hv Hst s e0 (acted lay err) false Hin ltac:(lia) err eq_refl (acted_data lay Hv err) (fun j => anc_off lay Hv Hst err e0 (zk s) j Hin Ho)) as (st0 & st & R0 & R1 & O1 & O2 & O3).
    assert (Rd : run_faulty still l1 i (Kick err) l2 (start (fun _ => bzero)) = Ok st).
    { unfold run_faulty. unfold l1. rewrite gates_app, (gates_chunks lay Hv Hst). change (gates par0) with par0. rewrite R0, bind_ok. change (gates [i]) with (@nil instr). cbn [run bind happens].
      rewrite <- R1. f_equal. unfold l2. rewrite !gates_app, (gates_chunks lay Hv Hst). change (gates parn) with parn.
      change (gates (mkI "MPP" (mpp_targets lay (zk s)) [Num (noise lay)] :: ann lay s)) with (mkI "MPP" (mpp_targets lay (zk s)) [Num (noise lay)] :: gates (ann lay s)). rewrite (gates_ann lay Hv Hst).
      replace (Z.to_nat n - s)%nat with (S (Z.to_nat n - S s)) by lia. cbn [seq flat_map]. unfold mpp_a at 2. rewrite En, <- app_assoc. reflexivity. }
    intros g f0. destruct (difference c l1 i (Kick err) l2 st ltac:(lia) Hc Ef Rd g f0) as (st' & R' & D & O). exists st'. split; [exact R'|].
    split; [now rewrite D|]. split; intros j Hj; rewrite O; auto.
  Qed.

  (** ** The observables *)
  Lemma basis_h s : fst (obs_h_before_sub_round lay s) = (if s mod 2 =? 0 then xyz s else xyz (s - 1)).
  Proof.
    rewrite obs_h_basis. unfold hbasis, xyz. destruct (mod6_cases s) as [K|[K|[K|[K|[K|K]]]]]; rewrite K;
    match type of K with _ = ?c =>
      let a := eval vm_compute in (c mod 2) in let b := eval vm_compute in (c mod 3) in let d := eval vm_compute in ((c - 1) mod 3) in
      replace (s mod 2) with a by (revert K; clear; dlia); replace (s mod 3) with b by (revert K; clear; dlia); replace ((s - 1) mod 3) with d by (revert K; clear; dlia) end; reflexivity.
  Qed.
  Lemma xyz_3 s : xyz (s + 3) = xyz s.
  Proof. apply xyz_eq. dlia. Qed.
  (** one is in the basis about to be measured, one in the basis just measured *)
  Lemma obs_of (x : bool) s : exists j l, (j < 4)%nat /\ Oi lay j s = pstr (if x then xyz s else xyz (s - 1)) l /\ NoDup l.
  Proof.
    set (j := if Bool.eqb x (s mod 2 =? 0) then 0%nat else 2%nat). exists j.
    assert (B : fst (obs_h_before_sub_round lay (if Bool.eqb x (s mod 2 =? 0) then s else s + 3)) = if x then xyz s else xyz (s - 1)).
    { assert (C : s mod 2 = 0 \/ s mod 2 = 1) by dlia. destruct x, C as [C|C]; rewrite C; cbn [Bool.eqb Z.eqb]; rewrite basis_h.
      - now rewrite C.
      - replace ((s + 3) mod 2) with 0 by (revert C; dlia). apply xyz_3.
      - replace ((s + 3) mod 2) with 1 by (revert C; dlia). cbn [Z.eqb]. replace (s + 3 - 1) with (s - 1 + 3) by lia. apply xyz_3.
      - now rewrite C. }
    unfold j. destruct (Bool.eqb x _); eexists; (split; [lia|]); cbn [Oi]; unfold Hop; rewrite B; (split; [reflexivity | apply NoDup_obs_h]).
  Qed.
  Definition other (j : nat) : nat := match j with 0 => 1 | 1 => 0 | 2 => 3 | _ => 2 end%nat.
  Lemma other_pair j s : (j < 4)%nat -> anticommutes (Oi lay j s) (Oi lay (other j) s) = true /\ (other j < 4)%nat.
  Proof.
    intros Hj. split; [|destruct j as [|[|[|[|j]]]]; cbn; lia]. rewrite (Oi_pair lay Hv); [|exact Hj|destruct j as [|[|[|[|j]]]]; cbn; lia]. destruct j as [|[|[|[|j]]]]; [reflexivity..|lia].
  Qed.
  Lemma on_support (x : bool) s : exists j l q, (j < 4)%nat /\ Oi lay j s = pstr (if x then xyz s else xyz (s - 1)) l /\ NoDup l /\ In q l /\ isdata lay q.
  Proof.
    destruct (obs_of x s) as (j & l & Hj & El & Hl). destruct (other_pair j s Hj) as [K _]. rewrite El in K. destruct l as [|q l]; [discriminate|].
    exists j, (q :: l), q. split; [exact Hj|]. split; [exact El|]. split; [exact Hl|]. split; [now left|]. apply (Oi_data lay Hv j s (if x then xyz s else xyz (s - 1), q)). rewrite El. now left.
  Qed.
  (** a check with one end on an observable in its own basis *)
  Lemma odd_check s : exists j l e, (j < 4)%nat /\ Oi lay j s = pstr (xyz s) l /\ NoDup l /\ In e (E s) /\ xorb (cmem (e_left e) l) (cmem (e_right e) l) = true.
  Proof.
    destruct (obs_of true s) as (j & l & Hj & El & Hl). exists j, l. destruct (existsb (fun e => xorb (cmem (e_left e) l) (cmem (e_right e) l)) (E s)) eqn:K.
    - apply existsb_exists in K. destruct K as (e & Hin & K). exists e. auto.
    - exfalso. assert (Eq : forall e, In e (E s) -> cmem (e_left e) l = cmem (e_right e) l).
      { intros e Hin. destruct (cmem (e_left e) l) eqn:Ka, (cmem (e_right e) l) eqn:Kb; try reflexivity; assert (F : existsb (fun e => xorb (cmem (e_left e) l) (cmem (e_right e) l)) (E s) = true) by (apply existsb_exists; exists e; split; [exact Hin | now rewrite Ka, Kb]); congruence. }
      destruct (other_pair j s Hj) as [Pr Hj']. rewrite anti_par, El in Pr.
      assert (Pm : Permutation l (flat_map ends (filter (fun e => cmem (e_left e) l) (E s)))).
      { pose proof (round_matching lay Hv s) as RM. apply NoDup_Permutation; [exact Hl | |].
        - apply NoDup_flat_filter. eapply Permutation_NoDup; [symmetry; exact RM | apply NoDup_data].
        - intros q. split.
          + intros Hq. assert (Dq : isdata lay q) by (apply (Oi_data lay Hv j s (xyz s, q)); rewrite El; apply in_map_iff; now exists q).
            pose proof (proj2 (in_data lay Hv q) Dq) as Hd. apply (Permutation_in _ (Permutation_sym RM)) in Hd. apply in_flat_map in Hd. destruct Hd as (e & Hin & Hq'). apply in_flat_map. exists e. split; [|exact Hq'].
            apply filter_In. split; [exact Hin|]. destruct Hq' as [<-|[<-|[]]]; [|rewrite Eq by exact Hin]; now apply cmem_In.
          + intros Hq. apply in_flat_map in Hq. destruct Hq as (e & Hin & Hq). apply filter_In in Hin. destruct Hin as [Hin Hc]. apply cmem_In. destruct Hq as [<-|[<-|[]]]; [|rewrite <- Eq by exact Hin]; exact Hc. }
      rewrite (par_pstr_perm _ _ _ _ Pm), <- par_edges in Pr. rewrite xsum_false in Pr; [discriminate|]. intros e Hin. apply filter_In in Hin. rewrite <- anti_par. apply (Oi_edge lay Hv (other j) s e). tauto.
  Qed.

  (** ** Errors that no detector notices *)
  Lemma par_one A q p l : NoDup l -> (forall q', q' <> q -> A q' = bzero) -> par A (pstr p l) = cmem q l && anti2 (pbits p) (A q).
  Proof.
    intros Hl HA. assert (N : q <> (fst q + 1, snd q)) by (destruct q as [x y]; cbn [fst snd]; intros F; injection F; lia).
    rewrite (par_two A q (fst q + 1, snd q) p l Hl N) by auto. rewrite (HA (fst q + 1, snd q)) by auto. now rewrite anti2_zero_r, andb_false_r, xorb_false_r.
  Qed.
  Lemma xyz_next s : anti2 (pbits (xyz s)) (pbits (xyz (s - 1))) = true /\ anti2 (pbits (xyz (s - 1))) (pbits (xyz s)) = true.
  Proof.
    rewrite !anti2_pbits. unfold xyz. assert (C : s mod 3 = 0 \/ s mod 3 = 1 \/ s mod 3 = 2) by dlia.
    destruct C as [C|[C|C]]; rewrite C; [replace ((s - 1) mod 3) with 2 by (revert C; dlia) | replace ((s - 1) mod 3) with 0 by (revert C; dlia) | replace ((s - 1) mod 3) with 1 by (revert C; dlia)]; split; reflexivity.
  Qed.
  Lemma gone_quiet v : (forall t h, 6 <= t < n -> In h (H2 lay t) -> hexv lay v t h = hexv lay v (t - 3) h) -> forall x, In x (gone lay v (Z.to_nat n)) -> x = false.
  Proof.
    intros H x Hx. apply in_flat_map in Hx. destruct Hx as (t & Ht & Hx). apply in_seq in Ht. destruct (Z.leb_spec 6 (zk t)) as [L|L]; [|destruct Hx].
    apply in_map_iff in Hx. destruct Hx as (h & <- & Hh). rewrite H by (lia || exact Hh). apply xorb_nilpotent.
  Qed.
  (** p on the qubits of ls *)
  Definition put (p : pauli) (ls : list cpx) (x : nat) : bits := if existsb (fun q => Nat.eqb x (ix q)) ls then pbits p else bzero.
  Lemma put_at p ls q : isdata lay q -> (forall q', In q' ls -> isdata lay q') -> acted lay (put p ls) q = if cmem q ls then pbits p else bzero.
  Proof.
    intros Dq Hl. rewrite <- (acted_data lay Hv) by exact Dq. unfold put. replace (existsb (fun q0 => Nat.eqb (ix q) (ix q0)) ls) with (cmem q ls); [reflexivity|].
    unfold cmem. clear p. induction ls as [|q' ls IH]; [reflexivity|]. cbn [existsb]. rewrite IH by (intros; apply Hl; now right). f_equal. destruct (Nat.eqb_spec (ix q) (ix q')) as [K|K].
    - apply (ix_inj lay Hv) in K; [subst; apply cpx_eqb_refl | now apply data_in_qubits | apply data_in_qubits; [exact Hv | apply Hl; now left]].
    - apply cpx_eqb_neq. congruence.
  Qed.
  Lemma put_only p ls e0 : (forall q, In q ls -> q = e_left e0 \/ q = e_right e0) -> only [ix (e_left e0); ix (e_right e0)] (put p ls).
  Proof.
    intros H x Hx. unfold put. destruct (existsb _ ls) eqn:K; [|reflexivity]. exfalso. apply existsb_exists in K. destruct K as (q & Hq & K). apply Nat.eqb_eq in K. subst x. apply Hx. destruct (H q Hq) as [->| ->]; cbn; auto.
  Qed.
  Lemma xyz_hex t h k : In h (H2 lay t) -> xyz (hexcat h + k) = xyz (t - 2 + k).
  Proof. intros Hh. destruct (hexcat2 lay Hv t h Hh) as [_ Hc]. apply xyz_eq. revert Hc. generalize (hexcat h). intros; dlia. Qed.
  Ltac bits := repeat match goal with |- context [?x <=? ?y] => destruct (Z.leb_spec x y); try lia | |- context [?x =? ?y] => destruct (Z.eqb_spec x y); try lia end.
  Definition silent (s : nat) (e0 : edge) (err : nat -> bits) : Prop :=
    In e0 (E (zk s)) /\ only [ix (e_left e0); ix (e_right e0)] err /\ (exists j, (j < 4)%nat /\ effect lay s e0 (acted lay err) false j = true) /\
    forall x, In x (gone lay (wrong s e0 (acted lay err) false) (Z.to_nat n)) -> x = false.
  (** one qubit: x says which observable is hit *)
  Lemma silent_one s (x : bool) : (forall q A t h, isdata lay q -> (forall q', q' <> q -> A q' = bzero) -> A q = pbits (if x then xyz (zk s - 1) else xyz (zk s)) -> 6 <= t < n -> In h (H2 lay t) ->
      xorb ((zk s <=? t) && par A (half_op2 lay h)) ((zk s + 1 <=? t) && par A (half_op lay h)) = xorb ((zk s <=? t - 3) && par A (half_op2 lay h)) ((zk s + 1 <=? t - 3) && par A (half_op lay h))) ->
    exists e0 err, silent s e0 err.
  Proof.
    intros HQ. destruct (on_support x (zk s)) as (j & l & q & Hj & El & Hl & Hq & Dq). set (p := if x then xyz (zk s - 1) else xyz (zk s)).
    set (e0 := touch lay (zk s) q). assert (Hin : In e0 (E (zk s))) by (now apply touch_in). exists e0, (put p [q]).
    pose proof (proj2 (touch_unique lay Hv (zk s) q e0 Dq Hin) eq_refl) as Hend.
    assert (Ho : only [ix (e_left e0); ix (e_right e0)] (put p [q])) by (apply put_only; intros q' [<-|[]]; destruct Hend; auto).
    assert (A1 : acted lay (put p [q]) q = pbits p) by (rewrite put_at by (auto; intros q' [<-|[]]; exact Dq); cbn [cmem existsb]; now rewrite cpx_eqb_refl).
    assert (A2 : forall q', q' <> q -> acted lay (put p [q]) q' = bzero).
    { intros q' N. unfold acted. destruct (cmem q' (data_qubit_coords lay)) eqn:K; [|reflexivity]. apply cmem_In, (in_data lay Hv) in K. rewrite (acted_data lay Hv) by exact K. rewrite put_at by (auto; intros q'' [<-|[]]; exact Dq).
      cbn [cmem existsb]. replace (cpx_eqb q' q) with false by (symmetry; now apply cpx_eqb_neq). reflexivity. }
    split; [exact Hin|]. split; [exact Ho|]. split.
    - exists j. split; [exact Hj|]. unfold effect. rewrite El, (par_one _ q) by assumption. rewrite A1. apply cmem_In in Hq. rewrite Hq. cbn [andb]. rewrite xorb_false_r. unfold p. destruct x; apply xyz_next.
    - apply gone_quiet. intros t h Ht Hh. rewrite (hexv_eq lay Hv s e0 _ false t h Hh), (hexv_eq lay Hv s e0 _ false (t - 3) h (H2_back lay t h Hh)). rewrite !andb_false_r. cbn [andb xorb]. rewrite !xorb_false_r. apply (HQ q); assumption.
  Qed.
  Lemma par_self A q p l : NoDup l -> (forall q', q' <> q -> A q' = bzero) -> A q = pbits p -> par A (pstr p l) = false.
  Proof. intros Hl HA Hq. rewrite (par_one A q) by assumption. now rewrite Hq, anti2_self, andb_false_r. Qed.
  Lemma silent_3 : exists e0 err, silent 3 e0 err.
  Proof.
    apply (silent_one 3 true). intros q A t h Dq HA Hq Ht Hh. destruct (hexcat2 lay Hv t h Hh) as [Ih _]. change (zk 3) with 3 in *. bits; cbn [andb]; try reflexivity.
    assert (t = 6) as -> by lia. unfold half_op at 1. rewrite (xyz_hex 6 h 1 Hh). rewrite (par_self A q); [reflexivity | now apply NoDup_around | exact HA |]. exact Hq.
  Qed.
  Lemma silent_last s : 0 <= zk s -> zk s = n - 1 \/ (zk s = 4 /\ n = 7) -> exists e0 err, silent s e0 err.
  Proof.
    intros Hs C. apply (silent_one s false). intros q A t h Dq HA Hq Ht Hh. destruct (hexcat2 lay Hv t h Hh) as [Ih _]. bits; cbn [andb]; try reflexivity.
    - destruct C as [C|[C1 C2]]; [exfalso; lia|]. assert (t = 6) as -> by lia. rewrite <- (hex_halves lay A h). unfold hex_op. replace (xyz (hexcat h)) with (xyz (zk s)) by (rewrite C1; rewrite <- (Z.add_0_r (hexcat h)), (xyz_hex 6 h 0 Hh); reflexivity).
      rewrite (par_self A q); [reflexivity | now apply NoDup_around | exact HA | exact Hq].
    - assert (Et : t = zk s) by lia. unfold half_op2. rewrite (xyz_hex t h 2 Hh). replace (t - 2 + 2) with (zk s) by lia. rewrite (par_self A q); [reflexivity | now apply NoDup_around | exact HA | exact Hq].
  Qed.
  Lemma silent_before_last s : 0 <= zk s -> zk s = n - 2 -> exists e0 err, silent s e0 err.
  Proof.
    intros Hs C. destruct (odd_check (zk s)) as (j & l & e0 & Hj & El & Hl & Hin & Hodd). set (p := xyz (zk s - 1)). exists e0, (put p [e_left e0; e_right e0]).
    destruct (ab lay Hv s e0 Hin) as (Da & Db & Nab & Eb & Ea).
    assert (Ho : only [ix (e_left e0); ix (e_right e0)] (put p [e_left e0; e_right e0])) by (apply put_only; intros q' [<-|[<-|[]]]; auto).
    set (A := acted lay (put p [e_left e0; e_right e0])).
    assert (HA : forall q, q <> e_left e0 -> q <> e_right e0 -> A q = bzero) by (intros q; now apply (acted_off lay Hv _ e0 (zk s))).
    assert (HD : forall q', In q' [e_left e0; e_right e0] -> isdata lay q') by (intros q' [<-|[<-|[]]]; assumption).
    assert (A1 : A (e_left e0) = pbits p) by (unfold A; rewrite put_at by assumption; cbn [cmem existsb]; now rewrite cpx_eqb_refl).
    assert (A2 : A (e_right e0) = pbits p) by (unfold A; rewrite put_at by assumption; cbn [cmem existsb]; now rewrite cpx_eqb_refl, orb_true_r).
    split; [exact Hin|]. split; [exact Ho|]. fold A. split.
    - exists j. split; [exact Hj|]. unfold effect. rewrite El, (par_ab lay Hv s e0 A Hin HA) by exact Hl. rewrite A1, A2; unfold p; rewrite (proj1 (xyz_next (zk s))), !andb_true_r. cbn [andb]. now rewrite xorb_false_r.
    - apply gone_quiet. intros t h Ht Hh. rewrite (hexv_eq lay Hv s e0 _ false t h Hh), (hexv_eq lay Hv s e0 _ false (t - 3) h (H2_back lay t h Hh)). rewrite !andb_false_r. cbn [andb xorb]. rewrite !xorb_false_r. destruct (hexcat2 lay Hv t h Hh) as [Ih Hc]. bits; cbn [andb]; try reflexivity.
      + assert (Et : t = zk s + 1) by lia. rewrite <- (hex_halves lay A h). unfold hex_op. rewrite <- (Z.add_0_r (hexcat h)), (xyz_hex t h 0 Hh). replace (t - 2 + 0) with (zk s - 1) by lia. fold p.
        rewrite (par_ab lay Hv s e0 A Hin HA) by (now apply NoDup_around). rewrite A1, A2,  anti2_self, !andb_false_r. reflexivity.
      + assert (Et : t = zk s) by lia. unfold half_op2. rewrite (par_ab lay Hv s e0 A Hin HA) by (now apply NoDup_around). rewrite A1, A2.
        replace (cmem (e_right e0) (qubits_around_hex lay h)) with (cmem (e_left e0) (qubits_around_hex lay h)); [now rewrite xorb_nilpotent|].
        assert (K : In (e_left e0) (qubits_around_hex lay h) <-> In (e_right e0) (qubits_around_hex lay h)).
        { rewrite !(in_around lay Hv h _ Ih). rewrite Eb at 2. rewrite (hexq_partner lay Hv) by (first [exact Da | revert Hc; rewrite Et; generalize (hexcat h); intros; dlia]). tauto. }
        destruct (cmem (e_left e0) (qubits_around_hex lay h)) eqn:K1, (cmem (e_right e0) (qubits_around_hex lay h)) eqn:K2; try reflexivity.
        * apply cmem_In in K1. apply K in K1. apply cmem_In in K1. congruence.
        * apply cmem_In in K2. apply K in K2. apply cmem_In in K2. congruence.
  Qed.
End P.

(** ** C83 *)
(** In every sub-round from the fifth to the third to last (numbered 4 to sub_rounds - 3)
    a single error is noticed or harmless. *)
Theorem C83_noticed : forall lay c s l1 i f l2, valid lay -> style lay = "EM3"%string -> 4 <= data_width lay -> double_epr_circuit lay = Ok c ->
  in_sub_round c s l1 i l2 -> fault_of i f -> 4 <= s <= sub_rounds lay - 3 -> (s = 4 -> 8 <= sub_rounds lay) ->
  forall g f0, exists st, run_faulty g l1 i f l2 (start f0) = Ok st /\ (noticed st \/ no_effect st).
Proof.
  intros lay c s l1 i f l2 Hv Hst Hw Hc [Ef Ht] Hf Hs H4 g f0. subst s. set (s := length (filter is_tick l1)) in *.
  destruct (fault_run lay Hv Hst c l1 i f l2 s Hc Ef Hf eq_refl ltac:(lia) ltac:(lia)) as (e0 & A & fl & Hin & HA & Hfl & d & Rd & Od & Oo & Oo').
  destruct (difference lay Hv Hst c l1 i f l2 d ltac:(lia) Hc Ef Rd g f0) as (st & R & D & O). exists st. split; [exact R|].
  unfold noticed, no_effect. rewrite D, Od. destruct (existsb (fun x => x) (gone lay (wrong s e0 A fl) (Z.to_nat (sub_rounds lay)))) eqn:K.
  - left. apply existsb_exists in K. destruct K as (x & Hx & ->). exact Hx.
  - right. intros j. rewrite O. destruct (Nat.lt_ge_cases j 4) as [Hj|Hj]; [|now apply Oo'].
    rewrite Oo by exact Hj. apply (seen lay Hv s e0 A fl Hin HA Hfl Hw ltac:(lia) ltac:(lia) ltac:(lia)); [|exact Hj].
    intros x Hx. destruct x; [|reflexivity]. assert (F : existsb (fun x => x) (gone lay (wrong s e0 A fl) (Z.to_nat (sub_rounds lay))) = true) by (apply existsb_exists; eauto). congruence.
Qed.
Print Assumptions C83_noticed.

(** In every other sub-round that has noise (that is, from the fourth on) some single
    error flips an observable and no detector notices. *)
Theorem C83_unnoticed : forall lay c s, valid lay -> style lay = "EM3"%string -> (0 < noise lay)%Q -> double_epr_circuit lay = Ok c ->
  3 <= s < sub_rounds lay -> ~ (4 <= s <= sub_rounds lay - 3 /\ (s = 4 -> 8 <= sub_rounds lay)) ->
  exists l1 i f l2, in_sub_round c s l1 i l2 /\ fault_of i f /\
  forall g f0, exists st, run_faulty g l1 i f l2 (start f0) = Ok st /\ ~ noticed st /\ ~ no_effect st.
Proof.
  intros lay c s Hv Hst Hp Hc Hs Hout. replace s with (Z.of_nat (Z.to_nat s)) in * by lia. set (k := Z.to_nat s) in *. clearbody k. clear s.
  assert (H : exists e0 err, silent lay k e0 err).
  { destruct (Z.eq_dec (Z.of_nat k) 3) as [E3|E3]; [replace k with 3%nat by lia; now apply silent_3|].
    destruct (Z.eq_dec (Z.of_nat k) (sub_rounds lay - 2)) as [E2|E2]; [apply silent_before_last; (assumption || lia)|]. apply silent_last; (assumption || lia). }
  destruct H as (e0 & err & Hin & Ho & (j & Hj & Ej) & Hq). destruct (kick_made lay Hv Hst c k err e0 Hs Hp Hc Hin Ho) as (l1 & i & l2 & Ef & Ht & Hf & HR).
  exists l1, i, (Kick err), l2. split; [split; [exact Ef | now rewrite Ht]|]. split; [exact Hf|]. intros g f0. destruct (HR g f0) as (st & R & O1 & O2 & _). exists st. split; [exact R|]. split.
  - intros K. unfold noticed in K. rewrite O1 in K. apply Hq in K. discriminate.
  - intros K. specialize (K j). rewrite O2 in K by exact Hj. congruence.
Qed.
Print Assumptions C83_unnoticed.

(** So the sub-rounds in which every single error is noticed or harmless are exactly those. *)
Theorem C83_exactly : forall lay c s, valid lay -> style lay = "EM3"%string -> 4 <= data_width lay -> (0 < noise lay)%Q -> double_epr_circuit lay = Ok c -> 3 <= s < sub_rounds lay ->
  ((forall l1 i f l2, in_sub_round c s l1 i l2 -> fault_of i f -> forall g f0, exists st, run_faulty g l1 i f l2 (start f0) = Ok st /\ (noticed st \/ no_effect st)) <->
   4 <= s <= sub_rounds lay - 3 /\ (s = 4 -> 8 <= sub_rounds lay)).
Proof.
  intros lay c s Hv Hst Hw Hp Hc Hs. split.
  - intros H. assert (D : 4 <= s <= sub_rounds lay - 3 /\ (s = 4 -> 8 <= sub_rounds lay) \/ ~ (4 <= s <= sub_rounds lay - 3 /\ (s = 4 -> 8 <= sub_rounds lay))) by lia. destruct D as [D|D]; [exact D|]. exfalso.
    destruct (C83_unnoticed lay c s Hv Hst Hp Hc Hs D) as (l1 & i & f & l2 & Hi & Hf & HR). destruct (HR still (fun _ => bzero)) as (st & R & N1 & N2).
    destruct (H l1 i f l2 Hi Hf still (fun _ => bzero)) as (st' & R' & C). assert (st' = st) as -> by congruence. tauto.
  - intros [H1 H2] l1 i f l2 Hi Hf. exact (C83_noticed lay c s l1 i f l2 Hv Hst Hw Hc Hi Hf H1 H2).
Qed.
Print Assumptions C83_exactly.

(** The test's circuit: an error in sub-round 50, to which the first theorem applies; the
    errors that the second one finds right at the start and at the end of the noise. *)
Example C83_example : exists c, double_epr_circuit lay_epr = Ok c /\ valid lay_epr /\ style lay_epr = "EM3"%string /\ 4 <= data_width lay_epr /\ (0 < noise lay_epr)%Q /\
  (exists l1 i f l2, in_sub_round c 50 l1 i l2 /\ fault_of i f) /\
  forall s, s = 3 \/ s = 98 \/ s = 99 -> exists l1 i f l2, in_sub_round c s l1 i l2 /\ fault_of i f /\ forall g f0, exists st, run_faulty g l1 i f l2 (start f0) = Ok st /\ ~ noticed st /\ ~ no_effect st.
Proof.
  assert (Hv : valid lay_epr) by (repeat split; reflexivity). assert (Hst : style lay_epr = "EM3"%string) by reflexivity. assert (Hp : (0 < noise lay_epr)%Q) by reflexivity.
  destruct (epr_circuit lay_epr Hv Hst ltac:(cbn; lia)) as (c & Hc & _). exists c. split; [exact Hc|]. split; [exact Hv|]. split; [exact Hst|]. split; [cbn; lia|]. split; [exact Hp|]. split.
  - destruct (odd_check lay_epr Hv 50) as (_ & _ & e0 & _ & _ & _ & Hin & _).
    destruct (kick_made lay_epr Hv Hst c 50 (put lay_epr PX [e_left e0]) e0 ltac:(cbn; lia) Hp Hc Hin (put_only lay_epr PX [e_left e0] e0 ltac:(intros q [<-|[]]; now left))) as (l1 & i & l2 & Ef & Ht & Hf & _).
    exists l1, i, (Kick (put lay_epr PX [e_left e0])), l2. split; [split; [exact Ef | rewrite Ht; reflexivity] | exact Hf].
  - intros s Hs. apply (C83_unnoticed lay_epr c s Hv Hst Hp Hc); cbn; lia.
Qed.
