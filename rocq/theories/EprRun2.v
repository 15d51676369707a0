(** Running the double EPR circuit. *)
From Coq Require Import QArith.
From Verif Require Import Prelude Layout LayoutFacts LayoutEdges LayoutLists LayoutHex LayoutHex2 Pauli LayoutObs LayoutLogic LayoutIndex Prop_Layout
  Tracker TrackerFacts Stim Circuit Annot Shift Ends Gen Gen2 Traj Eval Frame Exec Exec2 Noise Epr EprRun.
Open Scope Z_scope.

(** ** Annotations when the record holds [off] results the tracker does not know of *)
Lemma record_parity_off off t rec s : length rec = (off + t)%nat -> (forall x, In x s -> (x < t)%nat) ->
  record_parity rec (tg t s) = Ok (xsum (fun x => nth (off + x) rec false) s).
Proof.
  intros Hl H. rewrite (xsum_perm _ _ _ (isort_perm Nat.leb s)). unfold tg.
  assert (H' : forall x, In x (isort Nat.leb s) -> (x < t)%nat) by (intros x Hx; apply H; revert Hx; apply in_isort).
  revert H'. generalize (isort Nat.leb s). intros l. induction l as [|x l IH]; intros Hx; [reflexivity|].
  cbn [map record_parity]. specialize (Hx x (or_introl eq_refl)) as Hx0.
  replace (Z.of_nat x - Z.of_nat t <? 0) with true by (symmetry; apply Z.ltb_lt; lia).
  replace (- (Z.of_nat x - Z.of_nat t) <=? Z.of_nat (length rec)) with true by (symmetry; apply Z.leb_le; lia).
  cbn [andb]. rewrite IH by (intros; apply Hx; now right). cbn [bind]. rewrite xsum_cons. do 3 f_equal. lia.
Qed.

Section O.
  Variables (g : nat -> bool) (off t : nat).
  Lemma run_det_off st v co : length (frec st) = (off + t)%nat -> wf_entry t v ->
    run g (det t v co) st = Ok (add_dets st (dval (fun x => nth (off + x) (frec st) false) v)).
  Proof.
    intros Hl H. unfold det, dval. destruct v as [s|]; [|now rewrite add_dets_nil].
    cbn [run]. unfold run_instr. cbn [iname itargets]. change (canon "DETECTOR") with "DETECTOR"%string. cbn [annotation existsb String.eqb Ascii.eqb Bool.eqb orb].
    rewrite (record_parity_off off t) by (try exact Hl; apply H). reflexivity.
  Qed.
  Lemma run_dets_off {X} (v : X -> entry) (co : X -> list num) l : forall st, length (frec st) = (off + t)%nat -> (forall x, In x l -> wf_entry t (v x)) ->
    run g (flat_map (fun x => det t (v x) (co x)) l) st =
    Ok (add_dets st (flat_map (fun x => dval (fun i => nth (off + i) (frec st) false) (v x)) l)).
  Proof.
    induction l as [|x l IH]; intros st Hl H; cbn [flat_map]; [now rewrite add_dets_nil|].
    rewrite run_app, run_det_off by (try exact Hl; apply H; now left). cbn [bind].
    rewrite (IH (add_dets st _)) by (try exact Hl; intros; apply H; now right). cbn [frec add_dets]. now rewrite add_dets_app.
  Qed.
  Lemma run_obs_off st s k : length (frec st) = (off + t)%nat -> (forall x, In x s -> (x < t)%nat) ->
    run g [mkI "OBSERVABLE_INCLUDE" (tg t s) [int_arg (Z.of_nat k)]] st = Ok (add_obs st k (xsum (fun x => nth (off + x) (frec st) false) s)).
  Proof.
    intros Hl H. cbn [run]. unfold run_instr. cbn [iname itargets iargs].
    change (canon "OBSERVABLE_INCLUDE") with "OBSERVABLE_INCLUDE"%string. cbn [annotation existsb String.eqb Ascii.eqb Bool.eqb orb].
    unfold int_arg, obs_arg, inject_Z. destruct (Z.leb_spec 0 (Z.of_nat k)) as [_|L]; [|lia]. cbn [bind].
    rewrite (record_parity_off off t) by assumption. cbn [bind]. now rewrite Nat2Z.id.
  Qed.
End O.

Lemma gd_agree B B' t v x : (forall y, (y < t)%nat -> B y = B' y) -> gd B t v x -> gd B' t v x.
Proof.
  destruct v as [s|]; cbn; [|auto]. intros H (H1 & H2 & <-). repeat split; auto. apply xsum_ext. intros y Hy. symmetry. apply H. auto.
Qed.
Lemma gd_wf B t v x : gd B t v x -> wf_entry t v.
Proof. destruct v as [s|]; cbn; tauto. Qed.
Lemma gd_dval B t v x : gd B t v x -> forall b, In b (dval B v) -> b = x.
Proof. destruct v as [s|]; cbn; [|tauto]. intros (_ & _ & <-) b [<-|[]]. reflexivity. Qed.

(** One product of Paulis. *)
Lemma products_one p0 a p (f : cpx -> nat) l :
  products (TP p0 a :: flat_map (fun q => [TComb; TP p (f q)]) l) = Ok [(p0, a) :: map (fun q => (p, f q)) l].
Proof.
  revert p0 a. induction l as [|q l IH]; intros p0 a; [reflexivity|]. cbn [flat_map app map].
  change (products (TP p0 a :: TComb :: TP p (f q) :: flat_map (fun q => [TComb; TP p (f q)]) l)) with
    (let! l := products (TP p (f q) :: flat_map (fun q => [TComb; TP p (f q)]) l) in match l with P :: l => Ok (((p0, a) :: P) :: l) | [] => Err ValueError end).
  rewrite IH. reflexivity.
Qed.
Lemma fold_kick b P : forall f x, NoDup (map snd P) ->
  fold_left (fun f (pq : pauli * nat) => ap1 (bxor (bsel b (pbits (fst pq)))) f (snd pq)) P f x =
  match find (fun pq => Nat.eqb (snd pq) x) P with Some pq => bxor (bsel b (pbits (fst pq))) (f x) | None => f x end.
Proof.
  induction P as [|[p q] P IH]; intros f x Hn; [reflexivity|]. cbn [map snd] in Hn. inversion Hn as [|? ? Hq Hn']; subst.
  cbn [fold_left find fst snd]. rewrite IH by exact Hn'. unfold ap1. rewrite (Nat.eqb_sym x q). destruct (Nat.eqb_spec q x) as [->|N]; [|reflexivity].
  destruct (find (fun pq => Nat.eqb (snd pq) x) P) as [[p' q']|] eqn:Ef; [|reflexivity].
  apply find_some in Ef. destruct Ef as [Hin Eq]. apply Nat.eqb_eq in Eq. cbn [snd] in Eq. subst q'. exfalso. apply Hq. apply in_map_iff. now exists (p', x).
Qed.

(** Multiplying a frame by an operator changes parities where they anticommute. *)
Lemma par_mul A A' P Q b : (forall pq, In pq Q -> A' (snd pq) = bxor (A (snd pq)) (bsel b (bits_at P (snd pq)))) ->
  par A' Q = xorb (par A Q) (b && anticommutes P Q).
Proof.
  intros H. rewrite (anticommutes_sym P Q), anticommutes_bits. unfold par. destruct b; cbn [andb].
  - rewrite <- xsum_xorb. apply xsum_ext. intros pq Hpq. rewrite (H pq Hpq), anti2_bxor_r. reflexivity.
  - rewrite xorb_false_r. apply xsum_ext. intros pq Hpq. rewrite (H pq Hpq). cbn [bsel]. now rewrite bxor_zero_r.
Qed.

Section R.
  Variable lay : layout.
  Hypothesis Hv : valid lay.
  Hypothesis Hem : is_em3 (style lay) = true.
  Notation E := (round_edges lay).
  Notation zk := Z.of_nat.
  Notation ne := (length (E 0)).
  Notation nh := (length (hexes lay 0)).
  Notation ix := (ix lay).
  Notation ids := [0; 1; 2; 3]%nat.
  Local Opaque data_qubit_coords measure_qubit_coords q2i_dict hex_entries hexes round_edges all_edges isort.

  (** ** The four operators *)
  Definition Oi (j : nat) (s : Z) : pstring :=
    match j with 0 => Hop lay s | 1 => Vop lay s | 2 => Hop lay (s + 3) | _ => Vop lay (s + 3) end%nat.
  Definition anc (j : nat) : pauli * nat :=
    (if Nat.even j then PX else PZ, if (j <? 2)%nat then anc_a lay else anc_b lay).

  Lemma ix_lt q : isdata lay q -> (ix q < anc_a lay)%nat.
  Proof.
    intros Hq. destruct (q2i_data lay Hv q (ix q) Hq) as [_ L]; [apply q2i_ix; [exact Hv | now apply data_in_qubits]|].
    rewrite count_data in L by exact Hv. unfold anc_a, num_qubits. now rewrite Hem.
  Qed.
  Lemma anc_ge j : (anc_a lay <= snd (anc j))%nat.
  Proof. unfold anc, anc_b. cbn [snd]. destruct (j <? 2)%nat; lia. Qed.
  Lemma Oi_data j s pq : In pq (Oi j s) -> isdata lay (snd pq).
  Proof.
    assert (HH : forall s, In pq (Hop lay s) -> isdata lay (snd pq)).
    { intros s0 H. unfold Hop, pstr in H. apply in_map_iff in H. destruct H as (q & <- & Hq). apply in_obs_h in Hq; tauto. }
    assert (HV : forall s, In pq (Vop lay s) -> isdata lay (snd pq)).
    { intros s0 H. unfold Vop, pstr in H. apply in_map_iff in H. destruct H as (q & <- & Hq). apply in_obs_v in Hq; tauto. }
    destruct j as [|[|[|j]]]; cbn [Oi]; intros H; eauto.
  Qed.
  Lemma oin_filter oe s : obs_edges_in oe (E s) = filter (fun e => emem e oe) (E s).
  Proof.
    unfold obs_edges_in. apply filter_ext. intros e. destruct (in_dec edge_dec e oe) as [i|i].
    - symmetry. now apply emem_In.
    - symmetry. destruct (emem e oe) eqn:F; [|reflexivity]. apply emem_In in F. contradiction.
  Qed.
  Lemma E3 s : E (s + 3) = E s.
  Proof. rewrite <- (round_edges_mod lay (s + 3)), <- (round_edges_mod lay s). now replace ((s + 3) mod 3) with (s mod 3) by dlia. Qed.
  Lemma Oi_step j s : (j < 4)%nat -> same_operator (Oi j (s + 1)) (Oi j s ++ flat_map (edge_op (xyz s)) (eoat lay j s)).
  Proof.
    intros Hj. unfold eoat. rewrite oin_filter. destruct j as [|[|[|[|j]]]]; [..|lia]; cbn [Oi eo Nat.even].
    - apply (H_step lay Hv).
    - apply (V_step lay Hv).
    - rewrite <- (E3 s). apply (H_step3 lay Hv).
    - rewrite <- (E3 s). apply (V_step3 lay Hv).
  Qed.
  Lemma Oi_edge j s e : In e (E s) -> anticommutes (edge_op (xyz s) e) (Oi j s) = false.
  Proof.
    intros He. destruct j as [|[|[|j]]]; cbn [Oi].
    - apply (H_edge_commute lay Hv s s); auto.
    - apply (V_edge_commute lay Hv s s); auto.
    - rewrite <- (xyz3 s). apply (H_edge_commute lay Hv (s + 3) (s + 3)); auto. now rewrite E3.
    - rewrite <- (xyz3 s). apply (V_edge_commute lay Hv (s + 3) (s + 3)); auto. now rewrite E3.
  Qed.
  (** j and j' belong to the same ancilla and differ *)
  Definition partners (j j' : nat) : bool := (Nat.eqb (j / 2) (j' / 2) && negb (Nat.eqb j j'))%nat.
  Lemma anti_self p l : NoDup l -> anticommutes (pstr p l) (pstr p l) = false.
  Proof. intros H. rewrite anticommutes_pstr by exact H. unfold pneq. rewrite (proj2 (pauli_eqb_eq p p) eq_refl). reflexivity. Qed.
  Lemma Oi_pair j j' s : (j < 4)%nat -> (j' < 4)%nat -> anticommutes (Oi j s) (Oi j' s) = partners j j'.
  Proof.
    assert (HH : forall s, anticommutes (Hop lay s) (Hop lay s) = false) by (intros; apply anti_self, NoDup_obs_h).
    assert (VV : forall s, anticommutes (Vop lay s) (Vop lay s) = false) by (intros; apply anti_self, NoDup_obs_v).
    intros L L'. destruct j as [|[|[|[|j]]]], j' as [|[|[|[|j']]]]; try lia; cbn [Oi]; change (partners _ _) with false || change (partners _ _) with true; auto.
    - apply (HV_anti lay Hv).
    - apply HH3_commute; exact Hv.
    - apply HV3_commute; exact Hv.
    - rewrite anticommutes_sym. apply (HV_anti lay Hv).
    - apply VH3_commute; exact Hv.
    - apply VV3_commute; exact Hv.
    - rewrite anticommutes_sym. apply HH3_commute; exact Hv.
    - rewrite anticommutes_sym. apply VH3_commute; exact Hv.
    - apply (HV_anti lay Hv).
    - rewrite anticommutes_sym. apply HV3_commute; exact Hv.
    - rewrite anticommutes_sym. apply VV3_commute; exact Hv.
    - rewrite anticommutes_sym. apply (HV_anti lay Hv).
  Qed.
  Lemma anc_pair j j' : (j < 4)%nat -> (j' < 4)%nat ->
    (if Nat.eqb (snd (anc j)) (snd (anc j')) then anti2 (pbits (fst (anc j))) (pbits (fst (anc j'))) else false) = partners j j'.
  Proof.
    intros L L'. unfold anc, anc_b. assert (K : Nat.eqb (anc_a lay) (S (anc_a lay)) = false) by (apply Nat.eqb_neq; lia).
    assert (K' : Nat.eqb (S (anc_a lay)) (anc_a lay) = false) by (apply Nat.eqb_neq; lia).
    destruct j as [|[|[|[|j]]]], j' as [|[|[|[|j']]]]; try lia; cbn [Nat.ltb Nat.leb fst snd Nat.even]; rewrite ?Nat.eqb_refl, ?K, ?K'; reflexivity.
  Qed.

  (** ** Parities with the ancillas *)
  Definition At (st : fstate) (q : cpx) : bits := fr st (ix q).
  Definition val (j : nat) (s : Z) (st : fstate) : bool :=
    xorb (anti2 (pbits (fst (anc j))) (fr st (snd (anc j)))) (par (At st) (Oi j s)).
  Variable g : nat -> bool.
  Definition joint (j : nat) (s : Z) : list (pauli * nat) := anc j :: map (fun pq => (fst pq, ix (snd pq))) (Oi j s).
  Definition parity_i (s : Z) (j : nat) : list instr :=
    [mkI "MPP" (TP (fst (anc j)) (snd (anc j)) :: flat_map (fun pq => [TComb; TP (fst pq) (ix (snd pq))]) (Oi j s)) [];
     mkI "OBSERVABLE_INCLUDE" [TRec (-1)] [int_arg (zk j)]].

  Lemma Oi_pstr j s : exists p l, Oi j s = pstr p l /\ NoDup l.
  Proof. destruct j as [|[|[|j]]]; cbn [Oi]; unfold Hop, Vop; eexists _, _; (split; [reflexivity|]); (apply NoDup_obs_h || apply NoDup_obs_v). Qed.
  Lemma NoDup_joint j s : NoDup (map snd (joint j s)).
  Proof.
    unfold joint. cbn [map]. rewrite map_map. cbn [snd]. constructor.
    - rewrite in_map_iff. intros (pq & K & Hin). apply Oi_data, ix_lt in Hin. pose proof (anc_ge j). lia.
    - destruct (Oi_pstr j s) as (p & l & El & Hn). pose proof (Oi_data j s) as Hd. rewrite El in *. unfold pstr in *. rewrite map_map. cbn [snd].
      apply NoDup_ix; [exact Hv | | exact Hn]. intros q Hq. apply data_in_qubits; [exact Hv|]. apply (Hd (p, q)). apply in_map_iff. now exists q.
  Qed.
  Lemma measure_joint j s st : (j < 4)%nat ->
    let st' := do_measure g st (joint j s) in
    frec st' = frec st ++ [val j s st] /\ fdets st' = fdets st /\ fobs st' = fobs st /\
    (forall j', (j' < 4)%nat -> val j' s st' = val j' s st).
  Proof.
    intros Hj. cbn zeta. unfold do_measure. cbn [frec fdets fobs]. split; [|split; [reflexivity|split; [reflexivity|]]].
    - unfold joint. rewrite xsum_cons, xsum_map. reflexivity.
    - intros j' Hj'. set (b := g (fgi st)). unfold val. cbn [fr].
      assert (F : forall x, fold_left (fun f (pq : pauli * nat) => ap1 (bxor (bsel b (pbits (fst pq)))) f (snd pq)) (joint j s) (fr st) x =
        match find (fun pq => Nat.eqb (snd pq) x) (joint j s) with Some pq => bxor (bsel b (pbits (fst pq))) (fr st x) | None => fr st x end)
        by (intros x; apply fold_kick, NoDup_joint).
      rewrite F. rewrite (par_mul (At st) _ (Oi j s) (Oi j' s) b).
      2:{ intros pq Hpq. pose proof (Oi_data _ _ _ Hpq) as Hq. unfold At. cbn [fr]. rewrite F. unfold joint. cbn [find]. pose proof (anc_ge j). pose proof (ix_lt _ Hq).
          destruct (Nat.eqb_spec (snd (anc j)) (ix (snd pq))); [lia|].
          destruct (Oi_pstr j s) as (p & l & El & Hn). pose proof (Oi_data j s) as Hd. rewrite El in *. rewrite bits_at_pstr by exact Hn.
          assert (K : find (fun pq0 => Nat.eqb (snd pq0) (ix (snd pq))) (map (fun pq0 => (fst pq0, ix (snd pq0))) (pstr p l)) =
                      if cmem (snd pq) l then Some (p, ix (snd pq)) else None).
          { clear - Hq Hd Hv. induction l as [|q l IH]; [reflexivity|]. cbn [pstr map find snd fst cmem existsb].
            assert (Dq : isdata lay q) by (apply (Hd (p, q)); now left).
            destruct (Nat.eqb_spec (ix q) (ix (snd pq))) as [K|K].
            - apply (ix_inj lay Hv) in K; try (apply data_in_qubits; assumption). subst q. rewrite cpx_eqb_refl. reflexivity.
            - replace (cpx_eqb (snd pq) q) with false by (symmetry; apply cpx_eqb_neq; congruence). cbn [orb].
              apply IH. intros x Hx. apply Hd. now right. }
          rewrite K. destruct (cmem (snd pq) l); cbn [fst]; [apply bxor_comm | destruct b; now rewrite bxor_zero_r]. }
      rewrite Oi_pair by assumption. rewrite <- (anc_pair j j') by assumption. unfold joint. cbn [find].
      destruct (Nat.eqb_spec (snd (anc j)) (snd (anc j'))) as [K|K].
      + rewrite anti2_bxor_r. rewrite <- K, (anti2_sym (pbits (fst (anc j'))) (bsel b _)).
        destruct b; cbn [bsel andb]; [|rewrite anti2_zero_l; now rewrite xorb_false_l, xorb_false_r].
        destruct (anti2 (pbits (fst (anc j))) _), (anti2 (pbits (fst (anc j'))) (fr st (snd (anc j)))), (par _ _); reflexivity.
      + replace (find _ _) with (@None (pauli * nat)); [now rewrite andb_false_r, xorb_false_r|].
        symmetry. destruct (find _ _) as [pq|] eqn:Ef; [|reflexivity]. apply find_some in Ef. destruct Ef as [Hin Eq]. apply Nat.eqb_eq in Eq.
        apply in_map_iff in Hin. destruct Hin as (pq' & <- & Hin). cbn [snd] in Eq. apply Oi_data, ix_lt in Hin. pose proof (anc_ge j'). lia.
  Qed.

  Lemma run_parity s st j : (j < 4)%nat -> exists st', run g (parity_i s j) st = Ok st' /\
    length (frec st') = S (length (frec st)) /\ fdets st' = fdets st /\
    (forall x, fobs st' x = xorb (fobs st x) (Nat.eqb x j && val j s st)) /\ (forall j', (j' < 4)%nat -> val j' s st' = val j' s st).
  Proof.
    intros Hj. destruct (measure_joint j s st Hj) as (M1 & M2 & M3 & M4). cbn zeta in *.
    exists (add_obs (do_measure g st (joint j s)) j (val j s st)). split; [|split; [|split; [|split]]].
    - unfold parity_i. cbn [run]. unfold run_instr at 1. cbn [iname itargets]. change (canon "MPP") with "MPP"%string.
      cbn [annotation existsb String.eqb Ascii.eqb Bool.eqb orb].
      destruct (Oi_pstr j s) as (p & l & El & Hn).
      assert (P : products (TP (fst (anc j)) (snd (anc j)) :: flat_map (fun pq => [TComb; TP (fst pq) (ix (snd pq))]) (Oi j s)) = Ok [joint j s]).
      { unfold joint. rewrite El. unfold pstr. rewrite flat_map_concat_map, map_map, <- flat_map_concat_map. cbn [fst snd]. rewrite products_one.
        rewrite map_map. cbn [fst snd]. now destruct (anc j). }
      rewrite P. cbn [bind fold_left]. unfold run_instr. cbn [iname itargets iargs].
      change (canon "OBSERVABLE_INCLUDE") with "OBSERVABLE_INCLUDE"%string. cbn [annotation existsb String.eqb Ascii.eqb Bool.eqb orb].
      unfold int_arg, obs_arg, inject_Z. destruct (Z.leb_spec 0 (zk j)) as [_|L]; [|lia]. cbn [bind record_parity].
      rewrite M1. rewrite app_length. cbn [length]. replace (- -1 <=? zk (length (frec st) + 1)) with true by (symmetry; apply Z.leb_le; lia).
      change (-1 <? 0) with true. cbn [andb bind]. replace (Z.to_nat (zk (length (frec st) + 1) + -1)) with (length (frec st) + 0)%nat by lia.
      rewrite app_nth2_plus. cbn [nth]. rewrite xorb_false_r, Nat2Z.id. unfold add_obs. rewrite M1. reflexivity.
    - cbn [add_obs frec]. rewrite M1, app_length. cbn [length]. lia.
    - exact M2.
    - intros x. cbn [add_obs fobs]. now rewrite M3.
    - intros j' Hj'. apply (M4 j' Hj').
  Qed.
  Lemma run_parities s st : exists st', run g (flat_map (parity_i s) ids) st = Ok st' /\
    length (frec st') = (4 + length (frec st))%nat /\ fdets st' = fdets st /\
    (forall j, (j < 4)%nat -> fobs st' j = xorb (fobs st j) (val j s st) /\ val j s st' = val j s st) /\ (forall j, (4 <= j)%nat -> fobs st' j = fobs st j).
  Proof.
    cbn [flat_map]. rewrite app_nil_r.
    destruct (run_parity s st 0) as (s1 & R1 & L1 & D1 & O1 & V1); [lia|]. destruct (run_parity s s1 1) as (s2 & R2 & L2 & D2 & O2 & V2); [lia|].
    destruct (run_parity s s2 2) as (s3 & R3 & L3 & D3 & O3 & V3); [lia|]. destruct (run_parity s s3 3) as (s4 & R4 & L4 & D4 & O4 & V4); [lia|].
    exists s4. rewrite !run_app, R1. cbn [bind]. rewrite run_app, R2. cbn [bind]. rewrite run_app, R3. cbn [bind]. split; [exact R4|]. split; [lia|]. split; [congruence|].
    split.
    - intros j Hj. split; [|now rewrite V4, V3, V2, V1]. rewrite O4, O3, O2, O1. rewrite V3, V2, V1 by lia. rewrite V2, V1 by lia. rewrite V1 by lia.
      destruct j as [|[|[|[|j]]]]; [..|lia]; cbn [Nat.eqb andb]; now rewrite ?xorb_false_r.
    - intros j Hj. rewrite O4, O3, O2, O1. destruct j as [|[|[|[|j]]]]; try lia. cbn [Nat.eqb andb]. now rewrite !xorb_false_r.
  Qed.

  (** ** One sub-round *)
  Definition live (v : entry) : Prop := v <> None.
  Lemma has_live tr k : live (cur tr k) -> has tr k.
  Proof. unfold live, cur, has. destruct (hist tr k); cbn; congruence. Qed.
  Lemma live_comb vs : (forall v, In v vs -> live v) -> live (comb vs).
  Proof. intros H. unfold live, comb. destruct (fold_defined vs [] H) as (ts & E). rewrite E. discriminate. Qed.
  Lemma len_H2 s : length (H2 lay s) = nh.
  Proof. unfold H2. rewrite (length_hexes lay (s - 2) Hv). symmetry. apply (length_hexes lay 0 Hv). Qed.
  Lemma len_E s : length (E s) = ne.
  Proof. pose proof (count_round_edges lay Hv s). pose proof (count_round_edges lay Hv 0). lia. Qed.

  Record EI (off : nat) (s : Z) (tr : mtrack) (c : nat -> bool) (st : fstate) : Prop := {
    ei_wf : wf tr;
    ei_tm : zk (tm tr) = s * zk ne;
    ei_len : length (frec st) = (off + tm tr)%nat;
    ei_half : 1 <= s -> forall h, In h (H2 lay s) -> live (cur tr (KHalf (KC h))) /\
      gd (fun x => nth (off + x) (frec st) false) (tm tr) (cur tr (KHalf (KC h))) (par (At st) (half_op lay h));
    ei_hex : forall h, ishex lay h -> gd (fun x => nth (off + x) (frec st) false) (tm tr) (cur tr (KC h)) (par (At st) (hex_op lay h));
    ei_live : forall r h, 3 <= r < s -> In h (H2 lay r) -> live (cur tr (KC h));
    ei_dets : Forall (fun b => b = false) (fdets st);
    ei_ndets : zk (length (fdets st)) = Z.max 0 (s - 6) * zk nh;
    ei_obs : forall j, (j < 4)%nat -> fobs st j = xorb (val j s st) (c j);
    ei_obs' : forall j, (4 <= j)%nat -> fobs st j = false
  }.

  Lemma run_eobs off s tr B : forall l st, length (frec st) = (off + (tm tr + length (E s)))%nat ->
    (forall j, In j l -> gd (fun x => nth (off + x) (frec st) false) (tm tr + length (E s)) (comb (map (raw lay s tr) (eoat lay j s))) (B j)) ->
    NoDup l ->
    exists st', run g (flat_map (eobs lay s tr) l) st = Ok st' /\ fr st' = fr st /\ frec st' = frec st /\ fdets st' = fdets st /\
      forall x, fobs st' x = xorb (fobs st x) (existsb (Nat.eqb x) l && B x).
  Proof.
    induction l as [|j l IH]; intros st Hl HB Hn.
    - exists st. cbn. repeat split; auto. intros x. now rewrite xorb_false_r.
    - inversion Hn as [|? ? Hj Hn']; subst. cbn [flat_map]. rewrite run_app. unfold eobs at 1.
      pose proof (HB j (or_introl eq_refl)) as Hg. destruct (comb_raw lay s tr (eoat lay j s)) as (ts & Ets). rewrite Ets in *.
      destruct Hg as (G1 & G2 & G3). rewrite (run_obs_off g off _ st ts j Hl G2). cbn [bind].
      destruct (IH (add_obs st j (xsum (fun x => nth (off + x) (frec st) false) ts))) as (st' & R & F1 & F2 & F3 & F4).
      + exact Hl.
      + intros k Hk. apply HB. now right.
      + exact Hn'.
      + exists st'. split; [exact R|]. cbn [add_obs fr frec fdets fobs] in *. repeat split; auto. intros x. rewrite F4. cbn [existsb].
        rewrite G3. destruct (Nat.eqb_spec x j) as [->|N]; cbn [andb orb].
        * replace (existsb (Nat.eqb j) l) with false; [now rewrite xorb_false_r|]. symmetry. destruct (existsb (Nat.eqb j) l) eqn:K; [|reflexivity].
          apply existsb_exists in K. destruct K as (y & Hy & K). apply Nat.eqb_eq in K. subst y. contradiction.
        * now rewrite xorb_false_r.
  Qed.

  Lemma epr_step off s tr c st : 0 <= s -> EI off s tr c st ->
    exists tr', epr_sub_round lay ids s tr = Ok (map Stim.I (epr_i lay s tr), tr') /\
    exists st', run g (epr_i lay s tr) st = Ok st' /\ EI off (s + 1) tr' c st'.
  Proof.
    intros Hs0 [Iw It Il Ih Ix Iv Id In_ Io Io'].
    assert (Rd : eready lay s tr).
    { split.
      - intros L h Hh. apply has_live, Ih; [lia | exact Hh].
      - intros L h Hh. apply has_live, (Iv (s - 3)); [lia|]. unfold H2 in *. now replace ((s - 3 - 2) mod 3) with ((s - 2) mod 3) by dlia. }
    destruct (epr_sub_round_spec lay Hv s tr Iw Rd) as (tr' & Es & Ew & Et & Eh & Eh' & Ex & Ex').
    exists tr'. split; [exact Es|].
    destruct (fold_products g (xyz s) (fun e => ix (e_left e)) (fun e => ix (e_right e)) edge_eqb edge_eqb_eq (E s) st (NoDup_lr lay Hv s))
      as (F1 & F2 & F3 & (z & F4) & F5). cbn zeta in *.
    set (st1 := fold_left _ _ st) in *.
    assert (K : forall q, isdata lay q -> At st1 q = kick lay s z (At st) q).
    { intros q Hq. set (e := touch lay s q). assert (He : In e (E s)) by now apply touch_in.
      unfold kick. fold e. rewrite bxor_comm. unfold At. destruct (F4 e He) as [Fl Fr].
      change (if z e then pbits (xyz s) else bzero) with (bsel (z e) (pbits (xyz s))).
      destruct (proj2 (touch_unique lay Hv s q e Hq He) eq_refl) as [Q|Q]; rewrite Q in *; assumption. }
    assert (PK : forall P, (forall pq, In pq P -> isdata lay (snd pq)) -> (forall e, In e (E s) -> anticommutes (edge_op (xyz s) e) P = false) ->
              par (At st1) P = par (At st) P).
    { intros P HP HC. rewrite <- (par_kick_commute lay Hv s z (At st) P HP HC). apply par_ext. intros pq Hpq. apply K, HP, Hpq. }
    set (B := fun x => nth (off + x) (frec st) false) in *.
    set (B1 := fun x => nth (off + x) (frec st1) false).
    assert (Ag : forall y, (y < tm tr)%nat -> B y = B1 y) by (intros y Hy; unfold B, B1; rewrite F1, app_nth1 by lia; reflexivity).
    assert (Lr : length (frec st1) = (off + (tm tr + length (E s)))%nat) by (rewrite F1, app_length, map_length, Il; lia).
    assert (Up : forall v x, gd B (tm tr) v x -> gd B1 (tm tr + length (E s)) v x).
    { intros v x H. eapply gd_mono; [|eapply gd_agree; [exact Ag | exact H]]. lia. }
    assert (Raw : forall e, In e (E s) -> gd B1 (tm tr + length (E s)) (raw lay s tr e) (par (At st) (edge_op (xyz s) e))).
    { intros e He. pose proof (index_lt edge_eqb edge_eqb_eq e _ He) as Hi.
      eapply gd_eq; [|apply (gd_single B1); lia]. unfold B1. rewrite F1. rewrite Nat.add_assoc, <- Il, app_nth2_plus, (nth_index edge_eqb edge_eqb_eq) by exact He.
      unfold edge_op. rewrite par_pstr, !xsum_cons. unfold xsum. cbn [fold_right]. now rewrite xorb_false_r. }
    assert (Half : forall h, In h (H1 lay s) -> gd B1 (tm tr + length (E s)) (ehalf lay s tr h) (par (At st) (half_op lay h))).
    { intros h Hh. destruct (hexcat1 lay Hv s h Hh) as [Hx Hc]. unfold ehalf.
      eapply gd_eq; [|apply gd_comb_map; intros e He; apply Raw; now apply (first_in lay Hv s h)].
      rewrite par_edges. unfold half_op. rewrite (par_pstr_perm _ _ _ _ (first_edges_cover lay h)). do 2 f_equal. now apply xyz_eq. }
    assert (Hex : forall h, 3 <= s -> In h (H2 lay s) -> gd B1 (tm tr + length (E s)) (ehex lay s tr h) (par (At st) (hex_op lay h))).
    { intros h L Hh. destruct (hexcat2 lay Hv s h Hh) as [Hx Hc]. unfold ehex.
      eapply gd_eq; [|apply gd_comb_last; [intros e He; apply Raw; now apply (second_in lay Hv s h) | apply Up, Ih; [lia | exact Hh]]].
      rewrite hex_halves. f_equal. rewrite par_edges. unfold half_op2. rewrite (par_pstr_perm _ _ _ _ (second_edges_cover lay h)). do 2 f_equal. now apply xyz_eq. }
    assert (Lx : forall h, 3 <= s -> In h (H2 lay s) -> live (ehex lay s tr h)).
    { intros h L Hh. unfold ehex. apply live_comb. intros v Hin. apply in_app_iff in Hin. destruct Hin as [Hin|[<-|[]]].
      - apply in_map_iff in Hin. destruct Hin as (e & <- & _). discriminate.
      - apply Ih; [lia | exact Hh]. }
    set (m := fun j => par (At st) (flat_map (edge_op (xyz s)) (eoat lay j s))).
    destruct (run_eobs off s tr m ids st1 Lr) as (st2 & R2 & G1 & G2 & G3 & G4).
    { intros j _. eapply gd_eq; [|apply gd_comb_map; intros e He; apply Raw; unfold eoat, obs_edges_in in He; apply filter_In in He; tauto].
      unfold m. symmetry. apply par_flat_map. }
    { repeat constructor; cbn; intuition discriminate. }
    set (dl := if 6 <=? s then flat_map (fun h => dval B1 (comb [ehex lay s tr h; cur tr (KC h)])) (H2 lay s) else []).
    assert (Cmp : forall h, 6 <= s -> In h (H2 lay s) -> gd B1 (tm tr + length (E s)) (comb [ehex lay s tr h; cur tr (KC h)]) false).
    { intros h L Hh. destruct (hexcat2 lay Hv s h Hh) as [Hx _]. eapply gd_eq; [|apply gd_comb2; [apply Hex; [lia | exact Hh] | apply Up, Ix, Hx]]. apply xorb_nilpotent. }
    assert (R3 : run g (edets lay s tr) st2 = Ok (add_dets st2 dl)).
    { unfold edets, dl. destruct (Z.leb_spec 6 s) as [L|L]; [|now rewrite add_dets_nil].
      rewrite (run_dets_off g off) by first [rewrite G2; exact Lr | intros h Hh; apply (gd_wf B1 _ _ false), Cmp; [lia | exact Hh]]. rewrite G2. reflexivity. }
    assert (Hdl : Forall (fun b => b = false) dl /\ zk (length dl) = if 6 <=? s then zk nh else 0).
    { unfold dl. destruct (Z.leb_spec 6 s) as [L|L]; [|now split; [constructor|]]. split.
      - apply Forall_forall. intros b Hb. apply in_flat_map in Hb. destruct Hb as (h & Hh & Hb). eapply gd_dval; [apply Cmp; [lia | exact Hh] | exact Hb].
      - rewrite <- (len_H2 s). assert (Q : forall l, (forall h, In h l -> live (comb [ehex lay s tr h; cur tr (KC h)])) ->
            length (flat_map (fun h => dval B1 (comb [ehex lay s tr h; cur tr (KC h)])) l) = length l).
        { induction l as [|h l IH]; intros HL; [reflexivity|]. cbn [flat_map]. rewrite app_length, IH by (intros; apply HL; now right). cbn [length].
          specialize (HL h (or_introl eq_refl)). unfold live in HL. destruct (comb _); [reflexivity | congruence]. }
        rewrite Q; [reflexivity|]. intros h Hh. apply live_comb. intros v [<-|[<-|[]]]; [apply Lx; [lia | exact Hh]|].
        apply (Iv (s - 3)); [lia|]. unfold H2 in *. now replace ((s - 3 - 2) mod 3) with ((s - 2) mod 3) by dlia. }
    exists (add_dets st2 dl). split.
    { unfold epr_i. cbn [run]. unfold run_instr at 1. unfold mpp_e, mpp_targets. cbn [iname itargets]. change (canon "MPP") with "MPP"%string.
      cbn [annotation existsb String.eqb Ascii.eqb Bool.eqb orb]. rewrite products_pairs. cbn [bind]. fold st1. rewrite run_app, R2. cbn [bind].
      rewrite run_app, R3. reflexivity. }
    assert (Pe : forall P, par (At (add_dets st2 dl)) P = par (At st1) P) by (intros P; apply par_ext; intros; unfold At; cbn [add_dets fr]; now rewrite G1).
    assert (Ph : forall h, ishex lay h -> par (At st1) (hex_op lay h) = par (At st) (hex_op lay h)).
    { intros h Hh. apply PK; [intros pq Hpq; unfold hex_op in Hpq; eapply (data_around lay Hv (At st)); eassumption | intros e He; apply (edge_hex_commute lay Hv); assumption]. }
    split.
    - exact Ew.
    - rewrite Et, Nat2Z.inj_add, It, (len_E s). lia.
    - cbn [add_dets frec]. rewrite G2, Lr, Et. reflexivity.
    - intros _ h Hh. assert (Hh1 : In h (H1 lay s)) by (unfold H2 in Hh; unfold H1; now replace ((s + 1 - 2) mod 3) with ((s - 1) mod 3) in Hh by dlia).
      destruct (hexcat1 lay Hv s h Hh1) as [Hx Hc]. rewrite (cur_cons _ _ _ _ (Eh h Hh1)). cbn [add_dets frec]. rewrite G2, Et, Pe. split.
      + unfold ehalf. apply live_comb. intros v Hin. apply in_map_iff in Hin. destruct Hin as (e & <- & _). discriminate.
      + rewrite PK; [apply Half, Hh1 | intros pq Hpq; unfold half_op in Hpq; eapply (data_around lay Hv (At st)); eassumption|].
        intros e He. apply (edge_around lay Hv); auto. revert Hc; generalize (hexcat h); clear; intros; dlia.
    - intros h Hh. cbn [add_dets frec]. rewrite G2, Et, Pe, Ph by exact Hh.
      destruct (Z_lt_le_dec s 3) as [L|L]; [|destruct (in_dec cpx_dec h (H2 lay s)) as [Hi|Hi]].
      + unfold cur. rewrite Ex' by auto. apply Up, Ix, Hh.
      + rewrite (cur_cons _ _ _ _ (Ex h L Hi)). now apply Hex.
      + unfold cur. rewrite Ex' by auto. apply Up, Ix, Hh.
    - intros r h Hr Hh. destruct (in_dec cpx_dec h (H2 lay s)) as [Hi|Hi].
      + rewrite (cur_cons _ _ _ _ (Ex h ltac:(lia) Hi)). apply Lx; [lia | exact Hi].
      + unfold cur. rewrite Ex' by auto. apply (Iv r); [|exact Hh]. destruct (Z.eq_dec r s); [subst; contradiction | lia].
    - cbn [add_dets fdets]. rewrite G3, F2. apply Forall_app. split; [exact Id | apply Hdl].
    - cbn [add_dets fdets]. rewrite G3, F2, app_length, Nat2Z.inj_add, In_, (proj2 Hdl). destruct (Z.leb_spec 6 s); [rewrite !Z.max_r by lia | rewrite !Z.max_l by lia]; lia.
    - intros j Hj. cbn [add_dets fobs]. rewrite G4, F3, Io by exact Hj. replace (existsb (Nat.eqb j) ids) with true by (destruct j as [|[|[|[|j]]]]; [..|lia]; reflexivity).
      cbn [andb]. unfold val. rewrite Pe. rewrite (par_same _ _ _ (Oi_step j s Hj)), par_app.
      rewrite (PK (Oi j s)) by (try apply Oi_data; intros; now apply Oi_edge).
      rewrite (PK (flat_map _ _)).
      2:{ intros pq Hpq. apply in_flat_map in Hpq. destruct Hpq as (e & He & Hpq). unfold eoat, obs_edges_in in He. apply filter_In in He. eapply data_edge_op; [exact Hv | apply He | exact Hpq]. }
      2:{ intros e He. rewrite anticommutes_sym. apply anticommutes_flat_map_l. intros e' He'. unfold eoat, obs_edges_in in He'. apply filter_In in He'. apply (edges_commute lay Hv); tauto. }
      cbn [add_dets fr]. rewrite G1, F5.
      2:{ intros Q. apply in_flat_map in Q. destruct Q as (e & He & Q). destruct (round_edge_facts lay Hv s e He) as (Hl & Hr & _). pose proof (anc_ge j).
          apply ix_lt in Hl, Hr. destruct Q as [Q|[Q|[]]]; lia. }
      unfold m. destruct (anti2 _ _), (par (At st) (Oi j s)), (par (At st) (flat_map _ _)), (c j); reflexivity.
    - intros j Hj. cbn [add_dets fobs]. rewrite G4, F3, Io' by exact Hj. destruct j as [|[|[|[|j]]]]; try lia. reflexivity.
  Qed.
End R.
