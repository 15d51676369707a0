(** C84: the graph that is handed to the matching decoder, for the error model of a
    generated circuit: it can be built, it falls apart into the two sides, parallel
    errors agree on the observable, and few errors are corrected by any short set of
    edges with the right ends. *)
From Coq Require Import QArith.
From Coq Require Import Ascii.
From Verif Require Import Prelude Decoding Prop_Decoding Layout LayoutFacts LayoutEdges LayoutLists LayoutIndex Pauli Stim Circuit Noise Ends Gen3 Frame Exec4 Detectors Struct2 NoiseFacts NoiseMoments Prop_Circuit Prop_Noise Prop_Noise2
  FaultSpec FaultQuiet FaultCore FaultObs FaultInv FaultZ FaultNoise FaultRun FaultCount FaultLin FaultLine FaultDist FaultTilt Prop_Fault Prop_Match Annot Prop_Dist Prop_Dist2 Prop_Match2.
Open Scope Z_scope.

(** ** Specification *)
(** Detectors [dets] and observables [frames] are what was set off and flipped in a run,
    as far as the kept sides go (true is the observable's side). *)
Definition shows (lay : layout) (c : circuit) (st : fstate) (keep : bool -> bool) (dets frames : list nat) : Prop :=
  NoDup dets /\
  (forall j, In j dets <-> exists d, nth_error (detectors 0 0 0 0 (flatten c)) j = Some d /\ keep (watches lay d) = true /\ nth j (fdets st) false = true) /\
  (forall x, In x frames <-> keep true = true /\ fobs st x = true).
(** They are what one error of the circuit does there. *)
Definition piece_of (lay : layout) (c : circuit) (keep : bool -> bool) (dets frames : list nat) : Prop :=
  exists l1 i l2 f g f0 st, flatten c = l1 ++ i :: l2 /\ fault_of i f /\ run_faulty g l1 i f l2 (start f0) = Ok st /\ shows lay c st keep dets frames.
(** The error model has the detectors of the circuit, and its errors are pieces of errors
    of the circuit; *)
Definition describes (lay : layout) (c : circuit) (m : dmodel) : Prop :=
  num_detectors m = length (detectors 0 0 0 0 (flatten c)) /\
  forall p d f, In (EError p d f) (reports (unrolled m)) -> ~ (p == 0)%Q -> exists keep, piece_of lay c keep d f.
(** each piece belongs to one side. *)
Definition side_by_side (lay : layout) (c : circuit) (m : dmodel) : Prop :=
  num_detectors m = length (detectors 0 0 0 0 (flatten c)) /\
  forall p d f, In (EError p d f) (reports (unrolled m)) -> ~ (p == 0)%Q -> exists side, piece_of lay c (eqb side) d f.
(** Conversely, what an error with at most two detectors on either side does to a side is
    among the errors of the model. *)
Definition complete (lay : layout) (c : circuit) (m : dmodel) : Prop :=
  forall l1 i l2 f, flatten c = l1 ++ i :: l2 -> fault_of i f -> pair_at_most lay c l1 i f l2 ->
  forall g f0 st, run_faulty g l1 i f l2 (start f0) = Ok st -> forall side, (0 < set_off lay c side st)%nat ->
  exists p d fr, In (EError p d fr) (reports (unrolled m)) /\ ~ (p == 0)%Q /\ shows lay c st (eqb side) d fr.
(** So many errors, or edges, are too few to go around the patch. *)
Definition short (lay : layout) (n : nat) : Prop :=
  let n := Z.of_nat n in
  if is_em3 (style lay) then (if (obs lay =? "V")%string then 2 * n < data_width lay else 3 * n < data_height lay)
  else (if (obs lay =? "V")%string then n < data_width lay else 2 * n < data_height lay).
Definition odd_times {T} (P : T -> bool) (l : list T) : bool := Nat.odd (length (filter P l)).
(** An odd number of the edges end at j; change observable x. *)
Definition ends_at (es : list (nat * nat)) (j : nat) : bool := odd_times (Nat.eqb j) (flat_map (fun e => [fst e; snd e]) es).
Definition changes (g : graph) (x : nat) (e : nat * nat) : bool :=
  match edge_data g (fst e) (snd e) with
  | Some a => match e_qubit_id a with Some l => existsb (Nat.eqb x) l | None => false end
  | None => false
  end.

(** ** Parities *)
Lemma odd_xsum {T} (P : T -> bool) l : odd_times P l = xsum P l.
Proof.
  unfold odd_times. induction l as [|x l IH]; [reflexivity|]. rewrite xsum_cons. cbn [filter]. destruct (P x); [|now rewrite xorb_false_l].
  cbn [length]. rewrite Nat.odd_succ, <- Nat.negb_odd, IH. symmetry. apply xorb_true_l.
Qed.
Lemma mem_iff x l : existsb (Nat.eqb x) l = true <-> In x l.
Proof. rewrite existsb_exists. split; [intros (y & Hy & E); apply Nat.eqb_eq in E; now subst | intros Hx; exists x; split; [exact Hx | apply Nat.eqb_refl]]. Qed.
Lemma mem_eq x l b : (In x l <-> b = true) -> existsb (Nat.eqb x) l = b.
Proof. intros K. apply eq_true_iff_eq. rewrite mem_iff. exact K. Qed.

(** ** Errors on an edge *)
Lemma ehist_last es q f : ehist es = Some (q, f) -> exists p, In (p, f) es.
Proof.
  destruct es as [|[p f0] es _] using rev_ind; [discriminate|]. rewrite ehist_app. cbn [fold_left]. intros K. exists p. apply in_or_app. right. left. f_equal.
  unfold estep in K. destruct (ehist es) as [[q0 f1]|]; [destruct (same_set f1 f0)|]; congruence.
Qed.
Lemma on_edge n u v l p f : In (p, f) (errors_on n u v l) -> ~ (p == 0)%Q /\ exists d, In (EError p d f) l /\
  ((exists x, d = [x] /\ pair_eqb u v x n = true) \/ exists x y, d = [x; y] /\ pair_eqb u v x y = true).
Proof.
  intros (e & He & K)%in_flat_map. destruct e as [p' d f'|]; [|destruct K].
  destruct d as [|x [|y [|z d]]]; try destruct K.
  - destruct (Qeq_bool p' 0) eqn:E0; [destruct K|]. cbn [negb andb] in K. destruct (pair_eqb u v x n) eqn:Ep; [|destruct K]. destruct K as [K|[]]. injection K as -> ->.
    split; [intros Q; apply Qeq_bool_iff in Q; congruence|]. exists [x]. split; [exact He|]. left. eauto.
  - destruct (Qeq_bool p' 0) eqn:E0; [destruct K|]. cbn [negb andb] in K. destruct (pair_eqb u v x y) eqn:Ep; [|destruct K]. destruct K as [K|[]]. injection K as -> ->.
    split; [intros Q; apply Qeq_bool_iff in Q; congruence|]. exists [x; y]. split; [exact He|]. right. eauto.
Qed.
Lemma pair_or u v x y : pair_eqb u v x y = true -> (u = x /\ v = y) \/ (u = y /\ v = x).
Proof. unfold pair_eqb. rewrite orb_true_iff, !andb_true_iff, !Nat.eqb_eq. tauto. Qed.
(** the ends of the edge below n are the symptoms *)
Lemma ends_symptoms n u v d j : (j < n)%nat -> NoDup d -> ((exists x, d = [x] /\ pair_eqb u v x n = true) \/ exists x y, d = [x; y] /\ pair_eqb u v x y = true) ->
  xorb (Nat.eqb j u) (Nat.eqb j v) = existsb (Nat.eqb j) d.
Proof.
  intros Hj ND K. assert (Hn : Nat.eqb j n = false) by (apply Nat.eqb_neq; lia).
  destruct K as [(x & -> & K)|(x & y & -> & K)]; apply pair_or in K; cbn [existsb]; rewrite orb_false_r.
  - destruct K as [[-> ->]|[-> ->]]; rewrite Hn; [apply xorb_false_r | apply xorb_false_l].
  - assert (N : x <> y) by (inversion ND as [|? ? Hx _]; subst; intros ->; apply Hx; now left).
    destruct K as [[-> ->]|[-> ->]]; destruct (Nat.eqb_spec j x), (Nat.eqb_spec j y); try reflexivity; congruence.
Qed.

Section S.
  Variable lay : layout.
  Variable c : circuit.
  Hypothesis Hv : valid lay.
  Hypothesis Hs : supported_input lay.
  Hypothesis E : generate_honeycomb_circuit lay = Ok c.
  Notation D := (detectors 0 0 0 0 (flatten c)).
  Notation one := (is_em3 (style lay) = false).
  Local Opaque data_qubit_coords measure_qubit_coords q2i_dict hex_entries hexes round_edges all_edges isort.

  Lemma short_forgiving n k : short lay n -> (k <= n)%nat -> forgiving lay one False k.
  Proof.
    unfold short. cbv zeta. intros L Hk. destruct (is_em3 (style lay)) eqn:Em.
    - intros cs Hcs. apply (any_forgiving lay k Hv Hs); [destruct (obs lay =? "V")%string; lia|]. intros p Hp. destruct (Hcs p Hp) as [Q1 _]. split; [exact Q1|]. split; intros [].
    - intros cs Hcs. apply (one_forgiving lay k Hv Hs); [destruct (obs lay =? "V")%string; lia|]. intros p Hp. destruct (Hcs p Hp) as [Q1 [Q2 Q3]]. split; [exact Q1|]. split; [intros _; now apply Q2 | exact Q3].
  Qed.

  (** a piece that keeps the observable's side, as a crack *)
  Definition shown (d f : list nat) (p : crack * (nat -> bool)) : Prop :=
    (forall j dt, nth_error D j = Some dt -> watches lay dt = true -> xsum (snd p) (d_meas dt) = existsb (Nat.eqb j) d) /\
    forall x, existsb (Nat.eqb x) f = mine lay x (effect lay (snd p)).
  Lemma piece_crack keep d f : piece_of lay c keep d f -> keep true = true ->
    exists p, (cracked lay (snd p) (fst p) /\ fits one False (fst p)) /\ shown d f p.
  Proof.
    intros (l1 & i & l2 & fl & g & f0 & st & El & Hf & R & ND & Hd & Ho) Hk.
    destruct (faulty_run lay c Hv Hs E) as [Ed K]. destruct (K l1 i l2 fl El Hf g f0) as (st' & X & Y & z & A0 & R' & Hc & H0 & Gd & Go). assert (st' = st) by congruence. subst st'.
    destruct (record_crack lay Hv (sup_obs lay Hs) (sup_sup lay Hs) X Y _ _ z A0 H0 Hc) as (p & Hp & [F1 F2] & Q1 & Q2).
    exists p. split; [split; [exact Hp|split; [intros Q; apply F1; now left | intros []]]|]. split.
    - intros j dt Hj Hw. symmetry. apply mem_eq. rewrite Hd. rewrite <- Q1 by (rewrite <- Ed; exact (nth_error_In _ _ Hj)).
      assert (Hn : nth j (fdets st) false = xsum (fun j => nth j (frecord lay X Y z A0) false) (d_meas dt)) by (rewrite Gd; apply nth_error_nth; rewrite nth_error_map, Hj; reflexivity).
      rewrite <- Hn. split; [intros (dt' & _ & _ & T); exact T|]. intros T. exists dt. rewrite Hw. auto.
    - intros x. apply mem_eq. rewrite Ho, Go, Q2. tauto.
  Qed.
  (** a piece that does not keep it has nothing there *)
  Lemma piece_away keep d f : piece_of lay c keep d f -> keep true = false ->
    (forall j dt, nth_error D j = Some dt -> watches lay dt = true -> existsb (Nat.eqb j) d = false) /\ forall x, existsb (Nat.eqb x) f = false.
  Proof.
    intros (l1 & i & l2 & fl & g & f0 & st & El & Hf & R & ND & Hd & Ho) Hk. split.
    - intros j dt Hj Hw. apply mem_eq. rewrite Hd. split; [|discriminate]. intros (dt' & Hj' & W & _). assert (dt' = dt) by congruence. subst dt'. rewrite Hw, Hk in W. discriminate.
    - intros x. apply mem_eq. rewrite Ho, Hk. split; [intros []; assumption | discriminate].
  Qed.

  Section M.
    Variable m : dmodel.
    Hypothesis Hdes : describes lay c m.
    Variable G : graph.
    Hypothesis HG : tracks (num_detectors m) (reports (unrolled m)) G.

    (** the errors of an edge are pieces with its ends as symptoms *)
    Lemma edge_piece u v p f : In (p, f) (errors_on (num_detectors m) u v (reports (unrolled m))) ->
      exists keep d, piece_of lay c keep d f /\ forall j dt, nth_error D j = Some dt -> xorb (Nat.eqb j u) (Nat.eqb j v) = existsb (Nat.eqb j) d.
    Proof.
      intros Hp. destruct (on_edge _ _ _ _ _ _ Hp) as (Hp0 & d & Hin & Hsh). destruct Hdes as [Hn Hall]. destruct (Hall _ _ _ Hin Hp0) as (keep & Hpc). exists keep, d. split; [exact Hpc|].
      intros j dt Hj. apply (ends_symptoms (num_detectors m)); [rewrite Hn; apply nth_error_Some; congruence | | exact Hsh]. destruct Hpc as (l1 & i & l2 & fl & g & f0 & st & _ & _ & _ & ND & _). exact ND.
    Qed.
    Lemma edge_known u v a : edge_data G u v = Some a -> exists p f, In (p, f) (errors_on (num_detectors m) u v (reports (unrolled m))) /\ e_qubit_id a = Some f.
    Proof.
      intros K. rewrite (HG u v) in K. destruct (ehist _) as [[q f]|] eqn:Eh; [|discriminate]. cbn [option_map] in K. injection K as <-. destruct (ehist_last _ _ _ Eh) as (p & Hp). exists p, f. split; [exact Hp | reflexivity].
    Qed.

    Lemma edges_cracks es : (forall u v, In (u, v) es -> edge_data G u v <> None) ->
      exists cs, (length cs <= length es)%nat /\ (forall p, In p cs -> cracked lay (snd p) (fst p) /\ fits one False (fst p)) /\
        (forall j dt, nth_error D j = Some dt -> watches lay dt = true -> ends_at es j = xsum (fun p => xsum (snd p) (d_meas dt)) cs) /\
        forall x, odd_times (changes G x) es = mine lay x (xsum (fun p => effect lay (snd p)) cs).
    Proof.
      assert (M0 : forall x, mine lay x false = false) by (intros x; apply andb_false_r).
      assert (MX : forall x a b, mine lay x (xorb a b) = xorb (mine lay x a) (mine lay x b)) by (intros x a b; unfold mine; now destruct (x =? _)%nat).
      induction es as [|[u v] es IH]; intros Hin.
      - exists []. split; [cbn; lia|]. split; [intros p []|]. split; [reflexivity|]. intros x. symmetry. apply M0.
      - destruct IH as (cs & L & Hcs & H1 & H2); [intros u' v' Hi; apply Hin; now right|].
        pose proof (Hin u v (or_introl eq_refl)) as Hne. destruct (edge_data G u v) as [a|] eqn:Ea; [|congruence]. clear Hne.
        destruct (edge_known u v a Ea) as (p & f & Hp & Ef). destruct (edge_piece u v p f Hp) as (keep & d & Hpc & Hends).
        assert (C1 : forall x, changes G x (u, v) = existsb (Nat.eqb x) f) by (intros x; unfold changes; cbn [fst snd]; rewrite Ea, Ef; reflexivity).
        assert (S1 : forall j dt, nth_error D j = Some dt -> ends_at ((u, v) :: es) j = xorb (existsb (Nat.eqb j) d) (ends_at es j)).
        { intros j dt Hj. unfold ends_at. rewrite !odd_xsum. cbn [flat_map app fst snd]. rewrite !xsum_cons, <- xorb_assoc. f_equal. exact (Hends j dt Hj). }
        assert (S2 : forall x, odd_times (changes G x) ((u, v) :: es) = xorb (existsb (Nat.eqb x) f) (odd_times (changes G x) es)) by (intros x; rewrite !odd_xsum, xsum_cons, C1; reflexivity).
        destruct (keep true) eqn:Hk.
        + destruct (piece_crack keep d f Hpc Hk) as (q & Hq & Q1 & Q2). exists (q :: cs). split; [cbn [length]; lia|]. split; [intros q' [<-|Hq']; auto|]. split.
          * intros j dt Hj Hw. rewrite (S1 j dt Hj), xsum_cons, (H1 j dt Hj Hw), (Q1 j dt Hj Hw). reflexivity.
          * intros x. rewrite S2, xsum_cons, MX, <- H2, Q2. reflexivity.
        + destruct (piece_away keep d f Hpc Hk) as [Q1 Q2]. exists cs. split; [cbn [length]; lia|]. split; [exact Hcs|]. split.
          * intros j dt Hj Hw. rewrite (S1 j dt Hj), (Q1 j dt Hj Hw), xorb_false_l. now apply H1.
          * intros x. rewrite S2, Q2, xorb_false_l. apply H2.
    Qed.

    Lemma correction lf es g f0 st : errors_of (flatten c) lf -> (forall u v, In (u, v) es -> edge_data G u v <> None) -> short lay (error_count lf + length es) ->
      run_errors g lf (start f0) = Ok st ->
      (forall j dt, nth_error D j = Some dt -> watches lay dt = true -> ends_at es j = nth j (fdets st) false) ->
      forall x, odd_times (changes G x) es = fobs st x.
    Proof.
      intros Hlf Hes L R Hends x.
      destruct (run_cracks lay c Hv Hs E one False lf Hlf) with (g := g) (f0 := f0) as (s & cs & R' & Lc & _ & Hcs & Hd & Ho); [intros f _; split; [now left | intros []]|].
      assert (s = st) by congruence. subst s. destruct (edges_cracks es Hes) as (cs' & Lc' & Hcs' & Hd' & Ho').
      rewrite Ho, Ho'. unfold mine. f_equal. symmetry. apply xorb_eq. rewrite <- (xsum_app (fun p => effect lay (snd p)) cs cs').
      apply (short_forgiving _ (length (cs ++ cs')) L); [rewrite app_length; lia | | reflexivity |].
      - intros p Hp. apply in_app_or in Hp. destruct Hp; auto.
      - intros dt Hin Hw. rewrite <- (proj1 (faulty_run lay c Hv Hs E)) in Hin. destruct (In_nth_error _ _ Hin) as (j & Hj). rewrite xsum_app, <- (Hd j dt Hj), <- (Hd' j dt Hj Hw), (Hends j dt Hj Hw). apply xorb_nilpotent.
    Qed.

    (** two errors on one edge agree on the observable *)
    Lemma parallel u v p f p' f' : short lay 2 -> In (p, f) (errors_on (num_detectors m) u v (reports (unrolled m))) -> In (p', f') (errors_on (num_detectors m) u v (reports (unrolled m))) -> frames_eq f f'.
    Proof.
      intros L H1 H2. destruct (edge_piece _ _ _ _ H1) as (k1 & d1 & P1 & E1). destruct (edge_piece _ _ _ _ H2) as (k2 & d2 & P2 & E2).
      assert (T : forall k d f, piece_of lay c k d f -> (forall j dt, nth_error D j = Some dt -> xorb (Nat.eqb j u) (Nat.eqb j v) = existsb (Nat.eqb j) d) ->
        exists cs, (length cs <= 1)%nat /\ (forall p, In p cs -> cracked lay (snd p) (fst p) /\ fits one False (fst p)) /\
          (forall j dt, nth_error D j = Some dt -> watches lay dt = true -> xorb (Nat.eqb j u) (Nat.eqb j v) = xsum (fun p => xsum (snd p) (d_meas dt)) cs) /\
          forall x, existsb (Nat.eqb x) f = mine lay x (xsum (fun p => effect lay (snd p)) cs)).
      { intros k d f1 P Ed. destruct (k true) eqn:Hk.
        - destruct (piece_crack k d f1 P Hk) as (q & Hq & Q1 & Q2). exists [q]. split; [cbn; lia|]. split; [intros q' [<-|[]]; exact Hq|]. split.
          + intros j dt Hj Hw. rewrite (Ed j dt Hj). cbn [xsum]. rewrite xsum_cons, <- (Q1 j dt Hj Hw). symmetry. apply xorb_false_r.
          + intros x. rewrite Q2, xsum_cons. f_equal. symmetry. apply xorb_false_r.
        - destruct (piece_away k d f1 P Hk) as [Q1 Q2]. exists []. split; [cbn; lia|]. split; [intros q' []|]. split.
          + intros j dt Hj Hw. rewrite (Ed j dt Hj). exact (Q1 j dt Hj Hw).
          + intros x. rewrite Q2. symmetry. apply andb_false_r. }
      destruct (T _ _ _ P1 E1) as (c1 & L1 & B1 & D1 & O1). destruct (T _ _ _ P2 E2) as (c2 & L2 & B2 & D2 & O2).
      assert (X : xsum (fun p => effect lay (snd p)) c1 = xsum (fun p => effect lay (snd p)) c2).
      { apply xorb_eq. rewrite <- (xsum_app (fun p => effect lay (snd p)) c1 c2). apply (short_forgiving 2 (length (c1 ++ c2)) L); [rewrite app_length; lia | | reflexivity |].
        - intros q Hq. apply in_app_or in Hq. destruct Hq; auto.
        - intros dt Hin Hw. rewrite <- (proj1 (faulty_run lay c Hv Hs E)) in Hin. destruct (In_nth_error _ _ Hin) as (j & Hj). rewrite xsum_app, <- (D1 j dt Hj Hw), <- (D2 j dt Hj Hw). apply xorb_nilpotent. }
      intros x. rewrite <- !mem_iff, O1, O2, X. tauto.
    Qed.
  End M.

  (** ** Every error is explained by edges *)
  Lemma counted_in st side : set_off lay c side st = 0%nat -> length (fdets st) = length D -> forall j dt, nth_error D j = Some dt -> watches lay dt = side -> nth j (fdets st) false = false.
  Proof.
    intros S0 Ln j dt Hj Hw. apply not_true_is_false. intros T. unfold set_off in S0. destruct (filter _ _) as [|p l] eqn:F; [|discriminate].
    assert (Q : In (dt, true) []); [|destruct Q]. rewrite <- F. apply filter_In. cbn [fst snd]. rewrite Hw, eqb_reflx. split; [|reflexivity].
    assert (Lj : (j < length D)%nat) by (apply nth_error_Some; congruence).
    rewrite <- (nth_error_nth _ _ dt Hj), <- T, <- combine_nth by (symmetry; exact Ln). apply nth_In. rewrite combine_length. lia.
  Qed.
  Section X.
    Variable m : dmodel.
    Hypothesis Hdes : describes lay c m.
    Hypothesis Hcom : complete lay c m.
    Hypothesis Hgl : graphlike (reports (unrolled m)).
    Hypothesis L2 : short lay 2.
    Variable G : graph.
    Hypothesis HG : tracks (num_detectors m) (reports (unrolled m)) G.

    Lemma explain_side l1 i l2 f g f0 st side : flatten c = l1 ++ i :: l2 -> fault_of i f -> pair_at_most lay c l1 i f l2 -> run_faulty g l1 i f l2 (start f0) = Ok st ->
      exists es, (length es <= 1)%nat /\ (forall u v, In (u, v) es -> edge_data G u v <> None) /\
        (forall j dt, nth_error D j = Some dt -> ends_at es j = eqb (watches lay dt) side && nth j (fdets st) false) /\
        forall x, odd_times (changes G x) es = side && fobs st x.
    Proof.
      intros El Hf Hpm R. destruct (faulty_run lay c Hv Hs E) as [Ed K]. destruct (K l1 i l2 f El Hf g f0) as (st' & X & Y & z & A0 & R' & Hc & H0 & Gd & Go). assert (st' = st) by congruence. subst st'.
      assert (Ln : length (fdets st) = length D) by (rewrite Gd; apply map_length).
      destruct (Nat.eq_dec (set_off lay c side st) 0) as [S0|S0].
      - exists []. split; [cbn; lia|]. split; [intros u v []|]. pose proof (counted_in st side S0 Ln) as Z. split.
        + intros j dt Hj. cbn. symmetry. destruct (eqb (watches lay dt) side) eqn:W; [|reflexivity]. apply eqb_prop in W. exact (Z j dt Hj W).
        + intros x. cbn. symmetry. assert (S : side = true \/ side = false) by (destruct side; auto). destruct S as [-> | ->]; [|reflexivity]. cbn [andb].
          destruct (record_crack lay Hv (sup_obs lay Hs) (sup_sup lay Hs) X Y _ _ z A0 H0 Hc) as (p & Hp & [F1 F2] & Q1 & Q2).
          rewrite Go, Q2. pose proof (short_forgiving 2 1 L2 ltac:(lia) [p]) as Fg. rewrite xsum_cons, xorb_false_r in Fg. rewrite Fg; [apply andb_false_r | | reflexivity |].
          * intros p' [<-|[]]. split; [exact Hp|]. split; [intros Q; apply F1; now left | intros []].
          * intros dt Hin Hw. rewrite xsum_cons. rewrite xorb_false_r, <- Q1 by exact Hin. rewrite <- Ed in Hin. destruct (In_nth_error _ _ Hin) as (j & Hj). transitivity (nth j (fdets st) false); [rewrite Gd; symmetry; apply nth_error_nth; rewrite nth_error_map, Hj; reflexivity | exact (Z j dt Hj Hw)].
      - destruct (Hcom l1 i l2 f El Hf Hpm g f0 st R side ltac:(lia)) as (p & d & fr & Hin & Hp0 & ND & Hd & Ho).
        assert (Hd1 : forall j dt, nth_error D j = Some dt -> existsb (Nat.eqb j) d = eqb (watches lay dt) side && nth j (fdets st) false).
        { intros j dt Hj. apply mem_eq. rewrite Hd, andb_true_iff. split.
          - intros (dt' & Hj' & W & T). assert (dt' = dt) by congruence. subst dt'. split; [|exact T]. apply eqb_prop in W. rewrite W. apply eqb_reflx.
          - intros [W T]. exists dt. split; [exact Hj|]. split; [|exact T]. apply eqb_prop in W. rewrite W. apply eqb_reflx. }
        assert (Nd : d <> []).
        { intros ->. apply S0. unfold set_off. destruct (filter _ _) as [|[dt b] l] eqn:F; [reflexivity|]. exfalso.
          assert (Q : In (dt, b) ((dt, b) :: l)) by now left. rewrite <- F in Q. apply filter_In in Q. cbn [fst snd] in Q. destruct Q as [Q B]. destruct (In_nth_error _ _ Q) as (j & Hj).
          assert (Hj' : nth_error D j = Some dt /\ nth j (fdets st) false = b).
          { assert (Lj : (j < length D)%nat) by (assert (K0 : nth_error (combine D (fdets st)) j <> None) by congruence; apply nth_error_Some in K0; rewrite combine_length in K0; lia).
            rewrite (nth_error_nth' _ (dt, false)), combine_nth in Hj by (rewrite ?combine_length; lia). injection Hj as J1 J2. split; [rewrite <- J1; now apply nth_error_nth' | exact J2]. }
          destruct Hj' as [J1 J2]. pose proof (Hd1 j dt J1) as Q'. cbn [existsb] in Q'. rewrite J2, B in Q'. discriminate. }
        pose proof (Hgl p d fr Hin Hp0) as Ld.
        assert (Hsh : exists u v, (exists x, d = [x] /\ pair_eqb u v x (num_detectors m) = true) \/ exists x y, d = [x; y] /\ pair_eqb u v x y = true).
        { destruct d as [|x [|y [|w d]]]; [congruence | | | cbn in Ld; lia].
          - exists x, (num_detectors m). left. exists x. split; [reflexivity|]. unfold pair_eqb. now rewrite !Nat.eqb_refl.
          - exists x, y. right. exists x, y. split; [reflexivity|]. unfold pair_eqb. now rewrite !Nat.eqb_refl. }
        destruct Hsh as (u & v & Hsh).
        assert (Hon : In (p, fr) (errors_on (num_detectors m) u v (reports (unrolled m)))).
        { apply in_flat_map. exists (EError p d fr). split; [exact Hin|]. assert (Q0 : Qeq_bool p 0 = false) by (apply not_true_is_false; intros Q; now apply Qeq_bool_iff in Q).
          destruct Hsh as [(x & -> & P)|(x & y & -> & P)]; rewrite Q0, P; now left. }
        assert (Hed : exists a fa, edge_data G u v = Some a /\ e_qubit_id a = Some fa /\ frames_eq fr fa).
        { destruct (edge_data G u v) as [a|] eqn:Ea.
          - destruct (edge_known m G HG u v a Ea) as (p' & fa & Hp' & Ef). exists a, fa. split; [reflexivity|]. split; [exact Ef|]. exact (parallel m Hdes u v p fr p' fa L2 Hon Hp').
          - exfalso. rewrite (HG u v) in Ea. destruct (errors_on _ u v _) as [|e es _] eqn:Ees using rev_ind; [destruct Hon|]. rewrite ehist_app in Ea. cbn [fold_left] in Ea. destruct (estep_frames (ehist es) e) as (q & Eq). rewrite Eq in Ea. discriminate. }
        destruct Hed as (a & fa & Ea & Ef & Hfr).
        exists [(u, v)]. split; [cbn; lia|]. split; [intros u' v' [Q|[]]; injection Q as <- <-; congruence|]. split.
        + intros j dt Hj. unfold ends_at. rewrite odd_xsum. cbn [flat_map app fst snd]. rewrite !xsum_cons. cbn [xsum]. rewrite xorb_assoc_reverse || idtac.
          rewrite <- (Hd1 j dt Hj). rewrite <- (ends_symptoms (num_detectors m) u v d j); [|rewrite (proj1 Hdes); apply nth_error_Some; congruence | exact ND | exact Hsh].
          destruct (Nat.eqb j u), (Nat.eqb j v); reflexivity.
        + intros x. rewrite odd_xsum, xsum_cons, xorb_false_r. unfold changes. cbn [fst snd]. rewrite Ea, Ef. apply mem_eq. rewrite <- (Hfr x), Ho, andb_true_iff. destruct side; cbn; intuition congruence.
    Qed.
    Lemma ends_app es es' j : ends_at (es ++ es') j = xorb (ends_at es j) (ends_at es' j).
    Proof. unfold ends_at. rewrite !odd_xsum, flat_map_app, xsum_app. reflexivity. Qed.
    Lemma odd_app {T} (P : T -> bool) l l' : odd_times P (l ++ l') = xorb (odd_times P l) (odd_times P l').
    Proof. rewrite !odd_xsum. apply xsum_app. Qed.
    Definition explained (st : fstate) (n : nat) : Prop :=
      exists es, (length es <= n)%nat /\ (forall u v, In (u, v) es -> edge_data G u v <> None) /\
        (forall j dt, nth_error D j = Some dt -> ends_at es j = nth j (fdets st) false) /\ forall x, odd_times (changes G x) es = fobs st x.
    Lemma explain_small l1 i l2 f g f0 st : flatten c = l1 ++ i :: l2 -> fault_of i f -> pair_at_most lay c l1 i f l2 -> run_faulty g l1 i f l2 (start f0) = Ok st -> explained st 2.
    Proof.
      intros El Hf Hpm R. destruct (explain_side l1 i l2 f g f0 st true El Hf Hpm R) as (e1 & A1 & A2 & A3 & A4). destruct (explain_side l1 i l2 f g f0 st false El Hf Hpm R) as (e2 & B1 & B2 & B3 & B4).
      exists (e1 ++ e2). split; [rewrite app_length; lia|]. split; [intros u v Hi; apply in_app_or in Hi; destruct Hi; auto|]. split.
      - intros j dt Hj. rewrite ends_app, (A3 j dt Hj), (B3 j dt Hj). destruct (watches lay dt), (nth j (fdets st) false); reflexivity.
      - intros x. rewrite odd_app, A4, B4. apply xorb_false_r.
    Qed.
    Lemma explained_sum s1 s2 s n1 n2 : explained s1 n1 -> explained s2 n2 -> (forall j dt, nth_error D j = Some dt -> nth j (fdets s) false = xorb (nth j (fdets s1) false) (nth j (fdets s2) false)) ->
      (forall x, fobs s x = xorb (fobs s1 x) (fobs s2 x)) -> explained s (n1 + n2).
    Proof.
      intros (e1 & A1 & A2 & A3 & A4) (e2 & B1 & B2 & B3 & B4) Hd Ho. exists (e1 ++ e2). split; [rewrite app_length; lia|]. split; [intros u v Hi; apply in_app_or in Hi; destruct Hi; auto|]. split.
      - intros j dt Hj. now rewrite ends_app, (A3 j dt Hj), (B3 j dt Hj), (Hd j dt Hj).
      - intros x. now rewrite odd_app, A4, B4, Ho.
    Qed.
    Lemma nth_xors a b j : length a = length b -> nth j (xors a b) false = xorb (nth j a false) (nth j b false).
    Proof.
      revert b j. induction a as [|x a IH]; intros [|y b] j Lab; cbn [length] in Lab; try lia; [now destruct j|]. destruct j as [|j]; [reflexivity|]. cbn. apply IH. lia.
    Qed.
    Lemma explain_one l1 i l2 f g f0 st : flatten c = l1 ++ i :: l2 -> fault_of i f -> run_faulty g l1 i f l2 (start f0) = Ok st -> explained st 4.
    Proof.
      intros El Hf R. destruct (C79_decomposes lay c Hv Hs E l1 i l2 f El Hf) as [Hpm|(m1 & j & m2 & fj & n1 & k & n2 & fk & E1 & F1 & P1 & E2 & F2 & P2 & K)].
      - destruct (explain_small l1 i l2 f g f0 st El Hf Hpm R) as (es & A1 & A2). exists es. split; [lia | exact A2].
      - destruct (K g f0) as (s & s1 & s2 & R0 & R1 & R2 & Hd & Ho). assert (s = st) by congruence. subst s.
        apply (explained_sum s1 s2 st 2 2); [exact (explain_small _ _ _ _ _ _ _ E1 F1 P1 R1) | exact (explain_small _ _ _ _ _ _ _ E2 F2 P2 R2) | | exact Ho].
        intros q dt _. rewrite Hd. apply nth_xors.
        destruct (C79_at_most_two lay c Hv Hs E m1 j m2 fj E1 F1 g f0) as (t1 & T1 & N1 & _). destruct (C79_at_most_two lay c Hv Hs E n1 k n2 fk E2 F2 g f0) as (t2 & T2 & N2 & _). congruence.
    Qed.
    Lemma explain_all lf g f0 st : errors_of (flatten c) lf -> run_errors g lf (start f0) = Ok st -> explained st (4 * error_count lf).
    Proof.
      intros Hlf R. destruct (clean_run lay c Hv Hs E g f0) as (base & Rb & Lb & Db & Ob).
      destruct (errors_add g f0 (fun _ => True) (flatten c) lf base Hlf (fun _ _ => Logic.I) Rb) as (st' & sts & RE & Hone & Ln & Ld & Hd & Ho). assert (st' = st) by congruence. subst st'. rewrite <- Ln. clear Ln RE R Hlf.
      assert (K : exists es, (length es <= 4 * length sts)%nat /\ (forall u v, In (u, v) es -> edge_data G u v <> None) /\
        (forall j dt, nth_error D j = Some dt -> ends_at es j = xsum (fun s => nth j (fdets s) false) sts) /\ forall x, odd_times (changes G x) es = xsum (fun s => fobs s x) sts).
      { clear Hd Ho Ld. induction Hone as [|s sts H1 _ (es & B1 & B2 & B3 & B4)]; [exists []; split; [cbn; lia|]; split; [intros u v []|]; split; reflexivity|].
        destruct H1 as (l1 & i & l2 & f & El & (Hf & _) & Rs). destruct (explain_one l1 i l2 f _ _ s El Hf Rs) as (e1 & A1 & A2 & A3 & A4).
        exists (e1 ++ es). split; [rewrite app_length; cbn [length]; lia|]. split; [intros u v Hi; apply in_app_or in Hi; destruct Hi; auto|]. split.
        - intros j dt Hj. now rewrite ends_app, xsum_cons, (A3 j dt Hj), (B3 j dt Hj).
        - intros x. now rewrite odd_app, xsum_cons, A4, B4. }
      destruct K as (es & B1 & B2 & B3 & B4). exists es. split; [exact B1|]. split; [exact B2|]. split.
      - intros j dt Hj. rewrite Hd, Db, xorb_false_l. exact (B3 j dt Hj).
      - intros x. rewrite Ho, Ob, xorb_false_l. apply B4.
    Qed.
  End X.

  (** a one-sided piece has no more symptoms than are counted *)
  Lemma shown_two st side d fr : length (fdets st) = length D -> (set_off lay c side st <= 2)%nat -> shows lay c st (eqb side) d fr -> (length d <= 2)%nat.
  Proof.
    intros Ln K (ND & Hd & _). unfold set_off in K.
    set (P := fun p : detector * bool => eqb (watches lay (fst p)) side && snd p) in K.
    (** positions whose entry is counted *)
    assert (G : forall (l : list (detector * bool)) (off : nat) (d : list nat), NoDup d -> (forall j, In j d -> exists k x, j = (off + k)%nat /\ nth_error l k = Some x /\ P x = true) -> (length d <= length (filter P l))%nat).
    { induction l as [|x l IH]; intros off e Ne He.
      - destruct e as [|j e]; [cbn; lia|]. destruct (He j (or_introl eq_refl)) as (k & x & _ & Hx & _). destruct k; discriminate.
      - pose proof (IH (S off) (filter (fun j => negb (Nat.eqb j off)) e)) as K1.
        assert (K2 : (length e <= length (filter (fun j => negb (Nat.eqb j off)) e) + (if existsb (Nat.eqb off) e then 1 else 0))%nat).
        { clear -Ne. induction e as [|j e IH]; [cbn; lia|]. inversion Ne as [|? ? Hj Ne']; subst. specialize (IH Ne'). cbn [filter existsb length]. rewrite (Nat.eqb_sym off j). destruct (Nat.eqb_spec j off) as [->|]; cbn [negb orb].
          - destruct (existsb (Nat.eqb off) e) eqn:X; [apply mem_iff in X; contradiction | lia].
          - cbn [length]. lia. }
        assert (K3 : (length (filter (fun j => negb (Nat.eqb j off)) e) <= length (filter P l))%nat).
        { apply K1; [now apply NoDup_filter|]. intros j Hj. apply filter_In in Hj. destruct Hj as [Hj Nj]. apply negb_true_iff, Nat.eqb_neq in Nj. destruct (He j Hj) as (k & y & -> & Hy & Py). destruct k as [|k]; [lia|]. exists k, y. split; [lia|]. auto. }
        cbn [filter]. destruct (existsb (Nat.eqb off) e) eqn:X.
        + apply mem_iff in X. destruct (He off X) as (k & y & Ek & Hy & Py). assert (k = O) by lia. subst k. cbn [nth_error] in Hy. injection Hy as ->. rewrite Py. cbn [length]. lia.
        + destruct (P x); cbn [length]; lia. }
    refine (Nat.le_trans _ _ _ (G _ 0%nat d ND _) K). intros j Hj. apply Hd in Hj. destruct Hj as (dt & Hj & Hk & T). exists j, (dt, true). split; [reflexivity|]. split.
    - assert (Lj : (j < length D)%nat) by (apply nth_error_Some; congruence).
      rewrite <- T, <- (nth_error_nth _ _ dt Hj), <- combine_nth by (symmetry; exact Ln). apply nth_error_nth'. rewrite combine_length, Ln. lia.
    - unfold P. cbn [fst snd]. rewrite andb_true_r. destruct side, (watches lay dt); auto.
  Qed.
  Lemma piece_two side d f : style lay <> "EM3_v2"%string -> piece_of lay c (eqb side) d f -> (length d <= 2)%nat.
  Proof.
    intros Hst (l1 & i & l2 & fl & g & f0 & st & El & Hf & R & Hsh).
    destruct (C79_at_most_two lay c Hv Hs E l1 i l2 fl El Hf g f0) as (st' & R' & Ln & K). assert (st' = st) by congruence. subst st'. specialize (K side).
    apply String.eqb_neq in Hst. rewrite Hst in K. exact (shown_two st side d f Ln K Hsh).
  Qed.
  Lemma sided_graphlike m : style lay <> "EM3_v2"%string -> side_by_side lay c m -> graphlike (reports (unrolled m)).
  Proof. intros Hst [_ K] p d f Hin Hp. destruct (K p d f Hin Hp) as (side & Hpc). exact (piece_two side d f Hst Hpc). Qed.
  Lemma sided_describes m : side_by_side lay c m -> describes lay c m.
  Proof. intros [Hn K]. split; [exact Hn|]. intros p d f Hin Hp. destruct (K p d f Hin Hp) as (side & Hpc). now exists (eqb side). Qed.
End S.

(** ** C84 *)
(** When the errors are taken one side at a time, the graph can be built (in the style
    EM3_v2 only if the model has no error of more than two symptoms); its edges stay on
    one side, and only those on the observable's side change it. *)
Theorem C84_built : forall lay c m, valid lay -> supported_input lay -> generate_honeycomb_circuit lay = Ok c ->
  small_args (unrolled m) -> uncertain (reports (unrolled m)) -> side_by_side lay c m ->
  (style lay = "EM3_v2"%string -> graphlike (reports (unrolled m))) ->
  exists g, detector_error_model_to_nx_graph m = Ok g /\
    forall u v a, edge_data g u v = Some a -> exists side,
      (forall d, nth_error (detectors 0 0 0 0 (flatten c)) u = Some d -> watches lay d = side) /\
      (forall d, nth_error (detectors 0 0 0 0 (flatten c)) v = Some d -> watches lay d = side) /\
      (side = false -> e_qubit_id a = Some []).
Proof.
  intros lay c m Hv Hs E Hsm Hu Hside Hst.
  assert (Hg : graphlike (reports (unrolled m))) by (destruct (string_dec (style lay) "EM3_v2") as [Y|N]; [now apply Hst | exact (sided_graphlike lay c Hv Hs E m N Hside)]).
  destruct (nx_tracks m Hsm Hu Hg) as (g & Eg & Ht). exists g. split; [exact Eg|]. intros u v a Ea.
  destruct (edge_known m g Ht u v a Ea) as (p & f & Hp & Ef). destruct (on_edge _ _ _ _ _ _ Hp) as (Hp0 & d & Hin & Hsh). destruct (proj2 Hside p d f Hin Hp0) as (side & Hpc). exists side.
  destruct Hpc as (l1 & i & l2 & fl & g' & f0 & st & El & Hf & R & ND & Hd & Ho).
  assert (In_side : forall j dt, nth_error (detectors 0 0 0 0 (flatten c)) j = Some dt -> In j d -> watches lay dt = side).
  { intros j dt Hj Hi. apply Hd in Hi. destruct Hi as (dt' & Hj' & K & _). assert (dt' = dt) by congruence. subst dt'. apply eqb_prop in K. now symmetry. }
  assert (Hends : forall j dt, nth_error (detectors 0 0 0 0 (flatten c)) j = Some dt -> j = u \/ j = v -> In j d).
  { intros j dt Hj Huv. assert (Lj : (j < num_detectors m)%nat) by (rewrite (proj1 Hside); apply nth_error_Some; congruence).
    destruct Hsh as [(x & -> & K)|(x & y & -> & K)]; apply pair_or in K; cbn [In]; destruct K as [[-> ->]|[-> ->]], Huv as [->| ->]; auto; lia. }
  split; [intros dt Hj; apply (In_side u dt Hj), (Hends u dt Hj); now left|]. split; [intros dt Hj; apply (In_side v dt Hj), (Hends v dt Hj); now right|].
  intros ->. rewrite Ef. f_equal. destruct f as [|x f]; [reflexivity|]. exfalso. destruct (proj1 (Ho x) (or_introl eq_refl)) as [K _]. discriminate.
Qed.
Print Assumptions C84_built.

(** On a patch that two errors cannot go around, errors on the same edge agree on the
    observable, so that the edge carries the probability that an odd number of all of
    them occurs (no error is forgotten, see C35). *)
Theorem C84_no_conflict : forall lay c m, valid lay -> supported_input lay -> generate_honeycomb_circuit lay = Ok c -> short lay 2 ->
  small_args (unrolled m) -> uncertain (reports (unrolled m)) -> graphlike (reports (unrolled m)) -> describes lay c m ->
  exists g, detector_error_model_to_nx_graph m = Ok g /\
  forall u v, let es := errors_on (num_detectors m) u v (reports (unrolled m)) in
    (forall a b, In a es -> In b es -> frames_eq (snd a) (snd b)) /\
    (es <> [] -> exists p f, edge_data g u v = Some (mkE (LogOdds ((1 - p) / p)) (Some f) (Some p)) /\ (p == prob_odd (map fst es))%Q /\ forall e, In e es -> frames_eq (snd e) f).
Proof.
  intros lay c m Hv Hs E L Hsm Hu Hg Hdes. destruct (C34_edge_probability m Hsm Hu Hg) as (g & Eg & K). exists g. split; [exact Eg|]. intros u v es.
  assert (Hsame : forall a b, In a es -> In b es -> frames_eq (snd a) (snd b)) by (intros [p f] [p' f'] Ha Hb; exact (parallel lay c Hv Hs E m Hdes u v p f p' f' L Ha Hb)).
  split; [exact Hsame|]. exact (proj2 (K u v) Hsame).
Qed.
Print Assumptions C84_no_conflict.

(** Any errors that happen and any set of edges with ends at the detectors set off on the
    observable's side: if errors and edges are together too few to go around the patch,
    the edges change the observable exactly if the errors did. *)
Theorem C84_correction : forall lay c m g, valid lay -> supported_input lay -> generate_honeycomb_circuit lay = Ok c ->
  small_args (unrolled m) -> uncertain (reports (unrolled m)) -> graphlike (reports (unrolled m)) -> describes lay c m ->
  detector_error_model_to_nx_graph m = Ok g ->
  forall lf es, errors_of (flatten c) lf -> (forall u v, In (u, v) es -> edge_data g u v <> None) -> short lay (error_count lf + length es) ->
  forall r f0 st, run_errors r lf (start f0) = Ok st ->
  (forall j d, nth_error (detectors 0 0 0 0 (flatten c)) j = Some d -> watches lay d = true -> ends_at es j = nth j (fdets st) false) ->
  forall x, odd_times (changes g x) es = fobs st x.
Proof.
  intros lay c m g Hv Hs E Hsm Hu Hg Hdes Eg lf es Hlf Hes L r f0 st R Hends. destruct (nx_tracks m Hsm Hu Hg) as (g' & Eg' & Ht). assert (g' = g) by congruence. subst g'.
  exact (correction lay c Hv Hs E m Hdes g Ht lf es r f0 st Hlf Hes L R Hends).
Qed.
Print Assumptions C84_correction.

(** In particular every closed set of edges that changes the observable is long. *)
Theorem C84_graph_distance : forall lay c m g, valid lay -> supported_input lay -> generate_honeycomb_circuit lay = Ok c ->
  small_args (unrolled m) -> uncertain (reports (unrolled m)) -> graphlike (reports (unrolled m)) -> describes lay c m ->
  detector_error_model_to_nx_graph m = Ok g ->
  forall es, (forall u v, In (u, v) es -> edge_data g u v <> None) -> (forall j, (j < num_detectors m)%nat -> ends_at es j = false) ->
  (exists x, odd_times (changes g x) es = true) -> ~ short lay (length es).
Proof.
  intros lay c m g Hv Hs E Hsm Hu Hg Hdes Eg es Hes Hends (x & Hx) L.
  set (lf := map (fun i => (i, @nil fault)) (flatten c)).
  assert (Hlf : errors_of (flatten c) lf) by (split; [unfold lf; rewrite map_map; apply map_id | intros i fs f Hi Hf; unfold lf in Hi; apply in_map_iff in Hi; destruct Hi as (i' & Q & _); injection Q as <- <-; destruct Hf]).
  assert (C0 : error_count lf = 0%nat) by (unfold error_count, lf; clear; induction (flatten c) as [|i l IH]; [reflexivity | exact IH]).
  destruct (run_cracks lay c Hv Hs E (is_em3 (style lay) = false) False lf Hlf) with (g := fun _ : nat => false) (f0 := fun _ : nat => bzero) as (s & cs & R & Lc & Ls & _ & Hd & Ho); [intros f _; split; [now left | intros []]|].
  rewrite C0 in Lc. destruct cs; [|discriminate].
  rewrite (C84_correction lay c m g Hv Hs E Hsm Hu Hg Hdes Eg lf es Hlf Hes ltac:(rewrite C0; exact L) _ _ s R) in Hx.
  - rewrite Ho in Hx. cbn in Hx. unfold mine in Hx. rewrite andb_false_r in Hx. discriminate.
  - intros j d Hj Hw. rewrite (Hd j d Hj). apply Hends. rewrite (proj1 Hdes). apply nth_error_Some. congruence.
Qed.
Print Assumptions C84_graph_distance.

(** If the model also lists what the errors of the circuit do, then whatever errors happen
    there are edges of the graph, at most four for each error, that end at exactly the
    detectors set off and change exactly the observable that was flipped. *)
Theorem C84_explained : forall lay c m g, valid lay -> supported_input lay -> generate_honeycomb_circuit lay = Ok c -> short lay 2 ->
  small_args (unrolled m) -> uncertain (reports (unrolled m)) -> graphlike (reports (unrolled m)) -> describes lay c m -> complete lay c m ->
  detector_error_model_to_nx_graph m = Ok g ->
  forall lf, errors_of (flatten c) lf -> forall r f0 st, run_errors r lf (start f0) = Ok st ->
  exists es, (forall u v, In (u, v) es -> edge_data g u v <> None) /\ (length es <= 4 * error_count lf)%nat /\
    (forall j, (j < num_detectors m)%nat -> ends_at es j = nth j (fdets st) false) /\
    forall x, odd_times (changes g x) es = fobs st x.
Proof.
  intros lay c m g Hv Hs E L2 Hsm Hu Hg Hdes Hcom Eg lf Hlf r f0 st R. destruct (nx_tracks m Hsm Hu Hg) as (g' & Eg' & Ht). assert (g' = g) by congruence. subst g'.
  destruct (explain_all lay c Hv Hs E m Hdes Hcom Hg L2 g Ht lf r f0 st Hlf R) as (es & A1 & A2 & A3 & A4). exists es. split; [exact A2|]. split; [exact A1|]. split; [|exact A4].
  intros j Lj. rewrite (proj1 Hdes) in Lj. destruct (nth_error (detectors 0 0 0 0 (flatten c)) j) as [d|] eqn:Hj; [exact (A3 j d Hj) | apply nth_error_None in Hj; lia].
Qed.
Print Assumptions C84_explained.

(** ** A concrete model *)
(** what the error f at instruction k does on the kept sides *)
Definition symptoms (lay : layout) (keep : bool -> bool) (k : nat) (f : fault) : option (list nat * bool * nat * bool) :=
  let w := written lay in
  let D := detectors 0 0 0 0 w in
  match run_faulty (fun _ => false) (firstn k w) (nth k w noop) f (skipn (S k) w) (start (fun _ => bzero)) with
  | Ok st => let s := fdets st in
      Some (filter (fun j => match nth_error D j with Some d => keep (watches lay d) && nth j s false | None => false end) (seq 0 (length D)), fobs st 0%nat, length D, Nat.ltb k (length w))
  | Err _ => None
  end.
Lemma symptoms_piece lay c keep k f ds b n : valid lay -> supported_input lay -> generate_honeycomb_circuit lay = Ok c -> obs lay = "V"%string ->
  fault_of (nth k (written lay) noop) f -> keep true = true ->
  symptoms lay keep k f = Some (ds, b, n, true) -> n = length (detectors 0 0 0 0 (flatten c)) /\ piece_of lay c keep ds (if b then [0%nat] else []).
Proof.
  intros Hv Hs E Ho Hf Hk K. assert (Ew : written lay = flatten c) by (unfold written; now rewrite E). unfold symptoms in K. cbv zeta in K. rewrite Ew in *.
  destruct (Nat.ltb_spec k (length (flatten c))) as [L|L]; [|destruct (run_faulty _ _ _ _ _ _); discriminate].
  assert (El : flatten c = firstn k (flatten c) ++ nth k (flatten c) noop :: skipn (S k) (flatten c)).
  { rewrite <- (firstn_skipn k (flatten c)) at 1. f_equal. clear -L. revert k L. induction (flatten c) as [|i l IH]; intros k L; cbn [length] in L; [lia|]. destruct k as [|k]; [reflexivity|]. cbn [nth skipn]. apply IH. lia. }
  destruct (faulty_run lay c Hv Hs E) as [Ed KK]. destruct (KK _ _ _ f El Hf (fun _ => false) (fun _ => bzero)) as (st & X & Y & z & A0 & R & _ & _ & _ & Go). rewrite R in K. injection K as <- <- <-. split; [reflexivity|].
  exists (firstn k (flatten c)), (nth k (flatten c) noop), (skipn (S k) (flatten c)), f, (fun _ => false), (fun _ => bzero), st. split; [exact El|]. split; [exact Hf|]. split; [exact R|].
  split; [apply NoDup_filter, seq_NoDup|]. split.
  - intros j. rewrite filter_In, in_seq. split.
    + intros [_ K]. destruct (nth_error _ j) as [d|]; [|discriminate]. apply andb_true_iff in K. exists d. tauto.
    + intros (d & Hj & K1 & K2). split; [split; [lia|]; apply nth_error_Some; congruence|]. now rewrite Hj, K1, K2.
  - intros x. rewrite Hk. assert (Hx : x <> 0%nat -> fobs st x = false).
    { intros N. rewrite Go. unfold mine, oidx. rewrite Ho. cbn. destruct x; [congruence | reflexivity]. }
    destruct x as [|x].
    + destruct (fobs st 0); cbn [In]; intuition congruence.
    + rewrite Hx by discriminate. destruct (fobs st 0); cbn [In]; intuition congruence.
Qed.
(** The error model with the one error of C81_example alone, on the patch six wide: it
    flips the observable and sets off detectors 25 and 29. *)
Definition one_error_model : dmodel := [DError (1 # 1000) [DDet 25; DDet 29; DObs 0]; DDetector [] [29%nat]].
Lemma six_symptoms : symptoms six (eqb true) 44 (Kick (both_at PX 31 PX 1)) = Some ([25; 29]%nat, true, 30%nat, true).
Proof. vm_compute. reflexivity. Qed.
Example C84_example : exists c g, valid six /\ supported_input six /\ generate_honeycomb_circuit six = Ok c /\ short six 2 /\
  small_args (unrolled one_error_model) /\ uncertain (reports (unrolled one_error_model)) /\ graphlike (reports (unrolled one_error_model)) /\
  side_by_side six c one_error_model /\ describes six c one_error_model /\
  detector_error_model_to_nx_graph one_error_model = Ok g /\ changes g 0 (29%nat, 25%nat) = true /\ ends_at [(29%nat, 25%nat)] 25 = true.
Proof.
  destruct (made six (proj1 six_valid) (proj2 six_valid)) as (c & E).
  assert (Ew : written six = flatten c) by (unfold written; now rewrite E). destruct six_valid as [V1 V2]. 
  destruct (symptoms_piece six c (eqb true) 44 _ _ _ _ V1 V2 E eq_refl (six_faults (Kick (both_at PX 31 PX 1)) (or_introl eq_refl)) eq_refl six_symptoms) as [S2 S1].
  assert (SS : side_by_side six c one_error_model).
  { split; [rewrite <- S2; reflexivity|]. intros p d f Hin _. exists true. destruct Hin as [Hin|[Hin|[]]]; [|discriminate]. injection Hin as <- <- <-. exact S1. }
  exists c. eexists. split; [exact V1|]. split; [exact V2|]. split; [exact E|]. split; [reflexivity|]. split; [|split; [|split; [|split; [exact SS|split; [exact (sided_describes six c _ SS)|split; [reflexivity|split; reflexivity]]]]]].
  - intros x [<-|[<-|[]]]; [exact Logic.I | cbn; lia].
  - intros p d f [Hin|[Hin|[]]]; [|discriminate]. injection Hin as <- <- <-. split; [discriminate | reflexivity].
  - intros p d f [Hin|[Hin|[]]] _; [|discriminate]. injection Hin as <- <- <-. cbn. lia.
Qed.
