(** C85: from shots to the number of correct predictions.  Shots with few errors, given
    to a matcher that finds a set of edges of least total weight, are all decoded
    correctly. *)
From Coq Require Import QArith Qreals.
From Coq Require Import Reals Lra.
From Coq Require Import Classical.
From Coq Require Import Ascii.
From Verif Require Import Prelude Decoding Prop_Decoding Layout LayoutFacts LayoutEdges LayoutLists LayoutIndex Pauli Stim Circuit Noise Ends Gen2 Gen3 Frame Exec4 Detectors Struct2 NoiseFacts NoiseMoments Prop_Circuit Prop_Noise Prop_Noise2
  FaultSpec FaultQuiet FaultCore FaultObs FaultInv FaultZ FaultNoise FaultRun FaultCount FaultLin FaultLine FaultDist FaultTilt Prop_Fault Prop_Match Annot Prop_Dist Prop_Dist2 Prop_Match2 Prop_Graph Prop_Graph2.
Open Scope Z_scope.

(** ** Specification *)
(** The shot: detectors, then observables, of a run of the circuit with at most n errors. *)
Definition shot_of (c : circuit) (num_obs n : nat) (row : list bool) : Prop :=
  exists lf r f0 st, errors_of (flatten c) lf /\ (error_count lf <= n)%nat /\ run_errors r lf (start f0) = Ok st /\
    row = fdets st ++ map (fobs st) (seq 0 num_obs).
(** The number on an edge. *)
Definition size (w : weight) : R := match w with LogOdds q => ln (Q2R q) | Huge => 9999999999%R end.
Definition edge_size (h : graph) (e : nat * nat) : R :=
  match edge_data h (fst e) (snd e) with Some a => size (e_weight a) | None => 0%R end.
Definition total (h : graph) (es : list (nat * nat)) : R := fold_right (fun e w => (edge_size h e + w)%R) 0%R es.
(** Edges of the graph whose ends are the detectors set off; only at the boundary node may
    any number of edges end. *)
Definition solution (boundary : nat) (h : graph) (s : list bool) (es : list (nat * nat)) : Prop :=
  (forall u v, In (u, v) es -> edge_data h u v <> None) /\
  forall j, j <> boundary -> ends_at es j = nth j s false.
Definition lightest (boundary : nat) (h : graph) (s : list bool) (es : list (nat * nat)) : Prop :=
  solution boundary h s es /\ forall es', solution boundary h s es' -> (total h es <= total h es')%R.
(** The matcher's answer: the observables changed by such edges. *)
Definition answers (boundary : nat) (h : graph) (s : list bool) (num_obs : nat) (out : list bool) : Prop :=
  exists es, lightest boundary h s es /\ out = map (fun x => odd_times (changes h x) es) (seq 0 num_obs).
(** Weights of the ordinary edges lie between lo and K times lo, and 4 n of them together
    weigh less than one of the connecting edges. *)
Definition weighted (g : graph) (n K : nat) (lo : R) : Prop :=
  (0 < lo)%R /\ (INR (4 * n * K) * lo < 9999999999)%R /\ (lo < 9999999999)%R /\
  forall u v a, edge_data g u v = Some a -> (lo <= size (e_weight a) <= INR K * lo)%R.

(** ** Sums of weights *)
Lemma total_cons h e es : total h (e :: es) = (edge_size h e + total h es)%R.
Proof. reflexivity. Qed.
Lemma total_above h lo es : (forall e, In e es -> (lo <= edge_size h e)%R) -> (INR (length es) * lo <= total h es)%R.
Proof.
  induction es as [|e es IH]; intros H; [cbn; lra|]. rewrite total_cons. cbn [length]. rewrite S_INR.
  pose proof (H e (or_introl eq_refl)). specialize (IH (fun x Hx => H x (or_intror Hx))). lra.
Qed.
Lemma total_below h hi es : (forall e, In e es -> (edge_size h e <= hi)%R) -> (total h es <= INR (length es) * hi)%R.
Proof.
  induction es as [|e es IH]; intros H; [cbn; lra|]. rewrite total_cons. cbn [length]. rewrite S_INR.
  pose proof (H e (or_introl eq_refl)). specialize (IH (fun x Hx => H x (or_intror Hx))). lra.
Qed.
Lemma total_member h es e : (forall e, In e es -> (0 <= edge_size h e)%R) -> In e es -> (edge_size h e <= total h es)%R.
Proof.
  induction es as [|x es IH]; intros H [].
  - subst x. rewrite total_cons. pose proof (total_above h 0 es (fun y Hy => H y (or_intror Hy))). lra.
  - rewrite total_cons. pose proof (H x (or_introl eq_refl)). specialize (IH (fun y Hy => H y (or_intror Hy)) H0). lra.
Qed.
Lemma odd_ext {T} (P Q : T -> bool) l : (forall x, In x l -> P x = Q x) -> odd_times P l = odd_times Q l.
Proof. intros H. unfold odd_times. do 2 f_equal. apply filter_ext_in. exact H. Qed.
Lemma short_mono lay a b : short lay b -> (a <= b)%nat -> short lay a.
Proof. unfold short. intros H L. destruct (is_em3 (style lay)), (obs lay =? "V")%string; lia. Qed.

(** ** One shot *)
Section Shot.
  Variables (lay : layout) (c : circuit) (m : dmodel) (g h : graph).
  Hypotheses (Hv : valid lay) (Hs : supported_input lay) (E : generate_honeycomb_circuit lay = Ok c).
  Hypotheses (Hsm : small_args (unrolled m)) (Hu : uncertain (reports (unrolled m))) (Hg : graphlike (reports (unrolled m))).
  Hypotheses (Hdes : describes lay c m) (Hcom : complete lay c m) (L2 : short lay 2).
  Hypotheses (Eg : detector_error_model_to_nx_graph m = Ok g) (Eh : detector_error_model_to_pymatching_graph m = Ok h).

  Lemma kept u v a : edge_data g u v = Some a -> edge_data h u v = Some a.
  Proof. destruct (C36_pymatching_graph m g Hsm Eg) as (h' & Eh' & _ & _ & _ & K & _). assert (h' = h) by congruence. subst h'. apply K. Qed.
  Lemma others u v a : edge_data h u v = Some a -> edge_data g u v = Some a \/ e_weight a = Huge.
  Proof. destruct (C36_pymatching_graph m g Hsm Eg) as (h' & Eh' & _ & _ & _ & _ & K & _). assert (h' = h) by congruence. subst h'. apply K. Qed.
  Lemma ends_low u v : edge_data g u v <> None -> (u <= num_detectors m)%nat /\ (v <= num_detectors m)%nat.
  Proof.
    intros K. destruct (nx_tracks m Hsm Hu Hg) as (g' & Eg' & Ht). assert (g' = g) by congruence. subst g'.
    destruct (edge_data g u v) as [a|] eqn:Ea; [|congruence]. destruct (edge_known m g Ht u v a Ea) as (p & f & Hp & _).
    destruct (on_edge _ _ _ _ _ _ Hp) as (Hp0 & d & Hin & Hsh). destruct (proj2 Hdes p d f Hin Hp0) as (keep & l1 & i & l2 & fl & r & f0 & st & _ & _ & _ & _ & Hd & _).
    assert (Low : forall k, In k d -> (k < num_detectors m)%nat) by (intros k Hk; apply Hd in Hk; destruct Hk as (dt & Hj & _); rewrite (proj1 Hdes); apply nth_error_Some; congruence).
    destruct Hsh as [(x & -> & Q)|(x & y & -> & Q)]; apply pair_or in Q.
    - pose proof (Low x (or_introl eq_refl)). lia.
    - pose proof (Low x (or_introl eq_refl)). pose proof (Low y (or_intror (or_introl eq_refl))). lia.
  Qed.
  Lemma ends_none es j : (forall u v, In (u, v) es -> u <> j /\ v <> j) -> ends_at es j = false.
  Proof.
    intros K. unfold ends_at. rewrite odd_xsum. induction es as [|[u v] es IH]; [reflexivity|]. cbn [flat_map app fst snd]. rewrite !xsum_cons, IH by (intros u' v' Hi; apply K; now right).
    destruct (K u v (or_introl eq_refl)) as [A B]. rewrite (proj2 (Nat.eqb_neq j u)), (proj2 (Nat.eqb_neq j v)) by congruence. reflexivity.
  Qed.

  Variables (lf : list (instr * list fault)) (r : nat -> bool) (f0 : nat -> bits) (st : fstate).
  Hypotheses (Hlf : errors_of (flatten c) lf) (Hrun : run_errors r lf (start f0) = Ok st).
  Lemma dets_length : length (fdets st) = num_detectors m.
  Proof.
    destruct (run_cracks lay c Hv Hs E (is_em3 (style lay) = false) False lf Hlf) with (g := r) (f0 := f0) as (s & cs & R' & _ & Ls & _); [intros f _; split; [now left | intros []]|].
    assert (s = st) by congruence. subst s. rewrite Ls. symmetry. exact (proj1 Hdes).
  Qed.
  (** the errors themselves are such a set of edges *)
  Lemma explained_solution : exists es, solution (num_detectors m) h (fdets st ++ [false]) es /\ (length es <= 4 * error_count lf)%nat /\ (forall u v, In (u, v) es -> edge_data g u v <> None).
  Proof.
    destruct (C84_explained lay c m g Hv Hs E L2 Hsm Hu Hg Hdes Hcom Eg lf Hlf r f0 st Hrun) as (es & A1 & A2 & A3 & A4). exists es. split; [|split; [exact A2 | exact A1]]. split.
    - intros u v Hi. pose proof (A1 u v Hi). destruct (edge_data g u v) as [a|] eqn:Ea; [|congruence]. rewrite (kept u v a Ea). discriminate.
    - intros j Hj. destruct (Nat.lt_ge_cases j (num_detectors m)) as [Lj|Lj].
      + rewrite (A3 j Lj). symmetry. apply app_nth1. now rewrite dets_length.
      + rewrite nth_overflow by (rewrite app_length, dets_length; cbn [length]; lia). apply ends_none. intros u v Hi. destruct (ends_low u v (A1 u v Hi)). lia.
  Qed.

  Variables (n K : nat) (lo : R).
  Hypotheses (Hn : (error_count lf <= n)%nat) (Hw : weighted g n K lo) (L : short lay (n + 4 * n * K)).
  Lemma edge_above u v : edge_data h u v <> None -> (lo <= edge_size h (u, v))%R.
  Proof.
    intros Q. destruct Hw as (W0 & W1 & W2 & W3). unfold edge_size. cbn [fst snd]. destruct (edge_data h u v) as [a|] eqn:Ea; [|congruence].
    destruct (others u v a Ea) as [Q'| ->]; [exact (proj1 (W3 u v a Q')) | cbn [size]; lra].
  Qed.
  Lemma light_total es : lightest (num_detectors m) h (fdets st ++ [false]) es -> (total h es <= INR (4 * n * K) * lo)%R.
  Proof.
    intros [_ Hl]. destruct explained_solution as (e0 & S0 & L0 & G0). specialize (Hl e0 S0). destruct Hw as (W0 & W1 & W2 & W3).
    assert (B : (total h e0 <= INR (length e0) * (INR K * lo))%R).
    { apply total_below. intros [u v] Hi. pose proof (G0 u v Hi). unfold edge_size. cbn [fst snd]. destruct (edge_data g u v) as [a|] eqn:Ea; [|congruence]. rewrite (kept u v a Ea). exact (proj2 (W3 u v a Ea)). }
    assert (C : (INR (length e0) <= INR (4 * n))%R) by (apply le_INR; lia). rewrite mult_INR. pose proof (pos_INR K). assert (0 <= INR K * lo)%R by (apply Rmult_le_pos; lra). 
    pose proof (Rmult_le_compat_r _ _ _ H0 C). lra.
  Qed.
  Lemma light_right es : lightest (num_detectors m) h (fdets st ++ [false]) es -> forall x, odd_times (changes h x) es = fobs st x.
  Proof.
    intros Hl x. pose proof (light_total es Hl) as T. destruct Hl as [[S1 S2] _]. pose proof Hw as (W0 & W1 & W2 & W3).
    assert (Pos : forall e, In e es -> (lo <= edge_size h e)%R) by (intros [u v] Hi; exact (edge_above u v (S1 u v Hi))).
    assert (Ord : forall u v, In (u, v) es -> exists a, edge_data h u v = Some a /\ edge_data g u v = Some a).
    { intros u v Hi. pose proof (S1 u v Hi) as Q. destruct (edge_data h u v) as [a|] eqn:Ea; [|congruence]. exists a. split; [reflexivity|]. destruct (others u v a Ea) as [Q'|Q']; [exact Q'|]. exfalso.
      assert (M : (edge_size h (u, v) <= total h es)%R) by (apply total_member; [intros e He; pose proof (Pos e He); lra | exact Hi]).
      unfold edge_size in M. cbn [fst snd] in M. rewrite Ea, Q' in M. cbn [size] in M. lra. }
    assert (Len : (length es <= 4 * n * K)%nat).
    { apply INR_le. pose proof (total_above h lo es Pos) as B. apply (Rmult_le_reg_r lo); [exact W0|]. lra. }
    rewrite (odd_ext _ (changes g x)).
    - apply (C84_correction lay c m g Hv Hs E Hsm Hu Hg Hdes Eg lf es Hlf) with (r := r) (f0 := f0); [intros u v Hi; destruct (Ord u v Hi) as (a & _ & Q); congruence | | exact Hrun |].
      + apply (short_mono lay _ _ L). lia.
      + intros j d Hj _. assert (Lj : (j < num_detectors m)%nat) by (rewrite (proj1 Hdes); apply nth_error_Some; congruence).
        rewrite (S2 j) by lia. apply app_nth1. now rewrite dets_length.
    - intros [u v] Hi. destruct (Ord u v Hi) as (a & Q1 & Q2). unfold changes. cbn [fst snd]. now rewrite Q1, Q2.
  Qed.
End Shot.

(** ** C85 *)
Lemma all_right {T} (P : nat -> Prop) (right : list nat) (l : list T) : NoDup right -> (length right <= length l)%nat -> (forall k, In k right <-> P k) -> (forall k, (k < length l)%nat -> P k) -> length right = length l.
Proof.
  intros _ Lr Hr Hall. apply Nat.le_antisymm; [exact Lr|]. rewrite <- (seq_length (length l) 0) at 1. apply NoDup_incl_length; [apply seq_NoDup|].
  intros k Hk. apply in_seq in Hk. apply Hr, Hall. lia.
Qed.

(** Sampling shots with at most n errors each and decoding them with a matcher that answers
    with a lightest set of edges of the graph built from the error model: when n errors and
    4 n K edges are too few to go around the patch, every shot is counted as correct. *)
Theorem C85_few_errors : forall lay c m g h, valid lay -> supported_input lay -> generate_honeycomb_circuit lay = Ok c -> short lay 2 ->
  small_args (unrolled m) -> uncertain (reports (unrolled m)) -> graphlike (reports (unrolled m)) -> describes lay c m -> complete lay c m ->
  detector_error_model_to_nx_graph m = Ok g -> detector_error_model_to_pymatching_graph m = Ok h ->
  forall n K lo, weighted g n K lo -> short lay (n + 4 * n * K) ->
  forall num_obs matcher sample internal num_shots rows,
  let num_dets := length (detectors 0 0 0 0 (flatten c)) in
  sample num_shots = Ok (mkA rows (num_dets + num_obs)) -> length rows = num_shots ->
  (forall row, In row rows -> shot_of c num_obs n row) ->
  (forall row, In row rows -> let s := firstn num_dets row ++ [false] in answers num_dets h s num_obs (matcher h s)) ->
  sample_decode_count_correct num_dets num_obs (Some (num_detectors m, num_obs)) sample (decode_using_pymatching matcher m num_dets num_obs) internal num_shots "pymatching" = Ok num_shots.
Proof.
  intros lay c m g h Hv Hs E L2 Hsm Hu Hg Hdes Hcom Eg Eh n K lo Hw L no matcher sample internal ns rows nd Es Ln Hshot Hans.
  assert (End : num_detectors m = nd) by exact (proj1 Hdes).
  assert (Hrow : forall row, In row rows -> length (firstn nd row) = nd /\ length row = (nd + no)%nat /\ matcher h (firstn nd row ++ [false]) = skipn nd row).
  { intros row Hin. destruct (Hshot row Hin) as (lf & r & f0 & st & Hlf & Hc & R & Er). pose proof (dets_length lay c m Hv Hs E Hdes lf r f0 st Hlf R) as Ld. rewrite End in Ld.
    assert (F : firstn nd row = fdets st) by (rewrite Er, <- Ld, firstn_app, Nat.sub_diag, firstn_all, firstn_O; apply app_nil_r).
    assert (S : skipn nd row = map (fobs st) (seq 0 no)) by (rewrite Er, <- Ld, skipn_app, skipn_all, Nat.sub_diag; reflexivity).
    split; [now rewrite F|]. split; [rewrite Er, app_length, map_length, seq_length; now rewrite Ld|].
    rewrite S. destruct (Hans row Hin) as (es & Hl & ->). rewrite F in Hl. rewrite <- End in Hl. apply map_ext. intros x.
    exact (light_right lay c m g h Hv Hs E Hsm Hu Hg Hdes Hcom L2 Eg Eh lf r f0 st Hlf R n K lo Hc Hw L es Hl x). }
  set (ds := mkA (map (firstn nd) rows) nd).
  set (pr := mkA (map (fun r => matcher h (r ++ [false])) (a_rows ds)) no).
  assert (Hp : decode_using_pymatching matcher m nd no ds false = Ok pr).
  { apply C37_pymatching_input; [exact Eh | | reflexivity |].
    - intros r Hr. cbn in Hr. apply in_map_iff in Hr. destruct Hr as (row & <- & Hin). exact (proj1 (Hrow row Hin)).
    - intros r Hr. cbn in Hr. apply in_map_iff in Hr. destruct Hr as (row & <- & Hin). destruct (Hrow row Hin) as (_ & Q2 & ->). rewrite skipn_length, Q2. lia. }
  destruct (C37_counts nd no (Some (num_detectors m, no)) sample (decode_using_pymatching matcher m nd no) internal ns "pymatching" (mkA rows (nd + no)) pr) as (k & right & Ek & Ck & Nd & Le & Hr).
  - right. now rewrite End.
  - exact Es.
  - intros row Hin. exact (proj1 (proj2 (Hrow row Hin))).
  - reflexivity.
  - exact Ln.
  - left. split; [reflexivity | exact Hp].
  - cbn. now rewrite !map_length.
  - reflexivity.
  - rewrite Ek. f_equal. rewrite Ck, <- Ln. apply (all_right (right_shots nd rows (a_rows pr)) right rows Nd); [lia | exact Hr |].
    intros k' Hk. destruct (nth_error rows k') as [row|] eqn:Er; [|apply nth_error_None in Er; lia].
    pose proof (Hrow row (nth_error_In _ _ Er)) as (_ & _ & Q). exists row, (matcher h (firstn nd row ++ [false])). split; [exact Er|]. split; [|exact Q].
    cbn. rewrite nth_error_map, nth_error_map, Er. reflexivity.
Qed.
Print Assumptions C85_few_errors.

(** With any sampler of the right shape and any matcher that answers with one bit per
    observable, decoding with the model of a generated circuit counts without raising. *)
Theorem C85_never_raises : forall lay c m, valid lay -> supported_input lay -> generate_honeycomb_circuit lay = Ok c ->
  small_args (unrolled m) -> uncertain (reports (unrolled m)) -> side_by_side lay c m -> (style lay = "EM3_v2"%string -> graphlike (reports (unrolled m))) ->
  forall num_obs (matcher : graph -> list bool -> list bool) sample internal num_shots rows,
  let num_dets := length (detectors 0 0 0 0 (flatten c)) in
  sample num_shots = Ok (mkA rows (num_dets + num_obs)) -> length rows = num_shots -> (forall row, In row rows -> length row = (num_dets + num_obs)%nat) ->
  (forall h s, length (matcher h s) = num_obs) ->
  exists h k, detector_error_model_to_pymatching_graph m = Ok h /\ (k <= num_shots)%nat /\
    sample_decode_count_correct num_dets num_obs (Some (num_detectors m, num_obs)) sample (decode_using_pymatching matcher m num_dets num_obs) internal num_shots "pymatching" = Ok k /\
    k = length (filter (fun row => if list_eq_dec bool_dec (matcher h (firstn num_dets row ++ [false])) (skipn num_dets row) then true else false) rows).
Proof.
  intros lay c m Hv Hs E Hsm Hu Hside Hst no matcher sample internal ns rows nd Es Ln Hrect Hm.
  destruct (C84_built lay c m Hv Hs E Hsm Hu Hside Hst) as (g & Eg & _). destruct (C36_pymatching_graph m g Hsm Eg) as (h & Eh & _). exists h.
  assert (End : num_detectors m = nd) by exact (proj1 Hside).
  set (ds := mkA (map (firstn nd) rows) nd). set (pr := mkA (map (fun r => matcher h (r ++ [false])) (a_rows ds)) no).
  assert (Hp : decode_using_pymatching matcher m nd no ds false = Ok pr).
  { apply C37_pymatching_input; [exact Eh | | reflexivity | intros r _; apply Hm]. intros r Hr. cbn in Hr. apply in_map_iff in Hr. destruct Hr as (row & <- & Hin). cbn [a_cols ds]. rewrite firstn_length, (Hrect row Hin). lia. }
  destruct (C37_counts nd no (Some (num_detectors m, no)) sample (decode_using_pymatching matcher m nd no) internal ns "pymatching" (mkA rows (nd + no)) pr) as (k & right & Ek & Ck & Nd & Le & Hr).
  - right. now rewrite End.
  - exact Es.
  - exact Hrect.
  - reflexivity.
  - exact Ln.
  - left. split; [reflexivity | exact Hp].
  - cbn. now rewrite !map_length.
  - reflexivity.
  - exists k. split; [exact Eh|]. split; [exact Le|]. split; [exact Ek|]. rewrite Ck.
    set (good := fun row : list bool => if list_eq_dec bool_dec (matcher h (firstn nd row ++ [false])) (skipn nd row) then true else false).
    assert (P : forall i, In i right <-> In i (filter (fun i => match nth_error rows i with Some row => good row | None => false end) (seq 0 (length rows)))).
    { intros i. rewrite Hr, filter_In, in_seq. unfold right_shots. cbn [a_rows pr ds]. rewrite !nth_error_map. split.
      - intros (s & p & Q1 & Q2 & Q3). split; [split; [lia|]; apply nth_error_Some; rewrite Q1; discriminate|]. rewrite Q1. rewrite Q1 in Q2. cbn in Q2. injection Q2 as <-. unfold good. destruct (list_eq_dec _ _ _); congruence.
      - intros [_ Q]. destruct (nth_error rows i) as [row|] eqn:Er; [|discriminate]. exists row, (matcher h (firstn nd row ++ [false])). split; [reflexivity|]. split; [reflexivity|]. unfold good in Q. destruct (list_eq_dec _ _ _); [assumption | discriminate]. }
    assert (L1 : length right = length (filter (fun i => match nth_error rows i with Some row => good row | None => false end) (seq 0 (length rows)))).
    { apply Nat.le_antisymm; apply NoDup_incl_length; [exact Nd | intros i; apply P | apply NoDup_filter, seq_NoDup | intros i; apply P]. }
    rewrite L1. clear. assert (G : forall pre, length (filter (fun i => match nth_error (pre ++ rows) i with Some row => good row | None => false end) (seq (length pre) (length rows))) = length (filter good rows)).
    { induction rows as [|row rows IH]; intros pre; [reflexivity|]. cbn [length seq filter]. rewrite nth_error_app2, Nat.sub_diag by lia. cbn [nth_error].
      specialize (IH (pre ++ [row])). rewrite app_length, Nat.add_1_r, <- app_assoc in IH. cbn [app] in IH. destruct (good row); cbn [length]; now rewrite IH. }
    exact (G []).
Qed.
Print Assumptions C85_never_raises.

(** ** A lightest set of edges exists *)
Lemma least {T} (f : T -> R) (l : list T) : l <> [] -> exists x, In x l /\ forall y, In y l -> (f x <= f y)%R.
Proof.
  induction l as [|a l IH]; [congruence|]. intros _. destruct l as [|b l]; [exists a; split; [now left | intros y [<-|[]]; lra]|].
  destruct IH as (x & Hx & Hm); [discriminate|]. destruct (Rle_dec (f a) (f x)) as [Y|N].
  - exists a. split; [now left|]. intros y [<-|Hy]; [lra|]. specialize (Hm y Hy). lra.
  - exists x. split; [now right|]. intros y [<-|Hy]; [lra | exact (Hm y Hy)].
Qed.
Fixpoint words {T} (n : nat) (l : list T) : list (list T) :=
  match n with O => [[]] | S n => [] :: flat_map (fun w => map (fun x => x :: w) l) (words n l) end.
Lemma words_in {T} n (l : list T) w : (length w <= n)%nat -> (forall x, In x w -> In x l) -> In w (words n l).
Proof.
  revert w. induction n as [|n IH]; intros w Lw Hw; destruct w as [|x w]; cbn [words length] in *; [now left | lia | now left |].
  right. apply in_flat_map. exists w. split; [apply IH; [lia | intros y Hy; apply Hw; now right]|]. apply in_map_iff. exists x. split; [reflexivity | apply Hw; now left].
Qed.
Lemma lightest_exists b h s lo (pairs : list (nat * nat)) : (0 < lo)%R ->
  (forall u v, edge_data h u v <> None -> In (u, v) pairs /\ (lo <= edge_size h (u, v))%R) ->
  (exists es, solution b h s es) -> exists es, lightest b h s es.
Proof.
  intros Hlo Hed (e0 & S0).
  set (N := Z.to_nat (up (total h e0 / lo))).
  destruct (select (solution b h s) (e0 :: words N pairs)) as (sel & Hsel).
  assert (In0 : In e0 sel) by (apply Hsel; split; [now left | exact S0]).
  destruct (least (total h) sel) as (x & Hx & Hm); [intros ->; destruct In0|].
  exists x. split; [exact (proj2 (proj1 (Hsel x) Hx))|]. intros es' S'. destruct (Nat.le_gt_cases (length es') N) as [Y|Nn].
  - apply Hm. apply Hsel. split; [|exact S']. right. apply words_in; [exact Y|]. intros [u v] Hi. exact (proj1 (Hed u v (proj1 S' u v Hi))).
  - specialize (Hm e0 In0). assert (A : (INR (length es') * lo <= total h es')%R) by (apply total_above; intros [u v] Hi; exact (proj2 (Hed u v (proj1 S' u v Hi)))).
    assert (B : (total h e0 / lo < INR (length es'))%R).
    { destruct (archimed (total h e0 / lo)) as [Ar _]. apply (Rlt_le_trans _ _ _ Ar). rewrite INR_IZR_INZ. apply IZR_le. unfold N in Nn. lia. }
    assert (C : (total h e0 < INR (length es') * lo)%R).
    { apply (Rmult_lt_compat_r lo) in B; [|exact Hlo]. unfold Rdiv in B. rewrite Rmult_assoc, Rinv_l in B by lra. lra. }
    lra.
Qed.

(** ** The listed models *)
Definition on_pair (n u v : nat) (d : list nat) : bool :=
  match d with [x] => pair_eqb u v x n | [x; y] => pair_eqb u v x y | _ => false end.
Lemma errors_on_app n u v a b : errors_on n u v (a ++ b) = errors_on n u v a ++ errors_on n u v b.
Proof. apply flat_map_app. Qed.
Lemma listed_errors_on p n k u v es : Qeq_bool p 0 = false ->
  errors_on k u v (reports (unrolled (listed p n es))) = map (fun e => (p, snd e)) (filter (fun e => on_pair k u v (fst e)) es).
Proof.
  intros Hp. rewrite listed_unrolled, reports_after. assert (H0 : total_shift [] = 0%nat) by reflexivity. revert H0. generalize (@nil ditem) as pre.
  induction es as [|[d f] es IH]; intros pre H0.
  - cbn [listed map app after report filter]. rewrite app_nil_r. unfold errors_on. induction (seq 0 n) as [|x l IHl]; [reflexivity | exact IHl].
  - change (listed p n ((d, f) :: es)) with (DError p (map DDet d ++ map DObs f) :: listed p n es). cbn [after report]. rewrite components_whole by apply no_sep. cbn [map].
    destruct (det_ids_listed d f) as [-> ->]. rewrite H0, (map_ext (fun k => (k + 0)%nat) (fun k => k)) by (intros; lia). rewrite map_id, errors_on_app, IH by (rewrite total_shift_app, H0; reflexivity).
    cbn [filter fst snd]. unfold errors_on, on_pair. cbn [flat_map]. rewrite Hp. cbn [negb andb].
    destruct d as [|x [|y [|z d]]]; [reflexivity | | | reflexivity]; (destruct (pair_eqb u v x _); reflexivity).
Qed.
Lemma few_pieces n u v o (s : list (list nat * list nat)) : NoDup s -> (forall d f, In (d, f) s -> (f = [] \/ f = [o]) /\ forall k, In k d -> (k < n)%nat) ->
  (forall a b, In a (filter (fun e => on_pair n u v (fst e)) s) -> In b (filter (fun e => on_pair n u v (fst e)) s) -> frames_eq (snd a) (snd b)) ->
  (length (filter (fun e => on_pair n u v (fst e)) s) <= 2)%nat.
Proof.
  intros ND Hs Hf. set (l := filter _ s) in *. assert (Nl : NoDup l) by now apply NoDup_filter.
  destruct l as [|[d0 f0] l'] eqn:El; [cbn; lia|]. rewrite <- El in *.
  assert (In0 : In (d0, f0) l) by (rewrite El; now left).
  assert (Same : forall d f, In (d, f) l -> f = f0).
  { intros d f Hin. pose proof (Hf _ _ Hin In0) as Q. cbn [snd] in Q. pose proof (proj1 (Hs d f (proj1 (proj1 (filter_In _ _ _) Hin)))) as A. pose proof (proj1 (Hs d0 f0 (proj1 (proj1 (filter_In _ _ _) In0)))) as B.
    destruct A as [-> | ->], B as [-> | ->]; auto; exfalso; destruct (Q o) as [Q1 Q2]; [destruct (Q2 (or_introl eq_refl)) | destruct (Q1 (or_introl eq_refl))]. }
  destruct (Nat.eq_dec u n) as [Un|Un]; [|destruct (Nat.eq_dec v n) as [Vn|Vn]].
  - apply (Nat.le_trans _ (length [([v], f0)])); [|cbn; lia]. apply NoDup_incl_length; [exact Nl|]. intros [d f] Hin. rewrite (Same d f Hin). left. f_equal.
    apply filter_In in Hin. destruct Hin as [Hin Q]. cbn [fst] in Q. pose proof (proj2 (Hs d f Hin)) as Low. unfold on_pair in Q.
    destruct d as [|x [|y [|z d]]]; try discriminate; apply pair_or in Q; [pose proof (Low x (or_introl eq_refl)); f_equal; lia | pose proof (Low x (or_introl eq_refl)); pose proof (Low y (or_intror (or_introl eq_refl))); lia].
  - apply (Nat.le_trans _ (length [([u], f0)])); [|cbn; lia]. apply NoDup_incl_length; [exact Nl|]. intros [d f] Hin. rewrite (Same d f Hin). left. f_equal.
    apply filter_In in Hin. destruct Hin as [Hin Q]. cbn [fst] in Q. pose proof (proj2 (Hs d f Hin)) as Low. unfold on_pair in Q.
    destruct d as [|x [|y [|z d]]]; try discriminate; apply pair_or in Q; [pose proof (Low x (or_introl eq_refl)); f_equal; lia | pose proof (Low x (or_introl eq_refl)); pose proof (Low y (or_intror (or_introl eq_refl))); lia].
  - apply (NoDup_incl_length Nl (l' := [([u; v], f0); ([v; u], f0)])). intros [d f] Hin. rewrite (Same d f Hin).
    apply filter_In in Hin. destruct Hin as [Hin Q]. cbn [fst] in Q. unfold on_pair in Q.
    destruct d as [|x [|y [|z d]]]; try discriminate; apply pair_or in Q; [lia|]. destruct Q as [[-> ->]|[-> ->]]; [left | right; left]; reflexivity.
Qed.

Lemma ln_le_self x : (0 < x)%R -> (ln x <= x)%R.
Proof. intros Hx. destruct (Req_dec x 1) as [->|N]; [rewrite ln_1; lra|]. pose proof (exp_ineq1 (ln x)) as K. rewrite exp_ln in K by exact Hx. assert (ln x <> 0)%R by (intros Q; rewrite <- ln_1 in Q; apply ln_inv in Q; lra). specialize (K H). lra. Qed.
Lemma size_odds (p q r : Q) : (p == q)%Q -> ((1 - q) / q == r)%Q -> size (LogOdds ((1 - p) / p)) = ln (Q2R r).
Proof. intros K1 K2. cbn [size]. f_equal. apply Qeq_eqR. rewrite K1. exact K2. Qed.

(** Every layout has an error model, and weights, as the theorem supposes; and a matcher
    can answer on every shot. *)
Theorem C85_case : forall lay c, valid lay -> supported_input lay -> generate_honeycomb_circuit lay = Ok c -> short lay 2 ->
  exists m g h lo, small_args (unrolled m) /\ uncertain (reports (unrolled m)) /\ graphlike (reports (unrolled m)) /\ describes lay c m /\ complete lay c m /\
    detector_error_model_to_nx_graph m = Ok g /\ detector_error_model_to_pymatching_graph m = Ok h /\
    (forall n, (n <= 1000)%nat -> weighted g n 2 lo) /\
    forall num_obs n row, shot_of c num_obs n row -> let num_dets := length (detectors 0 0 0 0 (flatten c)) in
      exists out, answers num_dets h (firstn num_dets row ++ [false]) num_obs out.
Proof.
  intros lay c Hv Hs E L2. set (nd := length (detectors 0 0 0 0 (flatten c))).
  destruct (listed_model lay c Hv Hs E) as (s & ND & Hsm' & K). fold nd in Hsm', K. cbn zeta in K. set (m := listed (1 # 1000) nd s) in *.
  destruct K as (Hsm & Hu & Hg & _ & Hdes & Hcom). assert (End : num_detectors m = nd) by exact (proj1 Hdes).
  destruct (C84_no_conflict lay c m Hv Hs E L2 Hsm Hu Hg Hdes) as (g & Eg & Hed).
  destruct (C36_pymatching_graph m g Hsm Eg) as (h & Eh & Hnodes & _ & _ & Hkeep & Hoth & _).
  set (lo := ln (999 / 2)).
  assert (lo1 : (0 < lo)%R) by (unfold lo; rewrite <- ln_1; apply ln_increasing; lra).
  assert (lo2 : (lo <= 500)%R) by (pose proof (ln_le_self (999 / 2) ltac:(lra)); unfold lo; lra).
  assert (Hw : forall u v a, edge_data g u v = Some a -> (lo <= size (e_weight a) <= INR 2 * lo)%R).
  { intros u v a Ea. destruct (nx_tracks m Hsm Hu Hg) as (g' & Eg' & Ht). assert (g' = g) by congruence. subst g'.
    destruct (edge_known m g Ht u v a Ea) as (p & f & Hp & _). destruct (Hed u v) as [Hsame Hval]. cbn zeta in Hsame, Hval.
    destruct Hval as (q & fr & Eq & Pq & _); [intros Q; rewrite Q in Hp; destruct Hp|]. assert (a = mkE (LogOdds ((1 - q) / q)) (Some fr) (Some q)) by congruence. subst a. cbn [e_weight].
    unfold m in Hsame, Pq, Hp. rewrite listed_errors_on in Hsame, Pq, Hp by reflexivity. fold m in Hsame, Pq, Hp. rewrite End in Hsame, Pq, Hp.
    assert (Hlen : (length (filter (fun e => on_pair nd u v (fst e)) s) <= 2)%nat).
    { apply (few_pieces nd u v (oidx lay) s ND Hsm'). intros x y Hx Hy. exact (Hsame _ _ (in_map _ _ _ Hx) (in_map _ _ _ Hy)). }
    rewrite map_map in Pq. cbn [fst] in Pq.
    assert (two : INR 2 = 2%R) by (cbn; lra). rewrite two.
    assert (big : (lo <= ln 999)%R) by (unfold lo; apply Rlt_le, ln_increasing; lra).
    assert (small : (ln 999 <= 2 * lo)%R).
    { unfold lo. replace (2 * ln (999 / 2))%R with (ln (999 / 2) + ln (999 / 2))%R by lra. rewrite <- ln_mult by lra. apply Rlt_le, ln_increasing; lra. }
    destruct (filter (fun e => on_pair nd u v (fst e)) s) as [|e1 [|e2 [|e3 l]]]; cbn [length] in Hlen; [destruct Hp | | | lia]; cbn [map] in Pq.
    - rewrite (size_odds q (1 # 1000) (999 # 1)); [|rewrite Pq; reflexivity | reflexivity]. replace (Q2R _) with 999%R by (unfold Q2R; cbn [Qnum Qden]; lra). lra.
    - rewrite (size_odds q (1998 # 1000000) (998002 # 1998)); [|rewrite Pq; reflexivity | reflexivity]. replace (Q2R _) with (998002 / 1998)%R by (unfold Q2R; cbn [Qnum Qden]; lra).
      assert (A : (lo <= ln (998002 / 1998))%R) by (unfold lo; apply Rlt_le, ln_increasing; lra).
      assert (B : (ln (998002 / 1998) <= ln 999)%R) by (apply Rlt_le, ln_increasing; lra). lra. }
  assert (Hwt : forall n, (n <= 1000)%nat -> weighted g n 2 lo).
  { intros n Ln. split; [exact lo1|]. split; [|split; [lra | exact Hw]].
    assert (A : (INR (4 * n * 2) <= 8000)%R) by (replace 8000%R with (INR (Z.to_nat 8000)) by (rewrite INR_IZR_INZ, Z2Nat.id by lia; reflexivity); apply le_INR; lia).
    assert (B : (INR (4 * n * 2) * lo <= 8000 * 500)%R) by (apply Rmult_le_compat; [apply pos_INR | lra | exact A | exact lo2]). lra. }
  exists m, g, h, lo. split; [exact Hsm|]. split; [exact Hu|]. split; [exact Hg|]. split; [exact Hdes|]. split; [exact Hcom|]. split; [exact Eg|]. split; [exact Eh|]. split; [exact Hwt|].
  intros no n row (lf & r & f0 & st & Hlf & Hc & R & Er). cbn zeta. fold nd. pose proof (dets_length lay c m Hv Hs E Hdes lf r f0 st Hlf R) as Ld. rewrite End in Ld.
  assert (F : firstn nd row = fdets st) by (rewrite Er, <- Ld, firstn_app, Nat.sub_diag, firstn_all, firstn_O; apply app_nil_r). rewrite F.
  destruct (explained_solution lay c m g h Hv Hs E Hsm Hu Hg Hdes Hcom L2 Eg Eh lf r f0 st Hlf R) as (e0 & S0 & _). rewrite End in S0.
  destruct (lightest_exists nd h (fdets st ++ [false]) lo (flat_map (fun e => [fst e; (snd (fst e), fst (fst e))]) (g_edges h)) lo1) as (es & Hes); [|exists e0; exact S0 | eexists; exists es; split; [exact Hes | reflexivity]].
  intros u v Q. split.
  - unfold edge_data in Q. assert (A : exists e, In (ekey u v, e) (g_edges h)).
    { destruct (assoc eqk (ekey u v) (g_edges h)) as [e|] eqn:Ea; [|congruence]. exists e. clear -Ea. induction (g_edges h) as [|[k e'] l IH]; [discriminate|]. cbn [assoc] in Ea.
      destruct (eqk (ekey u v) k) eqn:Ek; [|right; auto]. injection Ea as ->. left. f_equal. unfold eqk in Ek. apply andb_true_iff in Ek. destruct Ek as [K1 K2]. apply Nat.eqb_eq in K1, K2. destruct k, (ekey u v). cbn in *. now subst. }
    destruct A as (e & He). apply in_flat_map. exists (ekey u v, e). split; [exact He|]. unfold ekey. destruct (u <=? v)%nat; cbn; auto.
  - exact (edge_above m g h Hsm Eg Eh 0 2 lo (Hwt 0%nat ltac:(lia)) u v Q).
Qed.
Print Assumptions C85_case.

(** A wrong result of a pair measurement. *)
Lemma misread_exists lay c : valid lay -> supported_input lay -> style lay = "EM3"%string -> generate_honeycomb_circuit lay = Ok c ->
  exists i, In i (flatten c) /\ fault_of i (Misread 0).
Proof.
  intros Hv Hs Hst E. destruct (generated lay Hv Hs) as (c0 & nm & c' & E0 & En & Ec & E' & Fl & Fo & Hf). assert (c' = c) by congruence. subst c'.
  assert (N : style lay <> "EM3_v2"%string) by (rewrite Hst; discriminate).
  pose proof (C26_noise_only_adds_noise lay nm c0 c En N (fun op Ho => fine_ideal lay op (Hf op Ho)) Ec) as K.
  set (i0 := mkI "MPP" (mpp_targets lay (Z.of_nat 0)) []).
  assert (I0 : In i0 (flatten c0)).
  { rewrite Fl. unfold circuit_i. apply in_or_app. right. apply in_or_app. right. apply in_or_app. left. unfold body_i. rewrite Hst. cbn [String.eqb Ascii.eqb Bool.eqb is_em3 orb]. unfold em3_body.
    apply in_flat_map. exists 0%nat. split; [apply in_seq; destruct Hs as [Hn _]; lia|]. left. reflexivity. }
  apply (in_map (fun op => match strength (style lay) (noise lay) (iname op) with Some p => if (iname op =? "MPP")%string && negb (Qle_bool p 0) then mkI (iname op) (itargets op) [Num p] else op | None => op end)) in I0.
  rewrite <- K in I0. apply filter_In in I0. destruct I0 as [I0 _]. eexists. split; [exact I0|].
  assert (F : forall args, fault_of (mkI "MPP" (mpp_targets lay (Z.of_nat 0)) args) (Misread 0)).
  { intros args. eapply fault_mpp; [apply products_pairs|]. rewrite map_length, count_round_edges by exact Hv. destruct (valid_tiles lay Hv) as (T1 & T2 & _). nia. }
  unfold i0. cbn [iname itargets]. destruct (strength _ _ _) as [p|]; [|apply F]. destruct (_ && _); apply F.
Qed.
Definition wide : layout := mkLayout 20 6 9 "EM3" "V" (1 # 1000).
Example C85_example : exists c m g h lo lf st out, valid wide /\ supported_input wide /\ generate_honeycomb_circuit wide = Ok c /\ short wide 2 /\ short wide (1 + 4 * 1 * 2) /\
  small_args (unrolled m) /\ uncertain (reports (unrolled m)) /\ graphlike (reports (unrolled m)) /\ describes wide c m /\ complete wide c m /\
  detector_error_model_to_nx_graph m = Ok g /\ detector_error_model_to_pymatching_graph m = Ok h /\ weighted g 1 2 lo /\
  errors_of (flatten c) lf /\ error_count lf = 1%nat /\ run_errors (fun _ => false) lf (start (fun _ => bzero)) = Ok st /\
  let row := fdets st ++ map (fobs st) (seq 0 1) in shot_of c 1 1 row /\
  let num_dets := length (detectors 0 0 0 0 (flatten c)) in answers num_dets h (firstn num_dets row ++ [false]) 1 out.
Proof.
  assert (Hv : valid wide) by (repeat split; reflexivity).
  assert (Hs : supported_input wide) by (split; [cbn; lia|]; split; [now left | cbn; tauto]).
  destruct (made wide Hv Hs) as (c & E).
  destruct (C85_case wide c Hv Hs E ltac:(reflexivity)) as (m & g & h & lo & H1 & H2 & H3 & H4 & H5 & H6 & H7 & H8 & H9).
  destruct (misread_exists wide c Hv Hs eq_refl E) as (i & Hi & Hfi). destruct (In_nth _ _ noop Hi) as (k & Lk & Ek).
  destruct (place_errors (flatten c) k [Misread 0] Lk) as [P1 P2]; [intros f [<-|[]]; now rewrite Ek|].
  destruct (run_cracks wide c Hv Hs E (is_em3 (style wide) = false) False _ P1) with (g := fun _ : nat => false) (f0 := fun _ : nat => bzero) as (st & cs & R & _); [intros f _; split; [discriminate | intros []]|].
  assert (Sh : shot_of c 1 1 (fdets st ++ map (fobs st) (seq 0 1))) by (exists (place (flatten c) k [Misread 0]), (fun _ => false), (fun _ => bzero), st; split; [exact P1|]; split; [rewrite P2; cbn; lia|]; split; [exact R | reflexivity]).
  destruct (H9 1%nat 1%nat _ Sh) as (out & Hout).
  exists c, m, g, h, lo, (place (flatten c) k [Misread 0]), st, out.
  split; [exact Hv|]. split; [exact Hs|]. split; [exact E|]. split; [reflexivity|]. split; [reflexivity|]. split; [exact H1|]. split; [exact H2|]. split; [exact H3|]. split; [exact H4|]. split; [exact H5|]. split; [exact H6|]. split; [exact H7|].
  split; [apply H8; lia|]. split; [exact P1|]. split; [exact P2|]. split; [exact R|]. split; [exact Sh | exact Hout].
Qed.
