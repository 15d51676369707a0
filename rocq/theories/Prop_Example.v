(** C86: collecting, reading back and plotting (src/main_example.py). *)
From Coq Require Import QArith.
From Coq Require Import Reals Lra.
From Coq Require Import Ascii.
From Coq Require Import Sorted.
From Verif Require Import Prelude Layout LayoutFacts Stim Circuit Noise Frame Detectors Decoding Prop_Decoding Collect Prop_Collect Prop_Collect2 Paper Prop_Paper3 Plot Prop_Plot
  Annot FaultSpec Prop_Circuit Prop_Noise2 Prop_Fault Prop_Graph Prop_Graph2 Prop_Decode Example.
Open Scope Z_scope.
Open Scope list_scope.

(** ** Specification *)
(** Problems whose data can be recorded and plotted. *)
Definition good_desc {F} (d : desc F) : Prop := plain_desc d /\ 1 <= d_rounds d /\ 1 <= d_distance d.
(** The sampler counts correct shots for these problems. *)
Definition counts_for {F} (ds : list (desc F)) (sample : nat -> desc F -> Z -> res (Z * F)) : Prop :=
  forall t d n, In d ds -> 0 <= n -> exists c x, sample t d n = Ok (c, x) /\ 0 <= c <= n.

Lemma loop_ext {F} P (s1 s2 : nat -> desc F -> Z -> res (Z * F)) d : (forall t n, 0 <= n -> s1 t d n = s2 t d n) -> forall fuel t e tot next, loop P s1 fuel d t e tot next = loop P s2 fuel d t e tot next.
Proof.
  intros H. induction fuel as [|fuel IH]; intros t e tot next; cbn [loop]; [reflexivity|].
  assert (E : do_sample s1 t d next = do_sample s2 t d next) by (unfold do_sample; destruct (Z.ltb_spec next 0); [reflexivity | now apply H]). rewrite E.
  destruct (do_sample s2 t d next) as [[c x]|]; [|reflexivity]. cbv zeta. rewrite IH. reflexivity.
Qed.
Lemma problems_ext {F} P (s1 s2 : nat -> desc F -> Z -> res (Z * F)) ds : (forall t d n, In d ds -> 0 <= n -> s1 t d n = s2 t d n) -> forall t, collect_problems P s1 t ds = collect_problems P s2 t ds.
Proof.
  induction ds as [|d ds IH]; intros H t; cbn [collect_problems]; [reflexivity|].
  assert (E : collect_problem P s1 t d = collect_problem P s2 t d) by (unfold collect_problem; apply loop_ext; intros; apply H; [now left | assumption]). rewrite E.
  destruct (collect_problem P s2 t d) as [[l t1] [u|e]]; [|reflexivity]. rewrite IH; [reflexivity|]. intros; apply H; [now right | assumption].
Qed.
Lemma all_completes {F} (feqb : F -> F -> bool) P (s : nat -> desc F -> Z -> res (Z * F)) t ds (x0 : F) : (forall a b, feqb a b = true <-> a = b) ->
  1 <= min_shots P -> 1 <= max_shots P -> match max_batch P with None => True | Some b => 1 <= b end -> counts_for ds s -> snd (collect_problems P s t ds) = Ok tt.
Proof.
  intros Hf H1 H2 H3 H.
  set (here := fun d => existsb (desc_eqb feqb d) ds).
  assert (Hh : forall d, here d = true <-> In d ds).
  { intros d. unfold here. rewrite existsb_exists. split; [intros (y & Hy & K); apply (desc_eqb_iff feqb Hf) in K; now subst | intros K; exists d; split; [exact K | now apply (desc_eqb_iff feqb Hf)]]. }
  set (s' := fun t d n => if here d && (0 <=? n) then s t d n else Ok (0, x0)).
  rewrite (problems_ext P s s'); [apply C39_completes; auto|].
  - intros u d n. unfold s'. destruct (here d) eqn:Ed; cbn [andb]; [|exists 0, x0; split; [reflexivity | lia]]. apply Hh in Ed.
    destruct (Z.leb_spec 0 n) as [L|L]; [|exists 0, x0; split; [reflexivity | lia]]. destruct (H u d n Ed L) as (c & x & A & B). exists c, x. auto.
  - intros u d n Hd L. unfold s'. apply Hh in Hd. rewrite Hd, (proj2 (Z.leb_le 0 n) L). reflexivity.
Qed.
Lemma batches_of {F} feqb (Hf : forall a b : F, feqb a b = true <-> a = b) P (s : nat -> desc F -> Z -> res (Z * F)) ds : NoDup ds -> forall t l t' d,
  collect_problems P s t ds = (l, t', Ok tt) -> In d ds -> exists t1 t2 ld, collect_problem P s t1 d = (ld, t2, Ok tt) /\ of_desc feqb d l = ld.
Proof.
  intros N. induction N as [|d0 ds Hn N IH]; intros t l t' d; [intros _ []|]. cbn [collect_problems].
  destruct (collect_problem P s t d0) as [[l1 t1] o1] eqn:E1. destruct o1 as [[]|]; [|discriminate].
  destruct (collect_problems P s t1 ds) as [[l2 t2] o2] eqn:E2. intros [= <- <- ->] Hd.
  assert (A1 : forall b, In b l1 -> b_desc b = d0).
  { intros b Hb. apply In_nth_error in Hb. destruct Hb as (i & Hi). unfold collect_problem in E1. apply loop_calls in E1 as [E1 _]. exact (proj1 (E1 i b Hi)). }
  assert (A2 : forall b, In b l2 -> In (b_desc b) ds).
  { intros b Hb. apply In_nth_error in Hb. destruct Hb as (i & Hi). apply problems_calls in E2 as [E2 _]. exact (proj1 (E2 i b Hi)). }
  assert (Q : forall a b : desc F, desc_eqb feqb a b = true <-> a = b) by (apply desc_eqb_iff, Hf).
  assert (K1 : forall (p : batch F -> bool) l, (forall b, In b l -> p b = true) -> filter p l = l) by (intros p l; induction l as [|b l IHl]; intros H; cbn [filter]; [reflexivity|]; rewrite (H b (or_introl eq_refl)), IHl; [reflexivity | intros; apply H; now right]).
  assert (K2 : forall (p : batch F -> bool) l, (forall b, In b l -> p b = false) -> filter p l = []) by (intros p l; induction l as [|b l IHl]; intros H; cbn [filter]; [reflexivity|]; rewrite (H b (or_introl eq_refl)), IHl; [reflexivity | intros; apply H; now right]).
  unfold of_desc. rewrite filter_app. destruct Hd as [<-|Hd].
  - exists t, t1, l1. split; [exact E1|]. rewrite K1, K2; [apply app_nil_r| |].
    + intros b Hb. apply not_true_is_false. intros K. apply Q in K. apply Hn. rewrite K. now apply A2.
    + intros b Hb. apply Q. symmetry. now apply A1.
  - destruct (IH t1 l2 t2 d E2 Hd) as (u1 & u2 & ld & Ed & El). exists u1, u2, ld. split; [exact Ed|]. rewrite K2; [exact El|].
    intros b Hb. apply not_true_is_false. intros K. apply Q in K. apply Hn. rewrite <- (A1 b Hb), <- K. exact Hd.
Qed.

(** ** Any problems *)
(** The three steps end without an exception.  What is drawn is one curve for each problem
    (apart from noise), of data that sums up the sampler's answers, every problem with at
    least min_shots and at most max_shots shots, enough for the stopping rule (C39). *)
Theorem C86_collect_and_plot : forall F (fmt : F -> string) parse fadd fzero feqb fleb P sample ds f,
  float_io fmt parse feqb -> linear_order fleb -> NoDup ds -> Forall good_desc ds -> counts_for ds sample ->
  1 <= min_shots P <= max_shots P -> match max_batch P with None => True | Some b => min_shots P <= b end ->
  (exists kinds, (length kinds <= 30)%nat /\ forall d, In d ds -> In (with_noise d fzero) kinds) ->
  exists f' curves data l problems, collect_and_plot fmt parse fadd fzero feqb fleb P sample ds f = (f', Ok curves) /\
    read_recorded_data parse fadd fzero feqb [f'] = Ok data /\ totals fadd fzero feqb l data /\
    (forall i b, nth_error l i = Some b -> sample i (b_desc b) (b_shots b) = Ok (b_correct b, b_secs b)) /\
    (forall d, In d ds <-> exists s, In (d, s) data) /\
    (forall d s, In (d, s) data -> min_shots P <= num_shots s <= max_shots P /\ 0 <= num_correct s <= num_shots s /\ stop_rule P (num_shots s) (num_shots s - num_correct s)) /\
    StronglySorted (desc_lt fleb) problems /\ (forall k, In k problems <-> exists d, In d ds /\ k = with_noise d fzero) /\
    Forall2 (curve_of fleb data) problems curves.
Proof.
  intros F fmt parse fadd fzero feqb fleb P sample ds f IO FL N Hg Hc Hm Hb (kinds & Lk & Hk). pose proof IO as (_ & _ & Hf).
  pose proof (desc_eqb_iff feqb Hf) as He.
  destruct (collect_problems P sample 0 ds) as [[l t'] o] eqn:E.
  assert (Eo : o = Ok tt).
  { pose proof (all_completes feqb P sample 0%nat ds fzero Hf) as K. rewrite E in K. apply K; [lia | lia | destruct (max_batch P); [lia | exact Logic.I] | exact Hc]. }
  subst o. destruct (C41_read_back fmt parse fadd fzero feqb P sample ds f l t' (Ok tt) IO) as (data & Er & Ht & Hl & Hall).
  { eapply Forall_impl; [|exact Hg]. intros d Hd. apply Hd. }
  { exact E. }
  destruct (Hall eq_refl) as (_ & Hds). pose proof Ht as (Nd & Htot).
  assert (G : forall d s, In (d, s) data <-> dget (desc_eqb feqb) d data = Some s).
  { clear -Nd He. induction data as [|[d0 s0] data IH]; intros d s; cbn [dget In]; [split; [intros [] | discriminate]|]. inversion Nd as [|? ? Nn Nd']. subst. specialize (IH Nd'). destruct (desc_eqb feqb d d0) eqn:K.
    - apply He in K. subst d0. split; [intros [[= <-]|H]; [reflexivity | destruct Nn; apply in_map_iff; exists (d, s); auto] | intros [= <-]; now left].
    - rewrite <- IH. split; [intros [[= <- <-]|H]; [rewrite (proj2 (He d0 d0) eq_refl) in K; discriminate | exact H] | now right]. }
  assert (Hin : forall d, In d ds <-> exists s, In (d, s) data).
  { intros d. split.
    - intros Hd. destruct (Hds d Hd) as (b & Hb0 & Eb). destruct (of_desc feqb d l) as [|b0 r] eqn:Eq.
      + exfalso. assert (K : In b (of_desc feqb d l)) by (unfold of_desc; apply filter_In; split; [exact Hb0 | apply He; now symmetry]). rewrite Eq in K. destruct K.
      + specialize (Htot d). rewrite Eq in Htot. eexists. apply G. exact Htot.
    - intros (s & Hs). apply G in Hs. rewrite Htot in Hs. destruct (of_desc feqb d l) as [|b r] eqn:Eq; [discriminate|].
      assert (K : In b (of_desc feqb d l)) by (rewrite Eq; now left). unfold of_desc in K. apply filter_In in K. destruct K as [K1 K2]. apply He in K2. apply In_nth_error in K1. destruct K1 as (i & Hi). rewrite K2. exact (proj1 (Hl i b Hi)). }
  assert (Hsh : forall d s, In (d, s) data -> min_shots P <= num_shots s <= max_shots P /\ 0 <= num_correct s <= num_shots s /\ stop_rule P (num_shots s) (num_shots s - num_correct s)).
  { intros d s Hs. assert (Hd : In d ds) by (apply Hin; eauto). apply G in Hs. rewrite Htot in Hs.
    destruct (batches_of feqb Hf P sample ds N 0%nat l t' d E Hd) as (t1 & t2 & ld & Ed & El). rewrite El in Hs.
    pose proof (C40_min_shots P sample t1 d ld t2 Hb ltac:(lia) Ed) as M1. rewrite Z.min_l in M1 by lia.
    destruct (C39_budget P sample t1 d ld t2 (Ok tt) ltac:(lia) ltac:(left; lia) Ed) as (M2 & M3).
    assert (Cb : forall b, In b ld -> 0 <= b_correct b <= b_shots b).
    { intros b Hb'. apply In_nth_error in Hb'. destruct Hb' as (i & Hi). pose proof (proj1 (Forall_forall _ _) M3 b (nth_error_In _ _ Hi)) as [S0 _]. unfold collect_problem in Ed. apply loop_calls in Ed as [Ed _]. destruct (Ed i b Hi) as (_ & Es).
      destruct (Hc (t1 + i)%nat d (b_shots b) Hd S0) as (c & x & Ec & B). rewrite Es in Ec. injection Ec as Q1 Q2. rewrite Q1. exact B. }
    assert (Sum : forall bs : list (batch F), (forall b, In b bs -> 0 <= b_correct b <= b_shots b) -> 0 <= zsum (map b_correct bs) <= zsum (map b_shots bs)).
    { induction bs as [|b bs IH]; intros K; [cbn; lia|]. pose proof (K b (or_introl eq_refl)). specialize (IH (fun b' H' => K b' (or_intror H'))). cbn [map] in *. change (zsum (b_correct b :: map b_correct bs)) with (b_correct b + zsum (map b_correct bs)). change (zsum (b_shots b :: map b_shots bs)) with (b_shots b + zsum (map b_shots bs)). lia. }
    specialize (Sum ld Cb). unfold shots_of in *. destruct ld as [|b0 r]; [discriminate|]. injection Hs as <-. cbn [num_shots num_correct]. unfold zsum in *. cbn [map fold_right] in *. split; [lia|]. split; [lia|].
    pose proof (proj1 (C39_stopping P sample t1 d (b0 :: r) t2 (Ok tt) Ed) eq_refl) as St. unfold shots_of, Prop_Collect.errors_of, zsum in St. cbn [map fold_right] in St.
    assert (Er0 : forall bs : list (batch F), fold_right Z.add 0 (map (fun b => b_shots b - b_correct b) bs) = fold_right Z.add 0 (map b_shots bs) - fold_right Z.add 0 (map b_correct bs)) by (induction bs as [|b bs IHb]; cbn [map fold_right]; lia).
    rewrite Er0 in St. match goal with |- stop_rule P ?a ?b => match type of St with stop_rule P ?a' ?b' => replace b with b' by lia; replace a with a' by lia; exact St end end. }
  assert (Pl : Forall plottable data).
  { apply Forall_forall. intros [d s] Hs. assert (Hd : In d ds) by (apply Hin; eauto). destruct (Hsh d s Hs) as (A & B & _). pose proof (proj1 (Forall_forall _ _) Hg d Hd) as (_ & C & D). unfold plottable. cbn [fst snd]. lia. }
  destruct (C68_curves F fzero feqb fleb data 0 Hf FL Nd Pl ltac:(lia)) as (problems & Srt & Mem & Drawn & _).
  assert (Mem' : forall k, In k problems <-> exists d, In d ds /\ k = with_noise d fzero).
  { intros k. rewrite Mem. split; [intros (d & s & Hs & Ek); exists d; split; [apply Hin; eauto | exact Ek] | intros (d & Hd & Ek); apply Hin in Hd; destruct Hd as (s & Hs); eauto]. }
  assert (Np : NoDup problems).
  { clear -Srt FL. induction Srt as [|k ks S IH Hk]; constructor; [|exact IH]. intros K. apply (proj1 (Forall_forall _ _) Hk) in K. revert K. unfold desc_lt. cbn [lexlt].
    assert (St : forall s, String.ltb s s = true -> False) by (intros s; unfold String.ltb; pose proof (String.compare_antisym s s) as A; destruct (String.compare s s); cbn in A; congruence).
    intros K. repeat (destruct K as [K|[_ K]]; [first [lia | now destruct K | now apply St in K]|]). exact K. }
  destruct Drawn as (curves & Ec & F2).
  { assert ((length problems <= length kinds)%nat); [|lia]. apply NoDup_incl_length; [exact Np|]. intros k K. apply Mem' in K. destruct K as (d & Hd & ->). now apply Hk. }
  exists (fst (collect_simulated_experiment_data fmt P sample ds true f)), curves, data, l, problems. split; [|split; [exact Er|]].
  - unfold collect_and_plot. destruct (collect_simulated_experiment_data fmt P sample ds true f) as [f' o'] eqn:Ecol. cbn [fst] in Er.
    assert (o' = Ok tt) by (unfold collect_simulated_experiment_data in Ecol; rewrite E in Ecol; now injection Ecol). subst o'. cbn [bind fst]. rewrite Er. cbn [bind]. rewrite Ec. reflexivity.
  - split; [exact Ht|]. split; [intros i b Hi; exact (proj2 (Hl i b Hi))|]. auto.
Qed.
Print Assumptions C86_collect_and_plot.

(** ** The script *)
(** What stim's error model of a generated circuit is like (C84): errors are pieces, on one
    side, of errors of the circuit, and have at most two symptoms. *)
Definition decomposed (lay : layout) (c : circuit) (m : dmodel) : Prop :=
  small_args (unrolled m) /\ uncertain (reports (unrolled m)) /\ side_by_side lay c m /\ graphlike (reports (unrolled m)).
(** n shots, each with a bit for every detector and observable *)
Definition shots_for (c : circuit) (n : nat) (a : array) : Prop :=
  a_cols a = (circuit_detectors c + circuit_observables c)%nat /\ length (a_rows a) = n /\ forall row, In row (a_rows a) -> length row = a_cols a.

Lemma batch_counts {F} dem draw matcher internal (clock : nat -> F) lay t n : valid lay -> supported_input lay -> 0 <= n ->
  (forall c, generate_honeycomb_circuit lay = Ok c -> decomposed lay c (dem c) /\
     (exists a, draw t c (Z.to_nat n) = Ok a /\ shots_for c (Z.to_nat n) a) /\
     forall h s, detector_error_model_to_pymatching_graph (dem c) = Ok h -> length (matcher c h s) = circuit_observables c) ->
  exists k, take_batch dem draw matcher internal clock lay "pymatching" t n = Ok (k, clock t) /\ 0 <= k <= n.
Proof.
  intros Hv Hs Hn H. destruct (made lay Hv Hs) as (c & E). destruct (H c E) as ((Hsm & Hu & Hside & Hg) & (a & Ea & Ca & La & Ra) & Hm). unfold take_batch. rewrite E. cbn [bind].
  set (nd := circuit_detectors c) in *. set (no := circuit_observables c) in *. destruct a as [rows cols]. cbn [a_rows a_cols] in *. subst cols.
  destruct (C84_built lay c (dem c) Hv Hs E Hsm Hu Hside (fun _ => Hg)) as (g & Eg & _). destruct (C36_pymatching_graph (dem c) g Hsm Eg) as (h & Eh & _).
  set (ds := mkA (map (firstn nd) rows) nd). set (pr := mkA (map (fun r => matcher c h (r ++ [false])) (a_rows ds)) no).
  assert (Hp : decode_using_pymatching (matcher c) (dem c) nd no ds false = Ok pr).
  { apply C37_pymatching_input; [exact Eh | | reflexivity | intros r _; now apply Hm]. intros r Hr. cbn in Hr. apply in_map_iff in Hr. destruct Hr as (row & <- & Hin). cbn [a_cols ds]. rewrite firstn_length, (Ra row Hin). lia. }
  destruct (C37_counts nd no None (draw t c) (decode_using_pymatching (matcher c) (dem c) nd no) internal (Z.to_nat n) "pymatching" (mkA rows (nd + no)) pr) as (k & right & Ek & _ & _ & Le & _).
  - now left.
  - exact Ea.
  - intros row Hin. exact (Ra row Hin).
  - reflexivity.
  - exact La.
  - left. split; [reflexivity | exact Hp].
  - cbn. now rewrite !map_length.
  - reflexivity.
  - rewrite Ek. cbn [bind]. exists (Z.of_nat k). split; [reflexivity | lia].
Qed.

Definition example_noises : list Q := [1 # 1000; 2 # 1000; 3 # 1000]%Q.
(** The problems of the script: patches 4x6 and 8x12, ten rounds. *)
Definition small_desc {F} (n : F) : desc F := mkDesc 4 6 4 24 10 n "honeycomb_EM3_v2" "H" "pymatching".
Definition large_desc {F} (n : F) : desc F := mkDesc 8 12 8 96 10 n "honeycomb_EM3_v2" "H" "pymatching".
Lemma example_eq {F} (lit : Q -> F) : map fst (example_problems lit) = map small_desc (map lit example_noises) ++ map large_desc (map lit example_noises).
Proof. vm_compute. reflexivity. Qed.
Lemma sorted_is {A} (lt : A -> A -> Prop) : (forall x y, lt x y -> lt y x -> False) -> forall l l', StronglySorted lt l -> StronglySorted lt l' -> (forall x, In x l <-> In x l') -> l = l'.
Proof.
  intros As. assert (Ir : forall x, lt x x -> False) by (intros x H; exact (As x x H H)).
  induction l as [|x l IH]; intros [|y l'] S S' H; [reflexivity | destruct (proj2 (H y) (or_introl eq_refl)) | destruct (proj1 (H x) (or_introl eq_refl))|].
  inversion S as [|? ? S1 F1]. inversion S' as [|? ? S2 F2]. subst. rewrite Forall_forall in F1, F2.
  assert (x = y).
  { destruct (proj1 (H x) (or_introl eq_refl)) as [K|K]; [now symmetry|]. destruct (proj2 (H y) (or_introl eq_refl)) as [K'|K']; [assumption|]. exfalso. exact (As y x (F2 x K) (F1 y K')). }
  subst y. f_equal. apply IH; [assumption | assumption|]. intros z. split; intros Hz.
  - destruct (proj1 (H z) (or_intror Hz)) as [<-|K]; [destruct (Ir x (F1 x Hz)) | exact K].
  - destruct (proj2 (H z) (or_intror Hz)) as [<-|K]; [destruct (Ir x (F2 x Hz)) | exact K].
Qed.

(** Whatever stim draws, however the matching answers, and whatever test.csv held before,
    the script ends with two curves, for the 4x6 and the 8x12 patch, each over the three
    noise strengths, of data with between a thousand and a million shots a point, and a
    hundred errors unless there are a million shots. *)
Theorem C86_main_example : forall F (fmt : F -> string) parse fadd fzero feqb fleb lit dem draw matcher internal clock f,
  float_io fmt parse feqb -> linear_order fleb -> StronglySorted (before fleb) (map lit example_noises) ->
  (forall lay c, In lay example_layouts -> generate_honeycomb_circuit lay = Ok c -> decomposed lay c (dem c) /\
     (forall t n, exists a, draw t c n = Ok a /\ shots_for c n a) /\
     (forall h s, detector_error_model_to_pymatching_graph (dem c) = Ok h -> length (matcher c h s) = circuit_observables c)) ->
  exists f' small large data, main_example fmt parse fadd fzero feqb fleb lit dem draw matcher internal clock f = (f', Ok [small; large]) /\
    read_recorded_data parse fadd fzero feqb [f'] = Ok data /\
    c_label small = "10 rounds, 4x6 data"%string /\ c_label large = "10 rounds, 8x12 data"%string /\
    map fst (c_band small) = map lit example_noises /\ map fst (c_band large) = map lit example_noises /\
    curve_of fleb data (small_desc fzero) small /\ curve_of fleb data (large_desc fzero) large /\
    (forall d, (exists s, In (d, s) data) <-> exists n, In n example_noises /\ (d = small_desc (lit n) \/ d = large_desc (lit n))) /\
    (forall d s, In (d, s) data -> 1000 <= num_shots s <= 1000000 /\ 0 <= num_correct s <= num_shots s /\
       (num_shots s = 1000000 \/ 100 <= num_shots s - num_correct s)).
Proof.
  intros F fmt parse fadd fzero feqb fleb lit dem draw matcher internal clock f IO FL Srt World. pose proof IO as (_ & _ & Hf). pose proof (desc_eqb_iff feqb Hf) as He.
  assert (As : forall x y : F, before fleb x y -> before fleb y x -> False) by (intros x y [A A'] [B _]; apply A'; exact (proj2 (proj2 FL) x y A B)).
  assert (Nl : NoDup (map lit example_noises)).
  { clear -Srt As. induction Srt as [|x l S IH H]; constructor; [|exact IH]. intros K. rewrite Forall_forall in H. specialize (H x K). exact (As x x H H). }
  set (ds := map fst (example_problems lit)). pose proof (example_eq lit) as Eds. fold ds in Eds.
  assert (Mds : forall d, In d ds <-> exists n, In n example_noises /\ (d = small_desc (lit n) \/ d = large_desc (lit n))).
  { intros d. rewrite Eds, !map_map, in_app_iff, !in_map_iff. split.
    - intros [(n & <- & Hn)|(n & <- & Hn)]; exists n; auto.
    - intros (n & Hn & [->| ->]); [left | right]; exists n; auto. }
  destruct (C86_collect_and_plot F fmt parse fadd fzero feqb fleb example_params (ask feqb dem draw matcher internal clock (example_problems lit)) ds f) as (f' & curves & data & l & problems & Er & Ed & _ & _ & Hd & Hsh & Sp & Mp & F2).
  - exact IO.
  - exact FL.
  - rewrite Eds. assert (Inj : forall (g : F -> desc F) l, (forall x y, g x = g y -> x = y) -> NoDup l -> NoDup (map g l)).
    { intros g l0 Hi. induction 1 as [|x l0 Hx N IH]; cbn [map]; constructor; [|exact IH]. intros K. apply in_map_iff in K. destruct K as (y & Ey & Hy). apply Hi in Ey. now subst. }
    apply NoDup_app_intro; [apply Inj; [intros x y [= Q]; exact Q | exact Nl] | apply Inj; [intros x y [= Q]; exact Q | exact Nl]|].
    intros d K1 K2. apply in_map_iff in K1, K2. destruct K1 as (x & <- & _). destruct K2 as (y & K2 & _). discriminate K2.
  - apply Forall_forall. intros d Hd. apply Mds in Hd.
    assert (Pl : plain "honeycomb_EM3_v2" /\ plain "H" /\ plain "pymatching") by (repeat split; vm_compute; repeat split; reflexivity).
    destruct Hd as (n & _ & [->| ->]); (split; [exact Pl | cbn; lia]).
  - intros t d n Hd Hn. unfold ask. destruct (find (fun p => desc_eqb feqb d (fst p)) (example_problems lit)) as [[d' lay]|] eqn:Ef.
    + apply find_some in Ef. destruct Ef as [Hin K]. cbn [fst] in K. apply He in K. subst d'. unfold example_problems in Hin. apply in_map_iff in Hin. destruct Hin as (lay' & Q & Hl). injection Q as Q1 <-.
      assert (Dd : d_decoder d = "pymatching"%string) by (rewrite <- Q1; reflexivity). rewrite Dd.
      assert (Hv : valid lay' /\ supported_input lay').
      { unfold example_layouts in Hl. cbn [flat_map map app] in Hl. repeat (destruct Hl as [<-|Hl]; [split; [repeat split; reflexivity | split; [discriminate | split; [now right | right; right; right; now left]]]|]). destruct Hl. }
      destruct (batch_counts dem draw matcher internal clock lay' t n (proj1 Hv) (proj2 Hv) Hn) as (k & Ek & Lk).
      { intros c Ec. destruct (World lay' c Hl Ec) as (W1 & W2 & W3). split; [exact W1|]. split; [apply W2 | exact W3]. }
      exists k, (clock t). split; [exact Ek | exact Lk].
    + exfalso. unfold ds in Hd. apply in_map_iff in Hd. destruct Hd as (p & <- & Hp). apply (find_none _ _ Ef) in Hp. cbn beta in Hp. rewrite (proj2 (He (fst p) (fst p)) eq_refl) in Hp. discriminate.
  - cbn [min_shots max_shots example_params]. lia.
  - exact Logic.I.
  - exists [small_desc fzero; large_desc fzero]. split; [cbn; lia|]. intros d Hd'. apply Mds in Hd'. destruct Hd' as (n & _ & [->| ->]); [now left | right; now left].
  - assert (Ep : problems = [small_desc fzero; large_desc fzero]).
    { apply (sorted_is (desc_lt fleb)); [| exact Sp | |].
      - intros a b H1 H2. assert (St : forall s s', String.ltb s s' = true -> String.ltb s' s = true -> False) by (intros s s'; unfold String.ltb; rewrite (String.compare_antisym s' s); destruct (String.compare s s'); cbn; intros; discriminate).
        assert (Sr : forall s, String.ltb s s = true -> False) by (intros s H; exact (St s s H H)).
        unfold desc_lt in H1, H2. cbn [lexlt] in H1, H2.
        destruct H1 as [H1|[Q H1]]; [destruct H2 as [H2|[Q H2]]; lia|]. destruct H2 as [H2|[_ H2]]; [lia|]. clear Q.
        destruct H1 as [H1|[Q H1]]; [destruct H2 as [H2|[Q H2]]; lia|]. destruct H2 as [H2|[_ H2]]; [lia|]. clear Q.
        destruct H1 as [H1|[Q H1]]; [destruct H2 as [H2|[Q H2]]; lia|]. destruct H2 as [H2|[_ H2]]; [lia|]. clear Q.
        destruct H1 as [H1|[Q H1]]; [destruct H2 as [H2|[Q H2]]; lia|]. destruct H2 as [H2|[_ H2]]; [lia|]. clear Q.
        destruct H1 as [H1|[Q H1]]; [destruct H2 as [H2|[Q H2]]; lia|]. destruct H2 as [H2|[_ H2]]; [lia|]. clear Q.
        destruct H1 as [H1|[Q H1]]; [destruct H2 as [H2|[Q H2]]; [exact (As _ _ H1 H2) | apply (proj2 H1); now symmetry]|]. destruct H2 as [H2|[_ H2]]; [apply (proj2 H2); now symmetry|]. clear Q.
        destruct H1 as [H1|[Q H1]]; [destruct H2 as [H2|[Q H2]]; [exact (St _ _ H1 H2) | rewrite Q in H1; exact (Sr _ H1)]|]. destruct H2 as [H2|[_ H2]]; [rewrite Q in H2; exact (Sr _ H2)|]. clear Q.
        destruct H1 as [H1|[Q H1]]; [destruct H2 as [H2|[Q H2]]; [exact (St _ _ H1 H2) | rewrite Q in H1; exact (Sr _ H1)]|]. destruct H2 as [H2|[_ H2]]; [rewrite Q in H2; exact (Sr _ H2)|]. clear Q.
        destruct H1 as [H1|[Q H1]]; [destruct H2 as [H2|[Q H2]]; [exact (St _ _ H1 H2) | rewrite Q in H1; exact (Sr _ H1)]|]. exact H1.
      - repeat constructor.
      - intros k. rewrite Mp. cbn [In]. split.
        + intros (d & Hd' & ->). apply Mds in Hd'. destruct Hd' as (n & _ & [->| ->]); [now left | right; now left].
        + intros [<-|[<-|[]]]; [exists (small_desc (lit (1 # 1000))) | exists (large_desc (lit (1 # 1000)))]; (split; [apply Mds; exists (1 # 1000); split; [now left | auto] | reflexivity]). }
    subst problems. inversion F2 as [|? small ? rest C1 F2']. subst. inversion F2' as [|? large ? rest' C2 F2'']. subst. inversion F2''. subst.
    assert (Bn : forall k c (d : F -> desc F), curve_of fleb data k c -> (forall n, with_noise k n = d n) -> (forall n, In (d n) ds <-> In n (map lit example_noises)) -> map fst (c_band c) = map lit example_noises).
    { intros k c d Hc Hk Hn. apply (sorted_is (before fleb)); [exact As | apply (co_band_sorted _ _ _ _ Hc) | exact Srt|]. intros n. rewrite (co_band_all _ _ _ _ Hc), Hk, <- Hd. apply Hn. }
    exists f', small, large, data. split; [exact Er|]. split; [exact Ed|]. split; [rewrite (co_label _ _ _ _ C1); reflexivity|]. split; [rewrite (co_label _ _ _ _ C2); reflexivity|].
    split; [apply (Bn (small_desc fzero) small small_desc C1); [reflexivity|] | split; [apply (Bn (large_desc fzero) large large_desc C2); [reflexivity|]|]].
    + intros n. rewrite Mds, in_map_iff. split; [intros (m & Hm & [[= ->]|Q]); [exists m; auto | discriminate Q] | intros (m & <- & Hm); exists m; auto].
    + intros n. rewrite Mds, in_map_iff. split; [intros (m & Hm & [Q|[= ->]]); [discriminate Q | exists m; auto] | intros (m & <- & Hm); exists m; auto].
    + split; [exact C1|]. split; [exact C2|]. split; [intros d; rewrite <- Hd; apply Mds|].
      intros d s Hs. destruct (Hsh d s Hs) as (B1 & B2 & [B3|[(B3 & _)|(B3 & _)]]); cbn [min_shots max_shots min_seen_logical_errors example_params] in *; repeat split; try lia.
Qed.
Print Assumptions C86_main_example.

(** The hypotheses can be met: every circuit of the script has such an error model. *)
Definition instr_eq_dec (a b : instr) : {a = b} + {a <> b}.
Proof. repeat decide equality. Defined.
Fixpoint item_eq_dec (a b : item) {struct a} : {a = b} + {a <> b}.
Proof. decide equality; [apply instr_eq_dec | apply (list_eq_dec item_eq_dec) | apply Z.eq_dec]. Defined.
Lemma decomposed_same lay lay' c m : In lay example_layouts -> In lay' example_layouts -> decomposed lay c m -> decomposed lay' c m.
Proof.
  intros H H'. assert (W : forall l, In l example_layouts -> watches l = watches (mkLayout 4 6 30 "EM3_v2" "H" 0) /\ oidx l = 1%nat).
  { intros l Hl. unfold example_layouts in Hl. cbn [flat_map map app] in Hl. repeat (destruct Hl as [<-|Hl]; [split; reflexivity|]). destruct Hl. }
  destruct (W lay H) as [W1 O1]. destruct (W lay' H') as [W2 O2]. unfold decomposed, side_by_side, piece_of, shows. rewrite W1, W2, ?O1, ?O2. exact (fun x => x).
Qed.
Example C86_world : exists dem draw (matcher : circuit -> graph -> list bool -> list bool), forall lay c, In lay example_layouts -> generate_honeycomb_circuit lay = Ok c -> decomposed lay c (dem c) /\
     (forall (t : nat) n, exists a, draw t c n = Ok a /\ shots_for c n a) /\
     (forall h s, detector_error_model_to_pymatching_graph (dem c) = Ok h -> length (matcher c h s) = circuit_observables c).
Proof.
  assert (D : exists dem, forall lay c, In lay example_layouts -> generate_honeycomb_circuit lay = Ok c -> decomposed lay c (dem c)).
  { assert (G : forall ls, incl ls example_layouts -> exists dem, forall lay c, In lay ls -> generate_honeycomb_circuit lay = Ok c -> decomposed lay c (dem c)).
    { induction ls as [|lay0 ls IH]; intros Hi; [exists (fun _ => []); intros lay c []|]. destruct IH as (dem & Hdem); [intros x Hx; apply Hi; now right|].
      assert (H0 : In lay0 example_layouts) by (apply Hi; now left).
      assert (Hv : valid lay0 /\ supported_input lay0).
      { clear -H0. unfold example_layouts in H0. cbn [flat_map map app] in H0. repeat (destruct H0 as [<-|H0]; [split; [repeat split; reflexivity | split; [discriminate | split; [now right | right; right; right; now left]]]|]). destruct H0. }
      destruct (made lay0 (proj1 Hv) (proj2 Hv)) as (c0 & E0). destruct (C84_model_exists lay0 c0 (proj1 Hv) (proj2 Hv) E0) as (m & M1 & M2 & M3 & M4 & _).
      exists (fun c => if list_eq_dec item_eq_dec c c0 then m else dem c). intros lay c Hl E. destruct (list_eq_dec item_eq_dec c c0) as [->|Ne].
      - apply (decomposed_same lay0 lay); [exact H0 | now apply Hi | unfold decomposed; auto].
      - destruct Hl as [<-|Hl]; [congruence | now apply Hdem]. }
    exact (G example_layouts (fun x Hx => Hx)). }
  destruct D as (dem & Hdem).
  exists dem, (fun _ c n => Ok (mkA (repeat (repeat false (circuit_detectors c + circuit_observables c)) n) (circuit_detectors c + circuit_observables c))), (fun c _ _ => repeat false (circuit_observables c)).
  intros lay c Hl E. split; [exact (Hdem lay c Hl E)|]. split; [|intros h s _; apply repeat_length].
  intros _ n. eexists. split; [reflexivity|]. split; [reflexivity|]. split; [apply repeat_length|]. intros row Hr. apply repeat_spec in Hr. subst row. apply repeat_length.
Qed.
(** and numbers that are written and read back: integers, with thousandths as units. *)
Example C86_floats : exists lit : Q -> Z, StronglySorted (before Z.leb) (map lit example_noises) /\ linear_order Z.leb /\ float_io str_int parse_int Z.eqb /\ map lit example_noises = [1; 2; 3].
Proof.
  exists (fun q => Qround.Qfloor (q * 1000)). split; [|split; [exact Z_linear | split; [exact int_io | reflexivity]]]. cbn. repeat constructor; discriminate.
Qed.

(** ** The graph script *)
(** Whatever error model stim finds, as long as it splits errors into their parts on the
    two sides, write_honeycomb_networkx_graph.py gets a graph, without edges between the
    sides; its boundary node is numbered 152, after the detectors. *)
Theorem C86_written_graph : forall dem c, generate_honeycomb_circuit graph_layout = Ok c ->
  small_args (unrolled (dem c)) -> uncertain (reports (unrolled (dem c))) -> side_by_side graph_layout c (dem c) ->
  exists g, written_graph dem = Ok g /\ num_detectors (dem c) = 152%nat /\
    forall u v a, edge_data g u v = Some a -> exists side,
      (forall d, nth_error (detectors 0 0 0 0 (flatten c)) u = Some d -> watches graph_layout d = side) /\
      (forall d, nth_error (detectors 0 0 0 0 (flatten c)) v = Some d -> watches graph_layout d = side) /\
      (side = false -> e_qubit_id a = Some []).
Proof.
  intros dem c E H1 H2 H3. unfold written_graph. rewrite E. cbn [bind].
  assert (Hv : valid graph_layout) by (repeat split; reflexivity). assert (Hs : supported_input graph_layout) by (split; [discriminate|]; split; [now right | now left]).
  destruct (C84_built graph_layout c (dem c)) as (g & Eg & K); auto; [discriminate|].
  exists g. split; [exact Eg|]. split; [|exact K]. rewrite (proj1 H3), (proj1 (faulty_run graph_layout c Hv Hs E)).
  destruct (generated graph_layout Hv Hs) as (c1 & nm & c2 & E1 & _ & _ & _ & Fl & _). rewrite <- Fl.
  pose proof (proj1 (proj2 (C22_counts graph_layout c1 Hv Hs E1))) as Q. change (detector_count graph_layout) with 152 in Q. lia.
Qed.
Print Assumptions C86_written_graph.
Example C86_written_graph_example : exists dem c, generate_honeycomb_circuit graph_layout = Ok c /\ small_args (unrolled (dem c)) /\ uncertain (reports (unrolled (dem c))) /\ side_by_side graph_layout c (dem c).
Proof.
  assert (Hv : valid graph_layout) by (repeat split; reflexivity). assert (Hs : supported_input graph_layout) by (split; [discriminate|]; split; [now right | now left]).
  destruct (made graph_layout Hv Hs) as (c & E). destruct (C84_model_exists graph_layout c Hv Hs E) as (m & M1 & M2 & _ & M4 & _).
  exists (fun _ => m), c. auto.
Qed.
