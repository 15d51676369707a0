(** C87: what is shown and what is saved while data is collected (src/collect_data.py). *)
From Coq Require Import QArith.
From Verif Require Import Prelude Text Collect Console Prop_Collect.
Open Scope Z_scope.

Lemma notes_named {F} (fmt : F -> string) : forall (l : list (batch F)) p shown f, exists m j, (j <= m <= S j)%nat /\ (m <= length l)%nat /\
  (2 * length l <= p -> j = length l)%nat /\
  fold_left act (firstn p (flat_map (noting fmt true) l)) (shown, f) = (shown ++ map (record_line fmt) (firstn j l), fold_left append_line (map (record_line fmt) (firstn m l)) f).
Proof.
  induction l as [|b l IH]; intros p shown f.
  - exists 0%nat, 0%nat. cbn. rewrite firstn_nil, app_nil_r. repeat split; lia.
  - destruct p as [|[|p]].
    + exists 0%nat, 0%nat. cbn. rewrite app_nil_r. repeat split; lia.
    + exists 1%nat, 0%nat. cbn. rewrite app_nil_r. repeat split; lia.
    + destruct (IH p (shown ++ [record_line fmt b]) (append_line f (record_line fmt b))) as (m & j & H1 & H2 & H3 & H4). exists (S m), (S j). cbn [length].
      split; [lia|]. split; [lia|]. split; [lia|]. cbn [flat_map noting app firstn fold_left act map]. rewrite H4, <- app_assoc. reflexivity.
Qed.
Lemma notes_unnamed {F} (fmt : F -> string) : forall (l : list (batch F)) p shown f, exists j, (p = length l -> j = length l)%nat /\ 
  fold_left act (firstn p (flat_map (noting fmt false) l)) (shown, f) = (shown ++ map (record_line fmt) (firstn j l), f).
Proof.
  induction l as [|b l IH]; intros p shown f.
  - exists 0%nat. cbn. rewrite firstn_nil, app_nil_r. auto.
  - destruct p as [|p]; [exists 0%nat; cbn; rewrite app_nil_r; split; [discriminate|reflexivity]|].
    destruct (IH p (shown ++ [record_line fmt b]) f) as (j & H1 & H2). exists (S j). cbn [length]. split; [intros K; f_equal; apply H1; congruence|].
    cbn [flat_map noting app firstn fold_left act map]. rewrite H2, <- app_assoc. reflexivity.
Qed.
Lemma length_notes {F} (fmt : F -> string) named (l : list (batch F)) : length (flat_map (noting fmt named) l) = ((if named then 2 else 1) * length l)%nat.
Proof. induction l as [|b l IH]; [destruct named; reflexivity|]. cbn [flat_map]. rewrite app_length, IH. destruct named; cbn [noting app length]; lia. Qed.

(** Everything that happened, after all the steps. *)
Lemma all_noted {F} (fmt : F -> string) named discard f (l : list (batch F)) :
  happens (noted fmt named discard f l) f = (CSV_HEADER :: map (record_line fmt) l, if named then fold_left append_line (map (record_line fmt) l) (open_out discard f) else f).
Proof.
  unfold happens, noted. rewrite fold_left_app. destruct named.
  - assert (O : fold_left act (opening true discard f) ([], f) = ([CSV_HEADER], open_out discard f)) by (unfold opening, open_out; destruct discard, f; reflexivity). rewrite O.
    pose proof (length_notes fmt true l) as L; cbv iota in L. destruct (notes_named fmt l (length (flat_map (noting fmt true) l)) [CSV_HEADER] (open_out discard f)) as (m & j & H1 & H2 & H3 & H4).
    rewrite firstn_all in H4. rewrite H4. specialize (H3 ltac:(lia)). assert (m = length l) by lia. subst j m. rewrite firstn_all. reflexivity.
  - pose proof (length_notes fmt false l) as L; cbv iota in L. destruct (notes_unnamed fmt l (length (flat_map (noting fmt false) l)) [CSV_HEADER] f) as (j & H1 & H2).
    rewrite firstn_all in H2. cbn [opening fold_left act app]. rewrite H2, H1, firstn_all by lia. reflexivity.
Qed.
(** What happened up to some step. *)
Lemma some_noted {F} (fmt : F -> string) discard f (l : list (batch F)) p : exists shown now, happens (firstn p (noted fmt true discard f l)) f = (shown, now) /\
  ((shown = [] \/ shown = [CSV_HEADER]) /\ (now = f \/ now = Some ""%string /\ (discard = true \/ f = None)) \/
   exists m j, (j <= m <= S j)%nat /\ (m <= length l)%nat /\ shown = CSV_HEADER :: map (record_line fmt) (firstn j l) /\ now = fold_left append_line (map (record_line fmt) (firstn m l)) (open_out discard f)).
Proof.
  unfold happens, noted. rewrite firstn_app, fold_left_app.
  destruct (Nat.le_gt_cases (length (opening true discard f)) p) as [Hp|Hp].
  - rewrite (firstn_all2 (opening true discard f)) by exact Hp.
    assert (O : fold_left act (opening true discard f) ([], f) = ([CSV_HEADER], open_out discard f)) by (unfold opening, open_out; destruct discard, f; reflexivity). rewrite O.
    destruct (notes_named fmt l (p - length (opening true discard f)) [CSV_HEADER] (open_out discard f)) as (m & j & H1 & H2 & _ & H4). rewrite H4. eexists. eexists. split; [reflexivity|]. right. exists m, j. auto.
  - replace (p - length (opening true discard f))%nat with 0%nat by lia. cbn [firstn fold_left].
    assert (P3 : (p = 0 \/ p = 1 \/ p = 2)%nat) by (revert Hp; unfold opening; destruct discard, f; cbn; lia).
    destruct P3 as [-> | [-> | ->]]; [eexists; eexists; split; [reflexivity | left; auto] | eexists; eexists; split; [reflexivity | left; cbn; auto] |].
    revert Hp. unfold opening. destruct discard, f; cbn; intros Hp; try lia; eexists; eexists; (split; [reflexivity|]); left; auto.
Qed.

(** A finished call, by itself or by an exception: the screen shows the header and one line
    for every completed batch, whether there is a file or not; with a file the result is
    that of Collect.v (C39 - C42, C58), without one no file is touched. *)
Theorem C87_console : forall {F} (fmt : F -> string) P sample (ds : list (desc F)) named discard f steps o l t o',
  collect_steps fmt P sample ds named discard f = (steps, o) -> collect_problems P sample 0 ds = (l, t, o') ->
  o = o' /\ happens steps f = (CSV_HEADER :: map (record_line fmt) l, if named then fst (collect_simulated_experiment_data fmt P sample ds discard f) else f).
Proof.
  intros F fmt P sample ds named discard f steps o l t o' Es El. unfold collect_steps, collect_simulated_experiment_data in *. rewrite El in *. injection Es as <- <-. split; [reflexivity|]. apply all_noted.
Qed.
Print Assumptions C87_console.

(** Stopped at any moment: what the screen shows is in the file.  The records shown are
    the first j batches, the records saved (after those of earlier runs) the first m, and
    m is j or one more.  The file reads back as the totals of the old and these m batches. *)
Theorem C87_shown_is_saved : forall {F} (fmt : F -> string) parse fadd fzero feqb P sample (ds : list (desc F)) discard f bs steps o l t o' p shown now,
  float_io fmt parse feqb -> history fmt f bs -> Forall plain_desc ds ->
  collect_steps fmt P sample ds true discard f = (steps, o) -> collect_problems P sample 0 ds = (l, t, o') ->
  happens (firstn p steps) f = (shown, now) -> (2 <= length shown)%nat ->
  exists m j data, (j <= m <= S j)%nat /\ (m <= length l)%nat /\ shown = CSV_HEADER :: map (record_line fmt) (firstn j l) /\
    read_recorded_data parse fadd fzero feqb [now] = Ok data /\ totals fadd fzero feqb ((if discard then [] else bs) ++ firstn m l) data.
Proof.
  intros F fmt parse fadd fzero feqb P sample ds discard f bs steps o l t o' p shown now IO Hh Hp Es El Ew L2.
  unfold collect_steps in Es. rewrite El in Es. injection Es as <- <-.
  destruct (some_noted fmt discard f l p) as (shown' & now' & E & K). rewrite E in Ew. injection Ew as -> ->.
  destruct K as [[[-> | ->] _]|(m & j & H1 & H2 & H3 & H4)]; [cbn in L2; lia | cbn in L2; lia |].
  assert (H : holds fmt now ((if discard then [] else bs) ++ firstn m l)).
  { subst now. apply holds_append; [apply open_holds, history_holds, Hh|]. apply Forall_forall. intros b Hb. pose proof (collected_plain P sample ds 0 l t o' Hp El) as Hl. rewrite Forall_forall in Hl. apply Hl. rewrite <- (firstn_skipn m l). apply in_or_app. now left. }
  exists m, j, (fold_left (add_batch fadd fzero feqb) ((if discard then [] else bs) ++ firstn m l) []). split; [exact H1|]. split; [exact H2|]. split; [exact H3|].
  split; [unfold read_recorded_data; apply (holds_read fmt); assumption|]. change ((if discard then [] else bs) ++ firstn m l) with ([] ++ ((if discard then [] else bs) ++ firstn m l)) at 1. eapply totals_fold; [exact IO|apply totals_nil].
Qed.
Print Assumptions C87_shown_is_saved.

(** Stopped before that, the old file is still there, or was emptied on request, or is new;
    old data is lost only with discard_previous_data. *)
Theorem C87_old_data_kept : forall {F} (fmt : F -> string) P sample (ds : list (desc F)) f0 steps o p,
  collect_steps fmt P sample ds true false (Some f0) = (steps, o) ->
  exists more, snd (happens (firstn p steps) (Some f0)) = Some (f0 ++ more)%string.
Proof.
  intros F fmt P sample ds f0 steps o p Es. unfold collect_steps in Es. destruct (collect_problems P sample 0 ds) as [[l t] o'] eqn:El. injection Es as <- <-.
  destruct (some_noted fmt false (Some f0) l p) as (shown & now & -> & K). cbn [snd].
  destruct K as [(_ & [-> | (_ & [K | K])])|(m & j & _ & _ & _ & ->)]; try discriminate; [exists ""%string; now rewrite sapp_nil|].
  change (open_out false (Some f0)) with (Some f0). generalize (map (record_line fmt) (firstn m l)). intros ls. clear. revert f0. induction ls as [|x ls IH]; intros f0; [exists ""%string; now rewrite sapp_nil|].
  cbn [fold_left]. change (append_line (Some f0) x) with (Some (f0 ++ x ++ newline)%string). destruct (IH (f0 ++ x ++ newline)%string) as (more & ->). eexists. now rewrite sapp_assoc.
Qed.
Print Assumptions C87_old_data_kept.

(** The same for detection fractions. *)
Lemma detections_noted {F} (fmt : F -> string) samples (ds : list (desc F)) : forall t f l o, detection_batches samples t ds = (l, o) ->
  collect_detections fmt samples t ds f = (fold_left append_line (map (record_line fmt) l) f, o).
Proof.
  induction ds as [|d ds IH]; intros t f l o E; cbn [detection_batches collect_detections] in *; [injection E as <- <-; reflexivity|].
  destruct (samples t d) as [[[rows cols] x]|e]; [|injection E as <- <-; reflexivity]. destruct (detection_batches samples (S t) ds) as [l' o''] eqn:E'. injection E as <- <-.
  cbn [map fold_left]. now apply IH.
Qed.
(** One line for every problem sampled, in order, until one fails. *)
Theorem C87_detections : forall {F} (fmt : F -> string) samples (ds : list (desc F)) named discard f steps o,
  detection_steps fmt samples ds named discard f = (steps, o) ->
  exists l, happens steps f = (CSV_HEADER :: map (record_line fmt) l, if named then fst (collect_detection_fraction_data fmt samples ds discard f) else f) /\
    o = snd (collect_detection_fraction_data fmt samples ds discard f) /\
    (forall i b, nth_error l i = Some b -> exists d rows cols x, nth_error ds i = Some d /\ samples i d = Ok (rows, cols, x) /\ b = detection_batch d rows cols x) /\
    (o = Ok tt -> length l = length ds) /\ (forall e, o = Err e -> exists d, nth_error ds (length l) = Some d /\ samples (length l) d = Err e).
Proof.
  intros F fmt samples ds named discard f steps o Es. unfold detection_steps in Es. destruct (detection_batches samples 0 ds) as [l o1] eqn:El. injection Es as <- <-.
  exists l. unfold collect_detection_fraction_data. rewrite (detections_noted fmt samples ds 0 _ l o1 El). cbn [fst snd]. split; [apply all_noted|]. split; [reflexivity|].
  enough (G : forall ds t l o, detection_batches samples t ds = (l, o) ->
    (forall i b, nth_error l i = Some b -> exists d rows cols x, nth_error ds i = Some d /\ samples (t + i)%nat d = Ok (rows, cols, x) /\ b = detection_batch d rows cols x) /\
    (o = Ok tt -> length l = length ds) /\ (forall e, o = Err e -> exists d, nth_error ds (length l) = Some d /\ samples (t + length l)%nat d = Err e)) by exact (G ds 0%nat l o1 El).
  clear. induction ds as [|d ds IH]; intros t l o E; cbn [detection_batches] in E.
  - injection E as <- <-. split; [intros [|i] b K; discriminate|]. split; [reflexivity | discriminate].
  - destruct (samples t d) as [[[rows cols] x]|e] eqn:Q.
    + destruct (detection_batches samples (S t) ds) as [l' o'] eqn:E'. injection E as <- <-. destruct (IH _ _ _ E') as (H1 & H2 & H3). split; [|split].
      * intros [|i] b K; cbn [nth_error] in K |- *; [injection K as <-; exists d, rows, cols, x; rewrite Nat.add_0_r; auto|]. rewrite Nat.add_succ_r. now apply H1.
      * intros K. cbn [length]. now rewrite H2.
      * intros e K. cbn [length nth_error]. rewrite Nat.add_succ_r. now apply H3.
    + injection E as <- <-. split; [intros [|i] b K; discriminate|]. split; [discriminate|]. intros e' K. injection K as <-. exists d. cbn [length nth_error]. rewrite Nat.add_0_r. auto.
Qed.
Print Assumptions C87_detections.

Lemma detections_plain {F} samples (ds : list (desc F)) : Forall plain_desc ds -> forall t l o, detection_batches samples t ds = (l, o) -> Forall plain_batch l.
Proof.
  induction 1 as [|d ds (P1 & _ & _) _ IH]; intros t l o E; cbn [detection_batches] in E; [injection E as <- <-; constructor|].
  destruct (samples t d) as [[[rows cols] x]|e]; [|injection E as <- <-; constructor]. destruct (detection_batches samples (S t) ds) as [l' o'] eqn:E'. injection E as <- <-.
  constructor; [|exact (IH _ _ _ E')]. split; [exact P1|]. split; [apply plain_dash|apply plain_detection].
Qed.
Theorem C87_detections_saved : forall {F} (fmt : F -> string) parse fadd fzero feqb samples (ds : list (desc F)) discard f bs steps o p shown now,
  float_io fmt parse feqb -> history fmt f bs -> Forall plain_desc ds -> detection_steps fmt samples ds true discard f = (steps, o) ->
  happens (firstn p steps) f = (shown, now) -> (2 <= length shown)%nat ->
  exists l m j data, (j <= m <= S j)%nat /\ fst (happens steps f) = CSV_HEADER :: map (record_line fmt) l /\ (m <= length l)%nat /\ shown = CSV_HEADER :: map (record_line fmt) (firstn j l) /\
    read_recorded_data parse fadd fzero feqb [now] = Ok data /\ totals fadd fzero feqb ((if discard then [] else bs) ++ firstn m l) data.
Proof.
  intros F fmt parse fadd fzero feqb samples ds discard f bs steps o p shown now IO Hh Hp Es Ew L2.
  unfold detection_steps in Es. destruct (detection_batches samples 0 ds) as [l o1] eqn:El. injection Es as <- <-.
  destruct (some_noted fmt discard f l p) as (shown' & now' & E & K). rewrite E in Ew. injection Ew as -> ->.
  destruct K as [[[-> | ->] _]|(m & j & H1 & H2 & H3 & H4)]; [cbn in L2; lia | cbn in L2; lia |].
  assert (H : holds fmt now ((if discard then [] else bs) ++ firstn m l)).
  { subst now. apply holds_append; [apply open_holds, history_holds, Hh|]. apply Forall_forall. intros b Hb. pose proof (detections_plain samples ds Hp 0 l o1 El) as Hl. rewrite Forall_forall in Hl. apply Hl. rewrite <- (firstn_skipn m l). apply in_or_app. now left. }
  exists l, m, j, (fold_left (add_batch fadd fzero feqb) ((if discard then [] else bs) ++ firstn m l) []). split; [exact H1|]. split; [now rewrite all_noted|]. split; [exact H2|]. split; [exact H3|].
  split; [unfold read_recorded_data; apply (holds_read fmt); assumption|]. change ((if discard then [] else bs) ++ firstn m l) with ([] ++ ((if discard then [] else bs) ++ firstn m l)) at 1. eapply totals_fold; [exact IO|apply totals_nil].
Qed.
Print Assumptions C87_detections_saved.

(** A run appending to an existing file, stopped after its fourth step: the second batch is
    saved but not yet shown. *)
Example C87_example : exists steps o shown now, collect_steps str_int ex_params ex_sample [ex_desc2] true false ex_file1 = (steps, o) /\ happens (firstn 4 steps) ex_file1 = (shown, now) /\
  length shown = 2%nat /\ read_recorded_data parse_int Z.add 0 Z.eqb [now] = Ok [(ex_desc, mkShots 100 90 35); (ex_desc2, mkShots 130 117 49)] /\
  fst (happens steps None) = fst (happens (fst (collect_steps str_int ex_params ex_sample [ex_desc2] false false None)) None).
Proof. eexists. eexists. eexists. eexists. split; [vm_compute; reflexivity|]. split; [vm_compute; reflexivity|]. split; [reflexivity|]. split; vm_compute; reflexivity. Qed.
