(** C55 example, C59: the aggregation script. *)
From Coq Require Import QArith.
From Coq Require Import Ascii.
From Verif Require Import Prelude Text Layout LayoutFacts Collect Prop_Collect Prop_Collect2 Paper Prop_Paper Prop_Paper2.
Open Scope Z_scope.

Definition ex_entry (obs : string) (w : Z) (p : Q) (n : Z) : desc Q * shot_data Z :=
  (as_decoder_problem_desc (mkLayout (4 * w) (6 * w) (36 * w) "SD6" obs p) "internal", mkShots 100 (100 - n) 5).
Example C55_example :
  (exists groups, groups_from_data [ex_entry "V" 1 (1#100) 30; ex_entry "H" 1 (1#100) 31; ex_entry "V" 2 (2#200) 12; ex_entry "V" 1 (1#10) 50] = Ok groups /\
     length groups = 2%nat /\ option_map (fun g => (map fst (pairs_h g), map fst (pairs_v g))) (dget Qeq_bool (1#100) groups) = Some ([4], [4; 8])) /\
  ~ clash [ex_entry "V" 1 (1#100) 30; ex_entry "H" 1 (1#100) 31; ex_entry "V" 2 (2#200) 12; ex_entry "V" 1 (1#10) 50] /\
  clash [ex_entry "V" 1 (1#100) 30; ex_entry "H" 1 (1#100) 31; ex_entry "Z" 1 (2#200) 12].
Proof.
  split; [eexists; split; [vm_compute; reflexivity|]; split; reflexivity|]. split.
  - intros K. apply C55_groups in K. vm_compute in K. discriminate.
  - exists O, 2%nat. eexists _, _. split; [discriminate|]. split; [reflexivity|]. split; [reflexivity|]. split; [reflexivity|]. split; [|reflexivity].
    rewrite <- !hx_side_iff. vm_compute. split; discriminate.
Qed.

(** ** C59: aggregation *)
(** Tuples are compared at the first field where they differ. *)
Fixpoint lexlt (fields : list (Prop * Prop)) : Prop :=
  match fields with [] => False | (lt, eq) :: r => lt \/ eq /\ lexlt r end.
Definition desc_lt {F} (fleb : F -> F -> bool) (a b : desc F) : Prop :=
  let int (f : desc F -> Z) := (f a < f b, f a = f b) in
  let str (f : desc F -> string) := (String.ltb (f a) (f b) = true, f a = f b) in
  lexlt [int d_width; int d_height; int d_distance; int d_qubits; int d_rounds;
         (fleb (d_noise a) (d_noise b) = true /\ d_noise a <> d_noise b, d_noise a = d_noise b);
         str d_style; str d_obs; str d_decoder].
Definition linear_order {A} (leb : A -> A -> bool) : Prop :=
  (forall x y, leb x y = true \/ leb y x = true) /\ (forall x y z, leb x y = true -> leb y z = true -> leb x z = true) /\
  (forall x y, leb x y = true -> leb y x = true -> x = y).

Lemma Z_linear : linear_order Z.leb.
Proof. split; [|split]; intros; rewrite ?Z.leb_le in *; lia. Qed.
Lemma ascii_cmp_trans a b c : Ascii.compare a b <> Gt -> Ascii.compare b c <> Gt -> Ascii.compare a c <> Gt.
Proof. unfold Ascii.compare. rewrite !N.compare_le_iff. intros. etransitivity; eassumption. Qed.
Lemma string_leb_trans s : forall t u, String.leb s t = true -> String.leb t u = true -> String.leb s u = true.
Proof.
  assert (N : forall a b : ascii, Ascii.compare a b = Lt <-> (N_of_ascii a < N_of_ascii b)%N) by (intros; unfold Ascii.compare; apply N.compare_lt_iff).
  assert (E : forall a b : ascii, Ascii.compare a b = Eq <-> N_of_ascii a = N_of_ascii b) by (intros; unfold Ascii.compare; apply N.compare_eq_iff).
  assert (G : forall a b : ascii, Ascii.compare a b = Gt <-> (N_of_ascii b < N_of_ascii a)%N) by (intros; unfold Ascii.compare; apply N.compare_gt_iff).
  unfold String.leb. induction s as [|a s IH]; intros [|b t] [|c u]; cbn [String.compare]; try discriminate; auto.
  specialize (IH t u).
  destruct (Ascii.compare a b) eqn:E1; destruct (Ascii.compare b c) eqn:E2; destruct (Ascii.compare a c) eqn:E3; auto; try discriminate;
    rewrite ?N, ?E, ?G in *; intros; try lia; auto.
Qed.
Lemma string_linear : linear_order String.leb.
Proof.
  split; [|split].
  - intros x y. destruct (String.leb x y) eqn:A; [now left|right]. destruct (String.leb_total x y) as [K|K]; [congruence|exact K].
  - intros x y z. apply string_leb_trans.
  - intros x y. apply String.leb_antisym.
Qed.
Lemma lex_linear {A B} (eqb : A -> A -> bool) (la : A -> A -> bool) (lb : B -> B -> bool) :
  (forall a b, eqb a b = true <-> a = b) -> linear_order la -> linear_order lb ->
  linear_order (fun p q : A * B => lex eqb la (fst p) (fst q) (lb (snd p) (snd q))).
Proof.
  intros He (T1 & R1 & A1) (T2 & R2 & A2). unfold lex.
  assert (Hr : forall x, eqb x x = true) by (intros; now apply He).
  split; [|split].
  - intros [a x] [b y]. simpl. destruct (eqb a b) eqn:E.
    + apply He in E. subst. rewrite Hr. apply T2.
    + destruct (eqb b a) eqn:E'; [apply He in E'; subst; rewrite Hr in E; discriminate|]. apply T1.
  - intros [a x] [b y] [c z]. simpl. destruct (eqb a b) eqn:E1; destruct (eqb b c) eqn:E2; destruct (eqb a c) eqn:E3;
      repeat match goal with H : eqb _ _ = true |- _ => apply He in H end; subst; eauto; try (rewrite Hr in *; discriminate).
    intros K1 K2. exfalso. assert (b = c) by auto. subst. rewrite Hr in E2. discriminate.
  - intros [a x] [b y]. simpl. destruct (eqb a b) eqn:E1; destruct (eqb b a) eqn:E2;
      repeat match goal with H : eqb _ _ = true |- _ => apply He in H end; subst; try (rewrite Hr in *; discriminate).
    + intros. f_equal; auto.
    + intros K1 K2. exfalso. assert (a = b) by auto. subst. rewrite Hr in E1. discriminate.
Qed.

Section Agg.
  Context {F : Type} (fmt : F -> string) (parse : string -> option F) (fadd : F -> F -> F) (fzero : F) (feqb fleb : F -> F -> bool).
  Hypothesis IO : float_io fmt parse feqb.
  Hypothesis FL : linear_order fleb.

  Definition tup (d : desc F) := (d_width d, (d_height d, (d_distance d, (d_qubits d, (d_rounds d, (d_noise d, (d_style d, (d_obs d, (d_decoder d, tt))))))))).
  Lemma desc_linear : linear_order (desc_leb feqb fleb).
  Proof.
    assert (U : linear_order (fun _ _ : unit => true)) by (split; [auto|split; auto]; now intros [] []).
    pose proof (fun B (lb : B -> B -> bool) H => lex_linear Z.eqb Z.leb lb Z.eqb_eq Z_linear H) as LZ.
    pose proof (fun B (lb : B -> B -> bool) H => lex_linear String.eqb String.leb lb String.eqb_eq string_linear H) as LS.
    pose proof (fun B (lb : B -> B -> bool) H => lex_linear feqb fleb lb (proj2 (proj2 IO)) FL H) as LF.
    pose proof (LZ _ _ (LZ _ _ (LZ _ _ (LZ _ _ (LZ _ _ (LF _ _ (LS _ _ (LS _ _ (LS _ _ U))))))))) as (T & R & A).
    split; [|split].
    - intros x y. exact (T (tup x) (tup y)).
    - intros x y z. exact (R (tup x) (tup y) (tup z)).
    - intros x y H1 H2. assert (E : tup x = tup y) by exact (A (tup x) (tup y) H1 H2). destruct x, y. unfold tup in E. simpl in E. congruence.
  Qed.
  Lemma leb_lt a b : desc_leb feqb fleb a b = true -> a <> b -> desc_lt fleb a b.
  Proof.
    intros H Hne. unfold desc_leb, lex in H. unfold desc_lt. cbn [lexlt].
    repeat match type of H with (if ?c then _ else _) = true => let E := fresh "E" in destruct c eqn:E;
      [right; (rewrite Z.eqb_eq in E || rewrite String.eqb_eq in E || (apply IO in E)); split; [exact E|] | left] end.
    all: try match goal with N : (_ =? _) = false |- _ => apply Z.eqb_neq in N; apply Z.leb_le in H; lia end.
    all: try (unfold String.ltb; unfold String.leb in H;
      match goal with |- context [String.compare ?x ?y] => destruct (String.compare x y) eqn:C; [|reflexivity|discriminate]; apply String.compare_eq_iff in C end;
      match goal with N : (_ =? _)%string = false |- _ => apply String.eqb_neq in N; congruence end).
    - exfalso. apply Hne. destruct a, b. simpl in *. congruence.
    - split; [exact H|]. intros K. apply IO in K. congruence.
  Qed.

  Lemma rows_NoDup names ls : forall data data', read_rows parse fadd fzero feqb names data ls = Ok data' -> NoDup (map fst data) -> NoDup (map fst data').
  Proof.
    induction ls as [|l ls IH]; intros data data'; cbn [read_rows]; [now intros [= <-]|].
    destruct (l =? "")%string; [apply IH|]. destruct (read_row _ _ _ _ _ _ _) as [d1|e] eqn:E; [|discriminate]. cbn [bind]. intros H Hn. eapply IH; [exact H|].
    unfold read_row in E. repeat match type of E with bind ?m _ = _ => let X := fresh in destruct m as [X|]; [cbn [bind] in E|discriminate] end.
    injection E as <-. apply dupd_NoDup; [apply (desc_eqb_iff feqb (proj2 (proj2 IO)))|exact Hn].
  Qed.
  Lemma files_NoDup fs : forall data data', read_files parse fadd fzero feqb data fs = Ok data' -> NoDup (map fst data) -> NoDup (map fst data').
  Proof.
    induction fs as [|[t|] fs IH]; intros data data'; cbn [read_files]; [now intros [= <-]| |discriminate].
    destruct (read_file _ _ _ _ _ _) as [d1|e] eqn:E; [|discriminate]. cbn [bind]. intros H Hn. eapply IH; [exact H|].
    unfold read_file in E. destruct (lines t); [injection E as <-; exact Hn|]. eapply rows_NoDup; eauto.
  Qed.

  Lemma add_items l : (forall x, fadd fzero x = x) -> forall acc, NoDup (map fst (acc ++ l)) ->
    fold_left (add_batch fadd fzero feqb) (map item_batch l) acc = acc ++ l.
  Proof.
    intros Hz. induction l as [|[d s] l IH]; intros acc Hn; cbn [map fold_left]; [now rewrite app_nil_r|].
    change ((d, s) :: l) with ([(d, s)] ++ l) in *. rewrite app_assoc in *. rewrite <- IH by exact Hn. f_equal.
    unfold add_batch. cbn [item_batch b_desc fst snd b_shots b_correct b_secs].
    assert (Hd : ~ In d (map fst acc)).
    { rewrite !map_app in Hn. apply NoDup_app_inv in Hn as (Hn & _). apply NoDup_app_inv in Hn as (_ & _ & Hn). intros K. apply (Hn d K). now left. }
    clear -Hd Hz IO. induction acc as [|[k v] acc IH]; simpl.
    - unfold add_shots. cbn. rewrite Hz. destruct s as [n c x]. reflexivity.
    - destruct (desc_eqb feqb d k) eqn:E; [apply (desc_eqb_iff feqb (proj2 (proj2 IO))) in E; subst; exfalso; apply Hd; now left|]. f_equal. apply IH. intros K. apply Hd. now right.
  Qed.
End Agg.

(** The aggregated file reads back as exactly the data of the input files, one row per
    description, in increasing order; and aggregating it again changes nothing. *)
Theorem C59_aggregate : forall F (fmt : F -> string) parse fadd fzero feqb fleb csvs data,
  float_io fmt parse feqb -> linear_order fleb -> (forall x, fadd fzero x = x) ->
  csvs <> [] -> read_recorded_data parse fadd fzero feqb csvs = Ok data -> Forall (fun i => plain_desc (fst i)) data ->
  exists out data', aggregate fmt parse fadd fzero feqb fleb csvs = Ok out /\
    lines out = CSV_HEADER :: map (fun i => record_line fmt (mkBatch (fst i) (num_shots (snd i)) (num_correct (snd i)) (total_processing_seconds (snd i)))) data' /\
    read_recorded_data parse fadd fzero feqb [Some out] = Ok data' /\
    Permutation data data' /\ StronglySorted (desc_lt fleb) (map fst data') /\
    aggregate fmt parse fadd fzero feqb fleb [Some out] = Ok out.
Proof.
  intros F fmt parse fadd fzero feqb fleb csvs data IO FL Hz Hne Hr Hp.
  assert (Hn : NoDup (map fst data)) by (eapply (files_NoDup fmt); [exact IO|exact Hr|constructor]).
  set (data' := sorted_items feqb fleb data).
  assert (P : Permutation data data') by apply isort_perm.
  assert (Hn' : NoDup (map fst data')) by (eapply Permutation_NoDup; [apply Permutation_map, P|exact Hn]).
  assert (Hp' : Forall plain_batch (map item_batch data')).
  { apply Forall_forall. intros b (i & <- & Hi)%in_map_iff. apply (Permutation_in _ (Permutation_sym P)) in Hi. rewrite Forall_forall in Hp. apply (Hp i Hi). }
  destruct (desc_linear fmt parse feqb fleb IO FL) as (LT & LR & LA).
  assert (S : StronglySorted (le_ (fun a b : desc F * shot_data F => desc_leb feqb fleb (fst a) (fst b))) data').
  { unfold data', sorted_items. apply isort_sorted; intros; [apply LT|eapply LR; eassumption]. }
  assert (Hold : holds fmt (fold_left append_line (CSV_HEADER :: map (fun i => record_line fmt (item_batch i)) data') None) (map item_batch data')).
  { cbn [fold_left]. rewrite <- (map_map item_batch (record_line fmt)). apply (holds_append fmt _ []); [apply holds_new|exact Hp']. }
  pose proof (proj1 Hold) as Ho. 
  set (out := text_of (CSV_HEADER :: map (record_line fmt) (map item_batch data'))) in *.
  assert (RB : read_recorded_data parse fadd fzero feqb [Some out] = Ok data').
  { rewrite Ho in Hold. unfold read_recorded_data. etransitivity; [apply (holds_read fmt parse fadd fzero feqb IO _ _ [] Hold)|]. f_equal. apply (add_items fmt parse fadd fzero feqb IO data' Hz []). exact Hn'. }
  assert (AG : forall fs d, fs <> [] -> read_recorded_data parse fadd fzero feqb fs = Ok d -> sorted_items feqb fleb d = data' -> aggregate fmt parse fadd fzero feqb fleb fs = Ok out).
  { intros fs d Hf Hd Hs. unfold aggregate. destruct fs; [congruence|]. rewrite Hd. cbn [bind]. rewrite Hs, Ho. reflexivity. }
  exists out, data'. split; [apply (AG csvs data); auto|]. split; [|split; [exact RB|split; [exact P|split]]].
  - unfold out. rewrite lines_text, map_map; [reflexivity|]. constructor; [repeat split; reflexivity|].
    apply Forall_forall. intros s (b & <- & Hb)%in_map_iff. eapply line_free; [exact IO|]. rewrite Forall_forall in Hp'. auto.
  - clear -S Hn' IO. induction data' as [|i l IH]; [constructor|]. simpl in *. inversion Hn' as [|? ? N1 N2]; subst. inversion S as [|? ? S1 S2]; subst. constructor; [now apply IH|].
    apply Forall_forall. intros d (j & <- & Hj)%in_map_iff. rewrite Forall_forall in S2. apply (leb_lt fmt parse feqb fleb IO); [apply (S2 j Hj)|].
    intros K. apply N1. rewrite K. now apply in_map.
  - apply (AG [Some out] data'); [discriminate|exact RB|]. unfold sorted_items. symmetry. eapply sorted_unique; [|exact S|apply isort_sorted; intros; [apply LT|eapply LR; eassumption]|apply isort_perm].
    intros x y Hx Hy K1 K2. assert (E : fst x = fst y) by (apply LA; assumption).
    clear -E Hx Hy Hn'. induction data' as [|i l IH]; [destruct Hx|]. simpl in Hn'. inversion Hn' as [|? ? N1 N2]; subst.
    destruct Hx as [<-|Hx], Hy as [<-|Hy]; [reflexivity| | |now apply IH].
    + exfalso. apply N1. rewrite E. now apply in_map.
    + exfalso. apply N1. rewrite <- E. now apply in_map.
Qed.
Print Assumptions C59_aggregate.
Example C59_example :
  let f1 := fst (collect_simulated_experiment_data str_int ex_params ex_sample [ex_desc2; ex_desc] false None) in
  let f2 := fst (collect_simulated_experiment_data str_int ex_params ex_sample [ex_desc] true f1) in
  float_io str_int parse_int Z.eqb /\ linear_order Z.leb /\ (forall x, 0 + x = x) /\
  exists data data' out, read_recorded_data parse_int Z.add 0 Z.eqb [f1; f2] = Ok data /\ Forall (fun i => plain_desc (fst i)) data /\
    map fst data = [ex_desc2; ex_desc] /\
    aggregate str_int parse_int Z.add 0 Z.eqb Z.leb [f1; f2] = Ok out /\
    read_recorded_data parse_int Z.add 0 Z.eqb [Some out] = Ok data' /\ map fst data' = [ex_desc; ex_desc2].
Proof.
  split; [apply int_io|]. split; [apply Z_linear|]. split; [reflexivity|].
  eexists _, _, _. split; [vm_compute; reflexivity|]. split; [repeat constructor|]. split; [reflexivity|].
  split; [vm_compute; reflexivity|]. split; [vm_compute; reflexivity|]. reflexivity.
Qed.
