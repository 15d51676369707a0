(** C72: the detection fraction figure and the markers of the line fit figure. *)
From Coq Require Import QArith.
From Coq Require Import Reals Lra.
From Coq Require Import Ascii.
From Verif Require Import Prelude Layout LayoutFacts Collect Prop_Collect Prop_Collect2 Prob Prop_Prob2 Paper Prop_Paper Prop_Paper2 Prop_Paper3 PaperFit Prop_PaperFit Plot Prop_Plot Prop_Plot2.
Open Scope Z_scope.

Section Noises.
  Context {F : Type} (feqb fleb : F -> F -> bool) (Hf : forall a b, feqb a b = true <-> a = b) (FL : linear_order fleb).
  (** The noise values that occur in the data, each once, in increasing order. *)
  Definition noise_values (data : problem_data F) (noises : list F) : Prop :=
    StronglySorted (before fleb) noises /\ forall x, In x noises <-> exists d s, In (d, s) data /\ d_noise d = x.
  Lemma in_dedup x l : In x (dedup feqb l) <-> In x l.
  Proof.
    induction l as [|y l IH]; [reflexivity|]. cbn [dedup]. destruct (existsb (feqb y) l) eqn:E; cbn [In]; rewrite IH; [|reflexivity].
    split; [tauto|]. intros [<-|H]; [|exact H]. apply existsb_exists in E as (z & Hz & Ez). apply Hf in Ez. now subst.
  Qed.
  Lemma dedup_nodup l : NoDup (dedup feqb l).
  Proof.
    induction l as [|y l IH]; [constructor|]. cbn [dedup]. destruct (existsb (feqb y) l) eqn:E; [exact IH|]. constructor; [|exact IH]. rewrite in_dedup. intros H.
    assert (existsb (feqb y) l = true) by (apply existsb_exists; exists y; split; [exact H|now apply Hf]). congruence.
  Qed.
  Lemma all_noises_values data : noise_values data (all_noises feqb fleb data).
  Proof.
    destruct FL as (T & Tr & A). split.
    - unfold all_noises. set (l := dedup _ _). assert (N : NoDup (isort fleb l)) by (apply NoDup_isort, dedup_nodup). pose proof (isort_sorted fleb T Tr l) as S. revert N S. generalize (isort fleb l). intros m N S.
      induction S as [|a m S IH H]; [constructor|]. inversion N; subst. constructor; [auto|]. rewrite Forall_forall in H |- *. intros b Hb. assert (L := H b Hb). split; [exact L|]. intros ->. auto.
    - intros x. unfold all_noises. rewrite in_isort, in_dedup, in_map_iff. split; [intros ([d s] & <- & H); eauto|intros (d & s & H & <-); exists (d, s); auto].
  Qed.
  Lemma position_nth x l : NoDup l -> forall i, position feqb x l = Some i <-> nth_error l i = Some x.
  Proof.
    induction l as [|y l IH]; intros N i; [cbn; destruct i; split; discriminate|]. inversion N as [|? ? N1 N2]; subst. cbn [position]. destruct (feqb x y) eqn:E.
    - apply Hf in E. subst y. split; [intros [= <-]; reflexivity|]. destruct i as [|i]; [reflexivity|]. cbn [nth_error]. intros H. apply nth_error_In in H. contradiction.
    - destruct i as [|i]; cbn [nth_error].
      + split; [destruct (position feqb x l); discriminate|]. intros [= ->]. rewrite (proj2 (Hf x x) eq_refl) in E. discriminate.
      + rewrite <- IH by exact N2. destruct (position feqb x l); cbn [option_map]; split; congruence.
  Qed.
  Lemma sorted_before_nodup l : StronglySorted (before fleb) l -> NoDup l.
  Proof. induction 1 as [|a l S IH H]; constructor; [|exact IH]. intros K. rewrite Forall_forall in H. destruct (H a K). congruence. Qed.
End Noises.

Lemma few_at i : 0 <= i < 16 -> exists m c, py_index few_markers i = Ok m /\ py_index curve_colors i = Ok c.
Proof.
  intros Hi. destruct (nth_error few_markers (Z.to_nat i)) as [m|] eqn:E1; [|apply nth_error_None in E1; change (length few_markers) with 16%nat in E1; lia].
  destruct (nth_error curve_colors (Z.to_nat i)) as [c|] eqn:E2; [|apply nth_error_None in E2; change (length curve_colors) with 30%nat in E2; lia].
  exists m, c. split; apply py_index_nth; auto; lia.
Qed.
Lemma few_past i : 16 <= i -> py_index few_markers i = Err IndexError.
Proof. intros Hi. apply py_index_past. exact Hi. Qed.
Lemma few_distinct : NoDup few_markers.
Proof. unfold few_markers. cbn. repeat (constructor; [cbn [In]; intuition discriminate|]). constructor. Qed.

Lemma nth_error_first {A} (l : list A) : forall n i, (i < n)%nat -> nth_error (firstn n l) i = nth_error l i.
Proof. induction l as [|a l IH]; intros [|n] [|i] H; try lia; try reflexivity; cbn [firstn nth_error]. apply IH. lia. Qed.
Lemma mapM_raise {A B} (f : A -> res B) e l : (forall a, In a l -> f a = Err e \/ exists b, f a = Ok b) -> (exists a, In a l /\ f a = Err e) -> mapM f l = Err e.
Proof.
  induction l as [|a l IH]; intros H (x & Hx & E); [destruct Hx|]. cbn [mapM]. destruct (H a (or_introl eq_refl)) as [->|(b & Eb)]; [reflexivity|]. rewrite Eb. cbn [bind].
  rewrite IH; [reflexivity|intros y Hy; apply H; now right|]. destruct Hx as [->|Hx]; [congruence|eauto].
Qed.
Lemma mapM_cases {A B} (f : A -> res B) e l : (forall a, In a l -> f a = Err e \/ exists b, f a = Ok b) -> mapM f l = Err e \/ exists bs, mapM f l = Ok bs.
Proof.
  induction l as [|a l IH]; intros H; [right; exists []; reflexivity|]. cbn [mapM]. destruct (H a (or_introl eq_refl)) as [->|(b & Eb)]; [now left|]. rewrite Eb. cbn [bind].
  destruct IH as [->|(bs & ->)]; [intros y Hy; apply H; now right|now left|right; cbn [bind]; eauto].
Qed.
Lemma mapM_all {A B} (f : A -> res B) l : (forall a, In a l -> exists b, f a = Ok b) -> exists bs, mapM f l = Ok bs.
Proof.
  induction l as [|a l IH]; intros H; [exists []; reflexivity|]. destruct (H a (or_introl eq_refl)) as (b & Eb). destruct IH as (bs & E); [intros y Hy; apply H; now right|].
  exists (b :: bs). cbn [mapM]. rewrite Eb. cbn [bind]. rewrite E. reflexivity.
Qed.
Lemma mapM_map {A B C} (f : A -> res B) (g : A -> C) (h : B -> C) l : (forall a b, In a l -> f a = Ok b -> h b = g a) -> forall bs, mapM f l = Ok bs -> map h bs = map g l.
Proof.
  induction l as [|a l IH]; intros H bs; cbn [mapM]; [intros [= <-]; reflexivity|]. destruct (f a) as [b|] eqn:E; [|discriminate]. cbn [bind]. destruct (mapM f l) as [bs'|] eqn:E'; [|discriminate]. cbn [bind]. intros [= <-].
  cbn [map]. rewrite (H a b (or_introl eq_refl) E), (IH (fun x y Hx => H x y (or_intror Hx)) bs' eq_refl). reflexivity.
Qed.
Lemma mapM_in {A B} (f : A -> res B) l : forall bs b, mapM f l = Ok bs -> In b bs -> exists a, In a l /\ f a = Ok b.
Proof.
  induction l as [|a l IH]; intros bs b; cbn [mapM]; [intros [= <-] []|]. destruct (f a) as [y|] eqn:E; [|discriminate]. cbn [bind]. destruct (mapM f l) as [bs'|] eqn:E'; [|discriminate]. cbn [bind]. intros [= <-] [<-|H].
  - exists a. split; [now left|exact E].
  - destruct (IH bs' b eq_refl H) as (a' & Ha & Ea). exists a'. split; [now right|exact Ea].
Qed.

(** The line of one noise value in the panel of a style: the points are the recorded
    (distance, rate) pairs of that style and noise, in the order of the record; marker and
    colour are the ones numbered like the noise value among all values of the data. *)
Record line_of {F} (feqb : F -> F -> bool) (data : problem_data F) (noises : list F) (style : string) (noise : F) (l : line F) : Prop := {
  lo_noise : n_noise l = noise;
  lo_points : n_points l = map (fun e => (d_distance (fst e), rate (snd e))) (filter (fun e => (d_style (fst e) =? style)%string && feqb (d_noise (fst e)) noise) data);
  lo_style : exists i, nth_error noises i = Some noise /\ nth_error (list_ascii_of_string "ov*sp^<>8P+xXDd|") i = Some (n_marker l) /\ nth_error (TABLEAU_COLORS ++ TABLEAU_COLORS) i = Some (n_color l) }.
Definition occurs {F} (data : problem_data F) (style : string) (noise : F) : Prop := exists d s, In (d, s) data /\ d_style d = style /\ d_noise d = noise.
(** If every noise value of a plotted style is among the sixteen smallest, the figure is
    drawn: each style's panel has one line per noise value, in increasing order.  If not,
    IndexError. *)
Theorem C72_detection : forall F (feqb fleb : F -> F -> bool) data, (forall a b, feqb a b = true <-> a = b) -> linear_order fleb -> NoDup (map fst data) ->
  exists noises, noise_values fleb data noises /\
    ((forall style noise, In style (map fst detection_styles) -> occurs data style noise -> In noise (firstn 16 noises)) ->
       exists fig, plot_detection_fraction feqb fleb data = Ok fig /\ map fst fig = map snd detection_styles /\
         forall i style title ls, nth_error detection_styles i = Some (style, title) -> nth_error fig i = Some (title, ls) ->
           StronglySorted (before fleb) (map n_noise ls) /\ (forall noise, In noise (map n_noise ls) <-> occurs data style noise) /\
           forall l, In l ls -> line_of feqb data noises style (n_noise l) l) /\
    ((exists style noise, In style (map fst detection_styles) /\ occurs data style noise /\ ~ In noise (firstn 16 noises)) ->
       plot_detection_fraction feqb fleb data = Err IndexError).
Proof.
  intros F feqb fleb data Hf FL N. exists (all_noises feqb fleb data). destruct (all_noises_values feqb fleb Hf FL data) as [V1 V2]. set (noises := all_noises feqb fleb data) in *. split; [split; assumption|].
  assert (ND : NoDup noises) by (eapply sorted_before_nodup; exact V1).
  pose (groups style := grouped_by feqb feqb fleb d_noise (filter (fun e => (d_style (fst e) =? style)%string) data)).
  assert (LK : forall style, group_or_empty String.eqb style (grouped_by feqb String.eqb String.leb d_style data) = filter (fun e => (d_style (fst e) =? style)%string) data) by (intros style; apply group_lookup; [exact Hf|apply String.eqb_eq|exact N]).
  assert (GS : forall style, StronglySorted (before fleb) (map fst (groups style)) /\ (forall n g, In (n, g) (groups style) <-> g <> [] /\ g = filter (fun e => (d_style (fst e) =? style)%string && feqb (d_noise (fst e)) n) data)).
  { intros style. destruct (C43_grouped_by feqb feqb fleb d_noise (filter (fun e => (d_style (fst e) =? style)%string) data) Hf Hf (NoDup_filter_fst _ _ N)) as (A1 & A2 & _ & _ & A5). destruct FL as (T & Tr & A). specialize (A5 T Tr).
    fold (groups style) in A1, A2, A5. split.
    - revert A1 A5. generalize (map fst (groups style)). intros m M1 M2. induction M2 as [|a m S IH H]; [constructor|]. inversion M1; subst. constructor; [auto|]. rewrite Forall_forall in H |- *. intros b Hb. split; [auto|]. intros ->. auto.
    - intros n g. rewrite A2. assert (EF : filter (fun e : desc F * shot_data F => feqb (d_noise (fst e)) n) (filter (fun e => (d_style (fst e) =? style)%string) data) = filter (fun e => (d_style (fst e) =? style)%string && feqb (d_noise (fst e)) n) data).
      { clear. induction data as [|e data IH]; [reflexivity|]. cbn [filter]. destruct (d_style (fst e) =? style)%string; cbn [filter andb]; [|exact IH]. destruct (feqb _ _); now rewrite IH. }
      now rewrite EF. }
  assert (OC : forall style n, In n (map fst (groups style)) <-> occurs data style n).
  { intros style n. rewrite in_map_iff. split.
    - intros ([n' g] & <- & H). apply GS in H as [H1 H2]. destruct g as [|[d s] g]; [congruence|]. assert (K : In (d, s) ((d, s) :: g)) by now left. rewrite H2 in K. apply filter_In in K as [K1 K2]. apply andb_true_iff in K2 as [K2 K3].
      apply String.eqb_eq in K2. apply Hf in K3. exists d, s. auto.
    - intros (d & s & H & E1 & E2). exists (n, filter (fun e => (d_style (fst e) =? style)%string && feqb (d_noise (fst e)) n) data). split; [reflexivity|]. apply GS. split; [|reflexivity].
      intros K. assert (X : In (d, s) (filter (fun e => (d_style (fst e) =? style)%string && feqb (d_noise (fst e)) n) data)); [|rewrite K in X; destruct X].
      apply filter_In. split; [exact H|]. cbn [fst]. apply andb_true_iff. split; [now apply String.eqb_eq|now apply Hf]. }
  assert (RK : forall style n, occurs data style n -> exists i, nth_error noises i = Some n /\ p2i feqb fleb data n = Ok (Z.of_nat i)).
  { intros style n (d & s & H & _ & E). assert (K : In n noises) by (apply V2; eauto). apply In_nth_error in K as (i & K). exists i. split; [exact K|]. unfold p2i. fold noises. now rewrite (proj2 (position_nth feqb Hf n noises ND i) K). }
  assert (Nfirst : forall i n, nth_error noises i = Some n -> (In n (firstn 16 noises) <-> (i < 16)%nat)).
  { intros i n H. split.
    - intros K. apply In_nth_error in K as (j & K). assert (j < 16)%nat by (assert (J : (j < length (firstn 16 noises))%nat) by (apply nth_error_Some; congruence); rewrite firstn_length in J; lia).
      rewrite nth_error_first in K by assumption. assert (i = j); [|lia]. eapply NoDup_nth_error; [exact ND|apply nth_error_Some; congruence|congruence].
    - intros L. apply (nth_error_In _ i). rewrite nth_error_first by exact L. exact H. }
  assert (DL : forall style n g, In (n, g) (groups style) -> exists i, nth_error noises i = Some n /\
             ((i < 16)%nat -> exists l, detection_line feqb fleb data n g = Ok l /\ line_of feqb data noises style n l) /\ ((16 <= i)%nat -> detection_line feqb fleb data n g = Err IndexError)).
  { intros style n g H. destruct (RK style n) as (i & Hi & P); [apply OC; apply (in_map fst) in H; exact H|]. exists i. split; [exact Hi|]. unfold detection_line. rewrite P. cbn [bind]. split; intros L.
    - destruct (few_at (Z.of_nat i)) as (m & c & Em & Ec); [lia|]. rewrite Em, Ec. cbn [bind]. eexists. split; [reflexivity|]. apply GS in H as [_ ->]. split; cbn [n_noise n_points n_marker n_color].
      + reflexivity.
      + apply map_ext. now intros [].
      + exists i. split; [exact Hi|]. apply py_index_inv in Em, Ec; try lia. rewrite Nat2Z.id in Em, Ec. split; [exact Em|]. unfold curve_colors, repeated in Ec. cbn [repeat concat] in Ec. rewrite app_assoc in Ec.
        rewrite nth_error_app1 in Ec; [exact Ec|]. rewrite app_length. change (length TABLEAU_COLORS) with 10%nat. lia.
    - rewrite few_past by lia. reflexivity. }
  unfold plot_detection_fraction.
  set (panel := fun st : string * string => let '(style, title) := st in let! ls := mapM (fun '(noise, vals) => detection_line feqb fleb data noise vals) (grouped_by feqb feqb fleb d_noise (group_or_empty String.eqb style (grouped_by feqb String.eqb String.leb d_style data))) in Ok (title, ls)).
  change (mapM _ detection_styles) with (mapM panel detection_styles).
  assert (PE : forall style title, panel (style, title) = let! ls := mapM (fun x => detection_line feqb fleb data (fst x) (snd x)) (groups style) in Ok (title, ls)).
  { intros style title. unfold panel. rewrite LK. fold (groups style). assert (X : forall l, mapM (fun '(noise, vals) => detection_line feqb fleb data noise vals) l = mapM (fun x => detection_line feqb fleb data (fst x) (snd x)) l); [|now rewrite X].
    induction l as [|[n g] l IH]; [reflexivity|]. cbn [mapM fst snd]. now rewrite IH. }
  split.
  - intros All.
    assert (PO : forall style title, In style (map fst detection_styles) -> exists ls, panel (style, title) = Ok (title, ls) /\ map n_noise ls = map fst (groups style) /\ forall l, In l ls -> line_of feqb data noises style (n_noise l) l).
    { intros style title Hs. rewrite PE. assert (D : forall x, In x (groups style) -> exists l, detection_line feqb fleb data (fst x) (snd x) = Ok l /\ line_of feqb data noises style (fst x) l).
      { intros [n g] H. destruct (DL style n g H) as (i & Hi & D & _). apply D. apply (Nfirst i n Hi). apply (All style); [exact Hs|]. apply OC. apply (in_map fst) in H. exact H. }
      destruct (mapM_all (fun x => detection_line feqb fleb data (fst x) (snd x)) (groups style)) as (ls & E); [intros x Hx; destruct (D x Hx) as (l & El & _); eauto|]. rewrite E. cbn [bind]. exists ls. split; [reflexivity|]. split.
      - apply (mapM_map _ fst n_noise _) with (bs := ls) in E; [exact E|]. intros x l Hx El. destruct (D x Hx) as (l' & El' & LO). assert (l' = l) by congruence. subst. apply LO.
      - intros l Hl. destruct (mapM_in _ _ _ _ E Hl) as (x & Hx & El). destruct (D x Hx) as (l' & El' & LO). assert (l' = l) by congruence. subst. rewrite (lo_noise _ _ _ _ _ _ LO). exact LO. }
    destruct (mapM_all panel detection_styles) as (fig & E); [intros [style title] H; destruct (PO style title) as (ls & E & _); [apply (in_map fst) in H; exact H|eauto]|].
    exists fig. split; [exact E|]. split; [apply (mapM_map panel snd fst) in E; [exact E|]; intros [style title] b H Eb; destruct (PO style title) as (ls & E' & _); [apply (in_map fst) in H; exact H|]; rewrite E' in Eb; injection Eb as <-; reflexivity|].
    intros i style title ls Hs Hl. pose proof (mapM_nth panel _ _ i E) as K. rewrite Hs in K. destruct K as (b & Kb & Eb). assert (b = (title, ls)) by congruence. subst b.
    destruct (PO style title) as (ls' & E' & M & LO); [apply nth_error_In in Hs; apply (in_map fst) in Hs; exact Hs|]. rewrite E' in Eb. injection Eb as ->. rewrite M. split; [apply GS|]. split; [intros n; apply OC|exact LO].
  - intros (style & n & Hs & Ho & Hn). apply in_map_iff in Hs as ([style' title] & Es & Hs). cbn [fst] in Es. subst style'. apply mapM_raise.
    + intros [style' title'] _. rewrite PE. destruct (mapM _ (groups style')) as [ls|e] eqn:E; cbn [bind]; [right; eauto|left].
      destruct (mapM_cases (fun x => detection_line feqb fleb data (fst x) (snd x)) IndexError (groups style')) as [K|(bs & K)]; [|congruence|congruence].
      intros [m g] H. destruct (DL style' m g H) as (i & Hi & D1 & D2). cbn [fst snd]. destruct (Nat.lt_ge_cases i 16) as [L|L]; [right; destruct (D1 L) as (l & El & _); eauto|left; auto].
    + exists (style, title). split; [exact Hs|]. rewrite PE. rewrite (mapM_raise _ IndexError); [reflexivity| |].
      * intros [m g] H. destruct (DL style m g H) as (i & Hi & D1 & D2). cbn [fst snd]. destruct (Nat.lt_ge_cases i 16) as [L|L]; [right; destruct (D1 L) as (l & El & _); eauto|left; auto].
      * apply OC in Ho. apply in_map_iff in Ho as ([m g] & Em & H). cbn [fst] in Em. subst m. exists (n, g). split; [exact H|]. destruct (DL style n g H) as (i & Hi & _ & D2). apply D2.
        destruct (Nat.lt_ge_cases i 16) as [L|L]; [|exact L]. exfalso. apply Hn. now apply (Nfirst i n Hi).
Qed.
Print Assumptions C72_detection.

(** No more than sixteen noise values: always drawn.  Lines of one noise value look the
    same in all panels, and lines of different values have different markers. *)
Theorem C72_sixteen : forall F (feqb fleb : F -> F -> bool) data values, (forall a b, feqb a b = true <-> a = b) -> linear_order fleb -> NoDup (map fst data) ->
  (length values <= 16)%nat -> (forall d s, In (d, s) data -> In (d_noise d) values) ->
  exists fig, plot_detection_fraction feqb fleb data = Ok fig /\
    forall t ls l t' ls' l', In (t, ls) fig -> In l ls -> In (t', ls') fig -> In l' ls' ->
      (n_noise l = n_noise l' <-> n_marker l = n_marker l') /\ (n_noise l = n_noise l' -> n_color l = n_color l').
Proof.
  intros F feqb fleb data values Hf FL N L Hv. destruct (C72_detection F feqb fleb data Hf FL N) as (noises & [V1 V2] & A & _).
  assert (ND : NoDup noises) by (eapply sorted_before_nodup; exact V1).
  assert (Len : (length noises <= 16)%nat).
  { assert (I : incl noises values) by (intros x (d & s & H & <-)%V2; eauto). pose proof (NoDup_incl_length ND I). lia. }
  destruct A as (fig & E & M & D); [intros style noise _ (d & s & H & _ & En); rewrite firstn_all2 by exact Len; apply V2; eauto|]. exists fig. split; [exact E|].
  assert (Look : forall t ls l, In (t, ls) fig -> In l ls -> exists i, nth_error noises i = Some (n_noise l) /\ nth_error (list_ascii_of_string "ov*sp^<>8P+xXDd|") i = Some (n_marker l) /\ nth_error (TABLEAU_COLORS ++ TABLEAU_COLORS) i = Some (n_color l)).
  { intros t ls l Hf' Hl. apply In_nth_error in Hf' as (i & Hi). pose proof (f_equal (fun x => nth_error x i) M) as Mi. cbv beta in Mi. rewrite !nth_error_map, Hi in Mi. cbn [option_map fst] in Mi.
    destruct (nth_error detection_styles i) as [[style title]|] eqn:Es; [|discriminate]. cbn [option_map snd] in Mi. injection Mi as ->. destruct (D i style title ls Es Hi) as (_ & _ & K). apply (lo_style _ _ _ _ _ _ (K l Hl)). }
  intros t ls l t' ls' l' H1 H2 H3 H4. destruct (Look t ls l H1 H2) as (i & I1 & I2 & I3), (Look t' ls' l' H3 H4) as (j & J1 & J2 & J3).
  assert (Eij : n_noise l = n_noise l' -> i = j) by (intros En; eapply NoDup_nth_error; [exact ND|apply nth_error_Some; congruence|congruence]).
  split; [split|].
  - intros En. rewrite (Eij En) in I2. congruence.
  - intros Em. assert (i = j); [|congruence]. eapply NoDup_nth_error; [exact few_distinct|apply nth_error_Some; unfold few_markers; congruence|unfold few_markers; congruence].
  - intros En. rewrite (Eij En) in I3. congruence.
Qed.
Print Assumptions C72_sixteen.
(** The paper's data has fifteen noise values. *)
Example C72_example : (length USED_NOISE_VALUES <= 16)%nat /\ NoDup (map fst ex_gap) /\ (forall d s, In (d, s) ex_gap -> In (d_noise d) [1]) /\
  exists fig l, plot_detection_fraction Z.eqb Z.leb ex_gap = Ok fig /\ nth_error fig 0 = Some ("SD6 Surface Code"%string, [l]) /\ map fst (n_points l) = [3; 7].
Proof.
  assert (Hv : forall d s, In (d, s) ex_gap -> In (d_noise d) [1]) by (intros d s H; left; cbn [In ex_gap] in H; decompose [or] H; try contradiction; match goal with K : _ = (d, s) |- _ => injection K as <- _ end; reflexivity).
  destruct ex_gap_good as (N & _). split; [cbn; lia|]. split; [exact N|]. split; [exact Hv|].
  destruct (C72_detection Z Z.eqb Z.leb ex_gap Z.eqb_eq Z_linear N) as (noises & [V1 V2] & A & _). destruct A as (fig & E & M & D).
  { intros style n _ (d & s & H & _ & <-). pose proof (Hv _ _ H) as [K|[]]. assert (K1 : In (d_noise d) noises) by (apply V2; eauto).
    assert (Len : (length noises <= 1)%nat) by (apply (NoDup_incl_length (l' := [1]) (sorted_before_nodup _ _ V1)); intros x (d' & s' & H' & <-)%V2; eauto).
    rewrite firstn_all2 by lia. exact K1. }
  destruct fig as [|[t ls] fig]; [discriminate|]. cbn [map fst] in M. injection M as Et _. subst t. destruct (D 0%nat _ _ ls eq_refl eq_refl) as (S1 & S2 & S3).
  assert (O : forall n, In n (map n_noise ls) <-> n = 1).
  { intros n. rewrite S2. split; [intros (d & s & H & _ & <-); destruct (Hv _ _ H) as [K|[]]; congruence|]. intros ->. eexists _, _. split; [left; reflexivity|split; reflexivity]. }
  destruct ls as [|l ls]; [destruct (proj2 (O 1) eq_refl)|]. destruct ls as [|l2 ls].
  - eexists _, l. split; [exact E|]. split; [reflexivity|]. specialize (S3 l (or_introl eq_refl)). rewrite (lo_points _ _ _ _ _ _ S3). rewrite (proj1 (O (n_noise l)) (or_introl eq_refl)). reflexivity.
  - exfalso. cbn [map] in S1. inversion S1 as [|? ? _ S]; subst. inversion S as [|? ? [_ Hne] _]; subst. apply Hne. rewrite (proj1 (O (n_noise l)) (or_introl eq_refl)), (proj1 (O (n_noise l2)) (or_intror (or_introl eq_refl))). reflexivity.
Qed.

Lemma sorted_snoc {A} (R : A -> A -> Prop) l a : StronglySorted R l -> Forall (fun x => R x a) l -> StronglySorted R (l ++ [a]).
Proof.
  induction 1 as [|x l S IH H]; intros K; [repeat constructor|]. inversion K; subst. cbn [app]. constructor; [auto|]. apply Forall_app. split; [exact H|]. now constructor.
Qed.
(** The legend is that of the last panel: it lists the noise values recorded for style
    honeycomb_EM3, from large to small ... *)
Theorem C72_legend : forall F (feqb fleb : F -> F -> bool) data fig, (forall a b, feqb a b = true <-> a = b) -> linear_order fleb -> NoDup (map fst data) ->
  plot_detection_fraction feqb fleb data = Ok fig ->
  StronglySorted (fun a b => before fleb b a) (detection_legend fig) /\
  forall noise, In noise (detection_legend fig) <-> occurs data "honeycomb_EM3" noise.
Proof.
  intros F feqb fleb data fig Hf FL N E. destruct (C72_detection F feqb fleb data Hf FL N) as (noises & [V1 V2] & A & B).
  assert (Dec : forall x, In x noises -> {In x (firstn 16 noises)} + {~ In x (firstn 16 noises)}).
  { intros x _. apply in_dec. intros a b. destruct (feqb a b) eqn:K; [left; now apply Hf|right; intros ->; rewrite (proj2 (Hf b b) eq_refl) in K; discriminate]. }
  destruct A as (fig' & E' & M & D).
  { intros style noise Hs Ho. assert (K : In noise noises) by (destruct Ho as (d & s & H & _ & H2); apply V2; eauto). destruct (Dec noise K) as [Y|Y]; [exact Y|]. exfalso. rewrite B in E by eauto. discriminate. }
  assert (fig' = fig) by congruence. subst fig'. do 6 (destruct fig as [|[? ?] fig]; [discriminate M|]). destruct fig; [|discriminate M].
  cbn [map fst snd detection_styles] in M. injection M as -> -> -> -> -> ->.
  destruct (D 5%nat _ _ _ eq_refl eq_refl) as (S1 & S2 & _). unfold detection_legend. cbn [rev app]. split.
  - match type of S1 with StronglySorted _ ?l => revert S1; clear; generalize l end. intros m. induction 1 as [|a m S IH H]; [constructor|]. cbn [rev]. apply sorted_snoc; [exact IH|]. apply Forall_forall. intros x Hx. apply in_rev in Hx. rewrite Forall_forall in H. exact (H x Hx).
  - intros n. rewrite <- in_rev. apply S2.
Qed.
Print Assumptions C72_legend.
(** ... which is not a style of the tables, so for the paper's data it is empty although
    lines are drawn. *)
Theorem C72_legend_refuted :
  (forall F (d : desc F), of_tables d -> d_style d <> "honeycomb_EM3"%string) /\
  exists (data : problem_data Z) fig, Forall (fun e => of_tables (fst e)) data /\ plot_detection_fraction Z.eqb Z.leb data = Ok fig /\
    (exists t l, In (t, [l]) fig /\ n_points l <> []) /\ detection_legend fig = [].
Proof.
  split.
  - intros F d Hd E. apply of_tables_shape in Hd as (_ & [[[H _] _]|[[H _] _]]); rewrite E in H; cbn [In] in H; intuition discriminate.
  - destruct C72_example as (_ & N & Hv & fig & l & E & H & P). destruct ex_gap_good as (_ & _ & T). exists ex_gap, fig. split; [exact T|]. split; [exact E|]. split.
    + exists "SD6 Surface Code"%string, l. split; [apply (nth_error_In _ 0); exact H|]. intros K. rewrite K in P. discriminate.
    + destruct (C72_legend Z Z.eqb Z.leb ex_gap fig Z.eqb_eq Z_linear N E) as [_ K]. destruct (detection_legend fig) as [|x r]; [reflexivity|]. exfalso.
      destruct (proj1 (K x) (or_introl eq_refl)) as (d & s & H' & Es & _). rewrite Forall_forall in T. specialize (T _ H'). apply of_tables_shape in T as (_ & [[[X _] _]|[[X _] _]]); cbn [fst] in X; rewrite Es in X; cbn [In] in X; intuition discriminate.
Qed.
Print Assumptions C72_legend_refuted.
