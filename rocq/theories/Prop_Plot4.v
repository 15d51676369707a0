(** C73: the two summary figures (Lambda and teraquop counts) and the line fits. *)
From Coq Require Import QArith.
From Coq Require Import Reals Lra.
From Coq Require Import Ascii.
From Verif Require Import Prelude Layout LayoutFacts Collect Prop_Collect Prop_Collect2 Prob Prop_Prob Prop_Prob2 Prop_Prob3 Paper Prop_Paper Prop_Paper2 Prop_Paper3 PaperFit Prop_PaperFit Plot Prop_Plot Prop_Plot2 Prop_Plot3.
Open Scope Z_scope.

(** No two entries have equal descriptions (the data is a dictionary). *)
Definition recorded_once {F} (feqb : F -> F -> bool) (data : problem_data F) : Prop :=
  forall pre e post, data = pre ++ e :: post -> forall e', In e' pre -> desc_eqb feqb (fst e) (fst e') = false.
(** The entries of a style and decoder. *)
Definition entries_of {F} (data : problem_data F) (style decoder : string) : problem_data F :=
  filter (fun e => (d_style (fst e) =? style)%string && (d_decoder (fst e) =? decoder)%string) data.

Lemma dupd_new {K V} (eqb : K -> K -> bool) k (v : V) f l : (forall e, In e l -> eqb k (fst e) = false) -> dupd eqb k v f l = l ++ [(k, f v)].
Proof.
  induction l as [|[k' v'] l IH]; intros H; [reflexivity|]. cbn [dupd]. pose proof (H (k', v') (or_introl eq_refl)) as E. cbn [fst] in E. rewrite E. cbn [app]. rewrite IH; [reflexivity|]. intros e He. apply H. now right.
Qed.
Lemma grouping_once {F K} (feqb : F -> F -> bool) (keqb : K -> K -> bool) (Hk : forall a b, keqb a b = true <-> a = b) key data : forall pre res,
  recorded_once feqb (pre ++ data) -> NoDup (map fst res) -> (forall k, dget keqb k res = match with_key keqb key pre k with [] => None | g => Some g end) ->
  let res' := fold_left (gstep feqb keqb key) data res in
  NoDup (map fst res') /\ forall k, dget keqb k res' = match with_key keqb key (pre ++ data) k with [] => None | g => Some g end.
Proof.
  induction data as [|[d s] data IH]; intros pre res Hn Hr Hg; [rewrite app_nil_r; split; assumption|].
  cbn [fold_left]. cbv zeta. assert (Hfresh := Hn pre (d, s) data eq_refl). change ((d, s) :: data) with ([(d, s)] ++ data) in Hn |- *. rewrite app_assoc in Hn |- *.
  apply IH; [exact Hn| |].
  - unfold gstep. apply dupd_NoDup; [assumption|exact Hr].
  - intros k. unfold gstep. rewrite dget_dupd by assumption. rewrite !Hg. unfold with_key. rewrite filter_app. cbn [filter fst].
    destruct (keqb k (key d)) eqn:E.
    + apply Hk in E. subst k. rewrite (proj2 (Hk (key d) (key d)) eq_refl).
      rewrite dupd_new.
      * destruct (filter (fun e => keqb (key (fst e)) (key d)) pre); reflexivity.
      * intros e He. apply Hfresh. destruct (filter (fun e => keqb (key (fst e)) (key d)) pre) as [|y g] eqn:Ef; [destruct He|]. rewrite <- Ef in He. now apply filter_In in He as [He _].
    + destruct (keqb (key d) k) eqn:E2; [apply Hk in E2; subst; rewrite (proj2 (Hk _ _) eq_refl) in E; discriminate|]. rewrite app_nil_r. reflexivity.
Qed.
Lemma dget_isort {K V} (keqb : K -> K -> bool) (Hk : forall a b, keqb a b = true <-> a = b) leb (l : list (K * V)) k : NoDup (map fst l) -> dget keqb k (isort leb l) = dget keqb k l.
Proof.
  intros N. assert (N' : NoDup (map fst (isort leb l))) by (eapply Permutation_NoDup; [|exact N]; apply Permutation_map, isort_perm).
  destruct (dget keqb k l) as [g|] eqn:E.
  - apply (dget_in keqb Hk); [exact N'|]. apply in_isort. apply (dget_in keqb Hk) in E; [exact E|exact N].
  - destruct (dget keqb k (isort leb l)) as [g|] eqn:E'; [|reflexivity]. apply (dget_in keqb Hk) in E'; [|exact N']. apply in_isort in E'. apply (dget_in keqb Hk) in E'; [congruence|exact N].
Qed.
Lemma group_lookup_once {F K} (feqb : F -> F -> bool) (keqb kleb : K -> K -> bool) key (data : problem_data F) k :
  (forall a b, keqb a b = true <-> a = b) -> recorded_once feqb data ->
  group_or_empty keqb k (grouped_by feqb keqb kleb key data) = filter (fun e => keqb (key (fst e)) k) data.
Proof.
  intros Hk N. destruct (grouping_once feqb keqb Hk key data [] []) as [G1 G2]; [exact N|constructor|reflexivity|]. cbv zeta in G1, G2. cbn [app] in G2. unfold with_key in G2. specialize (G2 k).
  unfold group_or_empty, grouped_by. change (fold_left _ data []) with (fold_left (gstep feqb keqb key) data []). rewrite (dget_isort keqb Hk) by exact G1. unfold problem_data in *. rewrite G2. destruct (filter _ data); reflexivity.
Qed.
Lemma pair_eqb_iff a b : pair_eqb a b = true <-> a = b.
Proof. destruct a as [a1 a2], b as [b1 b2]. cbn. rewrite andb_true_iff, !String.eqb_eq. split; [intros [-> ->]; reflexivity|intros [= -> ->]; auto]. Qed.
Lemma style_lookup (data : qdata) style decoder : recorded_once Qeq_bool data -> group_or_empty pair_eqb (style, decoder) (style_groups data) = entries_of data style decoder.
Proof. intros N. unfold style_groups. rewrite (group_lookup_once _ _ _ _ _ _ pair_eqb_iff N). apply filter_ext. intros [d s]. reflexivity. Qed.

(** ** The groups of one style and decoder, in order of noise *)
Lemma dget_values {V} (l : list (Q * V)) n g : distinct_values (map fst l) -> In (n, g) l -> dget Qeq_bool n l = Some g.
Proof.
  induction l as [|[m v] l IH]; intros D H; [destruct H|]. cbn [dget]. destruct H as [[= -> ->]|H]; [rewrite (proj2 (Qeq_bool_iff n n)) by reflexivity; reflexivity|].
  destruct (Qeq_bool n m) eqn:E.
  - exfalso. apply Qeq_bool_iff in E. apply (in_map fst) in H. apply In_nth_error in H as (i & Hi). specialize (D 0%nat (S i) m n eq_refl Hi). symmetry in E. discriminate (D E).
  - apply IH; [|exact H]. intros i j p q Hi Hj Epq. specialize (D (S i) (S j) p q Hi Hj Epq). congruence.
Qed.
Lemma groups_facts {F} (data : list (entry F)) groups : groups_from_data data = Ok groups ->
  StronglySorted Qlt (map fst (isort (fun a b => Qle_bool (fst a) (fst b)) groups)) /\ (groups = [] <-> data = []) /\
  (forall n g, In (n, g) groups -> exists e, In e data /\ g_rep g = fst e).
Proof.
  intros E. destruct (C55_groups F data) as [C1 C2]. assert (NC : ~ clash data) by (intros C; rewrite (C1 C) in E; discriminate). destruct (C2 NC) as (groups' & E' & D & A & B). assert (groups' = groups) by congruence. subst groups'. clear C1 C2 NC E'.
  split; [|split].
  - set (leb := fun a b : Q * lambda_group F => Qle_bool (fst a) (fst b)).
    assert (S : StronglySorted (le_ leb) (isort leb groups)).
    { apply isort_sorted; unfold leb.
      - intros x y. rewrite !Qle_bool_iff. destruct (Qlt_le_dec (fst x) (fst y)) as [L|L]; [left; now apply Qlt_le_weak|now right].
      - intros x y z. rewrite !Qle_bool_iff. apply Qle_trans. }
    assert (P : Permutation groups (isort leb groups)) by apply isort_perm.
    assert (D' : ForallOrdPairs (fun p q => ~ (p == q)%Q) (map fst (isort leb groups))).
    { apply (Permutation_map fst) in P. revert D P. generalize (map fst groups) (map fst (isort leb groups)). clear. intros l m D P.
      assert (D1 : ForallOrdPairs (fun p q => ~ (p == q)%Q) l).
      { clear P. induction l as [|a l IH]; [constructor|]. constructor.
        - apply Forall_forall. intros q Hq K. apply In_nth_error in Hq as (i & Hi). specialize (D 0%nat (S i) a q eq_refl Hi K). discriminate.
        - apply IH. intros i j p q Hi Hj Epq. specialize (D (S i) (S j) p q Hi Hj Epq). congruence. }
      clear D. induction P as [|x l l' P IH|x y l|l l' l'' P1 IH1 P2 IH2]; [constructor| | |auto].
      - inversion D1 as [|? ? H1 H2]; subst. constructor; [|auto]. rewrite Forall_forall in *. intros q Hq. apply H1. eapply Permutation_in; [symmetry; exact P|exact Hq].
      - inversion D1 as [|? ? H1 H2]; subst. inversion H2 as [|? ? H3 H4]; subst. inversion H1 as [|? ? H5 H6]; subst. constructor; [constructor; [intros K; apply H5; now symmetry|exact H3]|]. constructor; [exact H6|exact H4]. }
    revert S D'. clear. induction 1 as [|a l S IH H]; intros D; cbn [map] in *; [constructor|]. inversion D as [|? ? D1 D2]; subst. constructor; [auto|]. rewrite Forall_forall in *. intros q Hq. pose proof (D1 q Hq) as Ne. apply in_map_iff in Hq as (b & <- & Hb).
    specialize (H b Hb). unfold le_ in H. apply Qle_bool_iff in H. apply Qle_lteq in H as [H|H]; [exact H|contradiction].
  - split; intros ->.
    + destruct data as [|e data]; [reflexivity|]. destruct (A e (or_introl eq_refl)) as (g & Hg). discriminate.
    + cbn in E. congruence.
  - intros n g H. destruct (B n g (dget_values _ _ _ D H)) as (_ & (e & i & He & _ & Hr & _) & _). exists e. split; [eapply nth_error_In; exact He|exact Hr].
Qed.

(** ** One column of a summary figure *)
Section Column.
  Context {Y : Type} (project : lambda_group Q -> string -> res (Y * Y * Y)).
  (** What is plotted for a style and decoder: the groups that appear to suppress errors. *)
  Definition plots (data : qdata) (style decoder : string) (noise : Q) (g : lambda_group Q) (low y high : Y) : Prop :=
    exists groups, groups_from_data (entries_of data style decoder) = Ok groups /\ In (noise, g) groups /\
      appears_to_be_suppressing_errors g = Ok true /\ project g style = Ok (low, y, high).
  Definition plain_label (style decoder : string) : string :=
    ((if str_in "honeycomb" style then "Honeycomb" else "Surface") ++ (if (decoder =? "internal_correlated")%string then " (Correlated)" else " (Standard)"))%string.
  Record summary_of (data : qdata) (i : nat) (style decoder : string) (l : summary_line Y) : Prop := {
    so_label : s_label _ l = plain_label style decoder;
    so_marker : nth_error ["o"; "v"; "*"; "s"]%char i = Some (s_marker _ l);
    so_sorted : StronglySorted Qlt (map fst (s_points _ l));
    so_points : forall noise low y high, In (noise, (low, y, high)) (s_points _ l) <-> exists g, plots data style decoder noise g low y high }.
  (** One line for each case that has data. *)
  Definition with_data (data : qdata) (cases : list (string * string)) : list (nat * (string * string)) :=
    filter (fun c => negb (Nat.eqb (length (entries_of data (fst (snd c)) (snd (snd c)))) 0)) (combine (seq 0 (length cases)) cases).

  Lemma points_ok style : forall (groups : list (Q * lambda_group Q)) ps poor, summary_points project style groups = Ok (ps, poor) -> StronglySorted Qlt (map fst groups) ->
    StronglySorted Qlt (map fst ps) /\ (forall n, In n (map fst ps) -> In n (map fst groups)) /\
    (forall n low y high, In (n, (low, y, high)) ps <-> exists g, In (n, g) groups /\ appears_to_be_suppressing_errors g = Ok true /\ project g style = Ok (low, y, high)) /\
    (forall n y, In (n, y) poor <-> exists g low high, In (n, g) groups /\ appears_to_be_suppressing_errors g = Ok true /\ has_low_confidence_extrapolation g = true /\ project g style = Ok (low, y, high)).
  Proof.
    induction groups as [|[noise g] groups IH]; intros ps poor E S; cbn [summary_points] in E.
    - injection E as <- <-. split; [constructor|]. split; [intros n []|]. split; [intros; split; [intros []|intros (g & [] & _)]|intros; split; [intros []|intros (g & low & high & [] & _)]].
    - cbn [map fst] in S. inversion S as [|? ? S1 S2]; subst. destruct (appears_to_be_suppressing_errors g) as [sup|] eqn:Es; [|discriminate]. cbn [bind] in E.
      destruct (if sup then let! y := project g style in Ok [y] else Ok []) as [here|] eqn:Eh; [|discriminate]. cbn [bind] in E.
      destruct (summary_points project style groups) as [[ps' poor']|]; [|discriminate]. cbn [bind] in E. injection E as <- <-.
      destruct (IH ps' poor' eq_refl S1) as (I1 & I2 & I3 & I4). clear IH.
      assert (H : (sup = false /\ here = []) \/ (sup = true /\ exists low y high, project g style = Ok (low, y, high) /\ here = [(low, y, high)])).
      { destruct sup; [right|left]; [|injection Eh as <-; auto]. split; [reflexivity|]. destruct (project g style) as [[[low y] high]|]; [|discriminate]. cbn [bind] in Eh. injection Eh as <-. eauto 6. }
      destruct H as [(-> & ->)|(-> & low & y & high & Ep & ->)]; cbn [map app snd fst].
      + split; [exact I1|]. split; [intros n Hn; right; now apply I2|]. split.
        * intros n low y high. rewrite I3. split; [intros (g' & H1 & H2); exists g'; split; [now right|exact H2]|]. intros (g' & [[= -> ->]|H1] & H2 & H3); [congruence|eauto].
        * intros n y. replace (if has_low_confidence_extrapolation g then [] else []) with (@nil (Q * Y)) by (destruct (has_low_confidence_extrapolation g); reflexivity). cbn [app]. rewrite I4.
          split; [intros (g' & low & high & H1 & H2); exists g', low, high; split; [now right|exact H2]|]. intros (g' & low & high & [[= -> ->]|H1] & H2 & H3); [congruence|exists g', low, high; auto].
      + split; [|split; [|split]].
        * constructor; [exact I1|]. rewrite Forall_forall in S2 |- *. intros n Hn. apply S2, I2, Hn.
        * intros n [<-|Hn]; [now left|right; now apply I2].
        * intros n low' y' high'. cbn [In]. rewrite I3. split.
          -- intros [[= <- <- <- <-]|(g' & H1 & H2)]; [exists g; split; [now left|auto]|exists g'; split; [now right|exact H2]].
          -- intros (g' & [[= -> ->]|H1] & H2 & H3); [left; rewrite Ep in H3; injection H3 as <- <- <-; reflexivity|right; eauto].
        * intros n y'. rewrite in_app_iff, I4. split.
          -- intros [H|(g' & l' & h' & H1 & H2)]; [|exists g', l', h'; split; [now right|exact H2]]. destruct (has_low_confidence_extrapolation g) eqn:El; [|destruct H]. destruct H as [[= <- <-]|[]]. exists g, low, high. split; [now left|auto].
          -- intros (g' & l' & h' & [[= -> ->]|H1] & H2 & H3 & H4); [|right; exists g', l', h'; auto]. left. rewrite H3. rewrite Ep in H4. injection H4 as <- <- <-. now left.
  Qed.

  Definition label_fits (name : string) (cases : list (string * string)) : Prop :=
    forall style decoder (rep : desc Q), In (style, decoder) cases -> d_style rep = style -> d_decoder rep = decoder -> combo_label name rep = plain_label style decoder.
  Lemma column_ok (data : qdata) (N : recorded_once Qeq_bool data) name zorder : forall cases k ls poor, label_fits name cases ->
    summary_cases project data name zorder (Z.of_nat k) cases = Ok (ls, poor) ->
    Forall2 (fun c l => summary_of data (fst c) (fst (snd c)) (snd (snd c)) l)
      (filter (fun c => negb (Nat.eqb (length (entries_of data (fst (snd c)) (snd (snd c)))) 0)) (combine (seq k (length cases)) cases)) ls /\
    (forall n y, In (n, y) poor <-> exists style decoder g low high, In (style, decoder) cases /\ has_low_confidence_extrapolation g = true /\ plots data style decoder n g low y high).
  Proof.
    induction cases as [|[style decoder] cases IH]; intros k ls poor Lab E; cbn [summary_cases] in E.
    - injection E as <- <-. split; [constructor|]. intros n y. split; [intros []|intros (s & d & g & low & high & [] & _)].
    - rewrite (style_lookup data style decoder N) in E. destruct (groups_from_data (entries_of data style decoder)) as [groups|] eqn:Eg; [|discriminate]. cbn [bind] in E.
      destruct (groups_facts _ _ Eg) as (G1 & G2 & G3). fold (by_noise_value groups) in G1.
      assert (Lab' : label_fits name cases) by (intros s d r H; apply Lab; now right).
      assert (Pin : forall n g, In (n, g) (by_noise_value groups) <-> In (n, g) groups) by (intros; apply in_isort).
      cbn [length seq combine filter fst snd]. destruct (by_noise_value groups) as [|[n0 g0] sorted] eqn:Eb.
      + assert (groups = []) by (destruct groups as [|[n g] groups]; [reflexivity|]; destruct (proj2 (Pin n g) (or_introl eq_refl))). rewrite (proj1 G2 H). cbn [length Nat.eqb negb].
        replace (Z.of_nat k + 1) with (Z.of_nat (S k)) in E by lia. destruct (IH (S k) ls poor Lab' E) as [I1 I2]. split; [exact I1|]. intros n y. rewrite I2. split.
        * intros (s & d & g & low & high & H1 & H2). exists s, d, g, low, high. split; [now right|exact H2].
        * intros (s & d & g & low & high & [[= <- <-]|H1] & H2 & H3); [|exists s, d, g, low, high; auto]. exfalso. destruct H3 as (gr & H3 & H4 & _). assert (gr = groups) by congruence. subst. destruct H4.
      + assert (Ne : entries_of data style decoder <> []) by (intros K; apply G2 in K; subst groups; discriminate Eb).
        destruct (entries_of data style decoder) as [|e0 en] eqn:Een; [congruence|]. cbn [length Nat.eqb negb]. rewrite <- Een in *.
        destruct (summary_points project style ((n0, g0) :: sorted)) as [[ps poor']|] eqn:Ep; [|discriminate]. cbn [bind] in E.
        destruct (py_index _ (Z.of_nat k)) as [m|] eqn:Em; [|discriminate]. cbn [bind] in E.
        replace (Z.of_nat k + 1) with (Z.of_nat (S k)) in E by lia. destruct (summary_cases project data name zorder (Z.of_nat (S k)) cases) as [[ls' poors]|] eqn:Er; [|discriminate]. cbn [bind] in E. injection E as <- <-.
        destruct (IH (S k) ls' poors Lab' Er) as [I1 I2]. rewrite <- Eb in Ep, G1, Pin. destruct (points_ok style _ _ _ Ep G1) as (P1 & _ & P3 & P4). split.
        * constructor; [|exact I1]. cbn [fst snd]. split; cbn [s_label s_marker s_points].
          -- destruct (G3 n0 g0) as (e & He & Hr); [apply Pin; rewrite Eb; now left|]. unfold entries_of in He. apply filter_In in He as [_ He]. apply andb_true_iff in He as [He1 He2]. apply String.eqb_eq in He1, He2.
             apply Lab; [now left| |]; rewrite Hr; assumption.
          -- apply py_index_inv in Em; [|lia]. rewrite Nat2Z.id in Em. exact Em.
          -- exact P1.
          -- intros n low y high. rewrite P3. split.
             ++ intros (g & H1 & H2 & H3). exists g, groups. split; [exact Eg|]. split; [now apply Pin|auto].
             ++ intros (g & gr & H1 & H2 & H3). assert (gr = groups) by congruence. subst. exists g. split; [now apply Pin|exact H3].
        * intros n y. rewrite in_app_iff, P4, I2. split.
          -- intros [(g & low & high & H1 & H2 & H3 & H4)|(s & d & g & low & high & H1 & H2)].
             ++ exists style, decoder, g, low, high. split; [now left|]. split; [exact H3|]. exists groups. split; [exact Eg|]. split; [now apply Pin|auto].
             ++ exists s, d, g, low, high. split; [now right|exact H2].
          -- intros (s & d & g & low & high & [[= <- <-]|H1] & H2 & H3).
             ++ left. destruct H3 as (gr & A & B & C & D). assert (gr = groups) by congruence. subst. exists g, low, high. split; [now apply Pin|auto].
             ++ right. exists s, d, g, low, high. auto.
  Qed.
End Column.
Lemma combo_labels name cases : In (name, cases) combo_styles -> label_fits name cases.
Proof.
  intros H style decoder rep Hc Es Ed. unfold combo_label. rewrite Es, Ed. unfold combo_styles in H. cbn [In] in H.
  decompose [or] H; try contradiction; match goal with K : _ = (name, cases) |- _ => injection K as <- <- end; cbn [In] in Hc; decompose [or] Hc; try contradiction; match goal with K : _ = (style, decoder) |- _ => injection K as <- <- end; reflexivity.
Qed.

(** The teraquop figure: in each column one line per style and decoder that has data, and
    exactly its low-confidence points are marked. *)
Theorem C73_teraquop : forall leastsq fuel (data : qdata) cols, recorded_once Qeq_bool data -> plot_teraquop_combo leastsq fuel data = Ok cols ->
  length cols = length combo_styles /\
  forall j name cases, nth_error combo_styles j = Some (name, cases) ->
    exists ls marks, nth_error cols j = Some (name, ls, marks) /\
      Forall2 (fun c l => summary_of (teraquop_range leastsq fuel) data (fst c) (fst (snd c)) (snd (snd c)) l) (with_data data cases) ls /\
      forall noise y, In (noise, y) (match marks with Some m => m | None => [] end) <->
        exists style decoder g low high, In (style, decoder) cases /\ has_low_confidence_extrapolation g = true /\ plots (teraquop_range leastsq fuel) data style decoder noise g low y high.
Proof.
  intros leastsq fuel data cols N E. unfold plot_teraquop_combo in E.
  assert (Lab : forall name cases, In (name, cases) combo_styles -> label_fits name cases) by exact combo_labels.
  revert Lab E. generalize combo_styles. intros styles Lab. generalize false. revert cols. induction styles as [|[name cases] styles IH]; intros cols b E; cbn [teraquop_columns] in E.
  - injection E as <-. split; [reflexivity|]. intros j name cases H. destruct j; discriminate.
  - destruct (summary_cases (teraquop_range leastsq fuel) data name _ 0 cases) as [[ls poor]|] eqn:Es; [|discriminate]. cbn [bind] in E.
    destruct (teraquop_columns leastsq fuel data _ styles) as [rest|] eqn:Er; [|discriminate]. cbn [bind] in E. injection E as <-.
    destruct (IH (fun n c H => Lab n c (or_intror H)) rest _ Er) as [L R]. split; [cbn [length]; now rewrite L|]. intros [|j] nm cs H; [|exact (R j nm cs H)]. cbn [nth_error] in H. injection H as <- <-.
    destruct (column_ok (teraquop_range leastsq fuel) data N name _ cases 0 ls poor (Lab _ _ (or_introl eq_refl)) Es) as [C1 C2]. eexists ls, _. split; [reflexivity|]. split; [exact C1|]. intros n y. rewrite <- C2.
    destruct poor as [|p poor]; [destruct b; reflexivity|]. rewrite orb_true_r. reflexivity.
Qed.
Print Assumptions C73_teraquop.
(** The Lambda figure: the same lines, but no marks. *)
Theorem C73_lambda : forall leastsq fuel (data : qdata) cols, recorded_once Qeq_bool data -> plot_lambda_combo leastsq fuel data = Ok cols ->
  length cols = length combo_styles /\
  forall j name cases, nth_error combo_styles j = Some (name, cases) ->
    exists ls, nth_error cols j = Some (name, ls, None) /\
      Forall2 (fun c l => summary_of (fun g _ => projected_lambda_range g leastsq fuel) data (fst c) (fst (snd c)) (snd (snd c)) l) (with_data data cases) ls.
Proof.
  intros leastsq fuel data cols N E. unfold plot_lambda_combo in E.
  assert (Lab : forall name cases, In (name, cases) combo_styles -> label_fits name cases) by exact combo_labels.
  revert Lab E. generalize combo_styles. intros styles Lab. generalize 0 at 1. revert cols. induction styles as [|[name cases] styles IH]; intros cols i E; cbn [lambda_columns] in E.
  - injection E as <-. split; [reflexivity|]. intros j name cases H. destruct j; discriminate.
  - destruct (summary_cases _ data name _ 0 cases) as [[ls poor]|] eqn:Es; [|discriminate]. cbn [bind] in E.
    destruct (lambda_columns leastsq fuel data false (i + 1) styles) as [rest|] eqn:Er; [|discriminate]. cbn [bind] in E. injection E as <-.
    destruct (IH (fun n c H => Lab n c (or_intror H)) rest _ Er) as [L R]. split; [cbn [length]; now rewrite L|]. intros [|j] nm cs H; [|exact (R j nm cs H)]. cbn [nth_error] in H. injection H as <- <-.
    destruct (column_ok _ data N name _ cases 0 ls poor (Lab _ _ (or_introl eq_refl)) Es) as [C1 _]. exists ls. split; [reflexivity|exact C1].
Qed.
Print Assumptions C73_lambda.

(** Two sizes with a quarter and an eighth of the shots wrong. *)
Definition ex_entryQ (u : Z) (obs : string) (shots correct : Z) : desc Q * shot_data Q :=
  (as_decoder_problem_desc (mkLayout (4 * u) (6 * u) (12 * u) "SD6" obs (1#100)) "internal", mkShots shots correct 1%Q).
Definition ex_data : qdata := [ex_entryQ 1 "H" 100 75; ex_entryQ 2 "H" 200 175; ex_entryQ 2 "V" 400 350].
Definition ex_gq : lambda_group Q :=
  mkGroup (1#100) (as_decoder_problem_desc (mkLayout 4 6 12 "SD6" "H" (1#100)) "internal")
    [(4%Z, mkShots 100 75 1%Q); (8%Z, mkShots 200 175 1%Q)] [(8%Z, mkShots 400 350 1%Q)].
Lemma ex_data_groups : recorded_once Qeq_bool ex_data /\ groups_from_data (entries_of ex_data "honeycomb_SD6" "internal") = Ok [((1#100)%Q, ex_gq)].
Proof.
  split; [|vm_compute; reflexivity]. intros pre e post E e' He.
  destruct pre as [|a [|b [|c [|d pre]]]]; cbn in E; try discriminate; injection E as; subst; cbn in He; decompose [or] He; try contradiction; subst; vm_compute; reflexivity.
Qed.
Lemma ex_gq_good : good_group ex_gq.
Proof.
  split.
  - vm_compute. discriminate.
  - vm_compute. discriminate.
  - repeat (constructor; [cbn [In map fst]; intuition discriminate|]). constructor.
  - repeat (constructor; [cbn [In map fst]; intuition discriminate|]). constructor.
  - intros d s H. unfold counted. simpl in H. decompose [or] H; try contradiction; match goal with K : _ = _ |- _ => injection K as <- <- end; cbn; lia.
Qed.
Lemma ex_gq_combo : combo_data ex_gq = Ok [(4%Z, 7 / 16); (8%Z, 15 / 64)]%R.
Proof.
  unfold combo_data. change (distances ex_gq) with [4%Z; 8%Z].
  assert (R1 : rate (mkShots 100 75 1%Q) = (1 / 4)%R) by (symmetry; apply rate_is; right; split; [discriminate|cbn [num_shots num_correct]; rewrite <- Z_R_minus; lra]).
  assert (R2 : rate (mkShots 200 175 1%Q) = (1 / 8)%R) by (symmetry; apply rate_is; right; split; [discriminate|cbn [num_shots num_correct]; rewrite <- Z_R_minus; lra]).
  assert (R3 : rate (mkShots 400 350 1%Q) = (1 / 8)%R) by (symmetry; apply rate_is; right; split; [discriminate|cbn [num_shots num_correct]; rewrite <- Z_R_minus; lra]).
  cbn [combo ex_gq pairs_h pairs_v g_rep]. change (ceil_div (d_rounds _) (d_distance _)) with 1%Z. change (d_distance _ =? 0)%Z with false.
  cbn [dget Z.eqb Pos.eqb option_map]. rewrite R1, R2, R3.
  destruct (Req_EM_T (1 / 4) 0); [lra|]. destruct (Req_EM_T (1 / 8) 0); [lra|]. cbv iota. rewrite !one_piece by lra. cbn [bind]. f_equal. f_equal; [f_equal; lra|]. f_equal. f_equal. lra.
Qed.
Lemma ex_gq_suppresses : appears_to_be_suppressing_errors ex_gq = Ok true.
Proof.
  destruct (C62_suppressing Q ex_gq ex_gq_good) as (s & i & b & E & A & B). rewrite A. f_equal. apply B.
  destruct ex_group_fit as (s' & i' & E' & Hs & Hi). assert (X : linear_fit_d_to_log_err ex_gq = linear_fit_d_to_log_err ex_group) by (unfold linear_fit_d_to_log_err; now rewrite ex_gq_combo, ex_group_combo).
  rewrite E, E' in X. injection X as -> ->. left. split; [lra|]. destruct (Rlt_dec i' (- (1 / 10))) as [L|L]; [exact L|exfalso].
  assert (K : (exp (- (1 / 10)) <= exp i')%R) by (destruct (Req_dec (- (1 / 10)) i') as [->|]; [lra|left; apply exp_increasing; lra]). rewrite Hi in K.
  pose proof (exp_ineq1 (- (1 / 10)) ltac:(lra)). lra.
Qed.
Lemma cases_without {Y} (project : lambda_group Q -> string -> res (Y * Y * Y)) (data : qdata) name zorder cases : recorded_once Qeq_bool data -> (forall c, In c cases -> entries_of data (fst c) (snd c) = []) ->
  forall i, summary_cases project data name zorder i cases = Ok ([], []).
Proof.
  intros N. induction cases as [|[style decoder] cases IH]; intros H i; [reflexivity|]. cbn [summary_cases]. rewrite (style_lookup data style decoder N). pose proof (H _ (or_introl eq_refl)) as K. cbn [fst snd] in K. rewrite K. cbn [groups_from_data groups_from bind by_noise_value isort].
  apply IH. intros c Hc. apply H. now right.
Qed.
Lemma case_with {Y} (project : lambda_group Q -> string -> res (Y * Y * Y)) (data : qdata) name zorder style decoder cases n g y : recorded_once Qeq_bool data ->
  groups_from_data (entries_of data style decoder) = Ok [(n, g)] -> appears_to_be_suppressing_errors g = Ok true -> project g style = Ok y -> (forall c, In c cases -> entries_of data (fst c) (snd c) = []) ->
  exists out, summary_cases project data name zorder 0 ((style, decoder) :: cases) = Ok out.
Proof.
  intros N G S P H. cbn [summary_cases]. rewrite (style_lookup data style decoder N), G. cbn [bind]. change (by_noise_value [(n, g)]) with [(n, g)]. cbv iota. cbn [summary_points]. rewrite S. cbn [bind]. rewrite P. cbn [bind].
  change (py_index (list_ascii_of_string "ov*s") 0) with (Ok "o"%char). cbn [bind]. rewrite (cases_without _ _ _ _ _ N H). cbn [bind]. eauto.
Qed.
(** A low-confidence point is drawn in the Lambda figure like any other. *)
Theorem C73_lambda_marks_refuted : exists (data : qdata) leastsq fuel cols ls l low y high noise,
  recorded_once Qeq_bool data /\ exact_optimiser leastsq /\ plot_lambda_combo leastsq fuel data = Ok cols /\
  nth_error cols 0 = Some ("SD6"%string, ls, None) /\ In l ls /\ In (noise, (low, y, high)) (s_points _ l) /\
  exists g, plots (fun g _ => projected_lambda_range g leastsq fuel) data "honeycomb_SD6" "internal" noise g low y high /\ has_low_confidence_extrapolation g = true.
Proof.
  destruct ex_data_groups as [N G]. destruct (C61_lambda_range Q ex_gq newton ex_gq_good newton_exact) as (enough & l1 & l2 & l3 & P & _). specialize (P enough (le_n _)).
  assert (PL : plots (fun g _ => projected_lambda_range g newton enough) ex_data "honeycomb_SD6" "internal" (1#100) ex_gq l1 l2 l3) by (exists [((1#100)%Q, ex_gq)]; split; [exact G|]; split; [now left|]; split; [exact ex_gq_suppresses|exact P]).
  assert (E : exists cols, plot_lambda_combo newton enough ex_data = Ok cols).
  { unfold plot_lambda_combo, combo_styles. cbn [lambda_columns].
    match goal with |- exists cols, (let! _ := summary_cases ?p _ ?nm ?z 0 (_ :: ?cs) in _) = _ => destruct (case_with p ex_data nm z "honeycomb_SD6" "internal" cs (1#100)%Q ex_gq (l1, l2, l3) N G ex_gq_suppresses P) as ([ls poor] & ->) end.
    { intros c Hc. cbn [In] in Hc. decompose [or] Hc; try contradiction; subst c; vm_compute; reflexivity. }
    cbn [bind]. rewrite !(cases_without _ _ _ _ _ N) by (intros c Hc; cbn [In] in Hc; decompose [or] Hc; try contradiction; subst c; vm_compute; reflexivity). cbn [bind]. eauto. }
  destruct E as (cols & E). destruct (C73_lambda newton enough ex_data cols N E) as [_ C]. destruct (C 0%nat _ _ eq_refl) as (ls & Hl & F2).
  change (with_data ex_data _) with [(0%nat, ("honeycomb_SD6", "internal"))]%string in F2. inversion F2 as [|c l cs ls' SO F3]; subst. cbn [fst snd] in SO.
  exists ex_data, newton, enough, cols, (l :: ls'), l, l1, l2, l3, (1#100)%Q. split; [exact N|]. split; [exact newton_exact|]. split; [exact E|]. split; [exact Hl|]. split; [now left|].
  split; [apply (so_points _ _ _ _ _ _ SO); exists ex_gq; exact PL|]. exists ex_gq. split; [exact PL|reflexivity].
Qed.
Print Assumptions C73_lambda_marks_refuted.

Lemma ex_d_to_q d : exists q, d_to_q ex_gq d "honeycomb_SD6" = Ok q.
Proof.
  unfold d_to_q. change (d_distance (g_rep ex_gq)) with 4. change (d_qubits (g_rep ex_gq)) with 60. change (str_in "surface" "honeycomb_SD6") with false. change (str_in "honeycomb" "honeycomb_SD6") with true. cbn [Z.eqb]. cbv iota. cbn [bind].
  rewrite (near_int_ok _ (60 * (ceil_div d 4 * ceil_div d 4))).
  - cbn [negb assert_ bind]. eauto.
  - rewrite !inject_Z_mult. change (inject_Z 4) with (4#1)%Q. change (inject_Z 60) with (60#1)%Q. field.
Qed.
(** [ex_data] meets the hypotheses of the three theorems on the summary figures: its
    teraquop figure can be drawn, and the point is marked. *)
Example C73_example : recorded_once Qeq_bool ex_data /\
  exists fuel cols ls marks y, plot_teraquop_combo newton fuel ex_data = Ok cols /\ nth_error cols 0 = Some ("SD6"%string, ls, Some marks) /\ In ((1#100)%Q, y) marks /\
    map (s_label _) ls = ["Honeycomb (Standard)"]%string.
Proof.
  destruct ex_data_groups as [N G]. split; [exact N|].
  destruct ex_group_fit as (s & i & E' & Hs & Hi). assert (X : linear_fit_d_to_log_err ex_gq = Ok (s, i)) by (rewrite <- E'; unfold linear_fit_d_to_log_err; now rewrite ex_gq_combo, ex_group_combo).
  destruct (C62_range Q ex_gq 1 12 "SD6" "H" (1#100) (mkLayout 4 6 12 "SD6" "H" (1#100)) "internal" "honeycomb_SD6" (1 / 10 ^ 12) s i newton _ ex_gq_good newton_exact ex_gq_combo) as (enough & d1 & d2 & _ & L & _); try reflexivity; try exact X; try (cbn [length]; lia); try lra.
  assert (T : exists low y high, teraquop_range newton enough ex_gq "honeycomb_SD6" = Ok (low, y, high)).
  { unfold teraquop_range, projected_required_qubit_count, projected_distance, log. rewrite X. cbn [bind]. destruct (Rle_dec (1 / 10 ^ 12) 0) as [K|_]; [lra|]. cbn [bind]. destruct (Req_EM_T s 0) as [K|_]; [lra|]. cbn [bind].
    match goal with |- context [d_to_q ex_gq ?d _] => destruct (ex_d_to_q d) as (q & ->) end. cbn [bind].
    unfold projected_qubit_count_range, log. rewrite ex_gq_combo. cbn [bind]. rewrite log_points_ok; [|intros d y [[= _ <-]|[[= _ <-]|[]]]; lra]. cbn [bind]. change (Z.of_nat (length _) <=? 1)%Z with false. cbv iota.
    destruct (Rle_dec (1 / 10 ^ 12) 0) as [K|_]; [lra|]. cbn [bind]. rewrite map_map. rewrite (map_ext _ (fun '(d, y) => (ln y, IZR d))) by (now intros []). rewrite (L enough (le_n _)). cbn [bind].
    destruct (ex_d_to_q (ceilR d1)) as (q1 & ->), (ex_d_to_q (ceilR d2)) as (q2 & ->). cbn [bind]. eauto. }
  destruct T as (low & y & high & T).
  assert (E : exists cols, plot_teraquop_combo newton enough ex_data = Ok cols).
  { unfold plot_teraquop_combo, combo_styles. cbn [teraquop_columns].
    match goal with |- exists cols, (let! _ := summary_cases ?p _ ?nm ?z 0 (_ :: ?cs) in _) = _ => destruct (case_with p ex_data nm z "honeycomb_SD6" "internal" cs (1#100)%Q ex_gq (low, y, high) N G ex_gq_suppresses T) as ([ls poor] & ->) end.
    { intros c Hc. cbn [In] in Hc. decompose [or] Hc; try contradiction; subst c; vm_compute; reflexivity. }
    cbn [bind]. rewrite !(cases_without _ _ _ _ _ N) by (intros c Hc; cbn [In] in Hc; decompose [or] Hc; try contradiction; subst c; vm_compute; reflexivity). cbn [bind]. eauto. }
  destruct E as (cols & E). destruct (C73_teraquop newton enough ex_data cols N E) as [_ C]. destruct (C 0%nat _ _ eq_refl) as (ls & marks & Hl & F2 & M).
  assert (K : In ((1#100)%Q, y) match marks with Some m => m | None => [] end).
  { apply M. exists "honeycomb_SD6"%string, "internal"%string, ex_gq, low, high. split; [now left|]. split; [reflexivity|]. exists [((1#100)%Q, ex_gq)]. split; [exact G|]. split; [now left|]. split; [exact ex_gq_suppresses|exact T]. }
  destruct marks as [m|]; [|destruct K]. exists enough, cols, ls, m, y. split; [exact E|]. split; [exact Hl|]. split; [exact K|].
  change (with_data ex_data _) with [(0%nat, ("honeycomb_SD6", "internal"))]%string in F2. inversion F2 as [|c l cs ls' SO F3]; subst. inversion F3; subst. cbn [map]. rewrite (so_label _ _ _ _ _ _ SO). reflexivity.
Qed.

(** ** The line fits *)
Lemma position_some {F} (feqb : F -> F -> bool) x l i : position feqb x l = Some i -> exists y, nth_error l i = Some y /\ feqb x y = true.
Proof.
  revert i. induction l as [|y l IH]; intros i; cbn [position]; [discriminate|]. destruct (feqb x y) eqn:E; [intros [= <-]; exists y; auto|].
  destruct (position feqb x l) as [j|]; [|discriminate]. intros [= <-]. exact (IH j eq_refl).
Qed.
Lemma position_same (p q : Q) l : (p == q)%Q -> position Qeq_bool p l = position Qeq_bool q l.
Proof.
  intros E. induction l as [|y l IH]; [reflexivity|]. cbn [position]. rewrite IH. replace (Qeq_bool p y) with (Qeq_bool q y); [reflexivity|].
  destruct (Qeq_bool q y) eqn:A, (Qeq_bool p y) eqn:B; try reflexivity; exfalso.
  - apply Qeq_bool_iff in A. apply Qeq_bool_neq in B. apply B. now rewrite E.
  - apply Qeq_bool_iff in B. apply Qeq_bool_neq in A. apply A. now rewrite <- E.
Qed.
(** What is drawn for one group: the points of its fit and, if it appears to suppress
    errors, the fitted line from error 1 down to 10^-13. *)
Record fit_of (g : lambda_group Q) (m : fit_marks) : Prop := {
  fo_points : combo_data g = Ok (f_scatter m);
  fo_line : (appears_to_be_suppressing_errors g = Ok false /\ f_dashed m = None) \/
            (appears_to_be_suppressing_errors g = Ok true /\ exists x1 x2, f_dashed m = Some (x1, x2) /\ projected_distance g 1 = Ok x1 /\ projected_distance g (1 / 10 ^ 13) = Ok x2) }.
Lemma fit_one_ok data n g m : fit_one data n g = Ok m ->
  f_noise m = n /\ fit_of g m /\ exists i, position Qeq_bool n (all_noises Qeq_bool Qle_bool data) = Some i /\ nth_error few_markers i = Some (f_marker m) /\ nth_error curve_colors i = Some (f_color m).
Proof.
  unfold fit_one. destruct (linear_fit_d_to_log_err g) as [lf|] eqn:E0; [|discriminate]. cbn [bind]. destruct (combo_data g) as [pts|] eqn:Ec; [|discriminate]. cbn [bind].
  unfold p2i. destruct (position Qeq_bool n _) as [i|] eqn:Ep; [|discriminate]. cbn [bind]. destruct (appears_to_be_suppressing_errors g) as [sup|] eqn:Es; [|discriminate]. cbn [bind].
  assert (Fin : forall d, (let! c := py_index curve_colors (Z.of_nat i) in let! m := py_index few_markers (Z.of_nat i) in Ok (mkFit n c m d pts)) = Ok m ->
     f_noise m = n /\ f_scatter m = pts /\ f_dashed m = d /\ nth_error few_markers i = Some (f_marker m) /\ nth_error curve_colors i = Some (f_color m)).
  { intros d. destruct (py_index curve_colors _) as [c|] eqn:E1; [|discriminate]. cbn [bind]. destruct (py_index few_markers _) as [k|] eqn:E2; [|discriminate]. cbn [bind]. intros [= <-]. cbn. apply py_index_inv in E1, E2; try lia. rewrite Nat2Z.id in E1, E2. auto. }
  destruct sup.
  - destruct (projected_distance g 1) as [x1|] eqn:P1; [|discriminate]. cbn [bind]. destruct (projected_distance g (1 / 10 ^ 13)) as [x2|] eqn:P2; [|discriminate]. cbn [bind]. destruct (py_index curve_colors (Z.of_nat i)) as [c|] eqn:E1; [|discriminate]. cbn [bind] in *.
    intros H. destruct (Fin _ H) as (F1 & F2 & F3 & F4 & F5). split; [exact F1|]. split; [|eauto]. split; [now rewrite F2|]. right. split; [exact Es|]. exists x1, x2. auto.
  - cbn [bind]. intros H. destruct (Fin _ H) as (F1 & F2 & F3 & F4 & F5). split; [exact F1|]. split; [|eauto]. split; [now rewrite F2|]. left. auto.
Qed.
(** Each panel has exactly the groups of its style and decoder, by increasing noise; over
    the whole figure a marker stands for one noise value, and a value has one colour. *)
Theorem C74_line_fits : forall (data : qdata) focus fig, recorded_once Qeq_bool data -> plot_lambda_line_fits_combo data focus = Ok fig ->
  (forall col row,
     match at_cell (fit_styles focus) col row with
     | None => at_cell fig col row = None
     | Some (style, decoder) => exists marks groups, at_cell fig col row = Some marks /\ groups_from_data (entries_of data style decoder) = Ok groups /\
         StronglySorted Qlt (map f_noise marks) /\ (forall n, In n (map f_noise marks) <-> In n (map fst groups)) /\
         forall m, In m marks -> exists g, In (f_noise m, g) groups /\ fit_of g m
     end) /\
  (forall col row marks m col' row' marks' m', at_cell fig col row = Some marks -> In m marks -> at_cell fig col' row' = Some marks' -> In m' marks' ->
     ((f_noise m == f_noise m')%Q <-> f_marker m = f_marker m') /\ ((f_noise m == f_noise m')%Q -> f_color m = f_color m')).
Proof.
  intros data focus fig N E. unfold plot_lambda_line_fits_combo in E.
  assert (Cell : forall col row, match at_cell (fit_styles focus) col row with None => at_cell fig col row = None | Some k => exists marks, at_cell fig col row = Some marks /\ fit_panel data k = Ok marks end).
  { intros col row. unfold at_cell. pose proof (mapM_nth _ _ _ col E) as H. destruct (nth_error (fit_styles focus) col) as [[name cases]|]; [|now rewrite H].
    destruct H as ([name' ps] & Hp & H). rewrite Hp. destruct (mapM _ cases) as [ps'|] eqn:Em; [|discriminate]. cbn [bind] in H. injection H as <- <-.
    pose proof (mapM_nth _ _ _ row Em) as H. destruct (nth_error cases row) as [[k|]|] eqn:Er; [| |now rewrite H].
    - destruct H as (b & Hb & H). rewrite Hb. destruct (fit_panel data k) as [ms|]; [|discriminate]. cbn [bind] in H. injection H as <-. eauto.
    - destruct H as (b & Hb & H). injection H as <-. now rewrite Hb. }
  assert (Panel : forall k marks, fit_panel data k = Ok marks -> exists groups, groups_from_data (entries_of data (fst k) (snd k)) = Ok groups /\ map f_noise marks = map fst (by_noise_value groups) /\
    forall m, In m marks -> exists g, In (f_noise m, g) groups /\ fit_one data (f_noise m) g = Ok m).
  { intros [style decoder] marks H. unfold fit_panel in H. rewrite (style_lookup data style decoder N) in H. cbn [fst snd]. destruct (groups_from_data (entries_of data style decoder)) as [groups|]; [|discriminate]. cbn [bind] in H. exists groups. split; [reflexivity|]. split.
    - apply (mapM_map _ fst f_noise) in H; [exact H|]. intros [n g] m _ Hm. now destruct (fit_one_ok _ _ _ _ Hm) as (-> & _).
    - intros m Hm. destruct (mapM_in _ _ _ _ H Hm) as ([n g] & Hg & Em). exists g. destruct (fit_one_ok _ _ _ _ Em) as (-> & _). split; [now apply in_isort in Hg|exact Em]. }
  split.
  - intros col row. specialize (Cell col row). destruct (at_cell (fit_styles focus) col row) as [[style decoder]|]; [|exact Cell]. destruct Cell as (marks & C1 & C2). destruct (Panel _ _ C2) as (groups & G1 & G2 & G3). cbn [fst snd] in G1.
    exists marks, groups. split; [exact C1|]. split; [exact G1|]. rewrite G2. split; [apply (groups_facts _ _ G1)|]. split.
    + intros n. unfold by_noise_value. split; intros (x & <- & Hx)%in_map_iff; apply in_map; [now apply in_isort in Hx|now apply in_isort].
    + intros m Hm. destruct (G3 m Hm) as (g & Hg & Em). exists g. split; [exact Hg|]. apply (fit_one_ok _ _ _ _ Em).
  - assert (Look : forall col row marks m, at_cell fig col row = Some marks -> In m marks -> exists i, position Qeq_bool (f_noise m) (all_noises Qeq_bool Qle_bool data) = Some i /\ nth_error few_markers i = Some (f_marker m) /\ nth_error curve_colors i = Some (f_color m)).
    { intros col row marks m C Hm. specialize (Cell col row). destruct (at_cell (fit_styles focus) col row) as [k|]; [|congruence]. destruct Cell as (marks' & C1 & C2). assert (marks' = marks) by congruence. subst. destruct (Panel _ _ C2) as (groups & _ & _ & G3). destruct (G3 m Hm) as (g & _ & Em).
      apply (fit_one_ok _ _ _ _ Em). }
    intros col row marks m col' row' marks' m' C Hm C' Hm'. destruct (Look _ _ _ _ C Hm) as (i & I1 & I2 & I3), (Look _ _ _ _ C' Hm') as (j & J1 & J2 & J3).
    assert (EQ : (f_noise m == f_noise m')%Q -> i = j) by (intros K; rewrite (position_same _ _ _ K) in I1; congruence). split; [split|].
    + intros K. rewrite (EQ K) in I2. congruence.
    + intros K. assert (i = j) by (eapply NoDup_nth_error; [exact few_distinct|apply nth_error_Some; congruence|congruence]). subst j.
      destruct (position_some _ _ _ _ I1) as (y & Y1 & Y2), (position_some _ _ _ _ J1) as (y' & Y1' & Y2'). assert (y' = y) by congruence. subst. apply Qeq_bool_iff in Y2, Y2'. now rewrite Y2, Y2'.
    + intros K. rewrite (EQ K) in I3. congruence.
Qed.
Print Assumptions C74_line_fits.
(** In the full figure every problem of the tables belongs to exactly one panel, in the
    column of its noise model; the focused figure has the panels of the correlated decoder. *)
Theorem C74_every_problem : forall F (d : desc F), of_tables d ->
  exists col row, at_cell (fit_styles false) col row = Some (d_style d, d_decoder d) /\
    (forall col' row', at_cell (fit_styles false) col' row' = Some (d_style d, d_decoder d) -> (col', row') = (col, row)) /\
    (exists name, option_map fst (nth_error (fit_styles false) col) = Some name /\ fits_style name (d_style d)) /\
    (d_decoder d = "internal_correlated"%string <-> exists row', at_cell (fit_styles true) col row' = Some (d_style d, d_decoder d)).
Proof.
  intros F d Hd. apply of_tables_shape in Hd as (H1 & H2).
  assert (Hs : In (d_style d) ["honeycomb_SI1000"; "honeycomb_SD6"; "honeycomb_EM3_v2"; "surface_SD6"; "surface_SI1000"]%string) by (destruct H2 as [[[H _] _]|[[H _] _]]; cbn [In] in *; tauto).
  clear H2. generalize dependent (d_style d). generalize dependent (d_decoder d). clear d F. intros de H1 st Hs.
  cbn [In] in H1, Hs. decompose [or] H1; try contradiction; decompose [or] Hs; try contradiction; subst.
  all: match goal with |- exists c r, at_cell ?t c r = Some ?k /\ _ =>
      let f := eval vm_compute in (find (fun a => match at_cell t (fst a) (snd a) with Some k' => pair_eqb k' k | None => false end) (list_prod (seq 0 3) (seq 0 4))) in
      match f with Some (?c, ?r) => exists c, r end end.
  all: split; [reflexivity|]; split; [|split; [eexists; split; [reflexivity|unfold fits_style; cbn; tauto]|]].
  all: try (intros c r X; unfold at_cell in X; destruct c as [|[|[|c]]]; cbn [nth_error fit_styles] in X; [| | |destruct c; discriminate X]; destruct r as [|[|[|[|r]]]]; cbn [nth_error snd] in X; try discriminate X; try reflexivity; destruct r; discriminate X).
  all: split; [intros X; try discriminate X; (exists 0%nat; reflexivity) || (exists 1%nat; reflexivity)|].
  all: intros (r & X); destruct r as [|[|r]]; cbn in X; try discriminate X; try reflexivity; destruct r; discriminate X.
Qed.
Print Assumptions C74_every_problem.
(** [ex_data] again: its panel has one group, with the line drawn. *)
Example C74_example : exists fig m, plot_lambda_line_fits_combo ex_data false = Ok fig /\ at_cell fig 0 2 = Some [m] /\ map fst (f_scatter m) = [4; 8] /\ f_dashed m <> None.
Proof.
  destruct ex_data_groups as [N G].
  assert (Emp : forall k, entries_of ex_data (fst k) (snd k) = [] -> fit_panel ex_data k = Ok []) by (intros [s d] K; unfold fit_panel; rewrite (style_lookup ex_data s d N); cbn [fst snd] in K; rewrite K; reflexivity).
  destruct ex_group_fit as (s & i & E' & Hs & Hi). assert (X : linear_fit_d_to_log_err ex_gq = Ok (s, i)) by (rewrite <- E'; unfold linear_fit_d_to_log_err; now rewrite ex_gq_combo, ex_group_combo).
  assert (PD : forall t, (0 < t)%R -> exists x, projected_distance ex_gq t = Ok x).
  { intros t Ht. unfold projected_distance, log. rewrite X. cbn [bind]. destruct (Rle_dec t 0) as [K|_]; [lra|]. cbn [bind]. destruct (Req_EM_T s 0) as [K|_]; [lra|]. eauto. }
  destruct (PD 1%R) as (x1 & P1); [lra|]. destruct (PD (1 / 10 ^ 13)%R) as (x2 & P2); [apply Rdiv_lt_0_compat; [lra|apply pow_lt; lra]|].
  assert (F1 : fit_panel ex_data ("honeycomb_SD6", "internal")%string = Ok [mkFit (1#100) "tab:blue" "o" (Some (x1, x2)) [(4, (7 / 16)%R); (8, (15 / 64)%R)]]).
  { unfold fit_panel. rewrite (style_lookup ex_data _ _ N), G. cbn [bind]. change (by_noise_value [((1#100)%Q, ex_gq)]) with [((1#100)%Q, ex_gq)]. cbn [mapM]. unfold fit_one. rewrite X, ex_gq_combo. cbn [bind]. change (p2i Qeq_bool Qle_bool ex_data (1#100)) with (Ok 0). cbn [bind].
    rewrite ex_gq_suppresses. cbn [bind]. rewrite P1, P2. cbn [bind]. change (py_index curve_colors 0) with (Ok "tab:blue"%string). change (py_index few_markers 0) with (Ok "o"%char). reflexivity. }
  unfold plot_lambda_line_fits_combo, fit_styles. cbn [mapM]. rewrite F1. rewrite !Emp by (vm_compute; reflexivity). cbn [bind].
  eexists _, _. split; [reflexivity|]. split; [reflexivity|]. split; [reflexivity|discriminate].
Qed.
