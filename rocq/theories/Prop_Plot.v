(** C68: the curves and bands of plot_data.  C69: markers and colours tell them apart.
    C70: tick labels. *)
From Coq Require Import QArith.
From Coq Require Import Reals Lra.
From Coq Require Import Ascii.
From Verif Require Import Prelude Layout Collect Prop_Collect Prop_Collect2 Prob Prop_Prob Prop_Prob2 Paper Prop_Paper Prop_Paper3 PaperFit Prop_PaperFit Plot.
Open Scope R_scope.

(** ** C68 *)
(** The same problem at another noise value. *)
Definition with_noise {F} (d : desc F) (n : F) : desc F :=
  mkDesc (d_width d) (d_height d) (d_distance d) (d_qubits d) (d_rounds d) n (d_style d) (d_obs d) (d_decoder d).
Definition before {F} (fleb : F -> F -> bool) (a b : F) : Prop := fleb a b = true /\ a <> b.
(** Recorded data that can be plotted: positive numbers of rounds, distance and shots. *)
Definition plottable {F} (e : desc F * shot_data F) : Prop :=
  (1 <= d_rounds (fst e))%Z /\ (1 <= d_distance (fst e))%Z /\ (0 < num_shots (snd e))%Z /\ (0 <= num_correct (snd e) <= num_shots (snd e))%Z.
(** The curve of problem [d] (its noise does not matter): the band has every noise value
    recorded for the problem, the line those with at least one error, both in increasing
    order; values are rates per code cell, and the line runs inside the band. *)
Record curve_of {F} (fleb : F -> F -> bool) (data : problem_data F) (d : desc F) (c : curve F) : Prop := {
  co_label : c_label c = (str_int (d_rounds d) ++ " rounds, " ++ str_int (d_width d) ++ "x" ++ str_int (d_height d) ++ " data")%string;
  co_band_sorted : StronglySorted (before fleb) (map fst (c_band c));
  co_line_sorted : StronglySorted (before fleb) (map fst (c_points c));
  co_band_all : forall n, In n (map fst (c_band c)) <-> exists s, In (with_noise d n, s) data;
  co_line_all : forall n, In n (map fst (c_points c)) <-> exists s, In (with_noise d n, s) data /\ (num_correct s < num_shots s)%Z;
  co_band : forall n lo hi, In (n, (lo, hi)) (c_band c) -> exists s cells low high, In (with_noise d n, s) data /\
    is_cells (d_rounds d) (d_distance d) cells /\ likely_error_rate_bounds (num_shots s) (num_correct s) (1 / 1000) = Ok (low, high) /\
    cell_rate cells low lo /\ cell_rate cells high hi;
  co_line : forall n y, In (n, y) (c_points c) -> exists s cells r, In (with_noise d n, s) data /\
    is_cells (d_rounds d) (d_distance d) cells /\ is_rate s r /\ cell_rate cells r y;
  co_inside : forall n y lo hi, In (n, y) (c_points c) -> In (n, (lo, hi)) (c_band c) -> lo <= y <= hi }.

Lemma band_bounds {F} (s : shot_data F) : (0 < num_shots s)%Z -> (0 <= num_correct s <= num_shots s)%Z ->
  exists low high, likely_error_rate_bounds (num_shots s) (num_correct s) (1 / 1000) = Ok (low, high) /\ 0 <= low <= rate s /\ rate s <= high <= 1.
Proof.
  intros H1 H2. destruct (C50_bounds (num_shots s) (num_correct s) (1 / 1000) H1 H2 ltac:(lra)) as (kl & kh & E & _ & _ & B1 & B2 & _).
  cbv zeta in *. eexists _, _. split; [exact E|]. unfold rate. replace (num_shots s =? 0)%Z with false by lia. split; [exact B1|exact B2].
Qed.

Section Points.
  Context {F : Type} (feqb fleb : F -> F -> bool) (Hf : forall a b, feqb a b = true <-> a = b).
  (** what the loop over the noise values of one group gives *)
  Record loop_result (cells : Z) (l : list (F * shot_data F)) (ps : list (F * R)) (bs : list (F * (R * R))) : Prop := {
    lr_band : map fst bs = map fst l;
    lr_line : map fst ps = map fst (filter (fun e => num_correct (snd e) <? num_shots (snd e))%Z l);
    lr_bs : forall n lo hi, In (n, (lo, hi)) bs -> exists s low high, In (n, s) l /\
      likely_error_rate_bounds (num_shots s) (num_correct s) (1 / 1000) = Ok (low, high) /\
      total_error_to_per_piece_error low cells = Ok lo /\ total_error_to_per_piece_error high cells = Ok hi;
    lr_ps : forall n y, In (n, y) ps -> exists s, In (n, s) l /\ total_error_to_per_piece_error (rate s) cells = Ok y }.
  Lemma loop_ok cells l : (1 <= cells)%Z -> Forall (fun e => (0 < num_shots (snd e))%Z /\ (0 <= num_correct (snd e) <= num_shots (snd e))%Z) l ->
    exists ps bs, points_and_band cells l = Ok (ps, bs) /\ loop_result cells l ps bs.
  Proof.
    intros Hc. induction l as [|[n s] l IH]; intros H; [exists [], []; split; [reflexivity|split; [reflexivity|reflexivity|intros n lo hi []|intros n y []]]|].
    inversion H as [|? ? [H1 H2] Hl]; subst. cbn [snd] in *. destruct (IH Hl) as (ps & bs & E & [L1 L2 L3 L4]). clear IH.
    destruct (band_bounds s H1 H2) as (low & high & EB & B1 & B2).
    destruct (cell_rate_ok (rate s) cells) as (y & Ey & _); [lra|exact Hc|]. destruct (cell_rate_ok low cells) as (yl & El & _); [lra|exact Hc|]. destruct (cell_rate_ok high cells) as (yh & Eh & _); [lra|exact Hc|].
    cbn [points_and_band]. rewrite EB, E. destruct (num_correct s <? num_shots s)%Z eqn:C.
    - rewrite Ey. cbn [bind]. rewrite El, Eh. cbn [bind]. eexists _, _. split; [reflexivity|]. split.
      + cbn [map fst]. now rewrite L1.
      + cbn [app map fst filter snd]. rewrite C. cbn [map fst]. now rewrite L2.
      + intros m lo hi [[= <- <- <-]|K]; [exists s, low, high; split; [now left|auto]|]. destruct (L3 _ _ _ K) as (s' & a & b & I1 & I2). exists s', a, b. split; [now right|exact I2].
      + cbn [app]. intros m z [[= <- <-]|K]; [exists s; split; [now left|exact Ey]|]. destruct (L4 _ _ K) as (s' & I1 & I2). exists s'. split; [now right|exact I2].
    - cbn [bind]. rewrite El, Eh. cbn [bind]. eexists _, _. split; [reflexivity|]. split.
      + cbn [map fst]. now rewrite L1.
      + cbn [app map fst filter snd]. rewrite C. exact L2.
      + intros m lo hi [[= <- <- <-]|K]; [exists s, low, high; split; [now left|auto]|]. destruct (L3 _ _ _ K) as (s' & a & b & I1 & I2). exists s', a, b. split; [now right|exact I2].
      + cbn [app]. intros m z K. destruct (L4 _ _ K) as (s' & I1 & I2). exists s'. split; [now right|exact I2].
  Qed.

  Context (FL : linear_order fleb).
  Lemma dict_distinct {A} (key : A -> F) (val : A -> shot_data F) (l : list A) : forall acc,
    NoDup (map fst acc ++ map key l) ->
    fold_left (fun m a => dupd feqb (key a) (val a) (fun _ => val a) m) l acc = acc ++ map (fun a => (key a, val a)) l.
  Proof.
    induction l as [|a l IH]; intros acc N; cbn [fold_left map]; [now rewrite app_nil_r|].
    rewrite dupd_fresh; [|exact Hf|].
    - rewrite IH; [now rewrite <- app_assoc|]. rewrite map_app. cbn [map fst]. rewrite <- app_assoc. exact N.
    - apply NoDup_app_inv in N as (_ & _ & N). intros K. apply (N _ K). now left.
  Qed.
  Lemma sorted_before {V} (l : list (F * V)) : NoDup (map fst l) ->
    StronglySorted (before fleb) (map fst (isort (fun a b => fleb (fst a) (fst b)) l)).
  Proof.
    intros N. destruct FL as (T & R & _).
    assert (S : StronglySorted (le_ (fun a b : F * V => fleb (fst a) (fst b))) (isort (fun a b => fleb (fst a) (fst b)) l)) by (apply isort_sorted; [intros; apply T|intros x y z; apply R]).
    assert (N' : NoDup (map fst (isort (fun a b => fleb (fst a) (fst b)) l))) by (eapply Permutation_NoDup; [apply Permutation_map, isort_perm|exact N]).
    revert S N'. generalize (isort (fun a b : F * V => fleb (fst a) (fst b)) l). intros m. induction m as [|a m IH]; intros S N'; cbn [map]; [constructor|].
    inversion S as [|? ? S1 S2]; subst. inversion N' as [|? ? N1 N2]; subst. constructor; [now apply IH|].
    apply Forall_forall. intros x (b & <- & Hb)%in_map_iff. rewrite Forall_forall in S2. split; [apply (S2 b Hb)|]. intros E. apply N1. rewrite E. now apply in_map.
  Qed.
  Lemma sorted_filter {A} (P : A -> A -> Prop) {V} (g : V -> A) (f : V -> bool) l : StronglySorted P (map g l) -> StronglySorted P (map g (filter f l)).
  Proof.
    induction l as [|x l IH]; intros S; [constructor|]. inversion S as [|? ? S1 S2]; subst. cbn [filter]. destruct (f x); [|now apply IH]. constructor; [now apply IH|].
    apply Forall_forall. intros y (z & <- & Hz)%in_map_iff. apply filter_In in Hz as [Hz _]. rewrite Forall_forall in S2. apply S2. now apply in_map.
  Qed.

  (** the noise values of one group *)
  Lemma by_noise_spec fzero (data : problem_data F) d : NoDup (map fst data) -> d_noise d = fzero ->
    let g := filter (fun e => desc_eqb feqb (without_noise fzero (fst e)) d) data in
    let l := by_noise feqb fleb g in
    StronglySorted (before fleb) (map fst l) /\ NoDup (map fst l) /\ (forall n s, In (n, s) l <-> In (with_noise d n, s) data).
  Proof.
    intros N Hd g l. pose proof (desc_eqb_iff feqb Hf) as He.
    assert (Hg : forall e, In e g <-> In e data /\ fst e = with_noise d (d_noise (fst e))).
    { intros [k s]. unfold g. rewrite filter_In. cbn [fst]. rewrite He. split; intros [H E]; (split; [exact H|]).
      - unfold without_noise, with_changes in E. destruct k, d. unfold with_noise in *. cbn in *. congruence.
      - unfold without_noise, with_changes. destruct k, d. unfold with_noise in *. cbn in *. congruence. }
    assert (Ng : NoDup (map (fun e => d_noise (fst e)) g)).
    { assert (Nf : NoDup (map fst g)) by (unfold g; clear -N; induction data as [|e m IH]; [constructor|]; inversion N; subst; cbn [filter]; destruct (desc_eqb _ _ _); [|auto];
        cbn [map]; constructor; [|auto]; intros (x & Ex & Hx)%in_map_iff; apply filter_In in Hx as [Hx _]; rewrite <- Ex in *; match goal with K : ~ In _ _ |- _ => apply K end; now apply in_map).
      revert Nf Hg. generalize g. intros m. clear -Hf. intros Nf Hg. assert (K : forall e, In e m -> fst e = with_noise d (d_noise (fst e))) by (intros e H; now apply Hg).
      clear Hg. induction m as [|e m IH]; [constructor|]. inversion Nf; subst. cbn [map]. constructor; [|apply IH; [assumption|intros; apply K; now right]].
      intros (x & Ex & Hx)%in_map_iff. match goal with K : ~ In _ _ |- _ => apply K end. rewrite (K e (or_introl eq_refl)), <- Ex, <- (K x (or_intror Hx)). now apply in_map. }
    assert (El : l = isort (fun a b => fleb (fst a) (fst b)) (map (fun e => (d_noise (fst e), snd e)) g)).
    { unfold l, by_noise. f_equal. etransitivity; [|exact (dict_distinct (fun e : desc F * shot_data F => d_noise (fst e)) snd g [] Ng)]. clear.
      generalize (@nil (F * shot_data F)). induction g as [|[k v] m IH]; intros acc; [reflexivity|]. cbn [fold_left]. now rewrite IH. }
    assert (Nm : NoDup (map fst (map (fun e : desc F * shot_data F => (d_noise (fst e), snd e)) g))) by (rewrite map_map; cbn [fst]; exact Ng).
    split; [rewrite El; now apply sorted_before|]. split; [rewrite El; eapply Permutation_NoDup; [apply Permutation_map, isort_perm|exact Nm]|].
    intros n s. rewrite El, in_isort, in_map_iff. split.
    - intros ([k v] & [= <- <-] & H). apply Hg in H as [H E]. cbn [fst snd] in *. now rewrite <- E.
    - intros H. exists (with_noise d n, s). split; [reflexivity|]. apply Hg. split; [exact H|reflexivity].
  Qed.
End Points.

Lemma py_index_nth {A} (l : list A) i x : (0 <= i)%Z -> nth_error l (Z.to_nat i) = Some x -> py_index l i = Ok x.
Proof.
  intros Hi E. unfold py_index. assert (L : (Z.to_nat i < length l)%nat) by (apply nth_error_Some; congruence).
  replace (i <? 0)%Z with false by lia. replace ((0 <=? i) && (i <? Z.of_nat (length l)))%Z with true by lia. now rewrite E.
Qed.
Lemma py_index_inv {A} (l : list A) i x : (0 <= i)%Z -> py_index l i = Ok x -> nth_error l (Z.to_nat i) = Some x.
Proof.
  intros Hi. unfold py_index. replace (i <? 0)%Z with false by lia. destruct (_ && _)%bool; [|discriminate]. destruct (nth_error _ _); [|discriminate]. congruence.
Qed.
Lemma py_index_past {A} (l : list A) i : (Z.of_nat (length l) <= i)%Z -> py_index l i = Err IndexError.
Proof. intros Hi. unfold py_index. replace (i <? 0)%Z with false by lia. replace ((0 <=? i) && (i <? Z.of_nat (length l)))%Z with false by lia. reflexivity. Qed.
Lemma repeated_length {A} n (l : list A) : length (repeated n l) = (n * length l)%nat.
Proof. unfold repeated. induction n as [|n IH]; [reflexivity|]. cbn [repeat concat]. rewrite app_length, IH. reflexivity. Qed.
Lemma curve_markers_length : Z.of_nat (length curve_markers) = 1800%Z.
Proof. vm_compute. reflexivity. Qed.
Lemma marker_at i : (0 <= i < 30)%Z -> exists m c, py_index curve_markers i = Ok m /\ py_index curve_colors i = Ok c.
Proof.
  intros Hi. assert (L1 : (Z.to_nat i < length curve_markers)%nat) by (apply Nat2Z.inj_lt; rewrite curve_markers_length; lia).
  assert (L2 : (Z.to_nat i < length curve_colors)%nat) by (change (length curve_colors) with 30%nat; lia).
  destruct (nth_error curve_markers (Z.to_nat i)) as [m|] eqn:E1; [|apply nth_error_None in E1; lia].
  destruct (nth_error curve_colors (Z.to_nat i)) as [c|] eqn:E2; [|apply nth_error_None in E2; lia].
  exists m, c. split; apply py_index_nth; auto; lia.
Qed.
Lemma color_past i : (30 <= i)%Z -> py_index curve_colors i = Err IndexError.
Proof. intros Hi. apply py_index_past. exact Hi. Qed.

Section PlotData.
  Context {F : Type} (fzero : F) (feqb fleb : F -> F -> bool) (Hf : forall a b, feqb a b = true <-> a = b) (FL : linear_order fleb).
  Context (data : problem_data F) (N : NoDup (map fst data)) (G : Forall plottable data).

  Lemma one_curve_spec offset order d s : In (d, s) data ->
    let k := without_noise fzero d in
    let vals := filter (fun e => desc_eqb feqb (without_noise fzero (fst e)) k) data in
    (0 <= order + offset)%Z ->
    ((order + offset < 30)%Z -> exists c, one_curve feqb fleb offset order k vals = Ok c /\ curve_of fleb data d c /\
       c_zorder c = (100 - order)%Z /\ py_index curve_markers (order + offset) = Ok (c_marker c) /\ py_index curve_colors (order + offset) = Ok (c_color c)) /\
    ((30 <= order + offset)%Z -> one_curve feqb fleb offset order k vals = Err IndexError).
  Proof.
    intros Hin k vals Ho. pose proof G as G'. rewrite Forall_forall in G'. destruct (G' _ Hin) as (P1 & P2 & _). cbn [fst] in P1, P2.
    assert (Kr : d_rounds k = d_rounds d) by reflexivity. assert (Kd : d_distance k = d_distance d) by reflexivity.
    destruct (by_noise_spec feqb fleb Hf FL fzero data k N eq_refl) as (S & Nl & I). cbv zeta in S, Nl, I. fold vals in S, Nl, I. set (l := by_noise feqb fleb vals) in *.
    assert (I' : forall n s, In (n, s) l <-> In (with_noise d n, s) data) by exact I. clear I.
    destruct (cells_spec (d_rounds d) (d_distance d) P1 P2) as [C1 C2]. set (cells := ceil_div (d_rounds d) (d_distance d)) in *.
    destruct (loop_ok cells l C1) as (ps & bs & E & [L1 L2 L3 L4]).
    { apply Forall_forall. intros [n v] H. apply I' in H. destruct (G' _ H) as (_ & _ & H3 & H4). split; assumption. }
    unfold one_curve. rewrite Kr, Kd. replace (d_distance d =? 0)%Z with false by lia. fold cells. cbn [bind]. fold l. rewrite E. cbn [bind].
    assert (CR : forall r y, 0 <= r <= 1 -> total_error_to_per_piece_error r cells = Ok y -> cell_rate (Z.to_nat cells) r y).
    { intros r y Hr Hy. destruct (cell_rate_ok r cells Hr C1) as (q & Eq & Hc & _). assert (q = y) by congruence. now subst. }
    assert (RB : forall n v, In (n, v) l -> exists low high, likely_error_rate_bounds (num_shots v) (num_correct v) (1 / 1000) = Ok (low, high) /\ 0 <= low <= rate v /\ rate v <= high <= 1).
    { intros n v H. apply I' in H. destruct (G' _ H) as (_ & _ & H3 & H4). now apply band_bounds. }
    assert (U : forall n v w, In (n, v) l -> In (n, w) l -> v = w).
    { intros n v w Hv Hw. apply (dget_in _ Hf) in Hv; [|exact Nl]. apply (dget_in _ Hf) in Hw; [|exact Nl]. congruence. }
    split; intros Hlt.
    - destruct (marker_at (order + offset) ltac:(lia)) as (m & c & Em & Ec). rewrite Em, Ec. cbn [bind]. eexists. split; [reflexivity|].
      split; [|split; [reflexivity|split; [reflexivity|reflexivity]]].
      split; cbn [c_label c_band c_points].
      + reflexivity.
      + rewrite L1. exact S.
      + rewrite L2. now apply sorted_filter.
      + intros n. rewrite L1, in_map_iff. split; [intros ([n' v] & <- & H); exists v; now apply I'|]. intros (v & H). exists (n, v). split; [reflexivity|now apply I'].
      + intros n. rewrite L2, in_map_iff. split.
        * intros ([n' v] & <- & H). apply filter_In in H as [H K]. exists v. split; [now apply I'|]. cbn [snd] in K. lia.
        * intros (v & H & K). exists (n, v). split; [reflexivity|]. apply filter_In. split; [now apply I'|]. cbn [snd]. lia.
      + intros n lo hi H. destruct (L3 _ _ _ H) as (v & low & high & H1 & H2 & H3 & H4). destruct (RB _ _ H1) as (low' & high' & H2' & B1 & B2). rewrite H2 in H2'. injection H2' as -> ->.
        exists v, (Z.to_nat cells), low', high'. split; [now apply I'|]. split; [exact C2|]. split; [exact H2|]. split; apply CR; (assumption || lra).
      + intros n y H. destruct (L4 _ _ H) as (v & H1 & H2). destruct (RB _ _ H1) as (low' & high' & _ & B1 & B2). exists v, (Z.to_nat cells), (rate v). split; [now apply I'|]. split; [exact C2|]. split; [now apply rate_is|].
        apply CR; [lra|exact H2].
      + intros n y lo hi Hy Hb. destruct (L3 _ _ _ Hb) as (v & low & high & H1 & H2 & H3 & H4). destruct (L4 _ _ Hy) as (w & H5 & H6). pose proof (U _ _ _ H1 H5). subst w.
        destruct (RB _ _ H1) as (low' & high' & H2' & B1 & B2). rewrite H2 in H2'. injection H2' as -> ->.
        split; [eapply (C48_monotone low' (rate v)); eauto; lra|eapply (C48_monotone (rate v) high'); eauto; lra].
    - rewrite color_past by lia. destruct (py_index curve_markers _) eqn:Em; [reflexivity|]. cbn [bind]. unfold py_index in Em. destruct (_ && _)%bool; [destruct (nth_error _ _)|]; congruence.
  Qed.

  (** [styled offset order cs]: the markers, colours and drawing order of the curves *)
  Fixpoint styled (offset order : Z) (cs : list (curve F)) : Prop :=
    match cs with
    | [] => True
    | c :: r => c_zorder c = (100 - order)%Z /\ py_index curve_markers (order + offset) = Ok (c_marker c) /\ py_index curve_colors (order + offset) = Ok (c_color c) /\ styled offset (order + 1) r
    end.
  Lemma curves_from_spec offset groups : (0 <= offset)%Z ->
    (forall k g, In (k, g) groups -> (exists d s, In (d, s) data /\ k = without_noise fzero d) /\ g = filter (fun e => desc_eqb feqb (without_noise fzero (fst e)) k) data) ->
    forall order, (0 <= order)%Z ->
    ((Z.of_nat (length groups) + order + offset <= 30)%Z -> exists cs, curves_from feqb fleb offset order groups = Ok cs /\ Forall2 (curve_of fleb data) (map fst groups) cs /\ styled offset order cs) /\
    (groups <> [] -> (30 < Z.of_nat (length groups) + order + offset)%Z -> curves_from feqb fleb offset order groups = Err IndexError).
  Proof.
    intros Hoff. induction groups as [|[k g] groups IH]; intros Hg order Ho; [split; [exists []; split; [reflexivity|split; [constructor|exact Logic.I]]|congruence]|].
    destruct (Hg k g (or_introl eq_refl)) as [(d & s & Hin & Ek) Eg]. destruct (IH (fun k g H => Hg k g (or_intror H)) (order + 1)%Z ltac:(lia)) as [IH1 IH2].
    destruct (one_curve_spec offset order d s Hin ltac:(lia)) as [O1 O2]. rewrite <- Ek in O1, O2. rewrite <- Eg in O1, O2. cbn [length curves_from map fst]. rewrite Nat2Z.inj_succ. split.
    - intros L. destruct O1 as (c & Ec & Cc & S1 & S2 & S3); [lia|]. destruct IH1 as (cs & Ecs & Ccs & Scs); [lia|]. rewrite Ec, Ecs. cbn [bind]. eexists. split; [reflexivity|]. split; [|cbn [styled]; auto].
      constructor; [|exact Ccs]. rewrite Ek. destruct Cc as [X1 X2 X3 X4 X5 X6 X7 X8]. split; assumption.
    - intros _ L. destruct (Z.ltb_spec (order + offset) 30) as [K|K].
      + destruct O1 as (c & Ec & _); [exact K|]. rewrite Ec. cbn [bind]. rewrite IH2; [reflexivity| |lia]. destruct groups; [cbn [length] in L; lia|discriminate].
      + rewrite O2 by exact K. reflexivity.
  Qed.
End PlotData.

(** the order of descriptions, as in C59 but without reading and printing floats *)
Section DescOrder.
  Context {F : Type} (feqb fleb : F -> F -> bool) (Hf : forall a b, feqb a b = true <-> a = b) (FL : linear_order fleb).
  Definition as_tuple (d : desc F) := (d_width d, (d_height d, (d_distance d, (d_qubits d, (d_rounds d, (d_noise d, (d_style d, (d_obs d, (d_decoder d, tt))))))))).
  Lemma desc_linear_plain : linear_order (desc_leb feqb fleb).
  Proof.
    assert (U : linear_order (fun _ _ : unit => true)) by (split; [auto|split; auto]; now intros [] []).
    pose proof (fun B (lb : B -> B -> bool) H => lex_linear Z.eqb Z.leb lb Z.eqb_eq Z_linear H) as LZ.
    pose proof (fun B (lb : B -> B -> bool) H => lex_linear String.eqb String.leb lb String.eqb_eq string_linear H) as LS.
    pose proof (fun B (lb : B -> B -> bool) H => lex_linear feqb fleb lb Hf FL H) as LF.
    pose proof (LZ _ _ (LZ _ _ (LZ _ _ (LZ _ _ (LZ _ _ (LF _ _ (LS _ _ (LS _ _ (LS _ _ U))))))))) as (T & R & A).
    split; [|split].
    - intros x y. exact (T (as_tuple x) (as_tuple y)).
    - intros x y z. exact (R (as_tuple x) (as_tuple y) (as_tuple z)).
    - intros x y H1 H2. assert (E : as_tuple x = as_tuple y) by exact (A (as_tuple x) (as_tuple y) H1 H2). destruct x, y. unfold as_tuple in E. simpl in E. congruence.
  Qed.
  Lemma leb_lt_plain a b : desc_leb feqb fleb a b = true -> a <> b -> desc_lt fleb a b.
  Proof.
    intros H Hne. unfold desc_leb, lex in H. unfold desc_lt. cbn [lexlt].
    repeat match type of H with (if ?c then _ else _) = true => let E := fresh "E" in destruct c eqn:E;
      [right; (rewrite Z.eqb_eq in E || rewrite String.eqb_eq in E || (apply Hf in E)); split; [exact E|] | left] end.
    all: try match goal with N : (_ =? _) = false |- _ => apply Z.eqb_neq in N; apply Z.leb_le in H; lia end.
    all: try (unfold String.ltb; unfold String.leb in H;
      match goal with |- context [String.compare ?x ?y] => destruct (String.compare x y) eqn:C; [|reflexivity|discriminate]; apply String.compare_eq_iff in C end;
      match goal with N : (_ =? _)%string = false |- _ => apply String.eqb_neq in N; congruence end).
    - exfalso. apply Hne. destruct a, b. simpl in *. congruence.
    - split; [exact H|]. intros K. apply Hf in K. congruence.
  Qed.
End DescOrder.

(** One curve per recorded problem (leaving out the noise), in the order of the
    problems; and with more than 30 styles needed, an IndexError instead of a figure. *)
Theorem C68_curves : forall F (fzero : F) feqb fleb data marker_offset,
  (forall a b, feqb a b = true <-> a = b) -> linear_order fleb -> NoDup (map fst data) -> Forall plottable data -> (0 <= marker_offset)%Z ->
  exists problems, StronglySorted (desc_lt fleb) problems /\
    (forall k, In k problems <-> exists d s, In (d, s) data /\ k = with_noise d fzero) /\
    ((Z.of_nat (length problems) + marker_offset <= 30)%Z -> exists curves,
      plot_data fzero feqb fleb data marker_offset = Ok curves /\ Forall2 (curve_of fleb data) problems curves) /\
    (problems <> [] -> (30 < Z.of_nat (length problems) + marker_offset)%Z -> plot_data fzero feqb fleb data marker_offset = Err IndexError).
Proof.
  intros F fzero feqb fleb data off Hf FL N G Ho. pose proof (desc_eqb_iff feqb Hf) as He.
  destruct (C43_grouped_by feqb (desc_eqb feqb) (desc_leb feqb fleb) (without_noise fzero) data Hf He N) as (A1 & A2 & A3 & _ & A5). cbv zeta in *.
  unfold plot_data. set (GS := grouped_by _ _ _ _ data) in *. exists (map fst GS).
  assert (Hg : forall k g, In (k, g) GS -> (exists d s, In (d, s) data /\ k = without_noise fzero d) /\ g = filter (fun e => desc_eqb feqb (without_noise fzero (fst e)) k) data).
  { intros k g H. apply A2 in H as [Hne Eg]. split; [|exact Eg]. destruct g as [|[d s] g]; [congruence|]. assert (H : In (d, s) ((d, s) :: g)) by now left. rewrite Eg in H. apply filter_In in H as [H K]. cbn [fst] in K. apply He in K. eauto. }
  destruct (curves_from_spec fzero feqb fleb Hf FL data N G off GS Ho Hg 0%Z ltac:(lia)) as [C1 C2].
  split; [|split; [|split]].
  - destruct (desc_linear_plain feqb fleb Hf FL) as (LT & LR & LA).
    specialize (A5 LT LR). clear -A1 A5 Hf FL. revert A1 A5. generalize (map fst GS). intros m. induction m as [|a m IH]; intros N S; [constructor|].
    inversion N; subst. inversion S as [|? ? S1 S2]; subst. constructor; [now apply IH|]. apply Forall_forall. intros x Hx. rewrite Forall_forall in S2.
    apply (leb_lt_plain feqb fleb Hf); [now apply S2|]. intros ->. contradiction.
  - intros k. rewrite in_map_iff. split.
    + intros ([k' g] & <- & H). destruct (Hg _ _ H) as [(d & s & Hd & ->) _]. exists d, s. split; [exact Hd|reflexivity].
    + intros (d & s & H & ->). apply A3 in H as (k' & g & H1 & H2). exists (k', g). split; [|exact H1]. cbn [fst]. apply A2 in H1 as [_ Eg]. rewrite Eg in H2. apply filter_In in H2 as [_ K]. cbn [fst] in K. apply He in K. symmetry. exact K.
  - intros L. rewrite map_length in L. rewrite Z.add_0_r in C1. destruct C1 as (cs & E & Fc & _); [exact L|]. eauto.
  - intros Hne L. rewrite map_length in L. rewrite Z.add_0_r in C2. apply C2; [|exact L]. intros ->. apply Hne. reflexivity.
Qed.
Print Assumptions C68_curves.

(** ** C69: markers and colours *)
Definition at_most_apart (n i j : nat) : Prop := (i < j < i + n)%nat.
Lemma styled_nth {F} offset (cs : list (curve F)) : forall order i c, styled offset order cs -> nth_error cs i = Some c ->
  c_zorder c = (100 - (order + Z.of_nat i))%Z /\ py_index curve_markers (order + Z.of_nat i + offset) = Ok (c_marker c) /\ py_index curve_colors (order + Z.of_nat i + offset) = Ok (c_color c).
Proof.
  induction cs as [|c0 cs IH]; intros order i c S E; [destruct i; discriminate|]. destruct S as (S1 & S2 & S3 & S4). destruct i as [|i]; cbn [nth_error] in E.
  - injection E as <-. rewrite Z.add_0_r. auto.
  - destruct (IH (order + 1)%Z i c S4 E) as (T1 & T2 & T3). rewrite Nat2Z.inj_succ. replace (order + Z.succ (Z.of_nat i))%Z with (order + 1 + Z.of_nat i)%Z by lia. auto.
Qed.
Lemma curves_styled {F} feqb fleb offset groups : forall order (cs : list (curve F)), curves_from feqb fleb offset order groups = Ok cs -> styled offset order cs.
Proof.
  induction groups as [|[k g] groups IH]; intros order cs; cbn [curves_from]; [now intros [= <-]|].
  destruct (one_curve _ _ _ _ _ _) as [c|] eqn:E; [|discriminate]. cbn [bind]. destruct (curves_from _ _ _ _ groups) as [r|] eqn:Er; [|discriminate]. cbn [bind]. intros [= <-].
  specialize (IH _ _ Er). cbn [styled]. unfold one_curve in E.
  repeat match type of E with bind ?m _ = _ => let X := fresh "X" in let EX := fresh "EX" in destruct m as [X|] eqn:EX; [cbn [bind] in E|discriminate] end.
  destruct X0 as [ps bs]. 
  repeat match type of E with bind ?m _ = _ => let X := fresh "X" in let EX := fresh "EX" in destruct m as [X|] eqn:EX; [cbn [bind] in E|discriminate] end.
  injection E as <-. cbn. auto.
Qed.
Definition eq_opt {A} (eqb : A -> A -> bool) (a b : option A) : bool := match a, b with Some x, Some y => eqb x y | _, _ => false end.
Definition pairs30 (f : nat -> nat -> bool) : bool := forallb (fun i => forallb (fun j => f i j) (seq 0 30)) (seq 0 30).
Lemma pairs30_spec f i j : pairs30 f = true -> (i < 30)%nat -> (j < 30)%nat -> f i j = true.
Proof. intros H Hi Hj. unfold pairs30 in H. rewrite forallb_forall in H. assert (K := H i ltac:(apply in_seq; lia)). rewrite forallb_forall in K. apply K. apply in_seq. lia. Qed.

(** No two curves of a panel share both marker and colour; ten in a row have ten
    colours, eighteen in a row have eighteen markers; earlier ones are drawn on top. *)
Theorem C69_told_apart : forall F (fzero : F) feqb fleb data marker_offset curves i j c c', (0 <= marker_offset)%Z ->
  plot_data fzero feqb fleb data marker_offset = Ok curves ->
  (i < j)%nat -> nth_error curves i = Some c -> nth_error curves j = Some c' ->
  (c_marker c <> c_marker c' \/ c_color c <> c_color c') /\
  (at_most_apart 10 i j -> c_color c <> c_color c') /\
  (at_most_apart 18 i j -> c_marker c <> c_marker c') /\
  (c_zorder c' < c_zorder c)%Z /\ In (c_color c) TABLEAU_COLORS.
Proof.
  intros F fzero feqb fleb data off cs i j c c' Ho E Hij Ei Ej. apply curves_styled in E.
  destruct (styled_nth _ _ _ _ _ E Ei) as (Z1 & M1 & C1). destruct (styled_nth _ _ _ _ _ E Ej) as (Z2 & M2 & C2). rewrite Z.add_0_l in *.
  assert (B : forall k (x : string), (0 <= k)%Z -> py_index curve_colors k = Ok x -> (Z.to_nat k < 30)%nat).
  { intros k x Hk H. apply py_index_inv in H; [|exact Hk]. change 30%nat with (length curve_colors). apply nth_error_Some. congruence. }
  pose proof (B (Z.of_nat i + off)%Z _ ltac:(lia) C1) as B1. pose proof (B (Z.of_nat j + off)%Z _ ltac:(lia) C2) as B2.
  apply py_index_inv in M1, C1, M2, C2; try lia. set (a := Z.to_nat (Z.of_nat i + off)) in *. set (b := Z.to_nat (Z.of_nat j + off)) in *.
  assert (Hab : (b = a + (j - i))%nat) by (unfold a, b; lia).
  assert (K1 : forall x y, (x < 30)%nat -> (y < 30)%nat -> (x < y)%nat -> eq_opt Ascii.eqb (nth_error curve_markers x) (nth_error curve_markers y) && eq_opt String.eqb (nth_error curve_colors x) (nth_error curve_colors y) = false).
  { intros x y Hx Hy Hxy. assert (H : pairs30 (fun i j => if (i <? j)%nat then negb (eq_opt Ascii.eqb (nth_error curve_markers i) (nth_error curve_markers j) && eq_opt String.eqb (nth_error curve_colors i) (nth_error curve_colors j)) else true) = true) by (vm_compute; reflexivity).
    apply (pairs30_spec _ x y H Hx) in Hy. cbv beta in Hy. rewrite (proj2 (Nat.ltb_lt x y) Hxy) in Hy. cbv beta iota in Hy. apply negb_true_iff in Hy. exact Hy. }
  assert (K2 : forall x y, (x < 30)%nat -> (y < 30)%nat -> (x < y < x + 10)%nat -> eq_opt String.eqb (nth_error curve_colors x) (nth_error curve_colors y) = false).
  { intros x y Hx Hy Hxy. assert (H : pairs30 (fun i j => if ((i <? j) && (j <? i + 10))%nat then negb (eq_opt String.eqb (nth_error curve_colors i) (nth_error curve_colors j)) else true) = true) by (vm_compute; reflexivity).
    apply (pairs30_spec _ x y H Hx) in Hy. cbv beta in Hy. rewrite (proj2 (Nat.ltb_lt x y) (proj1 Hxy)), (proj2 (Nat.ltb_lt y (x + 10)) (proj2 Hxy)) in Hy. cbv beta iota in Hy. apply negb_true_iff in Hy. exact Hy. }
  assert (K3 : forall x y, (x < 30)%nat -> (y < 30)%nat -> (x < y < x + 18)%nat -> eq_opt Ascii.eqb (nth_error curve_markers x) (nth_error curve_markers y) = false).
  { intros x y Hx Hy Hxy. assert (H : pairs30 (fun i j => if ((i <? j) && (j <? i + 18))%nat then negb (eq_opt Ascii.eqb (nth_error curve_markers i) (nth_error curve_markers j)) else true) = true) by (vm_compute; reflexivity).
    apply (pairs30_spec _ x y H Hx) in Hy. cbv beta in Hy. rewrite (proj2 (Nat.ltb_lt x y) (proj1 Hxy)), (proj2 (Nat.ltb_lt y (x + 18)) (proj2 Hxy)) in Hy. cbv beta iota in Hy. apply negb_true_iff in Hy. exact Hy. }
  split; [|split; [|split; [|split]]].
  - specialize (K1 a b B1 B2 ltac:(lia)). rewrite M1, M2, C1, C2 in K1. cbn [eq_opt] in K1. apply andb_false_iff in K1 as [K|K]; [left; now apply Ascii.eqb_neq|right; now apply String.eqb_neq].
  - unfold at_most_apart. intros H. specialize (K2 a b B1 B2 ltac:(lia)). rewrite C1, C2 in K2. now apply String.eqb_neq.
  - unfold at_most_apart. intros H. specialize (K3 a b B1 B2 ltac:(lia)). rewrite M1, M2 in K3. now apply Ascii.eqb_neq.
  - lia.
  - apply nth_error_In in C1. unfold curve_colors, repeated in C1. cbn [repeat concat] in C1. rewrite !in_app_iff in C1. cbn [In] in C1. tauto.
Qed.
Print Assumptions C69_told_apart.

(** ** C70: tick labels *)
(** [label_of p s]: the label is one digit and a power of ten (a whole number and e-0 from
    1 on), and its value is p, or below p by less than 1e-4 of that power of ten. *)
Definition label_of (p : Q) (s : string) : Prop :=
  exists m k : Z, s = (str_int m ++ "e-" ++ str_int k)%string /\ (0 <= k)%Z /\ (1 <= m)%Z /\ (0 < k -> m <= 9)%Z /\
    (inject_Z m <= p * inject_Z (10 ^ k) < inject_Z m + (1 # 10000))%Q.
Lemma qpow10_succ j : (0 <= j)%Z -> (inject_Z (10 ^ (j + 1)) == 10 * inject_Z (10 ^ j))%Q.
Proof. intros H. rewrite Z.pow_add_r, inject_Z_mult by lia. change (inject_Z (10 ^ 1)) with (10 # 1)%Q. ring. Qed.
Lemma tick_loop_spec fuel : forall p k, (0 < p)%Q -> (1 <= p * inject_Z (10 ^ Z.of_nat fuel))%Q ->
  exists j p', tick_loop fuel p k = Ok (p', (k + j)%Z) /\ (0 <= j)%Z /\ (p' == p * inject_Z (10 ^ j))%Q /\ (1 <= p')%Q /\ ((0 < j)%Z -> (p' < 10)%Q).
Proof.
  induction fuel as [|n IH]; intros p k Hp Hb; cbn [tick_loop]; destruct (Qle_bool 1 p) eqn:E.
  - exists 0%Z, p. rewrite Z.add_0_r. apply Qle_bool_iff in E. split; [reflexivity|]. split; [lia|]. split; [change (10 ^ 0)%Z with 1%Z; unfold inject_Z; ring|]. split; [exact E|lia].
  - exfalso. change (10 ^ Z.of_nat 0)%Z with 1%Z in Hb. assert (H : (1 <= p)%Q) by (revert Hb; unfold inject_Z; rewrite Qmult_1_r; auto). apply Qle_bool_iff in H. congruence.
  - exists 0%Z, p. rewrite Z.add_0_r. apply Qle_bool_iff in E. split; [reflexivity|]. split; [lia|]. split; [change (10 ^ 0)%Z with 1%Z; unfold inject_Z; ring|]. split; [exact E|lia].
  - assert (L : (p < 1)%Q) by (apply Qnot_le_lt; intros H; apply Qle_bool_iff in H; congruence).
    destruct (IH (p * 10)%Q (k + 1)%Z) as (j & p' & E' & Hj & Ep & H1 & H2).
    + apply (Qmult_lt_0_compat p 10); [exact Hp|reflexivity].
    + rewrite Nat2Z.inj_succ in Hb. unfold Z.succ in Hb. rewrite (qpow10_succ (Z.of_nat n)) in Hb by lia. rewrite <- Qmult_assoc. exact Hb.
    + exists (j + 1)%Z, p'. split; [rewrite E'; f_equal; f_equal; lia|]. split; [lia|]. split; [rewrite Ep, (qpow10_succ j) by lia; ring|]. split; [exact H1|]. intros _.
      destruct (Z.eq_dec j 0) as [->|N]; [|apply H2; lia]. rewrite Ep. change (inject_Z (10 ^ 0)) with 1%Q. rewrite Qmult_1_r.
      apply (Qmult_lt_r p 1 10) in L; [|reflexivity]. exact L.
Qed.
Lemma tick_fuel p : (0 < p)%Q -> (1 <= p * inject_Z (10 ^ Z.of_nat (S (Z.to_nat (Z.log2_up (Zpos (Qden p)))))))%Q.
Proof.
  intros Hp. destruct p as [n d]. cbn [Qden]. set (f := S _). unfold Qlt in Hp. cbn in Hp.
  assert (B : (Z.pos d <= 10 ^ Z.of_nat f)%Z).
  { apply Z.le_trans with (2 ^ Z.log2_up (Z.pos d))%Z.
    - destruct (Z.eq_dec (Z.pos d) 1) as [->|N]; [reflexivity|]. apply Z.log2_up_spec. lia.
    - pose proof (Z.log2_up_nonneg (Z.pos d)). apply Z.le_trans with (10 ^ Z.log2_up (Z.pos d))%Z; [apply Z.pow_le_mono_l; lia|]. apply Z.pow_le_mono_r; [lia|]. unfold f. lia. }
  unfold Qle, Qmult, inject_Z. cbn [Qnum Qden]. rewrite Pos.mul_1_r. nia.
Qed.

(** A positive position gets a label that says it to within 1e-4 of the leading digit;
    if there is none, or the position is not positive, an assertion fails. *)
Theorem C70_tick : forall p,
  ((0 < p)%Q -> (exists s, format_tick p = Ok s /\ label_of p s) \/ (format_tick p = Err AssertionError /\ ~ exists s, label_of p s)) /\
  ((p <= 0)%Q -> format_tick p = Err AssertionError).
Proof.
  intros p. split; [|intros H; unfold format_tick; apply Qle_bool_iff in H; rewrite H; reflexivity].
  intros Hp. unfold format_tick. assert (E0 : Qle_bool p 0 = false) by (apply not_true_iff_false; intros H; apply Qle_bool_iff in H; apply (Qlt_not_le _ _ Hp H)). rewrite E0. cbn [negb assert_ bind].
  destruct (tick_loop_spec _ p 0%Z Hp (tick_fuel p Hp)) as (j & p' & E & Hj & Ep & H1 & H2). rewrite E. cbn [bind]. rewrite Z.add_0_l.
  pose proof (Qround.Qfloor_le p') as F1. pose proof (Qround.Qlt_floor p') as F2. set (m := Qround.Qfloor p') in *.
  assert (Hm : (1 <= m)%Z) by (apply (Qround.Qfloor_resp_le 1 p' H1)).
  assert (Hm9 : (0 < j -> m <= 9)%Z).
  { intros K. specialize (H2 K). assert (M : (inject_Z m < inject_Z 10)%Q) by (eapply Qle_lt_trans; [exact F1|exact H2]). rewrite <- Zlt_Qlt in M. lia. }
  destruct (Qle_bool (1 # 10000) (p' - inject_Z m)) eqn:T; cbn [negb assert_ bind].
  - right. split; [reflexivity|]. intros (s & m' & k' & _ & Hk & Hm1 & Hm2 & B1 & B2). apply Qle_bool_iff in T.
    assert (U : k' = j).
    { destruct (Z.lt_trichotomy k' j) as [L|[L|L]]; [exfalso| exact L|exfalso].
      - (* fewer steps: the value would still be below one *)
        assert (K : (p' < 10)%Q) by (apply H2; lia). rewrite Ep in K.
        assert (P10 : (10 ^ j = 10 ^ k' * 10 ^ (j - k'))%Z) by (rewrite <- Z.pow_add_r by lia; f_equal; lia).
        assert (P1 : (10 <= 10 ^ (j - k'))%Z) by (apply (Z.pow_le_mono_r 10 1 (j - k')); lia).
        rewrite P10, inject_Z_mult, Qmult_assoc in K. assert (A : (1 <= p * inject_Z (10 ^ k'))%Q) by (eapply Qle_trans; [|exact B1]; change 1%Q with (inject_Z 1); rewrite <- Zle_Qle; lia).
        apply (Qlt_not_le _ _ K). apply Qle_trans with (1 * inject_Z (10 ^ (j - k')))%Q.
        + rewrite Qmult_1_l. change (10 # 1)%Q with (inject_Z 10). rewrite <- Zle_Qle. exact P1.
        + apply Qmult_le_compat_r; [exact A|]. change 0%Q with (inject_Z 0). rewrite <- Zle_Qle. lia.
      - specialize (Hm2 ltac:(lia)).
        assert (P10 : (10 ^ k' = 10 ^ j * 10 ^ (k' - j))%Z) by (rewrite <- Z.pow_add_r by lia; f_equal; lia).
        assert (P1 : (10 <= 10 ^ (k' - j))%Z) by (apply (Z.pow_le_mono_r 10 1 (k' - j)); lia).
        rewrite P10, inject_Z_mult, Qmult_assoc, <- Ep in B2. 
        assert (A : (inject_Z 10 <= p' * inject_Z (10 ^ (k' - j)))%Q).
        { apply Qle_trans with (1 * inject_Z (10 ^ (k' - j)))%Q; [rewrite Qmult_1_l, <- Zle_Qle; exact P1|]. apply Qmult_le_compat_r; [exact H1|]. change 0%Q with (inject_Z 0). rewrite <- Zle_Qle. lia. }
        assert (C : (inject_Z m' <= inject_Z 9)%Q) by (rewrite <- Zle_Qle; lia).
        apply (Qlt_not_le _ _ B2). eapply Qle_trans; [|exact A]. apply Qle_trans with (inject_Z 9 + (1 # 10000))%Q; [apply Qplus_le_compat; [exact C|apply Qle_refl]|discriminate]. }
    subst k'. rewrite <- Ep in B1, B2.
    assert (m' = m). { unfold m. apply Z.le_antisymm; [|apply Z.lt_succ_r; rewrite Zlt_Qlt; eapply Qle_lt_trans; [apply Qround.Qfloor_le|]; eapply Qlt_le_trans; [exact B2|]; unfold Z.succ; rewrite inject_Z_plus; apply Qplus_le_compat; [apply Qle_refl|discriminate]].
      rewrite <- (Qround.Qfloor_Z m'). now apply Qround.Qfloor_resp_le. }
    subst m'. apply (Qlt_not_le _ _ B2). apply (Qplus_le_compat (inject_Z m) (inject_Z m) _ _ (Qle_refl _)) in T. eapply Qle_trans; [exact T|]. ring_simplify (inject_Z m + (p' - inject_Z m))%Q. apply Qle_refl.
  - left. eexists. split; [reflexivity|]. exists m, j. split; [reflexivity|]. split; [exact Hj|]. split; [exact Hm|]. split; [exact Hm9|]. rewrite <- Ep. split; [exact F1|].
    assert (L : (p' - inject_Z m < 1 # 10000)%Q) by (apply Qnot_le_lt; intros H; apply Qle_bool_iff in H; congruence).
    apply (Qplus_lt_l (p' - inject_Z m) (1 # 10000) (inject_Z m)) in L. revert L. ring_simplify (p' - inject_Z m + inject_Z m)%Q. intros L. eapply Qlt_le_trans; [exact L|]. rewrite Qplus_comm. apply Qle_refl.
Qed.
Print Assumptions C70_tick.
(** The ticks of an axis are 1/2 and the first nine powers of a tenth, as far as they are
    within the limits, and every one has its exact label. *)
Definition tick_value (x : Q) : Prop := (x == 1 # 2)%Q \/ exists k, (1 <= k <= 9)%Z /\ (x * inject_Z (10 ^ k) == 1)%Q.
Theorem C70_axes : forall low high, (low <= 1 # 2)%Q ->
  exists ticks, labelled_ticks (low, high) = Ok ticks /\
    (forall x, (exists x', (x == x')%Q /\ In x' (map fst ticks)) <-> tick_value x /\ (low <= x <= high)%Q) /\
    (forall x s, In (x, s) ticks -> exists m k, s = (str_int m ++ "e-" ++ str_int k)%string /\ (x * inject_Z (10 ^ k) == inject_Z m)%Q).
Proof.
  intros low high Hl. unfold labelled_ticks. cbn [fst snd].
  set (cands := [1 # 2; 1 # 10; 1 # 100; 1 # 1000; 1 # 10000; 1 # 100000; 1 # 1000000; 1 # 10000000; 1 # 100000000; 1 # 1000000000]%Q).
  assert (Ex : forall x, In x cands -> exists m k, format_tick x = Ok (str_int m ++ "e-" ++ str_int k)%string /\ (x * inject_Z (10 ^ k) == inject_Z m)%Q).
  { intros x Hx. unfold cands in Hx. cbn [In] in Hx. decompose [or] Hx; try contradiction; subst x;
      [exists 5%Z, 1%Z|exists 1%Z, 1%Z|exists 1%Z, 2%Z|exists 1%Z, 3%Z|exists 1%Z, 4%Z|exists 1%Z, 5%Z|exists 1%Z, 6%Z|exists 1%Z, 7%Z|exists 1%Z, 8%Z|exists 1%Z, 9%Z]; (split; vm_compute; reflexivity). }
  assert (Tv : forall x, tick_value x <-> exists x', (x == x')%Q /\ In x' cands).
  { intros x. split.
    - intros [H|(k & Hk & H)]; [exists (1 # 2); split; [exact H|now left]|].
      assert (D : (k = 1 \/ k = 2 \/ k = 3 \/ k = 4 \/ k = 5 \/ k = 6 \/ k = 7 \/ k = 8 \/ k = 9)%Z) by lia.
      assert (P : (0 < inject_Z (10 ^ k))%Q) by (change 0%Q with (inject_Z 0); rewrite <- Zlt_Qlt; apply Z.pow_pos_nonneg; lia).
      assert (Ei : (x == / inject_Z (10 ^ k))%Q). { apply (Qmult_inj_r _ _ (inject_Z (10 ^ k))); [intros K; rewrite K in P; discriminate P|]. rewrite H. rewrite Qmult_comm, Qmult_inv_r; [reflexivity|]. intros K; rewrite K in P; discriminate P. }
      exists (/ inject_Z (10 ^ k))%Q. split; [exact Ei|]. decompose [or] D; subst k; unfold cands; vm_compute; tauto.
    - intros (x' & E & H). unfold cands in H. cbn [In] in H. unfold tick_value. setoid_rewrite E. decompose [or] H; try contradiction; subst x'; [left; reflexivity|right..];
        [exists 1%Z|exists 2%Z|exists 3%Z|exists 4%Z|exists 5%Z|exists 6%Z|exists 7%Z|exists 8%Z|exists 9%Z]; (split; [lia|vm_compute; reflexivity]). }
  assert (Ax : forall x, In x (axis_ticks low high) <-> In x cands /\ (low <= x <= high)%Q).
  { intros x. unfold axis_ticks. rewrite in_app_iff, filter_In, andb_true_iff, !Qle_bool_iff.
    change (map _ [1; 2; 3; 4; 5; 6; 7; 8; 9]%positive) with (tl cands). change (In x cands) with ((1 # 2)%Q = x \/ In x (tl cands)).
    destruct (Qle_bool (1 # 2) high) eqn:E.
    - apply Qle_bool_iff in E. cbn [In]. intuition (subst; auto).
    - assert (N : ~ (1 # 2 <= high)%Q) by (rewrite <- Qle_bool_iff; congruence). cbn [In]. intuition (subst; auto; contradiction). }
  assert (Sub : forall x, In x (axis_ticks low high) -> In x cands) by (intros x H; now apply Ax).
  assert (Mm : forall l, (forall x, In x l -> In x cands) -> exists ticks, mapM (fun x => let! s := format_tick x in Ok (x, s)) l = Ok ticks /\ map fst ticks = l /\
     (forall x s, In (x, s) ticks -> exists m k, s = (str_int m ++ "e-" ++ str_int k)%string /\ (x * inject_Z (10 ^ k) == inject_Z m)%Q)).
  { induction l as [|a l IH]; intros H; [exists []; split; [reflexivity|split; [reflexivity|intros x s []]]|].
    destruct (IH (fun x K => H x (or_intror K))) as (t & E & E1 & E2). destruct (Ex a (H a (or_introl eq_refl))) as (m & k & F1 & F2). cbn [mapM]. rewrite F1. cbn [bind]. rewrite E. cbn [bind].
    eexists. split; [reflexivity|]. cbn [map fst]. rewrite E1. split; [reflexivity|]. intros x s [[= <- <-]|K]; [exists m, k; split; [reflexivity|exact F2]|now apply E2]. }
  destruct (Mm _ Sub) as (ticks & E & E1 & E2). exists ticks. split; [exact E|]. split; [|exact E2].
  intros x. rewrite E1, Tv. split.
  - intros (x' & Ex' & H). apply Ax in H as [H [B1 B2]]. split; [eauto|]. rewrite Ex'. auto.
  - intros [(x' & Ex' & H) [B1 B2]]. exists x'. split; [exact Ex'|]. apply Ax. split; [exact H|]. rewrite <- Ex'. auto.
Qed.
Print Assumptions C70_axes.
(** Both figures' limits meet the hypothesis; the vertical axis of the full figure has
    nine ticks. *)
Example C70_example : (forall focus, (fst (fst (axis_limits focus)) <= 1 # 2)%Q /\ (fst (snd (axis_limits focus)) <= 1 # 2)%Q) /\
  (exists ticks, labelled_ticks (snd (axis_limits false)) = Ok ticks /\ map snd ticks = ["5e-1"; "1e-1"; "1e-2"; "1e-3"; "1e-4"; "1e-5"; "1e-6"; "1e-7"; "1e-8"]%string) /\
  (exists ticks, labelled_ticks (snd (axis_limits true)) = Ok ticks /\ map snd ticks = ["1e-1"; "1e-2"]%string) /\
  (exists ticks, labelled_ticks (fst (axis_limits true)) = Ok ticks /\ map snd ticks = ["1e-2"; "1e-3"]%string) /\
  (exists ticks, labelled_ticks (fst (axis_limits false)) = Ok ticks /\ map snd ticks = ["1e-2"; "1e-3"; "1e-4"]%string) /\
  format_tick (7 # 20) = Err AssertionError /\ format_tick (7 # 2000) = Err AssertionError /\ format_tick (3 # 1000) = Ok "3e-3"%string.
Proof. split; [intros []; split; discriminate|]. do 4 (split; [eexists; split; vm_compute; reflexivity|]). repeat split; vm_compute; reflexivity. Qed.

Lemma desc_lt_irrefl {F} (fleb : F -> F -> bool) d : ~ desc_lt fleb d d.
Proof.
  unfold desc_lt. cbn [lexlt]. assert (forall s, String.ltb s s = true -> False) by (intros s; unfold String.ltb; induction s as [|c s IH]; cbn [String.compare]; [discriminate|]; unfold Ascii.compare; rewrite N.compare_refl; exact IH).
  intros H'. decompose [or and] H'; try lia; try contradiction; eauto.
Qed.
(** Two problems, one with two noise values and one of them without errors: two curves. *)
Definition ex_plot : problem_data Z :=
  [(mkDesc 4 6 4 60 12 3%Z "honeycomb_SD6" "H" "internal", mkShots 100 90 1%Z); (mkDesc 4 6 4 60 12 1%Z "honeycomb_SD6" "H" "internal", mkShots 100 100 1%Z);
   (mkDesc 8 12 8 240 24 3%Z "honeycomb_SD6" "H" "internal", mkShots 50 49 1%Z)]%string.
Example C68_example : NoDup (map fst ex_plot) /\ Forall plottable ex_plot /\ linear_order Z.leb /\
  exists c1 c2, plot_data 0%Z Z.eqb Z.leb ex_plot 0 = Ok [c1; c2] /\ c_label c1 = "12 rounds, 4x6 data"%string /\ map fst (c_points c1) = [3%Z] /\ map fst (c_band c1) = [1; 3]%Z /\
    c_marker c1 <> c_marker c2.
Proof.
  assert (N : NoDup (map fst ex_plot)) by (repeat constructor; cbn; intuition discriminate).
  assert (P : Forall plottable ex_plot) by (repeat constructor; cbn; lia).
  split; [exact N|]. split; [exact P|]. split; [exact Z_linear|].
  destruct (C68_curves Z 0%Z Z.eqb Z.leb ex_plot 0 Z.eqb_eq Z_linear N P ltac:(lia)) as (ks & K1 & K2 & K3 & _).
  set (k1 := mkDesc 4 6 4 60 12 0%Z "honeycomb_SD6" "H" "internal"%string) in *. set (k2 := mkDesc 8 12 8 240 24 0%Z "honeycomb_SD6" "H" "internal"%string) in *.
  assert (Ek : ks = [k1; k2]).
  { assert (NK : NoDup ks) by (clear -K1; induction K1 as [|a l S IH H]; [constructor|]; constructor; [intros K; rewrite Forall_forall in H; exact (desc_lt_irrefl _ _ (H a K))|exact IH]).
    assert (I1 : In k1 ks) by (apply K2; eexists _, _; split; [left; reflexivity|reflexivity]).
    assert (I2 : In k2 ks) by (apply K2; eexists _, _; split; [right; right; left; reflexivity|reflexivity]).
    assert (I3 : forall k, In k ks -> k = k1 \/ k = k2) by (intros k (d & s & [[= <- _]|[[= <- _]|[[= <- _]|[]]]] & ->)%K2; [left|left|right]; reflexivity).
    assert (Lt : desc_lt Z.leb k2 k1 -> False) by (unfold desc_lt; cbn; intuition lia).
    destruct ks as [|a [|b [|c ks]]].
    - destruct I1.
    - destruct I1 as [E1|[]], I2 as [E2|[]]. rewrite E1 in E2. unfold k1, k2 in E2. discriminate E2.
    - inversion K1 as [|? ? _ H]; subst. inversion H as [|? ? H' _]; subst. inversion NK as [|? ? Nb _]; subst.
      destruct (I3 a (or_introl eq_refl)) as [->| ->], (I3 b (or_intror (or_introl eq_refl))) as [->| ->]; [destruct Nb; now left|reflexivity|contradiction|destruct Nb; now left].
    - exfalso. inversion NK as [|? ? Na NK']; subst. inversion NK' as [|? ? Nb _]; subst. cbn [In] in Na, Nb.
      destruct (I3 a ltac:(cbn; tauto)) as [->| ->], (I3 b ltac:(cbn; tauto)) as [->| ->], (I3 c ltac:(cbn; tauto)) as [->| ->]; tauto. }
  subst ks. destruct K3 as (cs & E & F2); [cbn; lia|]. inversion F2 as [|? c1 ? ? H1 F3]; subst. inversion F3 as [|? c2 ? ? H2 F4]; subst. inversion F4; subst.
  exists c1, c2. split; [exact E|]. split; [apply (co_label _ _ _ _ H1)|].
  destruct (C69_told_apart Z 0%Z Z.eqb Z.leb ex_plot 0 [c1; c2] 0 1 c1 c2 ltac:(lia) E ltac:(lia) eq_refl eq_refl) as (_ & _ & A & _).
  assert (Two : forall l : list Z, StronglySorted (before Z.leb) l -> In 1%Z l -> In 3%Z l -> (forall x, In x l -> x = 1 \/ x = 3)%Z -> l = [1; 3]%Z).
  { intros l S J1 J3 J. destruct S as [|a l S Sa]; [destruct J1|]. rewrite Forall_forall in Sa.
    assert (a = 1%Z) as -> by (destruct J1 as [->|J1]; [reflexivity|]; destruct (J a (or_introl eq_refl)) as [->| ->]; [reflexivity|]; destruct (Sa _ J1) as [L _]; discriminate L).
    destruct J3 as [J3|J3]; [discriminate|]. f_equal. destruct S as [|b l S Sb]; [destruct J3|]. rewrite Forall_forall in Sb. destruct (Sa b (or_introl eq_refl)) as [_ Nb].
    destruct (J b (or_intror (or_introl eq_refl))) as [->| ->]; [congruence|]. f_equal. destruct l as [|c l]; [reflexivity|]. exfalso. destruct (Sb c (or_introl eq_refl)) as [L N'].
    destruct (J c (or_intror (or_intror (or_introl eq_refl)))) as [->| ->]; [discriminate L|congruence]. }
  split; [|split; [|apply A; unfold at_most_apart; lia]].
  - assert (J : forall x, In x (map fst (c_points c1)) <-> x = 3%Z).
    { intros x. rewrite (co_line_all _ _ _ _ H1). split.
      - intros (s & [[= <- <-]|[[= <- <-]|[K|[]]]] & L); [reflexivity|cbn in L; lia|discriminate K].
      - intros ->. eexists. split; [left; reflexivity|cbn; lia]. }
    pose proof (co_line_sorted _ _ _ _ H1) as S. revert J S. generalize (map fst (c_points c1)). intros l J S. destruct S as [|a l S Sa]; [destruct (proj2 (J 3%Z) eq_refl)|].
    assert (a = 3%Z) as -> by (apply J; now left). f_equal. destruct l as [|b l]; [reflexivity|]. inversion Sa as [|? ? [_ Nb] _]; subst. exfalso. apply Nb. symmetry. apply J. right. now left.
  - apply Two; [apply (co_band_sorted _ _ _ _ H1)|apply (co_band_all _ _ _ _ H1); eexists; right; left; reflexivity|apply (co_band_all _ _ _ _ H1); eexists; left; reflexivity|].
    intros x Hx. apply (co_band_all _ _ _ _ H1) in Hx as (s & [[= <- _]|[[= <- _]|[K|[]]]]); [now right|now left|discriminate K].
Qed.
