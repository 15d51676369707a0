(** C71: the panels of the threshold figure. *)
From Coq Require Import QArith.
From Coq Require Import Reals Lra.
From Coq Require Import Ascii.
From Verif Require Import Prelude Layout LayoutFacts Collect Prop_Collect Prop_Collect2 Prob Paper Prop_Paper Prop_Paper3 PaperFit Prop_PaperFit Plot Prop_Plot.
Open Scope Z_scope.

(** What stands in a row of a column. *)
Definition at_cell {A} (fig : list (string * list (option A))) (col row : nat) : option A :=
  match nth_error fig col with Some (_, rows) => match nth_error rows row with Some (Some x) => Some x | _ => None end | None => None end.

Lemma dget_absent {K V} (eqb : K -> K -> bool) (H : forall a b, eqb a b = true <-> a = b) (l : list (K * V)) k : ~ In k (map fst l) -> dget eqb k l = None.
Proof. induction l as [|[k' v] l IH]; intros N; [reflexivity|]. cbn [dget]. destruct (eqb k k') eqn:E; [apply H in E; subst; destruct N; now left|]. apply IH. intros K'. apply N. now right. Qed.
Lemma group_lookup {F K} (feqb : F -> F -> bool) (keqb kleb : K -> K -> bool) key (data : problem_data F) k :
  (forall a b, feqb a b = true <-> a = b) -> (forall a b, keqb a b = true <-> a = b) -> NoDup (map fst data) ->
  group_or_empty keqb k (grouped_by feqb keqb kleb key data) = filter (fun e => keqb (key (fst e)) k) data.
Proof.
  intros Hf Hk N. destruct (C43_grouped_by feqb keqb kleb key data Hf Hk N) as (A1 & A2 & _). cbv zeta in *. set (G := grouped_by _ _ _ _ _) in *. unfold group_or_empty.
  destruct (filter (fun e => keqb (key (fst e)) k) data) as [|e l] eqn:E.
  - rewrite (dget_absent keqb Hk); [reflexivity|]. intros H. apply in_map_iff in H as ([k' g] & Ek & H). cbn [fst] in Ek. subst k'. apply A2 in H as [H1 H2]. congruence.
  - rewrite (proj2 (dget_in keqb Hk G k (e :: l) A1)); [reflexivity|]. apply A2. split; [discriminate|congruence].
Qed.
Lemma triple_eqb_iff a b : triple_eqb a b = true <-> a = b.
Proof. destruct a as [[a1 a2] a3], b as [[b1 b2] b3]. cbn. rewrite !andb_true_iff, !String.eqb_eq. split; [intros [[-> ->] ->]; reflexivity|intros [= -> -> ->]; auto]. Qed.

Definition key3 {F} (d : desc F) : string * string * string := (d_style d, d_obs d, d_decoder d).
Definition panel_offset (k : string * string * string) : Z := if (snd (fst k) =? "X")%string || (snd (fst k) =? "Z")%string then 4 else 0.

Lemma mapM_nth {A B} (f : A -> res B) l : forall out i, mapM f l = Ok out ->
  match nth_error l i with Some a => exists b, nth_error out i = Some b /\ f a = Ok b | None => nth_error out i = None end.
Proof.
  induction l as [|a l IH]; intros out i; cbn [mapM]; [intros [= <-]; destruct i; reflexivity|].
  destruct (f a) as [b|] eqn:E; [|discriminate]. cbn [bind]. destruct (mapM f l) as [bs|] eqn:Es; [|discriminate]. cbn [bind]. intros [= <-]. destruct i as [|i]; cbn [nth_error]; [eauto|]. now apply IH.
Qed.

(** The panel in row r of column c shows exactly the recorded problems with the style,
    observable and decoder listed there; where nothing is listed nothing is drawn. *)
Theorem C71_panels : forall F (fzero : F) feqb fleb data focused fig, (forall a b, feqb a b = true <-> a = b) -> NoDup (map fst data) ->
  plot_thresholds fzero feqb fleb data focused = Ok fig ->
  forall col row,
    match at_cell (threshold_styles focused) col row with
    | Some k => exists curves, at_cell fig col row = Some curves /\
        plot_data fzero feqb fleb (filter (fun e => triple_eqb (key3 (fst e)) k) data) (panel_offset k) = Ok curves
    | None => at_cell fig col row = None
    end.
Proof.
  intros F fzero feqb fleb data focused fig Hf N E col row. unfold plot_thresholds in E. unfold at_cell.
  assert (Hobs : forall c rows r s o dec, nth_error (threshold_styles focused) c = Some rows -> nth_error (snd rows) r = Some (Some (s, o, dec)) -> In o ["X"; "Z"; "H"; "V"]%string).
  { intros c rows r s o dec Hc Hr. apply nth_error_In in Hc, Hr.
    assert (C : forallb (fun x => forallb (fun y => match y with Some (_, o, _) => existsb (String.eqb o) ["X"; "Z"; "H"; "V"]%string | None => true end) (snd x)) (threshold_styles focused) = true) by (destruct focused; vm_compute; reflexivity).
    rewrite forallb_forall in C. specialize (C rows Hc). rewrite forallb_forall in C. specialize (C _ Hr). cbv beta iota in C. apply existsb_exists in C as (o' & Ho & Eo). apply String.eqb_eq in Eo. now subst. }
  pose proof (mapM_nth _ _ _ col E) as H. destruct (nth_error (threshold_styles focused) col) as [[name cases]|] eqn:Ec; [|rewrite H; reflexivity].
  destruct H as ([name' ps] & Hp & H). rewrite Hp. destruct (mapM _ cases) as [ps'|] eqn:Em; [|discriminate]. cbn [bind] in H. injection H as <- <-.
  pose proof (mapM_nth _ _ _ row Em) as H. destruct (nth_error cases row) as [[k|]|] eqn:Er; [| |now rewrite H].
  - destruct H as (b & Hb & H). rewrite Hb. unfold threshold_panel in H. rewrite (group_lookup feqb triple_eqb triple_leb (fun e => (d_style e, d_obs e, d_decoder e)) data k Hf triple_eqb_iff N) in H.
    assert (Eo : (if str_in (snd (fst k)) "XZ" then 4 else 0) = panel_offset k).
    { destruct k as [[s o] dec]. specialize (Hobs col (name, cases) row s o dec Ec Er). cbn in Hobs. decompose [or] Hobs; try contradiction; subst o; reflexivity. }
    rewrite Eo in H. change (fun e : desc F * shot_data F => triple_eqb (d_style (fst e), d_obs (fst e), d_decoder (fst e)) k) with (fun e : desc F * shot_data F => triple_eqb (key3 (fst e)) k) in H.
    destruct (plot_data _ _ _ _ _) as [cs|] eqn:Ep; [|discriminate]. cbn [bind] in H. injection H as <-. eauto.
  - destruct H as (b & Hb & H). injection H as <-. rewrite Hb. reflexivity.
Qed.
Print Assumptions C71_panels.

(** ** Every problem of the paper's tables has its panel *)
Definition fits_style (name style : string) : Prop := style = ("surface_" ++ name)%string \/ style = ("honeycomb_" ++ name)%string \/ name = "EM3"%string /\ style = "honeycomb_EM3_v2"%string.
Definition of_tables {F} (d : desc F) : Prop :=
  exists dir hs pr, honeycomb_problems = Ok hs /\ In pr (hs ++ surface_code_problems dir) /\
    d_width d = d_width (fst pr) /\ d_height d = d_height (fst pr) /\ d_distance d = d_distance (fst pr) /\ d_qubits d = d_qubits (fst pr) /\
    d_rounds d = d_rounds (fst pr) /\ d_style d = d_style (fst pr) /\ d_obs d = d_obs (fst pr) /\ d_decoder d = d_decoder (fst pr).

Lemma of_tables_shape {F} (d : desc F) : of_tables d ->
  In (d_decoder d) ["internal"; "internal_correlated"]%string /\
  ((In (d_style d) ["honeycomb_SI1000"; "honeycomb_SD6"; "honeycomb_EM3_v2"] /\ In (d_obs d) ["V"; "H"])%string /\
     (exists u, In u [1; 2; 3; 4; 5] /\ d_width d = 4 * u /\ d_height d = 6 * u /\ d_distance d = 4 * u /\ d_rounds d = 12 * u /\
        exists lay, HoneycombLayout (4 * u) (6 * u) (36 * u) (style lay) (obs lay) (noise lay) = Ok lay /\ d_style d = ("honeycomb_" ++ style lay)%string /\ d_qubits d = num_qubits lay) \/
   (In (d_style d) ["surface_SD6"; "surface_SI1000"] /\ In (d_obs d) ["X"; "Z"])%string /\
     exists D, In D [3; 7; 11; 15; 19] /\ d_width d = D /\ d_height d = D /\ d_distance d = D /\ d_rounds d = 3 * D /\ d_qubits d = 2 * D * D - 1).
Proof.
  intros (dir & hs & pr & Eh & Hin & E1 & E2 & E3 & E4 & E5 & E6 & E7 & E8). unfold honeycomb_problems in Eh. rewrite honeycomb_problems_ok in Eh.
  assert (Eh' : hs = map hc_problem (prod2 DECODERS (hc_params USED_NOISE_VALUES HONEYCOMB_UNITS HONEYCOMB_STYLES HONEYCOMB_OBS))) by (revert Eh; generalize (map hc_problem (prod2 DECODERS (hc_params USED_NOISE_VALUES HONEYCOMB_UNITS HONEYCOMB_STYLES HONEYCOMB_OBS))); intros; congruence).
  subst hs. clear Eh.
  apply in_app_iff in Hin as [Hin|Hin].
  - apply in_map_iff in Hin as ([dec [[[p u] s] o]] & <- & Hin). apply in_prod2 in Hin as [Hd Hin]. apply in_hc_params in Hin as (Hp & Hu & Hs & Ho).
    cbn [hc_problem fst as_decoder_problem_desc hc_layout d_width d_height d_distance d_qubits d_rounds d_style d_obs d_decoder data_width data_height sub_rounds style obs noise] in *.
    rewrite E8, E6, E7. split; [exact Hd|]. left. split.
    + split; [|exact Ho]. unfold HONEYCOMB_STYLES in Hs. cbn [In] in Hs |- *. decompose [or] Hs; subst; tauto.
    + exists u. split; [exact Hu|]. assert (Hu1 : 1 <= u) by (cbn in Hu; lia). split; [lia|]. split; [lia|]. split; [rewrite E3; unfold code_distance_1qdep; cbn [data_width data_height]; dlia|].
      split; [rewrite E5; pose proof (ceil_div_spec (u * 3 * 4 * 3) 3 ltac:(lia)); lia|].
      exists (mkLayout (u * 4) (u * 6) (u * 3 * 4 * 3) s o p). cbn [style obs noise]. split; [|split; [reflexivity|exact E4]].
      unfold HoneycombLayout. replace (4 * u mod 2) with 0 by dlia. replace (6 * u mod 6) with 0 by dlia. cbn [negb Z.eqb]. f_equal. f_equal; lia.
  - unfold surface_code_problems in Hin. rewrite surface_problems_ok in Hin. destruct dir as [dir|]; [|destruct Hin]. destruct (_ || _)%bool; [destruct Hin|].
    apply in_map_iff in Hin as ([dec [D [p [nm o]]]] & <- & Hin). unfold sf_params in Hin. rewrite !in_prod2 in Hin. destruct Hin as (Hd & HD & Hp & Hn & Ho).
    cbn [sf_problem surface_code_problem fst d_width d_height d_distance d_qubits d_rounds d_style d_obs d_decoder] in *. rewrite E8, E6, E7. split; [exact Hd|]. right. split.
    + split; [|exact Ho]. unfold SURFACE_NOISES in Hn. cbn [In] in Hn |- *. decompose [or] Hn; subst; tauto.
    + exists D. split; [exact HD|]. repeat (split; [lia|]). lia.
Qed.

(** In the full figure every problem of the tables belongs to exactly one panel, and the
    column is named after its noise model.  The focused figure shows the correlated
    decoder's Z and H panels of the same columns, and no others. *)
Theorem C71_every_problem : forall F (d : desc F), of_tables d ->
  exists col row, at_cell (threshold_styles false) col row = Some (key3 d) /\
    (forall col' row', at_cell (threshold_styles false) col' row' = Some (key3 d) -> (col', row') = (col, row)) /\
    (exists name, option_map fst (nth_error (threshold_styles false) col) = Some name /\ fits_style name (d_style d)) /\
    ((d_decoder d = "internal_correlated" /\ (d_obs d = "Z" \/ d_obs d = "H"))%string <-> exists row', at_cell (threshold_styles true) col row' = Some (key3 d)).
Proof.
  intros F d Hd. apply of_tables_shape in Hd as (H1 & H2). unfold key3.
  assert (U : forall k c r c' r', at_cell (threshold_styles false) c r = Some k -> at_cell (threshold_styles false) c' r' = Some k -> (c', r') = (c, r)).
  { assert (B : forall c r k, at_cell (threshold_styles false) c r = Some k -> (c < 3)%nat /\ (r < 8)%nat).
    { intros c r k. unfold at_cell. destruct c as [|[|[|c]]]; cbn [nth_error threshold_styles]; [| | |destruct c; discriminate]; (do 8 (destruct r as [|r]; [intros; lia|])); cbn [nth_error]; destruct r; discriminate. }
    assert (C : forallb (fun a => forallb (fun b => match at_cell (threshold_styles false) (fst a) (snd a), at_cell (threshold_styles false) (fst b) (snd b) with
               Some k, Some k' => if triple_eqb k k' then (fst a =? fst b)%nat && (snd a =? snd b)%nat else true | _, _ => true end) (list_prod (seq 0 3) (seq 0 8))) (list_prod (seq 0 3) (seq 0 8)) = true) by (vm_compute; reflexivity).
    intros k c r c' r' E E'. destruct (B _ _ _ E), (B _ _ _ E'). rewrite forallb_forall in C. assert (K := C (c, r) ltac:(apply in_prod; apply in_seq; lia)). rewrite forallb_forall in K.
    specialize (K (c', r') ltac:(apply in_prod; apply in_seq; lia)). cbn [fst snd] in K. rewrite E, E' in K. rewrite (proj2 (triple_eqb_iff k k) eq_refl) in K. apply andb_true_iff in K as [K1 K2]. apply Nat.eqb_eq in K1, K2. congruence. }
  assert (Case : forall c r, at_cell (threshold_styles false) c r = Some (d_style d, d_obs d, d_decoder d) ->
    (exists name, option_map fst (nth_error (threshold_styles false) c) = Some name /\ fits_style name (d_style d)) ->
    ((d_decoder d = "internal_correlated" /\ (d_obs d = "Z" \/ d_obs d = "H"))%string <-> exists row', at_cell (threshold_styles true) c row' = Some (d_style d, d_obs d, d_decoder d)) ->
    exists col row, at_cell (threshold_styles false) col row = Some (d_style d, d_obs d, d_decoder d) /\
    (forall col' row', at_cell (threshold_styles false) col' row' = Some (d_style d, d_obs d, d_decoder d) -> (col', row') = (col, row)) /\
    (exists name, option_map fst (nth_error (threshold_styles false) col) = Some name /\ fits_style name (d_style d)) /\
    ((d_decoder d = "internal_correlated" /\ (d_obs d = "Z" \/ d_obs d = "H"))%string <-> exists row', at_cell (threshold_styles true) col row' = Some (d_style d, d_obs d, d_decoder d))).
  { intros c r E X Y. exists c, r. split; [exact E|]. split; [intros c' r' E'; eapply U; eauto|]. auto. }
  assert (K : exists c r, at_cell (threshold_styles false) c r = Some (d_style d, d_obs d, d_decoder d) /\
    (exists name, option_map fst (nth_error (threshold_styles false) c) = Some name /\ fits_style name (d_style d)) /\
    ((d_decoder d = "internal_correlated" /\ (d_obs d = "Z" \/ d_obs d = "H"))%string <-> exists row', at_cell (threshold_styles true) c row' = Some (d_style d, d_obs d, d_decoder d))).
  { assert (NoT : forall c k, (forall r, at_cell (threshold_styles true) c r <> Some k) -> (False <-> exists r, at_cell (threshold_styles true) c r = Some k)) by (intros c k H; split; [intros []|intros (r & K); now apply H in K]).
    destruct H2 as [[[Hs Ho] _]|[[Hs Ho] _]]; cbn [In] in H1, Hs, Ho; decompose [or] H1; try contradiction; decompose [or] Hs; try contradiction; decompose [or] Ho; try contradiction;
      repeat match goal with X : _ = d_style d |- _ => rewrite <- X in *; clear X | X : _ = d_obs d |- _ => rewrite <- X in *; clear X | X : _ = d_decoder d |- _ => rewrite <- X in *; clear X end.
    all: match goal with |- exists c r, at_cell ?t c r = Some ?k /\ _ =>
      let f := eval vm_compute in (find (fun a => match at_cell t (fst a) (snd a) with Some k' => triple_eqb k' k | None => false end) (list_prod (seq 0 3) (seq 0 8))) in
      match f with Some (?c, ?r) => exists c, r end end.
    all: split; [reflexivity|split; [eexists; split; [reflexivity|unfold fits_style; cbn; tauto]|]].
    all: split; [intros [X [Y|Y]]; try discriminate X; try discriminate Y; (exists 0%nat; reflexivity) || (exists 1%nat; reflexivity)|].
    all: intros (r & X); destruct r as [|[|r]]; cbn in X; try discriminate X; try (injection X; intros; discriminate); try (split; [reflexivity|tauto]); destruct r; discriminate X. }
  destruct K as (c & r & K1 & K2 & K3). apply (Case c r K1 K2 K3).
Qed.
Print Assumptions C71_every_problem.

(** ** Data of the tables can always be drawn; what a label's colour means *)
Definition has_width {F} (data : problem_data F) (k : string * string * string) (w : Z) : Prop := exists d s, In (d, s) data /\ key3 d = k /\ d_width d = w.
(** The label of a size: surface codes are square, honeycomb patches three halves as high
    as wide, and both run for three times the width. *)
Definition size_label (k : string * string * string) (w : Z) : string :=
  (str_int (3 * w)%Z ++ " rounds, " ++ str_int w ++ "x" ++ str_int (if (panel_offset k =? 4)%Z then w else w * 3 / 2)%Z ++ " data")%string.
(** The panel of [k] has one curve for each recorded width, from small to large, and the
    i-th has the marker and colour number i (from 4 on for surface codes). *)
Definition sized_curves {F} (data : problem_data F) (k : string * string * string) (curves : list (curve F)) : Prop :=
  exists widths, StronglySorted Z.lt widths /\ (forall w, In w widths <-> has_width data k w) /\ map c_label curves = map (size_label k) widths /\
    forall i c, nth_error curves i = Some c ->
      nth_error (list_ascii_of_string "ov*sp^<>8PhH+xXDd|") (i + Z.to_nat (panel_offset k)) = Some (c_marker c) /\
      nth_error TABLEAU_COLORS (i + Z.to_nat (panel_offset k)) = Some (c_color c).

Lemma of_tables_width {F} (a b : desc F) : of_tables a -> of_tables b -> key3 a = key3 b -> d_width a = d_width b -> with_noise a (d_noise b) = b.
Proof.
  intros Ha Hb K W. unfold key3 in K. injection K as K1 K2 K3. apply of_tables_shape in Ha as (_ & Ha), Hb as (_ & Hb).
  assert (Eq : d_height a = d_height b /\ d_distance a = d_distance b /\ d_rounds a = d_rounds b /\ d_qubits a = d_qubits b).
  { destruct Ha as [(Sa & u & _ & A1 & A2 & A3 & A4 & la & A5 & A6 & A7)|(Sa & D & _ & A1 & A2 & A3 & A4 & A5)], Hb as [(Sb & v & _ & B1 & B2 & B3 & B4 & lb & B5 & B6 & B7)|(Sb & E & _ & B1 & B2 & B3 & B4 & B5)].
    - assert (u = v) by lia. subst v. repeat (split; [lia|]). rewrite A7, B7. assert (Es : style la = style lb) by (apply (app_inv_pre "honeycomb_"); congruence).
      unfold HoneycombLayout in A5, B5. do 2 (destruct (negb _) in A5; [discriminate|]). do 2 (destruct (negb _) in B5; [discriminate|]). injection A5 as A5. injection B5 as B5.
      rewrite <- A5, <- B5. unfold num_qubits. cbn [style data_width data_height]. rewrite Es. reflexivity.
    - exfalso. destruct Sa as [_ Sa], Sb as [_ Sb]. rewrite K2 in Sa. cbn [In] in Sa, Sb. destruct Sa as [Sa|[Sa|[]]], Sb as [Sb|[Sb|[]]]; congruence.
    - exfalso. destruct Sa as [_ Sa], Sb as [_ Sb]. rewrite K2 in Sa. cbn [In] in Sa, Sb. destruct Sa as [Sa|[Sa|[]]], Sb as [Sb|[Sb|[]]]; congruence.
    - assert (D = E) by lia. subst. repeat (split; [congruence|]). congruence. }
  destruct Eq as (E1 & E2 & E3 & E4). destruct a, b. unfold with_noise. cbn in *. congruence.
Qed.
Lemma of_tables_label {F} (d : desc F) : of_tables d -> (str_int (d_rounds d) ++ " rounds, " ++ str_int (d_width d) ++ "x" ++ str_int (d_height d) ++ " data")%string = size_label (key3 d) (d_width d).
Proof.
  intros H. apply of_tables_shape in H as (_ & H). unfold size_label, panel_offset, key3. cbn [fst snd].
  destruct H as [([_ Ho] & u & _ & A1 & A2 & A3 & A4 & _)|([_ Ho] & D & _ & A1 & A2 & A3 & A4 & _)]; cbn [In] in Ho.
  - assert (E : ((d_obs d =? "X")%string || (d_obs d =? "Z")%string)%bool = false) by (destruct Ho as [<-|[<-|[]]]; reflexivity). rewrite E. cbn [Z.eqb].
    replace (3 * d_width d) with (d_rounds d) by lia. replace (d_width d * 3 / 2) with (d_height d) by dlia. reflexivity.
  - assert (E : ((d_obs d =? "X")%string || (d_obs d =? "Z")%string)%bool = true) by (destruct Ho as [<-|[<-|[]]]; reflexivity). rewrite E. cbn [Z.eqb Pos.eqb].
    replace (3 * d_width d) with (d_rounds d) by lia. replace (d_height d) with (d_width d) by lia. reflexivity.
Qed.
Lemma of_tables_noise {F} (d : desc F) n : of_tables d -> of_tables (with_noise d n).
Proof. intros H. exact H. Qed.
Lemma of_tables_widths {F} (d : desc F) : of_tables d -> In (d_width d) (if panel_offset (key3 d) =? 4 then [3; 7; 11; 15; 19] else [4; 8; 12; 16; 20]).
Proof.
  intros H. apply of_tables_shape in H as (_ & H). unfold panel_offset, key3. cbn [fst snd].
  destruct H as [([_ Ho] & u & Hu & A1 & _)|([_ Ho] & D & HD & A1 & _)]; cbn [In] in Ho.
  - assert (E : ((d_obs d =? "X")%string || (d_obs d =? "Z")%string)%bool = false) by (destruct Ho as [<-|[<-|[]]]; reflexivity). rewrite E, A1. cbn [Z.eqb]. cbn [In] in Hu |- *. lia.
  - assert (E : ((d_obs d =? "X")%string || (d_obs d =? "Z")%string)%bool = true) by (destruct Ho as [<-|[<-|[]]]; reflexivity). rewrite E, A1. cbn [Z.eqb Pos.eqb]. exact HD.
Qed.
Lemma sorted_lt_nodup (l : list Z) : StronglySorted Z.lt l -> NoDup l.
Proof. induction 1 as [|a l S IH H]; constructor; [|exact IH]. intros K. rewrite Forall_forall in H. specialize (H a K). lia. Qed.
Lemma sorted_lt_same (l : list Z) : forall m, StronglySorted Z.lt l -> StronglySorted Z.lt m -> (forall x, In x l <-> In x m) -> l = m.
Proof.
  induction l as [|a l IH]; intros m Sl Sm H.
  - destruct m as [|b m]; [reflexivity|]. destruct (proj2 (H b) (or_introl eq_refl)).
  - destruct m as [|b m]; [destruct (proj1 (H a) (or_introl eq_refl))|]. inversion Sl as [|? ? Sl1 Sl2]; subst. inversion Sm as [|? ? Sm1 Sm2]; subst. rewrite Forall_forall in Sl2, Sm2.
    assert (a = b). { destruct (proj1 (H a) (or_introl eq_refl)) as [->|Ha]; [reflexivity|]. destruct (proj2 (H b) (or_introl eq_refl)) as [->|Hb]; [reflexivity|]. specialize (Sl2 _ Hb). specialize (Sm2 _ Ha). lia. }
    subst b. f_equal. apply IH; [assumption|assumption|]. intros x. split; intros Hx.
    + destruct (proj1 (H x) (or_intror Hx)) as [<-|K]; [specialize (Sl2 _ Hx); lia|exact K].
    + destruct (proj2 (H x) (or_intror Hx)) as [<-|K]; [specialize (Sm2 _ Hx); lia|exact K].
Qed.
Lemma NoDup_filter_fst {A B} (f : A * B -> bool) l : NoDup (map fst l) -> NoDup (map fst (filter f l)).
Proof.
  induction l as [|e l IH]; intros N; [constructor|]. inversion N as [|? ? N1 N2]; subst. cbn [filter]. destruct (f e); [|auto]. cbn [map]. constructor; [|auto].
  intros (x & Ex & Hx)%in_map_iff. apply filter_In in Hx as [Hx _]. apply N1. rewrite <- Ex. now apply in_map.
Qed.

Section Tables.
  Context {F : Type} (fzero : F) (feqb fleb : F -> F -> bool) (Hf : forall a b, feqb a b = true <-> a = b) (FL : linear_order fleb).
  Context (data : problem_data F) (N : NoDup (map fst data)) (P : Forall plottable data) (T : Forall (fun e => of_tables (fst e)) data).

  Lemma panel_drawn k : exists curves, plot_data fzero feqb fleb (filter (fun e => triple_eqb (key3 (fst e)) k) data) (panel_offset k) = Ok curves /\ sized_curves data k curves.
  Proof.
    set (sub := filter _ data). assert (Ns : NoDup (map fst sub)) by now apply NoDup_filter_fst.
    assert (Hs : forall d s, In (d, s) sub <-> In (d, s) data /\ key3 d = k) by (intros d s; unfold sub; rewrite filter_In; cbn [fst]; rewrite triple_eqb_iff; tauto).
    assert (Ps : Forall plottable sub) by (rewrite Forall_forall in *; intros [d s] H; apply Hs in H as [H _]; auto).
    assert (O : 0 <= panel_offset k <= 4) by (unfold panel_offset; destruct (_ || _)%bool; lia).
    destruct (C68_curves F fzero feqb fleb sub (panel_offset k) Hf FL Ns Ps ltac:(lia)) as (ks & K1 & K2 & K3 & _).
    rewrite Forall_forall in T.
    assert (Hk : forall q, In q ks -> of_tables q /\ key3 q = k /\ d_noise q = fzero /\ has_width data k (d_width q)).
    { intros q Hq. apply K2 in Hq as (d & s & Hd & ->). apply Hs in Hd as [Hd Ek]. split; [apply of_tables_noise; exact (T _ Hd)|]. split; [exact Ek|]. split; [reflexivity|]. exists d, s. auto. }
    assert (W : StronglySorted Z.lt (map d_width ks)).
    { clear K2 K3. induction K1 as [|q ks S IH H]; [constructor|]. cbn [map]. constructor; [apply IH; intros; apply Hk; now right|]. apply Forall_forall. intros w (r & <- & Hr)%in_map_iff. rewrite Forall_forall in H. specialize (H r Hr).
      destruct (Z.lt_trichotomy (d_width q) (d_width r)) as [L|[L|L]]; [exact L|exfalso|exfalso; unfold desc_lt in H; cbn [lexlt] in H; lia].
      destruct (Hk q (or_introl eq_refl)) as (Q1 & Q2 & Q3 & _). destruct (Hk r (or_intror Hr)) as (R1 & R2 & R3 & _). pose proof (of_tables_width q r Q1 R1 ltac:(congruence) L) as E.
      assert (q = r) by (rewrite <- E, R3, <- Q3; destruct q; reflexivity). subst r. exact (desc_lt_irrefl _ _ H). }
    assert (Len : (length ks <= 5)%nat).
    { rewrite <- (map_length d_width). assert (I : incl (map d_width ks) (if panel_offset k =? 4 then [3; 7; 11; 15; 19] else [4; 8; 12; 16; 20])).
      { intros w (q & <- & Hq)%in_map_iff. destruct (Hk q Hq) as (Q1 & Q2 & _). rewrite <- Q2. now apply of_tables_widths. }
      pose proof (NoDup_incl_length (sorted_lt_nodup _ W) I) as L. destruct (panel_offset k =? 4); exact L. }
    destruct K3 as (cs & E & F2); [lia|]. exists cs. split; [exact E|]. exists (map d_width ks). split; [exact W|]. split; [|split].
    - intros w. rewrite in_map_iff. split; [intros (q & <- & Hq); apply (Hk q Hq)|]. intros (d & s & Hd & Ek & Ew). exists (with_noise d fzero). split; [exact Ew|]. apply K2. exists d, s. split; [now apply Hs|reflexivity].
    - clear -F2 Hk. induction F2 as [|q c ks cs H F2 IH]; [reflexivity|]. cbn [map]. rewrite IH by (intros; apply Hk; now right). f_equal. rewrite (co_label _ _ _ _ H). destruct (Hk q (or_introl eq_refl)) as (Q1 & Q2 & _).
      rewrite of_tables_label by exact Q1. now rewrite Q2.
    - intros i c Ei. assert (Li : (i < 5)%nat) by (assert (Lc : length ks = length cs) by (clear -F2; induction F2; cbn; congruence); assert (i < length cs)%nat by (apply nth_error_Some; congruence); lia).
      apply curves_styled in E. destruct (styled_nth _ _ _ _ _ E Ei) as (_ & M & C). rewrite Z.add_0_l in M, C.
      apply py_index_inv in M, C; try lia. replace (Z.to_nat (Z.of_nat i + panel_offset k)) with (i + Z.to_nat (panel_offset k))%nat in M, C by lia.
      set (j := (i + Z.to_nat (panel_offset k))%nat) in *. assert (Lj : (j < 9)%nat) by (unfold j; lia).
      unfold curve_markers, curve_colors, repeated in M, C. change (repeat _ 100) with (list_ascii_of_string "ov*sp^<>8PhH+xXDd|" :: repeat (list_ascii_of_string "ov*sp^<>8PhH+xXDd|") 99) in M. change (repeat TABLEAU_COLORS 3) with (TABLEAU_COLORS :: repeat TABLEAU_COLORS 2) in C.
      cbn [concat] in M, C. rewrite nth_error_app1 in M by (cbn; lia). rewrite nth_error_app1 in C by (cbn; lia). auto.
  Qed.
End Tables.

(** Data of the paper's problems: both figures can be drawn, and every panel has one curve
    per recorded size, with its own label, marker and colour, chosen by rank. *)
Theorem C71_drawn : forall F (fzero : F) feqb fleb data focused, (forall a b, feqb a b = true <-> a = b) -> linear_order fleb ->
  NoDup (map fst data) -> Forall plottable data -> Forall (fun e => of_tables (fst e)) data ->
  exists fig, plot_thresholds fzero feqb fleb data focused = Ok fig /\
    forall col row k, at_cell (threshold_styles focused) col row = Some k ->
      exists curves, at_cell fig col row = Some curves /\ sized_curves data k curves /\ NoDup (map c_label curves).
Proof.
  intros F fzero feqb fleb data focused Hf FL N P T.
  assert (Hobs : forall x y, In x (threshold_styles focused) -> In (Some y) (snd x) -> (if str_in (snd (fst y)) "XZ" then 4 else 0) = panel_offset y).
  { intros x [[s o] dec] Hc Hr.
    assert (C : forallb (fun x => forallb (fun y => match y with Some (_, o, _) => existsb (String.eqb o) ["X"; "Z"; "H"; "V"]%string | None => true end) (snd x)) (threshold_styles focused) = true) by (destruct focused; vm_compute; reflexivity).
    rewrite forallb_forall in C. specialize (C x Hc). rewrite forallb_forall in C. specialize (C _ Hr). cbv beta iota in C. apply existsb_exists in C as (o' & Ho & Eo). apply String.eqb_eq in Eo. subst o'.
    cbn in Ho. decompose [or] Ho; try contradiction; subst o; reflexivity. }
  assert (OK : exists fig, plot_thresholds fzero feqb fleb data focused = Ok fig).
  { unfold plot_thresholds. revert Hobs. generalize (threshold_styles focused). intros l. induction l as [|[name cases] l IH]; intros Hobs; [exists []; reflexivity|].
    destruct IH as (fig & E); [intros x y Hx; apply Hobs; now right|]. cbn [mapM]. rewrite E.
    assert (R : exists ps, mapM (fun c => match c with None => Ok None | Some k => let! p := threshold_panel fzero feqb fleb data k in Ok (Some p) end) cases = Ok ps).
    { assert (Hc : forall y, In (Some y) cases -> (if str_in (snd (fst y)) "XZ" then 4 else 0) = panel_offset y) by (intros y Hy; apply (Hobs (name, cases)); [now left|exact Hy]). clear Hobs E.
      induction cases as [|[k|] cases IH]; [exists []; reflexivity| |].
      - destruct IH as (ps & Ep); [intros y Hy; apply Hc; now right|]. cbn [mapM]. rewrite Ep. destruct (panel_drawn fzero feqb fleb Hf FL data N P T k) as (cs & Ec & _).
        unfold threshold_panel. rewrite (group_lookup feqb triple_eqb triple_leb (fun e => (d_style e, d_obs e, d_decoder e)) data k Hf triple_eqb_iff N), (Hc k (or_introl eq_refl)).
        change (fun e : desc F * shot_data F => triple_eqb (d_style (fst e), d_obs (fst e), d_decoder (fst e)) k) with (fun e : desc F * shot_data F => triple_eqb (key3 (fst e)) k). rewrite Ec. cbn [bind]. eauto.
      - destruct IH as (ps & Ep); [intros y Hy; apply Hc; now right|]. cbn [mapM]. rewrite Ep. cbn [bind]. eauto. }
    destruct R as (ps & ->). cbn [bind]. eauto. }
  destruct OK as (fig & E). exists fig. split; [exact E|]. intros col row k Hk. pose proof (C71_panels F fzero feqb fleb data focused fig Hf N E col row) as H. rewrite Hk in H.
  destruct H as (cs & H1 & H2). destruct (panel_drawn fzero feqb fleb Hf FL data N P T k) as (cs' & H2' & S). assert (cs' = cs) by congruence. subst cs'. exists cs. split; [exact H1|]. split; [exact S|].
  destruct S as (ws & S1 & S2 & S3 & _). rewrite S3. apply NoDup_map_inj; [|now apply sorted_lt_nodup].
  intros w w' Hw Hw' El. apply S2 in Hw as (d & s & Hd & Kd & Wd), Hw' as (d' & s' & Hd' & Kd' & Wd'). rewrite Forall_forall in T.
  pose proof (of_tables_widths _ (T _ Hd)) as I1. pose proof (of_tables_widths _ (T _ Hd')) as I2. cbn [fst] in I1, I2. rewrite Kd, Wd in I1. rewrite Kd', Wd' in I2. unfold size_label in El.
  clear -El I1 I2. destruct (panel_offset k =? 4); cbn [In] in I1, I2; decompose [or] I1; decompose [or] I2; try contradiction; subst w w'; try reflexivity; exfalso; vm_compute in El; discriminate El.
Qed.
Print Assumptions C71_drawn.

Lemma nth_error_same {A} (l : list A) : forall m, (forall i, nth_error l i = nth_error m i) -> l = m.
Proof.
  induction l as [|a l IH]; intros [|b m] H; [reflexivity|specialize (H O); discriminate|specialize (H O); discriminate|].
  pose proof (H O) as H0. injection H0 as ->. f_equal. apply IH. intros i. exact (H (S i)).
Qed.
(** What the eye reads off a curve. *)
Definition look {F} (c : curve F) : string * ascii * string := (c_label c, c_marker c, c_color c).
(** The legend is made from two panels.  It fits every other panel that shows the same
    sizes: there the same size has the same label, marker and colour. *)
Theorem C71_legend : forall F (fzero : F) feqb fleb data focused fig, (forall a b, feqb a b = true <-> a = b) -> linear_order fleb ->
  NoDup (map fst data) -> Forall plottable data -> Forall (fun e => of_tables (fst e)) data ->
  plot_thresholds fzero feqb fleb data focused = Ok fig ->
  forall col row k curves col' row' k' curves',
    at_cell (threshold_styles focused) col row = Some k -> at_cell fig col row = Some curves ->
    at_cell (threshold_styles focused) col' row' = Some k' -> at_cell fig col' row' = Some curves' ->
    panel_offset k = panel_offset k' -> (forall w, has_width data k w <-> has_width data k' w) ->
    map look curves = map look curves'.
Proof.
  intros F fzero feqb fleb data focused fig Hf FL N P T E col row k cs col' row' k' cs' K1 C1 K2 C2 O W.
  destruct (C71_drawn F fzero feqb fleb data focused Hf FL N P T) as (fig' & E' & D). assert (fig' = fig) by congruence. subst fig'.
  destruct (D _ _ _ K1) as (c1 & G1 & (ws & S1 & S2 & S3 & S4) & _). destruct (D _ _ _ K2) as (c2 & G2 & (ws' & S1' & S2' & S3' & S4') & _).
  assert (c1 = cs) by congruence. assert (c2 = cs') by congruence. subst c1 c2.
  assert (Ew : ws = ws') by (apply sorted_lt_same; [assumption|assumption|]; intros w; rewrite S2, S2'; apply W). subst ws'.
  assert (EL : map c_label cs = map c_label cs') by (rewrite S3, S3'; apply map_ext; intros w; unfold size_label; now rewrite O).
  rewrite <- O in S4'. apply nth_error_same. intros i. rewrite !nth_error_map.
  pose proof (f_equal (fun l => nth_error l i) EL) as Ei. cbv beta in Ei. rewrite !nth_error_map in Ei.
  destruct (nth_error cs i) as [c|] eqn:Ec, (nth_error cs' i) as [c'|] eqn:Ec'; cbn [option_map] in *; try discriminate; [|reflexivity].
  destruct (S4 _ _ Ec) as [M1 M2], (S4' _ _ Ec') as [M1' M2']. unfold look. injection Ei as ->. rewrite M1 in M1'. rewrite M2 in M2'. injection M1' as ->. injection M2' as ->. reflexivity.
Qed.
Print Assumptions C71_legend.

Lemma mapM_len {A B} (f : A -> res B) l : forall out, mapM f l = Ok out -> length out = length l.
Proof.
  induction l as [|a l IH]; intros out; cbn [mapM]; [intros [= <-]; reflexivity|]. destruct (f a); [|discriminate]. cbn [bind]. destruct (mapM f l); [|discriminate]. cbn [bind]. intros [= <-]. cbn [length]. now rewrite IH.
Qed.
(** The legend's texts: the sizes recorded for the first surface code panel, ascending,
    then those recorded for the last honeycomb panel of that column. *)
Theorem C71_legend_texts : forall F (fzero : F) feqb fleb data focused fig, (forall a b, feqb a b = true <-> a = b) -> linear_order fleb ->
  NoDup (map fst data) -> Forall plottable data -> Forall (fun e => of_tables (fst e)) data ->
  plot_thresholds fzero feqb fleb data focused = Ok fig ->
  let surface := if focused then ("surface_SD6", "Z", "internal_correlated")%string else ("surface_SD6", "X", "internal")%string in
  let honeycomb := ("honeycomb_SD6", (if focused then "H" else "V"), "internal_correlated")%string in
  exists ws ws', (StronglySorted Z.lt ws /\ forall w, In w ws <-> has_width data surface w) /\ (StronglySorted Z.lt ws' /\ forall w, In w ws' <-> has_width data honeycomb w) /\
    threshold_legend fig = ("Surface Code Sizes:"%string :: map (size_label surface) ws) ++ ("Honeycomb Code Sizes:"%string :: map (size_label honeycomb) ws').
Proof.
  intros F fzero feqb fleb data focused fig Hf FL N P T E surface honeycomb.
  destruct (C71_drawn F fzero feqb fleb data focused Hf FL N P T) as (fig' & E' & D). assert (fig' = fig) by congruence. subst fig'.
  pose proof (C71_panels F fzero feqb fleb data focused fig Hf N E 0) as HP.
  set (last := if focused then 1%nat else 7%nat).
  assert (K1 : at_cell (threshold_styles focused) 0 0 = Some surface) by (unfold surface; destruct focused; reflexivity).
  assert (K2 : at_cell (threshold_styles focused) 0 last = Some honeycomb) by (unfold honeycomb, last; destruct focused; reflexivity).
  destruct (D _ _ _ K1) as (c1 & G1 & (ws & S1 & S2 & S3 & S4) & _). destruct (D _ _ _ K2) as (c2 & G2 & (ws' & S1' & S2' & S3' & S4') & _).
  exists ws, ws'. split; [auto|]. split; [auto|].
  unfold threshold_legend, at_cell in *.
  assert (L : match fig with (_, ps) :: _ => length ps | [] => 0%nat end = S last).
  { unfold plot_thresholds in E. pose proof (mapM_nth _ _ _ 0 E) as H. destruct focused; cbn [threshold_styles nth_error] in H; destruct H as ([name ps] & Hp & H); (destruct fig as [|[name' ps'] fig]; [discriminate|]);
    cbn [nth_error] in Hp; injection Hp as -> ->; destruct (mapM _ _) as [q|] eqn:Em in H; try discriminate; cbn [bind] in H; injection H as <- <-; apply mapM_len in Em; rewrite Em; reflexivity. }
  destruct fig as [|[name ps] fig]; [discriminate|]. change (nth_error ((name, ps) :: fig) 0) with (Some (name, ps)) in G1, G2. cbv beta iota in G1, G2.
  rewrite L. replace (S last - 1)%nat with last by lia. rewrite <- S3, <- S3'.
  destruct (nth_error ps 0) as [[q1|]|]; try discriminate. destruct (nth_error ps last) as [[q2|]|]; try discriminate. congruence.
Qed.
Print Assumptions C71_legend_texts.

Lemma surface_table {F} (p : F) (D : Z) (nm o dec : string) : In D SURFACE_DISTANCES -> In nm ["SD6"; "SI1000"]%string -> In o SURFACE_OBS -> In dec DECODERS ->
  of_tables (mkDesc D D D (2 * D * D - 1) (3 * D) p ("surface_" ++ nm)%string o dec).
Proof.
  intros HD Hn Ho Hd. exists (Some "d"%string). eexists _, (sf_problem "d" (dec, (D, (0.0005%Q, (nm, o))))).
  split; [unfold honeycomb_problems; apply honeycomb_problems_ok|]. split.
  - apply in_app_iff. right. unfold surface_code_problems. rewrite surface_problems_ok. cbn [String.eqb Ascii.eqb Bool.eqb orb]. apply in_map. unfold sf_params. rewrite !in_prod2.
    split; [exact Hd|]. split; [exact HD|]. split; [vm_compute; auto 20|]. split; [exact Hn|exact Ho].
  - cbn [sf_problem surface_code_problem fst d_width d_height d_distance d_qubits d_rounds d_style d_obs d_decoder]. repeat split; lia.
Qed.
(** Data in which one noise model lacks the smallest size. *)
Definition ex_gap : problem_data Z :=
  [(mkDesc 3 3 3 17 9 1%Z "surface_SD6" "Z" "internal_correlated", mkShots 100 90 1%Z); (mkDesc 7 7 7 97 21 1%Z "surface_SD6" "Z" "internal_correlated", mkShots 100 95 1%Z);
   (mkDesc 7 7 7 97 21 1%Z "surface_SI1000" "Z" "internal_correlated", mkShots 100 97 1%Z)]%string.
Lemma ex_gap_good : NoDup (map fst ex_gap) /\ Forall plottable ex_gap /\ Forall (fun e => of_tables (fst e)) ex_gap.
Proof.
  split; [repeat constructor; cbn; intuition discriminate|]. split; [repeat constructor; cbn; lia|].
  repeat (constructor; [apply (surface_table 1 3 "SD6") || apply (surface_table 1 7 "SD6") || apply (surface_table 1 7 "SI1000"); cbn; tauto|]). constructor.
Qed.
(** Without that condition it does not: the legend's colour of a size can belong to another
    size in another panel of the same figure. *)
Theorem C71_legend_refuted : exists (data : problem_data Z) fig c c',
  NoDup (map fst data) /\ Forall plottable data /\ Forall (fun e => of_tables (fst e)) data /\
  plot_thresholds 0 Z.eqb Z.leb data true = Ok fig /\
  (exists cs cs', at_cell fig 0 0 = Some cs /\ at_cell fig 1 0 = Some cs' /\ In c cs /\ In c' cs') /\
  c_color c = c_color c' /\ c_marker c = c_marker c' /\ c_label c = "9 rounds, 3x3 data"%string /\ c_label c' = "21 rounds, 7x7 data"%string.
Proof.
  destruct ex_gap_good as (N & P & T). destruct (C71_drawn Z 0 Z.eqb Z.leb ex_gap true Z.eqb_eq Z_linear N P T) as (fig & E & D).
  destruct (D 0%nat 0%nat _ eq_refl) as (cs & G & (ws & S1 & S2 & S3 & S4) & _). destruct (D 1%nat 0%nat _ eq_refl) as (cs' & G' & (ws' & S1' & S2' & S3' & S4') & _).
  assert (E1 : ws = [3; 7]).
  { apply sorted_lt_same; [exact S1|repeat constructor|]. intros w. rewrite S2. unfold has_width, key3, ex_gap. cbn [In]. split.
    - intros (d & s & [[= <- <-]|[[= <- <-]|[[= <- <-]|[]]]] & Ek & Ew); cbn in Ek, Ew; [left; exact Ew|right; left; exact Ew|discriminate].
    - intros [<-|[<-|[]]]; eexists _, _; [split; [left; reflexivity|split; reflexivity]|split; [right; left; reflexivity|split; reflexivity]]. }
  assert (E2 : ws' = [7]).
  { apply sorted_lt_same; [exact S1'|repeat constructor|]. intros w. rewrite S2'. unfold has_width, key3, ex_gap. cbn [In]. split.
    - intros (d & s & [[= <- <-]|[[= <- <-]|[[= <- <-]|[]]]] & Ek & Ew); cbn in Ek, Ew; [discriminate|discriminate|left; exact Ew].
    - intros [<-|[]]; eexists _, _; (split; [right; right; left; reflexivity|split; reflexivity]). }
  subst ws ws'. destruct cs as [|c cs]; [discriminate|]. destruct cs' as [|c' cs']; [discriminate|]. cbn [map] in S3, S3'. injection S3 as L1 _. injection S3' as L2 _.
  exists ex_gap, fig, c, c'. split; [exact N|]. split; [exact P|]. split; [exact T|]. split; [exact E|]. split; [exists (c :: cs), (c' :: cs'); split; [exact G|]; split; [exact G'|]; split; now left|].
  destruct (S4 0%nat c eq_refl) as [M1 M2], (S4' 0%nat c' eq_refl) as [M1' M2']. cbn in M1, M2, M1', M2'. split; [congruence|]. split; [congruence|]. split; [rewrite L1; reflexivity|rewrite L2; reflexivity].
Qed.
Print Assumptions C71_legend_refuted.
(** [ex_gap] meets the hypotheses of [C71_drawn]; its first column has two curves, starting
    at marker and colour number 4. *)
Example C71_example : NoDup (map fst ex_gap) /\ Forall plottable ex_gap /\ Forall (fun e => of_tables (fst e)) ex_gap /\
  exists fig cs, plot_thresholds 0 Z.eqb Z.leb ex_gap true = Ok fig /\ at_cell fig 0 0 = Some cs /\ map c_label cs = ["9 rounds, 3x3 data"; "21 rounds, 7x7 data"]%string /\ map c_marker cs = ["p"; "^"]%char /\
  at_cell fig 2 0 = None.
Proof.
  destruct ex_gap_good as (N & P & T). split; [exact N|]. split; [exact P|]. split; [exact T|].
  destruct (C71_drawn Z 0 Z.eqb Z.leb ex_gap true Z.eqb_eq Z_linear N P T) as (fig & E & D). destruct (D 0%nat 0%nat _ eq_refl) as (cs & G & (ws & S1 & S2 & S3 & S4) & _).
  assert (E1 : ws = [3; 7]).
  { apply sorted_lt_same; [exact S1|repeat constructor|]. intros w. rewrite S2. unfold has_width, key3, ex_gap. cbn [In]. split.
    - intros (d & s & [[= <- <-]|[[= <- <-]|[[= <- <-]|[]]]] & Ek & Ew); cbn in Ek, Ew; [left; exact Ew|right; left; exact Ew|discriminate].
    - intros [<-|[<-|[]]]; eexists _, _; [split; [left; reflexivity|split; reflexivity]|split; [right; left; reflexivity|split; reflexivity]]. }
  subst ws. exists fig, cs. split; [exact E|]. split; [exact G|]. split; [rewrite S3; reflexivity|]. split; [|exact (C71_panels Z 0 Z.eqb Z.leb ex_gap true fig Z.eqb_eq N E 2 0)].
  destruct cs as [|c1 [|c2 [|c3 cs]]]; try discriminate. destruct (S4 0%nat c1 eq_refl) as [M1 _], (S4 1%nat c2 eq_refl) as [M2 _]. assert (E1 : Some "p"%char = Some (c_marker c1)) by (rewrite <- M1; reflexivity). assert (E2 : Some "^"%char = Some (c_marker c2)) by (rewrite <- M2; reflexivity). injection E1 as E1. injection E2 as E2. cbn [map]. now rewrite E1, E2.
Qed.
