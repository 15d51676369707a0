(** C52, C53, C55, C59: the scripts in src/paper. *)
From Coq Require Import QArith Qround Qabs.
From Coq Require Import Ascii Lqa.
From Verif Require Import Prelude Text Layout LayoutFacts Collect Prop_Collect Circuit Noise Prop_Circuit Prop_Noise2 Paper.
Open Scope Z_scope.

Lemma ceil_div_spec a b : 0 < b -> a <= ceil_div a b * b < a + b.
Proof.
  intros Hb. unfold ceil_div. set (q := (inject_Z a / inject_Z b)%Q).
  assert (E : (q * inject_Z b == inject_Z a)%Q).
  { unfold q. field. intros K. unfold Qeq in K. simpl in K. lia. }
  pose proof (Qle_ceiling q) as H1. pose proof (Qceiling_lt q) as H2.
  assert (Hb' : (0 < inject_Z b)%Q) by (rewrite <- (Zlt_Qlt 0); lia).
  split.
  - apply (Qmult_le_compat_r _ _ (inject_Z b)) in H1; [|lra]. rewrite E in H1. rewrite <- inject_Z_mult, <- Zle_Qle in H1. lia.
  - apply (Qmult_lt_r _ _ (inject_Z b)) in H2; [|exact Hb']. rewrite E, <- inject_Z_mult, <- Zlt_Qlt in H2. lia.
Qed.

(** ** C52: the problems of main_collect_all *)
(** Different positions of the list hold different numbers. *)
Definition distinct_values (ps : list Q) : Prop :=
  forall i j p q, nth_error ps i = Some p -> nth_error ps j = Some q -> (p == q)%Q -> i = j.
(** Different positions hold problems whose descriptions differ (so that a dict keyed by
    description never merges their rows). *)
Definition distinct_descs (l : list problem) : Prop :=
  forall i j a b, nth_error l i = Some a -> nth_error l j = Some b -> desc_eqb Qeq_bool (fst a) (fst b) = true -> i = j.

Lemma distinct_nodup ps : distinct_values ps -> NoDup ps.
Proof. intros H. apply NoDup_nth_error. intros i j Hi E. destruct (nth_error ps i) as [p|] eqn:Ei; [|apply nth_error_Some in Hi; congruence]. eapply H; eauto. reflexivity. Qed.
Lemma distinct_eq ps p q : distinct_values ps -> In p ps -> In q ps -> (p == q)%Q -> p = q.
Proof.
  intros H Hp Hq E. apply In_nth_error in Hp as [i Hi]. apply In_nth_error in Hq as [j Hj].
  assert (i = j) by (eapply H; eauto). subst. congruence.
Qed.
Lemma distinct_descs_of ps l : distinct_values ps -> (forall a, In a l -> In (d_noise (fst a)) ps) -> NoDup (map fst l) -> distinct_descs l.
Proof.
  intros Hp Hin Hn i j a b Ha Hb E. unfold problem in *.
  assert (K : fst a = fst b).
  { pose proof (Hin a (nth_error_In _ _ Ha)) as Na. pose proof (Hin b (nth_error_In _ _ Hb)) as Nb.
    destruct (fst a), (fst b). unfold desc_eqb in E. simpl in E, Na, Nb. rewrite !andb_true_iff, !Z.eqb_eq, !String.eqb_eq in E. decompose [and] E.
    subst. f_equal. eapply distinct_eq; eauto. now apply Qeq_bool_iff. }
  rewrite NoDup_nth_error in Hn. apply Hn.
  - rewrite map_length. assert (Hi : nth_error l i <> None) by (rewrite Ha; discriminate). apply nth_error_Some in Hi. exact Hi.
  - rewrite !nth_error_map, Ha, Hb. simpl. now rewrite K.
Qed.

(** the loop nests as lists of index tuples *)
Definition prod2 {A B} (l : list A) (m : list B) : list (A * B) := flat_map (fun a => map (pair a) m) l.
Lemma NoDup_prod2 {A B} (l : list A) (m : list B) : NoDup l -> NoDup m -> NoDup (prod2 l m).
Proof.
  intros Hl Hm. apply NoDup_flat_map; [exact Hl| |].
  - intros x _. apply NoDup_map_inj; [intros; congruence|exact Hm].
  - intros x y b _ _ (u & <- & _)%in_map_iff (v & [= <- _] & _)%in_map_iff. reflexivity.
Qed.
Lemma in_prod2 {A B} (l : list A) (m : list B) a b : In (a, b) (prod2 l m) <-> In a l /\ In b m.
Proof.
  unfold prod2. rewrite in_flat_map. split.
  - intros (x & Hx & Hi). apply in_map_iff in Hi as (y & [= <- <-] & Hy). auto.
  - intros [Ha Hb]. exists a. split; [exact Ha|]. apply in_map. exact Hb.
Qed.
Lemma flat_map_prod2 {A B C} (f : A -> B -> C) l m : flat_map (fun a => map (f a) m) l = map (fun '(a, b) => f a b) (prod2 l m).
Proof. unfold prod2. induction l as [|a l IH]; [reflexivity|]. simpl. rewrite map_app, map_map, IH. reflexivity. Qed.
Lemma flat_map_map2 {A B C} (f : A -> list B) (g : B -> C) l : flat_map (fun a => map g (f a)) l = map g (flat_map f l).
Proof. induction l as [|a l IH]; [reflexivity|]. simpl. rewrite map_app, IH. reflexivity. Qed.

Definition hc_params ps us styles obss : list (Q * Z * string * string) :=
  flat_map (fun p => flat_map (fun u => flat_map (fun style => map (fun obs => (p, u, style, obs)) obss) styles) us) ps.
Lemma in_hc_params ps us styles obss p u s o : In (p, u, s, o) (hc_params ps us styles obss) <-> In p ps /\ In u us /\ In s styles /\ In o obss.
Proof.
  unfold hc_params. rewrite in_flat_map. split.
  - intros (p0 & Hp & H). apply in_flat_map in H as (u0 & Hu & H). apply in_flat_map in H as (s0 & Hs & H). apply in_map_iff in H as (o0 & [= -> -> -> ->] & Ho). auto.
  - intros (Hp & Hu & Hs & Ho). exists p. split; [exact Hp|]. apply in_flat_map. exists u. split; [exact Hu|]. apply in_flat_map. exists s. split; [exact Hs|]. apply in_map. exact Ho.
Qed.
Lemma NoDup_hc_params ps us styles obss : NoDup ps -> NoDup us -> NoDup styles -> NoDup obss -> NoDup (hc_params ps us styles obss).
Proof.
  intros H1 H2 H3 H4. apply NoDup_flat_map; [exact H1| |].
  - intros p _. apply NoDup_flat_map; [exact H2| |].
    + intros u _. apply NoDup_flat_map; [exact H3| |].
      * intros s _. apply NoDup_map_inj; [intros; congruence|exact H4].
      * intros x y b _ _ (v & <- & _)%in_map_iff (w & [= <- _] & _)%in_map_iff. reflexivity.
    + intros x y b _ _ Hx Hy. apply in_flat_map in Hx as (s & _ & Hx). apply in_flat_map in Hy as (s' & _ & Hy).
      apply in_map_iff in Hx as (v & <- & _). apply in_map_iff in Hy as (w & [= <- _ _] & _). reflexivity.
  - intros x y b _ _ Hx Hy. apply in_flat_map in Hx as (u & _ & Hx). apply in_flat_map in Hy as (u' & _ & Hy).
    apply in_flat_map in Hx as (s & _ & Hx). apply in_flat_map in Hy as (s' & _ & Hy).
    apply in_map_iff in Hx as (v & <- & _). apply in_map_iff in Hy as (w & [= <- _ _ _] & _). reflexivity.
Qed.

Definition hc_layout (t : Q * Z * string * string) : layout :=
  let '(p, u, s, o) := t in mkLayout (u * 4) (u * 6) (u * 3 * 4 * 3) s o p.
Lemma honeycomb_layouts_ok ps us styles obss : honeycomb_layouts ps us styles obss = Ok (map hc_layout (hc_params ps us styles obss)).
Proof.
  unfold honeycomb_layouts. apply mapM_ok. intros [[[p u] s] o] _. unfold HoneycombLayout, hc_layout.
  replace (u * 4 mod 2) with 0 by dlia. replace (u * 6 mod 6) with 0 by dlia. reflexivity.
Qed.
Definition hc_problem (x : string * (Q * Z * string * string)) : problem :=
  let '(dec, t) := x in (as_decoder_problem_desc (hc_layout t) dec, Honeycomb (hc_layout t)).
Lemma honeycomb_problems_ok ps us styles obss decs :
  honeycomb_problems_from ps us styles obss decs = Ok (map hc_problem (prod2 decs (hc_params ps us styles obss))).
Proof.
  unfold honeycomb_problems_from. rewrite honeycomb_layouts_ok. cbn [bind]. f_equal.
  rewrite (flat_map_ext _ (fun d => map (fun t => hc_problem (d, t)) (hc_params ps us styles obss))) by (intros d; now rewrite map_map).
  rewrite (flat_map_prod2 (fun d t => hc_problem (d, t))). apply map_ext. now intros [d t].
Qed.

Definition sf_params decs ds ps names obss : list (string * (Z * (Q * (string * string)))) :=
  prod2 decs (prod2 ds (prod2 ps (prod2 names obss))).
Definition sf_problem dir (x : string * (Z * (Q * (string * string)))) : problem :=
  let '(dec, (d, (p, (name, ob)))) := x in surface_code_problem dir name p ob d dec.
Lemma surface_problems_ok dir decs ds ps names obss :
  surface_code_problems_from dir decs ds ps names obss =
  match dir with None => [] | Some dir => if (dir =? "-")%string || (dir =? "")%string then [] else map (sf_problem dir) (sf_params decs ds ps names obss) end.
Proof.
  unfold surface_code_problems_from. destruct dir as [dir|]; [|reflexivity]. destruct (_ || _); [reflexivity|].
  unfold sf_params. unfold prod2 at 1. rewrite <- flat_map_map2. apply flat_map_ext. intros dec. rewrite map_map.
  unfold prod2 at 1. rewrite <- flat_map_map2. apply flat_map_ext. intros d. rewrite map_map.
  unfold prod2 at 1. rewrite <- flat_map_map2. apply flat_map_ext. intros p. rewrite map_map.
  unfold prod2 at 1. rewrite <- flat_map_map2. apply flat_map_ext. intros n. rewrite map_map. reflexivity.
Qed.

Lemma app_inv_pre (p a b : string) : (p ++ a = p ++ b -> a = b)%string.
Proof. induction p as [|c p IH]; simpl; [auto|]. intros [= H]. auto. Qed.

(** For any choice of the literal lists without repetitions. *)
Theorem C52_distinct_from : forall dir ps us styles obss decs ds sps names sobss sdecs hs,
  distinct_values ps -> NoDup us -> NoDup styles -> NoDup obss -> NoDup decs ->
  distinct_values sps -> NoDup ds -> NoDup names -> NoDup sobss -> NoDup sdecs ->
  honeycomb_problems_from ps us styles obss decs = Ok hs ->
  distinct_descs hs /\ distinct_descs (surface_code_problems_from dir sdecs ds sps names sobss) /\
  forall a b, In a hs -> In b (surface_code_problems_from dir sdecs ds sps names sobss) -> desc_eqb Qeq_bool (fst a) (fst b) = false.
Proof.
  intros dir ps us styles obss decs ds sps names sobss sdecs hs H1 H2 H3 H4 H5 H6 H7 H8 H9 H10 E.
  rewrite honeycomb_problems_ok in E. injection E as <-. rewrite surface_problems_ok. split; [|split].
  - apply (distinct_descs_of ps); [exact H1| |].
    + intros a Ha. apply in_map_iff in Ha as ([dec [[[p u] s] o]] & <- & Ha). apply in_prod2 in Ha as [_ Ha]. apply in_hc_params in Ha. apply Ha.
    + rewrite map_map. apply NoDup_map_inj.
      * intros [dec [[[p u] s] o]] [dec' [[[p' u'] s'] o']] _ _. unfold hc_problem, as_decoder_problem_desc. cbn [fst hc_layout data_width data_height noise style obs].
        intros [= Ew _ _ _ _ Ep Es Eo Ed]. assert (u = u') by lia. subst. reflexivity.
      * apply NoDup_prod2; [exact H5|]. apply NoDup_hc_params; auto. now apply distinct_nodup.
  - destruct dir as [dir|]; [destruct (_ || _)|]; [intros i j a b Ha; destruct i; discriminate| |intros i j a b Ha; destruct i; discriminate].
    apply (distinct_descs_of sps); [exact H6| |].
    + intros a Ha. apply in_map_iff in Ha as ([dec [d [p [n o]]]] & <- & Ha). unfold sf_params in Ha. rewrite !in_prod2 in Ha. apply Ha.
    + rewrite map_map. apply NoDup_map_inj.
      * intros [dec [d [p [n o]]]] [dec' [d' [p' [n' o']]]] _ _. unfold sf_problem, surface_code_problem. cbn [fst].
        intros [= Ed _ _ Ep En Eo Edec]. subst. reflexivity.
      * repeat apply NoDup_prod2; auto. now apply distinct_nodup.
  - intros a b Ha Hb. apply in_map_iff in Ha as ([dec [[[p u] s] o]] & <- & Ha).
    destruct dir as [dir|]; [destruct (_ || _)|]; [destruct Hb| |destruct Hb].
    apply in_map_iff in Hb as ([dec' [d [p' [n o']]]] & <- & Hb).
    unfold desc_eqb. cbn [hc_problem as_decoder_problem_desc sf_problem surface_code_problem fst d_style].
    change ("honeycomb_" ++ ?x =? "surface_" ++ ?y)%string with false. rewrite !andb_false_r. reflexivity.
Qed.
Print Assumptions C52_distinct_from.

Lemma used_distinct : distinct_values USED_NOISE_VALUES.
Proof.
  assert (H : NoDup (map (fun q => Qnum q) USED_NOISE_VALUES)).
  { cbn. repeat (constructor; [cbn [In]; intuition discriminate|]). constructor. }
  intros i j p q Hi Hj E. rewrite NoDup_nth_error in H. apply H.
  - rewrite map_length. apply nth_error_Some. congruence.
  - rewrite !nth_error_map, Hi, Hj. simpl. f_equal.
    assert (D : forall x, In x USED_NOISE_VALUES -> Qden x = 10000%positive) by (cbn [USED_NOISE_VALUES In]; intuition subst; reflexivity).
    apply nth_error_In in Hi, Hj. apply D in Hi, Hj. unfold Qeq in E. rewrite Hi, Hj in E. lia.
Qed.
Lemma distinct_app l m : distinct_descs l -> distinct_descs m -> (forall a b, In a l -> In b m -> desc_eqb Qeq_bool (fst a) (fst b) = false) -> distinct_descs (l ++ m).
Proof.
  intros Hl Hm Hx i j a b Ha Hb E.
  destruct (Nat.lt_ge_cases i (length l)) as [Hi|Hi], (Nat.lt_ge_cases j (length l)) as [Hj|Hj].
  - rewrite nth_error_app1 in Ha, Hb by assumption. eauto.
  - rewrite nth_error_app1 in Ha by assumption. rewrite nth_error_app2 in Hb by assumption. apply nth_error_In in Ha, Hb. rewrite (Hx _ _ Ha Hb) in E. discriminate.
  - rewrite nth_error_app2 in Ha by assumption. rewrite nth_error_app1 in Hb by assumption. apply nth_error_In in Ha, Hb.
    assert (E' : desc_eqb Qeq_bool (fst b) (fst a) = true).
    { revert E. unfold desc_eqb. rewrite !andb_true_iff, !Z.eqb_eq, !String.eqb_eq, !Qeq_bool_iff. intros E. decompose [and] E. repeat split; symmetry; assumption. }
    rewrite (Hx _ _ Hb Ha) in E'. discriminate.
  - rewrite nth_error_app2 in Ha, Hb by assumption. assert (i - length l = j - length l)%nat by eauto. lia.
Qed.

(** The table of the paper. *)
Theorem C52_distinct : forall dir, exists hs, honeycomb_problems = Ok hs /\ length hs = 900%nat /\
  distinct_descs (hs ++ surface_code_problems dir).
Proof.
  intros dir. eexists. split; [apply honeycomb_problems_ok|]. split; [reflexivity|].
  assert (ND : forall (A : Type) (l : list A), (forall i j x, nth_error l i = Some x -> nth_error l j = Some x -> i = j) -> NoDup l).
  { intros A l H. apply NoDup_nth_error. intros i j Hi E. destruct (nth_error l i) eqn:Ei; [eapply H; eauto|apply nth_error_Some in Hi; congruence]. }
  destruct (C52_distinct_from dir USED_NOISE_VALUES HONEYCOMB_UNITS HONEYCOMB_STYLES HONEYCOMB_OBS DECODERS SURFACE_DISTANCES USED_NOISE_VALUES SURFACE_NOISES SURFACE_OBS DECODERS _
    used_distinct
    ltac:(repeat (constructor; [cbn [In]; intuition discriminate|]); constructor)
    ltac:(repeat (constructor; [cbn [In]; intuition discriminate|]); constructor)
    ltac:(repeat (constructor; [cbn [In]; intuition discriminate|]); constructor)
    ltac:(repeat (constructor; [cbn [In]; intuition discriminate|]); constructor)
    used_distinct
    ltac:(repeat (constructor; [cbn [In]; intuition discriminate|]); constructor)
    ltac:(repeat (constructor; [cbn [In]; intuition discriminate|]); constructor)
    ltac:(repeat (constructor; [cbn [In]; intuition discriminate|]); constructor)
    ltac:(repeat (constructor; [cbn [In]; intuition discriminate|]); constructor)
    (honeycomb_problems_ok _ _ _ _ _)) as (A & B & C).
  apply distinct_app; assumption.
Qed.
Print Assumptions C52_distinct.

(** Every honeycomb problem, for sizes u >= 1, styles and observables of the supported
    kinds: the generator accepts its layout, the description has distance 4u, and rounds
    three times the distance. *)
Theorem C52_accepted : forall ps us styles obss decs hs,
  Forall (fun u => 1 <= u) us -> Forall (fun s => In s ["SD6"; "PC3"; "EM3"; "EM3_v2"; "SI1000"]%string) styles ->
  Forall (fun o => In o ["V"; "H"]%string) obss ->
  honeycomb_problems_from ps us styles obss decs = Ok hs ->
  forall d m, In (d, m) hs -> exists lay u c, m = Honeycomb lay /\ In u us /\ In (noise lay) ps /\
    generate_honeycomb_circuit lay = Ok c /\
    d_noise d = noise lay /\ d_distance d = 4 * u /\ d_rounds d = 3 * d_distance d /\ In (d_decoder d) decs /\
    d_qubits d = (if is_em3 (style lay) then 24 * u * u else 60 * u * u).
Proof.
  intros ps us styles obss decs hs Hu Hs Ho E d m Hin. rewrite honeycomb_problems_ok in E. injection E as <-.
  apply in_map_iff in Hin as ([dec [[[p u] s] o]] & Ex & Hin).
  assert (Ed : d = as_decoder_problem_desc (hc_layout (p, u, s, o)) dec) by (unfold hc_problem in Ex; congruence).
  assert (Em : m = Honeycomb (hc_layout (p, u, s, o))) by (unfold hc_problem in Ex; congruence). clear Ex. subst d m.
  apply in_prod2 in Hin as [Hdec Hin]. apply in_hc_params in Hin as (Ip & Iu & Is & Io).
  rewrite Forall_forall in Hu, Hs, Ho. pose proof (Hu u Iu) as Hu1. specialize (Hs s Is). specialize (Ho o Io).
  assert (Hv : valid (hc_layout (p, u, s, o))) by (unfold valid; simpl; repeat split; dlia).
  assert (Hsup : supported_input (hc_layout (p, u, s, o))).
  { unfold supported_input. cbn [hc_layout sub_rounds obs style]. split; [lia|]. split; [cbn [In] in Ho; intuition|].
    assert (u * 3 * 4 * 3 mod 3 = 0) by dlia. cbn [In] in Hs. intuition. }
  assert (H0 : 0 <= sub_rounds (hc_layout (p, u, s, o))) by (simpl; lia).
  destruct (C16_generator_accepts_exactly_supported _ Hv H0) as [[_ G] _]. destruct (G Hsup) as [c Hc].
  exists (hc_layout (p, u, s, o)), u, c. split; [reflexivity|]. split; [exact Iu|]. split; [exact Ip|]. split; [exact Hc|]. split; [reflexivity|].
  assert (Hd : code_distance_1qdep (hc_layout (p, u, s, o)) = 4 * u) by (unfold code_distance_1qdep; simpl; dlia).
  cbn [as_decoder_problem_desc d_distance d_rounds d_decoder d_qubits]. rewrite Hd. split; [reflexivity|]. split; [|split; [exact Hdec|]].
  - pose proof (ceil_div_spec (u * 3 * 4 * 3) 3 ltac:(lia)). cbn [hc_layout sub_rounds]. lia.
  - unfold num_qubits. cbn [hc_layout style data_width data_height]. destruct (is_em3 s); [lia|].
    rewrite Z.quot_div_nonneg by nia. replace (5 * (u * 4 * (u * 6))) with (60 * u * u * 2) by ring. now rewrite Z.div_mul.
Qed.
Print Assumptions C52_accepted.
Example C52_accepted_example : exists hs, honeycomb_problems = Ok hs /\ length (hs ++ surface_code_problems (Some "dir"%string)) = 1500%nat /\
  forall d m, In (d, m) hs -> exists lay c, m = Honeycomb lay /\ generate_honeycomb_circuit lay = Ok c.
Proof.
  eexists. split; [apply honeycomb_problems_ok|]. split; [vm_compute; reflexivity|].
  intros d m H. pose proof (C52_accepted USED_NOISE_VALUES HONEYCOMB_UNITS HONEYCOMB_STYLES HONEYCOMB_OBS DECODERS _
    ltac:(repeat constructor; lia)
    ltac:(repeat (constructor; [cbn [In]; tauto|]); constructor)
    ltac:(repeat (constructor; [cbn [In]; tauto|]); constructor) (honeycomb_problems_ok _ _ _ _ _) d m H) as (lay & u & c & A & _ & _ & B & _).
  eauto.
Qed.

(** The collection settings: whatever the command line options (positive where given, at
    least 25 shots and 25 per batch), the call is made and every problem ends within its
    shot budget with at least 25 shots. *)
Theorem C52_settings : forall default_dir sdir pid red ms me mb ds P sample,
  counts sample ->
  match ms with Some x => 25 <= x | None => 1 <= main_case_reduction red <= 10 ^ 6 end ->
  match mb with Some b => 25 <= b | None => True end ->
  collect_data default_dir sdir pid (main_case_reduction red) ms me mb = Ok (ds, P) ->
  (exists hs, honeycomb_problems = Ok hs /\ forall x, In x ds -> In x (hs ++ surface_code_problems match sdir with None => Some default_dir | _ => sdir end)) /\
  forall t l t' o d, In d (map fst ds) -> collect_problem P sample t d = (l, t', o) ->
    o = Ok tt /\ 25 <= shots_of l <= max_shots P /\ Forall (fun b => b_shots b <= match mb with Some b => b | None => 32768 end) l.
Proof.
  intros dd sdir pid red ms me mb ds P sample Hc Hms Hmb E. unfold collect_data in E.
  destruct honeycomb_problems as [hs|e] eqn:Eh; [|discriminate]. cbn [bind] in E.
  set (all := hs ++ surface_code_problems match sdir with None => Some dd | _ => sdir end) in *.
  replace (match sdir with Some d => Some d | None => Some dd end) with (match sdir with None => Some dd | _ => sdir end) in E by (destruct sdir; reflexivity).
  fold all in E.
  destruct (match pid with None => Ok all | Some i => let! x := py_index all i in Ok [x] end) as [ps|e] eqn:Ep; [|discriminate]. cbn [bind] in E.
  destruct (from_default ms (10 ^ 8) (main_case_reduction red)) as [ms'|e] eqn:Em; [|discriminate]. cbn [bind] in E.
  destruct (from_default me (10 ^ 3) (main_case_reduction red)) as [me'|e] eqn:Ee; [|discriminate]. cbn [bind] in E. injection E as <- <-.
  assert (Hm : 25 <= ms').
  { destruct ms; cbn [from_default] in Em; [injection Em as <-; exact Hms|]. destruct (_ =? 0); [discriminate|]. injection Em as <-.
    apply Z.div_le_lower_bound; lia. }
  split.
  - exists hs. split; [reflexivity|]. intros x Hx. fold all. destruct pid as [i|]; [|injection Ep as <-; exact Hx].
    unfold py_index in Ep. destruct (_ && _); [|discriminate]. destruct (nth_error all _) as [y|] eqn:En; [|discriminate]. injection Ep as <-.
    destruct Hx as [<-|[]]. eapply nth_error_In; eauto.
  - intros t l t' o d _ H.
    change (Z.pow_pos 2 15) with 32768 in H.
    assert (Hb : 25 <= match mb with Some b => b | None => 32768 end) by (destruct mb; lia).
    revert Hb H. generalize (match mb with Some b => b | None => 32768 end). intros bb Hb H.
    set (P := mkParams 25 ms' (Some bb) 1 me') in *.
    assert (Ho : o = Ok tt).
    { pose proof (C39_completes P sample t [d] ltac:(simpl; lia) ltac:(simpl; lia) ltac:(simpl; lia) Hc) as K. simpl in K. rewrite H in K.
      destruct o as [[]|e]; [reflexivity|exact K]. }
    subst o. split; [reflexivity|].
    destruct (C39_budget P sample t d l t' (Ok tt) ltac:(simpl; lia) ltac:(left; simpl; lia) H) as [B1 B2].
    pose proof (C40_min_shots P sample t d l t' ltac:(simpl; lia) ltac:(simpl; lia) H) as B3. simpl in B1, B3. split; [simpl; lia|].
    eapply Forall_impl; [|exact B2]. intros b [_ K]. exact K.
Qed.
Print Assumptions C52_settings.
Example C52_settings_example : exists ds P, collect_data "dir" None (Some (-1)) (main_case_reduction None) None None None = Ok (ds, P) /\
  length ds = 1%nat /\ max_shots P = 100000000 /\ collect_data "dir" None (Some 1500) 1 None None None = Err IndexError.
Proof. eexists _, _. split; [vm_compute; reflexivity|]. split; [reflexivity|]. split; [reflexivity|]. vm_compute. reflexivity. Qed.
