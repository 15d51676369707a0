(** C64: which circuits can be drawn. *)
From Coq Require Import QArith Qround Ascii Lqa.
From Verif Require Import Prelude Layout Stim Noise NoiseFacts Moments Text Collect Prop_Collect Diagrams Prop_Diagrams Prop_Diagrams2 Prop_Diagrams3.
Open Scope Z_scope.

(** ** Specification *)
(** Every instruction is of a known kind and of the shape that belongs to it. *)
Definition well_formed (ops : list instr) : Prop := forall i, In i ops ->
  (exists s l, shown i s l) /\ (iname i = "QUBIT_COORDS"%string -> exists qs r im, itargets i = map TQ qs /\ iargs i = [Num r; Num im]).

(** ** Facts *)
Definition complaint (e : exn) : Prop := e = AssertionError \/ e = KeyError.
Definition needs (D : list (nat * cplx)) (f : plot_state -> res plot_state) (syms : list (nat * string)) : Prop :=
  forall s done, i2q s = D -> Forall2 (placed D) done (cur_level s) -> NoDup (map fst done) ->
    match f s with
    | Ok s' => i2q s' = D /\ seen_coords s' = seen_coords s /\ Forall2 (placed D) (done ++ syms) (cur_level s') /\ NoDup (map fst (done ++ syms)) /\ incl (map fst syms) (map fst D)
    | Err e => complaint e end.
Lemma needs_skip D : needs D Ok [].
Proof. intros s done E P N. rewrite app_nil_r. repeat split; auto. intros x []. Qed.
Lemma needs_then D f g a b : needs D f a -> needs D g b -> needs D (fun s => bind (f s) g) (a ++ b).
Proof.
  intros F G s done E P N. specialize (F s done E P N). destruct (f s) as [s1|e]; cbn [bind]; [|exact F]. destruct F as (E1 & S1 & P1 & N1 & I1).
  specialize (G s1 (done ++ a) E1 P1 N1). destruct (g s1) as [s2|e]; [|exact G]. destruct G as (E2 & S2 & P2 & N2 & I2). rewrite <- app_assoc in P2, N2.
  repeat split; auto; [congruence|]. rewrite map_app. now apply incl_app.
Qed.
Lemma needs_ext D f g a : (forall s, i2q s = D -> f s = g s) -> needs D f a -> needs D g a.
Proof. intros E F s done Es. rewrite <- E by exact Es. now apply F. Qed.
Lemma needs_put D q p c : fair D -> In (q, p) D -> needs D (fun s => put_symbol s p c) [(q, c)].
Proof.
  intros F H s done E P N. unfold put_symbol. destruct (existsb (cplx_eqb p) (map fst (cur_level s))) eqn:X; cbn [negb assert_ bind]; [now left|]. cbn.
  repeat split; [exact E|apply Forall2_app; [exact P|repeat constructor; exact H]| |intros x [<-|[]]; apply in_map_iff; now exists (q, p)].
  rewrite map_app. apply NoDup_app_intro; [exact N|repeat constructor; intros []|]. intros x Hx [<-|[]]. apply not_true_iff_false in X. apply X. apply existsb_exists.
  apply in_map_iff in Hx as ([q' c'] & Eq & Hx). cbn [fst] in Eq. subst q'. destruct (Forall2_in_l _ _ _ _ P Hx) as ([p' c''] & Hp & [_ Hd]). cbn [fst snd] in Hd.
  rewrite (fair_fun _ _ _ _ F H Hd). exists p'. split; [apply in_map_iff; now exists (p', c'')|]. apply same_point_eqb. split; reflexivity.
Qed.
Lemma lookup_bad s q : ~ In q (map fst (i2q s)) -> lookup_qubit s q = Err KeyError.
Proof.
  intros H. unfold lookup_qubit. replace (dget Nat.eqb q (i2q s)) with (@None cplx); [reflexivity|]. symmetry. induction (i2q s) as [|[a b] r IH]; [reflexivity|]. cbn [dget].
  destruct (Nat.eqb_spec q a) as [->|_]; [exfalso; apply H; now left|]. apply IH. intros K. apply H. now right.
Qed.
Lemma needs_where D q (k : plot_state -> cplx -> res plot_state) a : fair D -> (forall p, In (q, p) D -> needs D (fun s => k s p) a) -> needs D (fun s => let! p := lookup_qubit s q in k s p) a.
Proof.
  intros F K s done E P N. destruct (in_dec Nat.eq_dec q (map fst D)) as [H|H].
  - destruct (in_place D q H) as [p Hp]. rewrite (lookup_ok D s q p F E Hp). cbn [bind]. exact (K p Hp s done E P N).
  - rewrite lookup_bad by (now rewrite E). cbn [bind]. now right.
Qed.
Lemma needs_letter D q c : fair D -> needs D (fun s => let! p := lookup_qubit s q in put_symbol s p c) [(q, c)].
Proof. intros F. apply needs_where; [exact F|]. intros p Hp. now apply needs_put. Qed.
Lemma needs_link (D : list (nat * cplx)) p q : needs D (fun s => Ok (add_link s p q)) [].
Proof. intros s done E P N. cbn. rewrite app_nil_r. repeat split; auto. intros x []. Qed.
Lemma needs_each D {X} (f : plot_state -> X -> res plot_state) (a : X -> list (nat * string)) l :
  (forall x, In x l -> needs D (fun s => f s x) (a x)) -> needs D (foldM f l) (flat_map a l).
Proof.
  induction l as [|x l IH]; intros H; [exact (needs_skip D)|]. cbn [foldM flat_map]. apply (needs_then D (fun s => f s x) (foldM f l)); [apply H; now left|apply IH; intros y Hy; apply H; now right].
Qed.
Lemma needs_one D name qs : fair D -> needs D (foldM (plot_1 name) (map TQ qs)) (map (fun q => (q, symbol_1 name)) qs).
Proof.
  intros F. rewrite <- (flat_map_single (fun q => (q, symbol_1 name)) qs).
  eapply needs_ext; [intros s _; symmetry; apply (foldM_map TQ (plot_1 name))|]. apply (needs_each D (fun s x => plot_1 name s (TQ x))). intros q _. unfold plot_1. cbn [value_of bind]. now apply needs_letter.
Qed.
Lemma needs_pairs D name ps : fair D ->
  needs D (fun s => plot_pairs name s (flat_map (fun '(a, b) => [a; b]) ps)) (flat_map (fun '(a, b) => [(a, symbol_first name); (b, symbol_second name)]) ps).
Proof.
  intros F. induction ps as [|[a b] ps IH]; [exact (needs_skip D)|]. cbn [flat_map app plot_pairs].
  apply (needs_where D a (fun s p => let! q := lookup_qubit s b in let! s := put_symbol s p (symbol_first name) in let! s := put_symbol s q (symbol_second name) in
    plot_pairs name (add_link s p q) (flat_map (fun '(a, b) => [a; b]) ps))); [exact F|]. intros p Hp.
  apply (needs_where D b (fun s q => let! s := put_symbol s p (symbol_first name) in let! s := put_symbol s q (symbol_second name) in
    plot_pairs name (add_link s p q) (flat_map (fun '(a, b) => [a; b]) ps))); [exact F|]. intros q Hq.
  apply (needs_then D (fun s => put_symbol s p (symbol_first name)) _ [(a, symbol_first name)]); [now apply needs_put|].
  apply (needs_then D (fun s => put_symbol s q (symbol_second name)) (fun s => plot_pairs name (add_link s p q) (flat_map (fun '(a, b) => [a; b]) ps)) [(b, symbol_second name)]); [now apply needs_put|].
  apply (needs_then D (fun s => Ok (add_link s p q)) (fun s => plot_pairs name s (flat_map (fun '(a, b) => [a; b]) ps)) []); [apply needs_link|exact IH].
Qed.
Lemma needs_group D (g : list (pauli * nat)) : fair D -> (length g = 1%nat \/ length g = 2%nat) ->
  needs D (fun s => plot_group s (map (fun '(P, q) => TP P q) g)) (map (fun '(P, q) => (q, small P)) g).
Proof.
  intros F Hg.
  assert (FC : forall P q, needs D (fun s => plot_factor s (TP P q)) [(q, small P)]).
  { intros P q. eapply needs_ext; [|apply (needs_letter D q (small P) F)]. intros s _. unfold plot_factor. cbn [value_of bind]. destruct (lookup_qubit s q); [|reflexivity]. cbn [bind]. destruct P; reflexivity. }
  destruct g as [|[P a] [|[P' b] [|? ?]]]; cbn [length] in Hg; try lia; cbn [map].
  - eapply needs_ext; [|apply (FC P a)]. intros s _. unfold plot_group. cbn [length Nat.leb andb assert_ bind foldM]. destruct (plot_factor s (TP P a)); reflexivity.
  - apply (needs_ext D (fun s => let! s := plot_factor s (TP P a) in let! s := plot_factor s (TP P' b) in let! p := lookup_qubit s a in let! q := lookup_qubit s b in Ok (add_link s p q))).
    { intros s Es. unfold plot_group. cbn [length Nat.leb andb assert_ bind foldM]. destruct (plot_factor s (TP P a)) as [s1|] eqn:E1; [|reflexivity]. cbn [bind].
      destruct (plot_factor s1 (TP P' b)) as [s2|] eqn:E2; [|reflexivity]. reflexivity. }
    apply (needs_then D (fun s => plot_factor s (TP P a)) _ [(a, small P)] [(b, small P')]); [apply FC|].
    apply (needs_then D (fun s => plot_factor s (TP P' b)) (fun s => let! p := lookup_qubit s a in let! q := lookup_qubit s b in Ok (add_link s p q)) [(b, small P')] []); [apply FC|].
    apply (needs_where D a (fun s p => let! q := lookup_qubit s b in Ok (add_link s p q))); [exact F|]. intros p _.
    apply (needs_where D b (fun s q => Ok (add_link s p q))); [exact F|]. intros q _. apply needs_link.
Qed.
Lemma needs_op D i syms lks : fair D -> shown i syms lks -> iname i <> "QUBIT_COORDS"%string -> iname i <> "TICK"%string -> needs D (fun s => plot_op s i) syms.
Proof.
  intros F S N1 N2. destruct S as [name c qs args H|name c d ps args H|gs args H|name ts args H]; cbn [iname] in *.
  - assert (E : symbol_1 name = c /\ forall s, plot_op s (mkI name (map TQ qs) args) = foldM (plot_1 name) (map TQ qs) s).
    { cbn [letters1 In] in H. repeat (destruct H as [[= <- <-]|H]; [split; reflexivity|]). destruct H. }
    destruct E as [<- E]. eapply needs_ext; [intros s _; symmetry; apply E|]. now apply needs_one.
  - assert (E : symbol_first name = c /\ symbol_second name = d /\ forall s ts, plot_op s (mkI name ts args) = let! l := mapM value_of ts in plot_pairs name s l).
    { cbn [letters2 In] in H. repeat (destruct H as [[= <- <- <-]|H]; [repeat split; reflexivity|]). destruct H. }
    destruct E as (<- & <- & E). eapply needs_ext; [intros s _; symmetry; rewrite E, mapM_value; reflexivity|]. cbn [bind]. now apply needs_pairs.
  - eapply needs_ext; [intros s _; symmetry; unfold plot_op; cbn -[flat_map mpp_groups]; rewrite C56_products; [reflexivity|]|].
    + apply Forall_forall. intros g Hg. apply in_map_iff in Hg as (g0 & <- & Hg). rewrite Forall_forall in H. specialize (H g0 Hg). split.
      * intros E. apply map_eq_nil in E. subst g0. cbn in H. lia.
      * intros K. apply in_map_iff in K as ([P q] & K & _). discriminate.
    + cbn [bind]. eapply needs_ext; [intros s _; symmetry; apply (foldM_map (map (fun '(P, q) => TP P q)) plot_group)|].
      apply (needs_each D (fun s g => plot_group s (map (fun '(P, q) => TP P q) g))). intros g Hg. rewrite Forall_forall in H. now apply needs_group, H.
  - eapply needs_ext; [|exact (needs_skip D)]. intros s _. cbn [silent In] in H. repeat (destruct H as [<-|H]; [solve [reflexivity|contradiction]|]). destruct H.
Qed.

Lemma FOP_snoc {A} (R : A -> A -> Prop) l x : ForallOrdPairs R l -> Forall (fun a => R a x) l -> ForallOrdPairs R (l ++ [x]).
Proof.
  induction 1 as [|a l H F IH]; intros K; cbn [app]; [repeat constructor|]. inversion K as [|? ? K1 K2]. subst. constructor; [|auto]. apply Forall_app. split; [exact H|]. repeat constructor. exact K1.
Qed.
Lemma declare_needs args r im qs : forall s, args = [Num r; Num im] -> seen_coords s = map snd (i2q s) -> fair (i2q s) ->
  match foldM (declare_qubit args) (map TQ qs) s with
  | Ok s' => i2q s' = i2q s ++ map (fun q => (q, (r, im * 2)%Q)) qs /\ seen_coords s' = map snd (i2q s') /\ fair (i2q s') /\ cur_level s' = cur_level s
  | Err e => complaint e end.
Proof.
  intros s ->. revert s. induction qs as [|q qs IH]; intros s Es F; cbn [map foldM]; [rewrite app_nil_r; auto|].
  unfold declare_qubit at 1. cbn [value_of coords_of bind].
  destruct (existsb (Nat.eqb q) (map fst (i2q s))) eqn:X; cbn [negb assert_ bind]; [now left|].
  destruct (existsb (cplx_eqb (r, im * 2)%Q) (seen_coords s)) eqn:Y; cbn [negb assert_ bind]; [now left|].
  specialize (IH (mkPlot (i2q s ++ [(q, (r, im * 2)%Q)]) (seen_coords s ++ [(r, im * 2)%Q]) (done_levels s) (done_links s) (cur_level s) (cur_links s))). cbn [i2q seen_coords cur_level] in IH.
  assert (F' : fair (i2q s ++ [(q, (r, im * 2)%Q)])).
  { destruct F as [F1 F2]. split; rewrite map_app; cbn [map fst snd].
    - apply NoDup_app_intro; [exact F1|repeat constructor; intros []|]. intros x Hx [<-|[]]. apply not_true_iff_false in X. apply X, existsb_exists. exists q. split; [exact Hx|apply Nat.eqb_refl].
    - apply FOP_snoc; [exact F2|]. apply Forall_forall. intros p Hp K. apply not_true_iff_false in Y. apply Y, existsb_exists. exists p. rewrite Es. split; [exact Hp|]. apply same_point_eqb. now apply same_point_sym. }
  specialize (IH ltac:(now rewrite Es, map_app) F').
  match type of IH with match ?a with _ => _ end => match goal with |- match ?b with _ => _ end => change b with a; destruct a as [s'|e]; [|exact IH] end end.
  destruct IH as (I1 & I2 & I3 & I4). rewrite <- app_assoc in I1. auto.
Qed.

Lemma run_needs l2 : forall l1 s done,
  well_formed l2 -> fair (declared l1) -> i2q s = declared l1 -> seen_coords s = map snd (declared l1) ->
  Forall2 (placed (declared l1)) done (cur_level s) -> NoDup (map fst done) ->
  match foldM plot_op l2 s with
  | Ok s' => fair (declared (l1 ++ l2)) /\
      (forall m1 i m2 s l, l2 = m1 ++ i :: m2 -> shown i s l -> incl (map fst s) (map fst (declared (l1 ++ m1)))) /\
      (exists first rest sf lf, moments [] l2 = first :: rest /\ shown_all first sf lf /\ NoDup (map fst (done ++ sf)) /\
        forall m, In m rest -> exists s l, shown_all m s l /\ NoDup (map fst s))
  | Err e => complaint e end.
Proof.
  induction l2 as [|i l2 IH]; intros l1 s done W F Ei Es P N.
  - cbn [foldM]. rewrite app_nil_r. split; [exact F|]. split; [intros [|? ?]; discriminate|]. exists [], [], [], []. cbn [moments]. rewrite app_nil_r. split; [reflexivity|]. split; [constructor|]. split; [exact N|intros m []].
  - destruct (W i ltac:(now left)) as [(si & li & Si) Hd]. assert (W' : well_formed l2) by (intros j Hj; apply W; now right).
    assert (Ass : l1 ++ i :: l2 = (l1 ++ [i]) ++ l2) by (now rewrite <- app_assoc).
    cbn [foldM].
    assert (Before : forall P : Prop, incl (map fst si) (map fst (declared l1)) ->
      (forall m1 j m2 s l, l2 = m1 ++ j :: m2 -> shown j s l -> incl (map fst s) (map fst (declared ((l1 ++ [i]) ++ m1)))) ->
      forall m1 j m2 s l, i :: l2 = m1 ++ j :: m2 -> shown j s l -> incl (map fst s) (map fst (declared (l1 ++ m1)))).
    { intros _ H0 H1 m1 j m2 s0 l0 E S0. destruct m1 as [|x m1]; cbn [app] in E; injection E as -> E.
      - rewrite app_nil_r. destruct (shown_unique _ _ _ _ _ S0 Si) as [-> _]. exact H0.
      - specialize (H1 m1 j m2 s0 l0 E S0). now rewrite <- app_assoc in H1. }
    destruct (is_tick i) eqn:Ti.
    + pose proof (is_tick_name i Ti) as Ni.
      assert (Di : declared (l1 ++ [i]) = declared l1) by (rewrite declared_app; cbn; unfold declares; rewrite Ni; cbn; now rewrite app_nil_r).
      assert (Op : plot_op s i = Ok (mkPlot (i2q s) (seen_coords s) (done_levels s ++ [cur_level s]) (done_links s ++ [cur_links s]) [] [])) by (unfold plot_op; now rewrite Ni).
      rewrite Op. cbn [bind]. specialize (IH (l1 ++ [i]) (mkPlot (i2q s) (seen_coords s) (done_levels s ++ [cur_level s]) (done_links s ++ [cur_links s]) [] []) []).
      rewrite Di in IH. cbn [i2q seen_coords cur_level] in IH. specialize (IH W' F Ei Es (Forall2_nil _) (NoDup_nil _)).
      destruct (foldM plot_op l2 _) as [s'|e]; [|exact IH]. destruct IH as (F' & B & first & rest & sf & lf & Em & Sf & Nf & Hr).
      assert (Q : si = []). { destruct Si as [name c qs args H|name c d ps args H|gs args H|name ts args H]; cbn [iname] in Ni; subst; [| |discriminate|reflexivity]; cbn in H; repeat (destruct H as [H|H]; [discriminate|]); destruct H. }
      rewrite Ass. split; [exact F'|]. split; [apply (Before True); [subst si; intros x []|exact B]|].
      exists [], (first :: rest), [], []. cbn [moments]. rewrite Ti, Em, app_nil_r. split; [reflexivity|]. split; [constructor|]. split; [exact N|]. intros m [<-|Hm]; [exists sf, lf; auto|auto].
    + destruct (string_dec (iname i) "QUBIT_COORDS") as [Ni|Ni].
      * destruct (shown_coords _ _ _ Si Ni) as [-> ->]. destruct (Hd Ni) as (qs & r & im & Et & Ea).
        assert (Di : declares i = map (fun q => (q, (r, im * 2)%Q)) qs). { unfold declares. rewrite Ni, Ea, Et. cbn. rewrite flat_map_of_map. apply flat_map_single. }
        assert (D1 : declared (l1 ++ [i]) = declared l1 ++ map (fun q => (q, (r, im * 2)%Q)) qs) by (rewrite declared_app; cbn [declared flat_map]; now rewrite Di, app_nil_r).
        assert (Op : plot_op s i = foldM (declare_qubit (iargs i)) (map TQ qs) s) by (unfold plot_op; now rewrite Ni, Et). rewrite Op. rewrite <- Ei in F.
        pose proof (declare_needs (iargs i) r im qs s Ea ltac:(now rewrite Es, Ei) F) as DN. destruct (foldM (declare_qubit (iargs i)) (map TQ qs) s) as [s1|e]; cbn [bind]; [|exact DN].
        destruct DN as (E1 & E2 & E3 & E4). rewrite Ei, <- D1 in E1. rewrite E1 in E2, E3. specialize (IH (l1 ++ [i]) s1 done W' E3 E1 E2). rewrite E4 in IH.
        specialize (IH ltac:(apply (placed_more (declared l1)); [rewrite D1; intros x Hx; apply in_or_app; now left|exact P]) N).
        destruct (foldM plot_op l2 s1) as [s'|e]; [|exact IH]. destruct IH as (F' & B & first & rest & sf & lf & Em & Sf & Nf & Hr).
        rewrite Ass. split; [exact F'|]. split; [apply (Before True); [intros x []|exact B]|].
        destruct (moments_acc l2 [i]) as (f & t & X1 & X2). rewrite X1 in Em. injection Em as -> ->. exists (i :: first), rest, sf, lf. cbn [moments]. rewrite Ti. cbn [app]. rewrite X2.
        split; [reflexivity|]. split; [exact (shown_cons i [] [] first sf lf Si Sf)|]. auto.
      * assert (NT : iname i <> "TICK"%string) by (intros K; unfold is_tick in Ti; rewrite K in Ti; discriminate).
        assert (Di : declared (l1 ++ [i]) = declared l1). { rewrite declared_app. cbn [declared flat_map]. unfold declares. rewrite (proj2 (String.eqb_neq _ _) Ni). cbn. now rewrite app_nil_r. }
        pose proof (needs_op (declared l1) i si li F Si Ni NT s done Ei P N) as NO. cbn beta in NO. destruct (plot_op s i) as [s1|e]; cbn [bind]; [|exact NO].
        destruct NO as (E1 & E2 & E3 & E4 & E5). specialize (IH (l1 ++ [i]) s1 (done ++ si) W'). rewrite Di in IH. specialize (IH F E1 ltac:(now rewrite E2) E3 E4).
        destruct (foldM plot_op l2 s1) as [s'|e]; [|exact IH]. destruct IH as (F' & B & first & rest & sf & lf & Em & Sf & Nf & Hr).
        rewrite Ass. split; [exact F'|]. split; [apply (Before True); [exact E5|exact B]|].
        destruct (moments_acc l2 [i]) as (f & t & X1 & X2). rewrite X1 in Em. injection Em as -> ->. exists (i :: first), rest, (si ++ sf), (li ++ lf). cbn [moments]. rewrite Ti. cbn [app]. rewrite X2.
        split; [reflexivity|]. split; [exact (shown_cons i si li first sf lf Si Sf)|]. rewrite app_assoc. auto.
Qed.

(** A circuit of known instructions is drawn exactly if its qubits are declared once, in
    different places and before they are used, and no qubit has two letters in one moment;
    otherwise the call ends with an AssertionError or a KeyError. *)
Theorem C64_accepted : forall c block, let ops := iter_circuit c 1 (if block : bool then 1 else 0) in well_formed ops ->
  ((exists levels lks, plot_levels c block = Ok (levels, lks)) <-> plottable ops) /\
  (~ plottable ops -> plot_circuit c block = Err AssertionError \/ plot_circuit c block = Err KeyError).
Proof.
  intros c block ops W.
  pose proof (run_needs ops [] plot_start [] W ltac:(split; constructor) eq_refl eq_refl ltac:(constructor) ltac:(constructor)) as R.
  assert (G : forall s', foldM plot_op ops plot_start = Ok s' -> plottable ops).
  { intros s' E. rewrite E in R. destruct R as ([F1 F2] & B & first & rest & sf & lf & Em & Sf & Nf & Hr). cbn [app] in *. constructor; auto.
    - intros i Hi Ni. exact (proj2 (W i Hi) Ni).
    - rewrite Em. intros m [<-|Hm]; [exists sf, lf; auto|auto]. }
  split; [split|].
  - intros (levels & lks & E). unfold plot_levels in E. fold ops in E. destruct (foldM plot_op ops plot_start) as [s'|e] eqn:X; [|discriminate]. exact (G s' eq_refl).
  - intros P. destruct (C64_levels c block P) as (drawn & levels & lks & _ & E & _). eauto.
  - intros NP. unfold plot_circuit, plot_levels. fold ops. destruct (foldM plot_op ops plot_start) as [s'|e] eqn:X; [exfalso; exact (NP (G s' eq_refl))|]. cbn [bind]. destruct R as [->| ->]; auto.
Qed.
Print Assumptions C64_accepted.
(** Two circuits of known instructions: a qubit declared where another is, and a qubit
    measured twice in one moment. *)
Definition shared_place : circuit :=
  [I (mkI "QUBIT_COORDS" [TQ 0] [Num 0; Num 0]); I (mkI "QUBIT_COORDS" [TQ 1] [Num (0 # 2); Num 0]); I (mkI "M" [TQ 0; TQ 1] [])]%Q.
Definition twice_measured : circuit := [I (mkI "QUBIT_COORDS" [TQ 0] [Num 0; Num 0]); I (mkI "M" [TQ 0; TQ 0] [])]%Q.
Example C64_accepted_example : forall c, In c [shared_place; twice_measured] ->
  well_formed (iter_circuit c 1 0) /\ ~ plottable (iter_circuit c 1 0) /\ plot_circuit c false = Err AssertionError.
Proof.
  assert (Co : forall q a b, shown (mkI "QUBIT_COORDS" [TQ q] [a; b]) [] []) by (intros; constructor; cbn; tauto).
  assert (Me : forall qs, shown (mkI "M" (map TQ qs) []) (map (fun q => (q, "M"%string)) qs) []) by (intros; apply (shown_one "M" "M"); cbn; tauto).
  assert (WF : forall c, In c [shared_place; twice_measured] -> well_formed (iter_circuit c 1 0)).
  { intros c Hc i Hi. destruct Hc as [<-|[<-|[]]]; cbn in Hi.
    - destruct Hi as [<-|[<-|[<-|[]]]]; (split; [eexists _, _; first [apply Co|apply (Me [0; 1]%nat)]|intros N; first [discriminate N|eexists [_], _, _; split; reflexivity]]).
    - destruct Hi as [<-|[<-|[]]]; (split; [eexists _, _; first [apply Co|apply (Me [0; 0]%nat)]|intros N; first [discriminate N|eexists [_], _, _; split; reflexivity]]). }
  intros c Hc. split; [exact (WF c Hc)|]. assert (E : plot_circuit c false = Err AssertionError) by (destruct Hc as [<-|[<-|[]]]; vm_compute; reflexivity).
  split; [|exact E]. intros P. apply (proj1 (C64_accepted c false (WF c Hc))) in P as (levels & lks & X).
  destruct Hc as [<-|[<-|[]]]; vm_compute in X; discriminate X.
Qed.

(** A product of more than two Paulis is never drawn. *)
Lemma foldM_refused {A B} (f : A -> B -> res A) x l : In x l -> (forall s, is_ok (f s x) = false) -> forall s, is_ok (foldM f l s) = false.
Proof.
  induction l as [|y l IH]; intros H K s; [destruct H|]. cbn [foldM]. destruct H as [->|H]; [specialize (K s); destruct (f s x); [discriminate | reflexivity]|].
  destruct (f s y); [|reflexivity]. cbn [bind]. now apply IH.
Qed.
Theorem C64_long_products : forall c block products args, Forall (fun g => g <> [] /\ ~ In TComb g) products ->
  In (mkI "MPP" (flat_map product_targets products) args) (iter_circuit c 1 (if block : bool then 1 else 0)) ->
  (exists g, In g products /\ (2 < length g)%nat) -> is_ok (plot_circuit c block) = false.
Proof.
  intros c block ps args Hp Hin (g & Hg & Lg). unfold plot_circuit, plot_levels.
  assert (K : forall s, is_ok (plot_op s (mkI "MPP" (flat_map product_targets ps) args)) = false).
  { intros s. unfold plot_op. cbn -[flat_map mpp_groups foldM plot_group is_ok]. rewrite C56_products by exact Hp. cbn [bind]. apply (foldM_refused _ g); [exact Hg|]. intros s'. unfold plot_group.
    replace (length g <=? 2)%nat with false by (symmetry; apply Nat.leb_gt; exact Lg). rewrite andb_false_r. reflexivity. }
  pose proof (foldM_refused _ _ _ Hin K plot_start) as R. destruct (foldM plot_op _ plot_start); [discriminate | reflexivity].
Qed.
Print Assumptions C64_long_products.
Example C64_long_products_example :
  let three := mkI "MPP" (flat_map product_targets [[TP PX 0%nat; TP PY 1%nat; TP PZ 2%nat]]) [] in
  In three (iter_circuit [I three] 1 0) /\ is_ok (plot_circuit [I three] false) = false.
Proof. split; [left; reflexivity | vm_compute; reflexivity]. Qed.
