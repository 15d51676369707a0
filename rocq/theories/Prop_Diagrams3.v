(** C64: the levels that are drawn for a circuit, and the picture of a circuit. *)
From Coq Require Import QArith Qround Ascii Lqa.
From Verif Require Import Prelude Layout Stim Noise NoiseFacts Moments Text Collect Prop_Collect Diagrams Prop_Diagrams Prop_Diagrams2.
Open Scope Z_scope.

(** ** Specification *)
(** The letters for operations on one qubit, and for the two ends of operations on two. *)
Definition letters1 : list (string * string) :=
  [("M", "M"); ("R", "R"); ("H", "H"); ("H_YZ", "G"); ("C_XYZ", "C"); ("C_ZYX", "C"); ("MR", "D"); ("MX", "m"); ("MY", "m")]%string.
Definition letters2 : list (string * (string * string)) :=
  [("CX", ("@", "X")); ("CY", ("@", "Y")); ("CZ", ("@", "Z")); ("XCX", ("X", "X")); ("XCY", ("X", "Y")); ("XCZ", ("X", "Z"));
   ("YCX", ("Y", "X")); ("YCY", ("Y", "Y")); ("YCZ", ("Y", "Z"))]%string.
Definition small (P : pauli) : string := match P with PX => "x" | PY => "y" | PZ => "z" end.
Definition silent : list string := ["DETECTOR"; "OBSERVABLE_INCLUDE"; "SHIFT_COORDS"; "X_ERROR"; "DEPOLARIZE1"; "DEPOLARIZE2"; "QUBIT_COORDS"; "TICK"]%string.
(** What an instruction shows: a letter for each qubit it acts on, and the pairs it joins. *)
Inductive shown : instr -> list (nat * string) -> list (nat * nat) -> Prop :=
  | shown_one name c qs args : In (name, c) letters1 -> shown (mkI name (map TQ qs) args) (map (fun q => (q, c)) qs) []
  | shown_two name c d ps args : In (name, (c, d)) letters2 ->
      shown (mkI name (flat_map (fun '(a, b) => [TQ a; TQ b]) ps) args) (flat_map (fun '(a, b) => [(a, c); (b, d)]) ps) ps
  | shown_mpp gs args : Forall (fun g : list (pauli * nat) => length g = 1%nat \/ length g = 2%nat) gs ->
      shown (mkI "MPP" (flat_map product_targets (map (map (fun '(P, q) => TP P q)) gs)) args)
        (flat_map (map (fun '(P, q) => (q, small P))) gs) (flat_map (fun g => match g with [(_, a); (_, b)] => [(a, b)] | _ => [] end) gs)
  | shown_nothing name ts args : In name silent -> shown (mkI name ts args) [] [].
Inductive shown_all : list instr -> list (nat * string) -> list (nat * nat) -> Prop :=
  | shown_nil : shown_all [] [] []
  | shown_cons i s l m s' l' : shown i s l -> shown_all m s' l' -> shown_all (i :: m) (s ++ s') (l ++ l').
(** Where the declared qubits are drawn. *)
Definition declares (i : instr) : list (nat * cplx) :=
  if (iname i =? "QUBIT_COORDS")%string then
    match iargs i with [Num r; Num im] => flat_map (fun t => match t with TQ q => [(q, (r, im * 2)%Q)] | _ => [] end) (itargets i) | _ => [] end
  else [].
Definition declared (l : list instr) : list (nat * cplx) := flat_map declares l.
(** Circuits for which a picture makes sense: qubits are declared once, in different places,
    and before they are used; every instruction is known; no qubit has two letters in the
    same moment. *)
Record plottable (ops : list instr) : Prop := {
  pl_decl : forall i, In i ops -> iname i = "QUBIT_COORDS"%string -> exists qs r im, itargets i = map TQ qs /\ iargs i = [Num r; Num im];
  pl_qubits : NoDup (map fst (declared ops));
  pl_places : ForallOrdPairs (fun p q => ~ same_point p q) (map snd (declared ops));
  pl_known : forall m, In m (moments [] ops) -> exists s l, shown_all m s l /\ NoDup (map fst s);
  pl_before : forall l1 i l2 s l, ops = l1 ++ i :: l2 -> shown i s l -> incl (map fst s) (map fst (declared l1)) }.

(** ** Facts *)
Definition placed (D : list (nat * cplx)) (a : nat * string) (b : cplx * string) : Prop := snd a = snd b /\ In (fst a, fst b) D.
Definition linked (D : list (nat * cplx)) (a : nat * nat) (b : cplx * cplx) : Prop := In (fst a, fst b) D /\ In (snd a, snd b) D.
Definition fair (D : list (nat * cplx)) : Prop := NoDup (map fst D) /\ ForallOrdPairs (fun p q => ~ same_point p q) (map snd D).
Definition with_cur (s : plot_state) (lvl : level) (ll : links) : plot_state :=
  mkPlot (i2q s) (seen_coords s) (done_levels s) (done_links s) (cur_level s ++ lvl) (cur_links s ++ ll).
Definition goes (D : list (nat * cplx)) (f : plot_state -> res plot_state) (syms : list (nat * string)) (lks : list (nat * nat)) : Prop :=
  forall s done, i2q s = D -> Forall2 (placed D) done (cur_level s) -> NoDup (map fst (done ++ syms)) -> incl (map fst syms) (map fst D) ->
    exists lvl ll, f s = Ok (with_cur s lvl ll) /\ Forall2 (placed D) syms lvl /\ Forall2 (linked D) lks ll.

Lemma same_point_eqb p q : cplx_eqb p q = true <-> same_point p q.
Proof. unfold cplx_eqb, same_point. destruct p, q. cbn [fst snd]. rewrite andb_true_iff, !Qeq_bool_iff. tauto. Qed.
Lemma same_point_sym p q : same_point p q -> same_point q p.
Proof. intros [A B]. split; now symmetry. Qed.
Lemma fair_inj D q q' p p' : fair D -> In (q, p) D -> In (q', p') D -> same_point p p' -> q = q' /\ p = p'.
Proof.
  intros [N F] H H' S. induction D as [|[q0 p0] D IH]; [destruct H|]. cbn [map fst snd] in *. inversion N as [|? ? N1 N2]. subst. inversion F as [|? ? F1 F2]. subst. rewrite Forall_forall in F1.
  destruct H as [[= -> ->]|H], H' as [[= -> ->]|H'].
  - auto.
  - exfalso. apply (F1 p'); [apply in_map_iff; now exists (q', p')|exact S].
  - exfalso. apply (F1 p); [apply in_map_iff; now exists (q, p)|now apply same_point_sym].
  - now apply IH.
Qed.
Lemma fair_fun D q p p' : fair D -> In (q, p) D -> In (q, p') D -> p = p'.
Proof.
  intros [N _] H H'. induction D as [|[q0 p0] D IH]; [destruct H|]. cbn [map fst snd] in *. inversion N as [|? ? N1 N2]. subst.
  destruct H as [E|H], H' as [E'|H']; [congruence| | |now apply IH]; exfalso; apply N1; apply in_map_iff; [exists (q, p')|exists (q, p)]; split; cbn; congruence.
Qed.
Lemma lookup_ok D s q p : fair D -> i2q s = D -> In (q, p) D -> lookup_qubit s q = Ok p.
Proof.
  intros F E H. unfold lookup_qubit. rewrite E. clear E. destruct F as [N _]. induction D as [|[q0 p0] D IH]; [destruct H|]. cbn [map fst dget] in *. inversion N as [|? ? N1 N2]. subst.
  destruct H as [[= -> ->]|H]; [now rewrite Nat.eqb_refl|]. destruct (Nat.eqb_spec q q0) as [->|_]; [|now apply IH]. exfalso. apply N1. apply in_map_iff. now exists (q0, p).
Qed.
Lemma Forall2_in_r {A B} (R : A -> B -> Prop) l m b : Forall2 R l m -> In b m -> exists a, In a l /\ R a b.
Proof. induction 1 as [|x y l m Hr H IH]; intros Hb; [destruct Hb|]. destruct Hb as [->|Hb]; [exists x; split; [now left|exact Hr]|]. destruct (IH Hb) as (a & Ha & K). exists a. split; [now right|exact K]. Qed.
Lemma Forall2_in_l {A B} (R : A -> B -> Prop) l m a : Forall2 R l m -> In a l -> exists b, In b m /\ R a b.
Proof. induction 1 as [|x y l m Hr H IH]; intros Hb; [destruct Hb|]. destruct Hb as [->|Hb]; [exists y; split; [now left|exact Hr]|]. destruct (IH Hb) as (b & Ha & K). exists b. split; [now right|exact K]. Qed.

Lemma with_cur_nil s : with_cur s [] [] = s.
Proof. destruct s. unfold with_cur. cbn. now rewrite !app_nil_r. Qed.
Lemma with_cur_app s a b a' b' : with_cur (with_cur s a b) a' b' = with_cur s (a ++ a') (b ++ b').
Proof. unfold with_cur. cbn. now rewrite !app_assoc. Qed.
Lemma goes_skip D : goes D Ok [] [].
Proof. intros s done _ _ _ _. exists [], []. rewrite with_cur_nil. auto. Qed.
Lemma goes_then D f g a b a' b' : goes D f a b -> goes D g a' b' -> goes D (fun s => bind (f s) g) (a ++ a') (b ++ b').
Proof.
  intros F G s done E P N L. rewrite map_app in L. destruct (F s done E P) as (lvl & ll & Ef & P1 & P2).
  { rewrite app_assoc, map_app in N. now apply NoDup_app_inv in N as [N _]. }
  { intros x Hx. apply L, in_or_app. now left. }
  rewrite Ef. cbn [bind]. destruct (G (with_cur s lvl ll) (done ++ a)) as (lvl' & ll' & Eg & P1' & P2').
  - exact E.
  - cbn. now apply Forall2_app.
  - now rewrite <- app_assoc.
  - intros x Hx. apply L, in_or_app. now right.
  - exists (lvl ++ lvl'), (ll ++ ll'). rewrite Eg, with_cur_app. split; [reflexivity|]. split; apply Forall2_app; assumption.
Qed.
Lemma goes_ext D f g a b : (forall s, i2q s = D -> f s = g s) -> goes D f a b -> goes D g a b.
Proof. intros E F s done Es P N L. rewrite <- E by exact Es. now apply (F s done). Qed.
Lemma goes_put D q p c : fair D -> In (q, p) D -> goes D (fun s => put_symbol s p c) [(q, c)] [].
Proof.
  intros F H s done E P N _. unfold put_symbol. replace (existsb (cplx_eqb p) (map fst (cur_level s))) with false.
  - cbn [negb assert_ bind]. exists [(p, c)], []. split; [unfold with_cur; now rewrite app_nil_r|]. split; [|constructor]. repeat constructor. exact H.
  - symmetry. apply not_true_iff_false. intros K. apply existsb_exists in K as (p' & Hp & K). apply same_point_eqb in K. apply in_map_iff in Hp as ([p1 c1] & <- & Hp). cbn [fst] in K.
    destruct (Forall2_in_r _ _ _ _ P Hp) as ([q1 c1'] & Hq & [_ Hd]). cbn [fst snd] in Hd. destruct (fair_inj D q q1 p p1 F H Hd K) as [<- _].
    rewrite map_app in N. cbn [map] in N. apply NoDup_remove_2 in N. apply N. rewrite app_nil_r. apply in_map_iff. now exists (q, c1').
Qed.
Lemma goes_link (D : list (nat * cplx)) a b p q : In (a, p) D -> In (b, q) D -> goes D (fun s => Ok (add_link s p q)) [] [(a, b)].
Proof. intros Ha Hb s done _ _ _ _. exists [], [(p, q)]. split; [unfold add_link, with_cur; now rewrite app_nil_r|]. split; constructor; [split; assumption|constructor]. Qed.
Lemma in_place (D : list (nat * cplx)) q : In q (map fst D) -> exists p, In (q, p) D.
Proof. intros H. apply in_map_iff in H as ([q' p] & <- & H). now exists p. Qed.
Lemma goes_incl D f a b : (incl (map fst a) (map fst D) -> goes D f a b) -> goes D f a b.
Proof. intros G s done E P N L. exact (G L s done E P N L). Qed.
Lemma goes_letter D q c : fair D -> goes D (fun s => let! p := lookup_qubit s q in put_symbol s p c) [(q, c)] [].
Proof.
  intros F. apply goes_incl. intros L. destruct (in_place D q) as [p Hp]; [apply L; now left|].
  eapply goes_ext; [|now apply (goes_put D q p c)]. intros s Es. cbn beta. now rewrite (lookup_ok D s q p F Es Hp).
Qed.
Lemma goes_each D {X} (f : plot_state -> X -> res plot_state) (a : X -> list (nat * string)) (b : X -> list (nat * nat)) l :
  (forall x, In x l -> goes D (fun s => f s x) (a x) (b x)) -> goes D (foldM f l) (flat_map a l) (flat_map b l).
Proof.
  induction l as [|x l IH]; intros H; [exact (goes_skip D)|]. cbn [foldM flat_map]. apply (goes_then D (fun s => f s x) (foldM f l)); [apply H; now left|apply IH; intros y Hy; apply H; now right].
Qed.
Lemma flat_map_single {X Y} (f : X -> Y) l : flat_map (fun x => [f x]) l = map f l.
Proof. induction l as [|x l IH]; [reflexivity|]. cbn. now rewrite IH. Qed.
Lemma flat_map_none {X Y} (l : list X) : flat_map (fun _ => @nil Y) l = [].
Proof. induction l; auto. Qed.
Lemma flat_map_of_map {X Y Z} (h : X -> Y) (f : Y -> list Z) l : flat_map f (map h l) = flat_map (fun x => f (h x)) l.
Proof. induction l as [|x l IH]; [reflexivity|]. cbn. now rewrite IH. Qed.
Lemma foldM_map {X Y A} (h : X -> Y) (f : A -> Y -> res A) l : forall s, foldM f (map h l) s = foldM (fun s x => f s (h x)) l s.
Proof. induction l as [|x l IH]; intros s; [reflexivity|]. cbn [map foldM]. destruct (f s (h x)); [apply IH|reflexivity]. Qed.

Lemma goes_one D name qs : fair D -> goes D (foldM (plot_1 name) (map TQ qs)) (map (fun q => (q, symbol_1 name)) qs) [].
Proof.
  intros F. rewrite <- (flat_map_single (fun q => (q, symbol_1 name)) qs), <- (@flat_map_none nat (nat * nat) qs).
  eapply goes_ext; [intros s _; symmetry; apply (foldM_map TQ (plot_1 name))|]. apply (goes_each D (fun s x => plot_1 name s (TQ x))). intros q _. unfold plot_1. cbn [value_of bind]. now apply goes_letter.
Qed.
Lemma goes_pairs D name ps : fair D ->
  goes D (fun s => plot_pairs name s (flat_map (fun '(a, b) => [a; b]) ps)) (flat_map (fun '(a, b) => [(a, symbol_first name); (b, symbol_second name)]) ps) ps.
Proof.
  intros F. induction ps as [|[a b] ps IH]; [exact (goes_skip D)|]. cbn [flat_map app]. apply goes_incl. intros L.
  destruct (in_place D a) as [p Hp]; [apply L; now left|]. destruct (in_place D b) as [q Hq]; [apply L; right; now left|].
  eapply goes_ext.
  2:{ eapply (goes_then D (fun s => put_symbol s p (symbol_first name)) _ [(a, symbol_first name)] []); [now apply goes_put|].
      eapply (goes_then D (fun s => put_symbol s q (symbol_second name)) _ [(b, symbol_second name)] []); [now apply goes_put|].
      eapply (goes_then D (fun s => Ok (add_link s p q)) _ [] [(a, b)]); [now apply goes_link|]. exact IH. }
  intros s Es. cbn [plot_pairs]. rewrite (lookup_ok D s a p F Es Hp), (lookup_ok D s b q F Es Hq). cbn [bind]. reflexivity.
Qed.
Lemma i2q_put s p c s' : put_symbol s p c = Ok s' -> i2q s' = i2q s.
Proof. unfold put_symbol. destruct (negb _); cbn [assert_ bind]; [|discriminate]. now intros [= <-]. Qed.
Lemma goes_group D (g : list (pauli * nat)) : fair D -> (length g = 1%nat \/ length g = 2%nat) ->
  goes D (fun s => plot_group s (map (fun '(P, q) => TP P q) g)) (map (fun '(P, q) => (q, small P)) g) (match g with [(_, a); (_, b)] => [(a, b)] | _ => [] end).
Proof.
  intros F Hg.
  assert (FC : forall P q, goes D (fun s => plot_factor s (TP P q)) [(q, small P)] []).
  { intros P q. eapply goes_ext; [|apply (goes_letter D q (small P) F)]. intros s _. unfold plot_factor. cbn [value_of bind]. destruct (lookup_qubit s q); [|reflexivity]. cbn [bind]. destruct P; reflexivity. }
  destruct g as [|[P a] [|[P' b] [|? ?]]]; cbn [length] in Hg; try lia; cbn [map].
  - eapply goes_ext; [|apply (FC P a)]. intros s _. unfold plot_group. cbn [length Nat.leb andb assert_ bind foldM]. destruct (plot_factor s (TP P a)); reflexivity.
  - apply goes_incl. intros L. destruct (in_place D a) as [p Hp]; [apply L; now left|]. destruct (in_place D b) as [q Hq]; [apply L; right; now left|].
    eapply goes_ext.
    2:{ eapply (goes_then D (fun s => plot_factor s (TP P a)) _ [(a, small P)] [] [(b, small P')] [(a, b)]); [apply FC|].
        eapply (goes_then D (fun s => plot_factor s (TP P' b)) _ [(b, small P')] [] [] [(a, b)]); [apply FC|]. now apply (goes_link D a b p q). }
    intros s Es. unfold plot_group. cbn [length Nat.leb andb assert_ bind foldM]. destruct (plot_factor s (TP P a)) as [s1|] eqn:E1; [|reflexivity]. cbn [bind].
    destruct (plot_factor s1 (TP P' b)) as [s2|] eqn:E2; [|reflexivity]. cbn [bind value_of].
    assert (G : forall s P q s', plot_factor s (TP P q) = Ok s' -> i2q s' = i2q s).
    { clear. intros s P q s'. unfold plot_factor. cbn [value_of bind]. destruct (lookup_qubit s q); [|discriminate]. cbn [bind]. destruct P; apply i2q_put. }
    assert (Es2 : i2q s2 = D) by (now rewrite (G _ _ _ _ E2), (G _ _ _ _ E1)).
    now rewrite (lookup_ok D s2 a p F Es2 Hp), (lookup_ok D s2 b q F Es2 Hq).
Qed.
Lemma mapM_value ps : mapM value_of (flat_map (fun '(a, b) => [TQ a; TQ b]) ps) = Ok (flat_map (fun '(a, b) => [a; b]) ps).
Proof. induction ps as [|[a b] ps IH]; [reflexivity|]. cbn [flat_map app mapM value_of bind]. rewrite IH. reflexivity. Qed.
Lemma goes_op D i syms lks : fair D -> shown i syms lks -> iname i <> "QUBIT_COORDS"%string -> iname i <> "TICK"%string -> goes D (fun s => plot_op s i) syms lks.
Proof.
  intros F S N1 N2. destruct S as [name c qs args H|name c d ps args H|gs args H|name ts args H]; cbn [iname] in *.
  - assert (E : symbol_1 name = c /\ forall s, plot_op s (mkI name (map TQ qs) args) = foldM (plot_1 name) (map TQ qs) s).
    { cbn [letters1 In] in H. repeat (destruct H as [[= <- <-]|H]; [split; reflexivity|]). destruct H. }
    destruct E as [<- E]. eapply goes_ext; [intros s _; symmetry; apply E|]. now apply goes_one.
  - assert (E : symbol_first name = c /\ symbol_second name = d /\ forall s ts, plot_op s (mkI name ts args) = let! l := mapM value_of ts in plot_pairs name s l).
    { cbn [letters2 In] in H. repeat (destruct H as [[= <- <- <-]|H]; [repeat split; reflexivity|]). destruct H. }
    destruct E as (<- & <- & E). eapply goes_ext; [intros s _; symmetry; rewrite E, mapM_value; reflexivity|]. cbn [bind]. now apply goes_pairs.
  - eapply goes_ext; [intros s _; symmetry; unfold plot_op; cbn -[flat_map mpp_groups]; rewrite C56_products; [reflexivity|]|].
    + apply Forall_forall. intros g Hg. apply in_map_iff in Hg as (g0 & <- & Hg). rewrite Forall_forall in H. specialize (H g0 Hg). split.
      * intros E. apply map_eq_nil in E. subst g0. cbn in H. lia.
      * intros K. apply in_map_iff in K as ([P q] & K & _). discriminate.
    + cbn [bind]. eapply goes_ext; [intros s _; symmetry; apply (foldM_map (map (fun '(P, q) => TP P q)) plot_group)|].
      apply (goes_each D (fun s g => plot_group s (map (fun '(P, q) => TP P q) g))). intros g Hg. rewrite Forall_forall in H. now apply goes_group, H.
  - eapply goes_ext; [|exact (goes_skip D)]. intros s _. cbn [silent In] in H. repeat (destruct H as [<-|H]; [solve [reflexivity|contradiction]|]). destruct H.
Qed.

Lemma is_tick_name i : is_tick i = true -> iname i = "TICK"%string.
Proof.
  unfold is_tick. rewrite String.eqb_eq. unfold canon. repeat (match goal with |- (if ?b then _ else _) = _ -> _ => destruct b; [discriminate|] end). auto.
Qed.
Lemma moments_acc r : forall c, exists f t, moments [] r = f :: t /\ moments c r = (c ++ f) :: t.
Proof.
  induction r as [|i r IH]; intros c; cbn [moments]; [exists [], []; rewrite app_nil_r; auto|].
  destruct (is_tick i); [exists [], (moments [] r); rewrite app_nil_r; auto|].
  destruct (IH [i]) as (f & t & E1 & E2). destruct (IH (c ++ [i])) as (f' & t' & E1' & E3). rewrite E1 in E1'. injection E1' as <- <-. cbn [app].
  exists (i :: f), t. split; [exact E2|]. now rewrite E3, <- app_assoc.
Qed.
Lemma shown_coords i s l : shown i s l -> iname i = "QUBIT_COORDS"%string -> s = [] /\ l = [].
Proof.
  intros S E. destruct S as [name c qs args H|name c d ps args H|gs args H|name ts args H]; cbn [iname] in E; subst; [| |discriminate|auto].
  - cbn in H. repeat (destruct H as [H|H]; [discriminate|]). destruct H.
  - cbn in H. repeat (destruct H as [H|H]; [discriminate|]). destruct H.
Qed.
Lemma FOP_app_inv {A} (R : A -> A -> Prop) l1 l2 : ForallOrdPairs R (l1 ++ l2) -> ForallOrdPairs R l1 /\ ForallOrdPairs R l2 /\ forall a b, In a l1 -> In b l2 -> R a b.
Proof.
  induction l1 as [|x l1 IH]; cbn [app]; intros H; [split; [constructor|]; split; [exact H|intros a b []]|].
  inversion H as [|? ? H1 H2]. subst. destruct (IH H2) as (I1 & I2 & I3). apply Forall_app in H1 as [H1 H1']. split; [now constructor|]. split; [exact I2|].
  intros a b [->|Ha] Hb; [rewrite Forall_forall in H1'; auto|auto].
Qed.
Lemma declare_all args r im qs : forall s, args = [Num r; Num im] -> seen_coords s = map snd (i2q s) ->
  NoDup (map fst (i2q s) ++ qs) -> ForallOrdPairs (fun p q => ~ same_point p q) (map snd (i2q s) ++ map (fun _ => (r, im * 2)%Q) qs) ->
  foldM (declare_qubit args) (map TQ qs) s =
    Ok (mkPlot (i2q s ++ map (fun q => (q, (r, im * 2)%Q)) qs) (seen_coords s ++ map (fun _ => (r, im * 2)%Q) qs) (done_levels s) (done_links s) (cur_level s) (cur_links s)).
Proof.
  intros s Ea. subst args. revert s. induction qs as [|q qs IH]; intros s Es N F; cbn [map foldM]; [rewrite !app_nil_r; now destruct s|].
  unfold declare_qubit at 1. cbn [value_of coords_of bind].
  replace (existsb (Nat.eqb q) (map fst (i2q s))) with false.
  2:{ symmetry. apply not_true_iff_false. intros K. apply existsb_exists in K as (q' & Hq & K). apply Nat.eqb_eq in K. subst q'. apply NoDup_remove_2 in N. apply N, in_or_app. now left. }
  cbn [negb assert_ bind]. rewrite Es. replace (existsb (cplx_eqb (r, im * 2)%Q) (map snd (i2q s))) with false.
  2:{ symmetry. apply not_true_iff_false. intros K. apply existsb_exists in K as (p & Hp & K). apply same_point_eqb in K. apply FOP_app_inv in F as (_ & _ & F). apply (F p (r, im * 2)%Q Hp ltac:(now left)). now apply same_point_sym. }
  cbn [negb assert_ bind]. rewrite IH; cbn [i2q seen_coords done_levels done_links cur_level cur_links].
  - rewrite <- !app_assoc. cbn [map app]. reflexivity.
  - now rewrite map_app.
  - rewrite map_app. cbn [map fst]. rewrite <- app_assoc. exact N.
  - rewrite map_app. cbn [map snd]. rewrite <- app_assoc. exact F.
Qed.
Lemma declared_app a b : declared (a ++ b) = declared a ++ declared b.
Proof. apply flat_map_app. Qed.
Lemma fair_prefix a b : fair (declared (a ++ b)) -> fair (declared a).
Proof. rewrite declared_app. intros [N F]. rewrite map_app in *. apply NoDup_app_inv in N as [N _]. apply FOP_app_inv in F as [F _]. split; assumption. Qed.
Lemma Forall2_weaken {A B} (R R' : A -> B -> Prop) l m : (forall a b, R a b -> R' a b) -> Forall2 R l m -> Forall2 R' l m.
Proof. induction 2; constructor; auto. Qed.
Lemma placed_more D D' a b : incl D D' -> Forall2 (placed D) a b -> Forall2 (placed D') a b.
Proof. intros I F. eapply Forall2_weaken; [|exact F]. intros x y [E H]. split; auto. Qed.
Lemma linked_more D D' a b : incl D D' -> Forall2 (linked D) a b -> Forall2 (linked D') a b.
Proof. intros I F. eapply Forall2_weaken; [|exact F]. intros x y [E H]. split; auto. Qed.
Definition drawing := (list (nat * string) * list (nat * nat))%type.
Definition shows_moment (m : list instr) (d : drawing) : Prop := shown_all m (fst d) (snd d).

Lemma run l2 : forall l1 s done dlk sf lf dr first rest,
  (forall i, In i l2 -> iname i = "QUBIT_COORDS"%string -> exists qs r im, itargets i = map TQ qs /\ iargs i = [Num r; Num im]) ->
  fair (declared (l1 ++ l2)) ->
  (forall m1 i m2 s l, l2 = m1 ++ i :: m2 -> shown i s l -> incl (map fst s) (map fst (declared (l1 ++ m1)))) ->
  i2q s = declared l1 -> seen_coords s = map snd (declared l1) ->
  Forall2 (placed (declared l1)) done (cur_level s) -> Forall2 (linked (declared l1)) dlk (cur_links s) ->
  moments [] l2 = first :: rest -> shown_all first sf lf -> NoDup (map fst (done ++ sf)) ->
  Forall2 shows_moment rest dr -> Forall (fun d : drawing => NoDup (map fst (fst d))) dr ->
  exists s' levs lks, foldM plot_op l2 s = Ok s' /\ i2q s' = declared (l1 ++ l2) /\
    done_levels s' ++ [cur_level s'] = done_levels s ++ levs /\ done_links s' ++ [cur_links s'] = done_links s ++ lks /\
    Forall2 (fun d lvl => Forall2 (placed (declared (l1 ++ l2))) (fst d) lvl) ((done ++ sf, dlk ++ lf) :: dr) levs /\
    Forall2 (fun d ll => Forall2 (linked (declared (l1 ++ l2))) (snd d) ll) ((done ++ sf, dlk ++ lf) :: dr) lks.
Proof.
  induction l2 as [|i l2 IH]; intros l1 s done dlk sf lf dr first rest Hd F Hb Ei Es Pc Lc Em Sf N Sr Nr.
  - cbn [moments] in Em. injection Em as <- <-. inversion Sf. subst. inversion Sr. subst. exists s, [cur_level s], [cur_links s]. cbn [foldM]. rewrite !app_nil_r. repeat split; auto.
  - assert (F1 : fair (declared l1)) by (now apply (fair_prefix l1 (i :: l2))).
    assert (Ass : l1 ++ i :: l2 = (l1 ++ [i]) ++ l2) by (now rewrite <- app_assoc).
    assert (Hd' : forall j, In j l2 -> iname j = "QUBIT_COORDS"%string -> exists qs r im, itargets j = map TQ qs /\ iargs j = [Num r; Num im]) by (intros j Hj; apply Hd; now right).
    assert (Hb' : forall m1 j m2 s l, l2 = m1 ++ j :: m2 -> shown j s l -> incl (map fst s) (map fst (declared ((l1 ++ [i]) ++ m1)))).
    { intros m1 j m2 s0 l0 E0 S0. rewrite <- app_assoc. apply (Hb (i :: m1) j m2 s0 l0); [cbn; now rewrite E0|exact S0]. }
    assert (Inc : incl (declared l1) (declared (l1 ++ [i]))) by (rewrite declared_app; intros x Hx; apply in_or_app; now left).
    cbn [moments] in Em. destruct (is_tick i) eqn:Ti.
    + injection Em as <- Em2. inversion Sf. subst sf lf. destruct (moments_acc l2 []) as (f & t & E1 & _). rewrite <- Em2, E1 in Sr.
      inversion Sr as [|? [sf' lf'] ? dr' Sm Sr' Q1 Q2]. subst dr. inversion Nr as [|? ? Nm Nr' Q3]. subst. pose proof (is_tick_name i Ti) as Ni.
      assert (Di : declared (l1 ++ [i]) = declared l1) by (rewrite declared_app; cbn; unfold declares; rewrite Ni; cbn; now rewrite app_nil_r).
      assert (Op : plot_op s i = Ok (mkPlot (i2q s) (seen_coords s) (done_levels s ++ [cur_level s]) (done_links s ++ [cur_links s]) [] [])) by (unfold plot_op; now rewrite Ni).
      edestruct (IH (l1 ++ [i]) (mkPlot (i2q s) (seen_coords s) (done_levels s ++ [cur_level s]) (done_links s ++ [cur_links s]) [] []) [] [] sf' lf' dr' f t) as (s' & levs & lks & Er & Ei' & Ed & El & P1 & P2); eauto;
        [now rewrite <- Ass|cbn; now rewrite Di|cbn; now rewrite Di|cbn; constructor|cbn; constructor|].
      cbn [done_levels done_links] in Ed, El. rewrite Ass. exists s', (cur_level s :: levs), (cur_links s :: lks). cbn [foldM]. rewrite Op. cbn [bind]. split; [exact Er|]. split; [exact Ei'|].
      rewrite <- app_assoc in Ed, El. split; [exact Ed|]. split; [exact El|]. rewrite !app_nil_r.
      split; constructor; try assumption; cbn [fst snd]; rewrite declared_app, Di.
      * eapply placed_more; [|exact Pc]. intros x Hx. apply in_or_app. now left.
      * eapply linked_more; [|exact Lc]. intros x Hx. apply in_or_app. now left.
    + cbn [app] in Em. destruct (moments_acc l2 [i]) as (f & t & E1 & E2). rewrite E2 in Em. injection Em as <- <-. cbn [app] in Sf. inversion Sf as [|? si li ? s' l' Si Sf' Eq1 Eq2 Eq3]. subst.
      destruct (string_dec (iname i) "QUBIT_COORDS") as [Ni|Ni].
      * destruct (shown_coords _ _ _ Si Ni) as [-> ->]. destruct (Hd i ltac:(now left) Ni) as (qs & r & im & Et & Ea).
        assert (Di : declares i = map (fun q => (q, (r, im * 2)%Q)) qs). { unfold declares. rewrite Ni, Ea, Et. cbn. rewrite flat_map_of_map. apply flat_map_single. }
        assert (D1 : declared (l1 ++ [i]) = declared l1 ++ map (fun q => (q, (r, im * 2)%Q)) qs) by (rewrite declared_app; cbn [declared flat_map]; now rewrite Di, app_nil_r).
        assert (F2 : fair (declared (l1 ++ [i]))) by (apply (fair_prefix _ l2); now rewrite <- Ass).
        assert (Op : plot_op s i = Ok (mkPlot (i2q s ++ map (fun q => (q, (r, im * 2)%Q)) qs) (seen_coords s ++ map (fun _ => (r, im * 2)%Q) qs) (done_levels s) (done_links s) (cur_level s) (cur_links s))).
        { unfold plot_op. rewrite Ni, Et. cbn [String.eqb Ascii.eqb Bool.eqb]. apply (declare_all _ r im qs s Ea); [now rewrite Es, Ei| |]; rewrite Ei; destruct F2 as [F2 F3]; rewrite D1, map_app in F2, F3; rewrite map_map in F2, F3.
          - cbn [fst] in F2. now rewrite map_id in F2.
          - exact F3. }
        edestruct (IH (l1 ++ [i]) (mkPlot (i2q s ++ map (fun q => (q, (r, im * 2)%Q)) qs) (seen_coords s ++ map (fun _ => (r, im * 2)%Q) qs) (done_levels s) (done_links s) (cur_level s) (cur_links s)) done dlk s' l' dr f t)
          as (s2 & levs & lks & Er & Ei' & Ed & El & P1 & P2); eauto;
          [now rewrite <- Ass|cbn; now rewrite D1, Ei|cbn; rewrite D1, Es, map_app, map_map; reflexivity|cbn; now apply (placed_more (declared l1))|cbn; now apply (linked_more (declared l1))|].
        rewrite Ass. exists s2, levs, lks. cbn [foldM]. rewrite Op. cbn [bind app]. auto 8.
      * assert (NT : iname i <> "TICK"%string) by (intros K; unfold is_tick in Ti; rewrite K in Ti; discriminate).
        assert (Di : declared (l1 ++ [i]) = declared l1). { rewrite declared_app. cbn [declared flat_map]. unfold declares. rewrite (proj2 (String.eqb_neq _ _) Ni). cbn. now rewrite app_nil_r. }
        destruct (goes_op (declared l1) i si li F1 Si Ni NT s done Ei Pc) as (lvl & ll & Op & P & L).
        { rewrite app_assoc, map_app in N. now apply NoDup_app_inv in N as [N _]. }
        { specialize (Hb [] i l2 si li eq_refl Si). now rewrite app_nil_r in Hb. }
        edestruct (IH (l1 ++ [i]) (with_cur s lvl ll) (done ++ si) (dlk ++ li) s' l' dr f t) as (s2 & levs & lks & Er & Ei' & Ed & El & P1 & P2); eauto.
        -- now rewrite <- Ass.
        -- cbn. now rewrite Di.
        -- cbn. now rewrite Di.
        -- cbn. rewrite Di. now apply Forall2_app.
        -- cbn. rewrite Di. now apply Forall2_app.
        -- now rewrite <- app_assoc.
        -- rewrite Ass. exists s2, levs, lks. cbn [foldM]. rewrite Op. cbn [bind]. rewrite <- !app_assoc in P1, P2. rewrite <- !app_assoc. rewrite <- !app_assoc in Ei'. auto 8.
Qed.

Lemma fill_spec qs : forall l, ForallOrdPairs (fun p q => ~ same_point p q) qs -> forall p c,
  In (p, c) (fill_level qs l) <-> In (p, c) l \/ (c = "\"%string /\ In p qs /\ forall p', In p' (map fst l) -> ~ same_point p p').
Proof.
  unfold fill_level. induction qs as [|q qs IH]; intros l F p c; cbn [fold_left]; [split; [tauto|intros [H|(_ & [] & _)]; exact H]|].
  inversion F as [|? ? F1 F2]. subst. rewrite Forall_forall in F1. rewrite IH by exact F2. destruct (existsb (cplx_eqb q) (map fst l)) eqn:E.
  - split; [intros [H|(H1 & H2 & H3)]; [now left|right; split; [exact H1|]; split; [now right|exact H3]]|].
    intros [H|(H1 & [->|H2] & H3)]; [now left| |right; auto]. exfalso. apply existsb_exists in E as (p' & Hp & E). apply same_point_eqb in E. exact (H3 p' Hp E).
  - assert (Nq : forall p', In p' (map fst l) -> ~ same_point q p').
    { intros p' Hp K. apply same_point_eqb in K. assert (existsb (cplx_eqb q) (map fst l) = true) by (apply existsb_exists; eauto). congruence. }
    rewrite in_app_iff, map_app. cbn [In map fst]. split.
    + intros [[H|[[= <- <-]|[]]]|(H1 & H2 & H3)]; [now left|right; split; [reflexivity|]; split; [now left|exact Nq]|].
      right. split; [exact H1|]. split; [now right|]. intros p' Hp. apply H3, in_or_app. now left.
    + intros [H|(-> & [->|H2] & H3)]; [left; now left|left; right; now left|]. right. split; [reflexivity|]. split; [exact H2|].
      intros p' Hp. apply in_app_or in Hp as [Hp|[<-|[]]]; [now apply H3|]. intros K. apply (F1 p H2). now apply same_point_sym.
Qed.

(** The moments that are drawn: all, but not the last one if it shows no letter. *)
Definition visible (drawn : list (list (nat * string) * list (nat * nat))) : list (list (nat * string) * list (nat * nat)) := match last drawn ([], []) with ([], _) => removelast drawn | _ => drawn end.

(** One level for each moment: the letters of its operations, and "\" for qubits at rest;
    and the links of its operations. *)
Theorem C64_levels : forall c block, let ops := iter_circuit c 1 (if block : bool then 1 else 0) in plottable ops ->
  exists drawn levels lks, Forall2 (fun m d => shown_all m (fst d) (snd d)) (moments [] ops) drawn /\ plot_levels c block = Ok (levels, lks) /\
    Forall2 (fun d lvl => forall p c, In (p, c) lvl <-> exists q, In (q, p) (declared ops) /\ (In (q, c) (fst d) \/ c = "\"%string /\ ~ In q (map fst (fst d)))) (visible drawn) levels /\
    Forall2 (fun d l => Forall2 (fun a b => In (fst a, fst b) (declared ops) /\ In (snd a, snd b) (declared ops)) (snd d) l) (visible drawn) lks.
Proof.
  intros c block ops P. assert (F : fair (declared ops)) by (split; [apply (pl_qubits _ P)|apply (pl_places _ P)]).
  assert (X : forall ms, (forall m, In m ms -> exists s l, shown_all m s l /\ NoDup (map fst s)) -> exists dr : list drawing, Forall2 shows_moment ms dr /\ Forall (fun d : drawing => NoDup (map fst (fst d))) dr).
  { induction ms as [|m ms IH]; intros H; [exists []; split; constructor|]. destruct (H m ltac:(now left)) as (s & l & S & N). destruct IH as (dr & A & B); [intros x Hx; apply H; now right|].
    exists ((s, l) :: dr). split; constructor; assumption. }
  destruct (X _ (pl_known _ P)) as (drawn & Sd & Nd). destruct (moments_acc ops []) as (first & rest & Em & _). rewrite Em in Sd.
  inversion Sd as [|? [sf lf] ? dr Sf Sr]. subst. inversion Nd as [|? ? N1 N2]. subst. unfold shows_moment in Sf. cbn [fst snd] in *.
  destruct (run ops [] plot_start [] [] sf lf dr first rest) as (s' & levs & lks & Er & Ei & Ed & El & P1 & P2); auto.
  { exact (pl_decl _ P). }
  { intros m1 i m2 s l E S. exact (pl_before _ P m1 i m2 s l E S). }
  { constructor. } { constructor. }
  cbn [app plot_start done_levels done_links] in *. exists ((sf, lf) :: dr).
  set (all := (sf, lf) :: dr) in *.
  assert (Last : cur_level s' = [] <-> fst (last all ([], [])) = []).
  { assert (Ne : all <> []) by discriminate. destruct (exists_last Ne) as (a' & d & Ea). rewrite Ea, last_last. rewrite Ea, <- Ed in P1. apply Forall2_app_inv_l in P1 as (x & y & Q1 & Q2 & Exy).
    inversion Q2 as [|? l' ? ? Q3 Q4]. subst. inversion Q4. subst. apply app_inj_tail in Exy as [_ <-]. inversion Q3; split; intros; congruence. }
  assert (Vis : exists lv lk, plot_levels c block = Ok (map (fill_level (map snd (declared ops))) lv, lk) /\
    Forall2 (fun d lvl => Forall2 (placed (declared ops)) (fst d) lvl) (visible all) lv /\ Forall2 (fun d ll => Forall2 (linked (declared ops)) (snd d) ll) (visible all) lk).
  { unfold plot_levels. fold ops. rewrite Er. cbn [bind]. unfold visible. destruct (last all ([], [])) as [syms lsl] eqn:El'. cbn [fst] in Last.
    destruct syms as [|sy syms].
    - rewrite (proj2 Last eq_refl) in *. rewrite Ei. exists (done_levels s'), (done_links s'). split; [reflexivity|].
      assert (Ne : all <> []) by discriminate. destruct (exists_last Ne) as (a' & d & Ea). rewrite Ea, removelast_last in *. rewrite <- Ed in P1. rewrite <- El in P2.
      apply Forall2_app_inv_l in P1 as (x & y & Q1 & Q2 & Exy). inversion Q2 as [|? ? ? ? _ Q4]. subst. inversion Q4. subst. apply app_inj_tail in Exy as [-> _].
      apply Forall2_app_inv_l in P2 as (x' & y' & Q1' & Q2' & Exy'). inversion Q2' as [|? ? ? ? _ Q4']. subst. inversion Q4'. subst. apply app_inj_tail in Exy' as [-> _]. auto.
    - destruct (cur_level s') as [|cl cr] eqn:Ec; [exfalso; specialize (proj1 Last eq_refl); discriminate|].
      rewrite Ei, <- Ec in *. exists levs, lks. rewrite <- Ed, <- El, Ec in *. split; [reflexivity|]. auto. }
  destruct Vis as (lv & lk & E & V1 & V2). exists (map (fill_level (map snd (declared ops))) lv), lk. split; [rewrite Em; exact Sd|]. split; [exact E|]. split; [|exact V2].
  clear - V1 F P Nd. revert V1. generalize (visible all). intros v V1. induction V1 as [|d lvl v lv Q V1 IH]; cbn [map]; constructor; [|exact IH].
  intros p ch. rewrite fill_spec by (apply F). split.
  - intros [H|(-> & H & K)].
    + destruct (Forall2_in_r _ _ _ _ Q H) as ([q c'] & Hq & [E Hd]). cbn [fst snd] in *. subst c'. exists q. split; [exact Hd|]. now left.
    + apply in_map_iff in H as ([q p'] & <- & H). cbn [snd] in *. exists q. split; [exact H|]. right. split; [reflexivity|]. intros Hq. apply in_map_iff in Hq as ([q' c'] & <- & Hq). cbn [fst] in *.
      destruct (Forall2_in_l _ _ _ _ Q Hq) as ([p2 c2] & Hp & [_ Hd]). cbn [fst snd] in Hd. pose proof (fair_fun _ _ _ _ F H Hd). subst p2. apply (K p'); [apply in_map_iff; now exists (p', c2)|]. split; reflexivity.
  - intros (q & Hd & [H|[-> H]]).
    + left. destruct (Forall2_in_l _ _ _ _ Q H) as ([p2 c2] & Hp & [E Hd2]). cbn [fst snd] in *. subst c2. pose proof (fair_fun _ _ _ _ F Hd Hd2). now subst p2.
    + right. split; [reflexivity|]. split; [apply in_map_iff; now exists (q, p)|]. intros p' Hp K. apply in_map_iff in Hp as ([p2 c2] & <- & Hp). cbn [fst] in K.
      destruct (Forall2_in_r _ _ _ _ Q Hp) as ([q' c'] & Hq & [E Hd2]). cbn [fst snd] in *. destruct (fair_inj _ _ _ _ _ F Hd Hd2 K) as [<- _]. apply H. apply in_map_iff. now exists (q, c').
Qed.
Print Assumptions C64_levels.

Definition across (f : cplx -> Q) (D : list (nat * cplx)) (u v : Z) : Prop :=
  (exists q p, In (q, p) D /\ f p == inject_Z (Z.min u v))%Q /\ (exists q p, In (q, p) D /\ f p == inject_Z (Z.max u v))%Q /\
  forall q p, In (q, p) D -> (inject_Z (Z.min u v) <= f p <= inject_Z (Z.max u v))%Q.
Definition between (a b x : Z) : Prop := Z.min a b <= x <= Z.max a b.
Lemma Forall2_nth {A B} (R : A -> B -> Prop) l m : Forall2 R l m -> forall k a, nth_error l k = Some a -> exists b, nth_error m k = Some b /\ R a b.
Proof. induction 1 as [|x y l m H F IH]; intros [|k] a E; try discriminate; [injection E as <-; exists y; auto|]. now apply IH. Qed.
Lemma Forall2_nth_r {A B} (R : A -> B -> Prop) l m : Forall2 R l m -> forall k b, nth_error m k = Some b -> exists a, nth_error l k = Some a /\ R a b.
Proof. induction 1 as [|x y l m H F IH]; intros [|k] a E; try discriminate; [injection E as <-; exists x; auto|]. now apply IH. Qed.
Lemma Forall2_len {A B} (R : A -> B -> Prop) l m : Forall2 R l m -> length l = length m.
Proof. induction 1; cbn; congruence. Qed.
Lemma shown_letters m s l : shown_all m s l -> forall q t, In (q, t) s -> exists c, t = String c "" /\ is_space c = false.
Proof.
  induction 1 as [|i s l m s' l' S _ IH]; intros q t H; [destruct H|]. apply in_app_or in H as [H|H]; [|eauto]. clear IH.
  destruct S as [name c qs args K|name c d ps args K|gs args K|name ts args K].
  - apply in_map_iff in H as (q' & [= _ <-] & _). cbn in K. repeat (destruct K as [[= <- <-]|K]; [eexists; split; reflexivity|]). destruct K.
  - apply in_flat_map in H as ([a b] & _ & H). cbn in K. destruct H as [[= _ <-]|[[= _ <-]|[]]]; repeat (destruct K as [[= <- <- <-]|K]; [eexists; split; reflexivity|]); destruct K.
  - apply in_flat_map in H as (g & _ & H). apply in_map_iff in H as ([P a] & [= _ <-] & _). destruct P; eexists; split; reflexivity.
  - destruct H.
Qed.

Lemma map_inj {A B} (f : A -> B) (H : forall x y, f x = f y -> x = y) : forall l m, map f l = map f m -> l = m.
Proof. induction l as [|x l IH]; intros [|y m] E; try discriminate; [reflexivity|]. injection E as E1 E2. f_equal; auto. Qed.
Lemma in_silent_not1 name c : In (name, c) letters1 -> ~ In name silent.
Proof. cbn [letters1 In]. intros H. repeat (destruct H as [[= <- <-]|H]; [cbn; intros K; repeat (destruct K as [K|K]; [discriminate|]); destruct K|]). destruct H. Qed.
Lemma in_silent_not2 name c : In (name, c) letters2 -> ~ In name silent.
Proof. cbn [letters2 In]. intros H. repeat (destruct H as [[= <- <-]|H]; [cbn; intros K; repeat (destruct K as [K|K]; [discriminate|]); destruct K|]). destruct H. Qed.
Lemma letters_apart name c d : In (name, c) letters1 -> ~ In (name, d) letters2.
Proof. cbn [letters1 In]. intros H. repeat (destruct H as [[= <- <-]|H]; [cbn; intros K; repeat (destruct K as [K|K]; [discriminate|]); destruct K|]). destruct H. Qed.
Lemma keys_fun {A B} (l : list (A * B)) k a b : NoDup (map fst l) -> In (k, a) l -> In (k, b) l -> a = b.
Proof.
  induction l as [|[k0 v] l IH]; cbn [map fst]; intros N H H'; [destruct H|]. inversion N as [|? ? N1 N2]. subst.
  destruct H as [E|H], H' as [E'|H']; [congruence| | |auto]; exfalso; apply N1, in_map_iff; [exists (k, b)|exists (k, a)]; split; cbn; congruence.
Qed.
Lemma nodupb_ok (l : list string) : (fix go l := match l with [] => true | x :: r => negb (existsb (String.eqb x) r) && go r end) l = true -> NoDup l.
Proof.
  induction l as [|x l IH]; intros H; constructor; apply andb_true_iff in H as [H1 H2]; [|auto]. intros K. apply negb_true_iff in H1. apply not_true_iff_false in H1. apply H1, existsb_exists. exists x. split; [exact K|apply String.eqb_refl].
Qed.
Lemma letters1_fun name c d : In (name, c) letters1 -> In (name, d) letters1 -> c = d.
Proof. apply keys_fun, nodupb_ok. reflexivity. Qed.
Lemma letters2_fun name c d : In (name, c) letters2 -> In (name, d) letters2 -> c = d.
Proof. apply keys_fun, nodupb_ok. reflexivity. Qed.
Lemma pairs_inj : forall ps ps' : list (nat * nat), flat_map (fun '(a, b) => [TQ a; TQ b]) ps = flat_map (fun '(a, b) => [TQ a; TQ b]) ps' -> ps = ps'.
Proof. induction ps as [|[a b] ps IH]; intros [|[a' b'] ps'] E; try discriminate; [reflexivity|]. cbn in E. injection E as -> -> E. f_equal. auto. Qed.
(** An instruction shows one thing. *)
Lemma shown_unique i s l s' l' : shown i s l -> shown i s' l' -> s = s' /\ l = l'.
Proof.
  intros S S'. destruct S as [name c qs args H|name c d ps args H|gs args H|name ts args H]; inversion S' as [name' c' qs' args' H' E1|name' c' d' ps' args' H' E1|gs' args' H' E1|name' ts' args' H' E1]; subst.
  - match goal with E : map TQ _ = map TQ _ |- _ => apply map_inj in E; [subst|congruence] end. now rewrite (letters1_fun _ _ _ H' H).
  - exfalso. exact (letters_apart _ _ _ H H').
  - exfalso. cbn in H. repeat (destruct H as [H|H]; [discriminate|]). destruct H.
  - exfalso. exact (in_silent_not1 _ _ H H').
  - exfalso. exact (letters_apart _ _ _ H' H).
  - pose proof (letters2_fun _ _ _ H' H) as [= -> ->]. match goal with E : flat_map _ _ = flat_map _ _ |- _ => apply pairs_inj in E; subst end. auto.
  - exfalso. cbn in H. repeat (destruct H as [H|H]; [discriminate|]). destruct H.
  - exfalso. exact (in_silent_not2 _ _ H H').
  - exfalso. cbn in H'. repeat (destruct H' as [H'|H']; [discriminate|]). destruct H'.
  - exfalso. cbn in H'. repeat (destruct H' as [H'|H']; [discriminate|]). destruct H'.
  - assert (K : forall gs, Forall (fun g : list (pauli * nat) => length g = 1%nat \/ length g = 2%nat) gs -> Forall (fun g => g <> [] /\ ~ In TComb g) (map (map (fun '(P, q) => TP P q)) gs)).
    { clear. intros gs H. apply Forall_forall. intros g Hg. apply in_map_iff in Hg as (g0 & <- & Hg). rewrite Forall_forall in H. specialize (H g0 Hg). split.
      - intros E. apply map_eq_nil in E. subst g0. cbn in H. lia.
      - intros K. apply in_map_iff in K as ([P q] & K & _). discriminate. }
    pose proof (C56_products _ (K _ H)) as G. pose proof (C56_products _ (K _ H')) as G'. match goal with E : flat_map product_targets _ = flat_map product_targets _ |- _ => rewrite E in G' end. rewrite G in G'. injection G' as G'.
    apply map_inj in G'; [now subst|]. intros x y. apply map_inj. intros [] []. now intros [= -> ->].
  - exfalso. cbn in H'. repeat (destruct H' as [H'|H']; [discriminate|]). destruct H'.
  - exfalso. exact (in_silent_not1 _ _ H' H).
  - exfalso. exact (in_silent_not2 _ _ H' H).
  - exfalso. cbn in H. repeat (destruct H as [H|H]; [discriminate|]). destruct H.
  - auto.
Qed.
Lemma shown_all_unique m : forall s l s' l', shown_all m s l -> shown_all m s' l' -> s = s' /\ l = l'.
Proof.
  induction m as [|i m IH]; intros s l s' l' S S'; inversion S as [|? ? ? ? ? ? A1 A2]; inversion S' as [|? ? ? ? ? ? B1 B2]; subst; [auto|].
  destruct (shown_unique _ _ _ _ _ A1 B1) as [-> ->]. destruct (IH _ _ _ _ A2 B2) as [-> ->]. auto.
Qed.
Lemma visible_in drawn d : In d drawn -> fst d <> [] -> In d (visible drawn).
Proof.
  intros H N. unfold visible. destruct drawn as [|a r]; [destruct H|]. assert (Ne : a :: r <> []) by discriminate. destruct (exists_last Ne) as (x & [sy lk] & E). rewrite E in *. rewrite last_last.
  destruct sy; [|exact H]. rewrite removelast_last. apply in_app_or in H as [H|[<-|[]]]; [exact H|]. now cbn in N.
Qed.
Lemma visible_incl drawn d : In d (visible drawn) -> In d drawn.
Proof.
  unfold visible. destruct (last drawn ([], [])) as [[|] ?]; [|auto]. intros H. destruct drawn as [|a r]; [exact H|]. assert (Ne : a :: r <> []) by discriminate. destruct (exists_last Ne) as (x & y & E). rewrite E in *. rewrite removelast_last in H. apply in_or_app. now left.
Qed.

(** The picture of a circuit: in level k every qubit shows its letter in the k-th moment,
    or "\"; and two joined qubits in one line or column are connected. *)
Theorem C64_plot : forall c block, let ops := iter_circuit c 1 (if block : bool then 1 else 0) in plottable ops ->
  (forall q p, In (q, p) (declared ops) -> exists x y, whole p x y) ->
  (exists m s l, In m (moments [] ops) /\ shown_all m s l /\ s <> []) ->
  exists drawn s, Forall2 (fun m d => shown_all m (fst d) (snd d)) (moments [] ops) drawn /\ plot_circuit c block = Ok s /\
    let n := Z.of_nat (length (visible drawn)) in
    forall k syms joins, nth_error (visible drawn) k = Some (syms, joins) ->
      (forall q p x y, In (q, p) (declared ops) -> whole p x y ->
        let here := char_at s (fst (spot n x y (Z.of_nat k))) (snd (spot n x y (Z.of_nat k))) in
        (forall c, In (q, String c "") syms -> here = c) /\ (~ In q (map fst syms) -> here = "\"%char)) /\
      (forall a b p q xa ya xb yb, In (a, b) joins -> In (a, p) (declared ops) -> In (b, q) (declared ops) -> whole p xa ya -> whole q xb yb ->
        ~ across fst (declared ops) xa xb -> ~ across snd (declared ops) ya yb ->
        let from := spot n xa ya (Z.of_nat k) in let to := spot n xb yb (Z.of_nat k) in
        (ya = yb -> forall r, between (snd from) (snd to) r -> is_space (char_at s (fst from) r) = false) /\
        (xa = xb -> forall r, between (fst from) (fst to) r -> is_space (char_at s r (snd from)) = false)).
Proof.
  intros c block ops P W NE. assert (F : fair (declared ops)) by (split; [apply (pl_qubits _ P)|apply (pl_places _ P)]).
  destruct (C64_levels c block P) as (drawn & levels & lks & Sd & E & Lv & Lk). fold ops in Sd, Lv, Lk. exists drawn.
  assert (Let : exists d q t, In d (visible drawn) /\ In (q, t) (fst d)).
  { destruct NE as (m & s & l & Hm & Sm & Ns). destruct (Forall2_in_l _ _ _ _ Sd Hm) as (d & Hd & Sd'). destruct (shown_all_unique _ _ _ _ _ Sm Sd') as [Es _]. subst s.
    exists d. destruct (fst d) as [|[q t] r] eqn:Ed; [contradiction|]. exists q, t. split; [|now left]. apply visible_in; [exact Hd|]. rewrite Ed. discriminate. }
  assert (In_vis : forall d, In d (visible drawn) -> exists m, In m (moments [] ops) /\ shown_all m (fst d) (snd d)).
  { intros d Hd. apply visible_incl in Hd. destruct (Forall2_in_r _ _ _ _ Sd Hd) as (m & Hm & K). eauto. }
  assert (Some_qubit : exists q p, In (q, p) (declared ops)).
  { destruct Let as (d & q & t & Hd & Hq). destruct (Forall2_in_l _ _ _ _ Lk Hd) as (ll & _ & _). destruct (Forall2_in_l _ _ _ _ Lv Hd) as (lvl & _ & _).
    destruct (In_vis d Hd) as (m & Hm & Sm).
    assert (X : forall i, In i m -> exists l1 l2, ops = l1 ++ i :: l2).
    { intros i Hi. apply in_split. assert (M : forall l c m, In m (moments c l) -> incl m (c ++ l)).
      { clear. induction l as [|j l IH]; intros c m H; cbn [moments] in H; [destruct H as [<-|[]]; rewrite app_nil_r; apply incl_refl|].
        destruct (is_tick j); [destruct H as [<-|H]; [apply incl_appl, incl_refl|intros x Hx; apply in_or_app; right; right; now apply (IH _ _ H)]|].
        intros x Hx. apply (IH _ _ H) in Hx. rewrite <- app_assoc in Hx. exact Hx. }
      exact (M ops [] m Hm i Hi). }
    clear - Sm Hq X P. revert Hq X. induction Sm as [|i s l m s' l' Si Sm IH]; intros Hq X; [destruct Hq|].
    apply in_app_or in Hq as [Hq|Hq]; [|apply IH; [exact Hq|intros j Hj; apply X; now right]].
    destruct (X i ltac:(now left)) as (l1 & l2 & Eo). pose proof (pl_before _ P l1 i l2 s l Eo Si q ltac:(apply in_map_iff; now exists (q, t))) as Hd.
    apply in_map_iff in Hd as ([q' p] & _ & Hd). exists q', p. rewrite Eo, declared_app. apply in_or_app. now left. }
  assert (Letter : forall d q t, In d (visible drawn) -> In (q, t) (fst d) -> exists c, t = String c "" /\ is_space c = false).
  { intros d q t Hd Hq. destruct (In_vis d Hd) as (m & _ & Sm). exact (shown_letters _ _ _ Sm q t Hq). }
  assert (One : forall d q t t', In d (visible drawn) -> In (q, t) (fst d) -> In (q, t') (fst d) -> t = t').
  { intros d q t t' Hd H1 H2. destruct (In_vis d Hd) as (m & Hm & Sm). destruct (pl_known _ P m Hm) as (s0 & l0 & S0 & N0). destruct (shown_all_unique _ _ _ _ _ S0 Sm) as [E0 _]. subst s0. clear - N0 H1 H2.
    induction (fst d) as [|[a b] r IH]; [destruct H1|]. cbn [map fst] in N0. inversion N0 as [|? ? N1 N2]. subst. destruct H1 as [[= -> ->]|H1], H2 as [E2|H2].
    - congruence.
    - exfalso. apply N1, in_map_iff. now exists (q, t').
    - exfalso. injection E2 as -> ->. apply N1, in_map_iff. now exists (q, t).
    - auto. }
  assert (Dec : forall q (d : list (nat * string)), In q (map fst d) \/ ~ In q (map fst d)) by (intros q d; destruct (in_dec Nat.eq_dec q (map fst d)); auto).
  assert (Len : length levels = length (visible drawn)) by (symmetry; eapply Forall2_len; exact Lv).
  assert (All : forall lvl, In lvl levels -> forall p, In p (map fst lvl) <-> In p (map snd (declared ops))).
  { intros lvl Hl p. destruct (Forall2_in_r _ _ _ _ Lv Hl) as (d & Hd & K). split; intros H.
    - apply in_map_iff in H as ([p' t] & <- & H). apply K in H as (q & Hq & _). apply in_map_iff. now exists (q, p').
    - apply in_map_iff in H as ([q p'] & <- & H). cbn [snd]. destruct (Dec q (fst d)) as [Hq|Hq].
      + apply in_map_iff in Hq as ([q' t] & <- & Hq). apply in_map_iff. exists (p', t). split; [reflexivity|]. apply K. exists q'. auto.
      + apply in_map_iff. exists (p', "\"%string). split; [reflexivity|]. apply K. exists q. auto. }
  assert (GL : good_levels levels).
  { split.
    - destruct Let as (d & q & t & Hd & Hq). destruct (Forall2_in_l _ _ _ _ Lv Hd) as (lvl & Hl & K). destruct Some_qubit as (q0 & p0 & H0). intros N.
      assert (In p0 (points levels)); [|rewrite N in *; contradiction]. apply in_flat_map. exists lvl. split; [exact Hl|]. apply (All lvl Hl). apply in_map_iff. now exists (q0, p0).
    - intros lvl Hl. destruct (Forall2_in_r _ _ _ _ Lv Hl) as (d & Hd & K). split.
      + intros p t H. apply K in H as (q & Hq & Ht). split; [exact (W q p Hq)|]. destruct Ht as [Ht|[-> _]]; [exact (Letter d q t Hd Ht)|exists "\"%char; auto].
      + intros p p' t t' H H' S. apply K in H as (q & Hq & Ht). apply K in H' as (q' & Hq' & Ht'). destruct (fair_inj _ _ _ _ _ F Hq Hq' S) as [<- <-].
        destruct Ht as [Ht|[-> Ht]], Ht' as [Ht'|[-> Ht']]; [exact (One d q t t' Hd Ht Ht')| | |reflexivity]; exfalso; [apply Ht'|apply Ht]; apply in_map_iff; eexists; (split; [|eassumption]); reflexivity. }
  assert (GK : good_links lks).
  { intros l a b Hl Hab. destruct (Forall2_in_r _ _ _ _ Lk Hl) as (d & _ & K). destruct (Forall2_in_r _ _ _ _ K Hab) as ([i j] & _ & [H1 H2]). split; eapply W; eassumption. }
  destruct (C63_picture levels lks GL GK) as (s & Es & Hs). exists s. split; [exact Sd|]. split; [unfold plot_circuit; rewrite E; cbn [bind]; exact Es|].
  intros n k syms joins Hk. assert (En : Z.of_nat (length levels) = n) by (unfold n; now rewrite Len).
  destruct (Forall2_nth _ _ _ Lv k _ Hk) as (lvl & Hl & K). destruct (Forall2_nth _ _ _ Lk k _ Hk) as (ll & Hll & KL). cbn [fst snd] in K, KL.
  assert (Kn : (k < length levels)%nat) by (apply (proj1 (nth_error_Some levels k)); intros Q; assert (Q' := eq_trans (eq_sym Hl) Q); discriminate).
  assert (Pos : forall x y, 0 <= x -> 0 <= y -> 0 <= fst (spot n x y (Z.of_nat k)) /\ 0 <= snd (spot n x y (Z.of_nat k))) by (intros x y Hx Hy; unfold spot; cbn [fst snd]; nia).
  split.
  - intros q p x y Hq Hw here. assert (0 <= x /\ 0 <= y) as [Hx Hy] by apply Hw. destruct (Pos x y Hx Hy) as [P1 P2]. destruct (Hs (spot n x y (Z.of_nat k)) P1 P2) as (Sym & _).
    split.
    + intros ch Hc. apply Sym. exists k, lvl, p, x, y. rewrite En. split; [exact Hl|]. split; [apply K; eauto|]. auto.
    + intros Hc. apply Sym. exists k, lvl, p, x, y. rewrite En. split; [exact Hl|]. split; [apply K; eauto|]. auto.
  - intros a b p q xa ya xb yb Hab Ha Hb Wa Wb Nx Ny from to.
    destruct (Forall2_in_l _ _ _ _ KL Hab) as ([p' q'] & Hpq & [Ha' Hb']). cbn [fst snd] in *. rewrite (fair_fun _ _ _ _ F Ha' Ha) in *. rewrite (fair_fun _ _ _ _ F Hb' Hb) in *.
    assert (LO : link_on levels lks k xa ya xb yb) by (exists ll, p, q; auto).
    assert (Sp : forall f u v, ~ across f (declared ops) u v -> ~ spans f levels u v).
    { intros f u v N (S1 & S2 & S3). apply N. assert (X : forall r, In r (points levels) <-> exists q0, In (q0, r) (declared ops)).
      { intros r. split.
        - intros H. apply in_flat_map in H as (lv & Hlv & H). apply (All lv Hlv) in H. apply in_map_iff in H as ([q0 r0] & <- & H). now exists q0.
        - intros (q0 & H). apply in_flat_map. exists lvl. split; [now apply nth_error_In in Hl|]. apply (All lvl (nth_error_In _ _ Hl)). apply in_map_iff. now exists (q0, r). }
      split; [|split].
      - destruct S1 as (r & Hr & S1). apply X in Hr as (q0 & Hr). eauto.
      - destruct S2 as (r & Hr & S2). apply X in Hr as (q0 & Hr). eauto.
      - intros q0 r Hr. apply S3. apply X. eauto. }
    assert (St : stroke (Z.of_nat (length levels)) levels (Z.of_nat k) xa ya xb yb from to) by (unfold from, to; rewrite <- En; apply stroke_along; auto).
    assert (0 <= xa /\ 0 <= ya) as [Pxa Pya] by apply Wa. assert (0 <= xb /\ 0 <= yb) as [Pxb Pyb] by apply Wb. destruct (Pos xa ya Pxa Pya) as [P1 P2]. destruct (Pos xb yb Pxb Pyb) as [P3 P4].
    fold from in P1, P2. fold to in P3, P4. split.
    + intros Ey r Hr. unfold between in Hr. destruct (Hs (fst from, r)) as (_ & _ & V & _); cbn [fst snd]; [exact P1|lia|]. cbn [fst snd] in V. apply V. left.
      exists k, xa, ya, xb, yb, from, to. split; [exact LO|]. split; [exact St|]. unfold vertical. cbn [fst snd]. split; [unfold from, to, spot; cbn [fst]; now rewrite Ey|]. split; [reflexivity|exact Hr].
    + intros Ex r Hr. unfold between in Hr. destruct (Hs (r, snd from)) as (_ & _ & V & _); cbn [fst snd]; [lia|exact P2|]. cbn [fst snd] in V. apply V. right.
      exists k, xa, ya, xb, yb, from, to. split; [exact LO|]. split; [exact St|]. unfold horizontal. cbn [fst snd]. split; [unfold from, to, spot; cbn [snd]; now rewrite Ex|]. split; [reflexivity|exact Hr].
Qed.
Print Assumptions C64_plot.
(** A circuit with a one-qubit gate, a two-qubit gate and a product measurement. *)
Definition pic_circuit : circuit := map I [mkI "QUBIT_COORDS" [TQ 0] [Num 0; Num 0]; mkI "QUBIT_COORDS" [TQ 1] [Num 1; Num 0]; mkI "QUBIT_COORDS" [TQ 2] [Num 2; Num (1 # 2)];
  mkI "H" [TQ 0] []; mkI "TICK" [] []; mkI "CX" [TQ 0; TQ 1] []; mkI "TICK" [] []; mkI "MPP" [TP PX 1; TComb; TP PY 2] []].
Example C64_example : let ops := iter_circuit pic_circuit 1 0 in plottable ops /\ (forall q p, In (q, p) (declared ops) -> exists x y, whole p x y) /\
  (exists m s l, In m (moments [] ops) /\ shown_all m s l /\ s <> []) /\
  exists s, plot_circuit pic_circuit false = Ok s /\ char_at s 12 5 = "H"%char /\ char_at s 13 6 = "@"%char /\ char_at s 13 8 = "|"%char /\ char_at s 13 11 = "X"%char /\ char_at s 14 12 = "x"%char.
Proof.
  intros ops.
  assert (Co : forall q a b, shown (mkI "QUBIT_COORDS" [TQ q] [a; b]) [] []) by (intros; constructor; cbn; tauto).
  assert (Ti : shown (mkI "TICK" [] []) [] []) by (constructor; cbn; tauto).
  assert (Sh : shown (mkI "H" [TQ 0] []) [(0%nat, "H"%string)] []) by (apply (shown_one "H" "H" [0%nat]); cbn; tauto).
  assert (Sc : shown (mkI "CX" [TQ 0; TQ 1] []) [(0%nat, "@"%string); (1%nat, "X"%string)] [(0, 1)%nat]) by (apply (shown_two "CX" "@" "X" [(0, 1)%nat]); cbn; tauto).
  assert (Sm : shown (mkI "MPP" [TP PX 1; TComb; TP PY 2] []) [(1%nat, "x"%string); (2%nat, "y"%string)] [(1, 2)%nat]) by (apply (shown_mpp [[(PX, 1%nat); (PY, 2%nat)]]); repeat constructor; cbn; tauto).
  assert (Mo : forall m, In m (moments [] ops) -> exists s l, shown_all m s l /\ NoDup (map fst s) /\ s <> []).
  { intros m Hm. cbn in Hm. destruct Hm as [<-|[<-|[<-|[]]]].
    - exists ([] ++ [] ++ [] ++ [(0%nat, "H"%string)] ++ []), ([] ++ [] ++ [] ++ [] ++ []). split; [|split; [repeat constructor; cbn; tauto|discriminate]].
      do 4 (constructor; [first [apply Co|exact Sh]|]). constructor.
    - exists ([(0%nat, "@"%string); (1%nat, "X"%string)] ++ []), ([(0, 1)%nat] ++ []). split; [|split; [repeat constructor; cbn; intuition discriminate|discriminate]].
      constructor; [exact Sc|constructor].
    - exists ([(1%nat, "x"%string); (2%nat, "y"%string)] ++ []), ([(1, 2)%nat] ++ []). split; [|split; [repeat constructor; cbn; intuition discriminate|discriminate]].
      constructor; [exact Sm|constructor]. }
  split; [constructor|split; [|split]].
  - intros i Hi N. cbn in Hi. repeat (destruct Hi as [<-|Hi]; [first [discriminate N|eexists [_], _, _; split; reflexivity]|]). destruct Hi.
  - cbn. repeat constructor; cbn; intuition discriminate.
  - cbn. repeat constructor; intros [A B]; cbn in A, B; discriminate.
  - intros m Hm. destruct (Mo m Hm) as (s & l & S & N & _). eauto.
  - intros l1 i l2 s l E S. change ops with (flatten pic_circuit) in E. cbn in E.
    do 8 (destruct l1 as [|? l1]; cbn [app] in E; injection E as <- E;
      [clear E; first [destruct (shown_unique _ _ _ _ _ S (Co _ _ _)) as [-> _] | destruct (shown_unique _ _ _ _ _ S Ti) as [-> _] | destruct (shown_unique _ _ _ _ _ S Sh) as [-> _] | destruct (shown_unique _ _ _ _ _ S Sc) as [-> _] | destruct (shown_unique _ _ _ _ _ S Sm) as [-> _]]; subst; intros x Hx; cbn in Hx |- *; tauto|subst]).
    destruct l1; discriminate E.
  - intros q p H. cbn in H. destruct H as [[= <- <-]|[[= <- <-]|[[= <- <-]|[]]]]; [exists 0, 0|exists 1, 0|exists 2, 1]; repeat split; cbn; lia.
  - destruct (Mo [mkI "CX" [TQ 0; TQ 1] []]) as (s & l & S & _ & N); [cbn; right; now left|]. exists [mkI "CX" [TQ 0; TQ 1] []], s, l. split; [cbn; right; now left|auto].
  - destruct (plot_circuit pic_circuit false) as [s|] eqn:E; [|vm_compute in E; discriminate E]. exists s. split; [reflexivity|]. vm_compute in E. injection E as <-. repeat split; vm_compute; reflexivity.
Qed.
