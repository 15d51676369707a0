(** The sub-rounds of the styles that measure pairs directly, moment by moment. *)
From Coq Require Import QArith.
From Verif Require Import Prelude Layout LayoutFacts LayoutEdges LayoutLists LayoutHex LayoutHex2 Pauli LayoutObs LayoutLogic LayoutIndex
  Tracker TrackerFacts Stim Circuit Noise Annot Shift Ends Gen Gen2 Gen3 Traj Eval Frame Exec Exec2 Exec3 Exec4 Moments NoiseFacts NoiseMoments NoiseAlign NoiseCorr
  FaultSpec FaultInv FaultZ FaultInj FaultStep FaultNoise FaultChain FaultEnd FaultStyles.
Open Scope Z_scope.

Lemma fault_source i f : fault_of i f -> is_noise i = true \/ iname i = "MPP"%string.
Proof. intros H. destruct H; auto. Qed.

(** ** The replacement of one pair measurement *)
Definition errors_i (q1 q2 a : nat) (p : Q) : list instr := map (fun ts => mkI "E" ts [Mix p 5]) (correlated_errors q1 q2 a).
Lemma fold_errors_eq es p c : fold_left (fun c e => append_operation c "CORRELATED_ERROR" e [Mix p 5]) es c = c ++ map (fun ts => I (mkI "E" ts [Mix p 5])) es.
Proof.
  revert c. induction es as [|e es IH]; intros c; [now rewrite app_nil_r|]. cbn [fold_left map]. rewrite IH. unfold append_operation. rewrite append_nf by reflexivity. now rewrite <- app_assoc.
Qed.
Lemma parity_eq p1 q1 p2 q2 a p : flatten (parity_measurement_with_correlated_measurement_noise (TP p1 q1) (TP p2 q2) a p) =
  both (TP p1 q1) (TP p2 q2) a ++ errors_i q1 q2 a p ++ [mkI "M" (qs [a]) []].
Proof.
  unfold parity_measurement_with_correlated_measurement_noise. rewrite append_M by (apply errors_noM, couple_noM, couple_noM; repeat constructor; discriminate).
  rewrite fold_errors_eq, !flatten_app. change (append_operation [] "R" (qs [a]) []) with [I (mkI "R" (qs [a]) [])]. fold (both (TP p1 q1) (TP p2 q2) a). rewrite <- app_assoc. reflexivity.
Qed.
Lemma product_none ts x : (forall p q, In (TP p q) ts -> q <> x) -> product_at ts x = bzero.
Proof.
  induction ts as [|t ts IH]; intros H; [reflexivity|]. assert (IH' := IH (fun p q K => H p q (or_intror K))). destruct t as [q|q|p q|]; cbn [product_at]; auto.
  destruct (Nat.eqb_spec q x) as [->|_]; [exfalso; exact (H p x (or_introl eq_refl) eq_refl) | exact IH'].
Qed.
Lemma errors_on q1 q2 a ts p q : In ts (correlated_errors q1 q2 a) -> In (TP p q) ts -> In q [q1; q2; a].
Proof.
  intros H K. unfold correlated_errors in H. apply filter_In in H. destruct H as [H _]. apply in_flat_map in H. destruct H as (x & Hx & H). apply in_flat_map in H. destruct H as (y & Hy & H).
  apply in_map_iff in H. destruct H as (m & <- & Hm).
  assert (O : forall r l, In l (opt_paulis r) -> In (TP p q) l -> q = r).
  { intros r l Hl Hp. cbn [opt_paulis In] in Hl. destruct Hl as [<-|[<-|[<-|[<-|[]]]]]; cbn [In] in Hp; [destruct Hp|..]; destruct Hp as [Hp|[]]; now injection Hp. }
  apply in_app_or in K. destruct K as [K|K]; [rewrite (O _ _ Hx K); now left|]. apply in_app_or in K. destruct K as [K|K]; [rewrite (O _ _ Hy K); right; now left|].
  cbn [In] in Hm. destruct Hm as [<-|[<-|[]]]; cbn [In] in K; [destruct K|]. destruct K as [K|[]]. injection K as _ <-. right. right. now left.
Qed.
Lemma run_both g p1 q1 p2 q2 a st : q1 <> a -> q2 <> a -> run g (both (TP p1 q1) (TP p2 q2) a) st = Ok (with_fr (do_reset g PZ st a) (ap2 p2 PX (ap2 p1 PX (fr (do_reset g PZ st a)) q1 a) q2 a)).
Proof.
  intros N1 N2. apply Nat.eqb_neq in N1, N2. unfold both. destruct p1, p2; cbn -[Nat.eqb do_reset ap2]; rewrite ?N1; cbn -[Nat.eqb do_reset ap2]; rewrite ?N2; reflexivity.
Qed.
Lemma both_no_fault p1 q1 p2 q2 a i f : In i (both (TP p1 q1) (TP p2 q2) a) -> ~ fault_of i f.
Proof. intros Hi K. apply fault_source in K. unfold both in Hi. destruct p1, p2; cbn in Hi; repeat (destruct Hi as [<-|Hi]; [cbn in K; destruct K; discriminate|]); destruct Hi. Qed.
Lemma run_M1 g a st : run g [mkI "M" (qs [a]) []] st = Ok (do_measure g st [(PZ, a)]).
Proof. reflexivity. Qed.
(** the state after it, when the error [err] happens before the ancilla is measured *)
Lemma gadget_state g p q1 q2 a st s1 err : q1 <> q2 -> q1 <> a -> q2 <> a -> only [q1; q2; a] err ->
  let s0 := with_fr (do_reset g PZ st a) (ap2 p PX (ap2 p PX (fr (do_reset g PZ st a)) q1 a) q2 a) in
  frec s1 = frec s0 -> (forall x, fr s1 x = bxor (fr s0 x) (err x)) ->
  let s2 := do_measure g s1 [(PZ, a)] in
  frec s2 = frec st ++ [xorb (xorb (anti2 (pbits p) (fr st q1)) (anti2 (pbits p) (fr st q2))) (anti2 (pbits PZ) (err a))] /\
  (exists z, fr s2 q1 = bxor (bxor (bsel z (pbits p)) (fr st q1)) (err q1) /\ fr s2 q2 = bxor (bxor (bsel z (pbits p)) (fr st q2)) (err q2)) /\
  forall x, x <> q1 -> x <> q2 -> x <> a -> fr s2 x = fr st x.
Proof.
  intros N0 N1 N2 Ho s0 Hr Hf s2. assert (B : forall x : bits, bxor x bzero = x) by (intros [[] []]; reflexivity).
  assert (M0 : Nat.eqb q1 q2 = false) by (now apply Nat.eqb_neq). assert (M0' : Nat.eqb q2 q1 = false) by (apply Nat.eqb_neq; congruence).
  assert (M1 : Nat.eqb a q1 = false) by (apply Nat.eqb_neq; congruence). assert (M2 : Nat.eqb a q2 = false) by (apply Nat.eqb_neq; congruence).
  assert (M1' : Nat.eqb q1 a = false) by (apply Nat.eqb_neq; congruence). assert (M2' : Nat.eqb q2 a = false) by (apply Nat.eqb_neq; congruence).
  unfold s2, do_measure. cbn [frec fr fold_left fst snd]. split; [|split].
  - rewrite Hr. unfold s0, do_reset, with_fr. cbn [frec]. f_equal. f_equal. unfold xsum. cbn [fold_right fst snd]. rewrite Hf. unfold s0, do_reset, with_fr, ap2, ap1. cbn [fr].
    rewrite ?Nat.eqb_refl, ?M0, ?M0', ?M1, ?M2, ?M1', ?M2'. destruct (fr st q1) as [[] []], (fr st q2) as [[] []], (err a) as [[] []], (g (fgi st)), p; reflexivity.
  - exists (g (fgi st)). unfold ap1 at 1 2. rewrite M1', M2', !Hf. unfold s0, do_reset, with_fr, ap2, ap1. cbn [fr].
    rewrite ?Nat.eqb_refl, ?M0, ?M0', ?M1, ?M2, ?M1', ?M2'.
    split; [destruct (fr st q1) as [[] []], (err q1) as [[] []], (g (fgi st)), p | destruct (fr st q1) as [[] []], (fr st q2) as [[] []], (err q2) as [[] []], (g (fgi st)), p]; reflexivity.
  - intros x X1 X2 X3. apply Nat.eqb_neq in X1, X2, X3. unfold ap1 at 1. rewrite X3, Hf, Ho, B.
    + unfold s0, do_reset, with_fr, ap2, ap1. cbn [fr]. now rewrite X1, X2, X3.
    + apply Nat.eqb_neq in X1, X2, X3. cbn [In]. intuition congruence.
Qed.
Lemma flip_app j l r : flip (length l + j) (l ++ r) = l ++ flip j r.
Proof. induction l as [|b l IH]; [reflexivity|]. cbn [length app Nat.add flip]. now rewrite IH. Qed.
Lemma flip_map {A} (eqb : A -> A -> bool) (Heq : forall x y, eqb x y = true <-> x = y) (f : A -> bool) l j x : NoDup l -> nth_error l j = Some x ->
  flip j (map f l) = map (fun y => xorb (f y) (eqb y x)) l.
Proof.
  revert j. induction l as [|y l IH]; intros j Hn Hj; [destruct j; discriminate|]. inversion Hn as [|? ? Hy Hn']; subst. destruct j as [|j]; cbn [nth_error] in Hj; cbn [map flip].
  - injection Hj as ->. rewrite (proj2 (Heq x x) eq_refl), xorb_true_r. f_equal. apply map_ext_in. intros y Hin. destruct (eqb y x) eqn:F; [|now rewrite xorb_false_r]. apply Heq in F. now subst.
  - replace (eqb y x) with false; [rewrite xorb_false_r; f_equal; now apply IH|]. symmetry. apply not_true_is_false. rewrite Heq. intros ->. apply Hy. now apply nth_error_In in Hj.
Qed.

Section Ch.
  Variable lay : layout.
  Hypothesis Hv : valid lay.
  Hypothesis Hobs : obs lay = "V"%string \/ obs lay = "H"%string.
  Hypothesis Hs : supported lay.
  Variable gs : nat -> bool.
  Variable nm : noise_model.
  Variable An : nat -> Prop.
  Notation E := (round_edges lay).
  Notation zk := Z.of_nat.
  Notation ne := (length (E 0)).
  Notation D := (data_qubit_coords lay).
  Notation annk := (annk lay (tr0 lay)).
  Notation ix := (ix lay).
  Notation run := (run gs).
  Notation runs := (runs gs).
  Notation n := (sub_rounds lay).
  Notation N := (Z.to_nat n).
  Notation okx := (okx lay).
  Notation Sx := (Sx lay).
  Notation rel := (noise_rel nm An).
  Notation step := (step expl okx tx0 gs rel).
  Notation seg := (seg expl okx tx0 gs rel).
  Notation elem := (elem expl okx tx0 gs).
  Notation good := (good expl okx tx0 gs).
  Local Opaque data_qubit_coords measure_qubit_coords q2i_dict hex_entries hexes round_edges all_edges isort.
  Hypothesis Hp : pc3 lay = false.
  Hypothesis Hem : is_em3 (style lay) = true.

  (** ** Some checks of sub-round M done *)
  Definition moves (M : nat) (X0 : nat -> cpx -> bits) (Y0 : nat -> edge -> bool) (w : edge -> bool) (u : cpx -> bits) (t : expl) : Prop :=
    (forall s q, isdata lay q -> (s <= M)%nat -> fst t s q = X0 s q) /\ (forall s q, isdata lay q -> (M < s)%nat -> fst t s q = bxor (X0 M q) (u q)) /\
    (forall s e, (s < M)%nat -> snd t s e = Y0 s e) /\ (forall e, snd t M e = w e) /\ (forall s e, (M < s)%nat -> snd t s e = false).
  Definition done (M : nat) (l : list edge) (w : edge -> bool) (u : cpx -> bits) (st0 st : fstate) : Prop :=
    frec st = frec st0 ++ map (fun e => xorb (xorb (anti2 (pbits (xyz (zk M))) (fr st0 (ix (e_left e)))) (anti2 (pbits (xyz (zk M))) (fr st0 (ix (e_right e))))) (w e)) l /\
    (exists z : edge -> bool, forall e, In e l ->
       fr st (ix (e_left e)) = bxor (bxor (bsel (z e) (pbits (xyz (zk M)))) (fr st0 (ix (e_left e)))) (u (e_left e)) /\
       fr st (ix (e_right e)) = bxor (bxor (bsel (z e) (pbits (xyz (zk M)))) (fr st0 (ix (e_right e)))) (u (e_right e))) /\
    (forall e, In e (E (zk M)) -> ~ In e l -> fr st (ix (e_left e)) = fr st0 (ix (e_left e)) /\ fr st (ix (e_right e)) = fr st0 (ix (e_right e))).
  Definition Mid (M : nat) (l : list edge) : fam expl := fun t st => exists A0 X0 Y0 w u st0,
    start_ok lay A0 /\ St lay A0 X0 Y0 M M M 0 0 false [] st0 /\ moves M X0 Y0 w u t /\ done M l w u st0 st /\
    (forall e, w e = true -> In e l) /\ (forall e, In e (E (zk M)) -> ~ In e l -> u (e_left e) = bzero /\ u (e_right e) = bzero) /\ (t = tx0 -> X0 = noX /\ Y0 = noY).
  Lemma moves_same M A0 t st : St lay A0 (fst t) (snd t) M M M 0 0 false [] st -> moves M (fst t) (snd t) (fun _ => false) (fun _ => bzero) t.
  Proof.
    intros (z & [IL IR IM SL SR IC IO] & _). assert (Y0 : forall s e, (M <= s)%nat -> snd t s e = false).
    { intros s e Hle. apply not_true_is_false. intros K. destruct (IC s e K) as [K'|[]]. lia. }
    refine (conj _ (conj _ (conj _ (conj _ _)))); auto.
    - intros s q Hq Hlt. rewrite bxor_zero_r. destruct (data_qubit_parity q) eqn:P; [apply SR | apply SL]; auto; lia.
    - intros s e Hlt. apply Y0. lia.
  Qed.
  Lemma mid_start M t st : Sx M M M 0 0 false [] t st -> Mid M [] t st.
  Proof.
    intros (A0 & H0 & H). exists A0, (fst t), (snd t), (fun _ => false), (fun _ => bzero), st.
    refine (conj H0 (conj H (conj (moves_same M A0 t st H) (conj _ (conj _ (conj _ _)))))).
    - refine (conj _ (conj _ _)); [cbn [map]; now rewrite app_nil_r | exists (fun _ => false); intros e [] | auto].
    - discriminate.
    - auto.
    - intros ->. auto.
  Qed.
  Lemma mid_end M t st : Mid M (E (zk M)) t st -> runs (annk M) (Sx (S M) (S M) (S M) 0 0 false [] t) st.
  Proof.
    intros (A0 & X0 & Y0 & w & u & st0 & H0 & H & (T1 & T2 & T3 & T4 & T5) & (D1 & D2 & _) & _).
    assert (K : St lay A0 (fst t) (snd t) (S M) (S M) (S M) 0 0 false [] st) by (apply (checks_step lay Hv A0 X0 Y0 (fst t) (snd t) M w u st0 st); assumption).
    destruct (annk_ok lay Hv gs M st) as (st2 & Er & G1 & G2).
    { destruct K as (z & HI & _). rewrite (FaultInv.i_rec _ _ _ _ _ _ _ _ _ _ _ _ HI). now apply length_recw. }
    exists st2. split; [exact Er|]. exists A0. split; [exact H0|]. eapply (St_ext lay); [exact G2 | | |exact K]; intros; now rewrite G1.
  Qed.
  (** one fault at the check e0 *)
  Lemma moves_fault M e0 P f : moves M noX noY (fun e => edge_eqb e e0 && f) P (iX P (S M), iY M e0 f).
  Proof.
    unfold moves, iX, iY, noX, noY. cbn [fst snd]. refine (conj _ (conj _ (conj _ (conj _ _)))).
    - intros s q _ Hs'. destruct (Nat.leb_spec (S M) s); [lia | reflexivity].
    - intros s q _ Hs'. destruct (Nat.leb_spec (S M) s); [|lia]. now rewrite bxor_zero_l.
    - intros s e Hs'. destruct (Nat.eqb_spec s M); [lia | reflexivity].
    - intros e. now rewrite Nat.eqb_refl.
    - intros s e Hs'. destruct (Nat.eqb_spec s M); [lia | reflexivity].
  Qed.
  Lemma ends_apart M e e' : In e (E (zk M)) -> In e' (E (zk M)) -> e <> e' -> ~ In (e_left e) [e_left e'; e_right e'] /\ ~ In (e_right e) [e_left e'; e_right e'].
  Proof.
    intros He He' Hne. destruct (round_edge_facts lay Hv _ e He) as (Hl & Hr & _). destruct (round_edge_facts lay Hv _ e' He') as (Hl' & Hr' & _).
    assert (K : forall q, isdata lay q -> (e_left e = q \/ e_right e = q) -> In q [e_left e'; e_right e'] -> False).
    { intros q Hq H1 H2. apply Hne. transitivity (touch lay (zk M) q); [|symmetry]; apply (touch_unique lay Hv (zk M) q); auto. destruct H2 as [H2|[H2|[]]]; auto. }
    split; intros H; [apply (K (e_left e)) | apply (K (e_right e))]; auto.
  Qed.
  Lemma clean_done M l st : incl l (E (zk M)) -> Mid M l tx0 st -> exists A0 st0, start_ok lay A0 /\ St lay A0 noX noY M M M 0 0 false [] st0 /\ done M l (fun _ => false) (fun _ => bzero) st0 st.
  Proof.
    intros Hl (A0 & X0 & Y0 & w & u & st0 & H0 & H & (T1 & T2 & T3 & T4 & T5) & (D1 & D2 & D3) & Hw & Hu & Ht). destruct (Ht eq_refl) as [-> ->]. exists A0, st0. refine (conj H0 (conj H _)).
    cbn [fst snd tx0] in *.
    assert (W0 : forall e, w e = false) by (intros e; rewrite <- T4; reflexivity).
    assert (U0 : forall q, isdata lay q -> u q = bzero) by (intros q Hq; pose proof (T2 (S M) q Hq (Nat.lt_succ_diag_r M)) as K; unfold noX in K; rewrite bxor_zero_l in K; now symmetry).
    refine (conj _ (conj _ D3)).
    - rewrite D1. f_equal. apply map_ext. intros e. now rewrite W0.
    - destruct D2 as (z & D2). exists z. intros e He. destruct (D2 e He) as [K1 K2]. destruct (round_edge_facts lay Hv _ e (Hl e He)) as (Q1 & Q2 & _).
      rewrite K1, K2, (U0 _ Q1), (U0 _ Q2). auto.
  Qed.
  Lemma ix_data q1 q2 : isdata lay q1 -> isdata lay q2 -> ix q1 = ix q2 -> q1 = q2.
  Proof. intros H1 H2. apply (ix_inj lay Hv); now apply (data_in_qubits lay Hv). Qed.
  (** one more check *)
  Lemma done_more M l e a w u w' u' st0 st s2 : In e (E (zk M)) -> ~ In e l -> incl l (E (zk M)) -> (forall q, isdata lay q -> ix q <> a) ->
    done M l w u st0 st -> (forall e', In e' l -> w' e' = w e' /\ u' (e_left e') = u (e_left e') /\ u' (e_right e') = u (e_right e')) ->
    frec s2 = frec st ++ [xorb (xorb (anti2 (pbits (xyz (zk M))) (fr st (ix (e_left e)))) (anti2 (pbits (xyz (zk M))) (fr st (ix (e_right e))))) (w' e)] ->
    (exists z, fr s2 (ix (e_left e)) = bxor (bxor (bsel z (pbits (xyz (zk M)))) (fr st (ix (e_left e)))) (u' (e_left e)) /\
               fr s2 (ix (e_right e)) = bxor (bxor (bsel z (pbits (xyz (zk M)))) (fr st (ix (e_right e)))) (u' (e_right e))) ->
    (forall x, x <> ix (e_left e) -> x <> ix (e_right e) -> x <> a -> fr s2 x = fr st x) ->
    done M (l ++ [e]) w' u' st0 s2.
  Proof.
    intros He Hn Hl Ha (D1 & (z & D2) & D3) Hw F1 (z1 & F2 & F3) F4. destruct (D3 e He Hn) as [G1 G2]. destruct (round_edge_facts lay Hv _ e He) as (Q1 & Q2 & _).
    assert (FO : forall e', In e' (E (zk M)) -> e' <> e -> fr s2 (ix (e_left e')) = fr st (ix (e_left e')) /\ fr s2 (ix (e_right e')) = fr st (ix (e_right e'))).
    { intros e' He' Hne. destruct (ends_apart M e' e He' He Hne) as [K1 K2]. destruct (round_edge_facts lay Hv _ e' He') as (P1 & P2 & _). cbn [In] in K1, K2.
      split; (apply F4; [intros K; apply ix_data in K; [|assumption..]; rewrite K in *; tauto | intros K; apply ix_data in K; [|assumption..]; rewrite K in *; tauto | now apply Ha]). }
    refine (conj _ (conj _ _)).
    - rewrite F1, D1, map_app, <- app_assoc. f_equal. f_equal; [|cbn [map]; now rewrite G1, G2]. apply map_ext_in. intros e' He'. now rewrite (proj1 (Hw e' He')).
    - exists (fun x => if edge_eqb x e then z1 else z x). intros e' He'. destruct (edge_eqb e' e) eqn:Q.
      + apply edge_eqb_eq in Q. subst e'. now rewrite F2, F3, G1, G2.
      + apply in_app_or in He'. destruct He' as [He'|[<-|[]]]; [|rewrite (proj2 (edge_eqb_eq e e) eq_refl) in Q; discriminate].
        assert (Hne : e' <> e) by (intros ->; rewrite (proj2 (edge_eqb_eq e e) eq_refl) in Q; discriminate).
        destruct (FO e' (Hl e' He') Hne) as [-> ->]. destruct (Hw e' He') as (_ & -> & ->). exact (D2 e' He').
    - intros e' He' Hn'. assert (Hne : e' <> e) by (intros ->; apply Hn', in_or_app; right; now left).
      destruct (FO e' He' Hne) as [-> ->]. apply D3; [exact He'|]. intros K. apply Hn', in_or_app. now left.
  Qed.

  (** ** The pair measurement replaced by gates, with correlated errors *)
  Definition piece (M : nat) (e : edge) (a : nat) (p : Q) : list instr :=
    flatten (parity_measurement_with_correlated_measurement_noise (TP (xyz (zk M)) (ix (e_left e))) (TP (xyz (zk M)) (ix (e_right e))) a p).
  Lemma gates_errors q1 q2 a p : gates (errors_i q1 q2 a p) = [].
  Proof. apply gates_noise. intros i Hi. apply in_map_iff in Hi. now destruct Hi as (ts & <- & _). Qed.
  Lemma gates_both p1 q1 p2 q2 a : gates (both (TP p1 q1) (TP p2 q2) a) = both (TP p1 q1) (TP p2 q2) a.
  Proof. destruct p1, p2; reflexivity. Qed.
  Lemma good_piece M l e a p : style lay = "EM3_v2"%string -> (M < N)%nat -> In e (E (zk M)) -> ~ In e l -> incl l (E (zk M)) -> (forall q, isdata lay q -> ix q <> a) ->
    good (Mid M l) (piece M e a p) (Mid M (l ++ [e])).
  Proof.
    intros Hst HM He Hn Hl Ha. destruct (round_edge_facts lay Hv _ e He) as (Q1 & Q2 & P1 & P2 & _). unfold piece. rewrite parity_eq. set (b := both _ _ a).
    assert (N0 : ix (e_left e) <> ix (e_right e)) by (intros K; apply ix_data in K; [|assumption..]; rewrite K in P1; congruence).
    assert (Rb : forall st, run (gates b) st = Ok (with_fr (do_reset gs PZ st a) (ap2 (xyz (zk M)) PX (ap2 (xyz (zk M)) PX (fr (do_reset gs PZ st a)) (ix (e_left e)) a) (ix (e_right e)) a))).
    { intros st. unfold b. rewrite gates_both. apply run_both; now apply Ha. }
    split.
    - intros t st (A0 & X0 & Y0 & w & u & st0 & H0 & H & T & Dn & Hw & Hu & Ht). rewrite !gates_app, gates_errors. cbn [app]. eexists. split; [rewrite run_app, Rb; cbn [bind]; apply run_M1|].
      exists A0, X0, Y0, w, u, st0. destruct (Hu e He Hn) as [U1 U2]. assert (We : w e = false) by (apply not_true_is_false; intros K; exact (Hn (Hw e K))).
      refine (conj H0 (conj H (conj T (conj _ (conj _ (conj _ Ht)))))).
      + destruct (gadget_state gs (xyz (zk M)) (ix (e_left e)) (ix (e_right e)) a st _ (fun _ => bzero) N0 (Ha _ Q1) (Ha _ Q2) (fun x _ => eq_refl) eq_refl (fun x => eq_sym (bxor_zero_r _))) as (F1 & F2 & F3).
        eapply (done_more M l e a w u w u st0 st); eauto.
        * rewrite F1, We. reflexivity.
        * rewrite U1, U2. exact F2.
      + intros e' K. apply in_or_app. left. now apply Hw.
      + intros e' He' K. apply Hu; [exact He'|]. intros K'. apply K, in_or_app. now left.
    - intros l1 i l2 f st E Hf HS. destruct (clean_done M l st Hl HS) as (A0 & st0 & H0 & H & Dn).
      destruct (app_split i l1 l2 _ _ E) as [(r & Eb & ->)|(r & -> & E1)].
      { exfalso. assert (Hi : In i b) by (rewrite Eb; apply in_or_app; right; now left). exact (both_no_fault _ _ _ _ _ _ _ Hi Hf). }
      destruct (app_split i r l2 _ _ E1) as [(r2 & Eb & ->)|(r2 & -> & E2)].
      2:{ exfalso. destruct r2 as [|? [|? ?]]; cbn [app] in E2; try discriminate. injection E2 as E2 _. rewrite <- E2 in Hf. apply fault_source in Hf. destruct Hf; discriminate. }
      assert (Ni : forall j, In j (errors_i (ix (e_left e)) (ix (e_right e)) a p) -> is_noise j = true) by (intros j Hj; apply in_map_iff in Hj; now destruct Hj as (ts & <- & _)).
      assert (Hi : In i (errors_i (ix (e_left e)) (ix (e_right e)) a p)) by (rewrite Eb; apply in_or_app; right; now left).
      apply in_map_iff in Hi. destruct Hi as (ts & <- & Hts). inversion Hf as [| | | |? ? err Her|]; subst.
      assert (Ho : only [ix (e_left e); ix (e_right e); a] err).
      { intros x Hx. rewrite Her. apply product_none. intros pp q Hq ->. apply Hx. exact (errors_on _ _ _ _ _ _ Hts Hq). }
      set (P := fun q => if cpx_eqb q (e_left e) then err (ix q) else if cpx_eqb q (e_right e) then err (ix q) else bzero).
      assert (PL : P (e_left e) = err (ix (e_left e))) by (unfold P; now rewrite cpx_eqb_refl).
      assert (PR : P (e_right e) = err (ix (e_right e))) by (unfold P; rewrite cpx_eqb_refl; now destruct (cpx_eqb _ _)).
      assert (PO : forall q, q <> e_left e -> q <> e_right e -> P q = bzero).
      { intros q K1 K2. unfold P. destruct (cpx_eqb q (e_left e)) eqn:B1; [apply cpx_eqb_eq in B1; congruence|]. destruct (cpx_eqb q (e_right e)) eqn:B2; [apply cpx_eqb_eq in B2; congruence|]. reflexivity. }
      set (f := anti2 (pbits PZ) (err a)).
      exists (iX P (S M), iY M e f). split.
      { apply (core_edge lay Hv _ _ M e P (S M) f HM He PO); [now right | now left | |].
        - intros [Q|(q0 & Q)]; [congruence|]. rewrite PL, PR. destruct (cpx_eqb q0 (e_left e)) eqn:B; [right; apply Q; [exact Q2|]; apply cpx_eqb_eq in B; congruence | left; apply Q; [exact Q1|]; intros K; rewrite <- K, cpx_eqb_refl in B; discriminate].
        - intros Q. unfold f. rewrite Q by exact Ha. reflexivity. }
      unfold run_faulty. rewrite gates_app, (gates_noise r) by (intros j Hj; apply Ni; rewrite Eb; apply in_or_app; now left). rewrite app_nil_r, Rb. cbn [bind].
      rewrite gates_noise by (intros j [<-|[]]; reflexivity). cbn [run FaultSpec.happens bind].
      rewrite gates_app, (gates_noise r2) by (intros j Hj; apply Ni; rewrite Eb; apply in_or_app; right; now right). cbn [app].
      eexists. split; [apply run_M1|].
      exists A0, noX, noY, (fun x => edge_eqb x e && f), P, st0.
      refine (conj H0 (conj H (conj (moves_fault M e P f) (conj _ (conj _ (conj _ _)))))); auto.
      + destruct (gadget_state gs (xyz (zk M)) (ix (e_left e)) (ix (e_right e)) a st (strike err (with_fr (do_reset gs PZ st a) (ap2 (xyz (zk M)) PX (ap2 (xyz (zk M)) PX (fr (do_reset gs PZ st a)) (ix (e_left e)) a) (ix (e_right e)) a))) err N0 (Ha _ Q1) (Ha _ Q2) Ho eq_refl (fun x => eq_refl)) as (F1 & F2 & F3).
        eapply (done_more M l e a (fun _ => false) (fun _ => bzero) _ P st0 st); eauto.
        * intros e' He'. assert (Hne : e' <> e) by (intros ->; exact (Hn He')). destruct (ends_apart M e' e (Hl e' He') He Hne) as [K1 K2]. cbn [In] in K1, K2.
          split; [|split; apply PO; intros K; rewrite K in *; tauto]. destruct (edge_eqb e' e) eqn:B; [apply edge_eqb_eq in B; congruence | reflexivity].
        * etransitivity; [exact F1|]. cbn beta. now rewrite (proj2 (edge_eqb_eq e e) eq_refl).
        * rewrite PL, PR. exact F2.
      + intros e' K. apply andb_prop in K. destruct K as [K _]. apply edge_eqb_eq in K. subst. apply in_or_app. right. now left.
      + intros e' He' K. assert (Hne : e' <> e) by (intros ->; apply K, in_or_app; right; now left). destruct (ends_apart M e' e He' He Hne) as [K1 K2]. cbn [In] in K1, K2.
        split; apply PO; intros K'; rewrite K' in *; tauto.
  Qed.
  Lemma good_pieces M a p : style lay = "EM3_v2"%string -> (M < N)%nat -> (forall q, isdata lay q -> ix q <> a) -> forall r l, l ++ r = E (zk M) -> good (Mid M l) (flat_map (fun e => piece M e a p) r) (Mid M (E (zk M))).
  Proof.
    intros Hst HM Ha. induction r as [|e r IH]; intros l El.
    - rewrite app_nil_r in El. subst l. cbn [flat_map]. split; [intros t st H; now apply runs_nil|]. intros l1 i l2 f st K. destruct l1; discriminate.
    - cbn [flat_map]. pose proof (NoDup_round_edges lay Hv (zk M)) as Hn. rewrite <- El in Hn.
      apply (good_app _ _ _ _ _ _ (Mid M (l ++ [e]))); [|apply IH; now rewrite <- app_assoc]. apply good_piece; auto.
      + rewrite <- El. apply in_or_app. right. now left.
      + apply NoDup_remove_2 in Hn. intros K. apply Hn, in_or_app. now left.
      + intros x Hx. rewrite <- El. apply in_or_app. now left.
  Qed.
  Lemma good_still (S : fam expl) l (S' : fam expl) : (forall i, In i l -> is_noise i = false /\ iname i <> "MPP"%string) -> (forall t st, S t st -> runs l (S' t) st) -> good S l S'.
  Proof.
    intros Hi Hr. split.
    - intros t st H. rewrite gates_keep by (intros; now apply Hi). now apply Hr.
    - intros l1 i l2 f st -> Hf. exfalso. destruct (Hi i) as [K1 K2]; [apply in_or_app; right; now left|]. destruct (fault_source i f Hf); congruence.
  Qed.
  (** ** The pair measurement itself *)
  Definition mpp_i (M : nat) : instr := mkI "MPP" (mpp_targets lay (zk M)) [].
  Lemma run_mpp_i M st : run [mpp_i M] st = Ok (fold_left (do_measure gs) (map (fun e => [(xyz (zk M), ix (e_left e)); (xyz (zk M), ix (e_right e))]) (E (zk M))) st).
  Proof.
    cbn [Frame.run]. unfold run_instr, mpp_i, mpp_targets. cbn [iname itargets]. change (canon "MPP") with "MPP"%string.
    cbn [annotation existsb String.eqb Ascii.eqb Bool.eqb orb]. rewrite products_pairs. reflexivity.
  Qed.
  Lemma mpp_done M w u st0 st : done M [] w u st0 st -> (forall e, In e (E (zk M)) -> u (e_left e) = bzero /\ u (e_right e) = bzero) ->
    exists st1, run [mpp_i M] st = Ok st1 /\ length (frec st) = length (frec st0) /\ done M (E (zk M)) (fun _ => false) u st0 st1.
  Proof.
    intros (D1 & _ & D3) Hu.
    destruct (fold_products gs (xyz (zk M)) (fun e => ix (e_left e)) (fun e => ix (e_right e)) edge_eqb edge_eqb_eq (E (zk M)) st (NoDup_lr lay Hv (zk M)))
      as (F1 & F2 & F3 & (zM & F4) & F5). cbn zeta in *. eexists. split; [apply run_mpp_i|]. cbn [map] in D1. rewrite app_nil_r in D1. split; [now rewrite D1|].
    refine (conj _ (conj _ _)).
    - rewrite F1, D1. f_equal. apply map_ext_in. intros e He. destruct (D3 e He (fun x => x)) as [-> ->]. now rewrite xorb_false_r.
    - exists zM. intros e He. destruct (D3 e He (fun x => x)) as [K1 K2]. destruct (F4 e He) as [-> ->]. destruct (Hu e He) as [-> ->]. rewrite !bxor_zero_r, K1, K2. auto.
    - intros e He K. contradiction.
  Qed.
  Lemma elem_mpp M : (M < N)%nat -> elem (Sx M M M 0 0 false []) ([mpp_i M] ++ annk M) (Sx (S M) (S M) (S M) 0 0 false []).
  Proof.
    intros HM. assert (B1 : boundary lay M M M []) by (refine (conj _ (conj _ (conj _ _))); [lia | lia | intros ? ? [] | intros ? []]).
    assert (B2 : boundary lay (S M) (S M) (S M) []) by (refine (conj _ (conj _ (conj _ _))); [lia | lia | intros ? ? [] | intros ? []]).
    assert (Hin : forall op, In op ([mpp_i M] ++ annk M) -> op = mpp_i M \/ calm op).
    { intros op [<-|K]; [now left | right]. exact (proj1 (Forall_forall _ _) (calm_annk lay M) op K). }
    split.
    - intros t st H. apply mid_start in H. destruct H as (A0 & X0 & Y0 & w & u & st0 & H0 & H & T & Dn & Hw & Hu & Ht).
      destruct (mpp_done M w u st0 st Dn (fun e He => Hu e He (fun x => x))) as (st1 & Er & _ & D1).
      eapply runs_app; [exists st1; split; [exact Er | exact (eq_refl st1)]|]. intros ? <-. apply mid_end. exists A0, X0, Y0, w, u, st0.
      refine (conj H0 (conj H (conj T (conj _ (conj _ (conj _ Ht)))))).
      + destruct D1 as (K1 & K2 & K3). refine (conj _ (conj K2 K3)). rewrite K1. f_equal. apply map_ext. intros e.
        replace (w e) with false; [reflexivity|]. symmetry. apply not_true_is_false. intros K. destruct (Hw e K).
      + intros e K. destruct (Hw e K).
      + intros e He K. contradiction.
    - now apply robust_Sx.
    - now apply robust_Sx.
    - intros op Ho K. exfalso. destruct (Hin op Ho) as [->|(_ & C & _)]; [discriminate | congruence].
    - intros op Ho K. destruct (Hin op Ho) as [->|(C & _)]; [|contradiction].
      intros a x y b err st Et Ha Ho' (A0 & H0 & H). unfold pair_values, mpp_i, mpp_targets in Et. cbn [itargets] in Et.
      assert (Ep : forall l, map tvalue (filter (fun t => negb (is_combiner t)) (flat_map (fun e => [TP (xyz (zk M)) (ix (e_left e)); TComb; TP (xyz (zk M)) (ix (e_right e))]) l)) = flat_map (fun e => [TQ (ix (e_left e)); TQ (ix (e_right e))]) l).
      { induction l as [|e l IH]; [reflexivity|]. cbn [flat_map app filter is_combiner negb map tvalue]. now rewrite IH. }
      rewrite Ep in Et. destruct (even_pairs _ _ _ _ _ _ _ Et Ha) as (e & He & Ex & Ey). injection Ex as ->. injection Ey as ->.
      destruct (kind_pair lay Hv A0 M M M 0 0 false [] e err st Hem eq_refl eq_refl eq_refl HM He Ho' H) as (X & Y & Hc & H'). exists (X, Y). split; [exact Hc|]. exists A0. auto.
    - intros m1 op m2 l k st Em En Hl Hk H. destruct m1 as [|x m1].
      2:{ exfalso. cbn [app] in Em. injection Em as _ Em. assert (K : In op (annk M)) by (rewrite Em; apply in_or_app; right; now left).
          destruct (proj1 (Forall_forall _ _) (calm_annk lay M) op K) as (C & _). contradiction. }
      cbn [app] in Em. injection Em as <- <-. unfold mpp_i, mpp_targets in Hl. cbn [itargets] in Hl. rewrite products_pairs in Hl. injection Hl as <-. rewrite map_length in Hk.
      destruct (nth_error (E (zk M)) k) as [e|] eqn:Ek; [|apply nth_error_None in Ek; lia]. assert (He : In e (E (zk M))) by (now apply nth_error_In in Ek).
      exists (iX (fun _ => bzero) (S M), iY M e true). split; [apply (core_edge lay Hv _ _ M e (fun _ => bzero) (S M) true HM He); auto; intros []|].
      apply mid_start in H. apply clean_done in H; [|intros ? []]. destruct H as (A0 & st0 & H0 & H & Dn).
      destruct (mpp_done M _ _ st0 st Dn (fun e _ => conj eq_refl eq_refl)) as (st1 & Er & EL & D1 & D2 & D3).
      exists st, st1. assert (HM' : Mid M (E (zk M)) (iX (fun _ => bzero) (S M), iY M e true) (misread (length (frec st) + k) st1)).
      { exists A0, noX, noY, (fun x => edge_eqb x e && true), (fun _ => bzero), st0. refine (conj H0 (conj H (conj (moves_fault M e _ true) (conj _ (conj _ (conj _ _)))))); auto.
        - refine (conj _ (conj D2 D3)). cbn [misread frec]. rewrite D1, EL, flip_app. f_equal.
          rewrite (flip_map edge_eqb edge_eqb_eq _ _ k e (NoDup_round_edges lay Hv (zk M)) Ek). apply map_ext. intros x. now rewrite xorb_false_r, andb_true_r.
        - intros x K. rewrite andb_true_r in K. apply edge_eqb_eq in K. now subst. }
      destruct (mid_end M _ _ HM') as (st' & Er' & H'). exists st'. repeat split; auto.
  Qed.
  Lemma step_mpp M : (use_correlated nm = true -> style lay = "EM3_v2"%string /\ forall a, An a -> forall q, isdata lay q -> ix q <> a) -> (M < N)%nat -> step (Sx M M M 0 0 false []) ([mpp_i M] ++ annk M) (Sx (S M) (S M) (S M) 0 0 false []).
  Proof.
    intros Ha HM. pose proof (elem_mpp M HM) as HE. destruct (use_correlated nm) eqn:Uc; [destruct (Ha eq_refl) as [Hv2 Ha']|apply step_elem; [now left | exact HE]].
    intros out (Hid & a & HA & pre & post & -> & Hpre & Hpost).
    assert (Hs0 : (sub_any nm a (mpp_i M) = [mpp_i M] /\ with_flip nm (mpp_i M) = mpp_i M) \/ exists p, sub_any nm a (mpp_i M) = flat_map (fun e => piece M e a p) (E (zk M))).
    { unfold sub_any, with_flip. destruct (op_strength nm (mpp_i M)) as [p|]; [|left; split; reflexivity]. destruct (_ && _); [|left; split; reflexivity]. rewrite Uc. right. exists p.
      assert (Et : forall l, triples (flat_map (fun e => [TP (xyz (zk M)) (ix (e_left e)); TComb; TP (xyz (zk M)) (ix (e_right e))]) l) = Some (map (fun e => (TP (xyz (zk M)) (ix (e_left e)), TComb, TP (xyz (zk M)) (ix (e_right e)))) l)).
      { induction l as [|e l IH]; [reflexivity|]. cbn [flat_map app map triples]. now rewrite IH. }
      unfold mpp_i, mpp_targets. cbn [itargets]. rewrite Et. generalize (E (zk M)). intros l. induction l as [|e l IH]; [reflexivity|]. cbn [map flat_map]. rewrite flatten_app, IH. reflexivity. }
    assert (Ean : flat_map (sub_any nm a) (annk M) = annk M).
    { pose proof (calm_annk lay M) as C. revert C. generalize (annk M). intros l C. induction C as [|i l (Ci & _) C IH]; [reflexivity|]. cbn [flat_map]. rewrite IH.
      unfold sub_any. destruct (op_strength nm i); [|reflexivity]. destruct (String.eqb_spec (iname i) "MPP"); [contradiction | reflexivity]. }
    destruct Hs0 as [[Es Ew]|(p & Es)].
    - apply (elem_step expl okx tx0 gs _ _ _ HE). exists nm, pre, post. split; [|split; [exact Hpre|]; split; [exact Hpost|]; intros op Ho; now destruct (Hid op Ho) as (_ & _ & K)].
      rewrite flat_map_app, Ean, map_app. cbn [flat_map map]. rewrite app_nil_r, Es, Ew. f_equal. f_equal. f_equal. symmetry. etransitivity; [|apply map_id].
      apply map_ext_in. intros i Hi. unfold with_flip. destruct (op_strength nm i); [|reflexivity]. pose proof (proj1 (proj1 (Forall_forall _ _) (calm_annk lay M) i Hi)) as K.
      destruct (String.eqb_spec (iname i) "MPP"); [contradiction | reflexivity].
    - destruct HE as [ER EP EQ E2 EM EX]. rewrite flat_map_app, Ean. cbn [flat_map]. rewrite app_nil_r, Es. apply (good_app _ _ _ _ _ _ (Sx M M M 0 0 false [])); [|rewrite <- app_assoc; apply (good_app _ _ _ _ _ _ (Mid M (E (zk M)))); [|apply (good_app _ _ _ _ _ _ (Sx (S M) (S M) (S M) 0 0 false []))]].
      + apply good_noise; [exact (fun _ => True)|]. intros i Hi. destruct (Hpre i Hi) as [Ni Hf]. split; [exact Ni|]. intros f Kf. destruct (Hf f Kf) as (err & -> & K). exists err. split; [reflexivity|].
        intros st Hst. destruct K as [K|(op & Ho & En & a' & x & y & b & Et & Ea & Hx)]; [now apply (robust_single expl okx tx0)|]. exact (EM op Ho En a' x y b err st Et Ea Hx Hst).
      + apply (good_weak _ _ _ _ _ (Mid M [])); [intros t st; apply mid_start|]. apply good_pieces; auto.
      + apply good_still; [|intros t st; apply mid_end]. intros i Hi. split; [|exact (proj1 (proj1 (Forall_forall _ _) (calm_annk lay M) i Hi))].
        destruct (Hid i) as (_ & _ & K); [right; exact Hi | exact K].
      + apply good_noise; [exact (fun _ => True)|]. intros i Hi. destruct (Hpost i Hi) as [Ni Hf]. split; [exact Ni|]. intros f Kf. destruct (Hf f Kf) as (err & -> & K). exists err. split; [reflexivity|].
        intros st Hst. destruct K as [K|(op & Ho & En & a' & x & y & b & Et & Ea & Hx)]; [now apply (robust_single expl okx tx0)|]. exact (E2 op Ho En a' x y b err st Et Ea Hx Hst).
  Qed.
  Lemma body_em3 : (use_correlated nm = true -> style lay = "EM3_v2"%string /\ forall a, An a -> forall q, isdata lay q -> ix q <> a) -> seg (Sx 0 0 0 0 0 false []) (em3_body lay) (last_at lay).
  Proof.
    intros Ha. unfold em3_body. apply (seg_flat expl okx tx0 gs rel (em3_i lay) (fun k => Sx k k k 0 0 false []) 0 N). intros k Hk.
    unfold em3_i, mop. rewrite Hem. cbn [app]. change (mkI "MPP" (mpp_targets lay (zk k)) [] :: annk k ++ [tick_i]) with (([mpp_i k] ++ annk k) ++ [tick_i]).
    apply seg_tick; [|apply step_mpp; [exact Ha | lia]]. apply no_tick_app; [reflexivity | apply calm_tick, calm_annk].
  Qed.
End Ch.
