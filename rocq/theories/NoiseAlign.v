(** Moments of the noisy circuit, for circuits whose loops are aligned with TICKs. *)
From Coq Require Import QArith.
From Verif Require Import Prelude Layout Tracker Stim Circuit Noise Gen Moments NoiseFacts NoiseMoments.
Open Scope Z_scope.

Lemma is_tick_eq i : is_tick i = is_tick_name i.
Proof.
  unfold is_tick, is_tick_name, canon.
  repeat match goal with |- context [if (iname i =? ?s)%string then _ else _] => destruct (String.eqb_spec (iname i) s) as [->|?]; [reflexivity|] end. reflexivity.
Qed.
Definition tickp (m : list instr) : bool := match m with [i] => is_tick_name i | _ => false end.
(** Between two TICK pieces at most one piece is not empty. *)
Fixpoint sep (o : bool) (ps : list (nat * list instr)) : Prop :=
  match ps with
  | [] => True
  | (_, m) :: ps => if tickp m then sep false ps else match m with [] => sep o ps | _ => o = false /\ sep true ps end
  end.
Lemma sep_weak ps : sep true ps -> sep false ps.
Proof. induction ps as [|[a m] ps IH]; cbn [sep]; [auto|]. destruct (tickp m); [auto|]. destruct m; [auto|]. tauto. Qed.
Lemma sep_tick a now i r : is_tick_name i = true -> not_tick now -> sep false r -> sep false ((a, now) :: (a, [i]) :: r).
Proof.
  intros Hi Hn Hr. cbn [sep tickp]. rewrite Hi. assert (T : tickp now = false) by (destruct now as [|j [|]]; try reflexivity; inversion Hn; auto). rewrite T. destruct now; auto.
Qed.
Lemma ends_tick_cons i X : ends_tick (i :: X) -> X = [] /\ is_tick_name i = true \/ ends_tick X.
Proof. intros (x & E). destruct x as [|y x]; cbn [app] in E; injection E as -> ->; [left; auto | right; exists x; reflexivity]. Qed.
Lemma sep_pre a r X : ends_tick X -> sep false (cut a [] r) -> forall now, not_tick now -> sep false (cut a now (map I X ++ r)).
Proof.
  induction X as [|i X IH]; intros HX Hr now Hn; [destruct HX as ([|? ?] & ?); discriminate|]. cbn [map app cut]. destruct (ends_tick_cons i X HX) as [[-> Hi]|H].
  - rewrite Hi. now apply sep_tick.
  - destruct (is_tick_name i) eqn:Hi.
    + apply sep_tick; auto. apply IH; auto. constructor.
    + apply IH; auto. apply Forall_app. auto.
Qed.
Lemma sep_end a Z : forall now, not_tick now -> sep false (cut a now (map I Z)).
Proof.
  induction Z as [|i Z IH]; intros now Hn; cbn [map cut].
  - cbn [sep]. destruct (tickp now); [auto|]. destruct now; auto.
  - destruct (is_tick_name i) eqn:Hi; [apply sep_tick; auto; apply IH; constructor | apply IH, Forall_app; auto].
Qed.
Lemma sep_body a Y r : ends_tick Y -> sep false r -> forall now, not_tick now -> sep false (cut a now (map I Y) ++ r).
Proof.
  intros HY Hr. induction Y as [|i Y IH]; intros now Hn; [destruct HY as ([|? ?] & ?); discriminate|]. cbn [map cut]. destruct (ends_tick_cons i Y HY) as [[-> Hi]|H].
  - rewrite Hi. cbn [map cut app]. apply sep_tick; auto.
  - destruct (is_tick_name i) eqn:Hi.
    + cbn [app]. apply sep_tick; auto. apply IH; auto. constructor.
    + apply IH; auto. apply Forall_app. auto.
Qed.
Lemma sep_folded mi c : folded mi c -> sep false (pieces c).
Proof.
  intros (X & Y & Z & k & -> & Hk & HX & HY & _). rewrite pieces_eq. set (a := circuit_num_qubits _). clearbody a.
  assert (T : sep false (cut a [] (circuit_mul (map I Y) k ++ map I Z))).
  { unfold circuit_mul. destruct (Z.eqb_spec k 0); [apply sep_end; constructor|]. destruct (Z.eqb_spec k 1).
    - apply sep_pre; auto; [|constructor]. apply sep_end. constructor.
    - cbn [app cut]. rewrite pieces_item_eq. cbn [sep tickp]. set (b := circuit_num_qubits _). clearbody b. induction (Z.to_nat k) as [|m IH]; cbn [repeat concat app]; [apply sep_end; constructor|].
      rewrite <- app_assoc. apply sep_body; auto. constructor. }
  destruct HX as [->|HX]; [exact T|]. apply sep_pre; auto. constructor.
Qed.

(** Cutting both sides at the TICKs. *)
Lemma moments_pieces (P : list instr -> list instr -> Prop) ps outs : P [] [] ->
  Forall2 (fun p o => match tickp (snd p) with true => o = snd p | false => not_tick (snd p) /\ not_tick o /\ (snd p = [] -> o = []) /\ P (snd p) o end) ps outs ->
  forall m o, P m o -> (m = [] -> o = []) -> sep (match m with [] => false | _ => true end) ps ->
  Forall2 P (moments m (flat_map snd ps)) (moments o (concat outs)).
Proof.
  intros P0 F. induction F as [|[a p] q ps outs H F IH]; intros m o Hp He Hs; cbn [flat_map concat snd]; [cbn; auto|]. cbn [sep snd] in *.
  destruct (tickp p) eqn:T.
  - destruct p as [|i [|]]; try discriminate. subst q. cbn [app moments]. rewrite is_tick_eq. cbn [tickp] in T. rewrite T. constructor; [exact Hp|]. apply IH; auto.
  - destruct H as (H1 & H2 & H3 & H4).
    assert (G : forall l r now, not_tick l -> moments now (l ++ r) = moments (now ++ l) r).
    { clear. induction l as [|i l IH]; intros r now H; cbn [app]; [now rewrite app_nil_r|]. inversion H; subst. cbn [moments]. rewrite is_tick_eq, H2, IH by assumption. now rewrite <- app_assoc. }
    rewrite !G by assumption. destruct p as [|i p].
    + rewrite (H3 eq_refl), !app_nil_r. auto.
    + destruct Hs as [Hm Hs]. destruct m; [|discriminate]. rewrite (He eq_refl). cbn [app]. apply IH; auto; discriminate.
Qed.
Lemma piece_no_tick nm a nq m c : use_correlated nm = false -> (forall op, In op m -> ideal_op op) -> not_tick m -> piece_out nm a (seq 0 nq) m = Ok c -> not_tick (flatten c) /\ (m = [] -> flatten c = []).
Proof.
  intros Hc Hi Ht H. split.
  - pose proof (piece_gates nm a nq m c Hc Hi Ht H) as G. apply Forall_forall. intros i Hin. destruct (is_noise i) eqn:N.
    + unfold is_tick_name. apply String.eqb_neq. intros E. unfold is_noise in N. rewrite E in N. discriminate.
    + assert (K : In i (gates (flatten c))) by (apply filter_In; split; [exact Hin | now rewrite N]). rewrite G in K. apply in_map_iff in K. destruct K as (op & <- & Hop).
      pose proof (proj1 (Forall_forall _ _) Ht op Hop) as T. unfold with_flip. destruct (op_strength nm op); [|exact T]. destruct (_ && _); exact T.
  - intros ->. cbn in H. injection H as <-. reflexivity.
Qed.

(** What one moment receives. *)
Definition moment_noise (nm : noise_model) (nq : nat) (m out : list instr) : Prop :=
  gates out = map (with_flip nm) m /\
  (NoDup (used m) -> forall q, (q < nq)%nat ->
    (forall op, In op m -> In q (tq op) -> exists p, op_strength nm op = Ok p /\
       same_channels (channels q out) ((if Qlt_bool 0 p then [(channel_of (iname op), [Num p])] else []) ++ mr_noise nm m q)) /\
    (~ In q (used m) -> same_channels (channels q out) (idle_noise nm m q ++ mr_noise nm m q))).
Lemma moment_noise_tick nm nq i : ideal_op i -> is_tick_name i = true -> moment_noise nm nq [i] [i].
Proof.
  intros (_ & P & N) T. apply String.eqb_eq in T. rewrite (P T). split; [cbn; now rewrite with_flip_tick|].
  intros _ q Hq. split; [|intros _; constructor]. intros op [<-|[]] [].
Qed.
Theorem noisy_pieces nm c c' : use_correlated nm = false -> (forall op, In op (instrs c) -> ideal_op op) -> noisy_circuit nm c = Ok c' ->
  exists outs, flatten c' = concat outs /\ Forall2 (fun p o => moment_noise nm (circuit_num_qubits c) (snd p) o) (pieces c) outs /\
  Forall2 (fun p o => match tickp (snd p) with true => o = snd p | false => not_tick (snd p) /\ not_tick o /\ (snd p = [] -> o = []) /\ moment_noise nm (circuit_num_qubits c) (snd p) o end) (pieces c) outs.
Proof.
  intros Hc Hi H. destruct (noisy_circuit_pieces nm c c' (fun i Hi' => proj1 (proj2 (Hi i Hi'))) H) as (outs & F & E). exists outs. split; [exact E|].
  assert (G : forall b m, In (b, m) (pieces c) -> (not_tick m \/ exists i, m = [i] /\ is_tick_name i = true) /\ forall op, In op m -> ideal_op op).
  { intros b m K. destruct (in_pieces c b m K) as [K1 K2]. split; [exact K1|]. auto. }
  clear H E. set (nq := circuit_num_qubits c) in *. clearbody nq. induction F as [|[b m] o ps os R F IH]; [split; constructor|].
  destruct IH as [IH1 IH2]; [intros; eapply G; right; eauto|]. destruct R as (r & Er & ->). cbn [fst snd] in Er.
  destruct (G b m (or_introl eq_refl)) as [[T|(i & -> & T)] I'].
  - assert (K : moment_noise nm nq m (flatten r)).
    { split; [eapply piece_gates; eauto|]. exact (proj2 (piece_spec nm b nq m r Hc I' T Er)). }
    split; (constructor; [|assumption]); [exact K|]. cbn [snd].
    assert (Tm : tickp m = false) by (destruct m as [|j [|]]; try reflexivity; inversion T; auto). rewrite Tm.
    destruct (piece_no_tick nm b nq m r Hc I' T Er). auto.
  - unfold piece_out in Er. unfold is_tick_name in T, Er. rewrite T in Er. injection Er as <-.
    split; (constructor; [|assumption]); cbn [snd flatten flat_map flatten_item app].
    + apply moment_noise_tick; auto. apply I'. now left.
    + cbn [tickp]. unfold is_tick_name. rewrite T. reflexivity.
Qed.
Theorem noisy_moments mi nm c c' : folded mi c -> use_correlated nm = false -> (forall op, In op (instrs c) -> ideal_op op) -> noisy_circuit nm c = Ok c' ->
  Forall2 (moment_noise nm (circuit_num_qubits c)) (moments [] (flatten c)) (moments [] (flatten c')).
Proof.
  intros Hf Hc Hi H. destruct (noisy_pieces nm c c' Hc Hi H) as (outs & -> & _ & F). rewrite <- contents_pieces. unfold contents.
  assert (P0 : moment_noise nm (circuit_num_qubits c) [] []) by (split; [reflexivity|]; intros _ q Hq; split; [intros op [] | intros _; constructor]).
  apply moments_pieces; auto. apply (sep_folded mi c Hf).
Qed.
