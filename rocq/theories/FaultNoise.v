(** What the noise model puts into a moment, as the errors that can happen there. *)
From Coq Require Import QArith.
From Verif Require Import Prelude Layout LayoutFacts Pauli Stim Circuit Noise Annot Shift Ends Gen Frame Exec2 Moments NoiseFacts NoiseMoments NoiseAlign NoiseCorr FaultSpec FaultStep.
Open Scope Z_scope.

Definition plain (P : instr -> Prop) (x : item) : Prop := match x with I i => P i | Rep _ _ => False end.
Lemma plain_flatten P c : Forall (plain P) c -> forall i, In i (flatten c) -> P i.
Proof.
  intros H i Hi. apply in_flat_map in Hi. destruct Hi as (x & Hx & Hi). pose proof (proj1 (Forall_forall _ _) H x Hx) as K. destruct x as [j|]; [|destruct K]. destruct Hi as [<-|[]]. exact K.
Qed.
Lemma plain_weak (P Q : instr -> Prop) c : (forall i, P i -> Q i) -> Forall (plain P) c -> Forall (plain Q) c.
Proof. intros H. apply Forall_impl. intros [i|]; cbn; auto. Qed.

Lemma dep1_single ts args f : fault_of (mkI "DEPOLARIZE1" ts args) f -> exists err, f = Kick err /\ single err.
Proof. intros H. inversion H; subst. eexists. split; [reflexivity|]. eexists; eauto. Qed.
Lemma flip_single name ts args f : fault_of (mkI (flip_name name) ts args) f -> exists err, f = Kick err /\ single err.
Proof. unfold flip_name. destruct (ends_with_X name); intros H; inversion H; subst; eexists; (split; [reflexivity|]); eexists; eauto. Qed.
Lemma dep2_pair ts args f : fault_of (mkI "DEPOLARIZE2" ts args) f -> exists err, f = Kick err /\ pair_of ts err.
Proof. intros H. inversion H; subst. eexists. split; [reflexivity|]. do 4 eexists. eauto. Qed.
Lemma canon_flip name : canon (flip_name name) = flip_name name.
Proof. unfold flip_name. now destruct (ends_with_X name). Qed.
Lemma noise_flip name ts args : is_noise (mkI (flip_name name) ts args) = true.
Proof. unfold flip_name. now destruct (ends_with_X name). Qed.

(** one operation in the noisy circuit *)
Definition sub_any (nm : noise_model) (a : nat) (op : instr) : list instr :=
  match op_strength nm op with
  | Ok p => if (iname op =? "MPP")%string && Qlt_bool 0 p
            then if use_correlated nm
                 then match triples (itargets op) with Some tri => flatten (flat_map (fun '(x, _, y) => parity_measurement_with_correlated_measurement_noise x y a p) tri) | None => [op] end
                 else [mkI (iname op) (itargets op) [Num p]]
            else [op]
  | Err _ => [op]
  end.
Definition noisy_with (nm : noise_model) (a : nat) (m out : list instr) : Prop := exists pre post, out = pre ++ flat_map (sub_any nm a) m ++ post /\
  (forall i, In i pre -> pre_ok m i) /\ (forall i, In i post -> post_ok m i).

Lemma op_noise_ok nm a op p x y z : ideal_op op -> op_strength nm op = Ok p -> noisy_op nm op p a = Ok (x, y, z) ->
  Forall (plain (pre_ok [op])) x /\ flatten y = sub_any nm a op /\ Forall (plain (post_ok [op])) z.
Proof.
  intros (E & _ & N) Es En. unfold sub_any. rewrite Es. unfold noisy_op in En.
  assert (G : flatten (append_operation [] (iname op) (itargets op) (iargs op)) = [op]) by (now rewrite append_nil by exact E).
  assert (FP : forall (b : bool) name, Forall (plain (pre_ok [op])) (if b then append_operation [] (flip_name name) (itargets op) [Num p] else [])).
  { intros [|] name; [|constructor]. unfold append_operation. rewrite canon_flip. repeat constructor; [apply noise_flip|]. intros f Hf. destruct (flip_single _ _ _ _ Hf) as (err & -> & K). eauto. }
  assert (FQ : forall (b : bool) name, Forall (plain (post_ok [op])) (if b then append_operation [] (flip_name name) (itargets op) [Num p] else [])).
  { intros [|] name; [|constructor]. unfold append_operation. rewrite canon_flip. repeat constructor; [apply noise_flip|]. intros f Hf. destruct (flip_single _ _ _ _ Hf) as (err & -> & K). eauto. }
  destruct (Qlt_bool 0 p) eqn:F.
  - rewrite andb_true_r. destruct (String.eqb_spec (iname op) "MPP") as [M|M].
    + rewrite M in En. cbn [in_names existsb ANY_CLIFFORD_1_OPS ANY_CLIFFORD_2_OPS RESET_OPS MEASURE_OPS String.eqb Ascii.eqb Bool.eqb orb] in En.
      destruct (triples (itargets op)) as [tri|] eqn:Et; [|discriminate]. destruct (assert_ _); [|discriminate]. cbn [bind] in En. destruct (assert_ _); [|discriminate]. cbn [bind] in En.
      destruct (use_correlated nm); injection En as <- <- <-.
      * repeat split; constructor.
      * rewrite M. split; [|split; [reflexivity | constructor]]. repeat constructor. intros f Hf. destruct (dep2_pair _ _ _ Hf) as (err & -> & K). exists err. split; [reflexivity|]. right. exists op. repeat split; auto. now left.
    + destruct (in_names (iname op) ANY_CLIFFORD_1_OPS) eqn:C1.
      { injection En as <- <- <-. split; [constructor|]. split; [exact G|]. repeat constructor. intros f Hf. destruct (dep1_single _ _ _ Hf) as (err & -> & K). eauto. }
      destruct (in_names (iname op) ANY_CLIFFORD_2_OPS) eqn:C2.
      { injection En as <- <- <-. split; [constructor|]. split; [exact G|]. repeat constructor. intros f Hf. destruct (dep2_pair _ _ _ Hf) as (err & -> & K). exists err. split; [reflexivity|]. right. exists op. repeat split; auto. now left. }
      destruct (_ || _); [injection En as <- <- <- | discriminate]. split; [apply FP|]. split; [exact G|]. apply FQ.
  - rewrite andb_false_r. injection En as <- <- <-. split; [constructor|]. split; [exact G | constructor].
Qed.
Lemma pre_ok_incl m m' i : incl m m' -> pre_ok m i -> pre_ok m' i.
Proof. intros H [N K]. split; [exact N|]. intros f Hf. destruct (K f Hf) as (err & -> & [S|(op & Ho & R)]); exists err; split; auto. right. exists op. split; [now apply H | exact R]. Qed.
Lemma post_ok_incl m m' i : incl m m' -> post_ok m i -> post_ok m' i.
Proof. intros H [N K]. split; [exact N|]. intros f Hf. destruct (K f Hf) as (err & -> & [S|(op & Ho & R)]); exists err; split; auto. right. exists op. split; [now apply H | exact R]. Qed.
Lemma gather_ok nm a m : (forall op, In op m -> ideal_op op) -> forall x y z, gather nm a m = Ok (x, y, z) ->
  Forall (plain (pre_ok m)) x /\ flatten y = flat_map (sub_any nm a) m /\ Forall (plain (post_ok m)) z.
Proof.
  induction m as [|op m IH]; intros Hi x y z H; cbn [gather] in H.
  { injection H as <- <- <-. repeat split; constructor. }
  destruct (op_strength nm op) as [p|] eqn:Ep; [|discriminate]. cbn [bind] in H. destruct (noisy_op nm op p a) as [[[x1 y1] z1]|] eqn:En; [|discriminate]. cbn [bind] in H.
  destruct (gather nm a m) as [[[x2 y2] z2]|] eqn:Eg; [|discriminate]. cbn [bind] in H. injection H as <- <- <-.
  destruct (op_noise_ok nm a op p x1 y1 z1 (Hi op (or_introl eq_refl)) Ep En) as (A1 & A2 & A3).
  destruct (IH (fun o Ho => Hi o (or_intror Ho)) x2 y2 z2 eq_refl) as (B1 & B2 & B3).
  rewrite !flatten_app. cbn [flat_map]. rewrite A2, B2, !Forall_app.
  assert (I1 : incl [op] (op :: m)) by (intros o [<-|[]]; now left). assert (I2 : incl m (op :: m)) by (intros o Ho; now right).
  split; [split; [exact (plain_weak _ _ _ (fun i => pre_ok_incl _ _ i I1) A1) | exact (plain_weak _ _ _ (fun i => pre_ok_incl _ _ i I2) B1)]|]. split; [reflexivity|].
  split; [exact (plain_weak _ _ _ (fun i => post_ok_incl _ _ i I1) A3) | exact (plain_weak _ _ _ (fun i => post_ok_incl _ _ i I2) B3)].
Qed.
Lemma append_ok m ts args z : Forall (plain (post_ok m)) z -> Forall (plain (post_ok m)) (append_operation z "DEPOLARIZE1" ts args).
Proof.
  assert (D : forall ts args, post_ok m (mkI "DEPOLARIZE1" ts args)).
  { intros t r. split; [reflexivity|]. intros f Hf. destruct (dep1_single _ _ _ Hf) as (err & -> & K). eauto. }
  intros H. unfold append_operation. change (canon "DEPOLARIZE1") with "DEPOLARIZE1"%string.
  induction H as [|x z Hx Hz IH]; [repeat constructor; apply D|]. cbn [append_instr]. destruct x as [j|k b]; [|destruct Hx]. destruct z as [|y z].
  - destruct (_ && _ && _) eqn:Q; [|repeat constructor; [exact (proj1 Hx) | exact (proj2 Hx) | apply D]]. apply andb_prop in Q. destruct Q as [Q _]. apply andb_prop in Q. destruct Q as [_ Q]. cbn [iname] in Q. apply String.eqb_eq in Q. rewrite <- Q. repeat constructor. apply D.
  - constructor; [exact Hx | exact IH].
Qed.
Lemma piece_noise nm a nq m c : (forall op, In op m -> ideal_op op) -> not_tick m -> piece_out nm a (seq 0 nq) m = Ok c -> noisy_with nm a m (flatten c).
Proof.
  intros Hi Ht H. rewrite piece_out_run in H by exact Ht. destruct (gather nm a m) as [[[x y] z]|] eqn:Eg; [|discriminate]. cbn [bind] in H. injection H as <-.
  destruct (gather_ok nm a m Hi x y z Eg) as (A1 & A2 & A3).
  unfold flush. cbn [n_mid n_pre n_post n_used n_mr n_result].
  destruct (nonempty y) eqn:Ny; cbn [n_result].
  2:{ destruct y; [|discriminate]. exists [], []. split; [|split; intros i []]. rewrite <- A2. reflexivity. }
  rewrite app_nil_l. match goal with |- context [x ++ y ++ ?w] => set (z2 := w) end.
  exists (flatten x), (flatten z2). split; [now rewrite !flatten_app, A2|]. split; [exact (plain_flatten _ _ A1)|]. apply plain_flatten. unfold z2.
  destruct (_ && _ && Qlt_bool 0 (measure_reset_idle nm)); [apply append_ok|]; (destruct (_ && _ && Qlt_bool 0 (idle nm)); [now apply append_ok | exact A3]).
Qed.
Lemma parity_not_tick t1 t2 a p : not_tick (flatten (parity_measurement_with_correlated_measurement_noise t1 t2 a p)).
Proof.
  pose proof (parity_gates t1 t2 a p) as G. revert G. generalize (flatten (parity_measurement_with_correlated_measurement_noise t1 t2 a p)). intros l G.
  apply Forall_forall. intros i Hi. destruct (is_noise i) eqn:N.
  - unfold is_tick_name. apply String.eqb_neq. intros E. unfold is_noise in N. rewrite E in N. discriminate.
  - assert (K : In i (gates l)) by (apply filter_In; split; [exact Hi | now rewrite N]).
    rewrite G in K. unfold gadget, both in K. destruct t1 as [| |[]|], t2 as [| |[]|]; cbn in K; repeat (destruct K as [<-|K]; [reflexivity|]); destruct K.
Qed.
Lemma sub_not_tick nm a op : is_tick_name op = false -> not_tick (sub_any nm a op).
Proof.
  intros H. unfold sub_any. destruct (op_strength nm op) as [p|]; [|now constructor]. destruct ((iname op =? "MPP")%string && Qlt_bool 0 p); [|now constructor].
  destruct (use_correlated nm); [|now constructor]. destruct (triples (itargets op)) as [tri|]; [|now constructor].
  induction tri as [|[[t1 t] t2] tri IH]; [constructor|]. cbn [flat_map]. rewrite flatten_app. apply Forall_app. split; [apply parity_not_tick | exact IH].
Qed.
Lemma noisy_with_ticks nm a m out : not_tick m -> noisy_with nm a m out -> not_tick out.
Proof.
  intros Hm (pre & post & -> & Hp & Hq). assert (Z : forall i, is_noise i = true -> is_tick_name i = false).
  { intros i N. unfold is_tick_name. apply String.eqb_neq. intros E. unfold is_noise in N. rewrite E in N. discriminate. }
  apply Forall_app. split; [apply Forall_forall; intros i Hi; apply Z, (Hp i Hi)|]. apply Forall_app. split; [|apply Forall_forall; intros i Hi; apply Z, (Hq i Hi)].
  clear Hp Hq. unfold not_tick in *. induction Hm as [|op m Ho Hm IH]; [constructor|]. cbn [flat_map]. apply Forall_app. split; [now apply sub_not_tick | exact IH].
Qed.

(** ** Moment by moment *)
Definition noise_rel (nm : noise_model) (A : nat -> Prop) (m out : list instr) : Prop := (forall op, In op m -> ideal_op op) /\ exists a, A a /\ noisy_with nm a m out.
Theorem noisy_moments_any mi nm c c' : folded mi c -> (forall op, In op (instrs c) -> ideal_op op) -> noisy_circuit nm c = Ok c' ->
  Forall2 (noise_rel nm (fun a => In a (ancillas c))) (moments [] (flatten c)) (moments [] (flatten c')).
Proof.
  intros Hf Hi H. destruct (noisy_circuit_pieces nm c c' (fun i Hi' => proj1 (proj2 (Hi i Hi'))) H) as (outs & F & ->).
  assert (G : forall b m, In (b, m) (pieces c) -> In b (ancillas c) /\ (not_tick m \/ exists i, m = [i] /\ is_tick_name i = true) /\ forall op, In op m -> ideal_op op).
  { intros b m K. destruct (in_pieces c b m K) as [K1 K2]. split; [exact (pieces_ancillas c b m K)|]. split; [exact K1|]. auto. }
  rewrite <- contents_pieces. unfold contents.
  assert (A0 : In (circuit_num_qubits c) (ancillas c)) by (now left).
  assert (P0 : noise_rel nm (fun a => In a (ancillas c)) [] []) by (split; [intros op []|]; exists (circuit_num_qubits c); split; [exact A0|]; exists [], []; split; [reflexivity|]; split; intros i []).
  apply moments_pieces; [exact P0| |exact P0|auto|apply (sep_folded mi c Hf)].
  clear H Hf P0 A0. set (nq := circuit_num_qubits c) in F. set (P := fun a => In a (ancillas c)). change (forall b m, In (b, m) (pieces c) -> P b /\ (not_tick m \/ exists i, m = [i] /\ is_tick_name i = true) /\ forall op, In op m -> ideal_op op) in G. clearbody nq P.
  induction F as [|[b m] o ps os R F IH]; [constructor|]. constructor; [|apply IH; intros; eapply G; right; eauto]. clear IH F. cbn [snd].
  destruct (G b m (or_introl eq_refl)) as (Hb & T & I'). destruct R as (r & Er & ->). cbn [fst snd] in Er. destruct T as [T|(i & -> & T)].
  - assert (Tm : tickp m = false) by (destruct m as [|j [|]]; try reflexivity; inversion T; auto). rewrite Tm.
    pose proof (piece_noise nm b nq m r I' T Er) as K. split; [exact T|]. split; [exact (noisy_with_ticks _ _ _ _ T K)|]. split; [|split; [exact I' | exists b; auto]].
    intros ->. cbn in Er. injection Er as <-. reflexivity.
  - unfold piece_out in Er. cbn [tickp]. rewrite T in *. injection Er as <-. reflexivity.
Qed.

Lemma noisy_with_plain nm a m out : (forall op, In op m -> ideal_op op) -> use_correlated nm = false \/ (forall op, In op m -> iname op <> "MPP"%string) -> noisy_with nm a m out -> noisy m out.
Proof.
  intros Hi Hc (pre & post & -> & H1 & H2). exists nm, pre, post. split; [|split; [exact H1|]; split; [exact H2|]; intros op Ho; now destruct (Hi op Ho) as (_ & _ & N)].
  f_equal. f_equal. clear H1 H2. induction m as [|op m IH]; [reflexivity|]. cbn [flat_map map]. rewrite IH; [|intros; apply Hi; now right | destruct Hc as [Hc|Hc]; [now left | right; intros; apply Hc; now right]].
  change (with_flip nm op :: map (with_flip nm) m) with ([with_flip nm op] ++ map (with_flip nm) m). f_equal. unfold sub_any, with_flip. destruct (op_strength nm op); [|reflexivity].
  destruct Hc as [->|Hc]; [destruct (_ && _); reflexivity|]. destruct (String.eqb_spec (iname op) "MPP") as [K|_]; [exfalso; exact (Hc op (or_introl eq_refl) K) | reflexivity].
Qed.
Lemma step_elem {T} ok (t0 : T) gs nm A S m S' : use_correlated nm = false \/ (forall op, In op m -> iname op <> "MPP"%string) -> elem T ok t0 gs S m S' -> step T ok t0 gs (noise_rel nm A) S m S'.
Proof. intros Hc H out (Hi & a & _ & K). exact (elem_step T ok t0 gs S m S' H out (noisy_with_plain nm a m out Hi Hc K)). Qed.
