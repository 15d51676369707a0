(** The noise just before the final data measurement. *)
From Coq Require Import QArith.
From Verif Require Import Prelude Layout LayoutFacts LayoutEdges LayoutLists LayoutHex LayoutHex2 Pauli LayoutObs LayoutLogic LayoutIndex
  Tracker TrackerFacts Stim Circuit Noise Annot Shift Ends Gen Gen2 Gen3 Traj Eval Frame Exec Exec2 Exec3 Exec4 Moments NoiseFacts NoiseMoments NoiseAlign NoiseCorr
  FaultSpec FaultStep FaultNoise FaultChain FaultEnd FaultRun.
Open Scope Z_scope.

(** ** A noisy measurement has its flips before it *)
Definition before_op (nm : noise_model) (op : instr) (p : Q) (i : instr) : Prop :=
  iname op = "M"%string /\ i = mkI "X_ERROR" (itargets op) [Num p] \/
  iname op = "MPP"%string /\ use_correlated nm = false /\ i = mkI "DEPOLARIZE2" (map tvalue (filter (fun t => negb (is_combiner t)) (itargets op))) [Num p].
Definition flips_in (nm : noise_model) (m pre : list instr) : Prop :=
  forall op p i, In op m -> op_strength nm op = Ok p -> Qlt_bool 0 p = true -> before_op nm op p i -> In i pre.
Definition noisy_flip (nm : noise_model) (a : nat) (m out : list instr) : Prop := exists pre post, out = pre ++ flat_map (sub_any nm a) m ++ post /\
  ((forall i, In i pre -> pre_ok m i) /\ (forall i, In i post -> post_ok m i)) /\ flips_in nm m pre.
Definition flip_rel (nm : noise_model) (m out : list instr) : Prop := (forall op, In op m -> ideal_op op) /\ exists a, noisy_flip nm a m out.

Lemma in_flatten i (c : circuit) : In (I i) c -> In i (flatten c).
Proof. intros H. apply in_flat_map. exists (I i). split; [exact H | now left]. Qed.
Lemma gather_flip nm a m : forall x y z, gather nm a m = Ok (x, y, z) -> flips_in nm m (flatten x).
Proof.
  induction m as [|op m IH]; intros x y z H; cbn [gather] in H; [intros op p i []|].
  destruct (op_strength nm op) as [p|] eqn:Ep; [|discriminate]. cbn [bind] in H. destruct (noisy_op nm op p a) as [[[x1 y1] z1]|] eqn:En; [|discriminate]. cbn [bind] in H.
  destruct (gather nm a m) as [[[x2 y2] z2]|] eqn:Eg; [|discriminate]. cbn [bind] in H. injection H as <- <- <-.
  intros o p' i Ho Es Hq Hb. rewrite flatten_app. apply in_or_app. destruct Ho as [<-|Ho].
  - left. rewrite Ep in Es. injection Es as <-. unfold noisy_op in En. destruct Hb as [[En' ->]|(En' & Uc & ->)]; rewrite Hq, En' in En.
    + cbn in En. injection En as <- _ _. cbn. now left.
    + cbn [in_names existsb ANY_CLIFFORD_1_OPS ANY_CLIFFORD_2_OPS RESET_OPS MEASURE_OPS String.eqb Ascii.eqb Bool.eqb orb] in En.
      destruct (triples (itargets op)) as [tri|]; [|discriminate]. destruct (assert_ _); [|discriminate]. cbn [bind] in En. destruct (assert_ _); [|discriminate]. cbn [bind] in En. rewrite Uc in En.
      injection En as <- _ _. unfold append_operation. change (canon "DEPOLARIZE2") with "DEPOLARIZE2"%string. cbn [append_instr flatten flat_map]. now left.
  - right. exact (IH x2 y2 z2 eq_refl o p' i Ho Es Hq Hb).
Qed.
Lemma piece_flip nm a nq m c : (forall op, In op m -> ideal_op op) -> not_tick m -> piece_out nm a (seq 0 nq) m = Ok c -> noisy_flip nm a m (flatten c).
Proof.
  intros Hi Ht H. rewrite piece_out_run in H by exact Ht. destruct (gather nm a m) as [[[x y] z]|] eqn:Eg; [|discriminate]. cbn [bind] in H. injection H as <-.
  destruct (gather_ok nm a m Hi x y z Eg) as (A1 & A2 & A3). pose proof (gather_flip nm a m x y z Eg) as Hfl.
  unfold flush. cbn [n_mid n_pre n_post n_used n_mr n_result].
  destruct (nonempty y) eqn:Ny; cbn [n_result].
  2:{ destruct y; [|discriminate]. exists [], []. split; [|split; [split; intros i []|]]; [rewrite <- A2; reflexivity|].
      intros op p i Ho Es' _ Hb. cbn in A2. assert (K : exists j, In j (flat_map (sub_any nm a) m)); [|rewrite <- A2 in K; destruct K as (j & [])].
      assert (K : exists j, In j (sub_any nm a op)); [|destruct K as (j & K); exists j; apply in_flat_map; eauto].
      unfold sub_any. rewrite Es'. destruct Hb as [[En _]|(En & Uc & _)]; rewrite En; [exists op; now left|]. rewrite Uc. cbn [String.eqb Ascii.eqb Bool.eqb andb]. destruct (Qlt_bool 0 p); eexists; left; reflexivity. }
  rewrite app_nil_l. match goal with |- context [x ++ y ++ ?w] => set (z2 := w) end.
  exists (flatten x), (flatten z2). split; [now rewrite !flatten_app, A2|]. split; [|exact Hfl]. split; [exact (plain_flatten _ _ A1)|]. apply plain_flatten. unfold z2.
  destruct (_ && _ && Qlt_bool 0 (measure_reset_idle nm)); [apply append_ok|]; (destruct (_ && _ && Qlt_bool 0 (idle nm)); [now apply append_ok | exact A3]).
Qed.
Lemma flip_with nm a m out : noisy_flip nm a m out -> noisy_with nm a m out.
Proof. intros (pre & post & E & [H1 H2] & _). exists pre, post. auto. Qed.
Theorem noisy_moments_flip mi nm c c' : folded mi c -> (forall op, In op (instrs c) -> ideal_op op) -> noisy_circuit nm c = Ok c' ->
  Forall2 (flip_rel nm) (moments [] (flatten c)) (moments [] (flatten c')).
Proof.
  intros Hf Hi H. destruct (noisy_circuit_pieces nm c c' (fun i Hi' => proj1 (proj2 (Hi i Hi'))) H) as (outs & F & ->).
  assert (G : forall b m, In (b, m) (pieces c) -> (not_tick m \/ exists i, m = [i] /\ is_tick_name i = true) /\ forall op, In op m -> ideal_op op).
  { intros b m K. destruct (in_pieces c b m K) as [K1 K2]. split; [exact K1|]. auto. }
  rewrite <- contents_pieces. unfold contents.
  assert (P0 : flip_rel nm [] []).
  { split; [intros op []|]. exists 0%nat, [], []. split; [reflexivity|]. split; [split; intros i []|]. intros op p i []. }
  apply moments_pieces; [exact P0| |exact P0|auto|apply (sep_folded mi c Hf)].
  clear H Hf P0. set (nq := circuit_num_qubits c) in F. clearbody nq.
  induction F as [|[b m] o ps os R F IH]; [constructor|]. constructor; [|apply IH; intros; eapply G; right; eauto]. clear IH F. cbn [snd].
  destruct (G b m (or_introl eq_refl)) as (T & I'). destruct R as (r & Er & ->). cbn [fst snd] in Er. destruct T as [T|(i & -> & T)].
  - assert (Tm : tickp m = false) by (destruct m as [|j [|]]; try reflexivity; inversion T; auto). rewrite Tm.
    pose proof (piece_flip nm b nq m r I' T Er) as K. split; [exact T|]. split; [exact (noisy_with_ticks _ _ _ _ T (flip_with _ _ _ _ K))|]. split; [|split; [exact I' | exists b; auto]].
    intros ->. cbn in Er. injection Er as <-. reflexivity.
  - unfold piece_out in Er. cbn [tickp]. rewrite T in *. injection Er as <-. reflexivity.
Qed.

(** ** The last moment *)
Lemma moments_tick a t r : is_tick t = true -> forall now, moments now (a ++ t :: r) = moments now a ++ moments [] r.
Proof. intros Ht. induction a as [|i a IH]; intros now; cbn [app moments]; [now rewrite Ht|]. destruct (is_tick i); [cbn [app]; now rewrite IH | apply IH]. Qed.
Lemma moments_last l : forall now ms out, moments now l = ms ++ [out] -> exists l0, now ++ l = l0 ++ out.
Proof.
  induction l as [|i l IH]; intros now ms out H; cbn [moments] in H.
  - destruct ms as [|x [|y ms]]; cbn in H; try discriminate. injection H as <-. exists []. now rewrite app_nil_r.
  - destruct (is_tick i).
    + destruct ms as [|x ms]; cbn [app] in H.
      { injection H as <- H. exfalso. revert H. clear. generalize (@nil instr) at 1. induction l as [|j l IH]; intros u; cbn [moments]; [discriminate|]. destruct (is_tick j); [discriminate | apply IH]. }
      injection H as <- H. destruct (IH [] ms out H) as (l0 & E). cbn [app] in E. exists (now ++ i :: l0). rewrite <- app_assoc. cbn [app]. now rewrite E.
    + destruct (IH _ _ _ H) as (l0 & E). exists l0. now rewrite <- app_assoc in E.
Qed.
Lemma Forall2_last {A B} (R : A -> B -> Prop) l x l' : Forall2 R (l ++ [x]) l' -> exists m y, l' = m ++ [y] /\ R x y.
Proof.
  intros H. apply Forall2_app_inv_l in H. destruct H as (m & m' & _ & H & ->). inversion H as [|? y ? t Hx Ht]; subst. inversion Ht; subst. eauto.
Qed.
Lemma gates_noise l : (forall i, In i l -> is_noise i = true) -> gates l = [].
Proof. induction l as [|i l IH]; intros H; [reflexivity|]. unfold gates. cbn [filter]. rewrite (H i (or_introl eq_refl)). cbn [negb]. apply IH. intros; apply H; now right. Qed.
(** noise before a measurement in the last moment of the circuit *)
Lemma last_noise nm l l' A pre op post p : Forall2 (flip_rel nm) (moments [] l) (moments [] l') -> l = A ++ tick_i :: pre ++ op :: post -> Forall calm (pre ++ op :: post) ->
  iname op = "M"%string -> op_strength nm op = Ok p -> Qlt_bool 0 p = true ->
  exists l1 l2, l' = l1 ++ mkI "X_ERROR" (itargets op) [Num p] :: l2 /\ gates l2 = pre ++ op :: post.
Proof.
  intros F -> Hc En Es Hp. rewrite moments_tick in F by reflexivity. rewrite (moments_notick (pre ++ op :: post)) in F by (apply forallb_forall; intros i Hi; apply (proj1 (Forall_forall _ _) Hc) in Hi; destruct Hi as (_ & _ & ->); reflexivity). cbn [app] in F.
  apply Forall2_last in F. destruct F as (ms & out & El & Hi & a & x & y & -> & [H1 H2] & Hfl).
  destruct (moments_last l' [] _ _ El) as (l0 & E0). cbn [app] in E0. specialize (Hfl op p _ (in_or_app pre (op :: post) op (or_intror (or_introl eq_refl))) Es Hp (or_introl (conj En eq_refl))). apply in_split in Hfl. destruct Hfl as (x1 & x2 & ->).
  exists (l0 ++ x1), (x2 ++ flat_map (sub_any nm a) (pre ++ op :: post) ++ y). split; [rewrite E0, <- !app_assoc; reflexivity|].
  rewrite !gates_app. rewrite (gates_noise x2) by (intros i Hx; apply (H1 i); apply in_or_app; right; now right). rewrite (gates_noise y) by (intros i Hx; apply (H2 i Hx)). rewrite app_nil_r. cbn [app].
  revert Hi Hc. generalize (pre ++ op :: post). clear. induction l as [|o l IH]; intros Hi Hc; [reflexivity|]. inversion Hc as [|? ? Ho Hl]; subst. cbn [flat_map]. rewrite gates_app, (IH (fun o' Ho' => Hi o' (or_intror Ho')) Hl).
  unfold sub_any. destruct Ho as (Ho & _). apply String.eqb_neq in Ho. rewrite Ho. cbn [andb]. destruct (Hi o (or_introl eq_refl)) as (_ & _ & No). destruct (op_strength nm o); unfold gates; cbn [filter]; rewrite No; reflexivity.
Qed.

Section Ch.
  Variable lay : layout.
  Hypothesis Hv : valid lay.
  Hypothesis Hobs : obs lay = "V"%string \/ obs lay = "H"%string.
  Hypothesis Hs : supported lay.
  Notation trk := (trk lay (tr0 lay)).
  Notation n := (sub_rounds lay).
  Notation N := (Z.to_nat n).
  Local Opaque data_qubit_coords measure_qubit_coords q2i_dict hex_entries hexes round_edges all_edges isort.

  Definition final_m : instr := mkI "M" (qs (Ends.data_ix lay)) [].
  Lemma flat_last (f : nat -> list instr) m : (0 < m)%nat -> (forall k, exists b, f k = b ++ [tick_i]) -> exists b, flat_map f (seq 0 m) = b ++ [tick_i].
  Proof.
    intros Hm Hf. destruct m as [|m]; [lia|]. rewrite seq_S, flat_map_app. cbn [flat_map Nat.add]. destruct (Hf m) as (b & ->). exists (flat_map f (seq 0 m) ++ b). now rewrite app_nil_r, <- app_assoc.
  Qed.
  Lemma body_tail : exists A pre, body_i lay = A ++ tick_i :: pre /\ Forall calm pre /\ forall gs, reads gs (tm (trk N)) pre.
  Proof.
    pose proof Hs as [Hn Hst]. unfold body_i. destruct (String.eqb_spec (style lay) "SD6") as [S1|N1]; [|destruct (String.eqb_spec (style lay) "PC3") as [S2|N2]; [|destruct (is_em3 (style lay)) eqn:Em]].
    - unfold sd6_body, sd6_close_i. eexists (_ ++ _), []. split; [rewrite <- app_assoc; reflexivity|]. split; [constructor | intros; apply FaultEnd.reads_nil].
    - unfold pc3_body. destruct (flat_last (pc3_i lay) (Z.to_nat (n + 2))) as (b & Eb); [lia | intros k; unfold pc3_i; rewrite !app_assoc; eauto |].
      exists b, (pc3_obs_i lay (trk N)). rewrite Eb, <- app_assoc. split; [reflexivity|]. split; [apply calm_pc3_obs | intros gs; now apply (pc3_reads lay Hv)].
    - unfold em3_body. destruct (flat_last (em3_i lay) N) as (b & Eb); [lia | intros k; unfold em3_i; rewrite !app_assoc; eauto |]. exists b, []. split; [exact Eb|]. split; [constructor | intros; apply FaultEnd.reads_nil].
    - unfold si_body. destruct (flat_last (si_i lay) (Z.to_nat (n / 3))) as (b & Eb); [|intros k; unfold si_i; rewrite !app_assoc; eauto |exists b, []; split; [exact Eb|]; split; [constructor | intros; apply FaultEnd.reads_nil]].
      assert (K3 : n mod 3 = 0); [|clear -Hn K3; dlia].
      destruct Hst as [K|[K|[K|[K|[_ K]]]]]; [contradiction | contradiction | rewrite K in Em; discriminate | rewrite K in Em; discriminate | exact K].
  Qed.
  Lemma circuit_tail : exists A pre, circuit_i lay = A ++ tick_i :: pre ++ final_m :: fin_ann lay /\ Forall calm (pre ++ final_m :: fin_ann lay) /\ forall gs, reads gs (tm (trk N)) pre.
  Proof.
    destruct body_tail as (A & pre & E & Hc & Hr). unfold circuit_i. rewrite E. unfold fin. fold (fin_ann lay). fold final_m.
    assert (Km : forall l, Forall calm l -> Forall calm (l ++ final_m :: fin_ann lay)).
    { intros l Hl. apply Forall_app. split; [exact Hl|]. constructor; [repeat split; discriminate | apply calm_fin_ann]. }
    unfold hdata. destruct (pauli_eqb (final_basis lay) PZ) eqn:Ep.
    - exists (coords_i lay ++ init_i lay ++ A), pre. split; [rewrite <- !app_assoc; reflexivity|]. split; [now apply Km | exact Hr].
    - set (h := mkI (canon (basis_h (final_basis lay))) (qs (Ends.data_ix lay)) []). exists (coords_i lay ++ init_i lay ++ A ++ tick_i :: pre ++ [h]), []. split; [rewrite <- !app_assoc; cbn [app]; rewrite <- !app_assoc; reflexivity|]. split; [apply Km; constructor | intros; apply FaultEnd.reads_nil].
  Qed.
End Ch.
