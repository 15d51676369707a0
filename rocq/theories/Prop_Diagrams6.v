(** C27 and C65, continued: the circuits the generator returns, with noise. *)
From Coq Require Import QArith Qround Ascii.
From Verif Require Import Prelude Layout LayoutFacts LayoutEdges LayoutIndex Prop_Layout Tracker Stim Circuit Annot Shift Ends Noise Gen Gen2 Gen3 Traj Eval Frame Exec Exec2 Exec3 Exec4 Moments Prop_Circuit NoiseFacts NoiseMoments GenShape NoiseAlign Prop_Noise Prop_Noise2
  NoiseCorr FaultNoise Prop_Noise3 Text Collect Diagrams Prop_Diagrams Prop_Diagrams2 Prop_Diagrams3 Prop_Diagrams4 Prop_Diagrams5.
Open Scope Z_scope.

(** ** C27: without noise the generator returns the ideal circuit itself *)
Lemma loops_app a b : all_loops_twice (a ++ b) <-> all_loops_twice a /\ all_loops_twice b.
Proof. unfold all_loops_twice. induction a as [|x a IH]; cbn [app fold_right]; [tauto|]. rewrite IH. tauto. Qed.
Lemma loops_I l : all_loops_twice (map I l).
Proof. induction l as [|x l IH]; [exact Logic.I|]. split; [exact Logic.I|exact IH]. Qed.
Lemma folded_twice mi c : folded mi c -> all_loops_twice c.
Proof.
  intros (X & Y & Z0 & k & -> & Hk & _). rewrite !loops_app. split; [apply loops_I|]. split; [|apply loops_I].
  unfold circuit_mul. destruct (Z.eqb_spec k 0); [exact Logic.I|]. destruct (Z.eqb_spec k 1); [apply loops_I|]. split; [|exact Logic.I]. split; [lia|apply loops_I].
Qed.
Theorem C27_generated : forall lay, valid lay -> supported_input lay -> (noise lay == 0)%Q ->
  exists c, generate_honeycomb_circuit lay = Ok c /\ generate_ideal_circuit lay = Ok c.
Proof.
  intros lay Hv Hs Hn. destruct (generated lay Hv Hs) as (c & nm & c' & E & En & E2 & E3 & Fl & Fo & Hf).
  assert (c' = c) by (apply (C27_zero_noise lay nm c c' En Hn); [intros op Ho; apply (fine_ideal lay), Hf, Ho|exact (folded_twice _ _ Fo)|exact E2]). subst c'. eauto.
Qed.
Print Assumptions C27_generated.
Example C27_generated_example : let lay := mkLayout 2 6 13 "EM3_v2" "H" (0 # 5) in valid lay /\ supported_input lay /\ (noise lay == 0)%Q.
Proof. intros lay. split; [repeat split; vm_compute; reflexivity|]. split; [split; [cbn; lia|]; split; [now right|]|reflexivity]. cbn. tauto. Qed.

(** ** C65: the picture of a noisy circuit is the picture of the ideal circuit *)
(** What the picture looks at: no noise channels, no flip probabilities *)
Definition unseen (i : instr) : bool := in_names (iname i) ["X_ERROR"; "DEPOLARIZE1"; "DEPOLARIZE2"]%string.
Definition seen (l : list instr) : list instr := map bare (filter (fun i => negb (unseen i)) l).
Lemma seen_app a b : seen (a ++ b) = seen a ++ seen b.
Proof. unfold seen. now rewrite filter_app, map_app. Qed.
Lemma seen_repeat l n : seen (concat (repeat l n)) = concat (repeat (seen l) n).
Proof. induction n as [|n IH]; [reflexivity|]. cbn [repeat concat]. now rewrite seen_app, IH. Qed.
Lemma plot_unseen s i : unseen i = true -> plot_op s i = Ok s.
Proof.
  destruct i as [name ts args]. unfold unseen. cbn [iname]. intros H. apply in_names_In in H. cbn [In] in H. decompose [or] H; try contradiction; subst name; reflexivity.
Qed.
Lemma plot_bare s i : plot_op s (bare i) = plot_op s i.
Proof.
  unfold bare. destruct (String.eqb_spec (iname i) "MPP") as [E|]; [|reflexivity]. unfold plot_op. cbn [iname itargets iargs]. rewrite E. reflexivity.
Qed.
Lemma plot_seen l : forall s, foldM plot_op l s = foldM plot_op (seen l) s.
Proof.
  induction l as [|i l IH]; intros s; [reflexivity|]. unfold seen. cbn [filter]. destruct (unseen i) eqn:U; cbn [negb].
  - cbn [foldM]. rewrite (plot_unseen s i U). cbn [bind]. apply IH.
  - cbn [map foldM]. rewrite plot_bare. destruct (plot_op s i) as [s'|e]; [cbn [bind]; apply IH|reflexivity].
Qed.

(** What is seen of a circuit at some depth of loops *)
Definition view (lv : Z) (c : circuit) : list instr := seen (flat_map (iter_item lv) c).
Lemma view_app lv a b : view lv (a ++ b) = view lv a ++ view lv b.
Proof. unfold view. now rewrite flat_map_app, seen_app. Qed.
Definition hidden (c : circuit) : Prop := Forall (fun x => match x with I i => unseen i = true | Rep _ _ => False end) c.
Lemma view_hidden lv c : hidden c -> view lv c = [].
Proof.
  induction 1 as [|x c H _ IH]; [reflexivity|]. change (x :: c) with ([x] ++ c). rewrite view_app, IH, app_nil_r. destruct x as [i|]; [|destruct H].
  unfold view. cbn [flat_map iter_item]. destruct (_ || _); [|reflexivity]. unfold seen. cbn [app filter]. now rewrite H.
Qed.
Lemma hidden_append c name ts args : hidden c -> unseen (mkI (canon name) [] []) = true -> hidden (append_operation c name ts args).
Proof.
  intros H U. unfold append_operation. induction H as [|x c Hx H IH].
  - constructor; [exact U|constructor].
  - destruct x as [j|]; [|destruct Hx]. destruct c as [|y c].
    + cbn [append_instr]. destruct (_ && _ && _) eqn:B; [constructor; [exact Hx|constructor]|]. constructor; [exact Hx|]. constructor; [exact U|constructor].
    + cbn [append_instr] in IH |- *. constructor; [exact Hx|exact IH].
Qed.
Definition no_x (op : instr) : Prop := ends_with_X (iname op) = false.


(** Circuits without loops *)
Definition unlooped (c : circuit) : Prop := Forall (fun x => match x with I _ => True | Rep _ _ => False end) c.
Lemma unlooped_I c : unlooped c -> c = map I (flatten c).
Proof. induction 1 as [|x c H _ IH]; [reflexivity|]. destruct x as [i|]; [|destruct H]. cbn [flatten flat_map flatten_item app map]. f_equal. exact IH. Qed.
Lemma unlooped_append c name ts args : unlooped c -> unlooped (append_operation c name ts args).
Proof.
  intros H. unfold append_operation. induction H as [|x c Hx H IH].
  - constructor; [exact Logic.I|constructor].
  - destruct x as [j|]; [|destruct Hx]. destruct c as [|y c].
    + cbn [append_instr]. destruct (_ && _ && _) eqn:B; repeat constructor.
    + cbn [append_instr] in IH |- *. constructor; [exact Logic.I|exact IH].
Qed.
Lemma unlooped_parity x y a p : unlooped (parity_measurement_with_correlated_measurement_noise x y a p).
Proof.
  unfold parity_measurement_with_correlated_measurement_noise. apply unlooped_append.
  assert (C : forall t c, unlooped c -> unlooped (couple t a c)) by (intros t c Hc; destruct t; cbn [couple]; try exact Hc; now apply unlooped_append).
  assert (F : forall es c, unlooped c -> unlooped (fold_left (fun c e => append_operation c "CORRELATED_ERROR" e [Mix p 5]) es c)) by (induction es as [|e es IH]; intros c Hc; [exact Hc|]; cbn [fold_left]; apply IH; now apply unlooped_append).
  apply F, C, C, unlooped_append. constructor.
Qed.
Lemma noisy_op_view nm op p a x y z : ideal_op op -> no_x op -> op_strength nm op = Ok p -> noisy_op nm op p a = Ok (x, y, z) ->
  hidden x /\ hidden z /\ y = map I (sub_any nm a op).
Proof.
  intros Hi Hx Es H. pose proof (proj1 (proj2 (op_noise_ok nm a op p x y z Hi Es H))) as Ey. destruct Hi as (Ec & _ & _). unfold noisy_op in H. unfold no_x in Hx.
  assert (Fn : flip_name (iname op) = "X_ERROR"%string) by (unfold flip_name; now rewrite Hx). rewrite Fn in H.
  assert (H0 : hidden []) by constructor. assert (U0 : unlooped []) by constructor.
  assert (HA : forall name ts args, unseen (mkI (canon name) [] []) = true -> hidden (append_operation [] name ts args)) by (intros; now apply hidden_append).
  assert (G : hidden x /\ hidden z /\ unlooped y); [|destruct G as (G1 & G2 & G3); split; [exact G1|]; split; [exact G2|]; rewrite <- Ey; now apply unlooped_I].
  destruct (Qlt_bool 0 p); [|injection H as <- <- <-; split; [auto|]; split; [auto|now apply unlooped_append]].
  destruct (in_names (iname op) ANY_CLIFFORD_1_OPS); [injection H as <- <- <-; split; [auto|]; split; [now apply HA|now apply unlooped_append]|].
  destruct (in_names (iname op) ANY_CLIFFORD_2_OPS); [injection H as <- <- <-; split; [auto|]; split; [now apply HA|now apply unlooped_append]|].
  destruct (in_names (iname op) RESET_OPS || in_names (iname op) MEASURE_OPS).
  { injection H as <- <- <-. split; [|split; [|now apply unlooped_append]]; match goal with |- hidden (if ?b then _ else _) => destruct b end; auto. }
  destruct (iname op =? "MPP")%string eqn:M; [|discriminate].
  destruct (triples (itargets op)) as [tri|]; [|discriminate].
  destruct (assert_ _); [|discriminate]. cbn [bind] in H. destruct (assert_ _); [|discriminate]. cbn [bind] in H.
  destruct (use_correlated nm); injection H as <- <- <-.
  - split; [auto|]. split; [auto|]. clear. induction tri as [|[[t u] v] tri IH]; [constructor|]. cbn [flat_map]. apply Forall_app. split; [apply unlooped_parity|exact IH].
  - split; [now apply HA|]. split; [auto|]. now apply unlooped_append.
Qed.

(** The circuit with every gate replaced as in the noisy circuit, without noise channels *)
Fixpoint spread_item (nm : noise_model) (a : nat) (x : item) : circuit :=
  match x with I op => map I (sub_any nm a op) | Rep k b => [Rep k (flat_map (spread_item nm a) b)] end.
Definition spread (nm : noise_model) (a : nat) (c : circuit) : circuit := flat_map (spread_item nm a) c.
Definition inv nm a lv (done : circuit) (st : nstate) : Prop := hidden (n_pre st) /\ hidden (n_post st) /\ view lv (n_result st ++ n_mid st) = view lv (spread nm a done).
Lemma flush_view nm a qubits lv done st : inv nm a lv done st -> inv nm a lv done (flush nm qubits st) /\ n_mid (flush nm qubits st) = [].
Proof.
  intros (H1 & H2 & H3). unfold flush. destruct (n_mid st) as [|x m] eqn:E; cbn [nonempty].
  - split; [|exact E]. split; [exact H1|]. split; [exact H2|]. now rewrite E.
  - split; [|reflexivity]. split; [constructor|]. split; [constructor|]. cbn [n_result n_mid]. rewrite app_nil_r, !view_app, (view_hidden lv (n_pre st) H1). cbn [app].
    rewrite view_app in H3. rewrite <- H3. rewrite app_assoc. match goal with |- _ ++ view lv ?p = _ => assert (P : hidden p) end.
    { repeat first [exact H2 | match goal with |- hidden (if ?b then _ else _) => destruct b end | apply hidden_append; [|reflexivity]]. }
    now rewrite (view_hidden lv _ P), app_nil_r.
Qed.
Lemma view_rep lv k c : view lv [Rep k c] = concat (repeat (view (lv - 1) c) (Z.to_nat (if lv <=? 0 then k else 1))).
Proof. unfold view at 1. cbn [flat_map iter_item]. rewrite app_nil_r, seen_repeat. reflexivity. Qed.
Lemma spread_app nm a x y : spread nm a (x ++ y) = spread nm a x ++ spread nm a y.
Proof. apply flat_map_app. Qed.
Lemma spread_one nm a x : spread nm a [x] = spread_item nm a x.
Proof. unfold spread. cbn [flat_map]. apply app_nil_r. Qed.
Lemma sub_other nm a op : iname op <> "MPP"%string -> sub_any nm a op = [op].
Proof. intros H. unfold sub_any. rewrite (proj2 (String.eqb_neq _ _) H). now destruct (op_strength nm op). Qed.
Lemma noisy_list_view nm a b qubits lv l : (forall op, sub_any nm b op = sub_any nm a op) -> (forall op, In op (instrs l) -> ideal_op op /\ no_x op) -> all_loops_twice l ->
  (forall x c, In x l -> noisy_body nm qubits x = Ok c -> match x with I _ => True | Rep k b => forall lv, view lv c = view lv (spread nm a b) end) ->
  forall done st st', inv nm a lv done st -> noisy_list nm b qubits l st = Ok st' -> inv nm a lv (done ++ l) st'.
Proof.
  intros Hc. induction l as [|x l IH]; intros Hi Hl Hx done st st' Hs H; cbn [noisy_list] in H.
  { injection H as <-. now rewrite app_nil_r. }
  destruct Hl as [L1 L2].
  assert (Hi' : forall op, In op (instrs l) -> ideal_op op /\ no_x op) by (intros op K; apply Hi; unfold instrs; cbn [flat_map]; apply in_or_app; now right).
  specialize (IH Hi' L2 (fun y c Hy => Hx y c (or_intror Hy))).
  replace (done ++ x :: l) with ((done ++ [x]) ++ l) by (now rewrite <- app_assoc).
  destruct x as [op|k body].
  - destruct (noisy_instr nm b qubits op st) as [s1|] eqn:E; [|discriminate]. cbn [bind] in H. refine (IH _ s1 st' _ H).
    destruct (Hi op (or_introl eq_refl)) as ((Ec & Ep & En) & Hnx). unfold noisy_instr in E. destruct (String.eqb_spec (iname op) "TICK") as [T|T].
    + destruct (flush_view nm a qubits lv done st Hs) as [(F1 & F2 & F3) F4]. rewrite append_tick in E. injection E as <-. split; [exact F1|]. split; [exact F2|]. cbn [n_result n_mid].
      rewrite F4, app_nil_r in F3 |- *. rewrite spread_app, !view_app, F3, spread_one. cbn [spread_item]. rewrite sub_other by (rewrite T; discriminate). rewrite (Ep T). reflexivity.
    + destruct (op_strength nm op) as [p|] eqn:S; [|discriminate]. cbn [bind] in E. destruct (noisy_op nm op p b) as [[[x y] z]|] eqn:No; [|discriminate]. cbn [bind] in E. injection E as <-.
      destruct (noisy_op_view nm op p b x y z (conj Ec (conj Ep En)) Hnx S No) as (V1 & V2 & V3). destruct Hs as (S1 & S2 & S3).
      split; [apply Forall_app; auto|]. split; [apply Forall_app; auto|]. cbn [n_result n_mid]. rewrite app_assoc, (view_app lv _ y), S3, V3, spread_app, (view_app lv (spread nm a done)), spread_one. cbn [spread_item]. now rewrite Hc.
  - destruct (noisy_body nm qubits (Rep k body)) as [c|] eqn:E; [|discriminate]. cbn [bind] in H. refine (IH _ _ st' _ H).
    destruct (flush_view nm a qubits lv done st Hs) as [(F1 & F2 & F3) F4]. split; [exact F1|]. split; [exact F2|]. cbn [n_result n_mid].
    pose proof (Hx _ c (or_introl eq_refl) E) as Hb. cbn beta iota in Hb. destruct L1 as [L1 _].
    assert (M : circuit_mul c k = [Rep k c]) by (unfold circuit_mul; destruct (Z.eqb_spec k 0); [lia|]; destruct (Z.eqb_spec k 1); [lia|]; reflexivity).
    rewrite M. rewrite F4, app_nil_r in F3 |- *. rewrite spread_app, !view_app, F3, spread_one. cbn [spread_item]. rewrite !view_rep, Hb. reflexivity.
Qed.
Lemma noisy_body_view nm a qubits x : (forall b op, In b (map circuit_num_qubits (bodies_item x)) -> sub_any nm b op = sub_any nm a op) ->
  (forall op, In op (instrs_item x) -> ideal_op op /\ no_x op) -> match x with I _ => True | Rep k b => all_loops_twice b end ->
  forall c, noisy_body nm qubits x = Ok c -> match x with I _ => True | Rep k b => forall lv, view lv c = view lv (spread nm a b) end.
Proof.
  induction x as [i|k body IH] using item_ind'; intros Hc Hi Hl c H; [exact Logic.I|]. intros lv. rewrite noisy_body_eq in H.
  destruct (noisy_list nm _ qubits body ns_init) as [st|] eqn:E; [|discriminate]. cbn [bind] in H. injection H as <-.
  assert (G : forall x c, In x body -> noisy_body nm qubits x = Ok c -> match x with I _ => True | Rep k b => forall lv, view lv c = view lv (spread nm a b) end).
  { intros x c Hx Hcx. apply IH; auto.
    - intros b op Hb. apply Hc. cbn [bodies_item map]. right. apply in_map_iff in Hb as (y & <- & Hb). apply in_map. apply in_flat_map. eauto.
    - intros op Hop. apply Hi. cbn [instrs_item]. apply in_flat_map. eauto.
    - clear -Hl Hx. induction body as [|y l IH]; [destruct Hx|]. destruct Hl as [L1 L2]. destruct Hx as [->|Hx]; [destruct x; [exact Logic.I | exact (proj2 L1)] | exact (IH L2 Hx)]. }
  assert (I0 : inv nm a lv [] ns_init) by (split; [constructor|]; split; [constructor|reflexivity]).
  pose proof (noisy_list_view nm a _ qubits lv body (fun op => Hc _ op (or_introl eq_refl)) Hi Hl G [] ns_init st I0 E) as K.
  destruct (flush_view nm a qubits lv _ st K) as [(_ & _ & F3) F4]. rewrite F4, app_nil_r in F3. exact F3.
Qed.
Lemma fine_no_x lay i : fine lay i -> no_x i.
Proof.
  intros (H & _ & _). apply in_names_In in H. unfold style_names in H. apply in_app_or in H.
  assert (K : In (iname i) ["QUBIT_COORDS"; "TICK"; "DETECTOR"; "OBSERVABLE_INCLUDE"; "SHIFT_COORDS"; "R"; "M"; "H"; "H_YZ"; "C_ZYX"; "C_XYZ"; "CX"; "XCX"; "YCX"; "MPP"; "CZ"]%string)
    by (destruct H as [H|H]; [revert H; cbn [In]; tauto|]; revert H; repeat destruct (_ =? _)%string; try destruct (is_em3 _); cbn [In]; tauto).
  unfold no_x. destruct i as [name ts args]; cbn [iname] in *; clear -K; cbn [In] in K; decompose [or] K; try contradiction; subst name; reflexivity.
Qed.


(** What is seen of the generated circuit *)
Lemma generated_view lay a : valid lay -> supported_input lay -> (style lay = "EM3_v2"%string -> a = length (data_qubit_coords lay)) ->
  exists c nm c', generate_ideal_circuit lay = Ok c /\ layout_noise_model lay = Ok nm /\ generate_honeycomb_circuit lay = Ok c' /\ forall lv, view lv c' = view lv (spread nm a c).
Proof.
  intros Hv Hs Ha. destruct (generated lay Hv Hs) as (c & nm & c' & E & En & E2 & E3 & Fl & Fo & Hf). exists c, nm, c'. split; [exact E|]. split; [exact En|]. split; [exact E3|].
  refine (noisy_body_view nm a (seq 0 (circuit_num_qubits c)) (Rep 1 c) _ _ (folded_twice _ _ Fo) c' E2).
  - intros b op Hb. destruct (C29_strengths lay nm (mkI "" [] []) En) as (_ & _ & _ & K). destruct (use_correlated nm) eqn:U.
    + pose proof (proj1 K eq_refl) as Est. rewrite (Ha Est). f_equal. exact (proj1 (C32_honeycomb_ancilla_fresh lay c Hv Hs Est E) b Hb).
    + unfold sub_any. rewrite U. reflexivity.
  - intros op Ho. split; [apply (fine_ideal lay)|apply (fine_no_x lay)]; apply Hf, Ho.
Qed.
(** Without correlated noise, the gates are seen as they are. *)
Lemma seen_sub nm a op : use_correlated nm = false -> seen (sub_any nm a op) = seen [op].
Proof.
  intros U. unfold sub_any. rewrite U. destruct (op_strength nm op) as [p|]; [|reflexivity]. destruct (String.eqb_spec (iname op) "MPP") as [M|]; [|reflexivity]. destruct (Qlt_bool 0 p); [|reflexivity].
  cbn [andb]. destruct op as [name ts args]. cbn [iname itargets] in *. subst name. reflexivity.
Qed.
Lemma sub_single nm a op : use_correlated nm = false -> exists j, sub_any nm a op = [j] /\ iname j = iname op.
Proof.
  intros U. unfold sub_any. rewrite U. destruct (op_strength nm op) as [p|]; [|eauto]. destruct (_ && _); eauto.
Qed.
Lemma view_spread nm a : use_correlated nm = false -> forall c lv, view lv (spread nm a c) = view lv c.
Proof.
  intros U c. assert (K : forall x lv, view lv (spread_item nm a x) = view lv [x]).
  { induction x as [op|k body IH] using item_ind'; intros lv.
    - cbn [spread_item]. pose proof (seen_sub nm a op U) as Q. destruct (sub_single nm a op U) as (j & Ej & Nj). rewrite Ej in Q |- *. unfold view. cbn [map flat_map iter_item app]. rewrite Nj. destruct (_ || _); [exact Q|reflexivity].
    - cbn [spread_item]. rewrite !view_rep. do 2 f_equal. generalize (lv - 1). intros lv'. induction body as [|y body IHb]; [reflexivity|]. cbn [flat_map]. change (y :: body) with ([y] ++ body).
      rewrite !view_app, (IH y) by now left. f_equal. apply IHb. intros z Hz. apply IH. now right. }
  intros lv. unfold spread. induction c as [|y c IH]; [reflexivity|]. cbn [flat_map]. change (y :: c) with ([y] ++ c). now rewrite !view_app, K, IH.
Qed.
Lemma plot_view c block : plot_levels c block =
  let! s := foldM plot_op (view (if block then 1 else 0) c) plot_start in
  let '(levels, conns) := match cur_level s with [] => (done_levels s, done_links s) | _ => (done_levels s ++ [cur_level s], done_links s ++ [cur_links s]) end in
  Ok (map (fill_level (map snd (i2q s))) levels, conns).
Proof.
  unfold plot_levels. rewrite plot_seen. unfold iter_circuit. rewrite seen_repeat. change (Z.to_nat 1) with 1%nat. cbn [repeat concat]. rewrite app_nil_r. reflexivity.
Qed.
(** The picture of a generated circuit does not depend on the noise, except in the style
    EM3_v2 with a positive strength. *)
Theorem C65_noisy : forall lay, valid lay -> supported_input lay -> style lay <> "EM3_v2"%string \/ (noise lay == 0)%Q ->
  exists c c', generate_ideal_circuit lay = Ok c /\ generate_honeycomb_circuit lay = Ok c' /\
    forall block, plot_circuit c' block = plot_circuit c block.
Proof.
  intros lay Hv Hs [Hst|Hn]; [|destruct (C27_generated lay Hv Hs Hn) as (c & E1 & E2); exists c, c; auto].
  destruct (generated_view lay O Hv Hs ltac:(intros; contradiction)) as (c & nm & c' & E & En & E' & V). exists c, c'. split; [exact E|]. split; [exact E'|].
  assert (Hc : use_correlated nm = false).
  { destruct (C29_strengths lay nm (mkI "" [] []) En) as (_ & _ & _ & K). destruct (use_correlated nm); [|reflexivity]. now destruct Hst; apply K. }
  intros block. unfold plot_circuit. rewrite !plot_view, V, view_spread by exact Hc. reflexivity.
Qed.
Print Assumptions C65_noisy.
Example C65_noisy_example : let lay := mkLayout 2 6 12 "SI1000" "V" (1 # 1000) in valid lay /\ supported_input lay /\ style lay <> "EM3_v2"%string /\ ~ (noise lay == 0)%Q.
Proof. split; [repeat split; vm_compute; reflexivity|]. split; [split; [cbn; lia|]; split; [now left|cbn; tauto]|]. split; discriminate. Qed.

(** ** The style EM3_v2 with noise: the auxiliary qubit has no place in the picture *)
Lemma put_keeps s q c s' : put_symbol s q c = Ok s' -> i2q s' = i2q s.
Proof. exact (i2q_put s q c s'). Qed.
Lemma foldM_keeps {B} (f : plot_state -> B -> res plot_state) l : (forall s x s', f s x = Ok s' -> i2q s' = i2q s) -> forall s s', foldM f l s = Ok s' -> i2q s' = i2q s.
Proof.
  intros H. induction l as [|x l IH]; intros s s' E; cbn [foldM] in E; [now injection E as <-|]. destruct (f s x) as [s1|] eqn:F; [|discriminate]. cbn [bind] in E. rewrite (IH s1 s' E). exact (H _ _ _ F).
Qed.
Lemma pairs_keeps name : forall l s s', plot_pairs name s l = Ok s' -> i2q s' = i2q s.
Proof.
  assert (K : forall n l s s', (length l < n)%nat -> plot_pairs name s l = Ok s' -> i2q s' = i2q s).
  { induction n as [|n IH]; intros l s s' Hl E; [lia|]. destruct l as [|a [|b l]]; cbn [plot_pairs] in E.
    - now injection E as <-.
    - destruct (lookup_qubit s a); discriminate.
    - destruct (lookup_qubit s a) as [q1|]; [|discriminate]. cbn [bind] in E. destruct (lookup_qubit s b) as [q2|]; [|discriminate]. cbn [bind] in E.
      destruct (put_symbol s q1 _) as [s1|] eqn:P1; [|discriminate]. cbn [bind] in E. destruct (put_symbol s1 q2 _) as [s2|] eqn:P2; [|discriminate]. cbn [bind] in E.
      rewrite (IH l (add_link s2 q1 q2) s' ltac:(cbn [length] in Hl; lia) E). cbn [add_link i2q]. now rewrite (i2q_put _ _ _ _ P2), (i2q_put _ _ _ _ P1). }
  intros l s s'. apply (K (S (length l))). lia.
Qed.
Lemma factor_keeps s t s' : plot_factor s t = Ok s' -> i2q s' = i2q s.
Proof.
  unfold plot_factor. destruct (value_of t) as [v|]; [|discriminate]. cbn [bind]. destruct (lookup_qubit s v) as [q|]; [|discriminate]. cbn [bind].
  destruct t as [n|n|P n|]; try (destruct P; apply i2q_put); destruct (assert_ _); discriminate.
Qed.
Lemma group_keeps s g s' : plot_group s g = Ok s' -> i2q s' = i2q s.
Proof.
  unfold plot_group. destruct (assert_ _); [|discriminate]. cbn [bind]. destruct (foldM plot_factor g s) as [s1|] eqn:F; [|discriminate]. cbn [bind]. pose proof (foldM_keeps _ g factor_keeps s s1 F) as K.
  destruct g as [|x [|y [|z g]]]; try (intros [= <-]; exact K). destruct (value_of x); [|discriminate]. cbn [bind]. destruct (value_of y); [|discriminate]. cbn [bind].
  destruct (lookup_qubit s1 _); [|discriminate]. cbn [bind]. destruct (lookup_qubit s1 _); [|discriminate]. cbn [bind]. intros [= <-]. exact K.
Qed.
Lemma declare_keys args l : forall s s', foldM (declare_qubit args) l s = Ok s' -> forall q, In q (map fst (i2q s')) -> In q (map fst (i2q s)) \/ In q (tqubits l).
Proof.
  induction l as [|t l IH]; intros s s' E q Hq; cbn [foldM] in E; [injection E as <-; now left|]. destruct (declare_qubit args s t) as [s1|] eqn:D; [|discriminate]. cbn [bind] in E.
  destruct (IH s1 s' E q Hq) as [K|K]; [|right; unfold tqubits; cbn [flat_map]; apply in_or_app; now right].
  unfold declare_qubit in D. destruct (value_of t) as [v|] eqn:Vt; [|discriminate]. cbn [bind] in D. destruct (coords_of args); [|discriminate]. cbn [bind] in D. destruct (assert_ _); [|discriminate]. cbn [bind] in D. destruct (assert_ _); [|discriminate]. cbn [bind] in D.
  injection D as <-. cbn [i2q] in K. rewrite map_app in K. apply in_app_or in K as [K|[<-|[]]]; [now left|]. right. unfold tqubits. cbn [flat_map fst]. apply in_or_app. left. destruct t; try discriminate Vt; injection Vt as ->; now left.
Qed.
Lemma plot_keys s i s' : plot_op s i = Ok s' -> forall q, In q (map fst (i2q s')) -> In q (map fst (i2q s)) \/ In q (tqubits (itargets i)).
Proof.
  unfold plot_op. cbv zeta. destruct (_ =? "QUBIT_COORDS")%string; [apply declare_keys|]. intros E q Hq. left. replace (i2q s) with (i2q s'); [exact Hq|]. clear Hq. revert E.
  destruct (in_names (iname i) ["M"; "R"; "H"; "H_YZ"; "C_XYZ"; "C_ZYX"; "MR"; "MY"; "MX"]%string).
  { apply foldM_keeps. intros s0 t s1. unfold plot_1. destruct (value_of t) as [v|]; [|discriminate]. cbn [bind]. destruct (lookup_qubit s0 v); [|discriminate]. cbn [bind]. apply i2q_put. }
  destruct (in_names (iname i) ANY_CLIFFORD_2_OPS); [destruct (mapM value_of _); [|discriminate]; cbn [bind]; apply pairs_keeps|].
  destruct (_ =? "TICK")%string; [intros [= <-]; reflexivity|]. destruct (in_names _ _); [intros [= <-]; reflexivity|]. destruct (in_names _ _); [intros [= <-]; reflexivity|].
  destruct (_ =? "MPP")%string; [|discriminate]. destruct (mpp_groups _); [|discriminate]. cbn [bind]. apply foldM_keeps. exact group_keeps.
Qed.
Lemma run_keys l : forall s s', foldM plot_op l s = Ok s' -> forall q, In q (map fst (i2q s')) -> In q (map fst (i2q s)) \/ exists i, In i l /\ In q (tqubits (itargets i)).
Proof.
  induction l as [|i l IH]; intros s s' E q Hq; cbn [foldM] in E; [injection E as <-; now left|]. destruct (plot_op s i) as [s1|] eqn:F; [|discriminate]. cbn [bind] in E.
  destruct (IH s1 s' E q Hq) as [K|(j & Hj & K)]; [|right; exists j; split; [now right|exact K]]. destruct (plot_keys s i s1 F q K) as [K'|K']; [now left|]. right. exists i. split; [now left|exact K'].
Qed.
Lemma foldM_app {A B} (f : A -> B -> res A) l l' : forall a, foldM f (l ++ l') a = let! a := foldM f l a in foldM f l' a.
Proof. induction l as [|x l IH]; intros a; [reflexivity|]. cbn [app foldM]. destruct (f a x); [cbn [bind]; apply IH|reflexivity]. Qed.

(** A fresh qubit is met right after instructions that can be drawn. *)
Lemma plot_fresh l rest a s : foldM plot_op l plot_start = Ok s -> (forall i, In i l -> ~ In a (tqubits (itargets i))) ->
  foldM plot_op (l ++ mkI "R" [TQ a] [] :: rest) plot_start = Err KeyError.
Proof.
  intros E H. rewrite foldM_app, E. cbn [bind foldM]. assert (N : ~ In a (map fst (i2q s))) by (intros K; destruct (run_keys l plot_start s E a K) as [[]|(i & Hi & Ha)]; exact (H i Hi Ha)).
  replace (plot_op s (mkI "R" [TQ a] [])) with (@Err plot_state KeyError); [reflexivity|]. unfold plot_op. cbn [iname itargets foldM]. cbn [in_names existsb String.eqb Ascii.eqb Bool.eqb orb].
  unfold plot_1. cbn [value_of bind]. now rewrite (lookup_bad s a N).
Qed.
Lemma append_head j l name ts args : canon name <> iname j -> exists l', append_operation (I j :: l) name ts args = I j :: l'.
Proof.
  intros H. unfold append_operation. destruct l as [|y l]; [|cbn [append_instr]; eauto]. cbn [append_instr iname]. rewrite (proj2 (String.eqb_neq _ _) H). rewrite andb_false_r. cbn [andb]. eauto.
Qed.
Lemma parity_head x y a p : exists l, parity_measurement_with_correlated_measurement_noise x y a p = I (mkI "R" [TQ a] []) :: l.
Proof.
  unfold parity_measurement_with_correlated_measurement_noise. set (r := mkI "R" [TQ a] []).
  assert (C : forall t l, exists l', couple t a (I r :: l) = I r :: l').
  { intros t l. destruct t as [|?|P q|]; cbn [couple]; eauto. apply append_head. now destruct P. }
  assert (F : forall es l, exists l', fold_left (fun c e => append_operation c "CORRELATED_ERROR" e [Mix p 5]) es (I r :: l) = I r :: l').
  { induction es as [|er es IH]; intros l; [now exists l|]. cbn [fold_left]. destruct (append_head r l "CORRELATED_ERROR" er [Mix p 5] ltac:(discriminate)) as (l' & ->). apply IH. }
  change (append_operation [] "R" (qs [a]) []) with [I r]. destruct (C x []) as (l1 & ->). destruct (C y l1) as (l2 & ->). destruct (F (correlated_errors (target_value x) (target_value y) a) l2) as (l3 & ->). apply append_head. discriminate.
Qed.

(** No qubit is given a place by the replacement. *)
Definition placeless (c : circuit) : Prop := Forall (fun x => match x with I i => is_coords i = false | Rep _ _ => False end) c.
Lemma placeless_append c name ts args : placeless c -> is_coords (mkI (canon name) [] []) = false -> placeless (append_operation c name ts args).
Proof.
  intros H U. unfold append_operation. induction H as [|x c Hx H IH].
  - constructor; [exact U|constructor].
  - destruct x as [j|]; [|destruct Hx]. destruct c as [|y c].
    + cbn [append_instr]. destruct (_ && _ && _) eqn:B; [constructor; [exact Hx|constructor]|]. constructor; [exact Hx|]. constructor; [exact U|constructor].
    + cbn [append_instr] in IH |- *. constructor; [exact Hx|exact IH].
Qed.
Lemma placeless_parity x y a p : placeless (parity_measurement_with_correlated_measurement_noise x y a p).
Proof.
  unfold parity_measurement_with_correlated_measurement_noise. apply placeless_append; [|reflexivity].
  assert (C : forall t c, placeless c -> placeless (couple t a c)) by (intros t c Hc; destruct t as [|?|P q|]; cbn [couple]; try exact Hc; apply placeless_append; [exact Hc|now destruct P]).
  assert (F : forall es c, placeless c -> placeless (fold_left (fun c e => append_operation c "CORRELATED_ERROR" e [Mix p 5]) es c)) by (induction es as [|e es IH]; intros c Hc; [exact Hc|]; cbn [fold_left]; apply IH; now apply placeless_append).
  apply F, C, C, placeless_append; [constructor|reflexivity].
Qed.
Lemma placeless_flat c : placeless c -> Forall (fun i => is_coords i = false) (flatten c).
Proof. induction 1 as [|x c H _ IH]; [constructor|]. destruct x as [i|]; [|destruct H]. cbn. constructor; [exact H|exact IH]. Qed.
Lemma sub_placeless nm a op : is_coords op = false -> Forall (fun i => is_coords i = false) (sub_any nm a op).
Proof.
  intros H. unfold sub_any. destruct (op_strength nm op) as [p|]; [|now constructor]. destruct (_ && _); [|now constructor]. destruct (use_correlated nm); [|constructor; [exact H|constructor]].
  destruct (triples (itargets op)) as [tri|]; [|now constructor]. apply placeless_flat. clear. induction tri as [|[[t u] v] tri IH]; [constructor|]. cbn [flat_map]. apply Forall_app. split; [apply placeless_parity|exact IH].
Qed.
Lemma iter_map lv l : flat_map (iter_item lv) (map I l) = if lv <=? 0 then l else filter is_coords l.
Proof.
  induction l as [|i l IH]; [now destruct (lv <=? 0)|]. cbn [map flat_map iter_item filter]. rewrite IH. unfold is_coords. destruct (lv <=? 0); [reflexivity|]. cbn [orb]. now destruct (_ =? _)%string.
Qed.
Lemma iter_spread nm a c : forall lv, flat_map (iter_item lv) (spread nm a c) = flat_map (sub_any nm a) (flat_map (iter_item lv) c).
Proof.
  assert (K : forall x lv, flat_map (iter_item lv) (spread_item nm a x) = flat_map (sub_any nm a) (iter_item lv x)).
  { induction x as [op|k body IH] using item_ind'; intros lv.
    - cbn [spread_item iter_item]. rewrite iter_map. destruct (lv <=? 0) eqn:L; cbn [orb]; [cbn [flat_map]; now rewrite app_nil_r|]. destruct (String.eqb_spec (iname op) "QUBIT_COORDS") as [E|E].
      + cbn [flat_map]. rewrite app_nil_r. rewrite sub_other by (rewrite E; discriminate). cbn [filter]. unfold is_coords. now rewrite E.
      + cbn [flat_map]. apply filter_none, sub_placeless. unfold is_coords. now apply String.eqb_neq.
    - cbn [spread_item flat_map iter_item]. rewrite app_nil_r.
      rewrite (concat_repeat_map (flat_map (sub_any nm a))) by (try reflexivity; intros; apply flat_map_app). do 2 f_equal. generalize (lv - 1). intros lv'.
      induction body as [|y body IHb]; [reflexivity|]. cbn [flat_map]. rewrite !flat_map_app, (IH y) by now left. f_equal. apply IHb. intros z Hz. apply IH. now right. }
  intros lv. unfold spread. induction c as [|y c IH]; [reflexivity|]. cbn [flat_map]. now rewrite !flat_map_app, K, IH.
Qed.
Lemma foldM_prefix {A B} (f : A -> B -> res A) l l' a b : foldM f (l ++ l') a = Ok b -> exists x, foldM f l a = Ok x.
Proof. rewrite foldM_app. destruct (foldM f l a); [eauto|discriminate]. Qed.
Lemma plot_fold c (block : bool) s : plot_circuit c block = Ok s -> exists x, foldM plot_op (iter_circuit c 1 (if block then 1 else 0)) plot_start = Ok x.
Proof. unfold plot_circuit, plot_levels. destruct (foldM _ _ _); [eauto|discriminate]. Qed.
Lemma plot_error c (block : bool) e : foldM plot_op (view (if block then 1 else 0) c) plot_start = Err e -> plot_circuit c block = Err e.
Proof. intros H. unfold plot_circuit. rewrite plot_view, H. reflexivity. Qed.
Lemma sub_same nm a l : (forall i, In i l -> iname i <> "MPP"%string) -> flat_map (sub_any nm a) l = l.
Proof. induction l as [|i l IH]; intros H; [reflexivity|]. cbn [flat_map]. rewrite sub_other by (apply H; now left). cbn [app]. f_equal. apply IH. intros; apply H; now right. Qed.
Lemma sub_mpp lay nm a k : valid lay -> layout_noise_model lay = Ok nm -> style lay = "EM3_v2"%string -> (0 < noise lay)%Q ->
  exists l, sub_any nm a (mkI "MPP" (mpp_targets lay k) []) = mkI "R" [TQ a] [] :: l.
Proof.
  intros Hv En Est Hn. destruct (C29_strengths lay nm (mkI "MPP" (mpp_targets lay k) []) En) as (S & _ & _ & U). unfold sub_any. rewrite S. cbn [iname itargets]. rewrite Est. change (strength "EM3_v2" (noise lay) "MPP") with (Some (noise lay)). rewrite (proj2 U Est).
  assert (P : Qlt_bool 0 (noise lay) = true) by (unfold Qlt_bool; apply negb_true_iff; destruct (Qle_bool (noise lay) 0) eqn:Q; [apply Qle_bool_iff in Q; exfalso; exact (Qlt_not_le _ _ Hn Q)|reflexivity]).
  rewrite P. cbn [String.eqb Ascii.eqb Bool.eqb andb]. destruct (edge_some lay k Hv) as (e & He). unfold mpp_targets. destruct (round_edges lay k) as [|e' es]; [destruct He|].
  cbn [flat_map app triples]. destruct (triples _) as [tri|] eqn:T.
  - cbn [option_map flat_map]. destruct (parity_head (TP (xyz k) (ix lay (e_left e'))) (TP (xyz k) (ix lay (e_right e'))) a (noise lay)) as (l & ->). rewrite flatten_app. cbn [flatten flat_map flatten_item app]. eauto.
  - exfalso. clear - T. revert T. induction es as [|x es IH]; [discriminate|]. cbn [flat_map app triples]. destruct (triples _); [discriminate|auto].
Qed.

Theorem C65_noisy_ancilla : forall lay, valid lay -> supported_input lay -> style lay = "EM3_v2"%string -> (0 < noise lay)%Q ->
  exists c c', generate_ideal_circuit lay = Ok c /\ generate_honeycomb_circuit lay = Ok c' /\
    plot_circuit c' false = Err KeyError /\
    plot_circuit c' true = Err (if existsb (fun x => match x with Rep _ _ => true | I _ => false end) c then KeyError else ValueError).
Proof.
  intros lay Hv Hs Est Hn. set (a := length (data_qubit_coords lay)). destruct (generated_view lay a Hv Hs (fun _ => eq_refl)) as (c & nm & c' & E & En & E' & V). exists c, c'. split; [exact E|]. split; [exact E'|].
  destruct (generated lay Hv Hs) as (c1 & nm1 & c2 & E1 & _ & _ & _ & Fl & Fo & _). rewrite E in E1. injection E1 as <-.
  destruct (C32_honeycomb_ancilla_fresh lay c Hv Hs Est E) as [_ M].
  assert (Low : forall i, In i (flatten c) -> ~ In a (tqubits (itargets i))).
  { intros i Hi Ha. assert (a < a)%nat; [apply M; exists i; split; [exact (flatten_instrs c i Hi)|exact Ha]|lia]. }
  assert (Main : forall (block : bool) pre k rest, iter_circuit c 1 (if block then 1 else 0) = pre ++ mkI "MPP" (mpp_targets lay k) [] :: rest ->
     incl pre (flatten c) -> (forall i, In i pre -> iname i <> "MPP"%string) -> (exists s, plot_circuit c block = Ok s) -> plot_circuit c' block = Err KeyError).
  { intros block pre k rest Ei Hp Hm (s & Hpl). apply plot_error. rewrite V. unfold view. rewrite iter_spread.
    assert (Ei' : flat_map (iter_item (if block then 1 else 0)) c = pre ++ mkI "MPP" (mpp_targets lay k) [] :: rest).
    { rewrite <- Ei. unfold iter_circuit. change (Z.to_nat 1) with 1%nat. cbn [repeat concat]. now rewrite app_nil_r. }
    rewrite Ei', flat_map_app, (sub_same nm a pre Hm). cbn [flat_map]. destruct (sub_mpp lay nm a k Hv En Est Hn) as (l & ->). rewrite <- plot_seen. cbn [app].
    destruct (plot_fold c block s Hpl) as (x & X). rewrite Ei in X. destruct (foldM_prefix _ _ _ _ _ X) as (y & Y). exact (plot_fresh pre _ a y Y (fun i Hi => Low i (Hp i Hi))). }
  assert (Cn : forall i, In i (coords_i lay) -> iname i <> "MPP"%string) by (intros i Hi; apply in_map_iff in Hi as (q & <- & _); discriminate).
  split.
  - destruct (C65_picture lay c Hv Hs E) as (_ & _ & s & Hpl & _).
    assert (Eb : exists r, body_i lay = mkI "MPP" (mpp_targets lay 0) [] :: r).
    { unfold body_i. rewrite Est. cbn [String.eqb Ascii.eqb Bool.eqb is_em3 orb]. unfold em3_body. destruct (sup_sup lay Hs) as (Hr & _). replace (Z.to_nat (sub_rounds lay)) with (S (Z.to_nat (sub_rounds lay - 1))) by lia. cbn [seq flat_map]. unfold em3_i. cbn [app]. eauto. }
    destruct Eb as (r & Eb). apply (Main false (coords_i lay ++ init_i lay) 0 (r ++ fin lay (trk lay (tr0 lay) (Z.to_nat (sub_rounds lay))))).
    + rewrite C56_iterates, Fl by lia. unfold circuit_i. rewrite Eb, <- !app_assoc. reflexivity.
    + rewrite Fl. unfold circuit_i. intros i Hi. rewrite app_assoc. apply in_or_app. now left.
    + intros i Hi. apply in_app_or in Hi as [Hi|Hi]; [exact (Cn i Hi)|]. revert Hi. unfold init_i, hdata. destruct (init_basis lay); cbn [pauli_eqb app In]; intros Hi; decompose [or] Hi; try contradiction; subst; discriminate.
    + eauto.
  - destruct (C65_block lay c Hv Hs E) as [B1 B2]. destruct (existsb _ c) eqn:X.
    + apply existsb_exists in X as ([i|k body] & Hin & X); [discriminate|]. destruct (B1 k body Hin) as (Ei & _ & _ & _ & s & Hpl).
      destruct (folded_bodies _ c body Fo) as (j & l & -> & Hb); [apply in_flat_map; exists (Rep k body); split; [exact Hin|now left]|].
      assert (Eu : unit_i lay = em3_i lay) by (unfold unit_i; rewrite Est; reflexivity).
      rewrite flatten_I, Eu in Ei. unfold em3_i in Ei. cbn [app] in Ei.
      refine (Main true (filter is_coords (flatten c)) (Z.of_nat j) _ Ei _ _ _).
      * intros i Hi. now apply filter_In in Hi as [Hi _].
      * intros i Hi. apply filter_In in Hi as [_ Hi]. apply String.eqb_eq in Hi. rewrite Hi. discriminate.
      * eauto.
    + rewrite <- B2 by (intros k body Hin; assert (Y : existsb (fun x => match x with Rep _ _ => true | I _ => false end) c = true) by (apply existsb_exists; eexists; split; [exact Hin|reflexivity]); congruence).
      unfold plot_circuit. rewrite !plot_view, V. do 2 f_equal. unfold view. rewrite iter_spread. rewrite sub_same; [reflexivity|].
      intros i Hi. apply in_flat_map in Hi as ([op|k body] & Hc & Hi).
      * cbn in Hi. destruct (String.eqb_spec (iname op) "QUBIT_COORDS") as [Q|Q]; [|destruct Hi]. destruct Hi as [<-|[]]. rewrite Q. discriminate.
      * exfalso. assert (Y : existsb (fun x => match x with Rep _ _ => true | I _ => false end) c = true) by (apply existsb_exists; eexists; split; [exact Hc|reflexivity]); congruence.
Qed.
Print Assumptions C65_noisy_ancilla.
(** Both cases of the second picture occur: 13 sub-rounds give a loop, 3 do not. *)
Example C65_noisy_ancilla_example : forall n, n = 3 \/ n = 13 -> let lay := mkLayout 2 6 n "EM3_v2" "H" (1 # 1000) in valid lay /\ supported_input lay /\ (0 < noise lay)%Q /\
  exists c, generate_ideal_circuit lay = Ok c /\ existsb (fun x => match x with Rep _ _ => true | I _ => false end) c = (n =? 13).
Proof.
  intros n Hn lay. assert (V : valid lay) by (repeat split; vm_compute; reflexivity). assert (Su : supported_input lay) by (split; [cbn; lia|]; split; [now right|cbn; tauto]).
  split; [exact V|]. split; [exact Su|]. split; [reflexivity|]. destruct (C16_accepts_exactly_supported lay V ltac:(cbn; lia)) as [(_ & c & E)|(K & _)]; [|contradiction]. exists c. split; [exact E|].
  assert (L : match generate_ideal_circuit lay with Ok c => existsb (fun x => match x with Rep _ _ => true | I _ => false end) c | _ => false end = (n =? 13)) by (destruct Hn; subst n; vm_compute; reflexivity).
  now rewrite E in L.
Qed.
