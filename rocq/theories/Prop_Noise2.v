(** Properties of noisy_circuit (src/noise.py) and of the complete generator. *)
From Coq Require Import QArith.
From Verif Require Import Prelude Layout LayoutFacts Prop_Layout Tracker Stim Circuit Noise Gen Gen3 Moments Prop_Circuit NoiseFacts NoiseMoments GenShape NoiseAlign Prop_Noise.
Open Scope Z_scope.

(** ** C29, continued: which circuits are accepted *)
(** MPP instructions made of two-target products, without a flip probability *)
Definition pair_products (op : instr) : Prop :=
  iname op = "MPP"%string -> (iargs op = [] \/ iargs op = [Num 0]) /\ exists l : list (target * target),
    itargets op = flat_map (fun '(a, b) => [a; TComb; b]) l.

Lemma one_of_In g l : one_of g l = true <-> In g l.
Proof. exact (in_names_In g l). Qed.
Lemma strength_known m p g q : strength m p g = Some q -> annotation g = true /\ q = 0%Q \/ In g (["R"; "M"; "MPP"]%string ++ clifford1 ++ clifford2).
Proof.
  unfold strength. destruct (annotation g) eqn:A; [intros [= <-]; auto|]. intros H. right.
  repeat match type of H with context [if (m =? ?s)%string then _ else _] => destruct (m =? s)%string end;
  repeat match type of H with context [one_of g ?l] => let F := fresh in destruct (one_of g l) eqn:F; [apply one_of_In in F; clear H; revert F; unfold clifford1, clifford2; cbn [app In]; tauto|] end;
  discriminate.
Qed.
Lemma triples_pairs (l : list (target * target)) : triples (flat_map (fun '(a, b) => [a; TComb; b]) l) = Some (map (fun '(a, b) => (a, TComb, b)) l).
Proof. induction l as [|[a b] l IH]; [reflexivity|]. cbn [flat_map app triples map]. now rewrite IH. Qed.
Lemma op_ok_supported lay nm op q : layout_noise_model lay = Ok nm -> strength (style lay) (noise lay) (iname op) = Some q -> pair_products op -> op_ok nm op = Ok tt.
Proof.
  intros H Hq Hp. unfold op_ok. destruct (is_tick_name op); [reflexivity|].
  rewrite (proj1 (C29_strengths lay nm op H)), Hq. cbn [bind]. unfold noisy_op. destruct (Qlt_bool 0 q) eqn:F; [|reflexivity].
  destruct (strength_known _ _ _ _ Hq) as [[_ ->]|K]; [discriminate|].
  unfold pair_products in Hp. destruct op as [name ts args]. cbn [iname itargets iargs] in *.
  unfold clifford1, clifford2 in K. cbn [app In] in K. decompose [or] K; try contradiction; subst name; try reflexivity.
  destruct (Hp eq_refl) as (Ha & l & ->). rewrite triples_pairs. cbn [in_names existsb ANY_CLIFFORD_1_OPS ANY_CLIFFORD_2_OPS RESET_OPS MEASURE_OPS String.eqb Ascii.eqb Bool.eqb orb].
  replace (forallb (fun '(_, b, _) => is_combiner b) (map (fun '(a, b) => (a, TComb, b)) l)) with true
    by (clear; induction l as [|[a b] l IH]; [reflexivity|]; cbn [map forallb is_combiner andb]; exact IH).
  cbn [assert_ bind]. destruct Ha as [-> | ->]; cbn; destruct (use_correlated nm); reflexivity.
Qed.
Lemma first_err_all nm l : (forall op, In op l -> op_ok nm op = Ok tt) -> first_err nm l = Ok tt.
Proof. induction l as [|op l IH]; intros H; [reflexivity|]. cbn [first_err fold_right]. rewrite (H op (or_introl eq_refl)). cbn [bind]. apply IH. intros; apply H; now right. Qed.
Lemma first_err_one nm l op e : In op l -> op_ok nm op = Err e -> (forall o, In o l -> op_ok nm o = Ok tt \/ op_ok nm o = Err e) -> first_err nm l = Err e.
Proof.
  induction l as [|x l IH]; intros Hin He Ha; [destruct Hin|]. cbn [first_err fold_right]. destruct (Ha x (or_introl eq_refl)) as [E|E]; rewrite E; cbn [bind]; [|reflexivity].
  destruct Hin as [->|Hin]; [congruence|]. apply IH; auto. intros; apply Ha; now right.
Qed.

Theorem C29_supported_accepted : forall lay nm c, layout_noise_model lay = Ok nm ->
  (forall op, In op (instrs c) -> (exists q, strength (style lay) (noise lay) (iname op) = Some q) /\ pair_products op) ->
  exists c', noisy_circuit nm c = Ok c'.
Proof.
  intros lay nm c H Ha. pose proof (noisy_circuit_ok nm c) as K. rewrite first_err_all in K; [exact K|].
  intros op Hop. destruct (Ha op Hop) as ((q & Hq) & Hp). eapply op_ok_supported; eauto.
Qed.
Theorem C29_unsupported_rejected : forall lay nm c op, layout_noise_model lay = Ok nm ->
  (forall o, In o (instrs c) -> pair_products o) ->
  In op (instrs c) -> strength (style lay) (noise lay) (iname op) = None ->
  noisy_circuit nm c = Err NotImplementedError.
Proof.
  intros lay nm c op H Hp Hop Hs. pose proof (noisy_circuit_ok nm c) as K.
  assert (G : forall o, strength (style lay) (noise lay) (iname o) = None -> op_ok nm o = Err NotImplementedError).
  { intros o Ho. unfold op_ok, is_tick_name. destruct (String.eqb_spec (iname o) "TICK") as [E|_]; [rewrite E in Ho; discriminate|]. now rewrite (proj1 (C29_strengths lay nm o H)), Ho. }
  rewrite (first_err_one nm (instrs c) op NotImplementedError) in K; auto.
  intros o Ho. destruct (strength (style lay) (noise lay) (iname o)) eqn:E; [left; eapply op_ok_supported; eauto | right; auto].
Qed.
Print Assumptions C29_supported_accepted.
Print Assumptions C29_unsupported_rejected.
(** A circuit accepted by EM3 and rejected by SD6 *)
Definition mpp_circuit : circuit :=
  [I (mkI "R" [TQ 0%nat; TQ 1%nat] []); I (mkI "TICK" [] []);
   Rep 5 [I (mkI "MPP" [TP PX 0%nat; TComb; TP PX 1%nat] []); I (mkI "TICK" [] [])];
   I (mkI "M" [TQ 0%nat; TQ 1%nat; TQ 2%nat] [])].
Example C29_example : (exists c', noisy_circuit (NM_EM3_v1 (1 # 100)) mpp_circuit = Ok c') /\ noisy_circuit (NM_SD6 (1 # 100)) mpp_circuit = Err NotImplementedError.
Proof. vm_compute. split; eauto. Qed.

(** ** C26: noise only adds noise *)
(** Without the noise channels, the instructions executed are those of the input;
    pair measurements also get their flip probability. *)
Theorem C26_noise_only_adds_noise : forall lay nm c c', layout_noise_model lay = Ok nm -> style lay <> "EM3_v2"%string ->
  (forall op, In op (instrs c) -> ideal_op op) -> noisy_circuit nm c = Ok c' ->
  filter (fun i => negb (is_noise i)) (flatten c') =
  map (fun op => match strength (style lay) (noise lay) (iname op) with
                 | Some p => if (iname op =? "MPP")%string && negb (Qle_bool p 0) then mkI (iname op) (itargets op) [Num p] else op
                 | None => op end) (flatten c).
Proof.
  intros lay nm c c' H Hs Hi E. assert (Hc : use_correlated nm = false).
  { destruct (C29_strengths lay nm (mkI "" [] []) H) as (_ & _ & _ & K). destruct (use_correlated nm); [|reflexivity]. now destruct Hs; apply K. }
  etransitivity; [exact (noisy_gates_same nm c c' Hc Hi E)|]. apply map_ext. intros op. unfold with_flip.
  rewrite (proj1 (C29_strengths lay nm op H)). destruct (strength _ _ _); reflexivity.
Qed.
Print Assumptions C26_noise_only_adds_noise.
(** The same for any noise model without correlated parity errors. *)
Theorem C26_any_model : forall nm c c', use_correlated nm = false -> (forall op, In op (instrs c) -> ideal_op op) -> noisy_circuit nm c = Ok c' ->
  map bare (filter (fun i => negb (is_noise i)) (flatten c')) = map bare (flatten c).
Proof.
  intros nm c c' Hc Hi E. pose proof (noisy_gates_same nm c c' Hc Hi E) as K. unfold gates in K. rewrite K, map_map. apply map_ext. intros op.
  unfold with_flip, bare. destruct (op_strength nm op); [|reflexivity]. destruct (iname op =? "MPP")%string eqn:F; cbn [andb]; [|now rewrite F].
  destruct (Qlt_bool 0 _); cbn [iname itargets]; now rewrite F.
Qed.
Print Assumptions C26_any_model.
Example C26_example : exists c', noisy_circuit (NM_EM3_v1 (1 # 100)) mpp_circuit = Ok c' /\ (forall op, In op (instrs mpp_circuit) -> ideal_op op) /\
  length (flatten mpp_circuit) = 13%nat /\ length (flatten c') = 26%nat.
Proof.
  eexists. split; [vm_compute; reflexivity|]. split; [|split; vm_compute; reflexivity].
  intros op H. cbn in H. decompose [or] H; try contradiction; subst op; repeat split; vm_compute; intros; reflexivity || discriminate.
Qed.

(** ** C27: zero noise *)
(** every REPEAT block is executed at least twice (stim never stores blocks executed
    0 times; a block executed once is unrolled by stim's circuit multiplication) *)
Fixpoint loops_twice (x : item) : Prop :=
  match x with I _ => True | Rep k body => 2 <= k /\ fold_right (fun y P => loops_twice y /\ P) True body end.
Definition all_loops_twice (c : circuit) : Prop := fold_right (fun y P => loops_twice y /\ P) True c.
Definition silent (nm : noise_model) : Prop :=
  (forall op p, op_strength nm op = Ok p -> Qlt_bool 0 p = false) /\ Qlt_bool 0 (idle nm) = false /\ Qlt_bool 0 (measure_reset_idle nm) = false.
Lemma silent_flush nm qubits r m u w : silent nm -> exists u' w', flush nm qubits (mkNS r [] m [] u w) = mkNS (r ++ m) [] [] [] u' w'.
Proof.
  intros (_ & H1 & H2). unfold flush. cbn [n_mid n_pre n_post n_used n_mr n_result]. rewrite H1, H2, !andb_false_r. destruct m; cbn [nonempty].
  - exists u, w. now rewrite app_nil_r.
  - exists [], []. cbn [app]. now rewrite app_nil_r.
Qed.
Lemma silent_list nm a qubits l : silent nm -> (forall op, In op (instrs l) -> ideal_op op) ->
  (forall x c, In x l -> noisy_body nm qubits x = Ok c -> match x with I _ => True | Rep k b => c = b end) -> all_loops_twice l ->
  forall r m u w st, noisy_list nm a qubits l (mkNS r [] m [] u w) = Ok st -> exists r' m' u' w', st = mkNS r' [] m' [] u' w' /\ r' ++ m' = r ++ m ++ l.
Proof.
  intros Hn. induction l as [|x l IH]; intros Hi Hx Hl r m u w st H; cbn [noisy_list] in H.
  { injection H as <-. exists r, m, u, w. now rewrite app_nil_r. }
  destruct Hl as [L1 L2].
  assert (Hi' : forall op, In op (instrs l) -> ideal_op op) by (intros op K; apply Hi; unfold instrs; cbn [flat_map]; apply in_or_app; now right).
  specialize (IH Hi' (fun y c Hy => Hx y c (or_intror Hy)) L2).
  destruct x as [op|k body].
  - destruct (noisy_instr nm a qubits op _) as [s1|] eqn:E; [|discriminate]. cbn [bind] in H.
    destruct (Hi op (or_introl eq_refl)) as (Ec & Ep & _). unfold noisy_instr in E. destruct (String.eqb_spec (iname op) "TICK") as [T|T].
    + destruct (silent_flush nm qubits r m u w Hn) as (u' & w' & F). rewrite F in E. cbn [n_mid n_pre n_post n_used n_mr n_result] in E. rewrite append_tick in E.
      injection E as <-. destruct (IH _ _ _ _ _ H) as (r2 & m2 & u2 & w2 & Es & Er). exists r2, m2, u2, w2. split; [exact Es|]. rewrite Er, (Ep T). now rewrite <- !app_assoc.
    + destruct (op_strength nm op) as [p|] eqn:S; [|discriminate]. cbn [bind] in E. unfold noisy_op in E. rewrite (proj1 Hn op p S) in E. cbn [bind n_mid n_pre n_post n_used n_mr n_result app] in E.
      rewrite append_nil in E by exact Ec. injection E as <-. destruct (IH _ _ _ _ _ H) as (r2 & m2 & u2 & w2 & Es & Er). exists r2, m2, u2, w2. split; [exact Es|]. rewrite Er. now rewrite <- !app_assoc.
  - destruct (silent_flush nm qubits r m u w Hn) as (u' & w' & F). rewrite F in H. destruct (noisy_body nm qubits (Rep k body)) as [c|] eqn:E; [|discriminate].
    cbn [bind n_mid n_pre n_post n_used n_mr n_result] in H. rewrite (Hx _ c (or_introl eq_refl) E) in H. destruct L1 as [L1 _].
    assert (M : circuit_mul body k = [Rep k body]) by (unfold circuit_mul; destruct (Z.eqb_spec k 0); [lia|]; destruct (Z.eqb_spec k 1); [lia|]; reflexivity).
    rewrite M in H. destruct (IH _ _ _ _ _ H) as (r2 & m2 & u2 & w2 & Es & Er). exists r2, m2, u2, w2. split; [exact Es|]. rewrite Er. now rewrite <- !app_assoc.
Qed.
Lemma silent_body nm qubits x : silent nm -> (forall op, In op (instrs_item x) -> ideal_op op) -> match x with I _ => True | Rep k b => all_loops_twice b end ->
  forall c, noisy_body nm qubits x = Ok c -> match x with I _ => True | Rep k b => c = b end.
Proof.
  intros Hn. induction x as [i|k body IH] using item_ind'; intros Hi Hl c H; [exact Logic.I|]. rewrite noisy_body_eq in H.
  destruct (noisy_list nm _ qubits body ns_init) as [st|] eqn:E; [|discriminate]. cbn [bind] in H. injection H as <-.
  assert (G : forall x c, In x body -> noisy_body nm qubits x = Ok c -> match x with I _ => True | Rep k b => c = b end).
  { intros x c Hx Hc. apply IH; auto.
    - intros op Hop. apply Hi. cbn [instrs_item]. apply in_flat_map. eauto.
    - clear -Hl Hx. induction body as [|y l IH]; [destruct Hx|]. destruct Hl as [L1 L2]. destruct Hx as [->|Hx]; [destruct x; [exact Logic.I | exact (proj2 L1)] | exact (IH L2 Hx)]. }
  destruct (silent_list nm _ qubits body Hn Hi G Hl [] [] [] [] st E) as (r & m & u & w & -> & Er).
  destruct (silent_flush nm qubits r m u w Hn) as (u' & w' & ->). exact Er.
Qed.
Theorem C27_zero_noise : forall lay nm c c', layout_noise_model lay = Ok nm -> (noise lay == 0)%Q ->
  (forall op, In op (instrs c) -> ideal_op op) -> all_loops_twice c ->
  noisy_circuit nm c = Ok c' -> c' = c.
Proof.
  intros lay nm c c' H H0 Hi Hl E. apply (silent_body nm (seq 0 (circuit_num_qubits c)) (Rep 1 c)); auto.
  assert (Z : forall q, (q == 0)%Q -> Qlt_bool 0 q = false).
  { intros q Hq. unfold Qlt_bool. apply negb_false_iff. apply Qle_bool_iff. rewrite Hq. apply Qle_refl. }
  assert (D1 : (noise lay / (2 # 1) == 0)%Q) by (rewrite H0; reflexivity). assert (D2 : (noise lay / (10 # 1) == 0)%Q) by (rewrite H0; reflexivity).
  assert (D3 : ((2 # 1) * noise lay == 0)%Q) by (rewrite H0; reflexivity). assert (D4 : ((5 # 1) * noise lay == 0)%Q) by (rewrite H0; reflexivity).
  destruct (C29_strengths lay nm (mkI "" [] []) H) as (_ & Ei & Ew & _). split; [|split].
  - intros op p Hop. rewrite (proj1 (C29_strengths lay nm op H)) in Hop. destruct (strength _ _ _) as [q|] eqn:S; [|discriminate]. injection Hop as <-. apply Z.
    revert S. unfold strength. destruct (annotation _); [intros [= <-]; reflexivity|].
    repeat match goal with |- context [if ?b then _ else _] => destruct b end; intros S; try discriminate; injection S as <-; assumption || reflexivity.
  - rewrite Ei. apply Z. unfold idle_strength. destruct (_ =? _)%string; assumption.
  - rewrite Ew. apply Z. unfold wait_strength. destruct (_ =? _)%string; [assumption | reflexivity].
Qed.
Print Assumptions C27_zero_noise.
Example C27_example : noisy_circuit (NM_EM3_v2 0) mpp_circuit = Ok mpp_circuit /\ all_loops_twice mpp_circuit.
Proof. split; [vm_compute; reflexivity | cbn; lia]. Qed.

(** ** C28: every qubit gets its noise once per moment *)
(** the qubits an instruction acts on; the busy qubits of a moment; those measured or reset *)
Definition acts_on (op : instr) : list nat := if annotation (iname op) then [] else flat_map (fun t => match t with TQ q | TP _ q => [q] | _ => [] end) (itargets op).
Definition busy (m : list instr) : list nat := flat_map acts_on m.
Definition measured_or_reset (m : list instr) : list nat :=
  flat_map (fun op => if one_of (iname op) ["M"; "MX"; "MY"; "R"; "RX"; "RY"]%string then acts_on op else []) m.
(** a channel of strength p, absent unless p > 0 *)
Definition chan (name : string) (p : Q) : list (string * list num) := if Qle_bool p 0 then [] else [(name, [Num p])].
Definition wait_noise (p : Q) (m : list instr) (q : nat) : list (string * list num) :=
  if existsb (Nat.eqb q) (measured_or_reset m) then [] else match measured_or_reset m with [] => [] | _ => chan "DEPOLARIZE1" p end.
(** What the qubits below nq receive in moment m, given as the channels in [out]: *)
Definition receives (gate : instr -> res Q) (idle wait : Q) (nq : nat) (m out : list instr) : Prop :=
  NoDup (busy m) -> forall q, (q < nq)%nat ->
    (forall op, In op m -> In q (acts_on op) -> exists p, gate op = Ok p /\
       same_channels (channels q out) (chan (channel_of (iname op)) p ++ wait_noise wait m q)) /\
    (~ In q (busy m) -> same_channels (channels q out) (match busy m with [] => [] | _ => chan "DEPOLARIZE1" idle end ++ wait_noise wait m q)).

Lemma in_names_swap g a b : (forall x, In x a <-> In x b) -> in_names g a = in_names g b.
Proof. intros H. destruct (in_names g a) eqn:E, (in_names g b) eqn:F; auto; [apply in_names_In, H, in_names_In in E | apply in_names_In, H, in_names_In in F]; congruence. Qed.
Lemma tq_acts op : tq op = acts_on op.
Proof.
  unfold tq, acts_on, annotation. change (one_of (iname op)) with (in_names (iname op)).
  rewrite (in_names_swap (iname op) ANNOTATION_OPS ["TICK"; "DETECTOR"; "OBSERVABLE_INCLUDE"; "SHIFT_COORDS"; "QUBIT_COORDS"]%string) by (intros x; cbn [ANNOTATION_OPS In]; tauto). reflexivity.
Qed.
Lemma used_busy m : used m = busy m.
Proof. unfold used, busy. apply flat_map_ext. apply tq_acts. Qed.
Lemma mrd_meas m : mrd m = measured_or_reset m.
Proof.
  unfold mrd, measured_or_reset. apply flat_map_ext. intros op. rewrite <- tq_acts. unfold is_mr. change (one_of (iname op)) with (in_names (iname op)).
  replace (in_names (iname op) MEASURE_OPS || in_names (iname op) RESET_OPS) with (in_names (iname op) (MEASURE_OPS ++ RESET_OPS)) by (unfold in_names; apply existsb_app). reflexivity.
Qed.
Lemma moment_receives nm nq m out : moment_noise nm nq m out -> receives (op_strength nm) (idle nm) (measure_reset_idle nm) nq m out.
Proof.
  intros [_ H]. unfold receives. rewrite <- used_busy. intros Hd q Hq. destruct (H Hd q Hq) as [H1 H2].
  assert (C : forall name p, chan name p = if Qlt_bool 0 p then [(name, [Num p])] else []) by (intros; unfold chan, Qlt_bool; destruct (Qle_bool p 0); reflexivity).
  assert (W : wait_noise (measure_reset_idle nm) m q = mr_noise nm m q).
  { unfold wait_noise, mr_noise. rewrite <- mrd_meas, C. unfold memb. destruct (mrd m); [reflexivity|]. cbn [nonempty]. destruct (existsb _ _); reflexivity. }
  rewrite W. split.
  - intros op Hop Hqo. rewrite <- tq_acts in Hqo. destruct (H1 op Hop Hqo) as (p & Ep & K). exists p. split; [exact Ep|]. rewrite C. exact K.
  - intros Hb. specialize (H2 Hb). unfold idle_noise in H2. rewrite C. destruct (used m); [exact H2|]. cbn [nonempty] in H2.
    replace (memb q (n :: l)) with false in H2; [exact H2|]. symmetry. apply memb_false. exact Hb.
Qed.

(** Every circuit, cut at its TICKs and at the boundaries of its REPEAT blocks. *)
Theorem C28_noise_once : forall nm c c', use_correlated nm = false -> (forall op, In op (instrs c) -> ideal_op op) -> noisy_circuit nm c = Ok c' ->
  exists outs, flatten c' = concat outs /\
    Forall2 (fun p out => receives (op_strength nm) (idle nm) (measure_reset_idle nm) (circuit_num_qubits c) (snd p) out) (pieces c) outs /\
    flat_map snd (pieces c) = flatten c.
Proof.
  intros nm c c' Hc Hi H. destruct (noisy_pieces nm c c' Hc Hi H) as (outs & E & F & _). exists outs. split; [exact E|]. split; [|apply contents_pieces].
  clear -F. induction F; constructor; auto. now apply moment_receives.
Qed.
Print Assumptions C28_noise_once.
Example C28_example : exists c', noisy_circuit (NM_SI1000 (1 # 100)) [I (mkI "H" [TQ 0%nat] []); I (mkI "M" [TQ 1%nat] []); I (mkI "TICK" [] []); I (mkI "CZ" [TQ 1%nat; TQ 2%nat] [])] = Ok c' /\
  channels 0 (flatten c') = [("DEPOLARIZE1"%string, [Num ((1 # 100) / (10 # 1))]); ("DEPOLARIZE1"%string, [Num ((2 # 1) * (1 # 100))]); ("DEPOLARIZE1"%string, [Num ((1 # 100) / (10 # 1))])].
Proof. eexists. split; vm_compute; reflexivity. Qed.

(** ** The complete generator *)
Lemma fine_ideal lay i : fine lay i -> ideal_op i.
Proof.
  intros (H & T & _). split; [|split; [exact T|]].
  all: apply in_names_In in H; unfold style_names in H; apply in_app_or in H.
  all: assert (K : In (iname i) ["QUBIT_COORDS"; "TICK"; "DETECTOR"; "OBSERVABLE_INCLUDE"; "SHIFT_COORDS"; "R"; "M"; "H"; "H_YZ"; "C_ZYX"; "C_XYZ"; "CX"; "XCX"; "YCX"; "MPP"; "CZ"]%string)
    by (destruct H as [H|H]; [revert H; cbn [In]; tauto|]; revert H; repeat destruct (_ =? _)%string; try destruct (is_em3 _); cbn [In]; tauto).
  all: unfold is_noise; destruct i as [name ts args]; cbn [iname] in *; clear -K; cbn [In] in K; decompose [or] K; try contradiction; subst name; reflexivity.
Qed.
Lemma fine_strength lay i : supported lay -> fine lay i -> (exists q, strength (style lay) (noise lay) (iname i) = Some q) /\ pair_products i.
Proof.
  intros (_ & Hs) (H & T & M). split.
  - destruct i as [name ts args]. cbn [iname] in *. clear -Hs H. apply in_names_In in H.
    destruct Hs as [Es|[Es|[Es|[Es|[Es _]]]]]; rewrite Es in *; cbn in H; decompose [or] H; try contradiction; subst name; eexists; reflexivity.
  - intros E. destruct (M E) as (Ha & l & Ht). split; [auto|]. exists (map (fun '(p, a, b) => (TP p a, TP p b)) l). rewrite Ht. clear.
    unfold pairs_targets. induction l as [|[[p a] b] l IH]; [reflexivity|]. cbn [map flat_map]. now rewrite IH.
Qed.
Lemma supported_models lay : supported lay -> In (style lay) models.
Proof. intros (_ & [->|[->|[->|[->|[-> _]]]]]); cbn; tauto. Qed.
Lemma generated lay : valid lay -> supported_input lay -> exists c nm c', generate_ideal_circuit lay = Ok c /\ layout_noise_model lay = Ok nm /\ noisy_circuit nm c = Ok c' /\
  generate_honeycomb_circuit lay = Ok c' /\ flatten c = circuit_i lay /\ folded (unit_i lay) c /\ (forall i, In i (instrs c) -> fine lay i).
Proof.
  intros Hv Hs. pose proof (sup_sup lay Hs) as Hp. destruct (generate_shape lay Hv (sup_obs lay Hs) Hp) as (c & E & Fl & Fo).
  destruct (proj1 (proj1 (C11_noise_model_dispatch lay)) (supported_models lay Hp)) as (nm & En).
  assert (Hf : forall i, In i (instrs c) -> fine lay i).
  { intros i Hi. apply (instrs_folded _ c i Fo) in Hi. rewrite Fl in Hi. exact (proj1 (Forall_forall _ _) (circuit_fine lay Hp) i Hi). }
  destruct (C29_supported_accepted lay nm c En (fun i Hi => fine_strength lay i Hp (Hf i Hi))) as (c' & Ec).
  exists c, nm, c'. split; [exact E|]. split; [exact En|]. split; [exact Ec|]. split; [|auto]. unfold generate_honeycomb_circuit. rewrite E. cbn [bind]. rewrite En. exact Ec.
Qed.
Lemma made lay : valid lay -> supported_input lay -> exists c, generate_honeycomb_circuit lay = Ok c.
Proof. intros Hv Hs. destruct (generated lay Hv Hs) as (_ & _ & c & _ & _ & _ & E & _). now exists c. Qed.

(** ** C16, complete: generate_honeycomb_circuit accepts exactly the supported inputs *)
Theorem C16_generator_accepts_exactly_supported : forall lay, valid lay -> 0 <= sub_rounds lay ->
  ((exists c, generate_honeycomb_circuit lay = Ok c) <-> supported_input lay) /\
  (~ supported_input lay -> generate_honeycomb_circuit lay = Err NotImplementedError).
Proof.
  intros lay Hv Hn. destruct (C16_accepts_exactly_supported lay Hv Hn) as [[Hs _]|[Hs R]].
  - destruct (generated lay Hv Hs) as (c & nm & c' & _ & _ & _ & E & _). split; [split; eauto | contradiction].
  - assert (R' : generate_honeycomb_circuit lay = Err NotImplementedError) by (unfold generate_honeycomb_circuit; now rewrite R).
    split; [|auto]. split; [intros (c & E); congruence | contradiction].
Qed.
Print Assumptions C16_generator_accepts_exactly_supported.

Lemma acts_touched op : acts_on op = [] \/ acts_on op = touched op.
Proof.
  unfold acts_on, touched. destruct (annotation (iname op)) eqn:A; [auto|]. right. replace (canon (iname op) =? "QUBIT_COORDS")%string with false; [reflexivity|].
  symmetry. apply String.eqb_neq. intros K. assert (E : iname op = "QUBIT_COORDS"%string).
  { revert K. unfold canon. repeat match goal with |- context [if (iname op =? ?s)%string then _ else _] => destruct (iname op =? s)%string; [discriminate|] end. auto. }
  rewrite E in A. discriminate.
Qed.
Lemma busy_once m : once m -> NoDup (busy m).
Proof.
  unfold once, busy. induction m as [|op m IH]; intros H; [constructor|]. cbn [flat_map] in *. apply NoDup_app_inv in H. destruct H as (H1 & H2 & H3).
  destruct (acts_touched op) as [->| ->]; [now apply IH|]. apply NoDup_app_intro; auto. intros x Hx Hy. apply (H3 x Hx). apply in_flat_map in Hy. destruct Hy as (o & Ho & Hy).
  apply in_flat_map. exists o. split; [exact Ho|]. destruct (acts_touched o) as [K|K]; rewrite K in Hy; [destruct Hy | exact Hy].
Qed.
(** The noisy circuit is the ideal circuit with noise, moment by moment. *)
Theorem C28_generated_circuits : forall lay c c', valid lay -> supported_input lay -> style lay <> "EM3_v2"%string ->
  generate_ideal_circuit lay = Ok c -> generate_honeycomb_circuit lay = Ok c' ->
  Forall2 (fun m out =>
      map bare (filter (fun i => negb (is_noise i)) out) = map bare m /\ NoDup (busy m) /\
      receives (fun op => match strength (style lay) (noise lay) (iname op) with Some p => Ok p | None => Err NotImplementedError end)
               (idle_strength (style lay) (noise lay)) (wait_strength (style lay) (noise lay)) (circuit_num_qubits c) m out)
    (moments [] (flatten c)) (moments [] (flatten c')).
Proof.
  intros lay c c' Hv Hs Hst E E'. destruct (generated lay Hv Hs) as (c1 & nm & c2 & E1 & En & E2 & E3 & Fl & Fo & Hf). rewrite E in E1. injection E1 as <-. rewrite E' in E3. injection E3 as <-.
  destruct (C29_strengths lay nm (mkI "" [] []) En) as (_ & Ei & Ew & Eu).
  assert (Hc : use_correlated nm = false) by (destruct (use_correlated nm); [now destruct Hst; apply Eu | reflexivity]).
  pose proof (noisy_moments _ nm c c' Fo Hc (fun i Hi => fine_ideal lay i (Hf i Hi)) E2) as F.
  pose proof (circuit_clean lay Hv (sup_obs lay Hs) (sup_sup lay Hs)) as Hcl. rewrite <- Fl in Hcl. unfold clean in Hcl.
  clear -F Hcl En Ei Ew. induction F as [|m out ms os H F IH]; [constructor|]. inversion Hcl; subst. constructor; [|auto]. split; [|split].
  - destruct H as [G _]. unfold gates in G. rewrite G, map_map. apply map_ext. intros op.
    unfold with_flip, bare. destruct (op_strength nm op); [|reflexivity]. destruct (iname op =? "MPP")%string eqn:K; cbn [andb]; [|now rewrite K].
    destruct (Qlt_bool 0 _); cbn [iname itargets]; now rewrite K.
  - now apply busy_once.
  - intros Hd q Hq. destruct (moment_receives nm _ m out H Hd q Hq) as [R1 R2]. rewrite <- Ei, <- Ew. split; [|exact R2].
    intros op Hop Hqo. destruct (R1 op Hop Hqo) as (p & Ep & K). exists p. split; [|exact K]. rewrite <- (proj1 (C29_strengths lay nm op En)). exact Ep.
Qed.
Print Assumptions C28_generated_circuits.
