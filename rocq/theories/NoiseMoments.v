(** What noisy_circuit adds to one moment. *)
From Coq Require Import QArith.
From Verif Require Import Prelude Layout Tracker Stim Circuit Noise NoiseFacts.
Open Scope Z_scope.

(** ** Specification *)
(** stim's noise channels that the noise model inserts *)
Definition is_noise (i : instr) : bool := existsb (String.eqb (iname i)) ["DEPOLARIZE1"; "DEPOLARIZE2"; "X_ERROR"; "Z_ERROR"; "E"]%string.
(** an instruction without its measurement flip probability (only MPP gets one) *)
Definition bare (i : instr) : instr := if (iname i =? "MPP")%string then mkI (iname i) (itargets i) [] else i.
Definition strip (l : list instr) : list instr := map bare (filter (fun i => negb (is_noise i)) l).
(** instructions as stim reports them: canonical names, TICK alone; and no noise yet *)
Definition ideal_op (i : instr) : Prop := canon (iname i) = iname i /\ plain_tick i /\ is_noise i = false.
(** the channels applied to qubit q, in order *)
Definition channels (q : nat) (l : list instr) : list (string * list num) :=
  flat_map (fun i => if is_noise i then map (fun _ => (iname i, iargs i)) (filter (Nat.eqb q) (tqubits (itargets i))) else []) l.
Definition same_channel (a b : string * list num) : Prop := fst a = fst b /\ nums_eqb (snd a) (snd b) = true.
(** the channel that goes with a gate *)
Definition channel_of (gate : string) : string :=
  if existsb (String.eqb gate) ["C_XYZ"; "C_ZYX"; "H"; "H_YZ"; "I"]%string then "DEPOLARIZE1"
  else if existsb (String.eqb gate) ["RX"; "MX"]%string then "Z_ERROR"
  else if existsb (String.eqb gate) ["R"; "RY"; "M"; "MY"]%string then "X_ERROR"
  else "DEPOLARIZE2".

(** ** Facts *)
Lemma strip_app a b : strip (a ++ b) = strip a ++ strip b.
Proof. unfold strip. now rewrite filter_app, map_app. Qed.
Lemma channels_app q a b : channels q (a ++ b) = channels q a ++ channels q b.
Proof. apply flat_map_app. Qed.
Lemma strip_append c name ts args : is_noise (mkI (canon name) ts args) = true -> strip (flatten (append_operation c name ts args)) = strip (flatten c).
Proof.
  intros H. unfold append_operation. set (i := mkI (canon name) ts args) in *. clearbody i.
  induction c as [|x c IH]; [cbn [append_instr flatten flat_map flatten_item app]; unfold strip; cbn [filter]; now rewrite H|].
  destruct x as [j|k b]; [destruct c as [|y c]|].
  - cbn [append_instr]. destruct (negb _ && _ && _) eqn:F.
    + apply andb_true_iff in F. destruct F as [F _]. apply andb_true_iff in F. destruct F as [_ F]. apply String.eqb_eq in F.
      unfold strip. cbn [flatten flat_map flatten_item app filter]. unfold is_noise in *. cbn [iname] in *. rewrite F in H. rewrite H. reflexivity.
    + unfold strip. cbn [flatten flat_map flatten_item app filter]. rewrite H. destruct (is_noise j); reflexivity.
  - change (append_instr (I j :: y :: c) i) with (I j :: append_instr (y :: c) i).
    change (flatten (I j :: append_instr (y :: c) i)) with ([j] ++ flatten (append_instr (y :: c) i)). rewrite strip_app, IH. now rewrite <- strip_app.
  - change (append_instr (Rep k b :: c) i) with (Rep k b :: append_instr c i).
    change (flatten (Rep k b :: append_instr c i)) with (flatten_item (Rep k b) ++ flatten (append_instr c i)). rewrite strip_app, IH. now rewrite <- strip_app.
Qed.
Lemma same_refl a : same_channel a a.
Proof.
  split; [reflexivity|]. induction (snd a) as [|x l IH]; [reflexivity|]. cbn [nums_eqb]. rewrite IH, andb_true_r. destruct x; cbn [num_eqb].
  - apply Qeq_bool_iff. reflexivity.
  - rewrite Z.eqb_refl, andb_true_r. apply Qeq_bool_iff. reflexivity.
Qed.
Definition same_channels := Forall2 same_channel.
Lemma sames_refl l : same_channels l l.
Proof. induction l; constructor; auto using same_refl. Qed.
Lemma num_eqb_sym a b : num_eqb a b = num_eqb b a.
Proof. destruct a, b; cbn [num_eqb]; rewrite ?(Qeq_bool_comm q), ?(Qeq_bool_comm p), ?(Z.eqb_sym n); reflexivity. Qed.
Lemma nums_eqb_sym a : forall b, nums_eqb a b = nums_eqb b a.
Proof. induction a as [|x a IH]; intros [|y b]; cbn [nums_eqb]; try reflexivity. now rewrite IH, num_eqb_sym. Qed.
Lemma num_eqb_trans a b c : num_eqb a b = true -> num_eqb b c = true -> num_eqb a c = true.
Proof.
  destruct a, b, c; cbn [num_eqb]; try discriminate; rewrite ?andb_true_iff, ?Qeq_bool_iff, ?Z.eqb_eq.
  - intros -> ->. reflexivity.
  - intros [-> ->] [-> ->]. split; reflexivity.
Qed.
Lemma nums_eqb_trans a : forall b c, nums_eqb a b = true -> nums_eqb b c = true -> nums_eqb a c = true.
Proof.
  induction a as [|x a IH]; intros [|y b] [|z c]; cbn [nums_eqb]; try discriminate; auto.
  rewrite !andb_true_iff. intros [H1 H2] [H3 H4]. split; [eapply num_eqb_trans | eapply IH]; eauto.
Qed.
Lemma sames_trans a b c : same_channels a b -> same_channels b c -> same_channels a c.
Proof.
  intros H. revert c. induction H as [|x y a b [H1 H2] Hab IH]; intros c Hc; inversion Hc as [|? z ? c' [H3 H4] Hbc]; subst; constructor; [|now apply IH].
  split; [congruence | eapply nums_eqb_trans; eauto].
Qed.

Lemma channels_append q c name ts args : is_noise (mkI (canon name) ts args) = true ->
  same_channels (channels q (flatten (append_operation c name ts args))) (channels q (flatten c) ++ map (fun _ => (canon name, args)) (filter (Nat.eqb q) (tqubits ts))).
Proof.
  intros H. unfold append_operation.
  assert (H1 : channels q [mkI (canon name) ts args] = map (fun _ => (canon name, args)) (filter (Nat.eqb q) (tqubits ts))).
  { unfold channels. cbn [flat_map]. rewrite H. cbn [iname iargs itargets]. apply app_nil_r. }
  induction c as [|x c IH].
  - cbn [append_instr]. change (flatten [I (mkI (canon name) ts args)]) with [mkI (canon name) ts args]. rewrite H1. apply sames_refl.
  - destruct x as [j|k b]; [destruct c as [|y c]|].
    + cbn [append_instr iname iargs itargets]. destruct (negb _ && _ && _) eqn:F.
      * apply andb_true_iff in F. destruct F as [F F2]. apply andb_true_iff in F. destruct F as [_ F]. apply String.eqb_eq in F.
        change (flatten [I (mkI (iname j) (itargets j ++ ts) (iargs j))]) with [mkI (iname j) (itargets j ++ ts) (iargs j)]. change (flatten [I j]) with [j].
        unfold channels. cbn [flat_map]. unfold is_noise in *. cbn [iname] in *. rewrite <- F, H, !app_nil_r. cbn [iargs itargets].
        unfold tqubits. rewrite flat_map_app, filter_app, map_app. apply Forall2_app; [apply sames_refl|].
        generalize (filter (Nat.eqb q) (flat_map tqubit ts)). intros fl. clear -F2. induction fl as [|x fl IHf]; [constructor|]. cbn [map]. constructor; [|exact IHf]. split; [reflexivity|]. cbn [snd]. now rewrite nums_eqb_sym.
      * change (flatten [I j; I (mkI (canon name) ts args)]) with ([j] ++ [mkI (canon name) ts args]). rewrite channels_app, H1. apply sames_refl.
    + change (append_instr (I j :: y :: c) (mkI (canon name) ts args)) with (I j :: append_instr (y :: c) (mkI (canon name) ts args)).
      change (flatten (I j :: ?r)) with ([j] ++ flatten r). rewrite !channels_app, <- app_assoc. apply Forall2_app; [apply sames_refl | exact IH].
    + change (append_instr (Rep k b :: c) (mkI (canon name) ts args)) with (Rep k b :: append_instr c (mkI (canon name) ts args)).
      change (flatten (Rep k b :: ?r)) with (flatten_item (Rep k b) ++ flatten r). rewrite !channels_app, <- app_assoc. apply Forall2_app; [apply sames_refl | exact IH].
Qed.

(** ** One operation *)
Definition op_noise (q : nat) (op : instr) (p : Q) : list (string * list num) :=
  if Qlt_bool 0 p then map (fun _ => (channel_of (iname op), [Num p])) (filter (Nat.eqb q) (tqubits (itargets op))) else [].
Lemma in_names_In name l : in_names name l = true <-> In name l.
Proof.
  unfold in_names. rewrite existsb_exists. split.
  - intros (x & Hx & E). apply String.eqb_eq in E. now subst.
  - intros H. exists name. split; [exact H | apply String.eqb_refl].
Qed.
Lemma tqubits_pairs ts : tqubits (map tvalue (filter (fun t => negb (is_combiner t)) ts)) = tqubits ts.
Proof. induction ts as [|t ts IH]; [reflexivity|]. destruct t; cbn [filter is_combiner negb map tvalue tqubits flat_map tqubit app] in *; unfold tqubits in *; rewrite ?IH; reflexivity. Qed.

Lemma noisy_op_spec nm op p a x y z : use_correlated nm = false -> ideal_op op -> noisy_op nm op p a = Ok (x, y, z) ->
  strip (flatten x) = [] /\ strip (flatten y) = [bare op] /\ strip (flatten z) = [] /\
  (forall q, channels q (flatten y) = []) /\
  (forall q, channels q (flatten x) ++ channels q (flatten z) = op_noise q op p) /\
  (Qlt_bool 0 p = true -> in_names (iname op) ANNOTATION_OPS = false).
Proof.
  intros Hc (Ec & _ & Hn) H. unfold noisy_op in H.
  assert (M1 : forall args, flatten (append_operation [] (iname op) (itargets op) args) = [mkI (iname op) (itargets op) args]) by (intros; unfold append_operation; cbn [append_instr]; now rewrite Ec).
  assert (M2 : forall args, is_noise (mkI (iname op) (itargets op) args) = false) by (intros; exact Hn).
  assert (M3 : strip [op] = [bare op]) by (unfold strip; cbn [filter]; now rewrite Hn).
  assert (M4 : mkI (iname op) (itargets op) (iargs op) = op) by (now destruct op).
  assert (M5 : forall args q, channels q [mkI (iname op) (itargets op) args] = []) by (intros; unfold channels; cbn [flat_map]; now rewrite M2).
  assert (N : forall name ts, is_noise (mkI (canon name) ts [Num p]) = true -> canon name = name -> strip (flatten (append_operation [] name ts [Num p])) = [] /\
     forall q, channels q (flatten (append_operation [] name ts [Num p])) = map (fun _ => (name, [Num p])) (filter (Nat.eqb q) (tqubits ts))).
  { intros name ts K E. unfold append_operation. rewrite E in *. cbn [append_instr]. change (flatten [I (mkI name ts [Num p])]) with [mkI name ts [Num p]].
    unfold strip, channels. cbn [filter flat_map]. rewrite K. split; [reflexivity|]. intros q. cbn [iname iargs itargets]. apply app_nil_r. }
  unfold op_noise. destruct (Qlt_bool 0 p).
  2:{ injection H as <- <- <-. rewrite M1, M4, M3. repeat split; auto; try discriminate. intros q. rewrite <- M4. apply M5. }
  destruct (in_names (iname op) ANY_CLIFFORD_1_OPS) eqn:C1.
  { injection H as <- <- <-. rewrite M1, M4, M3. destruct (N "DEPOLARIZE1"%string (itargets op) eq_refl eq_refl) as [N1 N2].
    repeat split; auto; [intros q; rewrite <- M4; apply M5 | |].
    - intros q. rewrite N2. unfold channel_of. unfold in_names, ANY_CLIFFORD_1_OPS in C1. rewrite C1. reflexivity.
    - intros _. apply in_names_In in C1. cbn in C1. repeat (destruct C1 as [<-|C1]; [reflexivity|]). contradiction. }
  destruct (in_names (iname op) ANY_CLIFFORD_2_OPS) eqn:C2.
  { injection H as <- <- <-. rewrite M1, M4, M3. destruct (N "DEPOLARIZE2"%string (itargets op) eq_refl eq_refl) as [N1 N2].
    assert (Kn : channel_of (iname op) = "DEPOLARIZE2"%string /\ in_names (iname op) ANNOTATION_OPS = false).
    { apply in_names_In in C2. cbn in C2. repeat (destruct C2 as [<-|C2]; [split; reflexivity|]). contradiction. }
    destruct Kn as [Kn Ka]. rewrite Kn. repeat split; auto; [intros q; rewrite <- M4; apply M5]. }
  destruct (in_names (iname op) RESET_OPS || in_names (iname op) MEASURE_OPS) eqn:C3.
  { injection H as <- <- <-. rewrite M1, M4, M3.
    destruct (N "X_ERROR"%string (itargets op) eq_refl eq_refl) as [N1 N2]. destruct (N "Z_ERROR"%string (itargets op) eq_refl eq_refl) as [N3 N4].
    apply orb_true_iff in C3.
    assert (Hd : (iname op = "R" \/ iname op = "RX" \/ iname op = "RY" \/ iname op = "M" \/ iname op = "MX" \/ iname op = "MY")%string).
    { rewrite !in_names_In in C3. cbn in C3. clear -C3. intuition auto. }
    assert (Hch : forall q, channels q (flatten []) = []) by reflexivity.
    destruct Hd as [E|[E|[E|[E|[E|E]]]]]; rewrite E in *; cbn [in_names existsb RESET_OPS MEASURE_OPS ANNOTATION_OPS flip_name ends_with_X String.eqb Ascii.eqb Bool.eqb orb channel_of];
      (repeat split; auto; intros q; first [rewrite <- M4, ?E; apply M5 | rewrite ?Hch, ?app_nil_r; cbn [app]; first [apply N2 | apply N4]]). }
  destruct (String.eqb_spec (iname op) "MPP") as [Em|_]; [|discriminate].
  destruct (triples (itargets op)) as [tri|]; [|discriminate]. destruct (assert_ _); [|discriminate]. cbn [bind] in H. destruct (assert_ _); [|discriminate]. cbn [bind] in H.
  rewrite Hc in H. injection H as <- <- <-. destruct (N "DEPOLARIZE2"%string (map tvalue (filter (fun t => negb (is_combiner t)) (itargets op))) eq_refl eq_refl) as [N1 N2].
  rewrite M1. repeat split; auto.
  - unfold strip. cbn [filter]. rewrite M2. cbn [negb map]. f_equal. unfold bare. cbn [iname itargets]. now rewrite Em.
  - intros q. rewrite N2, tqubits_pairs. change (channels q (flatten [])) with (@nil (string * list num)). rewrite app_nil_r. now rewrite Em.
  - intros _. now rewrite Em.
Qed.

(** ** A moment *)
Lemma gather_spec nm a m : use_correlated nm = false -> (forall op, In op m -> ideal_op op) -> forall x y z, gather nm a m = Ok (x, y, z) ->
  strip (flatten x) = [] /\ strip (flatten y) = map bare m /\ strip (flatten z) = [] /\
  (forall q, channels q (flatten y) = []) /\
  (forall q, ~ In q (used m) -> channels q (flatten x) = [] /\ channels q (flatten z) = []) /\
  (forall q op, In op m -> In q (tq op) -> NoDup (used m) -> exists p, op_strength nm op = Ok p /\
     channels q (flatten x) ++ channels q (flatten z) = if Qlt_bool 0 p then [(channel_of (iname op), [Num p])] else []).
Proof.
  intros Hc. induction m as [|op m IH]; intros Hi x y z H; cbn [gather] in H.
  { injection H as <- <- <-. repeat split; auto. intros q op []. }
  destruct (op_strength nm op) as [p|] eqn:Ep; [|discriminate]. cbn [bind] in H. destruct (noisy_op nm op p a) as [[[x1 y1] z1]|] eqn:En; [|discriminate]. cbn [bind] in H.
  destruct (gather nm a m) as [[[x2 y2] z2]|] eqn:Eg; [|discriminate]. cbn [bind] in H. injection H as <- <- <-.
  destruct (noisy_op_spec nm op p a x1 y1 z1 Hc (Hi op (or_introl eq_refl)) En) as (A1 & A2 & A3 & A4 & A5 & A6).
  destruct (IH (fun o Ho => Hi o (or_intror Ho)) x2 y2 z2 eq_refl) as (B1 & B2 & B3 & B4 & B5 & B6).
  rewrite !flatten_app, !strip_app, A1, A2, A3, B1, B2, B3.
  assert (Z1 : forall q, ~ In q (tq op) -> channels q (flatten x1) = [] /\ channels q (flatten z1) = []).
  { intros q Hq. apply app_eq_nil. rewrite A5. unfold op_noise. destruct (Qlt_bool 0 p) eqn:F; [|reflexivity].
    unfold tq in Hq. rewrite (A6 eq_refl) in Hq. replace (filter (Nat.eqb q) (tqubits (itargets op))) with (@nil nat); [reflexivity|].
    symmetry. clear -Hq. induction (tqubits (itargets op)) as [|t l IH]; [reflexivity|]. cbn [filter]. destruct (Nat.eqb_spec q t) as [->|_]; [exfalso; apply Hq; now left|]. apply IH. intros K. apply Hq. now right. }
  repeat split; auto.
  - intros q. now rewrite channels_app, A4, B4.
  - rewrite channels_app. unfold used in H. cbn [flat_map] in H. rewrite in_app_iff in H. destruct (Z1 q ltac:(tauto)) as [-> _]. now apply B5; tauto.
  - rewrite channels_app. unfold used in H. cbn [flat_map] in H. rewrite in_app_iff in H. destruct (Z1 q ltac:(tauto)) as [_ ->]. now apply B5; tauto.
  - intros q o Ho Hq Hd. rewrite !channels_app. unfold used in Hd. cbn [flat_map] in Hd. fold (used m) in Hd.
    apply NoDup_app_inv in Hd. destruct Hd as (D1 & D2 & D3). destruct Ho as [<-|Ho].
    + exists p. split; [exact Ep|]. destruct (B5 q) as [-> ->]; [intros K; exact (D3 q Hq K)|]. rewrite !app_nil_r, A5. unfold op_noise. destruct (Qlt_bool 0 p) eqn:F; [|reflexivity].
      unfold tq in Hq, D1. rewrite (A6 eq_refl) in Hq, D1.
      replace (filter (Nat.eqb q) (tqubits (itargets op))) with [q]; [reflexivity|]. clear -Hq D1. induction (tqubits (itargets op)) as [|t l IH]; [destruct Hq|].
      inversion D1 as [|? ? Ht Dl]; subst. cbn [filter]. destruct (Nat.eqb_spec q t) as [->|Nq].
      * f_equal. clear -Ht. induction l as [|s l IH]; [reflexivity|]. cbn [filter]. destruct (Nat.eqb_spec t s) as [->|_]; [exfalso; apply Ht; now left|]. apply IH. intros K; apply Ht; now right.
      * apply IH; auto. destruct Hq; [congruence | assumption].
    + assert (Nq : ~ In q (tq op)). { intros K. apply (D3 q K). unfold used. apply in_flat_map. eauto. }
      destruct (Z1 q Nq) as [-> ->]. cbn [app]. now apply B6.
Qed.

Lemma strip_ideal m : (forall op, In op m -> ideal_op op) -> strip m = map bare m.
Proof.
  intros H. unfold strip. f_equal. induction m as [|op m IH]; [reflexivity|]. cbn [filter].
  destruct (H op (or_introl eq_refl)) as (_ & _ & ->). cbn [negb]. f_equal. apply IH. intros; apply H; now right.
Qed.
(** What qubit q is given in a moment. *)
Definition idle_noise (nm : noise_model) (m : list instr) (q : nat) : list (string * list num) :=
  if nonempty (used m) && negb (memb q (used m)) && Qlt_bool 0 (idle nm) then [("DEPOLARIZE1"%string, [Num (idle nm)])] else [].
Definition mr_noise (nm : noise_model) (m : list instr) (q : nat) : list (string * list num) :=
  if nonempty (mrd m) && negb (memb q (mrd m)) && Qlt_bool 0 (measure_reset_idle nm) then [("DEPOLARIZE1"%string, [Num (measure_reset_idle nm)])] else [].
Lemma filter_seq q n : filter (Nat.eqb q) (seq 0 n) = if (q <? n)%nat then [q] else [].
Proof.
  induction n as [|n IH]; [reflexivity|]. rewrite seq_S, filter_app, IH. cbn [Nat.add filter].
  destruct (Nat.ltb_spec q n), (Nat.eqb_spec q n), (Nat.ltb_spec q (S n)); subst; try lia; reflexivity.
Qed.
Lemma filter_comm {A} (f g : A -> bool) l : filter f (filter g l) = filter g (filter f l).
Proof.
  induction l as [|x l IH]; [reflexivity|]. cbn [filter]. destruct (f x) eqn:F, (g x) eqn:G; cbn [filter]; rewrite ?F, ?G, IH; reflexivity.
Qed.
Lemma filter_perm1 (f : nat -> bool) l l' x : Permutation l l' -> filter f l = [x] -> filter f l' = [x].
Proof. intros P E. apply Permutation_length_1_inv. rewrite <- E. clear E. induction P; cbn [filter]; repeat destruct (f _); auto; [constructor | econstructor; eauto]. Qed.
Lemma tqubits_qs l : tqubits (qs l) = l.
Proof. unfold qs, tqubits. induction l as [|x l IH]; [reflexivity|]. cbn [map flat_map tqubit app]. now rewrite IH. Qed.
Lemma idle_targets q n s : filter (Nat.eqb q) (tqubits (qs (sorted_diff (seq 0 n) s))) = if (q <? n)%nat && negb (memb q s) then [q] else [].
Proof.
  rewrite tqubits_qs. unfold sorted_diff. set (l := filter (fun q0 => negb (memb q0 s)) (seq 0 n)).
  assert (E : filter (Nat.eqb q) l = if (q <? n)%nat && negb (memb q s) then [q] else []).
  { unfold l. rewrite filter_comm, filter_seq. destruct (q <? n)%nat; [|reflexivity]. cbn [filter andb]. destruct (memb q s); reflexivity. }
  pose proof (isort_perm Nat.leb l) as P. destruct ((q <? n)%nat && negb (memb q s)).
  - eapply filter_perm1; eauto.
  - apply Permutation_nil. rewrite <- E. clear E. induction P; cbn [filter]; repeat destruct (Nat.eqb q _); auto; [constructor | econstructor; eauto].
Qed.
Lemma nonempty_diff q n s : (q < n)%nat -> memb q s = false -> nonempty (sorted_diff (seq 0 n) s) = true.
Proof.
  intros Hq Hm. assert (K : In q (sorted_diff (seq 0 n) s)).
  { unfold sorted_diff. eapply Permutation_in; [apply isort_perm|]. apply filter_In. split; [apply in_seq; lia | now rewrite Hm]. }
  destruct (sorted_diff (seq 0 n) s); [destruct K | reflexivity].
Qed.

(** The noise added for the set s of busy qubits. *)
Definition add_idle (n : nat) (s : list nat) (p : Q) (z : circuit) : circuit :=
  if nonempty s && nonempty (sorted_diff (seq 0 n) s) && Qlt_bool 0 p then append_operation z "DEPOLARIZE1" (qs (sorted_diff (seq 0 n) s)) [Num p] else z.
Lemma strip_add_idle n s p z : strip (flatten (add_idle n s p z)) = strip (flatten z).
Proof. unfold add_idle. destruct (_ && _ && _); [|reflexivity]. now rewrite strip_append. Qed.
Lemma channels_add_idle n s p z q : (q < n)%nat -> same_channels (channels q (flatten (add_idle n s p z)))
  (channels q (flatten z) ++ if nonempty s && negb (memb q s) && Qlt_bool 0 p then [("DEPOLARIZE1"%string, [Num p])] else []).
Proof.
  intros Hq. unfold add_idle. destruct (nonempty s); cbn [andb]; [|rewrite app_nil_r; apply sames_refl].
  destruct (memb q s) eqn:Mq; cbn [negb andb].
  - rewrite app_nil_r. destruct (_ && _); [|apply sames_refl]. eapply sames_trans; [apply channels_append; reflexivity|]. rewrite idle_targets, Mq, andb_false_r. cbn [map]. rewrite app_nil_r. apply sames_refl.
  - rewrite (nonempty_diff q) by assumption. cbn [andb]. destruct (Qlt_bool 0 p); [|rewrite app_nil_r; apply sames_refl].
    eapply sames_trans; [apply channels_append; reflexivity|]. rewrite idle_targets, Mq. replace (q <? n)%nat with true by (symmetry; now apply Nat.ltb_lt). apply sames_refl.
Qed.

Lemma piece_spec nm a nq m c : use_correlated nm = false -> (forall op, In op m -> ideal_op op) -> not_tick m -> piece_out nm a (seq 0 nq) m = Ok c ->
  strip (flatten c) = strip m /\
  (NoDup (used m) -> forall q, (q < nq)%nat ->
    (forall op, In op m -> In q (tq op) -> exists p, op_strength nm op = Ok p /\
       same_channels (channels q (flatten c)) ((if Qlt_bool 0 p then [(channel_of (iname op), [Num p])] else []) ++ mr_noise nm m q)) /\
    (~ In q (used m) -> same_channels (channels q (flatten c)) (idle_noise nm m q ++ mr_noise nm m q))).
Proof.
  intros Hc Hi Ht H. rewrite piece_out_run in H by exact Ht. destruct (gather nm a m) as [[[x y] z]|] eqn:Eg; [|discriminate]. cbn [bind] in H. injection H as <-.
  destruct (gather_spec nm a m Hc Hi x y z Eg) as (A1 & A2 & A3 & A4 & A5 & A6). rewrite (strip_ideal m Hi).
  unfold flush. cbn [n_mid n_pre n_post n_used n_mr n_result].
  destruct (nonempty y) eqn:Ny; cbn [n_result].
  2:{ destruct y; [|discriminate]. cbn in A2. destruct m; [|discriminate]. split; [reflexivity|]. intros _ q Hq. split; [intros op []|]. intros _. constructor. }
  rewrite app_nil_l.
  fold (add_idle nq (used m) (idle nm) z). set (z1 := add_idle nq (used m) (idle nm) z).
  fold (add_idle nq (mrd m) (measure_reset_idle nm) z1). set (z2 := add_idle nq (mrd m) (measure_reset_idle nm) z1).
  assert (S2 : strip (flatten z2) = []) by (unfold z2, z1; rewrite !strip_add_idle; exact A3).
  split.
  { rewrite !flatten_app, !strip_app, A1, A2, S2. now rewrite app_nil_r. }
  intros Hd q Hq. rewrite !flatten_app, !channels_app, A4. cbn [app].
  assert (T1 : same_channels (channels q (flatten z1)) (channels q (flatten z) ++ idle_noise nm m q)).
  { now apply channels_add_idle. }
  assert (T2 : same_channels (channels q (flatten z2)) (channels q (flatten z1) ++ mr_noise nm m q)).
  { now apply channels_add_idle. }
  assert (T : same_channels (channels q (flatten x) ++ channels q (flatten z2)) ((channels q (flatten x) ++ channels q (flatten z)) ++ idle_noise nm m q ++ mr_noise nm m q)).
  { rewrite <- app_assoc. apply Forall2_app; [apply sames_refl|]. eapply sames_trans; [exact T2|]. rewrite app_assoc. apply Forall2_app; [exact T1 | apply sames_refl]. }
  split.
  - intros op Hop Hqo. destruct (A6 q op Hop Hqo Hd) as (p & Ep & E). exists p. split; [exact Ep|]. rewrite E in T.
    replace (idle_noise nm m q) with (@nil (string * list num)) in T; [exact T|]. unfold idle_noise.
    replace (memb q (used m)) with true; [now rewrite andb_false_r|]. symmetry. apply memb_In. unfold used. apply in_flat_map. eauto.
  - intros Hu. destruct (A5 q Hu) as [E1 E2]. rewrite E1, E2 in T. rewrite E1. exact T.
Qed.

(** ** The pieces of a circuit *)
Lemma in_cut a l : (forall x, In x l -> forall b m, In (b, m) (pieces_item x) -> (not_tick m \/ exists i, m = [i] /\ is_tick_name i = true) /\ forall op, In op m -> In op (instrs_item x)) ->
  forall now, not_tick now -> forall b m, In (b, m) (cut a now l) ->
  (not_tick m \/ exists i, m = [i] /\ is_tick_name i = true) /\ forall op, In op m -> In op now \/ In op (instrs l).
Proof.
  induction l as [|x l IH]; intros Hx now Hn b m H; cbn [cut] in H.
  - destruct H as [[= <- <-]|[]]. auto.
  - assert (Hx' : forall y, In y l -> forall b m, In (b, m) (pieces_item y) -> (not_tick m \/ exists i, m = [i] /\ is_tick_name i = true) /\ forall op, In op m -> In op (instrs_item y)) by (intros y Hy; apply Hx; now right).
    unfold instrs. cbn [flat_map]. fold (instrs l). specialize (IH Hx'). destruct x as [i|k body].
    + destruct (is_tick_name i) eqn:Ei.
      * destruct H as [[= <- <-]|[[= <- <-]|H]]; [auto | split; [right; eauto|]; intros op [<-|[]]; right; now left |].
        destruct (IH [] ltac:(constructor) b m H) as [H1 H2]. split; [exact H1|]. intros op Hop. destruct (H2 op Hop) as [[]|K]. right. apply in_or_app. now right.
      * assert (Hn' : not_tick (now ++ [i])) by (apply Forall_app; split; [exact Hn | now constructor]).
        destruct (IH _ Hn' b m H) as [H1 H2]. split; [exact H1|]. intros op Hop. destruct (H2 op Hop) as [K|K].
        -- apply in_app_iff in K. destruct K as [K|[<-|[]]]; [auto|]. right. now left.
        -- right. apply in_or_app. now right.
    + destruct H as [[= <- <-]|H]; [auto|]. apply in_app_iff in H. destruct H as [H|H].
      * destruct (Hx (Rep k body) (or_introl eq_refl) b m H) as [H1 H2]. split; [exact H1|]. intros op Hop. right. apply in_or_app. left. now apply H2.
      * destruct (IH [] ltac:(constructor) b m H) as [H1 H2]. split; [exact H1|]. intros op Hop. destruct (H2 op Hop) as [[]|K]. right. apply in_or_app. now right.
Qed.
Lemma in_concat_repeat {A} (x : A) l n : In x (concat (repeat l n)) -> In x l.
Proof. induction n as [|n IH]; [intros []|]. cbn [repeat concat]. rewrite in_app_iff. tauto. Qed.
Lemma in_pieces_item x : forall b m, In (b, m) (pieces_item x) -> (not_tick m \/ exists i, m = [i] /\ is_tick_name i = true) /\ forall op, In op m -> In op (instrs_item x).
Proof.
  induction x as [i|k body IH] using item_ind'; intros b m H; [destruct H|]. rewrite pieces_item_eq in H. apply in_concat_repeat in H.
  destruct (in_cut _ body IH [] ltac:(constructor) b m H) as [H1 H2]. split; [exact H1|]. intros op Hop. destruct (H2 op Hop) as [[]|K]. exact K.
Qed.
Lemma in_pieces c b m : In (b, m) (pieces c) -> (not_tick m \/ exists i, m = [i] /\ is_tick_name i = true) /\ forall op, In op m -> In op (instrs c).
Proof. apply in_pieces_item. Qed.

(** ** The gates themselves: unchanged, except that MPP is given its flip probability *)
Definition with_flip (nm : noise_model) (op : instr) : instr :=
  match op_strength nm op with
  | Ok p => if (iname op =? "MPP")%string && Qlt_bool 0 p then mkI (iname op) (itargets op) [Num p] else op
  | Err _ => op
  end.
Definition gates (l : list instr) : list instr := filter (fun i => negb (is_noise i)) l.
Lemma gates_app a b : gates (a ++ b) = gates a ++ gates b.
Proof. apply filter_app. Qed.
Lemma gates_nil l : strip l = [] <-> gates l = [].
Proof. unfold strip, gates. split; [apply map_eq_nil | now intros ->]. Qed.
Lemma append_nil i : canon (iname i) = iname i -> append_operation [] (iname i) (itargets i) (iargs i) = [I i].
Proof. intros E. unfold append_operation. rewrite E. now destruct i. Qed.
Lemma gather_mid nm a m : use_correlated nm = false -> (forall op, In op m -> ideal_op op) -> forall x y z, gather nm a m = Ok (x, y, z) -> flatten y = map (with_flip nm) m.
Proof.
  intros Hc. induction m as [|op m IH]; intros Hi x y z H; cbn [gather] in H.
  { injection H as <- <- <-. reflexivity. }
  destruct (op_strength nm op) as [p|] eqn:Ep; [|discriminate]. cbn [bind] in H. destruct (noisy_op nm op p a) as [[[x1 y1] z1]|] eqn:En; [|discriminate]. cbn [bind] in H.
  destruct (gather nm a m) as [[[x2 y2] z2]|] eqn:Eg; [|discriminate]. cbn [bind] in H. injection H as <- <- <-.
  rewrite flatten_app, (IH (fun o Ho => Hi o (or_intror Ho)) x2 y2 z2 eq_refl). cbn [map]. change (with_flip nm op :: map (with_flip nm) m) with ([with_flip nm op] ++ map (with_flip nm) m). f_equal.
  destruct (Hi op (or_introl eq_refl)) as (E & _ & _). unfold with_flip. rewrite Ep. unfold noisy_op in En.
  destruct (Qlt_bool 0 p) eqn:F.
  - rewrite andb_true_r. destruct (String.eqb_spec (iname op) "MPP") as [M|M].
    + rewrite M in En. cbn [in_names existsb ANY_CLIFFORD_1_OPS ANY_CLIFFORD_2_OPS RESET_OPS MEASURE_OPS String.eqb Ascii.eqb Bool.eqb orb] in En.
      destruct (triples (itargets op)); [|discriminate]. destruct (assert_ _); [|discriminate]. cbn [bind] in En. destruct (assert_ _); [|discriminate]. cbn [bind] in En.
      rewrite Hc in En. injection En as _ <- _. unfold append_operation. rewrite M. reflexivity.
    + assert (K : y1 = append_operation [] (iname op) (itargets op) (iargs op)) by (destruct (in_names (iname op) ANY_CLIFFORD_1_OPS); [congruence|]; destruct (in_names (iname op) ANY_CLIFFORD_2_OPS); [congruence|]; destruct (_ || _); [congruence|discriminate]).
      rewrite K, append_nil by exact E. reflexivity.
  - rewrite andb_false_r. injection En as _ <- _. rewrite append_nil by exact E. reflexivity.
Qed.
Lemma piece_gates nm a nq m c : use_correlated nm = false -> (forall op, In op m -> ideal_op op) -> not_tick m -> piece_out nm a (seq 0 nq) m = Ok c ->
  gates (flatten c) = map (with_flip nm) m.
Proof.
  intros Hc Hi Ht H. rewrite piece_out_run in H by exact Ht. destruct (gather nm a m) as [[[x y] z]|] eqn:Eg; [|discriminate]. cbn [bind] in H. injection H as <-.
  destruct (gather_spec nm a m Hc Hi x y z Eg) as (A1 & _ & A3 & _). pose proof (gather_mid nm a m Hc Hi x y z Eg) as A2.
  unfold flush. cbn [n_mid n_pre n_post n_used n_mr n_result].
  destruct (nonempty y) eqn:Ny; cbn [n_result].
  2:{ destruct y; [|discriminate]. cbn in A2. destruct m; [|discriminate]. reflexivity. }
  rewrite app_nil_l.
  fold (add_idle nq (used m) (idle nm) z). set (z1 := add_idle nq (used m) (idle nm) z).
  fold (add_idle nq (mrd m) (measure_reset_idle nm) z1). set (z2 := add_idle nq (mrd m) (measure_reset_idle nm) z1).
  assert (S2 : strip (flatten z2) = []) by (unfold z2, z1; rewrite !strip_add_idle; exact A3).
  rewrite !flatten_app, !gates_app. apply gates_nil in A1. apply gates_nil in S2. rewrite A1, S2, app_nil_r, A2. cbn [app].
  clear -Hi. induction m as [|op m IH]; [reflexivity|]. cbn [map gates filter].
  destruct (Hi op (or_introl eq_refl)) as (_ & _ & N). replace (is_noise (with_flip nm op)) with false.
  - cbn [negb]. f_equal. apply IH. intros; apply Hi; now right.
  - symmetry. unfold with_flip. destruct (op_strength nm op); [|exact N]. destruct (_ && _); exact N.
Qed.

(** ** The whole circuit, for models without correlated parity errors *)
Lemma gates_ideal l : (forall op, In op l -> ideal_op op) -> gates l = l.
Proof.
  intros H. induction l as [|op l IH]; [reflexivity|]. unfold gates. cbn [filter]. destruct (H op (or_introl eq_refl)) as (_ & _ & ->). cbn [negb]. f_equal. apply IH. intros; apply H; now right.
Qed.
Lemma flatten_instrs_item x : forall i, In i (flatten_item x) -> In i (instrs_item x).
Proof.
  induction x as [j|k body IH] using item_ind'; intros i H; [exact H|]. cbn [flatten_item instrs_item] in *. apply in_concat_repeat in H.
  apply in_flat_map in H. destruct H as (y & Hy & H). apply in_flat_map. exists y. split; [exact Hy|]. now apply IH.
Qed.
Lemma flatten_instrs c i : In i (flatten c) -> In i (instrs c).
Proof. intros H. apply in_flat_map in H. destruct H as (y & Hy & H). apply in_flat_map. exists y. split; [exact Hy|]. now apply flatten_instrs_item. Qed.

Lemma tick_strength nm : dict_get String.eqb "TICK"%string (noisy_gates nm) = None -> op_strength nm (mkI "TICK" [] []) = Ok 0%Q.
Proof. intros E. unfold op_strength. cbn [iname]. rewrite E. destruct (any_clifford_1 nm), (any_clifford_2 nm); reflexivity. Qed.
Lemma with_flip_tick nm : with_flip nm (mkI "TICK" [] []) = mkI "TICK" [] [].
Proof. unfold with_flip. destruct (op_strength _ _); reflexivity. Qed.

Theorem noisy_gates_same nm c c' : use_correlated nm = false -> (forall op, In op (instrs c) -> ideal_op op) -> noisy_circuit nm c = Ok c' ->
  gates (flatten c') = map (with_flip nm) (flatten c).
Proof.
  intros Hc Hi H. destruct (noisy_circuit_pieces nm c c' (fun i Hi' => proj1 (proj2 (Hi i Hi'))) H) as (outs & F & ->).
  rewrite <- contents_pieces. unfold contents.
  assert (G : forall b m, In (b, m) (pieces c) -> (not_tick m \/ exists i, m = [i] /\ is_tick_name i = true) /\ forall op, In op m -> ideal_op op).
  { intros b m K. destruct (in_pieces c b m K) as [K1 K2]. split; [exact K1|]. auto. }
  clear H. induction F as [|[b m] o ps os R F IH]; [reflexivity|]. cbn [concat flat_map snd]. rewrite gates_app, map_app. f_equal; [|apply IH; intros; eapply G; right; eauto].
  destruct R as (r & Er & ->). cbn [fst snd] in Er. destruct (G b m (or_introl eq_refl)) as [[T|(i & -> & T)] I'].
  - eapply piece_gates; eauto.
  - unfold piece_out in Er. unfold is_tick_name in *. rewrite T in Er. injection Er as <-. cbn [flatten flat_map flatten_item app map].
    apply String.eqb_eq in T. destruct (I' i (or_introl eq_refl)) as (_ & P & N). rewrite (P T), with_flip_tick. reflexivity.
Qed.
