(** C75-C77: the double EPR circuit (src/honeycomb_circuit_double_epr_test.py). *)
From Coq Require Import QArith String.
From Verif Require Import Prelude Layout LayoutFacts LayoutEdges LayoutLists LayoutHex LayoutHex2 Pauli LayoutObs LayoutLogic LayoutIndex Prop_Layout
  Distance Distance2 Prop_Distance
  Tracker TrackerFacts Stim Circuit Annot Shift Ends Gen Gen2 Traj Eval Frame Exec Exec2 Exec4 Prop_Circuit
  Noise NoiseFacts NoiseMoments Epr EprRun EprRun2 EprNoise.
Open Scope Z_scope.

(** ** Vocabulary *)
(** The circuit without its noise: channels removed, measurement flip probabilities set to
    zero ([strip], NoiseMoments.v). *)
Definition noiseless (c : circuit) : list instr := strip (flatten c).
(** The four operators entangled with the ancillas: the observables H and V before
    sub-round s, and those before sub-round s + 3. *)
Definition logical (lay : layout) (s : Z) (j : nat) (op : pstring) : Prop :=
  match j with
  | 0 => observable lay "H" s op
  | 1 => observable lay "V" s op
  | 2 => observable lay "H" (s + 3) op
  | 3 => observable lay "V" (s + 3) op
  | _ => False
  end%nat.
(** err is the Pauli error P, qubit by qubit. *)
Definition acts_as (lay : layout) (P : pstring) (err : nat -> bits) : Prop :=
  (forall q x, qubit lay q x -> err x = bits_at P q) /\ on_data lay err.
(** a is what comes before sub-round k: the four joint measurements and, when k > 0, all up
    to the k-th TICK. *)
Definition is_tick (i : instr) : bool := (iname i =? "TICK")%string.
Definition cut_before (k : Z) (l a b : list instr) : Prop :=
  l = a ++ b /\ Z.of_nat (length (filter is_tick a)) = k /\
  (if k =? 0 then length a = 8%nat else exists a' i, a = a' ++ [i] /\ is_tick i = true).
(** P commutes with all stabilizers and with the checks measured just before sub-round k. *)
Definition unseen (lay : layout) (k : Z) (P : pstring) : Prop :=
  (forall h c, hex_of lay h c -> anticommutes (stabilizer lay h c) P = false) /\
  (0 < k -> forall e, In e (round_edges lay (k - 1)) -> anticommutes (check lay (k - 1) e) P = false).

Lemma logical_Oi lay s j op : logical lay s j op -> (j < 4)%nat /\ op = Oi lay j s.
Proof.
  destruct j as [|[|[|[|j]]]]; cbn [logical Oi]; intros H; [apply obs_h_op in H | apply obs_v_op in H | apply obs_h_op in H | apply obs_v_op in H | contradiction]; (split; [lia | exact H]).
Qed.
Lemma anti_par P Q : anticommutes Q P = par (bits_at P) Q.
Proof. apply anticommutes_bits. Qed.

Section C.
  Variable lay : layout.
  Hypothesis Hv : valid lay.
  Hypothesis Hst : style lay = "EM3"%string.
  Notation n := (sub_rounds lay).
  Notation ids := [0; 1; 2; 3]%nat.
  Notation par0 := (flat_map (parity_i lay 0) ids).
  Notation parn := (flat_map (parity_i lay n) ids).
  Let He := Hem lay Hst.
  Local Opaque data_qubit_coords measure_qubit_coords q2i_dict hex_entries hexes round_edges all_edges isort.

  Lemma first_ok g f : exists st, run g par0 (start f) = Ok st /\ EI lay 4 0 tr_init (fun _ => false) st.
  Proof.
    destruct (run_parities lay Hv He g 0 (start f)) as (st & R & L & D & O & O'). exists st. split; [exact R|]. cbn [start frec fdets fobs] in *. split.
    - apply wf_init.
    - reflexivity.
    - rewrite L. reflexivity.
    - intros K. lia.
    - intros h _. exact Logic.I.
    - intros r h K. lia.
    - rewrite D. constructor.
    - rewrite D. reflexivity.
    - intros j Hj. destruct (O j Hj) as [-> ->]. now rewrite xorb_false_l, xorb_false_r.
    - intros j Hj. now rewrite O'.
  Qed.

  Lemma hit_ok off k tr c st P err : 0 <= k -> acts_as lay P err -> unseen lay k P -> EI lay off k tr c st ->
    EI lay off k tr (fun j => xorb (c j) (anticommutes P (Oi lay j k))) (apply_error err st).
  Proof.
    intros Hk [A1 A2] [U1 U2] [Iw It Il Ih Ix Iv Id In_ Io Io'].
    assert (M : forall Q, (forall pq, In pq Q -> isdata lay (snd pq)) -> par (At lay (apply_error err st)) Q = xorb (par (At lay st) Q) (anticommutes P Q)).
    { intros Q HQ. rewrite (par_mul (At lay st) _ P Q true); [reflexivity|]. intros pq Hpq. specialize (HQ pq Hpq). unfold At, apply_error. cbn [with_fr fr bsel]. f_equal.
      apply A1. split; [now apply (in_data lay Hv)|]. apply q2i_ix; [exact Hv | now apply data_in_qubits]. }
    assert (Ma : forall j, fr (apply_error err st) (snd (anc lay j)) = fr st (snd (anc lay j))).
    { intros j. unfold apply_error. cbn [with_fr fr]. rewrite A2; [apply bxor_zero_r|]. intros q Hq K. apply (in_data lay Hv) in Hq.
      rewrite q2i_ix in K by (try exact Hv; now apply data_in_qubits). assert (K' : ix lay q = snd (anc lay j)) by congruence. pose proof (ix_lt lay Hv He q Hq). pose proof (anc_ge lay j). lia. }
    split; auto.
    - intros L h Hh. destruct (Ih L h Hh) as [B1 B2]. split; [exact B1|]. cbn [apply_error with_fr frec]. destruct (hexcat2 lay Hv k h Hh) as [Hx Hc].
      rewrite M by (intros pq Hpq; unfold half_op in Hpq; eapply (data_around lay Hv (At lay st)); eassumption).
      replace (anticommutes P (half_op lay h)) with false; [now rewrite xorb_false_r|]. symmetry. rewrite anticommutes_sym, anti_par. unfold half_op.
      rewrite <- (par_pstr_perm _ _ _ _ (first_edges_cover lay h)), <- par_edges. apply xsum_false. intros e He'. rewrite <- anti_par.
      replace (xyz (hexcat h + 1)) with (xyz (k - 1)) by (apply xyz_eq; revert Hc; generalize (hexcat h); clear; intros; dlia).
      apply (U2 ltac:(lia)). apply (first_in lay Hv (k - 1) h); [|exact He']. unfold H2 in Hh. unfold H1. now replace ((k - 1 - 1) mod 3) with ((k - 2) mod 3) by dlia.
    - intros h Hh. cbn [apply_error with_fr frec].
      rewrite M by (intros pq Hpq; unfold hex_op in Hpq; eapply (data_around lay Hv (At lay st)); eassumption).
      replace (anticommutes P (hex_op lay h)) with false; [rewrite xorb_false_r; now apply Ix|]. symmetry. rewrite anticommutes_sym.
      exact (U1 h (hexcat h) (proj2 (hex_of_iff lay h _ Hv) (conj Hh eq_refl))).
    - intros j Hj. cbn [apply_error with_fr fobs]. rewrite Io by exact Hj. unfold val. rewrite Ma, M by apply (Oi_data lay Hv j k).
      destruct (anti2 _ _), (par _ _), (c j), (anticommutes _ _); reflexivity.
  Qed.

  Lemma last_ok g off tr c st : EI lay off n tr c st -> exists st', run g parn st = Ok st' /\
    length (frec st') = (length (frec st) + 4)%nat /\ fdets st' = fdets st /\ forall j, fobs st' j = (j <? 4)%nat && c j.
  Proof.
    intros [_ _ _ _ _ _ _ _ Io Io']. destruct (run_parities lay Hv He g n st) as (st' & R & L & D & O & O'). exists st'. split; [exact R|]. split; [lia|]. split; [exact D|].
    intros j. destruct (Nat.ltb_spec j 4) as [Hj|Hj]; cbn [andb].
    - destruct (O j Hj) as [-> _]. rewrite Io by exact Hj. destruct (val _ _ _ _), (c j); reflexivity.
    - now rewrite O', Io' by exact Hj.
  Qed.

  (** The generated circuit, cut before any sub-round. *)
  Lemma circuit_split k : 0 <= k <= n -> exists c chs1 chs2, double_epr_circuit lay = Ok c /\ flatten c = par0 ++ concat (chs1 ++ chs2) ++ parn /\
    Forall2 (moment_shape lay) (zrange 0 k) chs1 /\ Forall2 (moment_shape lay) (zrange k n) chs2 /\
    exists tr1, (forall g f, exists st0, run g (par0 ++ strip (concat chs1)) (start f) = Ok st0 /\ EI lay 4 k tr1 (fun _ => false) st0) /\
      (forall g cc st0, EI lay 4 k tr1 cc st0 -> exists st1, run g (strip (concat chs2) ++ parn) st0 = Ok st1 /\
        Forall (fun b => b = false) (fdets st1) /\ Z.of_nat (length (fdets st1)) = Z.max 0 (n - 6) * Z.of_nat (length (hexes lay 0)) /\
        Z.of_nat (length (frec st1)) = 8 + n * Z.of_nat (length (round_edges lay 0)) /\
        forall j, fobs st1 j = (j <? 4)%nat && cc j).
  Proof.
    intros Hk.
    assert (S1 : forall g f, exists chs tr st0 st, run g par0 (start f) = Ok st0 /\ for_ (zrange 0 k) (epr_body lay) ([], tr_init) = Ok (map Stim.I (concat chs), tr) /\
      Forall2 (moment_shape lay) (zrange 0 k) chs /\ run g (strip (concat chs)) st0 = Ok st /\ EI lay 4 k tr (fun _ => false) st).
    { intros g f. destruct (first_ok g f) as (st0 & R0 & HI0).
      destruct (segment lay Hv Hst g 4 (fun _ => false) (Z.to_nat k) 0 [] tr_init st0 ltac:(lia) ltac:(lia) HI0) as (chs & tr & st & F & Sh & R & HI).
      rewrite Z.add_0_l, Z2Nat.id in * by lia. exists chs, tr, st0, st. auto. }
    assert (S2 : forall g tr c st, EI lay 4 k tr c st -> forall mem, exists chs tr' st', for_ (zrange k n) (epr_body lay) (mem, tr) = Ok (mem ++ map Stim.I (concat chs), tr') /\
      Forall2 (moment_shape lay) (zrange k n) chs /\ run g (strip (concat chs)) st = Ok st' /\ EI lay 4 n tr' c st').
    { intros g tr c st HI mem.
      destruct (segment lay Hv Hst g 4 c (Z.to_nat (n - k)) k mem tr st ltac:(lia) ltac:(lia) HI) as (chs & tr' & st' & F & Sh & R & HI').
      replace (k + Z.of_nat (Z.to_nat (n - k))) with n in * by lia. exists chs, tr', st'. auto. }
    destruct (S1 (fun _ => false) (fun _ => bzero)) as (chs1 & tr1 & s0 & s1 & _ & F1 & Sh1 & _ & HI1).
    destruct (S2 (fun _ => false) tr1 _ s1 HI1 (map Stim.I (concat chs1))) as (chs2 & tr2 & s2 & F2 & Sh2 & _ & _).
    exists (map Stim.I (par0 ++ concat (chs1 ++ chs2) ++ parn)), chs1, chs2. split; [|split; [apply flatten_I|split; [exact Sh1|split; [exact Sh2|]]]].
    { rewrite double_epr_eq, (zrange_split 0 k n) by lia. rewrite for_app, F1, bind_ok.
      eapply eq_trans; [apply (f_equal (fun m => bind m _)); exact F2|]. rewrite bind_ok, !(parities_eq lay Hv), !bind_ok.
      rewrite concat_app, !map_app, <- !app_assoc. reflexivity. }
    exists tr1. split.
    - intros g f. destruct (S1 g f) as (chs1' & tr1' & st0 & st & R0 & F1' & Sh1' & R1 & HI). rewrite F1 in F1'.
      assert (K1 : concat chs1' = concat chs1 /\ tr1' = tr1) by (injection F1' as K1 K2; split; [symmetry; now apply map_I_inj | now symmetry]).
      destruct K1 as [K1 ->]. rewrite K1 in R1. exists st. split; [rewrite run_app, R0; exact R1 | exact HI].
    - intros g cc st0 HI'.
      destruct (S2 g tr1 _ _ HI' (map Stim.I (concat chs1))) as (chs2' & tr2' & st2 & F2' & Sh2' & R2 & HI2). rewrite F2 in F2'.
      assert (K2 : concat chs2' = concat chs2) by (injection F2' as K2 _; apply app_inv_head in K2; symmetry; now apply map_I_inj). rewrite K2 in R2.
      destruct (last_ok g 4 _ _ _ HI2) as (st3 & R3 & L3 & D3 & O3). exists st3. split; [rewrite run_app, R2; exact R3|]. rewrite D3. split; [apply (ei_dets _ _ _ _ _ _ HI2)|].
      split; [apply (ei_ndets _ _ _ _ _ _ HI2)|]. split; [|exact O3].
      rewrite L3, (ei_len _ _ _ _ _ _ HI2). pose proof (ei_tm _ _ _ _ _ _ HI2). lia.
  Qed.

  Lemma strip_par s : strip (flat_map (parity_i lay s) ids) = flat_map (parity_i lay s) ids.
  Proof. reflexivity. Qed.
  Lemma ticks_app a b : length (filter is_tick (a ++ b)) = (length (filter is_tick a) + length (filter is_tick b))%nat.
  Proof. now rewrite filter_app, app_length. Qed.
  Lemma ticks_annot ann : Forall annot ann -> filter is_tick ann = [].
  Proof. induction 1 as [|i l H F IH]; [reflexivity|]. cbn [filter]. unfold is_tick at 1. destruct H as [->| ->]; exact IH. Qed.
  Lemma ticks_moments l chs : Forall2 (moment_shape lay) l chs -> length (filter is_tick (strip (concat chs))) = length l.
  Proof.
    induction 1 as [|s ch l chs H F IH]; [reflexivity|]. cbn [concat length]. rewrite strip_app, ticks_app, IH.
    destruct (strip_moment lay s ch H) as (ann & Ha & _ & ->). cbn [filter]. change (is_tick (mpp_e lay s)) with false. cbn iota.
    rewrite ticks_app, (ticks_annot ann Ha). reflexivity.
  Qed.
  Lemma ends_moments l chs : Forall2 (moment_shape lay) l chs -> l <> [] -> exists a', strip (concat chs) = a' ++ [tick_i].
  Proof.
    induction 1 as [|s ch l chs H F IH]; intros Hl; [congruence|]. cbn [concat]. rewrite strip_app.
    destruct (strip_moment lay s ch H) as (ann & Ha & _ & ->). destruct l as [|s' l].
    - inversion F; subst. exists (mpp_e lay s :: ann). now rewrite app_nil_r.
    - destruct IH as (a' & ->); [discriminate|]. exists ((mpp_e lay s :: ann ++ [tick_i]) ++ a'). now rewrite <- app_assoc.
  Qed.
  Lemma cut_found k c chs1 chs2 : 0 <= k <= n -> flatten c = par0 ++ concat (chs1 ++ chs2) ++ parn -> Forall2 (moment_shape lay) (zrange 0 k) chs1 ->
    cut_before k (noiseless c) (par0 ++ strip (concat chs1)) (strip (concat chs2) ++ parn).
  Proof.
    intros Hk Hf F. assert (L : length (zrange 0 k) = Z.to_nat k) by (unfold zrange; rewrite map_length, seq_length; lia). split; [|split].
    - unfold noiseless. rewrite Hf, !strip_app, concat_app, strip_app, !strip_par, <- !app_assoc. reflexivity.
    - rewrite ticks_app, (ticks_moments _ _ F), L. change (length (filter is_tick par0)) with 0%nat. lia.
    - destruct (Z.eqb_spec k 0) as [->|N].
      + unfold zrange in F. cbn in F. inversion F; subst. reflexivity.
      + destruct (ends_moments _ _ F) as (a' & ->); [intros K; rewrite K in L; cbn in L; lia|]. exists (par0 ++ a'), tick_i. now rewrite app_assoc.
  Qed.
End C.

Lemma cut_unique k l a b a' b' : cut_before k l a b -> cut_before k l a' b' -> a = a' /\ b = b'.
Proof.
  assert (K : forall a b a' b', cut_before k l a b -> cut_before k l a' b' -> (length a <= length a')%nat -> a = a' /\ b = b').
  { clear a b a' b'. intros a b a' b' (E1 & T1 & C1) (E2 & T2 & C2) L. rewrite E1 in E2.
    assert (D : exists d, a' = a ++ d /\ b = d ++ b').
    { clear -E2 L. revert a' E2 L. induction a as [|x a IH]; intros a' E2 L; [exists a'; auto|]. destruct a' as [|x' a']; [cbn in L; lia|].
      cbn in E2. injection E2 as -> E2. destruct (IH a' E2 ltac:(cbn in L; lia)) as (d & -> & ->). now exists d. }
    destruct D as (d & -> & ->). assert (D0 : d = []); [|subst d; now rewrite app_nil_r].
    rewrite ticks_app in T2. destruct (k =? 0).
    - rewrite app_length in C2. apply length_zero_iff_nil. lia.
    - destruct C2 as (x & i & C2 & Ti). destruct d as [|y d]; [reflexivity|]. exfalso.
      destruct (exists_last (l := y :: d) ltac:(discriminate)) as (d' & z & Ez). rewrite Ez in *. rewrite app_assoc in C2. apply app_inj_tail in C2. destruct C2 as [_ ->].
      rewrite ticks_app in T2. cbn [filter] in T2. rewrite Ti in T2. cbn [length] in T2. lia. }
  intros H1 H2. destruct (Nat.le_ge_cases (length a) (length a')) as [L|L]; [eapply K; eauto|]. destruct (K _ _ _ _ H2 H1 L). auto.
Qed.


(** The error P, on the data qubits, as one Pauli per qubit index. *)
Definition error_of (lay : layout) (P : pstring) (x : nat) : bits :=
  match nth_error (data_qubit_coords lay) x with Some q => bits_at P q | None => bzero end.
Lemma error_of_acts lay P : valid lay -> acts_as lay P (error_of lay P).
Proof.
  intros Hv. split.
  - intros q x [Hq Ei]. unfold error_of. apply (proj1 (in_data lay Hv q)) in Hq. rewrite (proj1 (q2i_data lay Hv q x Hq Ei)). reflexivity.
  - intros x Hx. unfold error_of. destruct (nth_error (data_qubit_coords lay) x) as [q|] eqn:E; [|reflexivity]. exfalso.
    apply (Hx q); [eapply nth_error_In; eauto|]. apply (q2i_spec lay Hv). unfold qubits. rewrite nth_error_app1; [exact E|]. apply nth_error_Some. congruence.
Qed.

(** ** C75: without noise nothing fires and the entanglement survives *)
Theorem C75_double_epr_deterministic : forall lay, valid lay -> style lay = "EM3"%string -> 0 <= sub_rounds lay ->
  exists c, double_epr_circuit lay = Ok c /\
  forall g f, exists st, run g (noiseless c) (start f) = Ok st /\
    (forall b, In b (fdets st) -> b = false) /\ (forall j, fobs st j = false) /\
    6 * Z.of_nat (length (fdets st)) = Z.max 0 (sub_rounds lay - 6) * (data_width lay * data_height lay) /\
    2 * (Z.of_nat (length (frec st)) - 8) = sub_rounds lay * (data_width lay * data_height lay).
Proof.
  intros lay Hv Hst Hn. destruct (circuit_split lay Hv Hst 0 ltac:(lia)) as (c & chs1 & chs2 & Hc & Hf & F1 & F2 & tr1 & R1 & R2).
  exists c. split; [exact Hc|]. intros g f. destruct (R1 g f) as (st0 & E0 & HI). destruct (R2 g _ _ HI) as (st1 & E1 & D & ND & NR & O).
  exists st1. destruct (cut_found lay 0 c chs1 chs2 ltac:(lia) Hf F1) as (-> & _). split; [rewrite run_app, E0; exact E1|]. split; [now apply Forall_forall|]. split; [intros j; rewrite O; apply andb_false_r|].
  rewrite ND, NR, (length_hexes lay 0 Hv : length (hexes lay 0) = _), (count_round_edges lay Hv 0).
  pose proof (valid_tiles lay Hv) as (T1 & T2 & -> & ->). split; nia.
Qed.
Print Assumptions C75_double_epr_deterministic.

(** ** C76: what an error between two sub-rounds does to the four observables *)
(** st is the end of a run in which the error P struck just before sub-round k. *)
Definition ran_with_error (lay : layout) (c : circuit) (k : Z) (P : pstring) (g : nat -> bool) (f : nat -> bits) (st : fstate) : Prop :=
  exists a b err st0, cut_before k (noiseless c) a b /\ acts_as lay P err /\ run g a (start f) = Ok st0 /\ run g b (apply_error err st0) = Ok st.
Lemma ran_ok lay c k P g f : valid lay -> style lay = "EM3"%string -> 0 <= k <= sub_rounds lay -> double_epr_circuit lay = Ok c -> unseen lay k P ->
  (exists st, ran_with_error lay c k P g f st) /\
  forall st, ran_with_error lay c k P g f st -> (forall b, In b (fdets st) -> b = false) /\ forall j, fobs st j = (j <? 4)%nat && anticommutes P (Oi lay j k).
Proof.
  intros Hv Hst Hk Hc Hu. destruct (circuit_split lay Hv Hst k Hk) as (c' & chs1 & chs2 & Hc' & Hf & F1 & F2 & tr1 & R1 & R2).
  rewrite Hc in Hc'. injection Hc' as <-. pose proof (cut_found lay k c chs1 chs2 Hk Hf F1) as Hcut.
  destruct (R1 g f) as (st0 & E0 & HI). split.
  - destruct (R2 g _ _ (hit_ok lay Hv Hst 4 k tr1 _ st0 P _ (proj1 Hk) (error_of_acts lay P Hv) Hu HI)) as (st1 & E1 & _). exists st1. eexists _, _, _, _. split; [exact Hcut|]. split; [apply (error_of_acts lay P Hv)|]. split; [exact E0 | exact E1].
  - intros st (a & b & err & st0' & Ccut & A & E0' & E1'). destruct (cut_unique _ _ _ _ _ _ Hcut Ccut) as [<- <-]. rewrite E0 in E0'. injection E0' as <-.
    destruct (R2 g _ _ (hit_ok lay Hv Hst 4 k tr1 _ st0 P err (proj1 Hk) A Hu HI)) as (st1 & E1 & D & _ & _ & O).
    rewrite E1 in E1'. injection E1' as <-. split; [now apply Forall_forall|]. intros j. rewrite O. now rewrite xorb_false_l.
Qed.

Theorem C76_error_effect : forall lay c k P g f, valid lay -> style lay = "EM3"%string -> 0 <= k <= sub_rounds lay ->
  double_epr_circuit lay = Ok c -> unseen lay k P ->
  exists st, ran_with_error lay c k P g f st /\
  forall st', ran_with_error lay c k P g f st' ->
    (forall b, In b (fdets st') -> b = false) /\
    (forall j op, logical lay k j op -> fobs st' j = anticommutes P op) /\ (forall j, (4 <= j)%nat -> fobs st' j = false).
Proof.
  intros lay c k P g f Hv Hst Hk Hc Hu. destruct (ran_ok lay c k P g f Hv Hst Hk Hc Hu) as [(st & R) H]. exists st. split; [exact R|].
  intros st' R'. destruct (H st' R') as [D O]. split; [exact D|]. split.
  - intros j op L. apply logical_Oi in L. destruct L as [L ->]. rewrite O. now rewrite (proj2 (Nat.ltb_lt j 4) L).
  - intros j L. rewrite O. now rewrite (proj2 (Nat.ltb_ge j 4) L).
Qed.
Print Assumptions C76_error_effect.

Lemma logical_ok lay k j op : valid lay -> logical lay k j op -> on_data_qubits lay op /\ undetected lay (k - 1) op.
Proof.
  intros Hv L. apply logical_Oi in L. destruct L as [Hj ->]. split.
  - intros p q H. apply in_data; [exact Hv|]. exact (Oi_data lay Hv j k (p, q) H).
  - apply undetected_iff; [exact Hv|]. destruct j as [|[|[|j]]]; cbn [Oi]; first [apply Hop_undet | apply Vop_undet]; try exact Hv; dlia.
Qed.
Lemma undetected_unseen lay k P : undetected lay (k - 1) P -> unseen lay k P.
Proof. intros [A B]. split; [exact B|]. intros _. exact A. Qed.

(** Each logical operator, applied as an error, escapes the detectors and flips exactly the
    observable of its partner: horizontal and vertical of the same pair. *)
Definition partner (j : nat) : nat := match j with 0 => 1 | 1 => 0 | 2 => 3 | 3 => 2 | _ => j end%nat.
Theorem C76_logical_operators : forall lay c k j op g f st, valid lay -> style lay = "EM3"%string -> 0 <= k <= sub_rounds lay ->
  double_epr_circuit lay = Ok c -> logical lay k j op -> ran_with_error lay c k op g f st ->
  (forall b, In b (fdets st) -> b = false) /\ (forall i, fobs st i = true <-> i = partner j).
Proof.
  intros lay c k j op g f st Hv Hst Hk Hc L R. destruct (logical_ok lay k j op Hv L) as [_ HU].
  destruct (ran_ok lay c k op g f Hv Hst Hk Hc (undetected_unseen lay k op HU)) as [_ H]. destruct (H st R) as [D O]. split; [exact D|].
  apply logical_Oi in L. destruct L as [Hj ->]. intros i. rewrite O. destruct (Nat.ltb_spec i 4) as [Hi|Hi]; cbn [andb].
  - rewrite (Oi_pair lay Hv) by assumption. destruct j as [|[|[|[|j]]]]; try lia; destruct i as [|[|[|[|i]]]]; try lia; cbn; split; congruence.
  - split; [discriminate|]. destruct j as [|[|[|[|j]]]]; cbn; lia.
Qed.
Print Assumptions C76_logical_operators.

(** Of the errors the detectors cannot see, exactly the products of checks and stabilizers
    leave all four observables alone. *)
Theorem C76_harmless_iff_unchanged : forall lay c k P g f st, valid lay -> style lay = "EM3"%string -> 0 <= k <= sub_rounds lay ->
  double_epr_circuit lay = Ok c -> on_data_qubits lay P -> undetected lay (k - 1) P -> ran_with_error lay c k P g f st ->
  (forall j, fobs st j = false) <-> harmless lay (k - 1) P.
Proof.
  intros lay c k P g f st Hv Hst Hk Hc Hd HU R. destruct (ran_ok lay c k P g f Hv Hst Hk Hc (undetected_unseen lay k P HU)) as [_ H]. destruct (H st R) as [_ O].
  assert (E : forall o s, (o = "H" \/ o = "V")%string -> observable lay o s (if (o =? "H")%string then Hop lay s else Vop lay s)).
  { intros o s [->| ->].
    - exists (fst (obs_h_before_sub_round lay s)), (snd (obs_h_before_sub_round lay s)). split; [|reflexivity]. exact (f_equal Ok (surjective_pairing (obs_h_before_sub_round lay s))).
    - exists (fst (obs_v_before_sub_round lay s)), (snd (obs_v_before_sub_round lay s)). split; [|reflexivity]. exact (f_equal Ok (surjective_pairing (obs_v_before_sub_round lay s))). }
  pose proof (C66_harmless_iff lay (k - 1) P _ _ _ _ Hv Hd (E "H"%string (k - 1 + 1) (or_introl eq_refl)) (E "V"%string (k - 1 + 1) (or_intror eq_refl))
    (E "H"%string (k - 1 + 4) (or_introl eq_refl)) (E "V"%string (k - 1 + 4) (or_intror eq_refl))) as K.
  cbn [String.eqb Ascii.eqb Bool.eqb] in K. replace (k - 1 + 1) with k in K by lia. replace (k - 1 + 4) with (k + 3) in K by lia. split.
  - intros Z0. apply K. split; [exact HU|]. pose proof (Z0 0%nat) as Z1. pose proof (Z0 1%nat) as Z2. pose proof (Z0 2%nat) as Z3. pose proof (Z0 3%nat) as Z4.
    rewrite O in Z1, Z2, Z3, Z4. cbn [Oi Nat.ltb Nat.leb andb] in *. auto.
  - intros Hh j. apply K in Hh. destruct Hh as (_ & H1 & H2 & H3 & H4). rewrite O. destruct j as [|[|[|[|j]]]]; cbn [Oi Nat.ltb Nat.leb andb]; auto.
Qed.
Print Assumptions C76_harmless_iff_unchanged.

(** ** C77: where the noise is *)
(** ps are the index pairs of the checks measured in sub-round s. *)
Definition check_pairs (lay : layout) (s : Z) (ps : list (nat * nat)) : Prop :=
  Forall2 (fun e ab => q2i lay (e_left e) = Ok (fst ab) /\ q2i lay (e_right e) = Ok (snd ab)) (round_edges lay s) ps.
(** One sub-round: in the first three, and when there is no noise at all, the checks are
    measured without error; else each pair is depolarized and then measured with error
    probability p.  The four observables and, from the seventh sub-round on, one detector per
    hex of one colour follow. *)
Definition sub_round_shape (lay : layout) (s : Z) (l : list instr) : Prop :=
  exists ps ann nd, check_pairs lay s ps /\
    let depolarize := mkI "DEPOLARIZE2" (flat_map (fun ab => [TQ (fst ab); TQ (snd ab)]) ps) [Num (noise lay)] in
    let measure args := mkI "MPP" (flat_map (fun ab => [TP (sub_round_edge_basis lay s) (fst ab); TComb; TP (sub_round_edge_basis lay s) (snd ab)]) ps) args in
    l = (if (3 <=? s) && Qlt_bool 0 (noise lay) then [depolarize; measure [Num (noise lay)]] else [measure []])
        ++ ann ++ [mkI "TICK" [] []] /\
    map (fun i => (iname i, iargs i)) ann =
      [("OBSERVABLE_INCLUDE", [int_arg 0]); ("OBSERVABLE_INCLUDE", [int_arg 1]); ("OBSERVABLE_INCLUDE", [int_arg 2]); ("OBSERVABLE_INCLUDE", [int_arg 3])]%string
      ++ repeat ("DETECTOR"%string, []) nd /\
    6 * Z.of_nat nd = (if 6 <=? s then data_width lay * data_height lay else 0).
(** The joint measurement of logical operator j (before sub-round s) with its ancilla. *)
Definition parity_shape (lay : layout) (s : Z) (j : nat) (l : list instr) : Prop :=
  exists op xs, logical lay s j op /\ Forall2 (fun pq x => q2i lay (snd pq) = Ok (snd x) /\ fst pq = fst x) op xs /\
    l = [mkI "MPP" (TP (if Nat.even j then PX else PZ) (Z.to_nat (num_qubits lay) + j / 2) :: flat_map (fun x => [TComb; TP (fst x) (snd x)]) xs) [];
         mkI "OBSERVABLE_INCLUDE" [TRec (-1)] [int_arg (Z.of_nat j)]].

Lemma obs_exists lay o s : (o = "H" \/ o = "V")%string -> observable lay o s (if (o =? "H")%string then Hop lay s else Vop lay s).
Proof.
  intros [->| ->].
  - exists (fst (obs_h_before_sub_round lay s)), (snd (obs_h_before_sub_round lay s)). split; [|reflexivity]. exact (f_equal Ok (surjective_pairing (obs_h_before_sub_round lay s))).
  - exists (fst (obs_v_before_sub_round lay s)), (snd (obs_v_before_sub_round lay s)). split; [|reflexivity]. exact (f_equal Ok (surjective_pairing (obs_v_before_sub_round lay s))).
Qed.
Lemma Oi_logical lay s j : (j < 4)%nat -> logical lay s j (Oi lay j s).
Proof.
  intros Hj. destruct j as [|[|[|[|j]]]]; [ | | | | lia]; cbn [logical Oi].
  - exact (obs_exists lay "H" s (or_introl eq_refl)).
  - exact (obs_exists lay "V" s (or_intror eq_refl)).
  - exact (obs_exists lay "H" (s + 3) (or_introl eq_refl)).
  - exact (obs_exists lay "V" (s + 3) (or_intror eq_refl)).
Qed.
Lemma parity_ok lay s j : valid lay -> (j < 4)%nat -> parity_shape lay s j (parity_i lay s j).
Proof.
  intros Hv Hj. exists (Oi lay j s), (map (fun pq => (fst pq, ix lay (snd pq))) (Oi lay j s)). split; [now apply Oi_logical|]. split.
  - assert (K : forall l, (forall pq, In pq l -> isdata lay (snd pq)) ->
      Forall2 (fun pq (x : pauli * nat) => q2i lay (snd pq) = Ok (snd x) /\ fst pq = fst x) l (map (fun pq => (fst pq, ix lay (snd pq))) l)).
    { induction l as [|pq l IH]; intros H; cbn [map]; constructor; [|apply IH; intros; apply H; now right]. cbn [fst snd]. split; [|reflexivity].
      apply q2i_ix; [exact Hv|]. apply data_in_qubits; [exact Hv|]. apply H. now left. }
    apply K. intros pq. apply (Oi_data lay Hv).
  - unfold parity_i. rewrite flat_map_concat_map, (flat_map_concat_map _ (map _ _)), map_map. cbn [fst snd anc].
    replace (Z.to_nat (num_qubits lay) + j / 2)%nat with (if (j <? 2)%nat then anc_a lay else anc_b lay); [reflexivity|].
    unfold anc_b, anc_a. destruct j as [|[|[|[|j]]]]; [ | | | | lia]; cbn [Nat.ltb Nat.leb]; (change (Nat.div 0 2) with 0%nat || change (Nat.div 1 2) with 0%nat || change (Nat.div 2 2) with 1%nat || change (Nat.div 3 2) with 1%nat); lia.
Qed.
Lemma sub_round_ok lay s ch : valid lay -> moment_shape lay s ch -> sub_round_shape lay s ch.
Proof.
  intros Hv (ann & E & Hn). exists (map (fun e => (ix lay (e_left e), ix lay (e_right e))) (round_edges lay s)), ann, (if 6 <=? s then length (hexes lay 0) else 0%nat). split; [|split; [|split]].
  - unfold check_pairs. assert (K : forall l, (forall e, In e l -> isdata lay (e_left e) /\ isdata lay (e_right e)) ->
      Forall2 (fun e (ab : nat * nat) => q2i lay (e_left e) = Ok (fst ab) /\ q2i lay (e_right e) = Ok (snd ab)) l (map (fun e => (ix lay (e_left e), ix lay (e_right e))) l)).
    { induction l as [|e l IH]; intros H; cbn [map]; constructor; [|apply IH; intros; apply H; now right]. cbn [fst snd].
      destruct (H e (or_introl eq_refl)) as [A B]. split; (apply q2i_ix; [exact Hv|]; apply data_in_qubits; assumption). }
    apply K. intros e He. pose proof (proj1 (C04_perfect_matching lay s Hv)) as P.
    split; apply (proj1 (in_data lay Hv _)), (Permutation_in _ P), in_flat_map; exists e; (split; [exact He | cbn; auto]).
  - rewrite E. unfold checks_i, noisy. unfold qs, pairs, pair_qubits, mpp_targets. rewrite !(flat_map_concat_map _ (map _ _)), !map_map.
    rewrite (flat_map_concat_map _ (round_edges lay s)), concat_map, map_map, (flat_map_concat_map _ (round_edges lay s)). reflexivity.
  - rewrite Hn. unfold notes. now destruct (6 <=? s).
  - destruct (6 <=? s); [|reflexivity]. rewrite (length_hexes lay 0 Hv : length (hexes lay 0) = _). pose proof (valid_tiles lay Hv) as (T1 & T2 & -> & ->). nia.
Qed.

Theorem C77_noise_placement : forall lay c, valid lay -> style lay = "EM3"%string -> 0 <= sub_rounds lay -> double_epr_circuit lay = Ok c ->
  exists first subs last, flatten c = concat first ++ concat subs ++ concat last /\
    Forall2 (parity_shape lay 0) [0; 1; 2; 3]%nat first /\
    Forall2 (sub_round_shape lay) (zrange 0 (sub_rounds lay)) subs /\
    Forall2 (parity_shape lay (sub_rounds lay)) [0; 1; 2; 3]%nat last.
Proof.
  intros lay c Hv Hst Hn Hc. destruct (circuit_split lay Hv Hst 0 ltac:(lia)) as (c' & chs1 & chs2 & Hc' & Hf & F1 & F2 & _). rewrite Hc in Hc'. injection Hc' as <-.
  assert (E1 : chs1 = []) by (unfold zrange in F1; cbn in F1; now inversion F1). subst chs1.
  exists (map (parity_i lay 0) [0; 1; 2; 3]%nat), chs2, (map (parity_i lay (sub_rounds lay)) [0; 1; 2; 3]%nat).
  split; [rewrite Hf, <- !flat_map_concat_map; reflexivity|]. split; [|split].
  - repeat constructor; apply parity_ok; (exact Hv || lia).
  - clear Hf. induction F2; constructor; auto. now apply sub_round_ok.
  - repeat constructor; apply parity_ok; (exact Hv || lia).
Qed.
Print Assumptions C77_noise_placement.

(** The layout of the file's test, and a shorter and larger one. *)
Definition lay_epr : layout := mkLayout 4 6 100 "EM3" "--- X1 Z1 X2 Z2 all entangled with ancillae ----" (1 # 100000).
Example C75_example : epr_layout 4 6 100 (1 # 100000) = Ok lay_epr /\ valid lay_epr /\ style lay_epr = "EM3"%string /\ 0 <= sub_rounds lay_epr.
Proof. split; [reflexivity|]. split; [repeat split; reflexivity|]. split; [reflexivity|]. cbn. lia. Qed.
(** The circuit of the file's test: 100 sub-rounds of 12 checks and eight parities with the
    extra qubits, and 376 detectors, none of which goes off without noise. *)
Theorem C75_test_circuit : exists c, generate_double_epr_honeycomb_circuit = Ok c /\
  forall g f, exists st, run g (noiseless c) (start f) = Ok st /\ (forall b, In b (fdets st) -> b = false) /\ (forall j, fobs st j = false) /\
    length (fdets st) = 376%nat /\ length (frec st) = 1208%nat.
Proof.
  destruct C75_example as (E & Hv & Hst & Hn). destruct (C75_double_epr_deterministic lay_epr Hv Hst Hn) as (c & Ec & R).
  exists c. split; [unfold generate_double_epr_honeycomb_circuit; rewrite E; exact Ec|]. intros g f. destruct (R g f) as (st & R1 & R2 & R3 & R4 & R5). exists st. cbn [lay_epr sub_rounds data_width data_height] in R4, R5.
  split; [exact R1|]. split; [exact R2|]. split; [exact R3|]. split; lia.
Qed.
Print Assumptions C75_test_circuit.
(** In the middle of the test's circuit, the horizontal observable as an error. *)
Example C76_example : exists op, logical lay_epr 50 0 op /\ unseen lay_epr 50 op /\ on_data_qubits lay_epr op /\ undetected lay_epr (50 - 1) op /\
  ~ harmless lay_epr (50 - 1) op /\ length op = 4%nat.
Proof.
  assert (Hv : valid lay_epr) by (repeat split; reflexivity).
  pose proof (Oi_logical lay_epr 50 0 ltac:(lia)) as L. exists (Oi lay_epr 0 50). destruct (logical_ok lay_epr 50 0 _ Hv L) as [A B].
  split; [exact L|]. split; [now apply undetected_unseen|]. split; [exact A|]. split; [exact B|]. split; [|vm_compute; reflexivity].
  rewrite harmless_iff by exact Hv. intros K. pose proof (product_commutes lay_epr (50 - 1) _ _ K (Vop_undet lay_epr Hv (50 - 1) 50 eq_refl)) as E.
  cbn [Oi] in E. rewrite HV_anti in E by exact Hv. discriminate E.
Qed.
(** Nine sub-rounds: six noisy ones, three with four detectors each. *)
Definition lay_epr_9 : layout := mkLayout 4 6 9 "EM3" "--- X1 Z1 X2 Z2 all entangled with ancillae ----" (1 # 1000).
Example C77_example : exists c, double_epr_circuit lay_epr_9 = Ok c /\ length (filter is_noise (flatten c)) = 6%nat /\
  length (filter (fun i => iname i =? "DETECTOR")%string (flatten c)) = 12%nat /\ length (filter is_tick (flatten c)) = 9%nat.
Proof. eexists. split; [vm_compute; reflexivity|]. repeat split; vm_compute; reflexivity. Qed.
