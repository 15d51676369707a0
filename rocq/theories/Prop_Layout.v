(** Properties C01-C11 and C57: the honeycomb layout.

    A layout is [valid] when its sizes are positive and accepted by the
    constructor: data_width even, data_height a multiple of 6. *)
From Verif Require Import Prelude Layout LayoutFacts LayoutEdges LayoutLists LayoutHex LayoutHex2 Pauli LayoutObs LayoutLogic LayoutIndex.
From Coq Require Import QArith.
Open Scope Z_scope.

(** A concrete layout used by the non-vacuity examples: 4 x 12 data qubits. *)
Definition lay_4_12 : layout := mkLayout 4 12 7 "SD6" "H" (1 # 1000).
Example lay_4_12_valid : valid lay_4_12.
Proof. repeat split; reflexivity. Qed.
Example ctx1_valid : valid ctx1.
Proof. repeat split; reflexivity. Qed.

Lemma length_hexes lay r : valid lay -> length (hexes lay (r mod 3)) = Z.to_nat (2 * (tile_width lay * tile_height lay)).
Proof.
  intros Hv. pose proof (count_round_edges lay Hv r) as H. unfold round_edges in H.
  rewrite isort_length, (length_flat_map_const _ 3) in H by reflexivity.
  destruct (valid_tiles lay Hv). nia.
Qed.

Lemma sorted_hexes lay r : StronglySorted (fun a b => clex_leb a b = true) (hexes lay r).
Proof. apply isort_sorted; [apply clex_total | apply clex_trans]. Qed.

Local Opaque data_qubit_coords measure_qubit_coords q2i_dict hex_entries hexes round_edges all_edges isort.

(** ** C01 *)
Theorem C01_qubit_counts : forall lay, valid lay ->
  NoDup (data_qubit_coords lay) /\
  Z.of_nat (length (data_qubit_coords lay)) = data_width lay * data_height lay /\
  NoDup (measure_qubit_coords lay) /\
  2 * Z.of_nat (length (measure_qubit_coords lay)) = 3 * (data_width lay * data_height lay) /\
  (forall q, In q (data_qubit_coords lay) -> ~ In q (measure_qubit_coords lay)) /\
  exists idx, used_qubit_indices lay = Ok idx /\ NoDup idx /\ Z.of_nat (length idx) = num_qubits lay.
Proof.
  intros lay Hv. destruct (valid_tiles lay Hv) as (Hw & Hh & Ew & Eh).
  assert (P : 0 <= tile_width lay * tile_height lay) by nia.
  split; [apply NoDup_data|]. split; [rewrite count_data by exact Hv; rewrite Z2Nat.id; nia|].
  split; [apply NoDup_measure|]. split; [rewrite count_measure by exact Hv; rewrite Z2Nat.id; nia|].
  split. { intros q H1 H2. rewrite in_data in H1 by exact Hv. rewrite in_measure in H2 by exact Hv. eapply data_not_measure; eauto. }
  unfold used_qubit_indices, used_qubit_coords, num_qubits. destruct (is_em3 (style lay)).
  - exists (map (ix lay) (data_qubit_coords lay)). split.
    + apply mapM_q2i; [exact Hv|]. intros q Hq. apply data_in_qubits; [exact Hv|]. now apply in_data in Hq.
    + split; [|rewrite map_length, count_data by exact Hv; rewrite Z2Nat.id; nia].
      apply NoDup_map_inj; [|apply NoDup_data]. intros x y Hx Hy. rewrite in_data in Hx, Hy by exact Hv.
      apply ix_inj; auto using data_in_qubits.
  - exists (map (ix lay) (qubits lay)). rewrite q2i_dict_keys by exact Hv. split.
    + apply mapM_q2i; [exact Hv | intros q Hq; exact Hq].
    + split; [apply NoDup_map_inj; [intros; eapply ix_inj; eauto | now apply NoDup_qubits]|].
      rewrite map_length, length_qubits by exact Hv. rewrite Z2Nat.id by nia. rewrite Ew, Eh.
      replace (5 * (2 * tile_width lay * (6 * tile_height lay))) with (30 * (tile_width lay * tile_height lay) * 2) by nia.
      now rewrite Z.quot_mul by lia.
Qed.
Print Assumptions C01_qubit_counts.
Example C01_example : exists lay, valid lay /\ (length (data_qubit_coords lay) = 48 /\ length (measure_qubit_coords lay) = 72)%nat
  /\ num_qubits lay = 120.
Proof. exists lay_4_12. split; [exact lay_4_12_valid|]. vm_compute. auto. Qed.

(** ** C02 *)
Theorem C02_index_bijection : forall lay, valid lay ->
  let N := (length (data_qubit_coords lay) + length (measure_qubit_coords lay))%nat in
  let isqubit q := In q (data_qubit_coords lay) \/ In q (measure_qubit_coords lay) in
  (* every qubit has an index below N, data qubits exactly the indices below the number of data qubits *)
  (forall q, In q (data_qubit_coords lay) -> exists i, q2i lay q = Ok i /\ (i < length (data_qubit_coords lay))%nat) /\
  (forall q, In q (measure_qubit_coords lay) -> exists i, q2i lay q = Ok i /\ (length (data_qubit_coords lay) <= i < N)%nat) /\
  (* injective, onto, and an error elsewhere *)
  (forall q1 q2 i, q2i lay q1 = Ok i -> q2i lay q2 = Ok i -> q1 = q2) /\
  (forall i, (i < N)%nat -> exists q, isqubit q /\ q2i lay q = Ok i) /\
  (forall q, ~ isqubit q -> q2i lay q = Err KeyError) /\
  (* in (x, y) order *)
  (forall q1 q2 i1 i2, In q1 (data_qubit_coords lay) -> In q2 (data_qubit_coords lay) ->
     q2i lay q1 = Ok i1 -> q2i lay q2 = Ok i2 ->
     fst q1 < fst q2 \/ (fst q1 = fst q2 /\ snd q1 < snd q2) -> (i1 < i2)%nat).
Proof.
  intros lay Hv N isqubit.
  assert (Q : forall q, isqubit q <-> In q (qubits lay)) by (intros; unfold isqubit, qubits; now rewrite in_app_iff).
  assert (EN : N = length (qubits lay)) by (unfold N, qubits; now rewrite app_length).
  repeat split.
  - intros q Hq. destruct (q2i_in lay Hv q) as (i & E & _); [apply Q; left; exact Hq|]. exists i. split; [exact E|].
    apply (q2i_data lay Hv q); [now apply in_data in Hq | exact E].
  - intros q Hq. destruct (q2i_in lay Hv q) as (i & E & L); [apply Q; right; exact Hq|]. exists i. split; [exact E|].
    split; [|lia]. apply (q2i_measure lay Hv q); [now apply in_measure in Hq | exact E].
  - intros q1 q2 i. apply q2i_inj, Hv.
  - intros i Hi. rewrite EN in Hi. destruct (nth_error (qubits lay) i) as [q|] eqn:E.
    + exists q. split; [apply Q; eapply nth_error_In; eauto | now apply q2i_spec].
    + apply nth_error_None in E. lia.
  - intros q Hq. apply q2i_err; [exact Hv|]. now rewrite <- Q.
  - intros q1 q2 i1 i2 H1 H2 E1 E2 Hlt. rewrite in_data in H1, H2 by exact Hv.
    destruct (q2i_data lay Hv _ _ H1 E1) as [N1 _], (q2i_data lay Hv _ _ H2 E2) as [N2 _].
    destruct (Nat.lt_ge_cases i1 i2) as [L|L]; [exact L|]. exfalso.
    destruct (Nat.eq_dec i1 i2) as [->|Hne].
    + rewrite N1 in N2. injection N2 as ->. lia.
    + assert (K : le_ clex_leb q2 q1) by (eapply (nth_sorted _ _ i2 i1); eauto using data_sorted; lia).
      unfold le_, clex_leb in K. rewrite orb_true_iff, andb_true_iff, Z.ltb_lt, Z.eqb_eq, Z.leb_le in K. lia.
Qed.
Print Assumptions C02_index_bijection.
Example C02_example : q2i lay_4_12 (pos 1 1) = Ok 1%nat /\ q2i lay_4_12 (pos 3 0) = Ok 12%nat /\ q2i lay_4_12 (pos 0 0) = Err KeyError.
Proof. vm_compute. auto. Qed.

(** ** C03 *)

Theorem C03_three_colouring : forall lay, valid lay ->
  NoDup (map fst (hex_center_categories lay)) /\
  (forall r, 0 <= r < 3 -> exists l, round_hex_centers lay r = Ok l /\ NoDup l /\ StronglySorted (fun a b => clex_leb a b = true) l /\
     (forall h, In h l <-> In (h, r) (hex_center_categories lay))) /\
  (forall h r, In (h, r) (hex_center_categories lay) -> 0 <= r < 3) /\
  (exists l0 l1 l2, round_hex_centers lay 0 = Ok l0 /\ round_hex_centers lay 1 = Ok l1 /\ round_hex_centers lay 2 = Ok l2 /\
     Permutation (l0 ++ l1 ++ l2) (map fst (hex_center_categories lay)) /\
     Z.of_nat (length l0) = 2 * (tile_width lay * tile_height lay) /\ length l1 = length l0 /\ length l2 = length l0) /\
  (forall r, r < 0 \/ 3 <= r -> round_hex_centers lay r = Err AssertionError).
Proof.
  intros lay Hv. rewrite hex_center_categories_eq by exact Hv.
  assert (IN : forall h r, In h (hexes lay r) <-> In (h, r) (hex_entries lay)).
  { intros h r. rewrite in_hexes, hex_entries_spec by exact Hv. intuition congruence. }
  assert (RG : forall h r, In (h, r) (hex_entries lay) -> 0 <= r < 3).
  { intros h r H. apply hex_entries_spec in H; [|exact Hv]. destruct H as [_ ->]. unfold hexcat. dlia. }
  split; [now apply NoDup_hex_entries|]. split.
  { intros r Hr. exists (hexes lay r). split; [|split; [|split]].
    - unfold round_hex_centers. replace (_ && _) with true; [reflexivity|]. symmetry.
      rewrite andb_true_iff, Z.leb_le, Z.ltb_lt. lia.
    - now apply NoDup_hexes.
    - apply sorted_hexes.
    - intros h. apply IN. }
  split; [exact RG|]. split.
  { exists (hexes lay 0), (hexes lay 1), (hexes lay 2). repeat (split; [reflexivity|]). split.
    - apply NoDup_same_perm.
      + apply NoDup_app_intro; [now apply NoDup_hexes | apply NoDup_app_intro; try now apply NoDup_hexes |].
        * intros h H1 H2. rewrite in_hexes in H1, H2 by exact Hv. lia.
        * intros h H1 H2. rewrite in_app_iff, !in_hexes in * by exact Hv. lia.
      + now apply NoDup_hex_entries.
      + intros h. rewrite !in_app_iff, !IN, in_map_iff. split.
        * intros [H|[H|H]]; eexists (h, _); (split; [|exact H]); reflexivity.
        * intros ([h' r] & <- & H). cbn [fst] in *. pose proof (RG h' r H).
          assert (r = 0 \/ r = 1 \/ r = 2) as [->|[->| ->]] by lia; auto.
    - rewrite (length_hexes lay 0 Hv : length (hexes lay 0) = _), (length_hexes lay 1 Hv : length (hexes lay 1) = _), (length_hexes lay 2 Hv : length (hexes lay 2) = _).
      destruct (valid_tiles lay Hv). split; [rewrite Z2Nat.id; nia | auto]. }
  intros r Hr. unfold round_hex_centers. replace (_ && _) with false; [reflexivity|]. symmetry.
  apply andb_false_iff. rewrite Z.leb_gt, Z.ltb_ge. exact Hr.
Qed.
Print Assumptions C03_three_colouring.
Example C03_example : round_hex_centers lay_4_12 1 = Ok [pos 0 4; pos 0 10; pos 2 1; pos 2 7; pos 4 4; pos 4 10; pos 6 1; pos 6 7]
  /\ round_hex_centers lay_4_12 3 = Err AssertionError.
Proof. vm_compute. auto. Qed.

(** ** C04 *)
Theorem C04_perfect_matching : forall lay r, valid lay ->
  Permutation (flat_map (fun e => [e_left e; e_right e]) (round_edges lay r)) (data_qubit_coords lay) /\
  2 * Z.of_nat (length (round_edges lay r)) = data_width lay * data_height lay /\
  NoDup (map e_center (round_edges lay r)) /\
  round_edges lay r = round_edges lay (r mod 3) /\
  (forall r' e, In e (round_edges lay r) -> In e (round_edges lay r') -> r mod 3 = r' mod 3).
Proof.
  intros lay r Hv. destruct (valid_tiles lay Hv) as (Hw & Hh & Ew & Eh).
  split; [now apply round_matching|]. split; [rewrite count_round_edges by exact Hv; rewrite Z2Nat.id; nia|].
  split; [now apply NoDup_round_edges_centers|]. split; [symmetry; apply round_edges_mod|].
  intros r' e. apply round_edges_disjoint, Hv.
Qed.
Print Assumptions C04_perfect_matching.
Example C04_example : length (round_edges lay_4_12 (-1)) = 24%nat /\
  nth_error (round_edges lay_4_12 (-1)) 0 = Some (mkEdge (pos 7 5) (pos 1 5) (pos 0 5)).
Proof. vm_compute. auto. Qed.

(** ** C05 *)
Theorem C05_bipartite : forall lay, valid lay ->
  exists first second all,
    data_qubit_indices_1st lay = Ok first /\ data_qubit_indices_2nd lay = Ok second /\ data_qubit_indices lay = Ok all /\
    Permutation (first ++ second) all /\ NoDup all /\
    (forall e, In e (all_edges lay) -> exists i j, q2i lay (e_left e) = Ok i /\ In i first /\ q2i lay (e_right e) = Ok j /\ In j second).
Proof.
  intros lay Hv.
  set (d := data_qubit_coords lay).
  assert (D : forall q, In q d -> In q (qubits lay)) by (intros q Hq; apply in_or_app; left; exact Hq).
  assert (F : forall p q, In q (filter p d) -> In q (qubits lay)) by (intros p q Hq; apply filter_In in Hq; apply D; tauto).
  exists (map (ix lay) (filter (fun q => negb (data_qubit_parity q)) d)), (map (ix lay) (filter data_qubit_parity d)), (map (ix lay) d).
  split; [now apply mapM_q2i; [|apply F]|]. split; [now apply mapM_q2i; [|apply F]|]. split; [now apply mapM_q2i|].
  split; [rewrite <- map_app; apply Permutation_map, filter_split|].
  split; [apply NoDup_map_inj; [intros x y Hx Hy; apply ix_inj; auto | apply NoDup_data]|].
  intros e He. apply in_all_edges_round in He. destruct He as (r & _ & He).
  destruct (round_edge_facts lay Hv r e He) as (Hl & Hr & Pl & Pr & _).
  exists (ix lay (e_left e)), (ix lay (e_right e)).
  split; [apply q2i_ix; auto; now apply data_in_qubits|]. split; [apply in_map, filter_In; split; [now apply in_data | now rewrite Pl]|].
  split; [apply q2i_ix; auto; now apply data_in_qubits|]. apply in_map, filter_In. split; [now apply in_data | exact Pr].
Qed.
Print Assumptions C05_bipartite.
Theorem C05_edge_canonical : forall left right center, Edge left right center = Edge right left center.
Proof. exact Edge_swap'. Qed.
Print Assumptions C05_edge_canonical.
Example C05_example : Edge (pos 1 5) (pos 7 5) (pos 0 5) = mkEdge (pos 7 5) (pos 1 5) (pos 0 5)
  /\ In (mkEdge (pos 7 5) (pos 1 5) (pos 0 5)) (all_edges lay_4_12).
Proof. split; [reflexivity|]. apply emem_In. vm_compute. reflexivity. Qed.

(** ** C06 *)
Definition hex_of (lay : layout) (h : cpx) (c : Z) : Prop := In (h, c) (hex_center_categories lay).
Lemma hex_of_iff lay h c : valid lay -> hex_of lay h c <-> ishex lay h /\ c = hexcat h.
Proof. intros Hv. unfold hex_of. rewrite hex_center_categories_eq by exact Hv. now apply hex_entries_spec. Qed.

Theorem C06_hex_neighbourhood : forall lay h c, valid lay -> hex_of lay h c ->
  NoDup (qubits_around_hex lay h) /\ length (qubits_around_hex lay h) = 6%nat /\
  (forall q, In q (qubits_around_hex lay h) -> In q (data_qubit_coords lay)) /\
  (forall e, In e (first_edges_around_hex lay h) -> In e (round_edges lay (c + 1))) /\
  (forall e, In e (second_edges_around_hex lay h) -> In e (round_edges lay (c + 2))) /\
  length (first_edges_around_hex lay h) = 3%nat /\ length (second_edges_around_hex lay h) = 3%nat /\
  Permutation (flat_map (fun e => [e_left e; e_right e]) (first_edges_around_hex lay h)) (qubits_around_hex lay h) /\
  Permutation (flat_map (fun e => [e_left e; e_right e]) (second_edges_around_hex lay h)) (qubits_around_hex lay h).
Proof.
  intros lay h c Hv Hh. apply hex_of_iff in Hh; [|exact Hv]. destruct Hh as [Hh ->].
  split; [now apply NoDup_around|]. split; [apply length_around|].
  split. { intros q Hq. apply in_around in Hq; auto. apply in_data; tauto. }
  split; [intros e; now apply first_edges_round|]. split; [intros e; now apply second_edges_round|].
  split; [reflexivity|]. split; [reflexivity|]. split; [apply first_edges_cover | apply second_edges_cover].
Qed.
Print Assumptions C06_hex_neighbourhood.
Theorem C06_one_hex_per_category : forall lay q c, valid lay -> In q (data_qubit_coords lay) -> 0 <= c < 3 ->
  exists! h, hex_of lay h c /\ In q (qubits_around_hex lay h).
Proof.
  intros lay q c Hv Hq Hc. rewrite in_data in Hq by exact Hv.
  destruct (hexq_ishex lay Hv c q Hq) as [Hh Ec]. rewrite Z.mod_small in Ec by exact Hc.
  exists (hexq lay c q). split.
  - split; [apply hex_of_iff; auto|]. apply in_around; auto. rewrite Ec. auto.
  - intros h' [H1 H2]. apply hex_of_iff in H1; [|exact Hv]. destruct H1 as [H1 ->]. apply in_around in H2; tauto.
Qed.
Print Assumptions C06_one_hex_per_category.
Example C06_example : hex_of lay_4_12 (pos 0 0) 0 /\ In (pos 7 11) (qubits_around_hex lay_4_12 (pos 0 0)).
Proof.
  split; [apply hex_of_iff; [exact lay_4_12_valid | vm_compute; intuition congruence] |].
  apply cmem_In. vm_compute. reflexivity.
Qed.

(** ** C07: Paulis are compared up to phase; [anticommutes] counts, mod 2, the
    qubits on which the two products differ and are both non-identity. *)
Definition check (lay : layout) (r : Z) (e : edge) : pstring :=
  [(sub_round_edge_basis lay r, e_left e); (sub_round_edge_basis lay r, e_right e)].
Definition stabilizer (lay : layout) (h : cpx) (c : Z) : pstring :=
  map (fun q => (sub_round_edge_basis lay c, q)) (qubits_around_hex lay h).

Theorem C07_checks_commute_with_stabilizers : forall lay r e h c, valid lay ->
  In e (round_edges lay r) -> hex_of lay h c -> anticommutes (check lay r e) (stabilizer lay h c) = false.
Proof.
  intros lay r e h c Hv He Hh. apply hex_of_iff in Hh; [|exact Hv]. destruct Hh as [Hh ->].
  now apply edge_hex_commute.
Qed.
Print Assumptions C07_checks_commute_with_stabilizers.
Theorem C07_stabilizers_commute : forall lay h1 c1 h2 c2, valid lay -> hex_of lay h1 c1 -> hex_of lay h2 c2 ->
  anticommutes (stabilizer lay h1 c1) (stabilizer lay h2 c2) = false.
Proof.
  intros lay h1 c1 h2 c2 Hv H1 H2. apply hex_of_iff in H1, H2; try exact Hv. destruct H1 as [H1 ->], H2 as [H2 ->].
  now apply hexes_commute.
Qed.
Print Assumptions C07_stabilizers_commute.
(** The stabilizer of a hex is the product of the checks on its first edges, and
    also of those on its second edges, up to the choice of basis: the product of
    first-edge checks (round c+1) and second-edge checks (round c+2) is the stabilizer. *)
Theorem C07_stabilizer_is_product_of_checks : forall lay h c, valid lay -> hex_of lay h c ->
  same_operator (stabilizer lay h c)
    (flat_map (check lay (c + 1)) (first_edges_around_hex lay h) ++ flat_map (check lay (c + 2)) (second_edges_around_hex lay h)).
Proof.
  intros lay h c Hv Hh q. apply hex_of_iff in Hh; [|exact Hv]. destruct Hh as [Hh ->].
  rewrite bits_at_app.
  change (check lay (hexcat h + 1)) with (edge_op (xyz (hexcat h + 1))). change (check lay (hexcat h + 2)) with (edge_op (xyz (hexcat h + 2))).
  rewrite !pstr_flat_map.
  pose proof (NoDup_around lay Hv h Hh) as Hn.
  unfold stabilizer. change (map _ (qubits_around_hex lay h)) with (pstr (xyz (hexcat h)) (qubits_around_hex lay h)).
  pose proof (Permutation_NoDup (Permutation_sym (first_edges_cover lay h)) Hn) as N1.
  pose proof (Permutation_NoDup (Permutation_sym (second_edges_cover lay h)) Hn) as N2.
  rewrite (bits_at_pstr _ _ _ Hn), (bits_at_pstr _ _ _ N1), (bits_at_pstr _ _ _ N2).
  assert (K : forall l, Permutation l (qubits_around_hex lay h) -> cmem q l = cmem q (qubits_around_hex lay h)).
  { intros l P. destruct (cmem q (qubits_around_hex lay h)) eqn:E.
    - apply cmem_In in E. apply cmem_In. eapply Permutation_in; [symmetry; exact P | exact E].
    - apply cmem_false in E. apply cmem_false. intros F. apply E. eapply Permutation_in; eauto. }
  rewrite (K (flat_map ends (first_edges_around_hex lay h)) (first_edges_cover lay h)), (K (flat_map ends (second_edges_around_hex lay h)) (second_edges_cover lay h)).
  destruct (cmem _ _); [|reflexivity].
  assert (C : hexcat h = 0 \/ hexcat h = 1 \/ hexcat h = 2) by (unfold hexcat; dlia).
  destruct C as [->|[->| ->]]; reflexivity.
Qed.
Print Assumptions C07_stabilizer_is_product_of_checks.
(** Checks of different rounds do not all commute, so the statement has content. *)
Example C07_example : exists e1 e2, In e1 (round_edges lay_4_12 0) /\ In e2 (round_edges lay_4_12 1) /\
  anticommutes (check lay_4_12 0 e1) (check lay_4_12 1 e2) = true.
Proof.
  exists (mkEdge (pos 1 0) (pos 3 0) (pos 2 0)), (mkEdge (pos 1 0) (pos 1 11) (2, 23)).
  split; [|split]; [apply emem_In | apply emem_In |]; vm_compute; reflexivity.
Qed.

(** ** C08-C10: the observables *)
Definition obs_op (r : res (pauli * list cpx)) (s : pstring) : Prop :=
  exists p qs, r = Ok (p, qs) /\ s = map (fun q => (p, q)) qs.
(** The observable's operator before sub-round s, and its edges. *)
Definition with_obs (lay : layout) (o : string) : layout :=
  mkLayout (data_width lay) (data_height lay) (sub_rounds lay) (style lay) o (noise lay).

Lemma obs_op_HV lay s op : obs_op (obs_before_sub_round lay s) op ->
  (obs lay = "H"%string /\ op = Hop lay s) \/ (obs lay = "V"%string /\ op = Vop lay s).
Proof.
  intros (p & qs & E & ->). unfold obs_before_sub_round in E.
  destruct (String.eqb_spec (obs lay) "V") as [Ev|_]; [|destruct (String.eqb_spec (obs lay) "H") as [Eh|_]]; try discriminate; injection E as E.
  - right. split; [exact Ev|]. unfold Vop. now rewrite E.
  - left. split; [exact Eh|]. unfold Hop. now rewrite E.
Qed.

Theorem C08_observable_commutes : forall lay s op, valid lay -> obs_op (obs_before_sub_round lay s) op ->
  (forall e, In e (round_edges lay s) -> anticommutes (check lay s e) op = false) /\
  (forall e, In e (round_edges lay (s - 1)) -> anticommutes (check lay (s - 1) e) op = false) /\
  (forall h c, hex_of lay h c -> anticommutes (stabilizer lay h c) op = false).
Proof.
  intros lay s op Hv Hop. apply obs_op_HV in Hop.
  assert (K : forall h c, hex_of lay h c -> ishex lay h /\ stabilizer lay h c = hex_op lay h).
  { intros h c Hh. apply hex_of_iff in Hh; [|exact Hv]. destruct Hh as [Hh ->]. auto. }
  destruct Hop as [[_ ->]|[_ ->]]; (split; [|split]).
  - intros e He. apply H_edge_commute; auto.
  - intros e He. apply H_edge_commute; auto.
  - intros h c Hh. apply K in Hh. destruct Hh as [Hh ->]. rewrite anticommutes_sym. now apply H_hex_commute.
  - intros e He. apply V_edge_commute; auto.
  - intros e He. apply V_edge_commute; auto.
  - intros h c Hh. apply K in Hh. destruct Hh as [Hh ->]. rewrite anticommutes_sym. now apply V_hex_commute.
Qed.
Print Assumptions C08_observable_commutes.
(** Non-vacuity: an observable exists, is not empty, and does not commute with
    everything: it anticommutes with a check of round s+1. *)
Example C08_example : exists op e, obs_op (obs_before_sub_round lay_4_12 3) op /\ In e (round_edges lay_4_12 4) /\
  anticommutes (check lay_4_12 4 e) op = true.
Proof.
  exists (Hop lay_4_12 3), (mkEdge (pos 1 0) (pos 1 11) (2, 23)).
  split; [eexists _, _; split; [vm_compute; reflexivity | vm_compute; reflexivity]|].
  split; [apply emem_In|]; vm_compute; reflexivity.
Qed.

Theorem C09_observable_moves_by_checks : forall lay s op op' edges, valid lay ->
  obs_op (obs_before_sub_round lay s) op -> obs_op (obs_before_sub_round lay (s + 1)) op' -> obs_edges lay = Ok edges ->
  same_operator op' (op ++ flat_map (check lay s) (filter (fun e => existsb (edge_eqb e) edges) (round_edges lay s))).
Proof.
  intros lay s op op' edges Hv H1 H2 He. apply obs_op_HV in H1, H2. unfold obs_edges in He.
  destruct H1 as [[E1 ->]|[E1 ->]], H2 as [[E2 ->]|[E2 ->]]; try congruence; rewrite E1 in He; cbn in He; injection He as <-.
  - apply H_step, Hv.
  - apply V_step, Hv.
Qed.
Print Assumptions C09_observable_moves_by_checks.
Theorem C09_period_six : forall lay s, obs_before_sub_round lay (s + 6) = obs_before_sub_round lay s.
Proof.
  intros lay s. unfold obs_before_sub_round, obs_v_before_sub_round, obs_h_before_sub_round, obs_v_pattern, obs_h_pattern.
  replace ((s + 6) mod 6) with (s mod 6) by dlia. reflexivity.
Qed.
Print Assumptions C09_period_six.
Theorem C09_observable_accepted : forall lay s,
  (is_ok (obs_before_sub_round lay s) = true <-> (obs lay = "H" \/ obs lay = "V")%string) /\
  (is_ok (obs_before_sub_round lay s) = false -> obs_before_sub_round lay s = Err NotImplementedError) /\
  is_ok (obs_edges lay) = is_ok (obs_before_sub_round lay s) /\
  is_ok (obs_qubits lay) = is_ok (obs_before_sub_round lay s) /\
  is_ok (obs_index lay) = is_ok (obs_before_sub_round lay s).
Proof.
  intros lay s. unfold obs_before_sub_round, obs_edges, obs_qubits, obs_index.
  destruct (String.eqb_spec (obs lay) "V") as [->|Hv]; [|destruct (String.eqb_spec (obs lay) "H") as [->|Hh]]; cbn;
  repeat split; auto; try discriminate; intros []; congruence.
Qed.
Print Assumptions C09_observable_accepted.
Example C09_example : exists op, obs_op (obs_before_sub_round lay_4_12 2) op /\ length op = 4%nat /\ obs_edges lay_4_12 <> Ok [].
Proof. eexists. split; [eexists _, _; split; [vm_compute; reflexivity | reflexivity]|]. vm_compute. split; [reflexivity | discriminate]. Qed.

Theorem C10_two_logical_qubits : forall lay s hs vs ht vt, valid lay ->
  obs_op (obs_before_sub_round (with_obs lay "H") s) hs -> obs_op (obs_before_sub_round (with_obs lay "V") s) vs ->
  obs_op (obs_before_sub_round (with_obs lay "H") (s + 3)) ht -> obs_op (obs_before_sub_round (with_obs lay "V") (s + 3)) vt ->
  anticommutes hs vs = true /\ anticommutes ht vt = true /\
  anticommutes hs vt = false /\ anticommutes vs ht = false /\ anticommutes hs ht = false /\ anticommutes vs vt = false.
Proof.
  intros lay s hs vs ht vt Hv H1 H2 H3 H4. apply obs_op_HV in H1, H2, H3, H4.
  destruct H1 as [[_ ->]|[E _]]; [|discriminate E]. destruct H2 as [[E _]|[_ ->]]; [discriminate E|].
  destruct H3 as [[_ ->]|[E _]]; [|discriminate E]. destruct H4 as [[E _]|[_ ->]]; [discriminate E|].
  change (Hop (with_obs lay "H")) with (Hop lay). change (Vop (with_obs lay "V")) with (Vop lay).
  repeat split; [apply HV_anti | apply HV_anti | apply HV3_commute | apply VH3_commute | apply HH3_commute | apply VV3_commute]; exact Hv.
Qed.
Print Assumptions C10_two_logical_qubits.
Example C10_example : exists hs vs ht vt,
  obs_op (obs_before_sub_round (with_obs lay_4_12 "H") 1) hs /\ obs_op (obs_before_sub_round (with_obs lay_4_12 "V") 1) vs /\
  obs_op (obs_before_sub_round (with_obs lay_4_12 "H") (1 + 3)) ht /\ obs_op (obs_before_sub_round (with_obs lay_4_12 "V") (1 + 3)) vt.
Proof. do 4 eexists. repeat split; eexists _, _; (split; [vm_compute; reflexivity | reflexivity]). Qed.

(** ** C11 (the noise_model part is in Prop_Noise) *)
Theorem C11_layout_validation : forall dw dh sr st ob p,
  (is_ok (HoneycombLayout dw dh sr st ob p) = true <-> (2 | dw) /\ (6 | dh)) /\
  (is_ok (HoneycombLayout dw dh sr st ob p) = false -> HoneycombLayout dw dh sr st ob p = Err NotImplementedError) /\
  (forall lay, HoneycombLayout dw dh sr st ob p = Ok lay -> 0 < dw -> 0 < dh ->
     valid lay /\ 1 <= tile_width lay /\ 1 <= tile_height lay /\ data_width lay = dw /\ data_height lay = dh /\
     sub_rounds lay = sr /\ style lay = st /\ obs lay = ob /\ noise lay = p).
Proof.
  intros. unfold HoneycombLayout. rewrite <- (Z.mod_divide dw 2), <- (Z.mod_divide dh 6) by lia.
  destruct (Z.eqb_spec (dw mod 2) 0); cbn [negb]; [destruct (Z.eqb_spec (dh mod 6) 0); cbn [negb]|]; cbn [is_ok].
  - split; [tauto|]. split; [discriminate|]. intros lay E Hw Hh. injection E as <-.
    assert (V : valid (mkLayout dw dh sr st ob p)) by (repeat split; auto).
    destruct (valid_tiles _ V) as (? & ? & _). split; [exact V|]. cbn. repeat split; auto.
  - split; [intuition congruence|]. split; [reflexivity | discriminate].
  - split; [intuition congruence|]. split; [reflexivity | discriminate].
Qed.
Print Assumptions C11_layout_validation.
Example C11_example : is_ok (HoneycombLayout 4 12 7 "SD6" "H" (1 # 1000)) = true /\ is_ok (HoneycombLayout 3 12 7 "SD6" "H" 0) = false
  /\ is_ok (HoneycombLayout 4 8 7 "SD6" "H" 0) = false.
Proof. vm_compute. auto. Qed.
(** Sizes are only checked for divisibility: zero and negative sizes are accepted. *)
Theorem C11_nonpositive_accepted_refuted : exists dw dh lay, dw <= 0 /\ dh <= 0 /\ HoneycombLayout dw dh 1 "SD6" "H" 0 = Ok lay.
Proof. exists 0, (-6). eexists. repeat split; lia || reflexivity. Qed.
Print Assumptions C11_nonpositive_accepted_refuted.

(** ** C57: legend_label raises for every layout with noise. *)
Theorem C57_legend_label_refuted : exists lay, valid lay /\ legend_label lay = Err ValueError.
Proof. exists ctx1. split; [exact ctx1_valid | vm_compute; reflexivity]. Qed.
Print Assumptions C57_legend_label_refuted.
Theorem C57_legend_label_fails_exactly_with_noise : forall lay,
  legend_label lay = Err ValueError <-> ~ (noise lay == 0)%Q.
Proof.
  intros lay. unfold legend_label. destruct (Qeq_bool (noise lay) 0) eqn:E.
  - apply Qeq_bool_iff in E. split; [discriminate | contradiction].
  - split; [|reflexivity]. intros _ K. apply Qeq_bool_iff in K. congruence.
Qed.
Print Assumptions C57_legend_label_fails_exactly_with_noise.
