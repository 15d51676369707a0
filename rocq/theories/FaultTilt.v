(** Sheets through space and time that the observable can be moved to, sloped so that
    an error of one data qubit is in the way of three of them, the fewest possible. *)
From Coq Require Import QArith.
From Verif Require Import Prelude Layout LayoutFacts LayoutEdges LayoutLists LayoutHex LayoutHex2 Pauli LayoutObs LayoutLogic LayoutIndex
  Tracker TrackerFacts Stim Circuit Annot Shift Ends Gen Gen2 Gen3 Traj Eval Frame Exec Exec2 Exec3 Exec4 Detectors Struct Struct2 Struct3 FaultSpec FaultQuiet FaultCore FaultObs FaultInv FaultZ FaultCount FaultLine FaultDist.
Open Scope Z_scope.

Lemma odd_xorb x y z : z = x + y -> xorb (Z.odd x) (Z.odd y) = Z.odd z.
Proof. intros ->. symmetry. apply Z.odd_add. Qed.
Section Tilt.
  Variable lay : layout.
  Hypothesis Hv : valid lay.
  Notation W := (data_width lay).
  Notation H := (data_height lay).
  Local Opaque data_qubit_coords measure_qubit_coords q2i_dict hex_entries hexes round_edges all_edges isort.

  (** the row of the hexagon of category j around a qubit of row b, not wrapped *)
  Definition lift (j b : Z) : Z := b + ((j - b + 1) mod 3 - 1).
  (** the height of a row at a time, and the number of the copy of sheet c below it *)
  Definition height (y s : Z) : Z := 2 * y - s / 2.
  Definition below (c y s : Z) : Z := (height y s - c) / (2 * H).
  Definition turns (y : Z) : Z := (y - 1) / H.
  (** the hexagons between the observable and sheet c *)
  Definition RT (c s : Z) (h : cpx) : bool := Z.odd (below c (snd h / 2) s - turns (snd h / 2)).

  Lemma hex_row j a b : 0 <= b < H -> snd (hexq lay j (4 * a + 2, 2 * b)) / 2 = lift j b mod H.
  Proof.
    intros Hb. pose proof (valid_tiles lay Hv) as (T1 & T2 & T3 & T4). unfold hexq. rewrite hex_off_ab. cbv zeta. unfold cadd. cbn [fst snd]. rewrite wrap_row by exact Hv.
    assert (C : (j - b) mod 3 = 0 \/ (j - b) mod 3 = 1 \/ (j - b) mod 3 = 2) by dlia. unfold lift.
    destruct C as [C|[C|C]]; rewrite C; cbn [Z.eqb Pos.eqb fst snd].
    - replace ((j - b + 1) mod 3) with 1 by (revert C; dlia). replace (2 * b + 0) with (2 * (b + (1 - 1))) by lia. rewrite Z.mul_mod_distr_l by lia. rewrite Z.mul_comm. apply Z.div_mul. lia.
    - replace ((j - b + 1) mod 3) with 2 by (revert C; dlia). replace (2 * b + 2) with (2 * (b + (2 - 1))) by lia. rewrite Z.mul_mod_distr_l by lia. rewrite Z.mul_comm. apply Z.div_mul. lia.
    - replace ((j - b + 1) mod 3) with 0 by (revert C; dlia). replace (2 * b + -2) with (2 * (b + (0 - 1))) by lia. rewrite Z.mul_mod_distr_l by lia. rewrite Z.mul_comm. apply Z.div_mul. lia.
  Qed.
  (** the region does not depend on how the row is wrapped *)
  Lemma region_row c s y : below c (y mod H) s - turns (y mod H) = below c y s - turns y.
  Proof.
    pose proof (valid_tiles lay Hv) as (T1 & T2 & T3 & T4). pose proof (Z.div_mod y H ltac:(lia)) as E. revert E. generalize (y mod H) as z, (y / H) as k. intros z k ->.
    unfold below, turns, height. replace (2 * (H * k + z) - s / 2 - c) with (2 * z - s / 2 - c + k * (2 * H)) by lia. replace (H * k + z - 1) with (z - 1 + k * H) by lia.
    rewrite !Z.div_add by lia. lia.
  Qed.
  Lemma turns_range y : -1 <= y <= H -> turns y = if y <=? 0 then -1 else 0.
  Proof.
    intros Hy. pose proof (valid_tiles lay Hv) as (T1 & T2 & T3 & T4). unfold turns. destruct (Z.leb_spec y 0) as [L|L]; symmetry; [apply (Z.div_unique _ H (-1) (y - 1 + H)) | apply (Z.div_unique _ H 0 (y - 1))]; lia.
  Qed.
  Lemma lift_range j b : b - 1 <= lift j b <= b + 1.
  Proof. unfold lift. dlia. Qed.
  (** an edge is in the observable just when it separates the rows 0 and 1 *)
  Lemma row_seam r a b : isdata lay (4 * a + 2, 2 * b) -> 0 <= b < H -> inH (4 * a + 2, 2 * b) (partner lay r (4 * a + 2, 2 * b)) = Z.odd (turns (lift (r + 1) b) + turns (lift (r + 2) b)).
  Proof.
    intros Hq Hb. pose proof (valid_tiles lay Hv) as (T1 & T2 & T3 & T4). unfold inH. rewrite (h_edge_mem lay Hv r _ Hq). unfold in_h_rows. cbn [snd].
    pose proof (lift_range (r + 1) b) as L1. pose proof (lift_range (r + 2) b) as L2. rewrite !turns_range by lia. unfold lift.
    assert (Hm : r mod 3 = 0 \/ r mod 3 = 1 \/ r mod 3 = 2) by dlia.
    destruct Hm as [Hm|[Hm|Hm]]; rewrite Hm; apply mod_ex in Hm; destruct Hm as [k ->];
    repeat match goal with |- context [Z.eqb ?x ?y] => destruct (Z.eqb_spec x y); try (exfalso; lia) end;
    repeat match goal with |- context [Z.leb ?x ?y] => destruct (Z.leb_spec x y) end; try reflexivity; exfalso; revert Hb; dlia.
  Qed.
  Lemma touch_observed r q : isdata lay q -> emem (touch lay r q) (oedges lay) = if (obs lay =? "V")%string then inV q (partner lay r q) else inH q (partner lay r q).
  Proof.
    intros Hq. pose proof (in_all_of_round lay r _ (touch_in lay Hv r q Hq)) as Ha. unfold oedges. unfold touch in *. 
    destruct (obs lay =? "V")%string; unfold obs_v_edges, obs_h_edges; rewrite emem_filter by exact Ha; rewrite (touch_edge lay Hv) by exact Hq; destruct (data_qubit_parity q); cbn [e_left e_right]; unfold inV, inH.
    - destruct (Z.eqb_spec (fst (partner lay r q)) (fst q)) as [->|N]; [now rewrite Z.eqb_refl|]. destruct (Z.eqb_spec (fst q) (fst (partner lay r q))); [congruence | reflexivity].
    - reflexivity.
    - apply andb_comm.
    - reflexivity.
  Qed.

  Lemma lift_step j b : lift (j + 1) b = lift j b + 1 \/ lift (j + 1) b = lift j b - 2.
  Proof. unfold lift. dlia. Qed.
  Lemma lift_next j b : lift (j + 2) b = lift j b - 1 \/ lift (j + 2) b = lift j b + 2.
  Proof. unfold lift. dlia. Qed.
  Lemma lift_mod j j' b : j mod 3 = j' mod 3 -> lift j b = lift j' b.
  Proof. unfold lift. intros E. f_equal. f_equal. revert E. dlia. Qed.
  Lemma crossed_below c r t1 t2 q : obs lay <> "V"%string -> isdata lay q -> crossed lay (RT c) r t1 t2 q = Z.odd (below c (lift (r + 1) (snd q / 2)) t1 + below c (lift (r + 2) (snd q / 2)) t2).
  Proof.
    intros Ho Hq. destruct (data_ab lay Hv q Hq) as (a & b & -> & Ha & Hb). unfold crossed. rewrite touch_observed by exact Hq.
    destruct (String.eqb_spec (obs lay) "V") as [E|_]; [contradiction|]. rewrite (row_seam r a b Hq Hb). unfold RT. rewrite !hex_row by exact Hb. rewrite !region_row.
    cbn [snd]. replace (2 * b / 2) with b by dlia. rewrite <- !Z.odd_add.
    replace (turns (lift (r + 1) b) + turns (lift (r + 2) b) + _) with (below c (lift (r + 1) b) t1 + below c (lift (r + 2) b) t2 + 2 * 0) by lia. f_equal. lia.
  Qed.
  (** heights three apart have three sheets between them *)
  Definition barred (x y : Z) : list Z := map (fun i => (Z.min x y + i) mod (2 * H)) [1; 2; 3].
  Lemma not_barred x y c : x - y = 3 \/ x - y = -3 -> 0 <= c < 2 * H -> ~ In c (barred x y) -> (x - c) / (2 * H) = (y - c) / (2 * H).
  Proof.
    intros Hd Hc Hn. pose proof (valid_tiles lay Hv) as (T1 & T2 & T3 & T4).
    assert (K : forall z, (z + 1) mod (2 * H) <> c -> (z + 2) mod (2 * H) <> c -> (z + 3) mod (2 * H) <> c -> (z + 3 - c) / (2 * H) = (z - c) / (2 * H)).
    { intros z N1 N2 N3. pose proof (Z.div_mod (z - c) (2 * H) ltac:(lia)) as E. pose proof (Z.mod_pos_bound (z - c) (2 * H) ltac:(lia)) as B. set (k := (z - c) / (2 * H)) in *. set (d := (z - c) mod (2 * H)) in *.
      symmetry. apply (Z.div_unique _ _ _ (d + 3)); [left|lia].
      assert (F : forall i, d + i = 2 * H -> (z + i) mod (2 * H) = c) by (intros i Hi; symmetry; apply (Z.mod_unique _ _ (k + 1)); lia).
      assert (D1 : d + 1 <> 2 * H) by (intros Q; now apply N1, F). assert (D2 : d + 2 <> 2 * H) by (intros Q; now apply N2, F). assert (D3 : d + 3 <> 2 * H) by (intros Q; now apply N3, F). lia. }
    unfold barred in Hn. cbn [map In] in Hn.
    destruct Hd as [Hd|Hd].
    - replace (Z.min x y) with y in Hn by lia. replace x with (y + 3) by lia. apply K; tauto.
    - replace (Z.min x y) with x in Hn by lia. replace y with (x + 3) by lia. symmetry. apply K; tauto.
  Qed.
  Lemma below_free c y1 s1 y2 s2 : height y1 s1 - height y2 s2 = 3 \/ height y1 s1 - height y2 s2 = -3 -> 0 <= c < 2 * H -> ~ In c (barred (height y1 s1) (height y2 s2)) -> Z.odd (below c y1 s1 + below c y2 s2) = false.
  Proof.
    intros Hd Hc Hn. unfold below. rewrite (not_barred _ _ c Hd Hc Hn). rewrite Z.odd_add. apply xorb_nilpotent.
  Qed.
  (** one data qubit, one sub-round: three sheets are barred *)
  Lemma few_sheets r t q : obs lay <> "V"%string -> isdata lay q -> t mod 2 = 0 -> exists h, length h = 3%nat /\ forall c, 0 <= c < 2 * H -> ~ In c h -> crossed lay (RT c) r (t + 2) t q = false.
  Proof.
    intros Ho Hq Ht. eexists. split; [|intros c Hc Hn; rewrite crossed_below by assumption; apply below_free; [|exact Hc|exact Hn]]; [reflexivity|].
    unfold height. replace (r + 2) with (r + 1 + 1) by lia. destruct (lift_step (r + 1) (snd q / 2)) as [->| ->]; [right|left]; revert Ht; dlia.
  Qed.
  Lemma few_sheets_flip k q : obs lay <> "V"%string -> isdata lay q -> k mod 2 = 0 -> exists h, length h = 3%nat /\ forall c, 0 <= c < 2 * H -> ~ In c h -> xorb (crossed lay (RT c) (k + 2) (k + 2) k q) (crossed lay (RT c) k k (k + 4) q) = false.
  Proof.
    intros Ho Hq Ht. eexists. split; [|intros c Hc Hn; rewrite !crossed_below by assumption; rewrite <- Z.odd_add].
    2:{ rewrite (lift_mod (k + 2 + 1) k), (lift_mod (k + 2 + 2) (k + 1)) by dlia. set (b := snd q / 2) in *.
        replace (below c (lift k b) (k + 2) + below c (lift (k + 1) b) k + (below c (lift (k + 1) b) k + below c (lift (k + 2) b) (k + 4))) with (below c (lift k b) (k + 2) + below c (lift (k + 2) b) (k + 4) + 2 * below c (lift (k + 1) b) k) by lia.
        rewrite Z.odd_add_mul_2. apply below_free; [|exact Hc|exact Hn]. unfold height. destruct (lift_next k b) as [->| ->]; [left|right]; revert Ht; dlia. }
    reflexivity.
  Qed.
  Lemma crossed_partner R k t1 t2 e : In e (round_edges lay k) -> isdata lay (e_left e) -> e_right e = partner lay k (e_left e) -> crossed lay R k t1 t2 (e_right e) = crossed lay R k t1 t2 (e_left e).
  Proof.
    intros He Ha Eb. unfold crossed. rewrite Eb at 2 3. rewrite !(hexq_partner lay Hv) by (exact Ha || dlia). f_equal. f_equal.
    transitivity e; [symmetry|]; apply (touch_unique lay Hv k _ e); try exact He; try exact Ha; [rewrite Eb; now apply (partner_isdata lay Hv) | now right | now left].
  Qed.
End Tilt.
