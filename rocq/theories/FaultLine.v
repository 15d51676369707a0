(** Lines around the torus that the observable can be moved to. *)
From Coq Require Import QArith.
From Verif Require Import Prelude Layout LayoutFacts LayoutEdges LayoutLists LayoutHex LayoutHex2 Pauli LayoutObs LayoutLogic LayoutIndex
  Tracker TrackerFacts Stim Circuit Annot Shift Ends Gen Gen2 Gen3 Traj Eval Frame Exec Exec2 Exec3 Exec4 Detectors Struct Struct2 Struct3 FaultSpec FaultQuiet FaultCore FaultObs FaultInv FaultZ FaultCount.
Open Scope Z_scope.

(** ** Lines on the torus *)
Section Lines.
  Variable lay : layout.
  Hypothesis Hv : valid lay.
  Notation W := (data_width lay).
  Notation H := (data_height lay).
  Local Opaque data_qubit_coords measure_qubit_coords q2i_dict hex_entries hexes round_edges all_edges isort.

  Definition inV (q q' : cpx) : bool := (fst q =? fst q') && (fst q' =? 2).
  Definition inH (q q' : cpx) : bool := in_h_rows q && in_h_rows q'.
  (** the hexagons between the first line and line c *)
  Definition RV (c : Z) (h : cpx) : bool := (4 <=? fst h) && (fst h <=? 4 * c).
  Definition RH (r : Z) (h : cpx) : bool := (2 <=? snd h) && (snd h <=? 2 * r).

  Lemma data_ab q : isdata lay q -> exists a b, q = (4 * a + 2, 2 * b) /\ 0 <= a < W /\ 0 <= b < H.
  Proof.
    intros ((Hx & Hy) & Mx & My). destruct q as [x y]. cbn [fst snd] in *. exists (x / 4), (y / 2).
    pose proof (valid_tiles lay Hv) as (T1 & T2 & T3 & T4). split; [f_equal; dlia | dlia].
  Qed.
  (** where the check of q in round r goes, and the hexagons on its two sides, in columns
      and rows *)
  Lemma around_edge r a b : let q := (4 * a + 2, 2 * b) in
    exists dx dy x1 y1 x2 y2, partner lay r q = wrap lay (4 * (a + dx) + 2, 2 * (b + dy)) /\ hexq lay (r + 1) q = wrap lay (4 * (a + x1), 2 * (b + y1)) /\ hexq lay (r + 2) q = wrap lay (4 * (a + x2), 2 * (b + y2)) /\
      ((dx = 0 /\ dy = 1 /\ ((x1 = 0 /\ x2 = 1) \/ (x1 = 1 /\ x2 = 0)) /\ y1 = 0 /\ y2 = 1) \/
       (dx = 0 /\ dy = -1 /\ ((x1 = 0 /\ x2 = 1) \/ (x1 = 1 /\ x2 = 0)) /\ y1 = -1 /\ y2 = 0) \/
       ((dx = 1 \/ dx = -1) /\ dy = 0 /\ (x1 = x2 /\ 0 <= x1 <= 1) /\ y1 = 1 /\ y2 = -1)).
  Proof.
    cbv zeta. unfold LayoutEdges.partner, hexq. rewrite !hex_off_ab. cbv zeta.
    assert (P2 : (a - b) mod 2 = 0 \/ (a - b) mod 2 = 1) by dlia.
    destruct (touch_off_cases r a b) as [[-> Hd]|[[-> Hd]|[[-> [Hd Hp]]|[-> [Hd Hp]]]]].
    - replace ((r + 1 - b) mod 3) with 0 by (revert Hd; dlia). replace ((r + 2 - b) mod 3) with 1 by (revert Hd; dlia). cbn [Z.eqb Pos.eqb]. destruct P2 as [-> | ->]; cbn [Z.eqb].
      + exists 0, 1, 0, 0, 1, 1. unfold cadd, cscale. cbn [fst snd]. repeat (split; [f_equal; f_equal; lia|]). lia.
      + exists 0, 1, 1, 0, 0, 1. unfold cadd, cscale. cbn [fst snd]. repeat (split; [f_equal; f_equal; lia|]). lia.
    - replace ((r + 1 - b) mod 3) with 2 by (revert Hd; dlia). replace ((r + 2 - b) mod 3) with 0 by (revert Hd; dlia). cbn [Z.eqb Pos.eqb]. destruct P2 as [-> | ->]; cbn [Z.eqb].
      + exists 0, (-1), 1, (-1), 0, 0. unfold cadd, cscale. cbn [fst snd]. repeat (split; [f_equal; f_equal; lia|]). lia.
      + exists 0, (-1), 0, (-1), 1, 0. unfold cadd, cscale. cbn [fst snd]. repeat (split; [f_equal; f_equal; lia|]). lia.
    - replace ((r + 1 - b) mod 3) with 1 by (revert Hd; dlia). replace ((r + 2 - b) mod 3) with 2 by (revert Hd; dlia). cbn [Z.eqb Pos.eqb]. rewrite Hp. cbn [Z.eqb].
      exists 1, 0, 1, 1, 1, (-1). unfold cadd, cscale. cbn [fst snd]. repeat (split; [f_equal; f_equal; lia|]). lia.
    - replace ((r + 1 - b) mod 3) with 1 by (revert Hd; dlia). replace ((r + 2 - b) mod 3) with 2 by (revert Hd; dlia). cbn [Z.eqb Pos.eqb]. rewrite Hp. cbn [Z.eqb].
      exists (-1), 0, 0, 1, 0, (-1). unfold cadd, cscale. cbn [fst snd]. repeat (split; [f_equal; f_equal; lia|]). lia.
  Qed.
  Lemma wrap_col x y : fst (wrap lay (x, y)) = x mod (4 * W).
  Proof. pose proof (valid_tiles lay Hv) as (T1 & T2 & T3 & T4). unfold wrap, coord_width2. cbn [fst]. f_equal. lia. Qed.
  Lemma wrap_row x y : snd (wrap lay (x, y)) = y mod (2 * H).
  Proof. pose proof (valid_tiles lay Hv) as (T1 & T2 & T3 & T4). unfold wrap, coord_height2. cbn [snd]. f_equal. lia. Qed.
  Lemma mod_near m x : 0 < m -> - m <= x < 2 * m -> x mod m = if x <? 0 then x + m else if x <? m then x else x - m.
  Proof.
    intros Hm Hx. symmetry. destruct (Z.ltb_spec x 0); [|destruct (Z.ltb_spec x m)]; [apply (Z.mod_unique x m (-1)) | apply (Z.mod_unique x m 0) | apply (Z.mod_unique x m 1)]; lia.
  Qed.
  Ltac bools := repeat match goal with |- context [?x <? ?y] => destruct (Z.ltb_spec x y); try lia end;
    repeat match goal with |- context [?x =? ?y] => destruct (Z.eqb_spec x y) | |- context [?x <=? ?y] => destruct (Z.leb_spec x y) end.

  (** Only the checks inside column c cross out on the line at column c. *)
  Lemma column_line c r q : 0 <= c < W -> isdata lay q -> fst q <> 4 * c + 2 ->
    xorb (inV q (partner lay r q)) (xorb (RV c (hexq lay (r + 1) q)) (RV c (hexq lay (r + 2) q))) = false.
  Proof.
    intros Hc Hq Hn. destruct (data_ab q Hq) as (a & b & -> & Ha & Hb). cbn [fst] in Hn. pose proof (valid_tiles lay Hv) as (T1 & T2 & T3 & T4).
    destruct (around_edge r a b) as (dx & dy & x1 & y1 & x2 & y2 & -> & -> & -> & C). unfold inV, RV. rewrite !wrap_col. cbn [fst]. clear Hq.
    rewrite !(mod_near (4 * W)) by lia.
    destruct C as [(-> & _ & [(-> & ->)|(-> & ->)] & _)|[(-> & _ & [(-> & ->)|(-> & ->)] & _)|([-> | ->] & _ & (-> & Hx) & _)]]; bools; cbn; try reflexivity; lia.
  Qed.
  Lemma row_line r' r q : 0 <= r' < H -> isdata lay q -> snd q <> 2 * r' -> snd q <> (2 * (r' + 1)) mod (2 * H) ->
    xorb (inH q (partner lay r q)) (xorb (RH r' (hexq lay (r + 1) q)) (RH r' (hexq lay (r + 2) q))) = false.
  Proof.
    intros Hc Hq Hn Hm. destruct (data_ab q Hq) as (a & b & -> & Ha & Hb). cbn [snd] in Hn, Hm. pose proof (valid_tiles lay Hv) as (T1 & T2 & T3 & T4).
    destruct (around_edge r a b) as (dx & dy & x1 & y1 & x2 & y2 & -> & -> & -> & C). unfold inH, in_h_rows, RH. rewrite !wrap_row. cbn [snd]. clear Hq.
    rewrite !(mod_near (2 * H)) in * by lia. revert Hm.
    destruct C as [(_ & -> & _ & -> & ->)|[(_ & -> & _ & -> & ->)|(_ & -> & _ & -> & ->)]]; bools; cbn; intros Hm; try reflexivity; lia.
  Qed.
End Lines.
