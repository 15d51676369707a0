(** C63: the picture of a circuit, from its levels. *)
From Coq Require Import QArith Qround Ascii Lqa.
From Verif Require Import Prelude Layout Stim Noise NoiseFacts Text Collect Prop_Collect Diagrams Prop_Diagrams.
Open Scope Z_scope.

(** ** Specification *)
(** A point with whole coordinates x, y >= 0. *)
Definition whole (p : cplx) (x y : Z) : Prop := (fst p == inject_Z x)%Q /\ (snd p == inject_Z y)%Q /\ 0 <= x /\ 0 <= y.
Definition same_point (p q : cplx) : Prop := (fst p == fst q /\ snd p == snd q)%Q.
(** Where (x, y) on level z is drawn, for n levels: column and line.  Moving by one in x
    moves n + 2 lines, moving by one in y moves n + 3 columns, and each level is drawn one
    line lower and one column further right than the level before it. *)
Definition spot (n x y z : Z) : Z * Z := ((y + 2) * (n + 3) + z, (x + 1) * (n + 2) + z).
(** The same for half coordinates (m / 2, k / 2), rounded up. *)
Definition half_spot (n m k z : Z) : Z * Z := (((k + 4) * (n + 3) + 1) / 2 + z, ((m + 2) * (n + 2) + 1) / 2 + z).
Definition points (values : list level) : list cplx := flat_map (map fst) values.
(** Levels: one visible character for each point, all points whole. *)
Definition good_levels (values : list level) : Prop :=
  points values <> [] /\
  forall lvl, In lvl values ->
    (forall p s, In (p, s) lvl -> (exists x y, whole p x y) /\ exists c, s = String c "" /\ is_space c = false) /\
    (forall p q s t, In (p, s) lvl -> In (q, t) lvl -> same_point p q -> s = t).
Definition good_links (links : list links) : Prop :=
  forall l a b, In l links -> In (a, b) l -> (exists x y, whole a x y) /\ exists x y, whole b x y.
(** u and v are the least and the greatest coordinate of the whole drawing, in some order. *)
Definition spans (f : cplx -> Q) (values : list level) (u v : Z) : Prop :=
  (exists p, In p (points values) /\ f p == inject_Z (Z.min u v))%Q /\
  (exists p, In p (points values) /\ f p == inject_Z (Z.max u v))%Q /\
  forall p, In p (points values) -> (inject_Z (Z.min u v) <= f p <= inject_Z (Z.max u v))%Q.
(** The straight strokes for a link from (xa, ya) to (xb, yb) on level z.  A link across the
    whole drawing goes round: it is drawn as two stubs pointing outwards.  Other links go
    from end to end. *)
Inductive stroke (n : Z) (values : list level) (z xa ya xb yb : Z) : Z * Z -> Z * Z -> Prop :=
  | stroke_up : spans fst values xa xb -> stroke n values z xa ya xb yb (spot n (Z.min xa xb) ya z) (half_spot n (2 * Z.min xa xb - 1) (2 * ya) z)
  | stroke_down : spans fst values xa xb -> stroke n values z xa ya xb yb (spot n (Z.max xa xb) yb z) (half_spot n (2 * Z.max xa xb + 1) (2 * yb) z)
  | stroke_left : ~ spans fst values xa xb -> spans snd values ya yb -> stroke n values z xa ya xb yb (spot n xa (Z.min ya yb) z) (half_spot n (2 * xa) (2 * Z.min ya yb - 1) z)
  | stroke_right : ~ spans fst values xa xb -> spans snd values ya yb -> stroke n values z xa ya xb yb (spot n xb (Z.max ya yb) z) (half_spot n (2 * xb) (2 * Z.max ya yb + 1) z)
  | stroke_along : ~ spans fst values xa xb -> ~ spans snd values ya yb -> stroke n values z xa ya xb yb (spot n xa ya z) (spot n xb yb z).
Definition vertical (p q cell : Z * Z) : Prop := fst p = fst q /\ fst cell = fst p /\ Z.min (snd p) (snd q) <= snd cell <= Z.max (snd p) (snd q).
Definition horizontal (p q cell : Z * Z) : Prop := snd p = snd q /\ snd cell = snd p /\ Z.min (fst p) (fst q) <= fst cell <= Z.max (fst p) (fst q).
(** The strokes of one link, as a list. *)
Inductive strokes (n : Z) (values : list level) (z xa ya xb yb : Z) : list ((Z * Z) * (Z * Z)) -> Prop :=
  | strokes_x : spans fst values xa xb -> strokes n values z xa ya xb yb
      [(spot n (Z.min xa xb) ya z, half_spot n (2 * Z.min xa xb - 1) (2 * ya) z); (spot n (Z.max xa xb) yb z, half_spot n (2 * Z.max xa xb + 1) (2 * yb) z)]
  | strokes_y : ~ spans fst values xa xb -> spans snd values ya yb -> strokes n values z xa ya xb yb
      [(spot n xa (Z.min ya yb) z, half_spot n (2 * xa) (2 * Z.min ya yb - 1) z); (spot n xb (Z.max ya yb) z, half_spot n (2 * xb) (2 * Z.max ya yb + 1) z)]
  | strokes_along : ~ spans fst values xa xb -> ~ spans snd values ya yb -> strokes n values z xa ya xb yb [(spot n xa ya z, spot n xb yb z)].
(** All strokes of the drawing: those of each link of each level. *)
Definition drawn_strokes (values : list level) (links : list links) (segs : list ((Z * Z) * (Z * Z))) : Prop :=
  let n := Z.of_nat (length values) in
  exists per : list (list (list ((Z * Z) * (Z * Z)))), length per = Nat.min (length links) (length values) /\ segs = concat (concat per) /\
    forall z l, (z < length values)%nat -> nth_error links z = Some l -> exists S, nth_error per z = Some S /\
      Forall2 (fun ab T => exists xa ya xb yb, whole (fst ab) xa ya /\ whole (snd ab) xb yb /\ strokes n values (Z.of_nat z) xa ya xb yb T) l S.
Lemma horizontal_dec p q cell : {horizontal p q cell} + {~ horizontal p q cell}.
Proof.
  unfold horizontal. destruct (Z.eq_dec (snd p) (snd q)) as [A|A]; [|right; tauto]. destruct (Z.eq_dec (snd cell) (snd p)) as [B|B]; [|right; tauto].
  destruct (Z_le_dec (Z.min (fst p) (fst q)) (fst cell)) as [C|C]; [|right; tauto]. destruct (Z_le_dec (fst cell) (Z.max (fst p) (fst q))) as [D|D]; [left; tauto|right; tauto].
Defined.
(** How many horizontal strokes pass through a cell. *)
Definition crossings (segs : list ((Z * Z) * (Z * Z))) (cell : Z * Z) : nat := length (filter (fun s => if horizontal_dec (fst s) (snd s) cell then true else false) segs).
Lemma vertical_dec p q cell : {vertical p q cell} + {~ vertical p q cell}.
Proof.
  unfold vertical. destruct (Z.eq_dec (fst p) (fst q)) as [A|A]; [|right; tauto]. destruct (Z.eq_dec (fst cell) (fst p)) as [B|B]; [|right; tauto].
  destruct (Z_le_dec (Z.min (snd p) (snd q)) (snd cell)) as [C|C]; [|right; tauto]. destruct (Z_le_dec (snd cell) (Z.max (snd p) (snd q))) as [D|D]; [left; tauto|right; tauto].
Defined.
(** The strokes through a cell in the order they are drawn: true for a vertical one. *)
Definition passes (segs : list ((Z * Z) * (Z * Z))) (cell : Z * Z) : list bool :=
  flat_map (fun s => (if vertical_dec (fst s) (snd s) cell then [true] else []) ++ (if horizontal_dec (fst s) (snd s) cell then [false] else [])) segs.
Section Seen.
  Variables (values : list level) (links : list links).
  Let n := Z.of_nat (length values).
  Definition symbol_at (cell : Z * Z) (c : ascii) : Prop := exists z lvl p x y,
    nth_error values z = Some lvl /\ In (p, String c "") lvl /\ whole p x y /\ cell = spot n x y (Z.of_nat z).
  Definition link_on (z : nat) (xa ya xb yb : Z) : Prop := exists l a b,
    (z < length values)%nat /\ nth_error links z = Some l /\ In (a, b) l /\ whole a xa ya /\ whole b xb yb.
  (** The outer end of a stub. *)
  Definition mark_at (cell : Z * Z) : Prop := exists z xa ya xb yb p, link_on z xa ya xb yb /\
    (spans fst values xa xb \/ spans snd values ya yb) /\ stroke n values (Z.of_nat z) xa ya xb yb p cell.
  Definition line_at (dir : Z * Z -> Z * Z -> Z * Z -> Prop) (cell : Z * Z) : Prop := exists z xa ya xb yb p q, link_on z xa ya xb yb /\
    stroke n values (Z.of_nat z) xa ya xb yb p q /\ dir p q cell.
End Seen.

(** ** Facts *)
Lemma zpair_eqb_spec a b : zpair_eqb a b = true <-> a = b.
Proof. destruct a, b. unfold zpair_eqb. cbn. rewrite andb_true_iff, !Z.eqb_eq. split; [intros [-> ->]; reflexivity|intros [= -> ->]; auto]. Qed.
Lemma ceil_unique q z : (inject_Z z - 1 < q)%Q -> (q <= inject_Z z)%Q -> Qceiling q = z.
Proof.
  intros H1 H2. pose proof (Qceiling_lt q) as A. pose proof (Qle_ceiling q) as B.
  assert (C : z - 1 < Qceiling q) by (rewrite Zlt_Qlt; unfold Z.sub; rewrite inject_Z_plus; change (inject_Z (- (1))) with (- (1))%Q; lra).
  assert (D : Qceiling q - 1 < z) by (rewrite Zlt_Qlt; lra). lia.
Qed.
Lemma ceil_half q N z : (q == inject_Z N * half)%Q -> Qceiling (q + inject_Z z) = (N + 1) / 2 + z.
Proof.
  intros E. apply ceil_unique; rewrite E, inject_Z_plus.
  - assert (A : (N + 1) / 2 * 2 < N + 2) by (pose proof (Z.div_mod (N + 1) 2 ltac:(lia)); pose proof (Z.mod_pos_bound (N + 1) 2 ltac:(lia)); lia).
    rewrite Zlt_Qlt, inject_Z_mult, inject_Z_plus in A. change (inject_Z 2) with 2%Q in A. unfold half. lra.
  - assert (A : N <= (N + 1) / 2 * 2) by (pose proof (Z.div_mod (N + 1) 2 ltac:(lia)); pose proof (Z.mod_pos_bound (N + 1) 2 ltac:(lia)); lia).
    rewrite Zle_Qle, inject_Z_mult in A. change (inject_Z 2) with 2%Q in A. unfold half. lra.
Qed.
Lemma plot_half n p m k z : (fst p == inject_Z m * half)%Q -> (snd p == inject_Z k * half)%Q -> plot n p z = half_spot n m k z.
Proof.
  intros Hx Hy. unfold plot, half_spot. f_equal; apply ceil_half; rewrite ?Hx, ?Hy, !inject_Z_mult, !inject_Z_plus; unfold half;
    [change (inject_Z 4) with 4%Q; change (inject_Z 3) with 3%Q|]; change (inject_Z 2) with 2%Q; field.
Qed.
Lemma half_spot_even n x y z : half_spot n (2 * x) (2 * y) z = spot n x y z.
Proof.
  unfold half_spot, spot. f_equal; f_equal.
  - replace ((2 * y + 4) * (n + 3) + 1) with (1 + (y + 2) * (n + 3) * 2) by ring. rewrite Z.div_add by lia. reflexivity.
  - replace ((2 * x + 2) * (n + 2) + 1) with (1 + (x + 1) * (n + 2) * 2) by ring. rewrite Z.div_add by lia. reflexivity.
Qed.
Lemma inject_even x : (inject_Z x == inject_Z (2 * x) * half)%Q.
Proof. rewrite inject_Z_mult. unfold half. change (inject_Z 2) with 2%Q. field. Qed.
Lemma plot_whole n p x y z : whole p x y -> plot n p z = spot n x y z.
Proof. intros (Hx & Hy & _). rewrite <- half_spot_even. apply plot_half; rewrite ?Hx, ?Hy; apply inject_even. Qed.
Lemma spot_inj n x y z x' y' z' : 0 <= z < n -> 0 <= z' < n -> spot n x y z = spot n x' y' z' -> x = x' /\ y = y' /\ z = z'.
Proof.
  intros Hz Hz' [= E1 E2]. assert (y = y').
  { assert ((y - y') * (n + 3) = z' - z) by lia. destruct (Z.eq_dec y y'); [assumption|]. exfalso. assert (y - y' <= -1 \/ 1 <= y - y') as [K|K] by lia; nia. }
  subst y'. assert (z = z') by lia. subst z'. split; [|auto]. nia.
Qed.
(** The outer ends of stubs are never where a symbol is drawn. *)
Lemma mark_apart_x n m y z x' y' z' : 0 <= z < n -> 0 <= z' < n -> half_spot n (2 * m + 1) (2 * y) z <> spot n x' y' z'.
Proof.
  intros Hz Hz' E. assert (E1 := f_equal fst E). assert (E2 := f_equal snd E). cbn [fst snd half_spot spot] in *.
  replace ((2 * y + 4) * (n + 3) + 1) with (1 + (y + 2) * (n + 3) * 2) in E1 by ring. rewrite Z.div_add in E1 by lia. change (1 / 2) with 0 in E1.
  assert (y = y'). { destruct (Z.eq_dec y y'); [assumption|]. exfalso. assert (y - y' <= -1 \/ 1 <= y - y') as [K|K] by lia; nia. }
  subst y'. assert (z' = z) by lia. subst z'. pose proof (Z.div_mod ((2 * m + 1 + 2) * (n + 2) + 1) 2 ltac:(lia)). pose proof (Z.mod_pos_bound ((2 * m + 1 + 2) * (n + 2) + 1) 2 ltac:(lia)).
  assert (C : 2 * ((x' + 1) * (n + 2)) = (2 * m + 1 + 2) * (n + 2) \/ 2 * ((x' + 1) * (n + 2)) = (2 * m + 1 + 2) * (n + 2) + 1) by lia.
  clear - C Hz. assert (2 * x' + 2 <= 2 * m + 2 \/ 2 * m + 4 <= 2 * x' + 2) as [K|K] by lia; nia.
Qed.
Lemma mark_apart_y n x m z x' y' z' : 0 <= z < n -> 0 <= z' < n -> half_spot n (2 * x) (2 * m + 1) z <> spot n x' y' z'.
Proof.
  intros Hz Hz' E. assert (E1 := f_equal fst E). assert (E2 := f_equal snd E). cbn [fst snd half_spot spot] in *.
  replace ((2 * x + 2) * (n + 2) + 1) with (1 + (x + 1) * (n + 2) * 2) in E2 by ring. rewrite Z.div_add in E2 by lia. change (1 / 2) with 0 in E2.
  assert (x = x'). { destruct (Z.eq_dec x x'); [assumption|]. exfalso. assert (x - x' <= -1 \/ 1 <= x - x') as [K|K] by lia; nia. }
  subst x'. assert (z' = z) by lia. subst z'. pose proof (Z.div_mod ((2 * m + 1 + 4) * (n + 3) + 1) 2 ltac:(lia)). pose proof (Z.mod_pos_bound ((2 * m + 1 + 4) * (n + 3) + 1) 2 ltac:(lia)).
  assert (C : 2 * ((y' + 2) * (n + 3)) = (2 * m + 1 + 4) * (n + 3) \/ 2 * ((y' + 2) * (n + 3)) = (2 * m + 1 + 4) * (n + 3) + 1) by lia.
  clear - C Hz. assert (2 * y' + 4 <= 2 * m + 4 \/ 2 * m + 6 <= 2 * y' + 4) as [K|K] by lia; nia.
Qed.

(** Dictionaries as finite maps. *)
Lemma dget_dset {V} k (v : V) l k' : dget zpair_eqb k' (dset zpair_eqb k v l) = if zpair_eqb k' k then Some v else dget zpair_eqb k' l.
Proof. unfold dset. rewrite (dget_dupd zpair_eqb zpair_eqb_spec). destruct (zpair_eqb k' k); [|reflexivity]. reflexivity. Qed.
Lemma dset_NoDup {V} k (v : V) l : NoDup (map fst l) -> NoDup (map fst (dset zpair_eqb k v l)).
Proof. apply dupd_NoDup. exact zpair_eqb_spec. Qed.
Lemma zpair_refl k : zpair_eqb k k = true.
Proof. now apply zpair_eqb_spec. Qed.
Lemma dget_in {V} (l : list ((Z * Z) * V)) : NoDup (map fst l) -> forall k v, In (k, v) l <-> dget zpair_eqb k l = Some v.
Proof.
  induction l as [|[k0 v0] l IH]; cbn [map fst dget]; intros N k v; [split; [intros []|discriminate]|]. inversion N as [|? ? N1 N2]. subst. specialize (IH N2 k v).
  destruct (zpair_eqb k k0) eqn:E.
  - apply zpair_eqb_spec in E. subst k0. split; [|intros [= ->]; now left]. intros [[= ->]|H]; [reflexivity|]. exfalso. apply N1. apply in_map_iff. now exists (k, v).
  - rewrite <- IH. split; [|now right]. intros [[= -> ->]|H]; [|exact H]. rewrite zpair_refl in E. discriminate.
Qed.
Definition put {V} (d : list ((Z * Z) * V)) (kv : (Z * Z) * V) := dset zpair_eqb (fst kv) (snd kv) d.
Lemma put_all_NoDup {V} (l : list ((Z * Z) * V)) : forall d, NoDup (map fst d) -> NoDup (map fst (fold_left put l d)).
Proof. induction l as [|kv l IH]; intros d N; [exact N|]. cbn [fold_left]. apply IH. now apply dset_NoDup. Qed.
Lemma put_all_in {V} (l : list ((Z * Z) * V)) : forall d k, (forall v, ~ In (k, v) l) -> dget zpair_eqb k (fold_left put l d) = dget zpair_eqb k d.
Proof.
  induction l as [|[k0 v0] l IH]; intros d k N; [reflexivity|]. cbn [fold_left]. rewrite IH by (intros v H; apply (N v); now right). unfold put. cbn [fst snd].
  rewrite dget_dset. destruct (zpair_eqb k k0) eqn:E; [|reflexivity]. apply zpair_eqb_spec in E. subst k0. exfalso. apply (N v0). now left.
Qed.
Lemma in_key_dec {V} k (l : list ((Z * Z) * V)) : (exists v, In (k, v) l) \/ (forall v, ~ In (k, v) l).
Proof.
  induction l as [|[k0 v0] l IH]; [right; intros v []|]. destruct (zpair_eqb k k0) eqn:E.
  - apply zpair_eqb_spec in E. subst. left. exists v0. now left.
  - destruct IH as [[v H]|H]; [left; exists v; now right|]. right. intros v [[= -> ->]|K]; [rewrite zpair_refl in E; discriminate|exact (H v K)].
Qed.
Lemma put_all_get {V} (l : list ((Z * Z) * V)) : forall d k v, In (k, v) l -> (forall v', In (k, v') l -> v' = v) -> dget zpair_eqb k (fold_left put l d) = Some v.
Proof.
  induction l as [|[k0 v0] l IH]; intros d k v H U; [destruct H|]. cbn [fold_left]. destruct (in_key_dec k l) as [[v' K]|K].
  - assert (v' = v) by (apply U; now right). subst v'. apply IH; [exact K|]. intros w Hw. apply U. now right.
  - rewrite put_all_in by exact K. destruct H as [[= -> ->]|H]; [|exfalso; exact (K v H)]. unfold put. cbn [fst snd]. rewrite dget_dset, zpair_refl. reflexivity.
Qed.

(** Strokes, cell by cell. *)
Definition cells (seg : (Z * Z) * (Z * Z)) : list (bool * (Z * Z)) :=
  let '(p1, p2) := seg in
  (if fst p1 =? fst p2 then map (fun k => (true, (fst p1, k))) (zrange (Z.min (snd p1) (snd p2)) (Z.max (snd p1) (snd p2) + 1)) else []) ++
  (if snd p1 =? snd p2 then map (fun k => (false, (k, snd p1))) (zrange (Z.min (fst p1) (fst p2)) (Z.max (fst p1) (fst p2) + 1)) else []).
Definition step (proj : list ((Z * Z) * string)) (c : bool * (Z * Z)) := if fst c then draw_v proj (snd c) else draw_h proj (snd c).
Lemma fold_step_map (b : bool) (f : Z -> Z * Z) l : forall proj, fold_left step (map (fun k => (b, f k)) l) proj = fold_left (if b then draw_v else draw_h) (map f l) proj.
Proof. induction l as [|k l IH]; intros proj; [reflexivity|]. cbn [map fold_left]. rewrite IH. unfold step. cbn [fst snd]. now destruct b. Qed.
Lemma draw_cells proj seg : draw proj seg = fold_left step (cells seg) proj.
Proof.
  destruct seg as [p1 p2]. unfold draw, cells. rewrite fold_left_app. destruct (fst p1 =? fst p2), (snd p1 =? snd p2); cbn [fold_left];
    rewrite ?(fold_step_map true (fun k => (fst p1, k))), ?(fold_step_map false (fun k => (k, snd p1))); reflexivity.
Qed.
Lemma draw_all segs : forall proj, fold_left draw segs proj = fold_left step (flat_map cells segs) proj.
Proof. induction segs as [|s l IH]; intros proj; [reflexivity|]. cbn [fold_left flat_map]. rewrite fold_left_app, <- draw_cells. apply IH. Qed.
Lemma cells_spec p q b k : In (b, k) (cells (p, q)) <-> (if b then vertical p q k else horizontal p q k).
Proof.
  unfold cells, vertical, horizontal. rewrite in_app_iff. destruct b.
  - split.
    + intros [H|H].
      * destruct (Z.eqb_spec (fst p) (fst q)) as [E|E]; [|destruct H]. apply in_map_iff in H as (j & [= <-] & H). apply in_zrange in H. cbn [fst snd]. lia.
      * destruct (snd p =? snd q); [|destruct H]. apply in_map_iff in H as (j & [= ] & _).
    + intros (E & E1 & E2). left. rewrite (proj2 (Z.eqb_eq _ _) E). apply in_map_iff. exists (snd k). split; [destruct k; cbn [fst snd] in *; now subst|]. apply in_zrange. lia.
  - split.
    + intros [H|H].
      * destruct (fst p =? fst q); [|destruct H]. apply in_map_iff in H as (j & [= ] & _).
      * destruct (Z.eqb_spec (snd p) (snd q)) as [E|E]; [|destruct H]. apply in_map_iff in H as (j & [= <-] & H). apply in_zrange in H. cbn [fst snd]. lia.
    + intros (E & E1 & E2). right. rewrite (proj2 (Z.eqb_eq _ _) E). apply in_map_iff. exists (fst k). split; [destruct k; cbn [fst snd] in *; now subst|]. apply in_zrange. lia.
Qed.
Definition bars : list string := ["|"; "-"; "+"; "="]%string.
Definition shows (V H : Prop) (o : option string) : Prop :=
  (V -> ~ H -> o = Some "|"%string) /\ (~ V -> H -> o = Some "-"%string \/ o = Some "="%string) /\ (V -> H -> exists s, In s bars /\ o = Some s) /\ (~ V -> ~ H -> o = None).
Lemma bc_dec (x y : bool * (Z * Z)) : {x = y} + {x <> y}.
Proof. repeat decide equality. Qed.
Lemma steps_show ops k : shows (In (true, k) ops) (In (false, k) ops) (dget zpair_eqb k (fold_left step ops [])).
Proof.
  induction ops as [|[b k0] ops IH] using rev_ind.
  - cbn. repeat split; try tauto. 
  - rewrite fold_left_app. cbn [fold_left]. set (d := fold_left step ops []) in *. unfold step. cbn [fst snd].
    assert (R : forall b', In (b', k) (ops ++ [(b, k0)]) <-> In (b', k) ops \/ (b = b' /\ k0 = k)).
    { intros b'. rewrite in_app_iff. cbn [In]. split; [intros [?|[[= <- <-]|[]]]; auto|intros [?|[<- <-]]; auto]. }
    unfold shows. rewrite !R. clear R.
    destruct IH as (I1 & I2 & I3 & I4). destruct (in_dec bc_dec (true, k) ops) as [V|V], (in_dec bc_dec (false, k) ops) as [H|H];
      (destruct (zpair_eqb k k0) eqn:E;
        [apply zpair_eqb_spec in E; subst k0
        |assert (Nk : k0 <> k) by (intros ->; rewrite zpair_refl in E; discriminate);
         replace (dget zpair_eqb k (if b then draw_v d k0 else draw_h d k0)) with (dget zpair_eqb k d) by (destruct b; unfold draw_v, draw_h; rewrite dget_dset, E; reflexivity);
         repeat split; intros; tauto]).
    all: try (destruct (I3 V H) as (s & Hs & O); clear I1 I2 I4).
    all: try (specialize (I1 V H); rename I1 into O; clear I2 I3 I4).
    all: try (specialize (I2 V H); rename I2 into O; clear I1 I3 I4).
    all: try (specialize (I4 V H); rename I4 into O; clear I1 I2 I3).
    all: destruct b; unfold draw_v, draw_h; rewrite dget_dset, zpair_refl.
    all: try destruct O as [O|O]; rewrite O.
    all: try (destruct Hs as [<-|[<-|[<-|[<-|[]]]]]).
    all: cbn [String.eqb Ascii.eqb Bool.eqb orb].
    all: repeat split; intros; try tauto.
    all: try (eexists; split; [|reflexivity]; cbn; tauto).
Qed.

(** Horizontal strokes only: they alternate. *)
Lemma steps_count ops k : ~ In (true, k) ops -> dget zpair_eqb k (fold_left step ops []) =
  match count_occ bc_dec ops (false, k) with O => None | S c => Some (if Nat.even c then "-"%string else "="%string) end.
Proof.
  induction ops as [|[b k0] ops IH] using rev_ind; [reflexivity|]. intros N. rewrite in_app_iff in N. cbn [In] in N.
  rewrite fold_left_app, count_occ_app. cbn [fold_left count_occ]. specialize (IH ltac:(tauto)). set (d := fold_left step ops []) in *. unfold step. cbn [fst snd].
  destruct (bc_dec (b, k0) (false, k)) as [[= -> ->]|Ne].
  - unfold draw_h. rewrite dget_dset, zpair_refl, IH. rewrite Nat.add_1_r. destruct (count_occ bc_dec ops (false, k)) as [|c]; [reflexivity|].
    rewrite Nat.even_succ, <- Nat.negb_even. destruct (Nat.even c); reflexivity.
  - rewrite Nat.add_0_r, <- IH. assert (Nk : zpair_eqb k k0 = false).
    { destruct (zpair_eqb k k0) eqn:E; [|reflexivity]. apply zpair_eqb_spec in E. subst k0. destruct b; [exfalso; tauto|congruence]. }
    destruct b; unfold draw_v, draw_h; rewrite dget_dset, Nk; reflexivity.
Qed.
(** The strokes through one cell, one after the other. *)
Definition look (o : option string) (v : bool) : option string :=
  let old := match o with Some s => s | None => " "%string end in
  Some (if v then (if (old =? "-")%string || (old =? "+")%string then "+"%string else "|"%string)
        else (if (old =? "|")%string || (old =? "+")%string then "+"%string else if (old =? "-")%string then "="%string else "-"%string)).
Lemma steps_look ops k : dget zpair_eqb k (fold_left step ops []) = fold_left look (map fst (filter (fun o => zpair_eqb k (snd o)) ops)) None.
Proof.
  induction ops as [|[b k0] ops IH] using rev_ind; [reflexivity|]. rewrite fold_left_app, filter_app, map_app, fold_left_app. cbn [fold_left filter snd]. set (d := fold_left step ops []) in *. unfold step. cbn [fst snd].
  destruct (zpair_eqb k k0) eqn:E.
  - cbn [map fst fold_left]. rewrite <- IH. apply zpair_eqb_spec in E. subst k0. destruct b; unfold draw_v, draw_h; rewrite dget_dset, zpair_refl; reflexivity.
  - cbn [map fold_left]. rewrite <- IH. destruct b; unfold draw_v, draw_h; rewrite dget_dset, E; reflexivity.
Qed.
Lemma look_plus l : fold_left look l (Some "+"%string) = Some "+"%string.
Proof. induction l as [|[|] l IH]; [reflexivity | exact IH | exact IH]. Qed.
Lemma look_bar l : fold_left look l (Some "|"%string) = Some (if existsb negb l then "+"%string else "|"%string).
Proof. induction l as [|[|] l IH]; [reflexivity | exact IH | apply look_plus]. Qed.
Lemma look_crossed c rest : fold_left look (repeat false c ++ true :: rest) None = Some (if Nat.odd c || existsb negb rest then "+"%string else "|"%string).
Proof.
  rewrite fold_left_app. assert (E : fold_left look (repeat false c) None = match c with O => None | S c' => Some (if Nat.even c' then "-"%string else "="%string) end).
  { induction c as [|c IH]; [reflexivity|]. change (repeat false (S c)) with (repeat false 1 ++ repeat false c). rewrite <- repeat_app, Nat.add_comm, repeat_app, fold_left_app, IH. destruct c as [|c]; [reflexivity|].
    rewrite Nat.even_succ, <- Nat.negb_even. destruct (Nat.even c); reflexivity. }
  rewrite E. cbn [fold_left]. destruct c as [|c]; [apply look_bar|]. rewrite Nat.odd_succ. destruct (Nat.even c); [apply look_plus | apply look_bar].
Qed.
Lemma NoDup_app_disjoint {T} (l l' : list T) : NoDup l -> NoDup l' -> (forall x, In x l -> In x l' -> False) -> NoDup (l ++ l').
Proof.
  induction 1 as [|x l Hx Hl IH]; intros Hl' D; [exact Hl'|]. cbn [app]. constructor.
  - rewrite in_app_iff. intros [K|K]; [contradiction|]. apply (D x); [now left|exact K].
  - apply IH; [exact Hl'|]. intros y K. apply D. now right.
Qed.
Lemma cells_NoDup seg : NoDup (cells seg).
Proof.
  destruct seg as [p q]. unfold cells. apply NoDup_app_disjoint.
  - destruct (_ =? _); [|constructor]. apply FinFun.Injective_map_NoDup; [intros x y [= ->]; reflexivity|apply NoDup_zrange].
  - destruct (_ =? _); [|constructor]. apply FinFun.Injective_map_NoDup; [intros x y [= ->]; reflexivity|apply NoDup_zrange].
  - intros x H1 H2. destruct (fst p =? fst q); [|destruct H1]. destruct (snd p =? snd q); [|destruct H2].
    apply in_map_iff in H1 as (u & <- & _). apply in_map_iff in H2 as (v & [= ] & _).
Qed.
Lemma passes_cells segs k : map fst (filter (fun o => zpair_eqb k (snd o)) (flat_map cells segs)) = passes segs k.
Proof.
  unfold passes. induction segs as [|[p q] l IH]; [reflexivity|]. cbn [flat_map fst snd]. rewrite filter_app, map_app, IH. f_equal. clear IH.
  assert (One : forall (b : bool) (f : Z -> Z * Z) l, NoDup l -> (forall x y, f x = f y -> x = y) -> map fst (filter (fun o => zpair_eqb k (snd o)) (map (fun x => (b, f x)) l)) = if existsb (fun x => zpair_eqb k (f x)) l then [b] else []).
  { clear. intros b f l Hn Hf. induction Hn as [|x l Hx Hn IH]; [reflexivity|]. cbn [map filter snd existsb]. destruct (zpair_eqb k (f x)) eqn:E; [|exact IH]. cbn [orb map fst]. rewrite IH.
    replace (existsb (fun x0 => zpair_eqb k (f x0)) l) with false; [reflexivity|]. symmetry. apply not_true_is_false. intros K. apply existsb_exists in K. destruct K as (y & Hy & K). apply zpair_eqb_spec in E, K. apply Hx. rewrite (Hf x y) by congruence. exact Hy. }
  unfold cells. rewrite filter_app, map_app. f_equal.
  - destruct (vertical_dec p q k) as [(A & B & C)|N].
    + rewrite (proj2 (Z.eqb_eq _ _) A), (One true (fun x => (fst p, x))) by (apply NoDup_zrange || (intros x y E; injection E; auto)).
      replace (existsb _ _) with true; [reflexivity|]. symmetry. apply existsb_exists. exists (snd k). split; [apply in_zrange; lia|]. apply zpair_eqb_spec. destruct k. cbn in *. congruence.
    + destruct (Z.eqb_spec (fst p) (fst q)) as [A|]; [|reflexivity]. rewrite (One true (fun x => (fst p, x))) by (apply NoDup_zrange || (intros x y E; injection E; auto)).
      replace (existsb _ _) with false; [reflexivity|]. symmetry. apply not_true_is_false. intros K. apply existsb_exists in K. destruct K as (y & Hy & K). apply in_zrange in Hy. apply zpair_eqb_spec in K. apply N. unfold vertical. rewrite K. cbn. lia.
  - destruct (horizontal_dec p q k) as [(A & B & C)|N].
    + rewrite (proj2 (Z.eqb_eq _ _) A), (One false (fun x => (x, snd p))) by (apply NoDup_zrange || (intros x y E; injection E; auto)).
      replace (existsb _ _) with true; [reflexivity|]. symmetry. apply existsb_exists. exists (fst k). split; [apply in_zrange; lia|]. apply zpair_eqb_spec. destruct k. cbn in *. congruence.
    + destruct (Z.eqb_spec (snd p) (snd q)) as [A|]; [|reflexivity]. rewrite (One false (fun x => (x, snd p))) by (apply NoDup_zrange || (intros x y E; injection E; auto)).
      replace (existsb _ _) with false; [reflexivity|]. symmetry. apply not_true_is_false. intros K. apply existsb_exists in K. destruct K as (y & Hy & K). apply in_zrange in Hy. apply zpair_eqb_spec in K. apply N. unfold horizontal. rewrite K. cbn. lia.
Qed.
Lemma crossings_count segs k : count_occ bc_dec (flat_map cells segs) (false, k) = crossings segs k.
Proof.
  unfold crossings. induction segs as [|[p q] segs IH]; [reflexivity|]. cbn [flat_map filter fst snd]. rewrite count_occ_app, IH. destruct (horizontal_dec p q k) as [H|H].
  - cbn [length]. assert (count_occ bc_dec (cells (p, q)) (false, k) = 1%nat) as ->; [|reflexivity].
    apply (proj1 (NoDup_count_occ' bc_dec (cells (p, q))) (cells_NoDup (p, q))). now apply cells_spec.
  - assert (count_occ bc_dec (cells (p, q)) (false, k) = 0%nat) as ->; [|reflexivity]. apply count_occ_not_In. intros K. now apply cells_spec in K.
Qed.

(** Least and greatest coordinates. *)
Lemma min_of_spec l : l <> [] -> exists m, min_of l = Ok m /\ In m l /\ forall x, In x l -> (m <= x)%Q.
Proof.
  destruct l as [|a l]; [contradiction|]. intros _. exists (qmin a l). split; [reflexivity|]. revert a. induction l as [|b l IH]; intros a; unfold qmin in *; cbn [fold_left].
  - split; [now left|]. intros x [->|[]]. lra.
  - destruct (Qle_bool a b) eqn:E.
    + apply Qle_bool_iff in E. destruct (IH a) as [I1 I2]. split; [destruct I1; [now left|right; now right]|]. intros x [->|[->|H]]; [apply I2; now left| |apply I2; now right].
      specialize (I2 a ltac:(now left)). lra.
    + assert (b < a)%Q by (apply Qnot_le_lt; intros K; apply Qle_bool_iff in K; congruence). destruct (IH b) as [I1 I2]. split; [destruct I1; [right; now left|right; now right]|].
      intros x [->|[->|H0]]; [|apply I2; now left|apply I2; now right]. specialize (I2 b ltac:(now left)). lra.
Qed.
Lemma max_of_spec l : l <> [] -> exists m, max_of l = Ok m /\ In m l /\ forall x, In x l -> (x <= m)%Q.
Proof.
  destruct l as [|a l]; [contradiction|]. intros _. exists (qmax a l). split; [reflexivity|]. revert a. induction l as [|b l IH]; intros a; unfold qmax in *; cbn [fold_left].
  - split; [now left|]. intros x [->|[]]. lra.
  - destruct (Qle_bool b a) eqn:E.
    + apply Qle_bool_iff in E. destruct (IH a) as [I1 I2]. split; [destruct I1; [now left|right; now right]|]. intros x [->|[->|H]]; [apply I2; now left| |apply I2; now right].
      specialize (I2 a ltac:(now left)). lra.
    + assert (a < b)%Q by (apply Qnot_le_lt; intros K; apply Qle_bool_iff in K; congruence). destruct (IH b) as [I1 I2]. split; [destruct I1; [right; now left|right; now right]|].
      intros x [->|[->|H0]]; [|apply I2; now left|apply I2; now right]. specialize (I2 b ltac:(now left)). lra.
Qed.
Lemma lesser a b u v : (a == inject_Z u)%Q -> (b == inject_Z v)%Q -> ((if Qle_bool a b then a else b) == inject_Z (Z.min u v))%Q.
Proof.
  intros Ha Hb. destruct (Qle_bool a b) eqn:E.
  - apply Qle_bool_iff in E. rewrite Ha, Hb, <- Zle_Qle in E. now rewrite Z.min_l.
  - assert (K : (b < a)%Q) by (apply Qnot_le_lt; intros K; apply Qle_bool_iff in K; congruence). rewrite Ha, Hb, <- Zlt_Qlt in K. rewrite Z.min_r by lia. exact Hb.
Qed.
Lemma greater a b u v : (a == inject_Z u)%Q -> (b == inject_Z v)%Q -> ((if Qle_bool a b then b else a) == inject_Z (Z.max u v))%Q.
Proof.
  intros Ha Hb. destruct (Qle_bool a b) eqn:E.
  - apply Qle_bool_iff in E. rewrite Ha, Hb, <- Zle_Qle in E. now rewrite Z.max_r.
  - assert (K : (b < a)%Q) by (apply Qnot_le_lt; intros K; apply Qle_bool_iff in K; congruence). rewrite Ha, Hb, <- Zlt_Qlt in K. rewrite Z.max_l by lia. exact Ha.
Qed.
Lemma spans_test (f : cplx -> Q) values lo hi a b u v :
  In lo (map f (points values)) -> (forall x, In x (map f (points values)) -> (lo <= x)%Q) ->
  In hi (map f (points values)) -> (forall x, In x (map f (points values)) -> (x <= hi)%Q) ->
  (a == inject_Z (Z.min u v))%Q -> (b == inject_Z (Z.max u v))%Q ->
  (Qeq_bool a lo && Qeq_bool b hi = true <-> spans f values u v).
Proof.
  intros Il Ll Ih Lh Ha Hb. rewrite andb_true_iff, !Qeq_bool_iff. unfold spans. apply in_map_iff in Il as (pl & <- & Il). apply in_map_iff in Ih as (ph & <- & Ih). split.
  - intros [E1 E2]. split; [exists pl; split; [exact Il|rewrite <- E1; exact Ha]|]. split; [exists ph; split; [exact Ih|rewrite <- E2; exact Hb]|].
    intros p Hp. rewrite <- Ha, <- Hb, E1, E2. split; [apply Ll|apply Lh]; now apply in_map.
  - intros ((p & Hp & Ep) & (q & Hq & Eq) & A). rewrite Ha, Hb. rewrite <- Ep, <- Eq. pose proof (Ll (f p) ltac:(now apply in_map)). pose proof (Lh (f q) ltac:(now apply in_map)).
    destruct (A _ Il) as [A1 _]. destruct (A _ Ih) as [_ A2]. rewrite <- Ep in A1. rewrite <- Eq in A2. split; lra.
Qed.
Lemma plot_lo n x y z (a b : Q) : (a == inject_Z x)%Q -> (b == inject_Z y)%Q -> plot n (a, b) z = spot n x y z.
Proof. intros Ha Hb. rewrite <- half_spot_even. apply plot_half; cbn [fst snd]; rewrite ?Ha, ?Hb; apply inject_even. Qed.
Lemma odd_half x (s : Z) : (s = 1 \/ s = -1) -> (inject_Z x + inject_Z s * half == inject_Z (2 * x + s) * half)%Q.
Proof. intros _. rewrite inject_Z_plus, inject_Z_mult. change (inject_Z 2) with 2%Q. unfold half. field. Qed.
Lemma connector_spec n values z a b xa ya xb yb lx hx ly hy :
  min_of (map fst (points values)) = Ok lx -> max_of (map fst (points values)) = Ok hx -> min_of (map snd (points values)) = Ok ly -> max_of (map snd (points values)) = Ok hy ->
  whole a xa ya -> whole b xb yb ->
  (forall p q, In (p, q) (fst (connector n lx hx ly hy z (a, b))) <-> stroke n values z xa ya xb yb p q) /\
  (forall m, In m (snd (connector n lx hx ly hy z (a, b))) <-> (spans fst values xa xb \/ spans snd values ya yb) /\ exists p, stroke n values z xa ya xb yb p m) /\
  strokes n values z xa ya xb yb (fst (connector n lx hx ly hy z (a, b))).
Proof.
  intros Elx Ehx Ely Ehy (Hxa & Hya & _) (Hxb & Hyb & _).
  assert (Nx : map fst (points values) <> []) by (intros K; rewrite K in Elx; discriminate). assert (Ny : map snd (points values) <> []) by (intros K; rewrite K in Ely; discriminate).
  destruct (min_of_spec _ Nx) as (? & E & Il & Ll). rewrite Elx in E. injection E as <-.
  destruct (max_of_spec _ Nx) as (? & E & Ih & Lh). rewrite Ehx in E. injection E as <-.
  destruct (min_of_spec _ Ny) as (? & E & Jl & Ml). rewrite Ely in E. injection E as <-.
  destruct (max_of_spec _ Ny) as (? & E & Jh & Mh). rewrite Ehy in E. injection E as <-.
  pose proof (lesser _ _ _ _ Hxa Hxb) as V1. pose proof (greater _ _ _ _ Hxa Hxb) as V2. pose proof (lesser _ _ _ _ Hya Hyb) as W1. pose proof (greater _ _ _ _ Hya Hyb) as W2.
  unfold connector. 
  set (v1 := if Qle_bool (fst a) (fst b) then fst a else fst b) in *. set (v2 := if Qle_bool (fst a) (fst b) then fst b else fst a) in *.
  set (w1 := if Qle_bool (snd a) (snd b) then snd a else snd b) in *. set (w2 := if Qle_bool (snd a) (snd b) then snd b else snd a) in *.
  pose proof (spans_test fst values lx hx v1 v2 xa xb Il Ll Ih Lh V1 V2) as SX. pose proof (spans_test snd values ly hy w1 w2 ya yb Jl Ml Jh Mh W1 W2) as SY.
  assert (Pm : forall x (q : Q), (q == inject_Z x)%Q -> (q - half == inject_Z (2 * x - 1) * half)%Q).
  { intros x q Hq. rewrite Hq. rewrite <- (odd_half x (-1)) by auto. change (inject_Z (-1)) with (-1)%Q. unfold half. field. }
  assert (Pp : forall x (q : Q), (q == inject_Z x)%Q -> (q + half == inject_Z (2 * x + 1) * half)%Q).
  { intros x q Hq. rewrite Hq. rewrite <- (odd_half x 1) by auto. change (inject_Z 1) with 1%Q. unfold half. field. }
  assert (Pe : forall x (q : Q), (q == inject_Z x)%Q -> (q == inject_Z (2 * x) * half)%Q) by (intros x q ->; apply inject_even).
  destruct (Qeq_bool v1 lx && Qeq_bool v2 hx) eqn:BX.
  - assert (S : spans fst values xa xb) by (now apply SX). cbn [fst snd].
    rewrite (plot_lo n _ _ z _ _ V1 Hya), (plot_lo n _ _ z _ _ V2 Hyb).
    rewrite (plot_half n (v1 - half, snd a)%Q (2 * Z.min xa xb - 1) (2 * ya) z) by (cbn [fst snd]; auto).
    rewrite (plot_half n (v2 + half, snd b)%Q (2 * Z.max xa xb + 1) (2 * yb) z) by (cbn [fst snd]; auto). split; [|split; [|now apply strokes_x]].
    + intros p q. split; [intros [[= <- <-]|[[= <- <-]|[]]]; [now apply stroke_up|now apply stroke_down]|]. intros K. inversion K; subst; try contradiction; [now left|right; now left].
    + intros m. split; [intros [<-|[<-|[]]]; (split; [now left|]); eexists; [now apply stroke_up|now apply stroke_down]|]. intros [_ (p & K)]. inversion K; subst; try contradiction; [now left|right; now left].
  - assert (NS : ~ spans fst values xa xb) by (intros K; apply SX in K; congruence). destruct (Qeq_bool w1 ly && Qeq_bool w2 hy) eqn:BY.
    + assert (S : spans snd values ya yb) by (now apply SY). cbn [fst snd].
      rewrite (plot_lo n _ _ z _ _ Hxa W1), (plot_lo n _ _ z _ _ Hxb W2).
      rewrite (plot_half n (fst a, w1 - half)%Q (2 * xa) (2 * Z.min ya yb - 1) z) by (cbn [fst snd]; auto).
      rewrite (plot_half n (fst b, w2 + half)%Q (2 * xb) (2 * Z.max ya yb + 1) z) by (cbn [fst snd]; auto). split; [|split; [|now apply strokes_y]].
      * intros p q. split; [intros [[= <- <-]|[[= <- <-]|[]]]; [now apply stroke_left|now apply stroke_right]|]. intros K. inversion K; subst; try contradiction; [now left|right; now left].
      * intros m. split; [intros [<-|[<-|[]]]; (split; [now right|]); eexists; [now apply stroke_left|now apply stroke_right]|]. intros [_ (p & K)]. inversion K; subst; try contradiction; [now left|right; now left].
    + assert (NT : ~ spans snd values ya yb) by (intros K; apply SY in K; congruence). cbn [fst snd]. destruct a as [ar ai], b as [br bi]. cbn [fst snd] in *.
      rewrite (plot_lo n xa ya z ar ai Hxa Hya), (plot_lo n xb yb z br bi Hxb Hyb). split; [|split; [|now apply strokes_along]].
      * intros p q. split; [intros [[= <- <-]|[]]; now apply stroke_along|]. intros K. inversion K; subst; try contradiction. now left.
      * intros m. split; [intros []|]. intros [[K|K] _]; contradiction.
Qed.

Lemma in_enum {A} (l : list A) : forall a z x, In (z, x) (combine (map (fun i => a + Z.of_nat i) (seq 0 (length l))) l) <-> exists i, z = a + Z.of_nat i /\ nth_error l i = Some x.
Proof.
  induction l as [|y l IH]; intros a z x; [split; [intros []|intros (i & _ & E); destruct i; discriminate]|].
  cbn [length seq map combine In]. rewrite <- seq_shift, map_map.
  rewrite (map_ext _ (fun i => (a + 1) + Z.of_nat i)) by (intros; lia). rewrite IH. split.
  - intros [[= <- <-]|(i & -> & E)]; [exists 0%nat; split; [lia|reflexivity]|exists (Datatypes.S i); split; [lia|exact E]].
  - intros ([|i] & -> & E); [left; injection E as <-; f_equal; lia|right; exists i; split; [lia|exact E]].
Qed.
Lemma in_enumerate {A} (l : list A) z x : In (z, x) (enumerate l) <-> exists i, z = Z.of_nat i /\ nth_error l i = Some x.
Proof. unfold enumerate, zrange. rewrite Z.sub_0_r, Nat2Z.id. apply in_enum. Qed.
Lemma nth_error_combine {A B} (l : list A) : forall (m : list B) i a b, nth_error (combine l m) i = Some (a, b) <-> nth_error l i = Some a /\ nth_error m i = Some b.
Proof.
  induction l as [|x l IH]; intros [|y m] [|i] a b; cbn [combine nth_error]; try (split; [discriminate|intros [? ?]; discriminate]).
  - split; [intros [= -> ->]; auto|intros [[= ->] [= ->]]; auto].
  - apply IH.
Qed.

Lemma fold_put {V} (l d : list ((Z * Z) * V)) : fold_left (fun d '(k, c) => dset zpair_eqb k c d) l d = fold_left put l d.
Proof. revert d. induction l as [|[k c] l IH]; intros d; [reflexivity|]. cbn [fold_left]. apply IH. Qed.
Lemma fold_mark (l : list (Z * Z)) (c : string) d : fold_left (fun d k => dset zpair_eqb k c d) l d = fold_left put (map (fun k => (k, c)) l) d.
Proof. revert d. induction l as [|k l IH]; intros d; [reflexivity|]. cbn [fold_left map]. apply IH. Qed.

Lemma nth_enumerate {A} (l : list A) z x : nth_error l z = Some x -> nth_error (enumerate l) z = Some (Z.of_nat z, x).
Proof.
  intros H. unfold enumerate. apply nth_error_combine. split; [|exact H]. assert (z < length l)%nat by (apply nth_error_Some; congruence).
  unfold zrange. rewrite nth_error_map, (nth_error_nth' _ 0%nat) by (rewrite seq_length; lia). rewrite seq_nth by lia. cbn [option_map]. reflexivity.
Qed.
Lemma picture : forall values links, good_levels values -> good_links links ->
  exists s segs, diagram_3d values links = Ok s /\ drawn_strokes values links segs /\ forall cell, 0 <= fst cell -> 0 <= snd cell ->
    let here := char_at s (fst cell) (snd cell) in
    let V := line_at values links vertical cell in
    let H := line_at values links horizontal cell in
    (forall c, symbol_at values cell c -> here = c) /\
    (mark_at values links cell -> here = "~"%char) /\
    (V \/ H -> is_space here = false) /\
    ((forall c, ~ symbol_at values cell c) -> ~ mark_at values links cell ->
      (V -> ~ H -> here = "|"%char) /\ (~ V -> H -> here = "-"%char \/ here = "="%char) /\
      (V -> H -> In here ["|"; "-"; "+"; "="]%char) /\ (~ V -> ~ H -> here = " "%char) /\
      (~ V -> here = match crossings segs cell with O => " "%char | S c => if Nat.even c then "-"%char else "="%char end) /\
      forall c rest, passes segs cell = repeat false c ++ true :: rest -> here = if Nat.odd c || existsb negb rest then "+"%char else "|"%char).
Proof.
  intros values lks [Ne GL] GK. unfold diagram_3d. change (flat_map (map fst) values) with (points values).
  assert (Nx : map fst (points values) <> []) by (intros K; apply map_eq_nil in K; contradiction). assert (Ny : map snd (points values) <> []) by (intros K; apply map_eq_nil in K; contradiction).
  destruct (min_of_spec _ Nx) as (lx & Elx & _). destruct (max_of_spec _ Nx) as (hx & Ehx & _). destruct (min_of_spec _ Ny) as (ly & Ely & _). destruct (max_of_spec _ Ny) as (hy & Ehy & _).
  rewrite Elx, Ehx, Ely, Ehy. cbn [bind]. set (n := Z.of_nat (length values)).
  match goal with |- context [concat ?d] => set (drawn := d) end. set (segs := flat_map fst (concat drawn)). set (marks := flat_map snd (concat drawn)).
  assert (InDrawn : forall c, In c (concat drawn) <-> exists z l a b, (z < length values)%nat /\ nth_error lks z = Some l /\ In (a, b) l /\ c = connector n lx hx ly hy (Z.of_nat z) (a, b)).
  { intros c. rewrite in_concat. split.
    - intros (cs & Hcs & Hc). apply in_map_iff in Hcs as ([z [l vs]] & <- & Hz). apply in_enumerate in Hz as (i & -> & Hi). apply nth_error_combine in Hi as [Hl Hv].
      apply in_map_iff in Hc as ([a b] & <- & Hab). exists i, l, a, b. split; [apply nth_error_Some; congruence|auto].
    - intros (z & l & a & b & Hz & Hl & Hab & ->). destruct (nth_error values z) as [vs|] eqn:Hv; [|apply nth_error_None in Hv; lia].
      exists (map (connector n lx hx ly hy (Z.of_nat z)) l). split; [|now apply in_map]. apply in_map_iff. exists (Z.of_nat z, (l, vs)). split; [reflexivity|].
      apply in_enumerate. exists z. split; [reflexivity|]. now apply nth_error_combine. }
  assert (Whole : forall z l a b, nth_error lks z = Some l -> In (a, b) l -> exists xa ya xb yb, whole a xa ya /\ whole b xb yb).
  { intros z l a b Hl Hab. destruct (GK l a b (nth_error_In _ _ Hl) Hab) as [(xa & ya & Wa) (xb & yb & Wb)]. eauto 8. }
  assert (Uniq : forall p x y x' y', whole p x y -> whole p x' y' -> x = x' /\ y = y').
  { intros p x y x' y' (E1 & E2 & _) (E1' & E2' & _). rewrite E1 in E1'. rewrite E2 in E2'. split; apply inject_Z_injective; assumption. }
  assert (InSegs : forall p q, In (p, q) segs <-> exists z xa ya xb yb, link_on values lks z xa ya xb yb /\ stroke n values (Z.of_nat z) xa ya xb yb p q).
  { intros p q. unfold segs. rewrite in_flat_map. split.
    - intros (c & Hc & Hpq). apply InDrawn in Hc as (z & l & a & b & Hz & Hl & Hab & ->). destruct (Whole _ _ _ _ Hl Hab) as (xa & ya & xb & yb & Wa & Wb).
      destruct (connector_spec n values (Z.of_nat z) a b xa ya xb yb lx hx ly hy Elx Ehx Ely Ehy Wa Wb) as [S _]. apply S in Hpq. exists z, xa, ya, xb, yb. split; [|exact Hpq]. exists l, a, b. auto.
    - intros (z & xa & ya & xb & yb & (l & a & b & Hz & Hl & Hab & Wa & Wb) & K). exists (connector n lx hx ly hy (Z.of_nat z) (a, b)). split; [apply InDrawn; exists z, l, a, b; auto|].
      now apply (connector_spec n values (Z.of_nat z) a b xa ya xb yb lx hx ly hy). }
  assert (Dsegs : drawn_strokes values lks segs).
  { exists (map (map fst) drawn). split; [unfold drawn; rewrite !map_length; unfold enumerate; rewrite !combine_length, length_zrange; lia|].
    split; [unfold segs; rewrite flat_map_concat_map; f_equal; apply concat_map|].
    intros z l Hz Hl. destruct (nth_error values z) as [vs|] eqn:Ev; [|apply nth_error_None in Ev; lia].
    exists (map fst (map (connector n lx hx ly hy (Z.of_nat z)) l)). split.
    - unfold drawn. rewrite !nth_error_map, (nth_enumerate _ z (l, vs)) by (now apply nth_error_combine). reflexivity.
    - pose proof (Whole z l) as Wz. specialize (fun a b => Wz a b Hl). clear Hl. induction l as [|[a b] l IH]; [constructor|]. cbn [map]. constructor.
      + destruct (Wz a b ltac:(now left)) as (xa & ya & xb & yb & Wa & Wb). exists xa, ya, xb, yb. split; [exact Wa|]. split; [exact Wb|].
        exact (proj2 (proj2 (connector_spec n values (Z.of_nat z) a b xa ya xb yb lx hx ly hy Elx Ehx Ely Ehy Wa Wb))).
      + apply IH. intros a' b' K. apply Wz. now right. }
  assert (InMarks : forall m, In m marks <-> mark_at values lks m).
  { intros m. unfold marks. rewrite in_flat_map. unfold mark_at. split.
    - intros (c & Hc & Hm). apply InDrawn in Hc as (z & l & a & b & Hz & Hl & Hab & ->). destruct (Whole _ _ _ _ Hl Hab) as (xa & ya & xb & yb & Wa & Wb).
      destruct (connector_spec n values (Z.of_nat z) a b xa ya xb yb lx hx ly hy Elx Ehx Ely Ehy Wa Wb) as (_ & S & _). destruct (proj1 (S m) Hm) as (Hs & p & Hm'). exists z, xa, ya, xb, yb, p. split; [|auto]. exists l, a, b. auto.
    - intros (z & xa & ya & xb & yb & p & (l & a & b & Hz & Hl & Hab & Wa & Wb) & Hs & K). exists (connector n lx hx ly hy (Z.of_nat z) (a, b)). split; [apply InDrawn; exists z, l, a, b; auto|].
      apply (connector_spec n values (Z.of_nat z) a b xa ya xb yb lx hx ly hy); auto. split; [exact Hs|]. now exists p. }
  (* symbols *)
  unfold plotted_values. rewrite (fold_put _ []). match goal with |- context [fold_left put ?l []] => set (syms := l) end.
  assert (InSyms : forall k s, In (k, s) syms <-> exists c, s = String c "" /\ symbol_at values k c).
  { intros k s. unfold syms. rewrite in_flat_map. split.
    - intros ([z vs] & Hz & Hk). apply in_enumerate in Hz as (i & -> & Hi). apply in_map_iff in Hk as ([p t] & [= <- <-] & Hp). destruct (proj1 (GL vs (nth_error_In _ _ Hi)) p t Hp) as [(x & y & W) (c & -> & Hc)].
      exists c. split; [reflexivity|]. exists i, vs, p, x, y. split; [exact Hi|]. split; [exact Hp|]. split; [exact W|]. now apply plot_whole.
    - intros (c & -> & (z & lvl & p & x & y & Hz & Hp & W & ->)). exists (Z.of_nat z, lvl). split; [apply in_enumerate; eauto|]. apply in_map_iff. exists (p, String c ""). split; [|exact Hp]. f_equal. now apply plot_whole. }
  assert (SymUniq : forall k c c', symbol_at values k c -> symbol_at values k c' -> c = c').
  { intros k c c' (z & lvl & p & x & y & Hz & Hp & W & E) (z' & lvl' & p' & x' & y' & Hz' & Hp' & W' & E'). subst k.
    assert (Z.of_nat z < n /\ Z.of_nat z' < n) as [B B'] by (unfold n; split; apply inj_lt, nth_error_Some; congruence).
    apply spot_inj in E' as (-> & -> & Ez); [|lia|lia]. apply Nat2Z.inj in Ez. subst z'. rewrite Hz in Hz'. injection Hz' as <-.
    assert (String c "" = String c' ""); [|congruence]. apply (proj2 (GL lvl (nth_error_In _ _ Hz)) p p'); auto. destruct W as (? & ? & _), W' as (? & ? & _). split; congruence || (etransitivity; [eassumption|symmetry; assumption]). }
  assert (Apart : forall k c, symbol_at values k c -> mark_at values lks k -> False).
  { intros k c (z & lvl & p & x & y & Hz & Hp & W & ->) (z' & xa & ya & xb & yb & q & (l & a & b & Hz' & _) & Hs & K).
    assert (Z.of_nat z < n /\ Z.of_nat z' < n) as [B B'] by (unfold n; split; apply inj_lt; [apply nth_error_Some; congruence|exact Hz']).
    fold n in K. remember (spot n x y (Z.of_nat z)) as sp eqn:E. destruct K; try (destruct Hs; contradiction).
    - apply (mark_apart_x n (Z.min xa xb - 1) ya (Z.of_nat z') x y (Z.of_nat z)); [lia|lia|]. rewrite <- E. f_equal; lia.
    - apply (mark_apart_x n (Z.max xa xb) yb (Z.of_nat z') x y (Z.of_nat z)); [lia|lia|]. exact E.
    - apply (mark_apart_y n xa (Z.min ya yb - 1) (Z.of_nat z') x y (Z.of_nat z)); [lia|lia|]. rewrite <- E. f_equal; lia.
    - apply (mark_apart_y n xb (Z.max ya yb) (Z.of_nat z') x y (Z.of_nat z)); [lia|lia|]. exact E. }
  rewrite fold_mark, fold_put. set (marked := map (fun k => (k, "~"%string)) marks). set (plotted := fold_left put marked (fold_left put syms [])).
  rewrite draw_all. set (proj := fold_left step (flat_map cells segs) []). set (final := fold_left put plotted proj).
  assert (InMarked : forall k s, In (k, s) marked <-> s = "~"%string /\ mark_at values lks k).
  { intros k s. unfold marked. rewrite in_map_iff. split; [intros (m & [= <- <-] & Hm); split; [reflexivity|now apply InMarks]|intros [-> Hm]; exists k; split; [reflexivity|now apply InMarks]]. }
  assert (NP : NoDup (map fst plotted)) by (apply put_all_NoDup, put_all_NoDup; constructor).
  assert (NJ : NoDup (map fst proj)).
  { unfold proj. generalize (flat_map cells segs). intros l. assert (G : forall d, NoDup (map fst d) -> NoDup (map fst (fold_left step l d))); [|apply G; constructor].
    induction l as [|[b k] l IH]; intros d Nd; [exact Nd|]. cbn [fold_left]. apply IH. unfold step. cbn [fst snd]. destruct b; apply dset_NoDup; exact Nd. }
  assert (NF : NoDup (map fst final)) by (now apply put_all_NoDup).
  assert (GetSym : forall k c, symbol_at values k c -> dget zpair_eqb k plotted = Some (String c "")).
  { intros k c Hc. unfold plotted. rewrite put_all_in by (intros v K; apply InMarked in K as [_ K]; exact (Apart _ _ Hc K)). apply put_all_get; [apply InSyms; eauto|].
    intros v' K. apply InSyms in K as (c' & -> & K). now rewrite (SymUniq _ _ _ K Hc). }
  assert (GetMark : forall k, mark_at values lks k -> dget zpair_eqb k plotted = Some "~"%string).
  { intros k Hk. unfold plotted. apply put_all_get; [now apply InMarked|]. intros v' K. now apply InMarked in K as [-> _]. }
  assert (GetNone : forall k, (forall c, ~ symbol_at values k c) -> ~ mark_at values lks k -> dget zpair_eqb k plotted = None).
  { intros k Hs Hm. unfold plotted. rewrite !put_all_in; [reflexivity| |]; intros v K; [apply InSyms in K as (c & _ & K); exact (Hs c K)|apply InMarked in K as [_ K]; contradiction]. }
  assert (PlotSym : forall k s, In (k, s) plotted -> (exists c, s = String c "" /\ symbol_at values k c) \/ (s = "~"%string /\ mark_at values lks k)).
  { intros k s Hk. destruct (in_key_dec k marked) as [[v K]|K].
    - apply InMarked in K as [-> K]. right. apply (dget_in _ NP) in Hk. rewrite (GetMark _ K) in Hk. injection Hk as <-. auto.
    - left. destruct (in_key_dec k syms) as [[v L]|L].
      + apply InSyms in L as (c & -> & L). apply (dget_in _ NP) in Hk. rewrite (GetSym _ _ L) in Hk. injection Hk as <-. eauto.
      + exfalso. apply (dget_in _ NP) in Hk. unfold plotted in Hk. rewrite !put_all_in in Hk by assumption. discriminate. }
  assert (GetFinal : forall k, dget zpair_eqb k final = match dget zpair_eqb k plotted with Some s => Some s | None => dget zpair_eqb k proj end).
  { intros k. unfold final. destruct (dget zpair_eqb k plotted) as [s|] eqn:E.
    - apply (dget_in _ NP) in E. apply put_all_get; [exact E|]. intros v' K. apply (dget_in _ NP) in E. apply (dget_in _ NP) in K. congruence.
    - apply put_all_in. intros v K. apply (dget_in _ NP) in K. congruence. }
  assert (Cells : forall (b : bool) k, In (b, k) (flat_map cells segs) <-> line_at values lks (if b then vertical else horizontal) k).
  { intros b k. rewrite in_flat_map. unfold line_at. split.
    - intros ([p q] & Hpq & Hk). apply cells_spec in Hk. apply InSegs in Hpq as (z & xa & ya & xb & yb & L & K). exists z, xa, ya, xb, yb, p, q. split; [exact L|]. split; [exact K|]. now destruct b.
    - intros (z & xa & ya & xb & yb & p & q & L & K & D). exists (p, q). split; [apply InSegs; exists z, xa, ya, xb, yb; auto|]. apply cells_spec. now destruct b. }
  assert (Sh : forall k, shows (line_at values lks vertical k) (line_at values lks horizontal k) (dget zpair_eqb k proj)).
  { intros k. pose proof (steps_show (flat_map cells segs) k) as S. unfold shows in *. rewrite !Cells in S. exact S. }
  assert (LinePos : forall b : bool, forall k, line_at values lks (if b then vertical else horizontal) k -> 0 <= fst k /\ 0 <= snd k).
  { intros b k (z & xa & ya & xb & yb & p & q & (l & a' & b' & Hz & _ & _ & (_ & _ & Wa) & (_ & _ & Wb)) & K & D).
    assert (Ends : (0 <= fst p /\ 0 <= snd p) /\ (0 <= fst q /\ 0 <= snd q)).
    { fold n in K. assert (0 < n) by (unfold n; lia).
      assert (P1 : forall x y, 0 <= x -> 0 <= y -> 0 <= fst (spot n x y (Z.of_nat z)) /\ 0 <= snd (spot n x y (Z.of_nat z))) by (intros x y X Y; unfold spot; cbn [fst snd]; nia).
      assert (P2 : forall m k, -1 <= m -> -1 <= k -> 0 <= fst (half_spot n m k (Z.of_nat z)) /\ 0 <= snd (half_spot n m k (Z.of_nat z))).
      { intros x y X Y. unfold half_spot. cbn [fst snd]. assert (0 <= ((y + 4) * (n + 3) + 1) / 2) by (apply Z.div_pos; nia). assert (0 <= ((x + 2) * (n + 2) + 1) / 2) by (apply Z.div_pos; nia). lia. }
      destruct K; (split; [apply P1; lia|first [apply P1; lia|apply P2; lia]]). }
    destruct b; destruct D as (D1 & D2 & D3); lia. }
  assert (ProjIn : forall k s, In (k, s) proj -> (line_at values lks vertical k \/ line_at values lks horizontal k) /\ In s bars).
  { intros k s Hk. apply (dget_in _ NJ) in Hk. destruct (Sh k) as (S1 & S2 & S3 & S4).
    pose proof (Cells true k) as C1. pose proof (Cells false k) as C2.
    destruct (in_dec bc_dec (true, k) (flat_map cells segs)) as [V|V], (in_dec bc_dec (false, k) (flat_map cells segs)) as [H|H]; rewrite C1 in V; rewrite C2 in H.
    - split; [now left|]. destruct (S3 V H) as (t & Ht & E). congruence.
    - split; [now left|]. rewrite (S1 V H) in Hk. injection Hk as <-. cbn. auto.
    - split; [now right|]. destruct (S2 V H) as [E|E]; rewrite E in Hk; injection Hk as <-; cbn; auto.
    - rewrite (S4 V H) in Hk. discriminate. }
  assert (FinalIn : forall k s, In (k, s) final -> (0 <= fst k /\ 0 <= snd k) /\ exists c, s = String c "" /\ is_space c = false).
  { intros k s Hk. apply (dget_in _ NF) in Hk. rewrite GetFinal in Hk. destruct (dget zpair_eqb k plotted) as [t|] eqn:E.
    - injection Hk as ->. apply (dget_in _ NP) in E. destruct (PlotSym _ _ E) as [(c & -> & K)|[-> K]].
      + destruct K as (z & lvl & p & x & y & Hz & Hp & W & ->). split; [|exists c; split; [reflexivity|]].
        * destruct W as (_ & _ & W). unfold spot. cbn [fst snd]. nia.
        * destruct (proj1 (GL lvl (nth_error_In _ _ Hz)) _ _ Hp) as [_ (c' & [= <-] & Hc)]. exact Hc.
      + split; [|exists "~"%char; auto]. destruct K as (z & xa & ya & xb & yb & p & L & Hs & K).
        destruct (Z.eq_dec (fst p) (fst k)) as [Ef|Ef].
        * apply (LinePos true). exists z, xa, ya, xb, yb, p, k. split; [exact L|]. split; [exact K|]. unfold vertical. lia.
        * apply (LinePos false). exists z, xa, ya, xb, yb, p, k. split; [exact L|]. split; [exact K|]. cut (snd p = snd k); [unfold horizontal; lia|]. fold n in K.
          destruct K; try (destruct Hs; contradiction); cbn [fst snd spot half_spot] in *; [exfalso; apply Ef|exfalso; apply Ef| |].
          -- replace ((2 * ya + 4) * (n + 3) + 1) with (1 + (ya + 2) * (n + 3) * 2) by ring. rewrite Z.div_add by lia. reflexivity.
          -- replace ((2 * yb + 4) * (n + 3) + 1) with (1 + (yb + 2) * (n + 3) * 2) by ring. rewrite Z.div_add by lia. reflexivity.
          -- replace ((2 * xa + 2) * (n + 2) + 1) with (1 + (xa + 1) * (n + 2) * 2) by ring. rewrite Z.div_add by lia. reflexivity.
          -- replace ((2 * xb + 2) * (n + 2) + 1) with (1 + (xb + 1) * (n + 2) * 2) by ring. rewrite Z.div_add by lia. reflexivity.
    - apply (dget_in _ NJ) in Hk. apply ProjIn in Hk as [[K|K] Hs]; (split; [first [now apply (LinePos true)|now apply (LinePos false)]|]);
        destruct Hs as [<-|[<-|[<-|[<-|[]]]]]; eexists; (split; [reflexivity|reflexivity]). }
  assert (Dr : drawable final).
  { constructor; [exact NF| |].
    - intros x y s K. apply FinalIn in K as [K _]. exact K.
    - intros p s K. apply FinalIn in K as [_ (c & -> & Hc)]. split; [discriminate|]. repeat constructor. exact Hc. }
  assert (Ro : room final).
  { intros x y s K. destruct (FinalIn _ _ K) as [P (c & -> & Hc)]. cbn [fst snd String.length] in *. split; [lia|]. intros x' s' _ Hx [Hv _]. cbn [String.length] in Hv. lia. }
  destruct (C56_text final Dr Ro) as (s & Es & Hs). exists s, segs. split; [exact Es|]. split; [exact Dsegs|]. intros [x y] Hx Hy. cbn [fst snd] in *. destruct (Hs x y Hx Hy) as [Hin Hout].
  assert (Put : forall c, dget zpair_eqb (x, y) final = Some (String c "") -> char_at s x y = c).
  { intros c E. apply (dget_in _ NF) in E. rewrite (Hin x (String c "") E); [|unfold covers; cbn; lia]. cbn [String.length]. replace (x - (x - Z.of_nat 1 + 1)) with 0 by lia. reflexivity. }
  split; [|split; [|split]].
  - intros c Hc. apply Put. rewrite GetFinal, (GetSym _ _ Hc). reflexivity.
  - intros Hm. apply Put. rewrite GetFinal, (GetMark _ Hm). reflexivity.
  - intros VH. destruct (dget zpair_eqb (x, y) final) as [t|] eqn:E.
    + pose proof E as E'. apply (dget_in _ NF) in E'. apply FinalIn in E' as [_ (c & -> & Hc)]. now rewrite (Put c eq_refl).
    + exfalso. rewrite GetFinal in E. destruct (dget zpair_eqb (x, y) plotted); [discriminate|]. destruct (Sh (x, y)) as (S1 & S2 & S3 & S4).
      pose proof (Cells true (x, y)) as C1. pose proof (Cells false (x, y)) as C2.
      destruct (in_dec bc_dec (true, (x, y)) (flat_map cells segs)) as [V|V], (in_dec bc_dec (false, (x, y)) (flat_map cells segs)) as [H|H]; rewrite C1 in V; rewrite C2 in H.
      * destruct (S3 V H) as (t & _ & K). congruence.
      * rewrite (S1 V H) in E. discriminate.
      * destruct (S2 V H); congruence.
      * tauto.
  - intros Nsym Nmark. assert (F : dget zpair_eqb (x, y) final = dget zpair_eqb (x, y) proj) by (rewrite GetFinal, GetNone; auto).
    destruct (Sh (x, y)) as (S1 & S2 & S3 & S4).
    assert (Blank : dget zpair_eqb (x, y) final = None -> char_at s x y = " "%char).
    { intros E. apply Hout. intros X v Hv C. assert (exists c, v = String c "") as (c & ->) by (destruct (FinalIn _ _ Hv) as [_ (c & -> & _)]; eauto).
      unfold covers in C. cbn [String.length] in C. assert (X = x) by lia. subst X. apply (dget_in _ NF) in Hv. congruence. }
    split; [|split; [|split; [|split; [|split]]]].
    + intros V H. apply Put. rewrite F. exact (S1 V H).
    + intros V H. destruct (S2 V H) as [E|E]; [left|right]; apply Put; now rewrite F.
    + intros V H. destruct (S3 V H) as (t & Ht & E). rewrite <- F in E. destruct Ht as [<-|[<-|[<-|[<-|[]]]]]; rewrite (Put _ E); cbn; auto.
    + intros V H. apply Blank. rewrite F. exact (S4 V H).
    + intros V. pose proof (steps_count (flat_map cells segs) (x, y)) as SC. rewrite (Cells true (x, y)), crossings_count in SC. specialize (SC V). fold proj in SC. rewrite <- F in SC.
      destruct (crossings segs (x, y)) as [|c]; [now apply Blank|]. destruct (Nat.even c); now apply Put.
    + intros c rest Ep. rewrite <- passes_cells in Ep. pose proof (steps_look (flat_map cells segs) (x, y)) as SC. rewrite Ep, look_crossed in SC. fold proj in SC. rewrite <- F in SC. destruct (Nat.odd c || existsb negb rest); now apply Put.
Qed.

(** The picture: every symbol is seen where it belongs, the stubs end in "~", and where
    there is no symbol and no stub end one sees the links passing there, or a blank. *)
Theorem C63_picture : forall values links, good_levels values -> good_links links ->
  exists s, diagram_3d values links = Ok s /\ forall cell, 0 <= fst cell -> 0 <= snd cell ->
    let here := char_at s (fst cell) (snd cell) in
    let V := line_at values links vertical cell in
    let H := line_at values links horizontal cell in
    (forall c, symbol_at values cell c -> here = c) /\
    (mark_at values links cell -> here = "~"%char) /\
    (V \/ H -> is_space here = false) /\
    ((forall c, ~ symbol_at values cell c) -> ~ mark_at values links cell ->
      (V -> ~ H -> here = "|"%char) /\ (~ V -> H -> here = "-"%char \/ here = "="%char) /\
      (V -> H -> In here ["|"; "-"; "+"; "="]%char) /\ (~ V -> ~ H -> here = " "%char)).
Proof.
  intros values lks GL GK. destruct (picture values lks GL GK) as (s & segs & E & _ & P). exists s. split; [exact E|]. intros cell Hx Hy.
  destruct (P cell Hx Hy) as (P1 & P2 & P3 & P4). cbv zeta. split; [exact P1|]. split; [exact P2|]. split; [exact P3|].
  intros Ns Nm. destruct (P4 Ns Nm) as (Q1 & Q2 & Q3 & Q4 & _). auto.
Qed.
Print Assumptions C63_picture.
(** Where only horizontal links pass, one sees "-" if their number is odd and "=" if it is
    even: a double line is two links, and three look like one. *)
Theorem C63_double_lines : forall values links, good_levels values -> good_links links ->
  exists s segs, diagram_3d values links = Ok s /\ drawn_strokes values links segs /\
    forall cell, 0 <= fst cell -> 0 <= snd cell -> (forall c, ~ symbol_at values cell c) -> ~ mark_at values links cell -> ~ line_at values links vertical cell ->
      char_at s (fst cell) (snd cell) = match crossings segs cell with O => " "%char | S c => if Nat.even c then "-"%char else "="%char end.
Proof.
  intros values lks GL GK. destruct (picture values lks GL GK) as (s & segs & E & D & P). exists s, segs. split; [exact E|]. split; [exact D|]. intros cell Hx Hy Ns Nm Nv.
  destruct (P cell Hx Hy) as (_ & _ & _ & P4). destruct (P4 Ns Nm) as (_ & _ & _ & _ & Q & _). exact (Q Nv).
Qed.
Print Assumptions C63_double_lines.
(** Where a vertical link passes one sees "|", unless a horizontal link is drawn after it
    or an odd number of them before it: then "+", whatever else is drawn there later. *)
Theorem C63_crossings : forall values links, good_levels values -> good_links links ->
  exists s segs, diagram_3d values links = Ok s /\ drawn_strokes values links segs /\
    forall cell, 0 <= fst cell -> 0 <= snd cell -> (forall c, ~ symbol_at values cell c) -> ~ mark_at values links cell ->
      forall c rest, passes segs cell = repeat false c ++ true :: rest -> char_at s (fst cell) (snd cell) = if Nat.odd c || existsb negb rest then "+"%char else "|"%char.
Proof.
  intros values lks GL GK. destruct (picture values lks GL GK) as (s & segs & E & D & P). exists s, segs. split; [exact E|]. split; [exact D|]. intros cell Hx Hy Ns Nm.
  destruct (P cell Hx Hy) as (_ & _ & _ & P4). destruct (P4 Ns Nm) as (_ & _ & _ & _ & _ & Q). exact Q.
Qed.
Print Assumptions C63_crossings.
(** Two levels on four points: one link along a line, one across the drawing. *)
Definition pic_values : list level := [[((0, 0)%Q, "@"%string); ((1, 0)%Q, "X"%string); ((2, 0)%Q, "\"%string); ((2, 1)%Q, "\"%string)];
  [((2, 0)%Q, "x"%string); ((2, 1)%Q, "x"%string); ((0, 0)%Q, "\"%string); ((1, 0)%Q, "\"%string)]].
Definition pic_links : list links := [[((0, 0)%Q, (1, 0)%Q)]; [((2, 0)%Q, (2, 1)%Q)]].
Example C63_example : good_levels pic_values /\ good_links pic_links /\
  exists s, diagram_3d pic_values pic_links = Ok s /\ char_at s 10 4 = "@"%char /\ char_at s 10 5 = "|"%char /\ char_at s 10 8 = "X"%char /\ char_at s 11 13 = "x"%char /\ char_at s 9 13 = "~"%char /\ char_at s 0 0 = " "%char.
Proof.
  assert (W : forall x y, 0 <= x -> 0 <= y -> whole (inject_Z x, inject_Z y) x y) by (intros x y Hx Hy; repeat split; cbn [fst snd]; try reflexivity; assumption).
  split; [split; [discriminate|]|split].
  - intros lvl Hl. split.
    + intros p s Hp. destruct Hl as [<-|[<-|[]]]; cbn [In] in Hp; repeat (destruct Hp as [[= <- <-]|Hp]); try destruct Hp;
        (split; [first [exists 0, 0; now apply (W 0 0) | exists 1, 0; now apply (W 1 0) | exists 2, 0; now apply (W 2 0) | exists 2, 1; now apply (W 2 1)]|eexists; split; reflexivity]).
    + intros p q s t Hp Hq [E1 E2]. destruct Hl as [<-|[<-|[]]]; cbn [In] in Hp, Hq; repeat (destruct Hp as [[= <- <-]|Hp]); try destruct Hp; repeat (destruct Hq as [[= <- <-]|Hq]); try destruct Hq; try reflexivity; cbn in E1, E2; first [discriminate E1|discriminate E2].
  - intros l a b Hl Hab. destruct Hl as [<-|[<-|[]]]; destruct Hab as [[= <- <-]|[]]; split; first [exists 0, 0; now apply (W 0 0) | exists 1, 0; now apply (W 1 0) | exists 2, 0; now apply (W 2 0) | exists 2, 1; now apply (W 2 1)].
  - destruct (diagram_3d pic_values pic_links) as [s|] eqn:E; [|vm_compute in E; discriminate E]. exists s. split; [reflexivity|]. vm_compute in E. injection E as <-. repeat split; vm_compute; reflexivity.
Qed.
(** Two links one over the other, and a third. *)
Definition dbl_values : list level := [[((0, 0)%Q, "a"%string); ((0, 1)%Q, "b"%string); ((0, 2)%Q, "c"%string); ((1, 0)%Q, "d"%string)]].
Definition dbl_link : cplx * cplx := ((0, 0)%Q, (0, 1)%Q).
Example C63_double_lines_example : good_levels dbl_values /\ (forall m, good_links [repeat dbl_link m]) /\
  exists s s' s'', diagram_3d dbl_values [repeat dbl_link 1] = Ok s /\ diagram_3d dbl_values [repeat dbl_link 2] = Ok s' /\ diagram_3d dbl_values [repeat dbl_link 3] = Ok s'' /\
    char_at s 10 3 = "-"%char /\ char_at s' 10 3 = "="%char /\ char_at s'' 10 3 = "-"%char.
Proof.
  assert (W : forall x y, 0 <= x -> 0 <= y -> whole (inject_Z x, inject_Z y) x y) by (intros x y Hx Hy; repeat split; cbn [fst snd]; try reflexivity; assumption).
  split; [split; [discriminate|]|split].
  - intros lvl [<-|[]]. split.
    + intros p s Hp. cbn [In] in Hp. repeat (destruct Hp as [[= <- <-]|Hp]); try destruct Hp;
        (split; [first [exists 0, 0; now apply (W 0 0) | exists 0, 1; now apply (W 0 1) | exists 0, 2; now apply (W 0 2) | exists 1, 0; now apply (W 1 0)]|eexists; split; reflexivity]).
    + intros p q s t Hp Hq [E1 E2]. cbn [In] in Hp, Hq. repeat (destruct Hp as [[= <- <-]|Hp]); try destruct Hp; repeat (destruct Hq as [[= <- <-]|Hq]); try destruct Hq; try reflexivity; cbn in E1, E2; first [discriminate E1|discriminate E2].
  - intros m l a b [<-|[]] Hab. apply repeat_spec in Hab. injection Hab as -> ->. split; [exists 0, 0; now apply (W 0 0)|exists 0, 1; now apply (W 0 1)].
  - eexists _, _, _. split; [vm_compute; reflexivity|]. split; [vm_compute; reflexivity|]. split; [vm_compute; reflexivity|]. repeat split; vm_compute; reflexivity.
Qed.
(** A horizontal link and a vertical one that cross between the points. *)
Definition x_values : list level := [[((1, 0)%Q, "a"%string); ((1, 2)%Q, "b"%string); ((0, 1)%Q, "c"%string); ((2, 1)%Q, "d"%string); ((3, 3)%Q, "e"%string)]].
Definition x_h : cplx * cplx := ((1, 0)%Q, (1, 2)%Q).
Definition x_v : cplx * cplx := ((0, 1)%Q, (2, 1)%Q).
Example C63_crossings_example : good_levels x_values /\ good_links [[x_h; x_v]] /\
  exists s1 s2 s3 s4, diagram_3d x_values [[x_h; x_v]] = Ok s1 /\ diagram_3d x_values [[x_h; x_v; x_v]] = Ok s2 /\ diagram_3d x_values [[x_h; x_h; x_v]] = Ok s3 /\ diagram_3d x_values [[x_v; x_h; x_v]] = Ok s4 /\
    char_at s1 12 6 = "+"%char /\ char_at s2 12 6 = "+"%char /\ char_at s3 12 6 = "|"%char /\ char_at s4 12 6 = "+"%char /\ passes [((8, 6), (16, 6)); ((12, 3), (12, 9))] (12, 6) = [false; true].
Proof.
  assert (W : forall x y, 0 <= x -> 0 <= y -> whole (inject_Z x, inject_Z y) x y) by (intros x y Hx Hy; repeat split; cbn [fst snd]; try reflexivity; assumption).
  split; [split; [discriminate|]|split].
  - intros lvl [<-|[]]. split.
    + intros p s Hp. cbn [In] in Hp. repeat (destruct Hp as [[= <- <-]|Hp]); try destruct Hp;
        (split; [first [exists 1, 0; now apply (W 1 0) | exists 1, 2; now apply (W 1 2) | exists 0, 1; now apply (W 0 1) | exists 2, 1; now apply (W 2 1) | exists 3, 3; now apply (W 3 3)]|eexists; split; reflexivity]).
    + intros p q s t Hp Hq [E1 E2]. cbn [In] in Hp, Hq. repeat (destruct Hp as [[= <- <-]|Hp]); try destruct Hp; repeat (destruct Hq as [[= <- <-]|Hq]); try destruct Hq; try reflexivity; cbn in E1, E2; first [discriminate E1|discriminate E2].
  - intros l a b [<-|[]] Hab. destruct Hab as [[= <- <-]|[[= <- <-]|[]]]; split; first [exists 1, 0; now apply (W 1 0) | exists 1, 2; now apply (W 1 2) | exists 0, 1; now apply (W 0 1) | exists 2, 1; now apply (W 2 1)].
  - eexists _, _, _, _. do 4 (split; [vm_compute; reflexivity|]). repeat split; vm_compute; reflexivity.
Qed.
