(** Several errors: when they set off no detector, the observable can be moved to a line
    that none of them touches. *)
From Coq Require Import QArith.
From Verif Require Import Prelude Layout LayoutFacts LayoutEdges LayoutLists LayoutHex LayoutHex2 Pauli LayoutObs LayoutLogic LayoutIndex
  Tracker TrackerFacts Stim Circuit Annot Shift Ends Gen Gen2 Gen3 Traj Eval Frame Exec Exec2 Exec3 Exec4 Detectors Struct Struct2 Struct3 FaultSpec FaultQuiet FaultCore FaultObs FaultInv FaultZ FaultCount FaultLine.
Open Scope Z_scope.

Lemma andb_swap a b c : a && (b && c) = b && (a && c).
Proof. destruct a, b; reflexivity. Qed.
Lemma xsum_point {T} (eqb : T -> T -> bool) (Heq : forall a b, eqb a b = true <-> a = b) (f : T -> bool) x0 l : NoDup l -> In x0 l ->
  xsum (fun x => eqb x x0 && f x) l = f x0.
Proof.
  intros Hn Hi. rewrite (xsum_single _ l x0 Hn Hi); [now rewrite (proj2 (Heq x0 x0) eq_refl)|].
  intros x _ Hx. destruct (eqb x x0) eqn:F; [|reflexivity]. apply Heq in F. congruence.
Qed.
Lemma xsum_point_seq (f : nat -> bool) j a b : xsum (fun s => (s =? j)%nat && f s) (seq a b) = ((a <=? j)%nat && (j <? a + b)%nat) && f j.
Proof.
  destruct (Nat.leb_spec a j) as [L|L], (Nat.ltb_spec j (a + b)) as [L'|L']; cbn [andb].
  - apply (xsum_point Nat.eqb Nat.eqb_eq); [apply seq_NoDup | apply in_seq; lia].
  - apply xsum_false. intros s Hs. apply in_seq in Hs. destruct (Nat.eqb_spec s j); [lia | reflexivity].
  - apply xsum_false. intros s Hs. apply in_seq in Hs. destruct (Nat.eqb_spec s j); [lia | reflexivity].
  - apply xsum_false. intros s Hs. apply in_seq in Hs. destruct (Nat.eqb_spec s j); [lia | reflexivity].
Qed.

(** ** A line that no error touches *)
Lemma free_line (l : list Z) m : Z.of_nat (length l) < m -> exists c, 0 <= c < m /\ ~ In c l.
Proof.
  intros H. destruct (existsb (fun c => negb (existsb (Z.eqb c) l)) (zrange 0 m)) eqn:B.
  - apply existsb_exists in B. destruct B as (c & Hc & Hn). apply in_zrange in Hc. exists c. split; [lia|]. intros Hin. apply negb_true_iff in Hn.
    assert (existsb (Z.eqb c) l = true) by (apply existsb_exists; exists c; split; [exact Hin | apply Z.eqb_refl]). congruence.
  - exfalso. assert (I : incl (zrange 0 m) l).
    { intros c Hc. destruct (existsb (Z.eqb c) l) eqn:F; [apply existsb_exists in F; destruct F as (x & Hx & E); apply Z.eqb_eq in E; now subst|].
      assert (K : existsb (fun c => negb (existsb (Z.eqb c) l)) (zrange 0 m) = true) by (apply existsb_exists; exists c; rewrite F; auto). congruence. }
    pose proof (NoDup_incl_length (NoDup_zrange 0 m) I) as L. rewrite length_zrange in L. lia.
Qed.
Lemma free_of_all {T} (away : Z -> T -> Prop) w m l : (forall x, In x l -> exists h, (length h <= w)%nat /\ forall c, 0 <= c < m -> ~ In c h -> away c x) ->
  Z.of_nat (w * length l) < m -> exists c, 0 <= c < m /\ forall x, In x l -> away c x.
Proof.
  intros H L. assert (G : exists h, (length h <= w * length l)%nat /\ forall c, 0 <= c < m -> ~ In c h -> forall x, In x l -> away c x).
  { clear L. induction l as [|x l IH]; [exists []; split; [cbn; lia | intros c _ _ x []]|].
    destruct IH as (h & L & Hh); [intros y Hy; apply H; now right|]. destruct (H x (or_introl eq_refl)) as (h' & L' & Hh').
    exists (h' ++ h). split; [rewrite app_length; cbn [length]; lia|]. intros c Hc Hn y [<-|Hy]; [apply Hh'; [exact Hc|] | apply Hh; [exact Hc| |exact Hy]]; intros K; apply Hn, in_or_app; tauto. }
  destruct G as (h & L' & Hh). destruct (free_line h m) as (c & Hc & Hn); [lia|]. exists c. split; [exact Hc|]. intros x Hx. now apply Hh.
Qed.

(** ** Errors and what they do to a record *)
Record crack := mkCr { ck : nat; ce : edge; cP : cpx -> bits; cf : bool }.
Section S.
  Variable lay : layout.
  Hypothesis Hv : valid lay.
  Hypothesis Hobs : obs lay = "V"%string \/ obs lay = "H"%string.
  Hypothesis Hs : supported lay.
  Notation E := (round_edges lay).
  Notation zk := Z.of_nat.
  Notation D := (data_qubit_coords lay).
  Notation n := (sub_rounds lay).
  Notation N := (Z.to_nat n).
  Notation dets := (detectors 0 0 0 0 (circuit_i lay)).
  Notation ahead := (ahead lay).
  Local Opaque data_qubit_coords measure_qubit_coords q2i_dict hex_entries hexes round_edges all_edges isort.

  Definition cracked (B : nat -> bool) (c : crack) : Prop :=
    (ck c < N)%nat /\ In (ce c) (E (zk (ck c))) /\ (forall q, q <> e_left (ce c) -> q <> e_right (ce c) -> cP c q = bzero) /\
    (forall s e, (s < N)%nat -> In e (E (zk s)) -> VE lay B s e = xorb ((ck c <=? s)%nat && par (cP c) (edge_op (xyz (zk s)) e)) (((s =? ck c)%nat && cf c) && edge_eqb e (ce c))) /\
    (forall q, In q D -> dat lay B q = anti2 (pbits (final_basis lay)) (cP c q)).
  Definition cmark (c : crack) : nat -> cpx -> bool := mark lay (ck c) (ce c) (cP c) (cf c).

  Section One.
    Variable c : crack.
    Notation k := (ck c).
    Notation a := (e_left (ce c)).
    Notation b := (e_right (ce c)).
    Definition pu : bool := anti2 (pbits (xyz (zk k))) (cP c a).
    Definition pv : bool := anti2 (pbits (xyz (zk k))) (cP c b).
    Definition pw : bool := xorb (xorb (anti2 (pbits (xyz (zk k + 2))) (cP c a)) (anti2 (pbits (xyz (zk k + 2))) (cP c b))) (cf c).
  End One.

  Lemma emits_ahead s : ahead (zk s) = true -> (1 <= s)%nat -> emits lay s = true.
  Proof.
    unfold FaultQuiet.ahead, emits. destruct (Nat.leb_spec 4 s) as [L|L]; [reflexivity|]. cbn [orb]. intros Ha H1. destruct (obs lay =? "V")%string;
    (assert (C : s = 1%nat \/ s = 2%nat \/ s = 3%nat) by lia); destruct C as [->|[->| ->]]; revert Ha; vm_compute; auto.
  Qed.
  Lemma n1 : 1 <= n.
  Proof. apply Hs. Qed.

  (** ** The detectors of each hexagon *)
  Lemma at_some t v x : v <> None -> exists d, In d (at_ t v x).
  Proof. destruct v as [s|]; [|congruence]. intros _. eexists. now left. Qed.
  Lemma in_dets_row s d : (s < N)%nat -> In d (row_dets lay s) -> In d dets.
  Proof. intros L Hd. rewrite (circuit_detectors lay Hv Hs). apply in_or_app. left. apply in_flat_map. exists s. split; [apply in_seq; lia | exact Hd]. Qed.
  Lemma in_dets_fin d : In d (fin_dets lay) -> In d dets.
  Proof. intros Hd. rewrite (circuit_detectors lay Hv Hs). apply in_or_app. now right. Qed.
  Definition shows (F : crack -> bool) : Prop := exists d, In d dets /\ watches lay d = true /\ forall B c, cracked B c -> xsum B (d_meas d) = F c.

  Lemma spotted s h : (1 <= s <= N + 2)%nat -> ahead (zk s) = true -> In h (H2 lay (zk s)) -> shows (fun c => cmark c s h).
  Proof.
    intros Hr Ha Hh. pose proof n1 as H1n. assert (ZN : zk N = n) by (apply Z2Nat.id; lia). pose proof (same_ahead lay) as SA.
    destruct (Nat.ltb_spec s N) as [L|L].
    - pose proof (proj1 (hexval_some lay Hv Hobs (fun _ => false) s h Hh) (emits_ahead s Ha (proj1 Hr))) as Hn.
      destruct (at_some (zk s) _ h Hn) as (d & Hd). assert (Hd' : In d (row_dets lay s)) by (unfold row_dets; apply in_or_app; right; apply in_flat_map; exists h; auto).
      exists d. split; [eapply in_dets_row; eauto|]. split; [eapply (watches_row lay s); eauto|]. intros B c (C1 & C2 & C3 & C4 & C5).
      rewrite (at_value B _ _ _ _ _ _ Hd (hex_sd lay Hv B s h (proj1 Hr) Hh Hn)). exact (row_value lay Hv (ck c) C1 (ce c) C2 (cP c) C3 (cf c) B C4 C5 s h L Hh).
    - assert (Cs : s = N \/ s = (N + 1)%nat \/ s = (N + 2)%nat) by lia. destruct (same_basis lay) eqn:Sb.
      + assert (A1 : ahead n = false) by (destruct (ahead n); [discriminate | reflexivity]).
        destruct Cs as [->|[->| ->]]; [rewrite ZN in Ha; congruence | | replace (zk (N + 2)) with (n + 1 + 1) in Ha by lia; rewrite !ahead_step, A1 in Ha; discriminate].
        assert (Fb : final_basis lay = xyz (n - 1)) by (now rewrite (final_cases lay), Sb).
        assert (Hh' : In h (hexes lay ((n - 1) mod 3))) by (unfold H2 in Hh; replace (zk (N + 1) - 2) with (n - 1) in Hh by lia; exact Hh).
        pose proof (fun B => same_sd lay Hv Hobs B Hs h Sb Hh') as SD. destruct (at_some n _ h (proj1 (sd_value lay Hobs _ _ _ _ (SD (fun _ => false))))) as (d & Hd).
        assert (Hd' : In d (fin_dets lay)) by (unfold fin_dets; apply in_or_app; right; apply in_flat_map; exists h; rewrite Fb, xyz_index_xyz; auto).
        exists d. split; [now apply in_dets_fin|]. split; [now apply (watches_fin lay)|]. intros B c (C1 & C2 & C3 & C4 & C5). rewrite (at_value B _ _ _ _ _ _ Hd (SD B)). exact (same_value lay Hv Hs (ck c) C1 (ce c) C2 (cP c) C3 (cf c) B C4 C5 h Sb Hh).
      + assert (A1 : ahead n = true) by (destruct (ahead n); [reflexivity | discriminate]). assert (Fb : final_basis lay = xyz n) by (now rewrite (final_cases lay), Sb).
        destruct Cs as [->|[->| ->]].
        * assert (Hh' : In h (H2 lay n)) by (rewrite <- ZN; exact Hh). pose proof (fun B => other_sd lay Hv Hobs B Hs h Sb Hh') as SD. destruct (at_some n _ h (proj1 (sd_value lay Hobs _ _ _ _ (SD (fun _ => false))))) as (d & Hd).
          assert (Hd' : In d (fin_dets lay)).
          { unfold fin_dets. rewrite (same_spec lay), Sb. apply in_or_app. left. apply in_flat_map. exists h. split; [|exact Hd]. rewrite (third_spec lay Sb). unfold H2 in Hh'. replace ((n + 1) mod 3) with ((n - 2) mod 3) by dlia. exact Hh'. }
          exists d. split; [now apply in_dets_fin|]. split; [now apply (watches_fin lay)|]. intros B c (C1 & C2 & C3 & C4 & C5). rewrite (at_value B _ _ _ _ _ _ Hd (SD B)). exact (other_value lay Hv Hs (ck c) C1 (ce c) C2 (cP c) C3 (cf c) B C4 C5 h Sb Hh).
        * replace (zk (N + 1)) with (n + 1) in Ha by lia. rewrite ahead_step, A1 in Ha. discriminate.
        * assert (Hh' : In h (hexes lay (n mod 3))) by (unfold H2 in Hh; replace (zk (N + 2) - 2) with n in Hh by lia; exact Hh).
          pose proof (fun B => diff_sd lay Hv Hobs B Hs h Sb Hh') as SD. destruct (at_some n _ h (proj1 (sd_value lay Hobs _ _ _ _ (SD (fun _ => false))))) as (d & Hd).
          assert (Hd' : In d (fin_dets lay)) by (unfold fin_dets; apply in_or_app; right; apply in_flat_map; exists h; rewrite Fb, xyz_index_xyz; auto).
          exists d. split; [now apply in_dets_fin|]. split; [now apply (watches_fin lay)|]. intros B c (C1 & C2 & C3 & C4 & C5). rewrite (at_value B _ _ _ _ _ _ Hd (SD B)). exact (diff_value lay Hv Hs (ck c) C1 (ce c) C2 (cP c) C3 (cf c) B C4 C5 h Sb Hh).
  Qed.
  Definition cfirst (c : crack) (e : edge) : bool := (ck c =? 0)%nat && (edge_eqb e (ce c) && xorb (xorb (pu c) (pv c)) (cf c)).
  Definition clast (c : crack) (e : edge) : bool := (ck c =? N - 1)%nat && (edge_eqb e (ce c) && cf c).
  Lemma first_spotted e : ahead 0 = true -> In e (E 0) -> shows (fun c => cfirst c e).
  Proof.
    intros Ha He. assert (O : obs lay = "H"%string) by (destruct Hobs as [O|O]; [revert Ha; unfold FaultQuiet.ahead; rewrite O; discriminate | exact O]).
    pose proof (fun B => vedge_sd lay Hv B 0 (SI_all lay Hv B 0) e He) as SD. destruct (at_some 0 _ (e_center e) (proj1 (sd_value lay Hobs _ _ _ _ (SD (fun _ => false))))) as (d & Hd). pose proof n1.
    assert (Hd' : In d (row_dets lay 0)).
    { unfold row_dets. rewrite (init_X lay Hobs). unfold basis_H. rewrite O. cbn [String.eqb Ascii.eqb Bool.eqb andb Z.eqb Z.of_nat]. apply in_or_app. left. apply in_flat_map. exists e. auto. }
    exists d. split; [eapply (in_dets_row 0); [lia | exact Hd']|]. split; [eapply (watches_row lay 0); eauto|]. intros B c (C1 & C2 & C3 & C4 & C5). rewrite (at_value B _ _ _ _ _ _ Hd (SD B)). exact (first_value lay Hv Hs (ck c) C1 (ce c) C2 (cP c) C3 (cf c) B C4 e He).
  Qed.
  Lemma last_spotted e : same_basis lay = true -> In e (E (n - 1)) -> shows (fun c => clast c e).
  Proof.
    intros Sb He. pose proof (fun B => edge_sd lay Hv B Hs e He) as SD. destruct (at_some n _ (e_center e) (proj1 (sd_value lay Hobs _ _ _ _ (SD (fun _ => false))))) as (d & Hd).
    assert (Hd' : In d (fin_dets lay)).
    { unfold fin_dets. rewrite (same_spec lay), Sb. apply in_or_app. left. apply in_flat_map. exists e. split; [|exact Hd]. rewrite (final_cases lay), Sb, xyz_index_xyz, round_edges_mod. exact He. }
    exists d. split; [now apply in_dets_fin|]. split; [now apply (watches_fin lay)|]. intros B c (C1 & C2 & C3 & C4 & C5). rewrite (at_value B _ _ _ _ _ _ Hd (SD B)). exact (last_value lay Hv Hs (ck c) C1 (ce c) (cP c) (cf c) B C4 C5 e Sb He).
  Qed.

  (** ** A region of hexagons, which may change from one sub-round to the next *)
  Section Region.
    Variable R : Z -> cpx -> bool.
    Definition region (c : crack) : bool :=
      let k := zk (ck c) in let a := e_left (ce c) in let b := e_right (ce c) in
      if ahead k then xorb (R k (hexq lay (k + 1) a) && xorb (xorb (pu c) (pv c)) (cf c)) (xorb (xorb (R (k + 2) (hexq lay k a) && pu c) (R (k + 2) (hexq lay k b) && pv c)) (R (k + 4) (hexq lay (k + 2) a) && cf c))
      else xorb (R (k + 3) (hexq lay (k + 1) a) && pw c) (R (k + 1) (hexq lay (k + 2) a) && pw c).
    Definition fires (c : crack) : bool :=
      xorb (xsum (fun s => ahead (zk s) && xsum (fun h => R (zk s) h && cmark c s h) (H2 lay (zk s))) (seq 1 (N + 2)))
        (xorb (ahead 0 && xsum (fun e => R 0 (hexq lay 1 (e_left e)) && cfirst c e) (E 0)) (same_basis lay && xsum (fun e => R (n + 3) (hexq lay (n + 1) (e_left e)) && clast c e) (E (n - 1)))).

    Lemma row_point s j h0 x : In h0 (H2 lay (zk j)) -> xsum (fun h => (s =? j)%nat && (cpx_eqb h h0 && (R (zk s) h && x))) (H2 lay (zk s)) = (s =? j)%nat && (R (zk j) h0 && x).
    Proof.
      intros Hh. rewrite xsum_andb_l. destruct (Nat.eqb_spec s j) as [->|_]; [|reflexivity]. cbn [andb]. apply (xsum_point cpx_eqb cpx_eqb_eq (fun h => R (zk j) h && x)); [apply NoDup_hexes, Hv | exact Hh].
    Qed.
    Lemma hexq_row c j q : isdata lay q -> c mod 3 = (zk j - 2) mod 3 -> In (hexq lay c q) (H2 lay (zk j)).
    Proof. intros Hq Hc. rewrite (hexq_mod lay c (zk j - 2)) by exact Hc. now apply (hexq_H2 lay Hv). Qed.
    Lemma fires_region c : (ck c < N)%nat -> In (ce c) (E (zk (ck c))) -> fires c = region c.
    Proof.
      intros Hk He. destruct (ab_data lay Hv (ck c) (ce c) He) as (Ha & Hb & _). pose proof n1 as H1n. assert (ZN : zk N = n) by (apply Z2Nat.id; lia).
      set (k := ck c) in *. set (h1 := hexq lay (zk k + 1) (e_left (ce c))). set (h2 := hexq lay (zk k + 2) (e_left (ce c))). set (ha := hexq lay (zk k) (e_left (ce c))). set (hb := hexq lay (zk k) (e_right (ce c))).
      set (x := xorb (xorb (pu c) (pv c)) (cf c)).
      assert (Row : forall s, xsum (fun h => R (zk s) h && cmark c s h) (H2 lay (zk s)) =
                xorb ((s =? k)%nat && (R (zk k) h1 && x)) (xorb ((s =? k + 1)%nat && (R (zk (k + 1)) h2 && pw c)) (xorb (xorb ((s =? k + 2)%nat && (R (zk (k + 2)) ha && pu c)) ((s =? k + 2)%nat && (R (zk (k + 2)) hb && pv c)))
                  (xorb ((s =? k + 3)%nat && (R (zk (k + 3)) h1 && pw c)) ((s =? k + 4)%nat && (R (zk (k + 4)) h2 && cf c)))))).
      { intros s. rewrite <- (row_point s k h1 x), <- (row_point s (k + 1) h2 (pw c)), <- (row_point s (k + 2) ha (pu c)), <- (row_point s (k + 2) hb (pv c)), <- (row_point s (k + 3) h1 (pw c)), <- (row_point s (k + 4) h2 (cf c))
          by (apply hexq_row; [assumption | dlia]).
        rewrite <- !xsum_xorb. apply xsum_ext. intros h _. unfold cmark, mark. fold k. fold h1 h2 ha hb.
        change (anti2 (pbits (xyz (zk k))) (cP c (e_left (ce c)))) with (pu c). change (anti2 (pbits (xyz (zk k))) (cP c (e_right (ce c)))) with (pv c). fold x.
        change (xorb (xorb (anti2 (pbits (xyz (zk k + 2))) (cP c (e_left (ce c)))) (anti2 (pbits (xyz (zk k + 2))) (cP c (e_right (ce c))))) (cf c)) with (pw c).
        destruct (R (zk s) h); [cbn [andb]|].
        - f_equal. f_equal. f_equal. now destruct (s =? k + 2)%nat.
        - cbn [andb]. now rewrite !andb_false_r. }
      unfold fires. rewrite (xsum_ext _ (fun s => xorb ((s =? k)%nat && (ahead (zk s) && (R (zk k) h1 && x))) (xorb ((s =? k + 1)%nat && (ahead (zk s) && (R (zk (k + 1)) h2 && pw c))) (xorb (xorb ((s =? k + 2)%nat && (ahead (zk s) && (R (zk (k + 2)) ha && pu c))) ((s =? k + 2)%nat && (ahead (zk s) && (R (zk (k + 2)) hb && pv c))))
                  (xorb ((s =? k + 3)%nat && (ahead (zk s) && (R (zk (k + 3)) h1 && pw c))) ((s =? k + 4)%nat && (ahead (zk s) && (R (zk (k + 4)) h2 && cf c)))))))).
      2:{ intros s _. rewrite Row. destruct (ahead (zk s)); cbn [andb]; [reflexivity|]. now rewrite !andb_false_r. }
      rewrite !xsum_xorb, !xsum_point_seq.
      assert (F0 : xsum (fun e => R 0 (hexq lay 1 (e_left e)) && cfirst c e) (E 0) = (k =? 0)%nat && (R (zk k) h1 && x)).
      { unfold cfirst. fold k x. destruct (Nat.eqb_spec k 0) as [K|K]; [|cbn [andb]; apply xsum_false; intros e _; apply andb_false_r]. cbn [andb].
        rewrite (xsum_ext _ (fun e => edge_eqb e (ce c) && (R 0 (hexq lay 1 (e_left e)) && x))) by (intros e _; apply andb_swap).
        rewrite (xsum_point edge_eqb edge_eqb_eq); [unfold h1; now rewrite K | | rewrite K in He; exact He]. apply (NoDup_map_inv e_center), NoDup_round_edges_centers, Hv. }
      assert (FL : xsum (fun e => R (n + 3) (hexq lay (n + 1) (e_left e)) && clast c e) (E (n - 1)) = (k =? N - 1)%nat && (R (zk (k + 4)) h2 && cf c)).
      { unfold clast. fold k. destruct (Nat.eqb_spec k (N - 1)) as [K|K]; [|cbn [andb]; apply xsum_false; intros e _; apply andb_false_r]. cbn [andb]. assert (Kn : zk k = n - 1) by lia.
        rewrite (xsum_ext _ (fun e => edge_eqb e (ce c) && (R (n + 3) (hexq lay (n + 1) (e_left e)) && cf c))) by (intros e _; apply andb_swap).
        rewrite (xsum_point edge_eqb edge_eqb_eq); [unfold h2; replace (zk (k + 4)) with (n + 3) by lia; rewrite Kn; do 3 f_equal; lia | | rewrite Kn in He; exact He]. apply (NoDup_map_inv e_center), NoDup_round_edges_centers, Hv. }
      rewrite F0, FL. clear F0 FL Row.
      pose proof (same_ahead lay) as SA.
      assert (B1 : ahead (zk (k + 1)) = negb (ahead (zk k))) by (replace (zk (k + 1)) with (zk k + 1) by lia; apply ahead_step).
      assert (B2 : ahead (zk (k + 2)) = ahead (zk k)) by (replace (zk (k + 2)) with (zk k + 1 + 1) by lia; rewrite !ahead_step; apply negb_involutive).
      assert (B3 : ahead (zk (k + 3)) = negb (ahead (zk k))) by (replace (zk (k + 3)) with (zk k + 1 + 1 + 1) by lia; rewrite !ahead_step; now rewrite negb_involutive).
      assert (B4 : ahead (zk (k + 4)) = ahead (zk k)) by (replace (zk (k + 4)) with (zk k + 1 + 1 + 1 + 1) by lia; rewrite !ahead_step; now rewrite !negb_involutive).
      rewrite B1, B2, B3, B4. unfold region. fold k. fold h1 h2 ha hb x.
      replace (zk (k + 1)) with (zk k + 1) by lia. replace (zk (k + 2)) with (zk k + 2) by lia. replace (zk (k + 3)) with (zk k + 3) by lia. replace (zk (k + 4)) with (zk k + 4) by lia.
      replace (k + 1 <? 1 + (N + 2))%nat with true by (symmetry; apply Nat.ltb_lt; lia). replace (k + 2 <? 1 + (N + 2))%nat with true by (symmetry; apply Nat.ltb_lt; lia). replace (k + 3 <? 1 + (N + 2))%nat with true by (symmetry; apply Nat.ltb_lt; lia).
      replace (k <? 1 + (N + 2))%nat with true by (symmetry; apply Nat.ltb_lt; lia). replace (1 <=? k + 1)%nat with true by (symmetry; apply Nat.leb_le; lia). replace (1 <=? k + 2)%nat with true by (symmetry; apply Nat.leb_le; lia).
      replace (1 <=? k + 3)%nat with true by (symmetry; apply Nat.leb_le; lia). replace (1 <=? k + 4)%nat with true by (symmetry; apply Nat.leb_le; lia). cbn [andb].
      destruct (ahead (zk k)) eqn:Ak; cbn [negb andb].
      - assert (Q1 : xorb ((1 <=? k)%nat && true && (R (zk k) h1 && x)) (ahead 0 && ((k =? 0)%nat && (R (zk k) h1 && x))) = R (zk k) h1 && x).
        { destruct (Nat.eqb_spec k 0) as [K|K].
          - rewrite K in Ak |- *. change (zk 0) with 0 in Ak. rewrite Ak. cbn [Nat.leb andb]. apply xorb_false_l.
          - replace (1 <=? k)%nat with true by (symmetry; apply Nat.leb_le; lia). cbn [andb]. rewrite andb_false_r. apply xorb_false_r. }
        assert (Q2 : xorb ((k + 4 <? 1 + (N + 2))%nat && (R (zk k + 4) h2 && cf c)) (same_basis lay && ((k =? N - 1)%nat && (R (zk k + 4) h2 && cf c))) = R (zk k + 4) h2 && cf c).
        { destruct (Nat.eqb_spec k (N - 1)) as [K|K].
          - replace (k + 4 <? 1 + (N + 2))%nat with false by (symmetry; apply Nat.ltb_ge; lia). cbn [andb]. rewrite SA. replace n with (zk k + 1) by lia. rewrite ahead_step, Ak. cbn [negb andb]. apply xorb_false_l.
          - replace (k + 4 <? 1 + (N + 2))%nat with true by (symmetry; apply Nat.ltb_lt; lia). cbn [andb]. rewrite andb_false_r. apply xorb_false_r. }
        revert Q1 Q2. cbn [andb]. clear. generalize (ahead 0 && ((k =? 0)%nat && (R (zk k) h1 && x))) as y1. generalize ((1 <=? k)%nat && true && (R (zk k) h1 && x)) as y2. generalize ((k + 4 <? 1 + (N + 2))%nat && (R (zk k + 4) h2 && cf c)) as y3. generalize (same_basis lay && ((k =? N - 1)%nat && (R (zk k + 4) h2 && cf c))) as y4.
        generalize (R (zk k + 2) ha && pu c) as y5. generalize (R (zk k + 2) hb && pv c) as y6. generalize (R (zk k) h1 && x) as z1. generalize (R (zk k + 4) h2 && cf c) as z2. intros z2 z1 y6 y5 y4 y3 y2 y1 <- <-. destruct y1, y2, y3, y4, y5, y6; reflexivity.
      - assert (Q1 : ahead 0 && ((k =? 0)%nat && (R (zk k) h1 && x)) = false).
        { destruct (Nat.eqb_spec k 0) as [K|K]; [rewrite K in Ak; change (zk 0) with 0 in Ak; now rewrite Ak | cbn [andb]; apply andb_false_r]. }
        assert (Q2 : same_basis lay && ((k =? N - 1)%nat && (R (zk k + 4) h2 && cf c)) = false).
        { destruct (Nat.eqb_spec k (N - 1)) as [K|K]; [|cbn [andb]; apply andb_false_r]. rewrite SA. replace n with (zk k + 1) by lia. rewrite ahead_step, Ak. reflexivity. }
        rewrite Q1, Q2, !andb_false_r. clear. destruct (R (zk k + 3) h1), (R (zk k + 1) h2), (pw c); reflexivity.
    Qed.

    (** ** No detector is set off *)
    Variable cs : list (crack * (nat -> bool)).
    Hypothesis Hcs : forall p, In p cs -> cracked (snd p) (fst p).
    Hypothesis HQ : forall d, In d dets -> watches lay d = true -> xsum (fun p => xsum (snd p) (d_meas d)) cs = false.
    Lemma shows_quiet F : shows F -> xsum (fun p => F (fst p)) cs = false.
    Proof. intros (d & Hd & Hw & HF). rewrite <- (HQ d Hd Hw). apply xsum_ext. intros p Hp. symmetry. now apply HF, Hcs. Qed.
    Lemma quiet_region : xsum (fun p => region (fst p)) cs = false.
    Proof.
      rewrite (xsum_ext _ (fun p => fires (fst p))) by (intros p Hp; symmetry; apply fires_region; apply (Hcs p Hp)). unfold fires. rewrite !xsum_xorb.
      assert (G : forall {T} (l : list T) (w : T -> bool) (F : T -> crack -> bool), (forall x, In x l -> w x = true -> shows (F x)) -> xsum (fun p : crack * (nat -> bool) => xsum (fun x => w x && F x (fst p)) l) cs = false).
      { intros T l w F HF. rewrite xsum_swap. apply xsum_false. intros x Hx. rewrite xsum_andb_l. destruct (w x) eqn:Wx; [|reflexivity]. cbn [andb]. apply shows_quiet, HF; assumption. }
      replace (xsum (fun p => xsum _ (seq 1 (N + 2))) cs) with false.
      2:{ symmetry. rewrite xsum_swap. apply xsum_false. intros s Hs'. apply in_seq in Hs'. rewrite xsum_andb_l. destruct (ahead (zk s)) eqn:As; [|reflexivity]. cbn [andb].
          apply (G _ (H2 lay (zk s)) (R (zk s)) (fun h c => cmark c s h)). intros h Hh _. apply spotted; [lia | exact As | exact Hh]. }
      replace (xsum (fun p => ahead 0 && _) cs) with false.
      2:{ symmetry. rewrite xsum_andb_l. destruct (ahead 0) eqn:A0; [|reflexivity]. cbn [andb]. apply (G _ (E 0) (fun e => R 0 (hexq lay 1 (e_left e))) (fun e c => cfirst c e)). intros e He _. now apply first_spotted. }
      replace (xsum (fun p => same_basis lay && _) cs) with false; [reflexivity|].
      symmetry. rewrite xsum_andb_l. destruct (same_basis lay) eqn:Sb; [|reflexivity]. cbn [andb]. apply (G _ (E (n - 1)) (fun e => R (n + 3) (hexq lay (n + 1) (e_left e))) (fun e c => clast c e)). intros e He _. now apply last_spotted.
    Qed.

    (** ** The observable *)
    Lemma ahead_mem s e q : ahead (s + 1) = true -> In e (E s) -> In q (ends e) -> cmem q (snd (obr lay (s + 1))) = emem e (oedges lay).
    Proof.
      intros Hb He Hq. assert (Hb' : ahead s = false) by (rewrite ahead_step in Hb; destruct (ahead s); [discriminate | reflexivity]).
      rewrite <- (behind_mem lay Hv s e q Hb' He Hq). pose proof (O_step lay Hv s q) as K. rewrite bits_at_app in K. unfold Oop in K. rewrite !bits_at_pstr in K by apply NoDup_obr.
      rewrite (obr_basis lay (s + 1)), (obr_basis lay s), ahead_step, Hb' in K. cbn [negb] in K.
      rewrite pstr_flat_map, bits_at_pstr in K.
      2:{ rewrite oat_filter. apply NoDup_flat_filter. eapply Permutation_NoDup; [symmetry; apply (round_matching lay Hv s) | apply NoDup_data]. }
      revert K. generalize (cmem q (flat_map ends (oat lay s))) as m. unfold xyz. destruct (mod6_cases s) as [C|[C|[C|[C|[C|C]]]]];
      match type of C with _ = ?c =>
        let a := eval vm_compute in ((c + 1) mod 3) in let b := eval vm_compute in (c mod 3) in let d := eval vm_compute in ((c - 1) mod 3) in
        replace ((s + 1) mod 3) with a by (revert C; clear; dlia); replace (s mod 3) with b by (revert C; clear; dlia); replace ((s - 1) mod 3) with d by (revert C; clear; dlia) end;
      intros m; destruct (cmem q (snd (obr lay (s + 1)))), (cmem q (snd (obr lay s))), m; cbv; intros K; reflexivity || discriminate.
    Qed.
    Definition crossed (r t1 t2 : Z) (q : cpx) : bool := xorb (emem (touch lay r q) (oedges lay)) (xorb (R t1 (hexq lay (r + 1) q)) (R t2 (hexq lay (r + 2) q))).
    Definition moved (c : crack) : bool :=
      let k := zk (ck c) in let a := e_left (ce c) in let b := e_right (ce c) in
      if ahead k then xorb (crossed (k + 2) (k + 2) k a && pu c) (xorb (crossed (k + 2) (k + 2) k b && pv c) (crossed k k (k + 4) a && cf c)) else crossed k (k + 3) (k + 1) a && pw c.
    Lemma effect_moved B c : cracked B c -> xorb (effect lay B) (region c) = moved c.
    Proof.
      intros (Hk & He & HP & HVE & Hdat). destruct (ab_data lay Hv (ck c) (ce c) He) as (Ha & Hb & Nab & Eb & Ea).
      rewrite (effect_eq lay Hv Hobs (ck c) Hk (ce c) He (cP c) (cf c) B HVE Hdat). unfold Oop. rewrite (par_two (cP c) (e_left (ce c)) (e_right (ce c))) by (exact Nab || exact HP || apply NoDup_obr).
      assert (T0 : touch lay (zk (ck c)) (e_left (ce c)) = ce c) by (symmetry; apply (touch_unique lay Hv (zk (ck c)) (e_left (ce c)) (ce c) Ha He); now left).
      unfold moved, region. cbv zeta. set (k := zk (ck c)) in *. rewrite (obr_basis lay k). destruct (ahead k) eqn:Ak.
      - assert (Mem : forall q, isdata lay q -> cmem q (snd (obr lay k)) = emem (touch lay (k + 2) q) (oedges lay)).
        { intros q Hq. replace k with (k - 1 + 1) at 1 by lia. replace (touch lay (k + 2) q) with (touch lay (k - 1) q).
          - apply ahead_mem; [replace (k - 1 + 1) with k by lia; exact Ak | now apply touch_in |]. destruct (proj2 (touch_unique lay Hv (k - 1) q (touch lay (k - 1) q) Hq (touch_in lay Hv (k - 1) q Hq)) eq_refl) as [K|K]; unfold ends; [left; exact K | right; left; exact K].
          - unfold touch. rewrite <- (touch_center_mod lay (k - 1)), <- (touch_center_mod lay (k + 2)). do 2 f_equal. dlia. }
        rewrite !Mem by assumption. unfold crossed. rewrite T0.
        rewrite !(hexq_mod lay (k + 2 + 1) k), !(hexq_mod lay (k + 2 + 2) (k + 1)) by dlia.
        replace (hexq lay (k + 1) (e_right (ce c))) with (hexq lay (k + 1) (e_left (ce c))) by (rewrite Eb; symmetry; apply (hexq_partner lay Hv); [exact Ha | dlia]).
        change (anti2 (pbits (xyz k)) (cP c (e_left (ce c)))) with (pu c). change (anti2 (pbits (xyz k)) (cP c (e_right (ce c)))) with (pv c).
        destruct (R k (hexq lay (k + 1) (e_left (ce c)))), (R (k + 4) (hexq lay (k + 2) (e_left (ce c)))), (R (k + 2) (hexq lay k (e_left (ce c)))), (R (k + 2) (hexq lay k (e_right (ce c)))), (pu c), (pv c), (cf c);
          cbn [andb xorb]; rewrite ?andb_true_r, ?andb_false_r; destruct (emem (touch lay (k + 2) (e_left (ce c))) (oedges lay)), (emem (touch lay (k + 2) (e_right (ce c))) (oedges lay)), (emem (ce c) (oedges lay)); reflexivity.
      - rewrite !(behind_mem lay Hv k (ce c)) by (assumption || (unfold ends; cbn; auto)). unfold crossed. rewrite T0.
        replace (xyz (k - 1)) with (xyz (k + 2)) by (apply xyz_eq; dlia). unfold pw. fold k.
        destruct (emem (ce c) (oedges lay)), (R (k + 3) (hexq lay (k + 1) (e_left (ce c)))), (R (k + 1) (hexq lay (k + 2) (e_left (ce c)))), (anti2 (pbits (xyz (k + 2))) (cP c (e_left (ce c)))), (anti2 (pbits (xyz (k + 2))) (cP c (e_right (ce c)))), (cf c); reflexivity.
    Qed.
    (** The errors together act as if the observable were on the other side of the region. *)
    Theorem avoided : (forall p, In p cs -> moved (fst p) = false) -> xsum (fun p => effect lay (snd p)) cs = false.
    Proof.
      intros HA. transitivity (xsum (fun p => moved (fst p)) cs); [|now apply xsum_false].
      rewrite (xsum_ext (fun p => moved (fst p)) (fun p => xorb (effect lay (snd p)) (region (fst p)))) by (intros p Hp; symmetry; apply effect_moved; now apply Hcs).
      rewrite xsum_xorb, quiet_region. symmetry. apply xorb_false_r.
    Qed.
  End Region.

  (** With m regions to choose from, of which each error is in the way of w at most. *)
  Theorem undetected_free (R : Z -> Z -> cpx -> bool) m w cs : (forall p, In p cs -> cracked (snd p) (fst p)) ->
    (forall d, In d dets -> watches lay d = true -> xsum (fun p => xsum (snd p) (d_meas d)) cs = false) ->
    (forall p, In p cs -> exists h, (length h <= w)%nat /\ forall c, 0 <= c < m -> ~ In c h -> moved (R c) (fst p) = false) ->
    Z.of_nat (w * length cs) < m -> xsum (fun p => effect lay (snd p)) cs = false.
  Proof.
    intros Hcs HQ HB L. destruct (free_of_all (fun c p => moved (R c) (fst p) = false) w m cs HB L) as (c & _ & Ha). exact (avoided (R c) cs Hcs HQ Ha).
  Qed.
End S.
