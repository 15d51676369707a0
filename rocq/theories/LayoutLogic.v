(** Commutation of checks, stabilizers and logical observables. *)
From Verif Require Import Prelude Layout LayoutFacts LayoutEdges LayoutLists LayoutHex LayoutHex2 Pauli LayoutObs.
Open Scope Z_scope.

(** ** Bilinearity of [anticommutes] *)
Lemma anticommutes_sym s1 s2 : anticommutes s1 s2 = anticommutes s2 s1.
Proof.
  unfold anticommutes. rewrite xsum_swap. apply xsum_ext. intros x _. apply xsum_ext. intros y _.
  rewrite anti2_sym. f_equal. destruct (cpx_eqb (snd y) (snd x)) eqn:E.
  - apply cpx_eqb_eq in E. rewrite E. now rewrite cpx_eqb_refl.
  - symmetry. apply cpx_eqb_neq. apply cpx_eqb_neq in E. congruence.
Qed.
Lemma anticommutes_app_l s1 s2 s3 : anticommutes (s1 ++ s2) s3 = xorb (anticommutes s1 s3) (anticommutes s2 s3).
Proof. apply xsum_app. Qed.
Lemma anticommutes_app_r s1 s2 s3 : anticommutes s1 (s2 ++ s3) = xorb (anticommutes s1 s2) (anticommutes s1 s3).
Proof. rewrite anticommutes_sym, anticommutes_app_l, (anticommutes_sym s2), (anticommutes_sym s3). reflexivity. Qed.
Lemma anticommutes_same_r s1 s2 s2' : same_operator s2 s2' -> anticommutes s1 s2 = anticommutes s1 s2'.
Proof. intros H. rewrite !anticommutes_bits. apply xsum_ext. intros. now rewrite H. Qed.
Lemma anticommutes_same_l s1 s1' s2 : same_operator s1 s1' -> anticommutes s1 s2 = anticommutes s1' s2.
Proof. intros H. rewrite (anticommutes_sym s1), (anticommutes_sym s1'). now apply anticommutes_same_r. Qed.
Lemma anticommutes_flat_map_l {A} (f : A -> pstring) l s :
  (forall x, In x l -> anticommutes (f x) s = false) -> anticommutes (flat_map f l) s = false.
Proof.
  induction l as [|a l IH]; intros H; [reflexivity|]. cbn [flat_map]. rewrite anticommutes_app_l.
  rewrite H by (left; reflexivity). rewrite IH by (intros; apply H; right; assumption). reflexivity.
Qed.

(** The check measured on an edge, and the stabilizer of a hex. *)
Definition edge_op (p : pauli) (e : edge) : pstring := pstr p [e_left e; e_right e].

Section C.
  Variable lay : layout.
  Hypothesis Hv : valid lay.
  Notation tw := (tile_width lay).
  Notation th := (tile_height lay).
  Ltac tiles := pose proof (tw_pos lay Hv); pose proof (th_pos lay Hv).
  Notation partner := (partner lay).

  Definition hex_op (h : cpx) : pstring := pstr (xyz (hexcat h)) (qubits_around_hex lay h).

  Lemma NoDup_edge_ends r e : In e (round_edges lay r) -> NoDup [e_left e; e_right e].
  Proof.
    intros He. destruct (round_edge_facts lay Hv r e He) as (_ & _ & Pl & Pr & _).
    repeat constructor; cbn [In]; [|tauto]. intros [E|[]]. rewrite E in Pr. congruence.
  Qed.

  Lemma xyz_eq a b : xyz a = xyz b <-> a mod 3 = b mod 3.
  Proof.
    unfold xyz. assert (a mod 3 = 0 \/ a mod 3 = 1 \/ a mod 3 = 2) by dlia.
    assert (b mod 3 = 0 \/ b mod 3 = 1 \/ b mod 3 = 2) by dlia.
    destruct H as [->|[->| ->]], H0 as [->|[->| ->]]; split; intros; try reflexivity; discriminate || lia.
  Qed.
  Lemma pneq_xyz a b : pneq (xyz a) (xyz b) = negb (a mod 3 =? b mod 3).
  Proof.
    unfold pneq. f_equal. destruct (Z.eqb_spec (a mod 3) (b mod 3)) as [E|E].
    - apply xyz_eq in E. rewrite E. now destruct (xyz b).
    - destruct (pauli_eqb (xyz a) (xyz b)) eqn:F; [|reflexivity]. apply pauli_eqb_eq, xyz_eq in F. contradiction.
  Qed.

  (** A Pauli string commutes with an edge check iff it treats both ends alike. *)
  Lemma anti_edge_l p q s e : NoDup [e_left e; e_right e] -> NoDup q ->
    anticommutes (edge_op p e) (pstr s q) = pneq p s && xorb (cmem (e_left e) q) (cmem (e_right e) q).
  Proof.
    intros H1 H2. unfold edge_op. rewrite anticommutes_pstr by exact H2. cbn [xsum fold_right].
    now rewrite xorb_false_r.
  Qed.

  Lemma edges_commute r e1 e2 : In e1 (round_edges lay r) -> In e2 (round_edges lay r) ->
    anticommutes (edge_op (xyz r) e1) (edge_op (xyz r) e2) = false.
  Proof.
    intros H1 H2. unfold edge_op. rewrite anticommutes_pstr by (eapply NoDup_edge_ends; eauto).
    rewrite pneq_xyz, Z.eqb_refl. reflexivity.
  Qed.

  Lemma cmem_around h q : ishex lay h -> isdata lay q -> cmem q (qubits_around_hex lay h) = cpx_eqb (hexq lay (hexcat h) q) h.
  Proof.
    intros Hh Hq. destruct (cpx_eqb (hexq lay (hexcat h) q) h) eqn:E.
    - apply cmem_In, in_around; [exact Hv | exact Hh |]. apply cpx_eqb_eq in E. auto.
    - apply cmem_false. intros Hin. apply in_around in Hin; [|exact Hv | exact Hh]. destruct Hin as [_ K].
      apply cpx_eqb_neq in E. contradiction.
  Qed.

  Lemma edge_hex_commute r e h : In e (round_edges lay r) -> ishex lay h ->
    anticommutes (edge_op (xyz r) e) (hex_op h) = false.
  Proof.
    intros He Hh. unfold hex_op. rewrite anti_edge_l; [|eapply NoDup_edge_ends; eauto | apply NoDup_around; assumption].
    destruct (round_edge_facts lay Hv r e He) as (Hl & Hr & _ & _ & E & _).
    rewrite pneq_xyz. destruct (Z.eqb_spec (r mod 3) (hexcat h mod 3)) as [Er|Er]; [reflexivity|].
    rewrite !cmem_around by assumption. rewrite E, hexq_partner by assumption.
    now rewrite xorb_nilpotent.
  Qed.

  Lemma hexes_commute h1 h2 : ishex lay h1 -> ishex lay h2 -> anticommutes (hex_op h1) (hex_op h2) = false.
  Proof.
    (* a hex stabilizer is the product of the checks on its first edges *)
    intros H1 H2. destruct (Z.eq_dec (hexcat h1 mod 3) (hexcat h2 mod 3)) as [E|E].
    - unfold hex_op. rewrite anticommutes_pstr by (apply NoDup_around; assumption).
      rewrite pneq_xyz, E, Z.eqb_refl. reflexivity.
    - unfold hex_op. rewrite anticommutes_pstr by (apply NoDup_around; assumption).
      rewrite <- (xsum_perm _ _ _ (first_edges_cover lay h1)), <- (xsum_perm _ _ _ (second_edges_cover lay h1)) || idtac.
      assert (K : forall edges r, Permutation (flat_map ends edges) (qubits_around_hex lay h1) ->
                 (forall e, In e edges -> In e (round_edges lay r)) -> r mod 3 <> hexcat h2 mod 3 ->
                 xsum (fun q => cmem q (qubits_around_hex lay h2)) (qubits_around_hex lay h1) = false).
      { intros edges r P Hin Hr. rewrite <- (xsum_perm _ _ _ P), xsum_flat_map. apply xsum_false. intros e He.
        apply Hin in He. destruct (round_edge_facts lay Hv r e He) as (Hl & Hr' & _ & _ & Ep & _).
        unfold ends. cbn [xsum fold_right]. rewrite !cmem_around by assumption. rewrite Ep, hexq_partner by assumption.
        now rewrite xorb_false_r, xorb_nilpotent. }
      destruct (Z.eq_dec ((hexcat h1 + 1) mod 3) (hexcat h2 mod 3)) as [E2|E2].
      + rewrite (K _ _ (second_edges_cover lay h1) (fun e => second_edges_round lay Hv h1 e H1)); [apply andb_false_r|].
        clear - E E2. dlia.
      + rewrite (K _ _ (first_edges_cover lay h1) (fun e => first_edges_round lay Hv h1 e H1)); [apply andb_false_r | exact E2].
  Qed.

  (** ** Observables *)
  Definition Hop (s : Z) : pstring := pstr (fst (obs_h_before_sub_round lay s)) (snd (obs_h_before_sub_round lay s)).
  Definition Vop (s : Z) : pstring := pstr (fst (obs_v_before_sub_round lay s)) (snd (obs_v_before_sub_round lay s)).

  Lemma cmem_obs_h s q : isdata lay q -> cmem q (snd (obs_h_before_sub_round lay s)) = hmem s q.
  Proof.
    intros Hq. destruct (hmem s q) eqn:E.
    - apply cmem_In, in_obs_h; auto.
    - apply cmem_false. rewrite in_obs_h by exact Hv. intros [_ K]. congruence.
  Qed.
  Lemma cmem_obs_v s q : isdata lay q -> cmem q (snd (obs_v_before_sub_round lay s)) = vmem s q.
  Proof.
    intros Hq. destruct (vmem s q) eqn:E.
    - apply cmem_In, in_obs_v; auto.
    - apply cmem_false. rewrite in_obs_v by exact Hv. intros [_ K]. congruence.
  Qed.

  (** The partner's position. *)
  Lemma partner_ab r a b : isdata lay (4 * a + 2, 2 * b) ->
    exists x y, partner r (4 * a + 2, 2 * b) = (x, y) /\
     (((r - b) mod 3 = 2 /\ x = 4 * a + 2 /\ (y = 2 * b + 2 \/ y = 0 /\ b = 6 * th - 1)) \/
      ((r - b) mod 3 = 1 /\ x = 4 * a + 2 /\ (y = 2 * b - 2 /\ 0 <= y \/ y = 12 * th - 2 /\ b = 0)) \/
      ((r - b) mod 3 = 0 /\ (exists t, x = 4 * a + 6 + 8 * t) /\ y = 2 * b)).
  Proof.
    tiles. intros Hq. unfold LayoutEdges.partner. destruct Hq as [Hb _]. unfold inbox in Hb. cbn [fst snd] in Hb.
    unfold wrap, coord_width2, coord_height2.
    destruct (touch_off_cases r a b) as [[-> E]|[[-> E]|[[-> [E _]]|[-> [E _]]]]]; unfold cadd, cscale; cbn [fst snd];
    eexists _, _; (split; [reflexivity|]).
    - left. split; [exact E|]. rewrite !mod_small_cases by lia.
      destruct (Z.ltb_spec (4 * a + 2 + 2 * 0) 0), (Z.ltb_spec (4 * a + 2 + 2 * 0) (8 * tw)),
        (Z.ltb_spec (2 * b + 2 * 1) 0), (Z.ltb_spec (2 * b + 2 * 1) (12 * th)); lia.
    - right; left. split; [exact E|]. rewrite !mod_small_cases by lia.
      destruct (Z.ltb_spec (4 * a + 2 + 2 * 0) 0), (Z.ltb_spec (4 * a + 2 + 2 * 0) (8 * tw)),
        (Z.ltb_spec (2 * b + 2 * -1) 0), (Z.ltb_spec (2 * b + 2 * -1) (12 * th)); lia.
    - right; right. split; [exact E|]. split; [|rewrite Z.mod_small; lia].
      destruct (mod_rep 8 tw (4 * a + 2 + 2 * 2)) as (t & -> & _); try lia. exists t. lia.
    - right; right. split; [exact E|]. split; [|rewrite Z.mod_small; lia].
      destruct (mod_rep 8 tw (4 * a + 2 + 2 * -2)) as (t & -> & _); try lia. exists (t - 1). lia.
  Qed.

  Lemma h_edge_mem r q : isdata lay q ->
    in_h_rows q && in_h_rows (partner r q) =
    match r mod 3 with 0 => snd q =? 0 | 1 => snd q =? 2 | _ => in_h_rows q end.
  Proof.
    intros Hq. destruct (isdata_ex lay q Hq) as (a & b & -> & Hb).
    destruct (partner_ab r a b Hq) as (x & y & E & Hc). tiles. rewrite E. unfold inbox in Hb. cbn [fst snd] in *. clear E Hq.
    unfold in_h_rows. cbn [fst snd].
    assert (Hm : r mod 3 = 0 \/ r mod 3 = 1 \/ r mod 3 = 2) by dlia.
    destruct Hm as [Hm|[Hm|Hm]]; rewrite Hm;
    (destruct Hc as [(Hd & Hx & Hy)|[(Hd & Hx & Hy)|(Hd & (t & Hx) & Hy)]]);
    apply mod_ex in Hm, Hd; destruct Hm as [k ->], Hd as [l Hd];
    repeat match goal with |- context [Z.eqb ?x ?y] => destruct (Z.eqb_spec x y); try (exfalso; lia) end; reflexivity.
  Qed.
  Lemma v_edge_mem r q : isdata lay q ->
    (fst q =? 2) && (fst (partner r q) =? 2) =
    (fst q =? 2) && negb ((snd q / 2) mod 3 =? r mod 3).
  Proof.
    intros Hq. destruct (isdata_ex lay q Hq) as (a & b & -> & Hb).
    destruct (partner_ab r a b Hq) as (x & y & E & Hc). tiles. rewrite E. unfold inbox in Hb. cbn [fst snd] in *. clear E Hq.
    replace (2 * b / 2) with b by dlia.
    destruct (Z.eqb_spec (4 * a + 2) 2); [|reflexivity]. rewrite !andb_true_l.
    (destruct Hc as [(Hd & Hx & Hy)|[(Hd & Hx & Hy)|(Hd & (t & Hx) & Hy)]]);
    destruct (Z.eqb_spec (b mod 3) (r mod 3)) as [Eb|Eb]; cbn [negb];
    repeat match goal with |- context [Z.eqb ?x ?y] => destruct (Z.eqb_spec x y) end; try reflexivity; exfalso;
    try lia; clear - Hd Eb; dlia.
  Qed.

  Lemma mod6_step s : s mod 6 = 0 /\ (s + 1) mod 6 = 1 /\ s mod 3 = 0 \/
    s mod 6 = 1 /\ (s + 1) mod 6 = 2 /\ s mod 3 = 1 \/ s mod 6 = 2 /\ (s + 1) mod 6 = 3 /\ s mod 3 = 2 \/
    s mod 6 = 3 /\ (s + 1) mod 6 = 4 /\ s mod 3 = 0 \/ s mod 6 = 4 /\ (s + 1) mod 6 = 5 /\ s mod 3 = 1 \/
    s mod 6 = 5 /\ (s + 1) mod 6 = 0 /\ s mod 3 = 2.
  Proof.
    destruct (mod6_cases s) as [D|[D|[D|[D|[D|D]]]]]; rewrite D; apply mod_ex in D; destruct D as [k ->];
    [left|right;left|right;right;left|right;right;right;left|right;right;right;right;left|right;right;right;right;right];
    (split; [reflexivity|split; dlia]).
  Qed.

  Lemma h_step s q : isdata lay q ->
    (if hmem (s + 1) q then pbits (hbasis (s + 1)) else bzero) =
    bxor (if hmem s q then pbits (hbasis s) else bzero)
         (if in_h_rows q && in_h_rows (partner s q) then pbits (xyz s) else bzero).
  Proof.
    intros Hq. rewrite h_edge_mem by exact Hq. unfold hmem, hbasis, xyz, in_h_rows.
    destruct (mod6_step s) as [(->&->& ->)|[(->&->& ->)|[(->&->& ->)|[(->&->& ->)|[(->&->& ->)|(->&->& ->)]]]]];
    destruct (Z.eqb_spec (snd q) 0), (Z.eqb_spec (snd q) 2); try reflexivity; exfalso; lia.
  Qed.
  Lemma v_step s q : isdata lay q ->
    (if vmem (s + 1) q then pbits (vbasis (s + 1)) else bzero) =
    bxor (if vmem s q then pbits (vbasis s) else bzero)
         (if (fst q =? 2) && (fst (partner s q) =? 2) then pbits (xyz s) else bzero).
  Proof.
    intros Hq. rewrite v_edge_mem by exact Hq. unfold vmem, vbasis, xyz.
    assert (Hm : (snd q / 2) mod 3 = 0 \/ (snd q / 2) mod 3 = 1 \/ (snd q / 2) mod 3 = 2) by dlia.
    destruct (mod6_step s) as [(->&->& ->)|[(->&->& ->)|[(->&->& ->)|[(->&->& ->)|[(->&->& ->)|(->&->& ->)]]]]];
    destruct (fst q =? 2); try reflexivity; destruct Hm as [->|[->| ->]]; reflexivity.
  Qed.

  (** The checks of one round that lie on an observable's edges. *)
  Lemma pstr_flat_map p (l : list edge) : flat_map (edge_op p) l = pstr p (flat_map ends l).
  Proof.
    induction l as [|e l IH]; [reflexivity|]. cbn [flat_map]. rewrite IH. unfold edge_op, pstr, ends. now rewrite map_app.
  Qed.
  Lemma NoDup_flat_filter {A B} (f : A -> list B) phi l : NoDup (flat_map f l) -> NoDup (flat_map f (filter phi l)).
  Proof.
    induction l as [|a l IH]; intros H; [constructor|]. cbn [flat_map filter] in *. apply NoDup_app_inv in H.
    destruct H as (H1 & H2 & H3). destruct (phi a); [|auto]. cbn [flat_map]. apply NoDup_app_intro; auto.
    intros x Hx Hx2. apply (H3 x Hx). apply in_flat_map in Hx2. destruct Hx2 as (y & Hy & Hxy).
    apply filter_In in Hy. apply in_flat_map. exists y. tauto.
  Qed.
  Lemma bits_round_edges r phi psi q :
    (forall e, In e (round_edges lay r) -> phi e = psi (e_left e) && psi (e_right e)) ->
    bits_at (flat_map (edge_op (xyz r)) (filter phi (round_edges lay r))) q =
    if cmem q (data_qubit_coords lay) && (psi q && psi (partner r q)) then pbits (xyz r) else bzero.
  Proof.
    intros Hphi. rewrite pstr_flat_map, bits_at_pstr.
    2: { apply NoDup_flat_filter. eapply Permutation_NoDup; [symmetry; apply (round_matching lay Hv r) | apply NoDup_data]. }
    destruct (cmem q (data_qubit_coords lay)) eqn:Ed; cbn [andb].
    - apply cmem_In in Ed. rewrite in_data in Ed by exact Hv.
      assert (Ht := touch_in lay Hv r q Ed).
      destruct (psi q && psi (partner r q)) eqn:E.
      + replace (cmem q _) with true; [reflexivity|]. symmetry. apply cmem_In, in_flat_map. exists (touch lay r q). split.
        * apply filter_In. split; [exact Ht|]. rewrite Hphi by exact Ht.
          unfold touch. rewrite touch_edge by assumption. destruct (data_qubit_parity q); cbn [e_left e_right]; [rewrite andb_comm|]; exact E.
        * unfold touch, ends. rewrite touch_edge by assumption. destruct (data_qubit_parity q); cbn [e_left e_right In]; auto.
      + replace (cmem q _) with false; [reflexivity|]. symmetry. apply cmem_false. rewrite in_flat_map.
        intros (e & He & Hq). apply filter_In in He. destruct He as [He Hp]. rewrite Hphi in Hp by exact He.
        assert (e = touch lay r q) as -> by (apply touch_unique; auto; destruct Hq as [->|[->|[]]]; auto).
        unfold touch in Hp. rewrite touch_edge in Hp by assumption.
        destruct (data_qubit_parity q); cbn [e_left e_right] in Hp; [rewrite andb_comm in Hp|]; congruence.
    - replace (cmem q _) with false; [reflexivity|]. symmetry. apply cmem_false. intros Hin. apply cmem_false in Ed. apply Ed.
      apply in_data; [exact Hv|]. apply in_flat_map in Hin. destruct Hin as (e & He & Hq). apply filter_In in He. destruct He as [He _].
      destruct (round_edge_facts lay Hv r e He) as (Hl & Hr & _). destruct Hq as [<-|[<-|[]]]; assumption.
  Qed.

  (** Membership of a round's edges in the observables' edge lists. *)
  Definition emem (e : edge) (l : list edge) : bool := existsb (edge_eqb e) l.
  Lemma emem_In e l : emem e l = true <-> In e l.
  Proof.
    unfold emem. rewrite existsb_exists. split.
    - intros (x & Hx & E). apply edge_eqb_eq in E. now subst.
    - intros H. exists e. split; [exact H | now apply edge_eqb_eq].
  Qed.
  Lemma emem_filter phi e : In e (all_edges lay) -> emem e (isort edge_leb (filter phi (all_edges lay))) = phi e.
  Proof.
    intros He. destruct (phi e) eqn:E.
    - apply emem_In. rewrite in_isort. apply filter_In. auto.
    - destruct (emem e _) eqn:F; [|reflexivity]. apply emem_In in F. rewrite in_isort in F. apply filter_In in F.
      destruct F. congruence.
  Qed.
  Lemma in_all_of_round r e : In e (round_edges lay r) -> In e (all_edges lay).
  Proof.
    intros He. apply in_all_edges_round. exists (r mod 3). split; [dlia|].
    rewrite round_edges_mod. exact He.
  Qed.

  Lemma H_step s : same_operator (Hop (s + 1))
    (Hop s ++ flat_map (edge_op (xyz s)) (filter (fun e => emem e (obs_h_edges lay)) (round_edges lay s))).
  Proof.
    intros q. rewrite bits_at_app. rewrite (bits_round_edges s _ in_h_rows).
    2: { intros e He. unfold obs_h_edges. rewrite emem_filter by (eapply in_all_of_round; eauto). reflexivity. }
    unfold Hop. rewrite !bits_at_pstr by apply NoDup_obs_h.
    destruct (cmem q (data_qubit_coords lay)) eqn:Ed; cbn [andb].
    - apply cmem_In in Ed. rewrite in_data in Ed by exact Hv. rewrite !cmem_obs_h, !obs_h_basis by assumption. apply h_step, Ed.
    - assert (K : forall s', cmem q (snd (obs_h_before_sub_round lay s')) = false).
      { intros s'. apply cmem_false. intros Hin. apply in_obs_h in Hin; [|exact Hv]. apply cmem_false in Ed. apply Ed, in_data; tauto. }
      rewrite !K. reflexivity.
  Qed.
  Lemma V_step s : same_operator (Vop (s + 1))
    (Vop s ++ flat_map (edge_op (xyz s)) (filter (fun e => emem e (obs_v_edges lay)) (round_edges lay s))).
  Proof.
    intros q. rewrite bits_at_app. rewrite (bits_round_edges s _ (fun q => fst q =? 2)).
    2: { intros e He. unfold obs_v_edges. rewrite emem_filter by (eapply in_all_of_round; eauto).
         destruct (Z.eqb_spec (fst (e_right e)) 2) as [->|]; now rewrite ?andb_true_r, ?andb_false_r. }
    unfold Vop. rewrite !bits_at_pstr by apply NoDup_obs_v.
    destruct (cmem q (data_qubit_coords lay)) eqn:Ed; cbn [andb].
    - apply cmem_In in Ed. rewrite in_data in Ed by exact Hv. rewrite !cmem_obs_v, !obs_v_basis by assumption. apply v_step, Ed.
    - assert (K : forall s', cmem q (snd (obs_v_before_sub_round lay s')) = false).
      { intros s'. apply cmem_false. intros Hin. apply in_obs_v in Hin; [|exact Hv]. apply cmem_false in Ed. apply Ed, in_data; tauto. }
      rewrite !K. reflexivity.
  Qed.

  (** ** Observables commute with the checks of rounds s and s-1 *)
  Lemma hmem_partner s r q : isdata lay q -> r = s \/ r = s - 1 ->
    pneq (xyz r) (hbasis s) = true -> hmem s (partner r q) = hmem s q.
  Proof.
    intros Hq Hr. destruct (isdata_ex lay q Hq) as (a & b & -> & Hb).
    destruct (partner_ab r a b Hq) as (x & y & E & Hc). tiles. rewrite E. unfold inbox in Hb. cbn [fst snd] in *. clear E Hq.
    unfold hmem, hbasis, in_h_rows. cbn [fst snd].
    assert (Hm : r mod 3 = s mod 3 \/ r mod 3 = (s + 2) mod 3) by (destruct Hr; subst; dlia).
        unfold pneq. intros Hn. clear Hr.
    assert (Hne : r mod 3 <> match s mod 6 with 0 | 1 => 0 | 2 | 3 => 2 | _ => 1 end).
    { intros E. unfold xyz in Hn. rewrite E in Hn. destruct (mod6_cases s) as [D|[D|[D|[D|[D|D]]]]]; rewrite D in Hn; discriminate. }
    clear Hn.
    destruct (mod6_cases s) as [D|[D|[D|[D|[D|D]]]]]; rewrite D in *;
    (assert (Hs : s mod 3 = (s mod 6) mod 3) by (clear; dlia)); rewrite D in Hs; change (0 mod 3) with 0 in *; change (1 mod 3) with 1 in *;
    change (2 mod 3) with 2 in *; change (3 mod 3) with 0 in *; change (4 mod 3) with 1 in *; change (5 mod 3) with 2 in *;
    apply mod_ex in Hs; destruct Hs as [ks Hs]; clear D;
    (assert (Hm' : exists k c, r = 3 * k + c /\ (c = 0 \/ c = 1 \/ c = 2)) by (exists (r / 3), (r mod 3); clear; dlia));
    destruct Hm' as (k & c & Er & Hcc); rewrite Er in Hne, Hm;
    replace ((3 * k + c) mod 3) with c in * by (clear - Hcc; dlia); rewrite Hs in Hm;
    (assert (Hc' : c = 0 /\ r = 3 * k \/ c = 1 /\ r = 3 * k + 1 \/ c = 2 /\ r = 3 * k + 2) by lia);
    (destruct Hc as [(Hd & Hx & Hy)|[(Hd & Hx & Hy)|(Hd & (t & Hx) & Hy)]]);
    apply mod_ex in Hd; destruct Hd as [l Hd];
    destruct Hc' as [[-> Hr]|[[-> Hr]|[-> Hr]]]; try (exfalso; clear - Hne Hm; dlia);
    repeat match goal with |- context [Z.eqb ?x ?y] => destruct (Z.eqb_spec x y); try (exfalso; lia) end; reflexivity.
  Qed.
  Lemma vmem_partner s r q : isdata lay q -> r = s \/ r = s - 1 ->
    pneq (xyz r) (vbasis s) = true -> vmem s (partner r q) = vmem s q.
  Proof.
    intros Hq Hr. destruct (isdata_ex lay q Hq) as (a & b & -> & Hb).
    destruct (partner_ab r a b Hq) as (x & y & E & Hc). tiles. rewrite E. unfold inbox in Hb. cbn [fst snd] in *. clear E Hq.
    unfold vmem, vbasis. cbn [fst snd].
    assert (Hm : r mod 3 = s mod 3 \/ r mod 3 = (s + 2) mod 3) by (destruct Hr; subst; dlia).
    unfold pneq. intros Hn. clear Hr.
    assert (Hne : r mod 3 <> match s mod 6 with 0 | 5 => 2 | 1 | 2 => 1 | _ => 0 end).
    { intros E. unfold xyz in Hn. rewrite E in Hn. destruct (mod6_cases s) as [D|[D|[D|[D|[D|D]]]]]; rewrite D in Hn; discriminate. }
    clear Hn. replace (2 * b / 2) with b by dlia.
    assert (Hy2 : exists y2, y = 2 * y2).
    { destruct Hc as [(_ & _ & [->|[-> _]])|[(_ & _ & [[-> _]|[-> _]])|(_ & _ & ->)]];
      [exists (b + 1) | exists 0 | exists (b - 1) | exists (6 * th - 1) | exists b]; lia. }
    destruct Hy2 as [y2 ->]. replace (2 * y2 / 2) with y2 by dlia.
    assert (Hy' : (r - b) mod 3 = 2 /\ x = 4 * a + 2 /\ y2 mod 3 = (b + 1) mod 3 \/
                  (r - b) mod 3 = 1 /\ x = 4 * a + 2 /\ y2 mod 3 = (b + 2) mod 3 \/
                  (r - b) mod 3 = 0 /\ (exists t, x = 4 * a + 6 + 8 * t) /\ y2 mod 3 = b mod 3).
    { destruct Hc as [(Hd & Hx & Hy)|[(Hd & Hx & Hy)|(Hd & Hx & Hy)]]; [left|right;left|right;right]; (split; [exact Hd|]);
      (split; [exact Hx|]); clear - Hy; dlia. }
    clear Hc Hb.
    assert (Rb : r mod 3 = 0 \/ r mod 3 = 1 \/ r mod 3 = 2) by dlia.
    assert (Bb : b mod 3 = 0 \/ b mod 3 = 1 \/ b mod 3 = 2) by dlia.
    assert (Hmm : (r - b) mod 3 = (r mod 3 - b mod 3) mod 3) by (clear; dlia).
    assert (Hs : s mod 3 = (s mod 6) mod 3) by (clear; dlia).
    assert (Hs2 : (s + 2) mod 3 = (s mod 6 + 2) mod 3) by (clear; dlia).
    assert (Hb1 : (b + 1) mod 3 = (b mod 3 + 1) mod 3) by (clear; dlia).
    assert (Hb2 : (b + 2) mod 3 = (b mod 3 + 2) mod 3) by (clear; dlia).
    rewrite Hs, Hs2 in Hm. rewrite Hmm, Hb1, Hb2 in Hy'. clear Hs Hs2 Hmm Hb1 Hb2.
    destruct (mod6_cases s) as [D|[D|[D|[D|[D|D]]]]]; rewrite D in *; clear D;
    destruct Rb as [Rb|[Rb|Rb]]; rewrite Rb in *; try (exfalso; clear - Hne Hm; vm_compute in Hm; lia);
    destruct Bb as [Bb|[Bb|Bb]]; rewrite Bb in *;
    (destruct Hy' as [(Hd & Hx & Hy)|[(Hd & Hx & Hy)|(Hd & (t & Hx) & Hy)]]; vm_compute in Hd; try discriminate Hd;
     rewrite Hy; vm_compute ((_ + _) mod _);
     subst x; repeat match goal with |- context [Z.eqb ?x ?y] => destruct (Z.eqb_spec x y); try (exfalso; lia) end; reflexivity).
  Qed.

  Lemma H_edge_commute s r e : r = s \/ r = s - 1 -> In e (round_edges lay r) ->
    anticommutes (edge_op (xyz r) e) (Hop s) = false.
  Proof.
    intros Hr He. unfold Hop. rewrite anti_edge_l by (apply NoDup_obs_h || (eapply NoDup_edge_ends; eauto)).
    destruct (round_edge_facts lay Hv r e He) as (Hl & Hrr & _ & _ & E & _).
    rewrite !cmem_obs_h, obs_h_basis by assumption.
    destruct (pneq (xyz r) (hbasis s)) eqn:P; [|reflexivity].
    rewrite E, hmem_partner by assumption. apply xorb_nilpotent.
  Qed.
  Lemma V_edge_commute s r e : r = s \/ r = s - 1 -> In e (round_edges lay r) ->
    anticommutes (edge_op (xyz r) e) (Vop s) = false.
  Proof.
    intros Hr He. unfold Vop. rewrite anti_edge_l by (apply NoDup_obs_v || (eapply NoDup_edge_ends; eauto)).
    destruct (round_edge_facts lay Hv r e He) as (Hl & Hrr & _ & _ & E & _).
    rewrite !cmem_obs_v, obs_v_basis by assumption.
    destruct (pneq (xyz r) (vbasis s)) eqn:P; [|reflexivity].
    rewrite E, vmem_partner by assumption. apply xorb_nilpotent.
  Qed.

  (** A function of the sub-round that does not change from s to s+1 is constant. *)
  Lemma step_const (f : Z -> bool) : (forall s, f (s + 1) = f s) -> forall s t, f s = f t.
  Proof.
    intros H. assert (K : forall n s, f (s + Z.of_nat n) = f s).
    { induction n as [|n IH]; intros s; [f_equal; lia|].
      replace (s + Z.of_nat (S n)) with (s + Z.of_nat n + 1) by lia. rewrite H. apply IH. }
    intros s t. destruct (Z.le_ge_cases s t) as [L|L].
    - rewrite <- (K (Z.to_nat (t - s)) s). f_equal. lia.
    - rewrite <- (K (Z.to_nat (s - t)) t). f_equal. lia.
  Qed.

  Definition h_edges_at (s : Z) := filter (fun e => emem e (obs_h_edges lay)) (round_edges lay s).
  Definition v_edges_at (s : Z) := filter (fun e => emem e (obs_v_edges lay)) (round_edges lay s).

  Lemma H_hex_commute s h : ishex lay h -> anticommutes (Hop s) (hex_op h) = false.
  Proof.
    intros Hh.
    assert (K : forall s t, anticommutes (Hop s) (hex_op h) = anticommutes (Hop t) (hex_op h)).
    { apply step_const. intros s'. rewrite (anticommutes_same_l _ _ _ (H_step s')), anticommutes_app_l.
      rewrite anticommutes_flat_map_l; [apply xorb_false_r|].
      intros e He. apply filter_In in He. apply edge_hex_commute; tauto. }
    assert (C : 0 <= hexcat h < 3) by (unfold hexcat; dlia).
    rewrite (K s (4 * hexcat h)). unfold Hop, hex_op. rewrite anticommutes_pstr by (apply NoDup_around; assumption).
    replace (pneq _ _) with false; [reflexivity|]. rewrite obs_h_basis.
    assert (hexcat h = 0 \/ hexcat h = 1 \/ hexcat h = 2) as [->|[->| ->]] by lia; reflexivity.
  Qed.
  Lemma V_hex_commute s h : ishex lay h -> anticommutes (Vop s) (hex_op h) = false.
  Proof.
    intros Hh.
    assert (K : forall s t, anticommutes (Vop s) (hex_op h) = anticommutes (Vop t) (hex_op h)).
    { apply step_const. intros s'. rewrite (anticommutes_same_l _ _ _ (V_step s')), anticommutes_app_l.
      rewrite anticommutes_flat_map_l; [apply xorb_false_r|].
      intros e He. apply filter_In in He. apply edge_hex_commute; tauto. }
    assert (C : 0 <= hexcat h < 3) by (unfold hexcat; dlia).
    rewrite (K s (3 - 2 * hexcat h)). unfold Vop, hex_op. rewrite anticommutes_pstr by (apply NoDup_around; assumption).
    replace (pneq _ _) with false; [reflexivity|]. rewrite obs_v_basis.
    assert (hexcat h = 0 \/ hexcat h = 1 \/ hexcat h = 2) as [->|[->| ->]] by lia; reflexivity.
  Qed.

  (** Two operators that both follow the schedule keep their commutation relation. *)
  Lemma pair_const (A B : Z -> pstring) (ea eb : Z -> list edge) :
    (forall s, same_operator (A (s + 1)) (A s ++ flat_map (edge_op (xyz s)) (ea s))) ->
    (forall s, same_operator (B (s + 1)) (B s ++ flat_map (edge_op (xyz s)) (eb s))) ->
    (forall s e, In e (ea s) -> In e (round_edges lay s)) ->
    (forall s e, In e (eb s) -> In e (round_edges lay s)) ->
    (forall s e, In e (round_edges lay s) -> anticommutes (edge_op (xyz s) e) (A s) = false) ->
    (forall s e, In e (round_edges lay s) -> anticommutes (edge_op (xyz s) e) (B s) = false) ->
    forall s t, anticommutes (A s) (B s) = anticommutes (A t) (B t).
  Proof.
    intros SA SB IA IB CA CB. apply (step_const (fun s => anticommutes (A s) (B s))). intros s.
    rewrite (anticommutes_same_l _ _ _ (SA s)), (anticommutes_same_r _ _ _ (SB s)).
    rewrite anticommutes_app_l, !anticommutes_app_r.
    rewrite (anticommutes_sym (A s) (flat_map _ _)).
    rewrite !anticommutes_flat_map_l; [now rewrite !xorb_false_r | | |]; intros e He; auto.
    rewrite anticommutes_sym. apply anticommutes_flat_map_l. intros e' He'. apply edges_commute; auto.
  Qed.

  Lemma filter_round p s e : In e (filter p (round_edges lay s)) -> In e (round_edges lay s).
  Proof. intros H. apply filter_In in H. tauto. Qed.
  Lemma round3 s e : In e (round_edges lay (s + 3)) <-> In e (round_edges lay s).
  Proof. rewrite <- (round_edges_mod lay (s + 3)), <- (round_edges_mod lay s). replace ((s + 3) mod 3) with (s mod 3) by dlia. tauto. Qed.
  Lemma xyz3 s : xyz (s + 3) = xyz s.
  Proof. apply xyz_eq. dlia. Qed.

  Lemma H_step3 s : same_operator (Hop (s + 1 + 3)) (Hop (s + 3) ++ flat_map (edge_op (xyz s)) (h_edges_at (s + 3))).
  Proof. replace (s + 1 + 3) with (s + 3 + 1) by lia. rewrite <- (xyz3 s). apply H_step. Qed.
  Lemma V_step3 s : same_operator (Vop (s + 1 + 3)) (Vop (s + 3) ++ flat_map (edge_op (xyz s)) (v_edges_at (s + 3))).
  Proof. replace (s + 1 + 3) with (s + 3 + 1) by lia. rewrite <- (xyz3 s). apply V_step. Qed.

  (** Sums over the data qubits of a function invariant under a round's pairing vanish. *)
  Lemma xsum_paired r f : (forall q, isdata lay q -> f (partner r q) = f q) -> xsum f (data_qubit_coords lay) = false.
  Proof.
    intros Hf. rewrite <- (xsum_perm _ _ _ (round_matching lay Hv r)), xsum_flat_map. apply xsum_false. intros e He.
    destruct (round_edge_facts lay Hv r e He) as (Hl & _ & _ & _ & E & _). cbn [xsum fold_right].
    rewrite E, Hf by exact Hl. now rewrite xorb_false_r, xorb_nilpotent.
  Qed.
  Lemma obs_h_perm s : Permutation (snd (obs_h_before_sub_round lay s)) (filter (hmem s) (data_qubit_coords lay)).
  Proof.
    apply NoDup_same_perm; [apply NoDup_obs_h | apply NoDup_filter, NoDup_data |].
    intros q. rewrite in_obs_h, filter_In, in_data by exact Hv. tauto.
  Qed.
  Lemma obs_v_perm s : Permutation (snd (obs_v_before_sub_round lay s)) (filter (vmem s) (data_qubit_coords lay)).
  Proof.
    apply NoDup_same_perm; [apply NoDup_obs_v | apply NoDup_filter, NoDup_data |].
    intros q. rewrite in_obs_v, filter_In, in_data by exact Hv. tauto.
  Qed.

  Lemma HV_anti s : anticommutes (Hop s) (Vop s) = true.
  Proof.
    rewrite (pair_const Hop Vop h_edges_at v_edges_at H_step V_step (fun s e => filter_round _ s e) (fun s e => filter_round _ s e)
               (fun s e => H_edge_commute s s e (or_introl eq_refl)) (fun s e => V_edge_commute s s e (or_introl eq_refl)) s 0).
    unfold Hop, Vop. rewrite anticommutes_pstr by apply NoDup_obs_v. rewrite obs_h_basis, obs_v_basis.
    change (pneq _ _) with true. rewrite andb_true_l.
    rewrite (xsum_perm _ _ _ (obs_h_perm 0)), xsum_filter.
    rewrite (xsum_ext _ (fun q => hmem 0 q && vmem 0 q)).
    2: { intros q Hq. rewrite in_data in Hq by exact Hv. now rewrite cmem_obs_v. }
    assert (D : isdata lay (2, 2)). { tiles. unfold isdata, inbox. cbn [fst snd]. repeat split; reflexivity || lia. }
    rewrite (xsum_single _ _ (2, 2)); [reflexivity | apply NoDup_data | now apply in_data |].
    intros q Hq Hne. rewrite in_data in Hq by exact Hv. destruct (isdata_ex lay q Hq) as (a & b & -> & _).
    unfold hmem, vmem, in_h_rows. change (0 mod 6) with 0. cbn [fst snd]. replace (2 * b / 2) with b by dlia.
    destruct (Z.eqb_spec (4 * a + 2) 2); [|now rewrite andb_false_r].
    destruct (Z.eqb_spec (2 * b) 0).
    - assert (b = 0) as -> by lia. reflexivity.
    - destruct (Z.eqb_spec (2 * b) 2); [|reflexivity]. exfalso. apply Hne. f_equal; lia.
  Qed.
  Lemma HV3_commute s : anticommutes (Hop s) (Vop (s + 3)) = false.
  Proof.
    unfold Hop, Vop. rewrite anticommutes_pstr by apply NoDup_obs_v. rewrite obs_h_basis, obs_v_basis.
    replace (pneq _ _) with false; [reflexivity|]. unfold hbasis, vbasis.
    assert (E : (s + 3) mod 6 = (s mod 6 + 3) mod 6) by dlia. rewrite E.
    destruct (mod6_cases s) as [->|[->|[->|[->|[->| ->]]]]]; reflexivity.
  Qed.
  Lemma VH3_commute s : anticommutes (Vop s) (Hop (s + 3)) = false.
  Proof.
    unfold Hop, Vop. rewrite anticommutes_pstr by apply NoDup_obs_h. rewrite obs_h_basis, obs_v_basis.
    replace (pneq _ _) with false; [reflexivity|]. unfold hbasis, vbasis.
    assert (E : (s + 3) mod 6 = (s mod 6 + 3) mod 6) by dlia. rewrite E.
    destruct (mod6_cases s) as [->|[->|[->|[->|[->| ->]]]]]; reflexivity.
  Qed.
  Lemma HH3_commute s : anticommutes (Hop s) (Hop (s + 3)) = false.
  Proof.
    rewrite (pair_const Hop (fun s => Hop (s + 3)) h_edges_at (fun s => h_edges_at (s + 3)) H_step H_step3
               (fun s e => filter_round _ s e) (fun s e H => proj1 (round3 s e) (filter_round _ _ e H))
               (fun s e => H_edge_commute s s e (or_introl eq_refl))
               (fun s e H => eq_trans (f_equal (fun p => anticommutes (edge_op p e) _) (eq_sym (xyz3 s)))
                  (H_edge_commute (s + 3) (s + 3) e (or_introl eq_refl) (proj2 (round3 s e) H))) s 0).
    unfold Hop. rewrite anticommutes_pstr by apply NoDup_obs_h. rewrite !obs_h_basis.
    change (pneq _ _) with true. rewrite andb_true_l.
    rewrite (xsum_perm _ _ _ (obs_h_perm 0)), xsum_filter.
    rewrite (xsum_ext _ (fun q : cpx => snd q =? 0)).
    2: { intros q Hq. rewrite in_data in Hq by exact Hv. rewrite cmem_obs_h by assumption.
         unfold hmem, in_h_rows. change ((0 + 3) mod 6) with 3. change (0 mod 6) with 0.
         destruct (snd q =? 0), (snd q =? 2); reflexivity. }
    apply (xsum_paired 0). intros q Hq. destruct (isdata_ex lay q Hq) as (a & b & -> & Hb).
    destruct (partner_ab 0 a b Hq) as (x & y & E & Hc). tiles. rewrite E. unfold inbox in Hb. cbn [fst snd] in *.
    destruct Hc as [(Hd & Hx & Hy)|[(Hd & Hx & Hy)|(Hd & Hx & Hy)]]; apply mod_ex in Hd; destruct Hd as [l Hd];
    repeat match goal with |- context [Z.eqb ?x ?y] => destruct (Z.eqb_spec x y); try (exfalso; lia) end; reflexivity.
  Qed.
  Lemma VV3_commute s : anticommutes (Vop s) (Vop (s + 3)) = false.
  Proof.
    rewrite (pair_const Vop (fun s => Vop (s + 3)) v_edges_at (fun s => v_edges_at (s + 3)) V_step V_step3
               (fun s e => filter_round _ s e) (fun s e H => proj1 (round3 s e) (filter_round _ _ e H))
               (fun s e => V_edge_commute s s e (or_introl eq_refl))
               (fun s e H => eq_trans (f_equal (fun p => anticommutes (edge_op p e) _) (eq_sym (xyz3 s)))
                  (V_edge_commute (s + 3) (s + 3) e (or_introl eq_refl) (proj2 (round3 s e) H))) s 0).
    unfold Vop. rewrite anticommutes_pstr by apply NoDup_obs_v. rewrite !obs_v_basis.
    change (pneq _ _) with true. rewrite andb_true_l.
    rewrite (obs_v_list lay Hv 0). change (snd (obs_v_pattern 0)) with [false; true; true].
    rewrite xsum_flat_map.
    rewrite (xsum_ext (A := Z) _ (fun _ => true)).
    2: { intros j Hj. apply in_zrange in Hj.
         assert (D : isdata lay (2, 6 * j + 2) /\ isdata lay (2, 6 * j + 4)).
         { tiles. unfold isdata, inbox. cbn [fst snd]. repeat split; reflexivity || lia || dlia. }
         unfold select, vblock. cbn [combine filter fst map snd xsum fold_right].
         rewrite !cmem_obs_v by tauto. unfold vmem. change ((0 + 3) mod 6) with 3. cbn [fst snd].
         replace ((6 * j + 2) / 2 mod 3) with 1 by dlia. replace ((6 * j + 4) / 2 mod 3) with 2 by dlia. reflexivity. }
    tiles. replace (th * 2) with (th + th) by lia. clear.
    assert (K : forall l : list Z, xsum (fun _ => true) l = Nat.odd (length l)).
    { induction l as [|a l IH]; [reflexivity|]. cbn [xsum fold_right length]. rewrite Nat.odd_succ, <- Nat.negb_odd.
      unfold xsum in IH. rewrite IH. reflexivity. }
    rewrite K, length_zrange. replace (Z.to_nat (th + th - 0)) with (2 * Z.to_nat th)%nat by lia.
    rewrite Nat.odd_mul. reflexivity.
  Qed.
End C.
