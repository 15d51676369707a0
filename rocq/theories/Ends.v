(** Closed forms of the initialisation and of the final measurement. *)
From Coq Require Import QArith.
From Verif Require Import Prelude Layout LayoutFacts LayoutEdges LayoutLists LayoutHex LayoutHex2 Pauli LayoutObs LayoutLogic LayoutIndex
  Tracker TrackerFacts Stim Circuit Annot Shift.
Open Scope Z_scope.

Lemma for_wf {A} (keyf : A -> karg) (args : A -> list (karg (K := key))) xs : forall (tr tr' : mtrack), wf tr ->
  for_ xs (fun x tr => add_group key_eqb tr (args x) (keyf x)) tr = Ok tr' -> wf tr'.
Proof.
  induction xs as [|x xs IH]; intros tr tr' Hw H; cbn [for_] in H; [injection H as <-; exact Hw|].
  destruct (add_group _ _ _ _) as [t|] eqn:G in H; cbn [bind] in H; [|discriminate]. eapply IH; [|exact H]. eapply add_group_wf; [|exact G]. exact Hw.
Qed.

Section F.
  Variable lay : layout.
  Hypothesis Hv : valid lay.
  Hypothesis Hobs : obs lay = "V"%string \/ obs lay = "H"%string.
  Notation E := (round_edges lay).
  Notation ix := (ix lay).
  Notation obr := (obr lay).
  Notation D := (data_qubit_coords lay).
  Local Opaque data_qubit_coords measure_qubit_coords q2i_dict hex_entries hexes round_edges all_edges isort.

  (** ** Initialisation *)
  Definition init_basis : pauli := fst (obr 0).
  Definition edge_init : Z := xyz_index init_basis.
  Definition half_init : Z := (edge_init - 1) mod 3.
  Definition dummy (b : bool) : entry := if b then Some [] else None.
  Definition tr0 : mtrack :=
    mkTr (fun k => match k with
      | KE e => if emem e (all_edges lay) then [dummy (emem e (E edge_init))] else []
      | KHalf (KE e) => if emem e (all_edges lay) then [Some []] else []
      | KC h => if cmem h (hexes lay 0 ++ hexes lay 1 ++ hexes lay 2) then [dummy (cmem h (hexes lay edge_init))] else []
      | KHalf (KC h) => if cmem h (hexes lay 0 ++ hexes lay 1 ++ hexes lay 2) then [dummy (cmem h (hexes lay half_init))] else []
      | _ => []
      end) 0.
  Definition tick_i : instr := mkI "TICK" [] [].
  Definition data_ix : list nat := map ix D.
  Definition used_ix : list nat := map ix (used_qubit_coords lay).
  (** H_XZ / H_YZ on the data, for a basis other than Z *)
  Definition hdata (p : pauli) : list instr :=
    if pauli_eqb p PZ then [] else [mkI (canon (basis_h p)) (qs data_ix) []; tick_i].
  Definition init_i : list instr := [mkI "R" (qs used_ix) []; tick_i] ++ hdata init_basis.

  Lemma data_indices_eq : data_qubit_indices lay = Ok data_ix.
  Proof. unfold data_qubit_indices. apply mapM_q2i; [exact Hv|]. intros q Hq. apply in_or_app. now left. Qed.
  Lemma used_in q : In q (used_qubit_coords lay) -> In q (qubits lay).
  Proof.
    unfold used_qubit_coords. destruct (is_em3 (style lay)); [intros H; apply in_or_app; now left|].
    now rewrite q2i_dict_keys.
  Qed.
  Lemma used_indices_eq : used_qubit_indices lay = Ok used_ix.
  Proof. unfold used_qubit_indices. apply mapM_q2i; [exact Hv|]. apply used_in. Qed.

  Lemma tick_eq c : tick c = c ++ [I tick_i].
  Proof. unfold tick, append_operation. now rewrite append_nf by reflexivity. Qed.

  Lemma append_tick c name ts args : canon name <> "TICK"%string ->
    append_operation (c ++ [I tick_i]) name ts args = c ++ [I tick_i; I (mkI (canon name) ts args)].
  Proof. intros H. unfold append_operation. now rewrite append_new. Qed.

  (** One round of dummies. *)
  Definition dummies (r : Z) (tr : mtrack) : res mtrack :=
    let! tr := add_dummies key_eqb tr (negb (r =? edge_init)) (map (fun e => K1 (KE e)) (E r)) in
    let! tr := add_dummies key_eqb tr false (map (fun e => K1 (KHalf (KE e))) (E r)) in
    let! hs := round_hex_centers lay r in
    let! tr := add_dummies key_eqb tr (negb (r =? edge_init)) (map (fun h => K1 (KC h)) hs) in
    add_dummies key_eqb tr (negb (r =? half_init)) (map (fun h => K1 (KHalf (KC h))) hs).

  Definition dpost (r : Z) (tr : mtrack) (k : key) : list entry :=
    match k with
    | KE e => if emem e (E r) then dummy (r =? edge_init) :: hist tr k else hist tr k
    | KHalf (KE e) => if emem e (E r) then Some [] :: hist tr k else hist tr k
    | KC h => if cmem h (hexes lay r) then dummy (r =? edge_init) :: hist tr k else hist tr k
    | KHalf (KC h) => if cmem h (hexes lay r) then dummy (r =? half_init) :: hist tr k else hist tr k
    | _ => hist tr k
    end.
  Lemma dummy_negb b : (if negb b then None else Some []) = dummy b.
  Proof. now destruct b. Qed.

  Ltac notin := rewrite in_map_iff; intros (x & K & _); discriminate K.
  Lemma dummies_spec r tr : 0 <= r < 3 -> wf tr ->
    exists tr', dummies r tr = Ok tr' /\ wf tr' /\ tm tr' = tm tr /\ forall k, hist tr' k = dpost r tr k.
  Proof.
    intros Hr Hw. unfold dummies.
    destruct (add_dummies_spec KE (negb (r =? edge_init)) (E r) tr) as (t1 & E1 & T1 & A1 & B1).
    { apply nodup_keys; [apply KE_inj | apply NoDup_round_edges, Hv]. }
    pose proof (add_dummies_wf key_eqb _ _ _ _ Hw E1) as W1. rewrite E1, bind_ok.
    destruct (add_dummies_spec (fun e => KHalf (KE e)) false (E r) t1) as (t2 & E2 & T2 & A2 & B2).
    { apply nodup_keys; [|apply NoDup_round_edges, Hv]. intros x y K. apply KE_inj, KHalf_inj, K. }
    pose proof (add_dummies_wf key_eqb _ _ _ _ W1 E2) as W2. rewrite E2, bind_ok.
    unfold round_hex_centers. replace ((0 <=? r) && (r <? 3)) with true by (symmetry; apply andb_true_intro; split; [apply Z.leb_le | apply Z.ltb_lt]; lia).
    rewrite bind_ok.
    destruct (add_dummies_spec KC (negb (r =? edge_init)) (hexes lay r) t2) as (t3 & E3 & T3 & A3 & B3).
    { apply nodup_keys; [apply KC_inj | apply NoDup_hexes, Hv]. }
    pose proof (add_dummies_wf key_eqb _ _ _ _ W2 E3) as W3. rewrite E3, bind_ok.
    destruct (add_dummies_spec (fun h => KHalf (KC h)) (negb (r =? half_init)) (hexes lay r) t3) as (t4 & E4 & T4 & A4 & B4).
    { apply nodup_keys; [|apply NoDup_hexes, Hv]. intros x y K. apply KC_inj, KHalf_inj, K. }
    pose proof (add_dummies_wf key_eqb _ _ _ _ W3 E4) as W4.
    exists t4. split; [exact E4|]. split; [exact W4|]. split; [congruence|].
    intros [h|e|[h|e|k]]; cbn [dpost].
    - rewrite B4 by notin. destruct (cmem h (hexes lay r)) eqn:F.
      + apply cmem_In in F. rewrite (A3 h F), dummy_negb. rewrite B2, B1 by notin. reflexivity.
      + rewrite B3; [now rewrite B2, B1 by notin|]. rewrite in_map_iff. intros (x & K & Hx). apply KC_inj in K. subst x. apply cmem_In in Hx. congruence.
    - rewrite B4, B3, B2 by notin. destruct (emem e (E r)) eqn:F.
      + apply emem_In in F. now rewrite (A1 e F), dummy_negb.
      + apply B1. rewrite in_map_iff. intros (x & K & Hx). apply KE_inj in K. subst x. apply emem_In in Hx. congruence.
    - destruct (cmem h (hexes lay r)) eqn:F.
      + apply cmem_In in F. rewrite (A4 h F), dummy_negb. now rewrite B3, B2, B1 by notin.
      + rewrite B4; [now rewrite B3, B2, B1 by notin|]. rewrite in_map_iff. intros (x & K & Hx). apply KHalf_inj, KC_inj in K. subst x. apply cmem_In in Hx. congruence.
    - rewrite B4, B3 by notin. destruct (emem e (E r)) eqn:F.
      + apply emem_In in F. rewrite (A2 e F). now rewrite B1 by notin.
      + rewrite B2; [now rewrite B1 by notin|]. rewrite in_map_iff. intros (x & K & Hx). apply KHalf_inj, KE_inj in K. subst x. apply emem_In in Hx. congruence.
    - now rewrite B4, B3, B2, B1 by notin.
  Qed.

  Lemma emem_round_all e : emem e (all_edges lay) = emem e (E 0) || emem e (E 1) || emem e (E 2).
  Proof. Local Transparent all_edges. unfold all_edges, emem. Local Opaque all_edges. now rewrite !existsb_app, orb_assoc. Qed.
  Lemma cmem_app q a b : cmem q (a ++ b) = cmem q a || cmem q b.
  Proof. unfold cmem. apply existsb_app. Qed.
  Lemma emem_excl r s e : r mod 3 <> s mod 3 -> emem e (E r) = true -> emem e (E s) = false.
  Proof.
    intros N H. destruct (emem e (E s)) eqn:F; [|reflexivity]. apply emem_In in H, F. exfalso. apply N.
    eapply round_edges_disjoint; eauto.
  Qed.
  Lemma cmem_excl r s h : r <> s -> cmem h (hexes lay r) = true -> cmem h (hexes lay s) = false.
  Proof.
    intros N H. destruct (cmem h (hexes lay s)) eqn:F; [|reflexivity]. apply cmem_In, in_hexes in H, F; auto. destruct H, F. congruence.
  Qed.
  Lemma edge_init_range : edge_init = 0 \/ edge_init = 1 \/ edge_init = 2.
  Proof. unfold edge_init. destruct init_basis; cbn; auto. Qed.
  Lemma half_init_range : half_init = 0 \/ half_init = 1 \/ half_init = 2.
  Proof. unfold half_init. dlia. Qed.

  Lemma init_spec : exists tr', fault_tolerant_init lay tr_init = Ok (map I init_i, tr') /\ wf tr' /\ treq tr' tr0.
  Proof.
    unfold fault_tolerant_init. rewrite used_indices_eq, bind_ok. rewrite (obs_before_eq lay Hobs), bind_ok. fold init_basis.
    match goal with |- context [bind ?m _] => set (result := m) end.
    assert (Er : result = Ok (map I init_i)).
    { unfold result, init_i, hdata. destruct (pauli_eqb init_basis PZ); cbn [negb].
      - rewrite tick_eq. reflexivity.
      - rewrite data_indices_eq, bind_ok. rewrite !tick_eq, append_tick; [reflexivity|].
        destruct init_basis; discriminate. }
    rewrite Er, bind_ok. clear result Er.
    cbn [for_]. fold edge_init. fold half_init.
    destruct (dummies_spec 0 tr_init) as (t1 & E1 & W1 & T1 & D1); [lia | apply wf_init|].
    destruct (dummies_spec 1 t1) as (t2 & E2 & W2 & T2 & D2); [lia | exact W1|].
    destruct (dummies_spec 2 t2) as (t3 & E3 & W3 & T3 & D3); [lia | exact W2|].
    unfold dummies in E1, E2, E3.
    exists t3. split; [|split; [exact W3|split]].
    - match goal with |- bind ?m _ = _ => replace m with (Ok t3 : res mtrack) end; [reflexivity|]. symmetry.
      eapply eq_trans; [apply (f_equal (fun m => bind m _)); exact E1|]. rewrite bind_ok.
      eapply eq_trans; [apply (f_equal (fun m => bind m _)); exact E2|]. rewrite bind_ok.
      eapply eq_trans; [apply (f_equal (fun m => bind m _)); exact E3|]. reflexivity.
    - rewrite T3, T2, T1. reflexivity.
    - intros k. rewrite D3. pose proof (D2 k) as D2k. pose proof (D1 k) as D1k. cbn [tr_init hist] in D1k.
      destruct edge_init_range as [Ee|[Ee|Ee]]; destruct half_init_range as [Eh|[Eh|Eh]];
      destruct k as [h|e|[h|e|k]]; cbn [dpost tr0 hist] in *; rewrite ?Ee, ?Eh in *; rewrite D2k, D1k; try reflexivity.
      all: try (rewrite emem_round_all;
        destruct (emem e (E 0)) eqn:F0; [rewrite (emem_excl 0 1 e) by (discriminate || assumption); rewrite (emem_excl 0 2 e) by (discriminate || assumption); reflexivity|];
        destruct (emem e (E 1)) eqn:F1; [rewrite (emem_excl 1 2 e) by (discriminate || assumption); reflexivity|];
        destruct (emem e (E 2)) eqn:F2; reflexivity).
      all: rewrite !cmem_app;
        (destruct (cmem h (hexes lay 0)) eqn:F0; [rewrite (cmem_excl 0 1 h) by (discriminate || assumption); rewrite (cmem_excl 0 2 h) by (discriminate || assumption); reflexivity|];
        destruct (cmem h (hexes lay 1)) eqn:F1; [rewrite (cmem_excl 1 2 h) by (discriminate || assumption); reflexivity|];
        destruct (cmem h (hexes lay 2)) eqn:F2; reflexivity).
  Qed.

  Lemma tr0_ready : ready lay tr0.
  Proof.
    split.
    - intros e He. unfold has, tr0. cbn [hist]. apply emem_In in He. rewrite He. split; discriminate.
    - intros h Hh. assert (F : cmem h (hexes lay 0 ++ hexes lay 1 ++ hexes lay 2) = true).
      { rewrite !cmem_app. assert (R : hexcat h = 0 \/ hexcat h = 1 \/ hexcat h = 2) by (unfold hexcat; dlia).
        assert (M : cmem h (hexes lay (hexcat h)) = true) by (apply cmem_In, in_hexes; auto).
        destruct R as [R|[R|R]]; rewrite R in M; rewrite M, ?orb_true_r; reflexivity. }
      unfold has, tr0. cbn [hist]. rewrite F. split; discriminate.
  Qed.
  Lemma ready_treq a b : treq a b -> ready lay b -> ready lay a.
  Proof.
    intros [_ Hh] [R1 R2]. split; intros x Hx; unfold has in *; rewrite !Hh; auto.
  Qed.

  (** ** Final measurement *)
  Notation n := (sub_rounds lay).
  Definition final_basis : pauli := fst (obr n).
  Definition dq (tr : mtrack) (q : cpx) : entry := Some [(tm tr + index cpx_eqb q D)%nat].
  Definition ftime (tr : mtrack) : nat := (tm tr + length D)%nat.
  Definition fin_edges (tr : mtrack) : list instr :=
    flat_map (fun e => det (ftime tr) (comb [comb [dq tr (e_left e); dq tr (e_right e)]; cur tr (KE e)]) (coords3 (e_center e)))
      (E (xyz_index final_basis)).
  (** the remaining Pauli *)
  Definition third (a b : pauli) : pauli := match other_basis a b with Ok p => p | Err _ => PX end.
  Definition fin_other (tr : mtrack) : list instr :=
    flat_map (fun h => det (ftime tr) (comb [comb (map (dq tr) (qubits_around_hex lay h) ++ [cur tr (KHalf (KC h))]); cur tr (KC h)]) (coords3 h))
      (hexes lay (xyz_index (third (xyz (n - 1)) final_basis))).
  Definition fin_hexes (tr : mtrack) : list instr :=
    flat_map (fun h => det (ftime tr) (comb [comb (map (dq tr) (qubits_around_hex lay h)); cur tr (KC h)]) (coords3 h))
      (hexes lay (xyz_index final_basis)).
  Definition fin_obs (tr : mtrack) : list instr :=
    match comb (map (dq tr) (snd (obr n))) with
    | Some ts => [mkI "OBSERVABLE_INCLUDE" (tg (ftime tr) ts) [int_arg (Z.of_nat (oidx lay))]]
    | None => []
    end.
  Definition fin (tr : mtrack) : list instr :=
    hdata final_basis ++ [mkI "M" (qs data_ix) []]
    ++ (if pauli_eqb (xyz (n - 1)) final_basis then fin_edges tr else fin_other tr)
    ++ fin_hexes tr ++ fin_obs tr.

  Lemma xyz_index_range p : 0 <= xyz_index p < 3.
  Proof. destruct p; cbn; lia. Qed.
  Lemma rhc p : round_hex_centers lay (xyz_index p) = Ok (hexes lay (xyz_index p)).
  Proof. unfold round_hex_centers. destruct p; reflexivity. Qed.
  Lemma data_hex q h : isdata lay q -> ishex lay h -> KC q <> KC h.
  Proof. intros (_ & H & _) (_ & H' & _) K. apply KC_inj in K. subst. congruence. Qed.
  Lemma other_ok a b : pauli_eqb a b = false -> other_basis a b = Ok (third a b) /\ third a b <> b /\ third a b <> a.
  Proof. destruct a, b; cbn; intros; try discriminate; (split; [reflexivity | split; discriminate]). Qed.
  Lemma xyz_index_inj p q : xyz_index p = xyz_index q -> p = q.
  Proof. destruct p, q; cbn; intros; congruence || lia. Qed.
  Lemma obr_data s q : In q (snd (obr s)) -> isdata lay q.
  Proof.
    unfold Annot.obr. destruct (_ =? _)%string; intros H; [apply in_obs_v in H | apply in_obs_h in H]; tauto.
  Qed.

  Lemma fin_spec tr : wf tr -> ready lay tr -> exists tr', fault_tolerant_measurement lay tr = Ok (map I (fin tr), tr').
  Proof.
    intros Hw [Re Rh]. unfold fault_tolerant_measurement. rewrite (obs_before_eq lay Hobs), bind_ok.
    destruct (obr n) as [p oq] eqn:Eo.
    assert (Ep : final_basis = p) by (unfold final_basis; now rewrite Eo).
    rewrite data_indices_eq, bind_ok.
    match goal with |- context [append_operation ?r "M" _ _] => set (result := r) end.
    assert (Er : append_operation result "M" (qs data_ix) [] = map I (hdata final_basis ++ [mkI "M" (qs data_ix) []])).
    { unfold result, hdata. rewrite Ep. destruct (pauli_eqb p PZ) eqn:EZ; cbn [negb]; [reflexivity|].
      rewrite tick_eq, append_tick by discriminate. reflexivity. }
    rewrite Er. clear result Er.
    destruct (add_measurements_spec cpx_eqb cpx_eqb_eq KC D tr) as (t1 & E1 & T1 & A1 & B1).
    { apply nodup_keys; [apply KC_inj | apply NoDup_data]. }
    rewrite E1, bind_ok. pose proof (add_measurements_wf key_eqb _ _ _ Hw E1) as W1.
    assert (Hdata : forall q, isdata lay q -> hist t1 (KC q) = dq tr q :: hist tr (KC q)).
    { intros q Hq. apply A1. now apply in_data. }
    assert (Hhex : forall h, ishex lay h -> hist t1 (KC h) = hist tr (KC h)).
    { intros h Hh. apply B1. rewrite in_map_iff. intros (x & K & Hx). apply in_data in Hx; [|exact Hv]. eapply data_hex; eauto. }
    assert (Hoth : forall e, hist t1 (KE e) = hist tr (KE e)) by (intros e; apply B1; notin).
    assert (Hhalf : forall e, hist t1 (KHalf e) = hist tr (KHalf e)) by (intros e; apply B1; notin).
    assert (FT : tm t1 = ftime tr) by exact T1.
    assert (Haround : forall h q, ishex lay h -> In q (qubits_around_hex lay h) -> isdata lay q).
    { intros h q Hh Hq. apply in_around in Hq; tauto. }
    match goal with |- context [bind ?m _] => set (part := m) end.
    assert (Epart : exists t2, part = Ok (map I (hdata final_basis ++ [mkI "M" (qs data_ix) []] ++
        (if pauli_eqb (xyz (n - 1)) final_basis then fin_edges tr else fin_other tr)), t2) /\ wf t2 /\ tm t2 = ftime tr /\
        (forall q, isdata lay q -> hist t2 (KC q) = hist t1 (KC q)) /\
        (forall h, In h (hexes lay (xyz_index p)) -> hist t2 (KC h) = hist tr (KC h))).
    { unfold part. rewrite Ep. destruct (pauli_eqb (xyz (n - 1)) p) eqn:EB.
      - destruct (for_compared KE (fun e => [K1 (KC (e_left e)); K1 (KC (e_right e))]) (fun e => coords3 (e_center e))
          (fun e => comb [dq tr (e_left e); dq tr (e_right e)]) (E (xyz_index p)) t1
          (map I (hdata p ++ [mkI "M" (qs data_ix) []]))) as (t2 & E2 & W2 & T2 & A2 & B2).
        + exact W1.
        + apply nodup_keys; [apply KE_inj | apply NoDup_round_edges, Hv].
        + intros tr' Ht e He. destruct (round_edge_facts lay Hv _ e He) as (Hl & Hr & _).
          change [K1 (KC (e_left e)); K1 (KC (e_right e))] with (map K1 [KC (e_left e); KC (e_right e)]). rewrite time_set_cur.
          * cbn [map]. unfold cur. rewrite !Ht by notin. rewrite !Hdata by assumption. reflexivity.
          * intros k [<-|[<-|[]]]; unfold has; rewrite Ht by notin; rewrite Hdata by assumption; discriminate.
        + intros e He. unfold has. rewrite Hoth. apply Re. eapply in_all_of_round, He.
        + exists t2. split; [|split; [exact W2|split; [congruence|split]]].
          * eapply eq_trans; [exact E2|]. rewrite <- map_app. rewrite <- !app_assoc. do 4 f_equal. f_equal. unfold fin_edges. rewrite Ep. apply flat_map_ext_in.
            intros e He. rewrite FT. unfold cur. now rewrite Hoth.
          * intros q Hq. apply B2. notin.
          * intros h Hh. rewrite B2 by notin. apply Hhex. apply in_hexes in Hh; tauto.
      - destruct (other_ok _ _ EB) as (EO & NB & _). rewrite EO, bind_ok, rhc, bind_ok.
        destruct (for_compared KC (fun h => map (fun q => K1 (KC q)) (qubits_around_hex lay h) ++ [K1 (KHalf (KC h))]) coords3
          (fun h => comb (map (dq tr) (qubits_around_hex lay h) ++ [cur tr (KHalf (KC h))])) (hexes lay (xyz_index (third (xyz (n - 1)) p))) t1
          (map I (hdata p ++ [mkI "M" (qs data_ix) []]))) as (t2 & E2 & W2 & T2 & A2 & B2).
        + exact W1.
        + apply nodup_keys; [apply KC_inj | apply NoDup_hexes, Hv].
        + intros tr' Ht h Hh. assert (Hx : ishex lay h) by (apply in_hexes in Hh; tauto).
          assert (Q : forall q, In q (qubits_around_hex lay h) -> hist tr' (KC q) = dq tr q :: hist tr (KC q)).
          { intros q Hq. rewrite Ht; [apply Hdata; eauto|]. rewrite in_map_iff. intros (x & K & Hx'). apply in_hexes in Hx'; [|exact Hv].
            symmetry in K. eapply data_hex; [| |exact K]; [eauto | tauto]. }
          change [K1 (KHalf (KC h))] with (map K1 [KHalf (KC h)]). rewrite <- (map_map KC K1), <- map_app, time_set_cur.
          * rewrite map_app, map_map. cbn [map]. do 3 f_equal.
            -- apply map_ext_in. intros q Hq. unfold cur. now rewrite Q.
            -- unfold cur. rewrite Ht by notin. now rewrite Hhalf.
          * intros k Hk. apply in_app_iff in Hk. destruct Hk as [Hk|[<-|[]]].
            -- apply in_map_iff in Hk. destruct Hk as (q & <- & Hq). unfold has. rewrite Q by exact Hq. discriminate.
            -- unfold has. rewrite Ht by notin. rewrite Hhalf. now apply Rh.
        + intros h Hh. assert (Hx : ishex lay h) by (apply in_hexes in Hh; tauto). unfold has. rewrite Hhex by exact Hx. now apply Rh.
        + exists t2. split; [|split; [exact W2|split; [congruence|split]]].
          * eapply eq_trans; [exact E2|]. rewrite <- map_app. rewrite <- !app_assoc. do 4 f_equal. f_equal. unfold fin_other. rewrite Ep. apply flat_map_ext_in.
            intros h Hh. rewrite FT. unfold cur. rewrite Hhex; [reflexivity|]. apply in_hexes in Hh; tauto.
          * intros q Hq. apply B2. rewrite in_map_iff. intros (x & K & Hx'). apply in_hexes in Hx'; [|exact Hv].
            symmetry in K. eapply data_hex; [exact Hq| |exact K]. tauto.
          * intros h Hh. apply in_hexes in Hh; [|exact Hv]. destruct Hh as [Hh Hc]. rewrite B2; [apply Hhex, Hh|].
            rewrite in_map_iff. intros (x & K & Hx'). apply KC_inj in K. subst x. apply in_hexes in Hx'; [|exact Hv]. destruct Hx' as [_ Hc'].
            rewrite Hc in Hc'. apply xyz_index_inj in Hc'. congruence. }
    destruct Epart as (t2 & -> & W2 & T2 & C2 & B2). rewrite bind_ok, rhc, bind_ok.
    destruct (for_compared KC (fun h => map (fun q => K1 (KC q)) (qubits_around_hex lay h)) coords3
          (fun h => comb (map (dq tr) (qubits_around_hex lay h))) (hexes lay (xyz_index p)) t2
          (map I (hdata final_basis ++ [mkI "M" (qs data_ix) []] ++ (if pauli_eqb (xyz (n - 1)) final_basis then fin_edges tr else fin_other tr))))
      as (t3 & E3 & W3 & T3 & A3 & B3).
    - exact W2.
    - apply nodup_keys; [apply KC_inj | apply NoDup_hexes, Hv].
    - intros tr' Ht h Hh. assert (Hx : ishex lay h) by (apply in_hexes in Hh; tauto).
      assert (Q : forall q, In q (qubits_around_hex lay h) -> hist tr' (KC q) = dq tr q :: hist tr (KC q)).
      { intros q Hq. rewrite Ht; [rewrite C2; eauto|]. rewrite in_map_iff. intros (x & K & Hx'). apply in_hexes in Hx'; [|exact Hv].
        symmetry in K. eapply data_hex; [| |exact K]; [eauto | tauto]. }
      rewrite <- (map_map KC K1), time_set_cur.
      + rewrite map_map. do 2 f_equal. apply map_ext_in. intros q Hq. unfold cur. now rewrite Q.
      + intros k Hk. apply in_map_iff in Hk. destruct Hk as (q & <- & Hq). unfold has. rewrite Q by exact Hq. discriminate.
    - intros h Hh. unfold has. rewrite B2 by exact Hh. apply Rh. apply in_hexes in Hh; tauto.
    - exists t3.
      eapply eq_trans; [apply (f_equal (fun m => bind m _)); exact E3|]. rewrite bind_ok.
      assert (Q : forall q, isdata lay q -> hist t3 (KC q) = dq tr q :: hist tr (KC q)).
      { intros q Hq. rewrite B3; [rewrite C2; eauto|]. rewrite in_map_iff. intros (x & K & Hx'). apply in_hexes in Hx'; [|exact Hv].
        symmetry in K. eapply data_hex; [| |exact K]; [eauto | tauto]. }
      rewrite (targets_of t3 _ (comb (map (dq tr) oq)) W3).
      2:{ rewrite <- (map_map KC K1), time_set_cur.
          - rewrite map_map. do 2 f_equal. apply map_ext_in. intros q Hq. unfold cur. rewrite Q; [reflexivity|]. apply (obr_data n). now rewrite Eo.
          - intros k Hk. apply in_map_iff in Hk. destruct Hk as (q & <- & Hq). unfold has. rewrite Q; [discriminate|]. apply (obr_data n). now rewrite Eo. }
      destruct (fold_defined (map (dq tr) oq) []) as (ts & Ets).
      { intros v Hin. apply in_map_iff in Hin. destruct Hin as (e & <- & _). discriminate. }
      unfold fin, fin_obs. rewrite Eo. cbn [snd]. fold (comb (map (dq tr) oq)) in Ets. rewrite !Ets. rewrite bind_ok, (obs_index_eq lay Hobs), bind_ok.
      cbn [append_obs]. rewrite bind_ok. unfold append_operation. rewrite append_nf by reflexivity.
      do 2 f_equal. rewrite !map_app, <- !app_assoc. do 3 f_equal. f_equal.
      + f_equal. unfold fin_hexes. rewrite Ep. apply flat_map_ext_in. intros h Hh. rewrite T2. unfold cur. now rewrite B2.
      + cbn [map]. unfold tg. rewrite map_map. replace (tm t3) with (ftime tr) by congruence. reflexivity.
  Qed.

  Lemma det2_shift d t a b co : det (t + d) (comb [shiftv d a; shiftv d b]) co = det t (comb [a; b]) co.
  Proof. change [shiftv d a; shiftv d b] with (map (shiftv d) [a; b]). rewrite comb_shift. apply det_shift. Qed.
  Lemma fin_sim d tr u : simP d (univ lay) tr u -> fin u = fin tr.
  Proof.
    intros [T C]. assert (FT : ftime u = (ftime tr + d)%nat) by (unfold ftime; lia).
    assert (DQ : forall q, dq u q = shiftv d (dq tr q)) by (intros q; unfold dq; cbn; rewrite T; f_equal; f_equal; lia).
    unfold fin. f_equal. f_equal. f_equal; [|f_equal].
    - destruct (pauli_eqb (xyz (n - 1)) final_basis).
      + unfold fin_edges. apply flat_map_ext_in. intros e He. rewrite FT, !DQ, C by (cbn; eapply in_all_of_round, He).
        change [shiftv d (dq tr (e_left e)); shiftv d (dq tr (e_right e))] with (map (shiftv d) [dq tr (e_left e); dq tr (e_right e)]).
        rewrite comb_shift. apply det2_shift.
      + unfold fin_other. apply flat_map_ext_in. intros h Hh. assert (Hx : ishex lay h) by (apply in_hexes in Hh; tauto).
        rewrite FT, !C by exact Hx. rewrite (map_ext _ _ DQ). rewrite <- map_map.
        change [shiftv d (cur tr (KHalf (KC h)))] with (map (shiftv d) [cur tr (KHalf (KC h))]). rewrite <- map_app, comb_shift.
        apply det2_shift.
    - unfold fin_hexes. apply flat_map_ext_in. intros h Hh. assert (Hx : ishex lay h) by (apply in_hexes in Hh; tauto).
      rewrite FT, !C by exact Hx. rewrite (map_ext _ _ DQ). rewrite <- map_map.
      rewrite comb_shift. apply det2_shift.
    - unfold fin_obs. rewrite (map_ext _ _ DQ), <- map_map, comb_shift, FT.
      destruct (comb (map (dq tr) (snd (obr n)))) as [x|]; [|reflexivity]. cbn [shiftv option_map]. now rewrite tg_shift.
  Qed.
End F.
