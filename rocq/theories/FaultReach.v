(** A chain of errors just before the final data measurement that no detector sees and
    that flips the observable: as short as the code distance allows. *)
From Coq Require Import QArith.
From Verif Require Import Prelude Layout LayoutFacts LayoutEdges LayoutLists LayoutHex LayoutHex2 Pauli LayoutObs LayoutLogic LayoutIndex
  Tracker TrackerFacts Stim Circuit Annot Shift Ends Gen Gen2 Gen3 Traj Eval Frame Exec Exec2 Exec3 Exec4 Detectors Struct Struct2 Struct3 FaultSpec FaultQuiet FaultCore FaultObs FaultLine FaultDist.
Open Scope Z_scope.

Section S.
  Variable lay : layout.
  Hypothesis Hv : valid lay.
  Hypothesis Hobs : obs lay = "V"%string \/ obs lay = "H"%string.
  Hypothesis Hs : supported lay.
  Notation E := (round_edges lay).
  Notation zk := Z.of_nat.
  Notation ne := (length (E 0)).
  Notation D := (data_qubit_coords lay).
  Notation n := (sub_rounds lay).
  Notation N := (Z.to_nat n).
  Notation W := (data_width lay).
  Local Opaque data_qubit_coords measure_qubit_coords q2i_dict hex_entries hexes round_edges all_edges isort.

  (** ** Which qubits *)
  Definition chain_row : Z := if n mod 2 =? 0 then (n - 1) mod 3 else n mod 3.
  Definition chain : list cpx := if (obs lay =? "V")%string then map (fun a => (4 * a + 2, 2 * chain_row)) (zrange 0 W) else snd (obs_v_before_sub_round lay n).
  Lemma chain_row_range : 0 <= chain_row < 3.
  Proof. unfold chain_row. destruct (n mod 2 =? 0); dlia. Qed.
  Lemma in_row_chain q : isdata lay q -> (In q (map (fun a => (4 * a + 2, 2 * chain_row)) (zrange 0 W)) <-> snd q = 2 * chain_row).
  Proof.
    intros Hq. destruct (data_ab lay Hv q Hq) as (a & b & -> & Ha & Hb). cbn [snd]. rewrite in_map_iff. split.
    - intros (c & K & _). congruence.
    - intros K. exists a. split; [congruence | apply in_zrange; lia].
  Qed.
  Lemma chain_data q : In q chain -> isdata lay q.
  Proof.
    pose proof (valid_tiles lay Hv) as (T1 & T2 & T3 & T4). pose proof chain_row_range as Hr. unfold chain. destruct (obs lay =? "V")%string.
    - rewrite in_map_iff. intros (a & <- & Ha). apply in_zrange in Ha. unfold isdata, inbox. cbn [fst snd]. repeat split; dlia.
    - rewrite in_obs_v by exact Hv. tauto.
  Qed.
  Lemma chain_NoDup : NoDup chain.
  Proof. unfold chain. destruct (obs lay =? "V")%string; [apply NoDup_map_inj; [intros x y _ _ K; injection K; lia | apply NoDup_zrange] | now apply NoDup_obs_v]. Qed.

  Lemma cmem_row q : isdata lay q -> obs lay = "V"%string -> cmem q chain = (snd q =? 2 * chain_row).
  Proof.
    intros Hq O. unfold chain. rewrite O. cbn [String.eqb Ascii.eqb Bool.eqb]. destruct (Z.eqb_spec (snd q) (2 * chain_row)) as [K|K].
    - apply cmem_In. now apply in_row_chain.
    - apply cmem_false. intros K'. apply K. now apply in_row_chain in K'.
  Qed.
  Lemma cmem_col q : isdata lay q -> obs lay = "H"%string -> cmem q chain = vmem n q.
  Proof. intros Hq O. unfold chain. rewrite O. cbn [String.eqb Ascii.eqb Bool.eqb]. now apply cmem_obs_v. Qed.
  Lemma chain_edge e : same_basis lay = true -> In e (E (n - 1)) -> cmem (e_left e) chain = cmem (e_right e) chain.
  Proof.
    intros Sb He. destruct (round_edge_facts lay Hv (n - 1) e He) as (Hl & Hr & _ & _ & Ep & _). pose proof (valid_tiles lay Hv) as (T1 & T2 & T3 & T4). unfold same_basis in Sb. destruct Hobs as [O|O]; rewrite O in Sb; cbn [String.eqb Ascii.eqb Bool.eqb] in Sb.
    - rewrite !cmem_row by assumption. rewrite Ep. clear Ep Hr. destruct (data_ab lay Hv _ Hl) as (a & b & K & Ha & Hb). rewrite K in *. destruct (partner_ab lay Hv (n - 1) a b Hl) as (x & y & -> & C). cbn [snd].
      unfold chain_row. rewrite Sb. apply Z.eqb_eq in Sb. 
      destruct (Z.eqb_spec (2 * b) (2 * ((n - 1) mod 3))) as [Q|Q], (Z.eqb_spec y (2 * ((n - 1) mod 3))) as [Q'|Q']; try reflexivity; exfalso; revert Q Q' C T4 Hb; dlia.
    - rewrite !cmem_col by assumption. rewrite Ep. symmetry. apply vmem_partner; [exact Hv | exact Hl | now right |]. apply Z.eqb_eq in Sb.
      unfold xyz, vbasis. destruct (mod6_cases n) as [D6|[D6|[D6|[D6|[D6|D6]]]]]; try (exfalso; revert Sb D6; clear; dlia); rewrite D6;
        [replace ((n - 1) mod 3) with 0 by (revert D6; clear; dlia) | replace ((n - 1) mod 3) with 2 by (revert D6; clear; dlia) | replace ((n - 1) mod 3) with 1 by (revert D6; clear; dlia)]; reflexivity.
  Qed.

  Lemma chain_hex h : ishex lay h -> obs lay = "V"%string \/ pneq (xyz (hexcat h)) (vbasis n) = true -> xsum (fun q => cmem q chain) (qubits_around_hex lay h) = false.
  Proof.
    intros Hh Hc. destruct (String.eqb_spec (obs lay) "V") as [O|O].
    - rewrite (xsum_ext (fun q => cmem q chain) (fun q : cpx => snd q =? 2 * chain_row)).
      2:{ intros q Hq. apply cmem_row; [|exact O]. apply (in_around lay Hv h q Hh) in Hq. apply Hq. }
      unfold qubits_around_hex, sorted_complex. rewrite <- (xsum_perm _ _ _ (isort_perm _ _)). destruct h as [hx hy]. unfold EDGE_TYPES. cbn [flat_map map snd fst app]. unfold cadd, cscale. cbn [fst snd]. unfold xsum. cbn [fold_right].
      rewrite !(wrap_row lay Hv). unfold pos. cbn [fst snd]. change (-1 * (2 * -1)) with (1 * (2 * 1)). change (-1 * (2 * 1)) with (1 * (2 * -1)). change (-1 * (2 * 0)) with (1 * (2 * 0)).
      repeat match goal with |- context [?x =? ?y] => generalize (x =? y); intros [] end; reflexivity.
    - destruct Hc as [Hc|Hc]; [contradiction|]. assert (OH : obs lay = "H"%string) by (destruct Hobs; [contradiction | assumption]).
      pose proof (V_hex_commute lay Hv n h Hh) as K. rewrite anticommutes_sym in K. unfold Vop, hex_op in K. rewrite anticommutes_pstr, obs_v_basis, Hc in K by now apply NoDup_obs_v. cbn [andb] in K.
      unfold chain. rewrite OH. cbn [String.eqb Ascii.eqb Bool.eqb]. exact K.
  Qed.

  Lemma chain_flips : xsum (fun q => cmem q chain) (snd (obr lay n)) = true.
  Proof.
    unfold obr. destruct Hobs as [O|O]; rewrite O; cbn [String.eqb Ascii.eqb Bool.eqb].
    - pose proof (valid_tiles lay Hv) as (T1 & T2 & T3 & T4). pose proof chain_row_range as Hr. set (q0 := (2, 2 * chain_row)).
      assert (D0 : isdata lay q0) by (unfold q0, isdata, inbox; cbn [fst snd]; repeat split; dlia).
      rewrite (xsum_ext (fun q => cmem q chain) (fun q : cpx => snd q =? 2 * chain_row)).
      2:{ intros q Hq. apply in_obs_v in Hq; [|exact Hv]. apply cmem_row; [apply Hq | exact O]. }
      rewrite (xsum_single _ _ q0); [unfold q0; cbn [snd]; apply Z.eqb_refl | now apply NoDup_obs_v | |].
      + apply in_obs_v; [exact Hv|]. split; [exact D0|]. unfold vmem, q0. cbn [fst snd]. change (2 =? 2) with true. rewrite andb_true_l. replace (2 * chain_row / 2) with chain_row by dlia. unfold chain_row.
        destruct (mod6_cases n) as [D6|[D6|[D6|[D6|[D6|D6]]]]]; rewrite D6;
        (destruct (Z.eqb_spec (n mod 2) 0) as [Q|Q]; try (exfalso; revert Q D6; clear; dlia)); rewrite negb_true_iff, Z.eqb_neq; revert D6; clear; dlia.
      + intros q Hq Hne. apply in_obs_v in Hq; [|exact Hv]. destruct Hq as [_ Hm]. unfold vmem in Hm. apply andb_prop in Hm. destruct Hm as [Hm _]. apply Z.eqb_eq in Hm. apply Z.eqb_neq. intros K. apply Hne. destruct q as [x y]. cbn [fst snd] in *. unfold q0. congruence.
    - pose proof (HV_anti lay Hv n) as K. unfold Hop, Vop in K. rewrite anticommutes_pstr in K by now apply NoDup_obs_v. apply andb_prop in K. unfold chain. rewrite O. exact (proj2 K).
  Qed.

  (** ** What is recorded when exactly these qubits are read wrongly at the end *)
  Variable ch : list cpx.
  Hypothesis ch_edge : forall e, same_basis lay = true -> In e (E (n - 1)) -> cmem (e_left e) ch = cmem (e_right e) ch.
  Hypothesis ch_hex : forall h, ishex lay h -> obs lay = "V"%string \/ pneq (xyz (hexcat h)) (vbasis n) = true -> xsum (fun q => cmem q ch) (qubits_around_hex lay h) = false.
  Hypothesis ch_flips : xsum (fun q => cmem q ch) (snd (obr lay n)) = true.
  Variable B : nat -> bool.
  Hypothesis HB : forall j, (j < N * ne)%nat -> B j = false.
  Hypothesis HD : forall q, In q D -> dat lay B q = cmem q ch.
  Lemma R_false s e : (s < N)%nat -> In e (E (zk s)) -> R lay B s e = false.
  Proof.
    intros L He. unfold R. apply HB. pose proof (index_lt edge_eqb edge_eqb_eq e _ He) as K. rewrite (length_E lay Hv) in K. nia.
  Qed.
  Lemma LR_false k e : (k <= N)%nat -> LR lay B k e = false.
  Proof. induction k as [|k IH]; intros L; [reflexivity|]. cbn [LR]. destruct (emem e (E (zk k))) eqn:K; [apply R_false; [lia | now apply emem_In] | apply IH; lia]. Qed.
  Lemma VE_false s e : (s < N)%nat -> In e (E (zk s)) -> VE lay B s e = false.
  Proof. intros L He. unfold VE. rewrite R_false by assumption. rewrite LR_false by lia. now destruct (pc3 lay). Qed.
  Lemma val_false s h : (s < N)%nat -> In h (H2 lay (zk s)) -> val lay B s h = false.
  Proof. apply (late_val lay Hv B VE_false). Qed.
  Lemma before_false k h : (k <= N)%nat -> In h (H2 lay (zk k)) -> before lay B k h = false.
  Proof. intros L Hh. unfold before. destruct (Nat.leb_spec 3 k) as [L'|L']; [|reflexivity]. apply val_false; [lia|]. rewrite (H2_mod lay (zk (k - 3)) (zk k)); [exact Hh | dlia]. Qed.
  Lemma at_value t c t' v x d : sd B t' v x -> In d (at_ t v c) -> xsum B (d_meas d) = x.
  Proof. intros [Hn G] Hd. destruct v as [s|]; [|destruct Hd]. destruct G as (_ & _ & G). destruct Hd as [<-|[]]. cbn [d_meas]. now rewrite <- (xsum_perm _ _ _ (isort_perm _ s)). Qed.
  Lemma row_silent k d : (k < N)%nat -> In d (row_dets lay k) -> xsum B (d_meas d) = false.
  Proof.
    intros L Hd. unfold row_dets in Hd. apply in_app_or in Hd. destruct Hd as [Hd|Hd].
    - destruct (_ && _); [|destruct Hd]. apply in_flat_map in Hd. destruct Hd as (e & He & Hd). rewrite (at_value _ _ _ _ _ d (vedge_sd lay Hv B k (SI_all lay Hv B k) e He) Hd). now apply VE_false.
    - apply in_flat_map in Hd. destruct Hd as (h & Hh & Hd). assert (Hn : hexval lay k h <> None) by (intros K; rewrite K in Hd; destruct Hd).
      assert (K1 : (1 <= k)%nat) by (destruct k; [exfalso; apply (hexval_some lay Hv Hobs B 0 h Hh) in Hn; revert Hn; unfold emits; destruct Hobs as [->| ->]; discriminate | lia]).
      rewrite (at_value _ _ _ _ _ d (hex_sd lay Hv B k h K1 Hh Hn) Hd), val_false, before_false by (assumption || lia). reflexivity.
  Qed.
  Lemma dat_chain h : ishex lay h -> xsum (dat lay B) (qubits_around_hex lay h) = xsum (fun q => cmem q ch) (qubits_around_hex lay h).
  Proof. intros Hh. apply xsum_ext. intros q Hq. apply HD. eapply around_data; eauto. Qed.
  Lemma hexes_cat c h : In h (hexes lay (c mod 3)) -> ishex lay h /\ hexcat h = c mod 3.
  Proof. intros Hh. now apply in_hexes in Hh. Qed.
  Lemma chain_cat h c : In h (hexes lay (c mod 3)) -> (if same_basis lay then c = n - 1 else c = n \/ c = n - 2) -> xsum (dat lay B) (qubits_around_hex lay h) = false.
  Proof.
    intros Hh Hc. destruct (hexes_cat c h Hh) as [Ih Ch]. rewrite dat_chain by exact Ih. apply ch_hex; [exact Ih|]. destruct Hobs as [O|O]; [now left|]. right. rewrite Ch. unfold same_basis in Hc. rewrite O in Hc. cbn [String.eqb Ascii.eqb Bool.eqb] in Hc.
    unfold xyz, vbasis. rewrite Z.mod_mod by lia. 
    destruct (mod6_cases n) as [D6|[D6|[D6|[D6|[D6|D6]]]]]; rewrite D6; (destruct (Z.eqb_spec (n mod 2) 1) as [Q|Q]; try (exfalso; revert Q D6; clear; dlia));
    [destruct Hc as [-> | ->]; [replace (n mod 3) with 0 by (revert D6; clear; dlia) | replace ((n - 2) mod 3) with 1 by (revert D6; clear; dlia)]
    |subst c; replace ((n - 1) mod 3) with 0 by (revert D6; clear; dlia)
    |destruct Hc as [-> | ->]; [replace (n mod 3) with 2 by (revert D6; clear; dlia) | replace ((n - 2) mod 3) with 0 by (revert D6; clear; dlia)]
    |subst c; replace ((n - 1) mod 3) with 2 by (revert D6; clear; dlia)
    |destruct Hc as [-> | ->]; [replace (n mod 3) with 1 by (revert D6; clear; dlia) | replace ((n - 2) mod 3) with 2 by (revert D6; clear; dlia)]
    |subst c; replace ((n - 1) mod 3) with 1 by (revert D6; clear; dlia)]; reflexivity.
  Qed.
  Lemma fin_silent d : In d (fin_dets lay) -> xsum B (d_meas d) = false.
  Proof.
    pose proof (proj1 Hs) as Hn. assert (ZN : zk N = n) by (apply Z2Nat.id; lia).
    intros Hd. unfold fin_dets in Hd. rewrite (same_spec lay) in Hd. apply in_app_or in Hd. destruct (same_basis lay) eqn:Sb; destruct Hd as [Hd|Hd]; apply in_flat_map in Hd; destruct Hd as (x & Hx & Hd).
    - rewrite (final_cases lay), Sb, xyz_index_xyz, round_edges_mod in Hx. destruct (round_edge_facts lay Hv (n - 1) x Hx) as (Hl & Hr & _).
      rewrite (at_value _ _ _ _ _ d (edge_sd lay Hv B Hs x Hx) Hd), VE_false; [|lia|replace (zk (N - 1)) with (n - 1) by lia; exact Hx].
      rewrite !HD by (apply (proj2 (in_data lay Hv _)); assumption). rewrite (ch_edge x eq_refl Hx), xorb_nilpotent. reflexivity.
    - rewrite (final_cases lay), Sb, xyz_index_xyz in Hx. rewrite (at_value _ _ _ _ _ d (same_sd lay Hv Hobs B Hs x Sb Hx) Hd), (chain_cat x (n - 1) Hx) by now rewrite Sb.
      destruct (Nat.leb_spec 2 N) as [L|L]; [|reflexivity]. rewrite val_false; [reflexivity | lia |]. unfold H2. replace (zk (N - 2) - 2) with (n - 4) by lia. replace ((n - 4) mod 3) with ((n - 1) mod 3) by dlia. exact Hx.
    - rewrite (third_spec lay) in Hx by exact Sb. assert (Hh : In x (H2 lay n)) by (unfold H2; replace ((n - 2) mod 3) with ((n + 1) mod 3) by dlia; exact Hx).
      rewrite (at_value _ _ _ _ _ d (other_sd lay Hv Hobs B Hs x Sb Hh) Hd). rewrite (chain_cat x (n - 2) Hh) by (rewrite Sb; now right). rewrite before_false by (rewrite ?ZN; assumption || lia).
      unfold vfirst. rewrite xsum_false; [reflexivity|]. intros e He. apply VE_false; [lia|]. eapply H1_first; [exact Hv | | exact He]. unfold H1. replace (zk (N - 1) - 1) with (n - 2) by lia. exact Hh.
    - rewrite (final_cases lay), Sb, xyz_index_xyz in Hx. rewrite (at_value _ _ _ _ _ d (diff_sd lay Hv Hobs B Hs x Sb Hx) Hd), (chain_cat x n Hx) by (rewrite Sb; now left).
      rewrite val_false; [reflexivity | lia |]. unfold H2. replace (zk (N - 1) - 2) with (n - 3) by lia. replace ((n - 3) mod 3) with (n mod 3) by dlia. exact Hx.
  Qed.
  Theorem any_silent d : In d (detectors 0 0 0 0 (circuit_i lay)) -> xsum B (d_meas d) = false.
  Proof.
    rewrite (circuit_detectors lay Hv Hs). intros Hd. apply in_app_or in Hd. destruct Hd as [Hd|Hd]; [|now apply fin_silent].
    apply in_flat_map in Hd. destruct Hd as (k & Hk & Hd). apply in_seq in Hk. apply (row_silent k); [lia | exact Hd].
  Qed.
  Theorem any_effect : effect lay B = true.
  Proof.
    unfold effect. rewrite (late_total lay B VE_false) by lia. rewrite xorb_false_l, <- ch_flips. apply xsum_ext. intros q Hq. apply HD. apply (obr_data lay Hv Hobs) in Hq. exact (proj2 (in_data lay Hv q) Hq).
  Qed.
End S.

Section C.
  Variable lay : layout.
  Hypothesis Hv : valid lay.
  Hypothesis Hobs : obs lay = "V"%string \/ obs lay = "H"%string.
  Hypothesis Hs : supported lay.
  Notation n := (sub_rounds lay).
  Notation N := (Z.to_nat n).
  Variable B : nat -> bool.
  Hypothesis HB : forall j, (j < N * length (round_edges lay 0))%nat -> B j = false.
  Hypothesis HD : forall q, In q (data_qubit_coords lay) -> dat lay B q = cmem q (chain lay).
  Theorem chain_silent d : In d (detectors 0 0 0 0 (circuit_i lay)) -> xsum B (d_meas d) = false.
  Proof. exact (any_silent lay Hv Hobs Hs (chain lay) (chain_edge lay Hv Hobs) (chain_hex lay Hv Hobs) B HB HD d). Qed.
  Theorem chain_effect : effect lay B = true.
  Proof. exact (any_effect lay Hv Hobs (chain lay) (chain_flips lay Hv Hobs) B HB HD). Qed.
End C.
