(** A record of a run in which the data carry an extra error and some results are
    flipped: the record without them raises no detector and no observable, so only
    the change counts. *)
From Coq Require Import QArith.
From Verif Require Import Prelude Layout LayoutFacts LayoutEdges LayoutLists LayoutHex LayoutHex2 Pauli LayoutObs LayoutLogic LayoutIndex
  Tracker TrackerFacts Stim Circuit Annot Shift Ends Gen Gen2 Gen3 Traj Eval Frame Exec Exec2 Exec3 Exec4 Detectors Struct Struct2 FaultQuiet FaultCore FaultObs FaultInv.
Open Scope Z_scope.

Lemma nth_map_xor {X} (f g : X -> bool) l : forall i, nth i (map (fun x => xorb (f x) (g x)) l) false = xorb (nth i (map f l) false) (nth i (map g l) false).
Proof. induction l as [|x l IH]; intros [|i]; cbn; auto. Qed.
Lemma nth_app_xor l1 l1' a1 l2 l2' a2 i : length l1 = length a1 -> length l1' = length a1 ->
  (forall i, nth i a1 false = xorb (nth i l1 false) (nth i l1' false)) -> (forall i, nth i a2 false = xorb (nth i l2 false) (nth i l2' false)) ->
  nth i (a1 ++ a2) false = xorb (nth i (l1 ++ l2) false) (nth i (l1' ++ l2') false).
Proof.
  intros H1 H2 G1 G2. destruct (Nat.lt_ge_cases i (length a1)) as [L|L].
  - rewrite !app_nth1 by lia. apply G1.
  - rewrite !app_nth2 by lia. rewrite H1, H2. apply G2.
Qed.

Section S.
  Variable lay : layout.
  Hypothesis Hv : valid lay.
  Hypothesis Hobs : obs lay = "V"%string \/ obs lay = "H"%string.
  Notation E := (round_edges lay).
  Notation zk := Z.of_nat.
  Notation ne := (length (E 0)).
  Notation D := (data_qubit_coords lay).
  Notation n := (sub_rounds lay).
  Notation N := (Z.to_nat n).
  Notation trk := (trk lay (tr0 lay)).
  Notation supported := (supported lay).
  Local Opaque data_qubit_coords measure_qubit_coords q2i_dict hex_entries hexes round_edges all_edges isort.

  Lemma LR_bitw w B k : (forall s e, (s < k)%nat -> In e (E (zk s)) -> R lay B s e = bitw lay w s e) -> pc3 lay = true -> forall e, LR lay B k e = accw lay w k e.
  Proof.
    intros H P e. induction k as [|k IH]; [reflexivity|]. cbn [LR accw]. destruct (emem e (E (zk k))) eqn:F.
    - apply emem_In in F. rewrite H by (auto; lia). unfold bitw. now rewrite P.
    - apply IH. intros s e' Hs. apply H. lia.
  Qed.
  Lemma VE_bitw w B k s e : (forall s e, (s < k)%nat -> In e (E (zk s)) -> R lay B s e = bitw lay w s e) -> (s < k)%nat -> In e (E (zk s)) -> VE lay B s e = w s e.
  Proof.
    intros H Hs He. unfold VE. rewrite (H s e Hs He). unfold bitw. destruct (pc3 lay) eqn:P; [|apply xorb_false_r].
    rewrite (LR_bitw w) by (auto; intros; apply H; auto; lia). now destruct (accw lay w s e), (w s e).
  Qed.

  (** ** Without errors *)
  Section Clean.
    Hypothesis Hs : supported.
    Variable z : nat -> edge -> bool.
    Variable A0 : cpx -> bits.
    Hypothesis HA0 : forall q, isdata lay q -> anti2 (pbits (init_basis lay)) (A0 q) = false.
    Variable B : nat -> bool.
    Hypothesis HR : rows lay z A0 B N.
    Hypothesis HD : forall q, In q D -> B (N * ne + index cpx_eqb q D)%nat = dbit lay z A0 q.

    Lemma at_silent t v c d t' : In d (at_ t v c) -> gd B t' v false -> xsum B (d_meas d) = false.
    Proof.
      unfold at_. destruct v as [s|]; [|intros []]. intros [<-|[]] (_ & _ & G). cbn [d_meas]. rewrite <- (xsum_perm _ _ _ (isort_perm Nat.leb s)). exact G.
    Qed.
    Lemma clean_n : 1 <= n.
    Proof. apply Hs. Qed.
    Lemma clean_quiet d : In d (detectors 0 0 0 0 (circuit_i lay)) -> xsum B (d_meas d) = false.
    Proof.
      intros Hd. rewrite (circuit_detectors lay Hv Hs) in Hd. apply in_app_or in Hd. pose proof clean_n as Hn. destruct Hd as [Hd|Hd].
      - apply in_flat_map in Hd. destruct Hd as (k & Hk & Hd). apply in_seq in Hk. unfold row_dets in Hd. apply in_app_or in Hd.
        assert (HR' : forall j, (j <= N)%nat -> rows lay z A0 B j) by (intros j Hj s e Hs'; apply HR; lia).
        destruct Hd as [Hd|Hd].
        + destruct (zk k =? 0) eqn:K0; cbn [andb] in Hd; [|destruct Hd]. apply Z.eqb_eq in K0. destruct (pauli_eqb (init_basis lay) PX) eqn:EP; [|destruct Hd].
          apply in_flat_map in Hd. destruct Hd as (e & He & Hd). assert (k = 0%nat) as -> by lia. eapply at_silent; [exact Hd|].
          apply (dets0_gd lay Hv Hobs z A0 HA0 B e); [apply HR'; lia | destruct (fst (obr lay 0)) eqn:F; [reflexivity | unfold init_basis in EP; rewrite F in EP; discriminate ..] | exact He].
        + apply in_flat_map in Hd. destruct Hd as (h & Hh & Hd). eapply at_silent; [exact Hd|]. unfold hexval.
          apply (hexdet_gd lay Hv z A0 HA0 B k); [apply (TI_all lay Hv Hobs z A0 HA0 B k); apply HR'; lia | intros e He; apply HR; [lia | exact He] | exact Hh].
      - unfold fin_dets in Hd. apply in_app_or in Hd. destruct Hd as [Hd|Hd].
        + destruct (pauli_eqb (xyz (n - 1)) (final_basis lay)) eqn:EP; apply in_flat_map in Hd; destruct Hd as (x & Hx & Hd); (eapply at_silent; [exact Hd|]).
          * apply (fin_edge_gd lay Hv Hobs z A0 HA0 B Hn HR HD); [now apply pauli_eqb_eq | exact Hx].
          * apply (fin_other_gd lay Hv Hobs z A0 HA0 B Hn HR HD); [exact EP | exact Hx].
        + apply in_flat_map in Hd. destruct Hd as (x & Hx & Hd). eapply at_silent; [exact Hd|]. now apply (fin_hex_gd lay Hv Hobs z A0 HA0 B HR HD).
    Qed.
    Lemma clean_effect : effect lay B = false.
    Proof.
      pose proof clean_n as Hn.
      assert (Ht : forall k, (k <= N)%nat -> total lay B k = obs_total lay z A0 k).
      { induction k as [|k IH]; intros Hk; [reflexivity|]. cbn [total obs_total]. rewrite IH by lia. f_equal. apply xsum_ext. intros e He. apply oat_in in He. destruct He as [He _].
        apply (VE_bitw (m lay z A0) B N); [|lia | exact He]. intros s e' Hs' He'. rewrite <- bit_bitw. now apply HR. }
      unfold effect. rewrite Ht by lia. rewrite <- (obs_total_eq lay Hv Hobs z A0 HA0 N), Z2Nat.id by lia. unfold Oop. rewrite par_pstr.
      rewrite (xsum_ext (dat lay B) (fun q => anti2 (pbits (fst (obr lay n))) (A lay z A0 N q))); [apply xorb_nilpotent|].
      intros q Hq. apply HD. exact (proj2 (in_data lay Hv _) (obr_data lay Hv Hobs n q Hq)).
    Qed.
  End Clean.

  (** ** With errors *)
  Section Err.
    Hypothesis Hs : supported.
    Hypothesis Hw : 4 <= data_width lay.
    Variable X : nat -> cpx -> bits.
    Variable Y : nat -> edge -> bool.
    (** [X] and [Y] are what one fault around one check leaves behind; [one] and [bare]
        say that it acts on one data qubit at most, and on data qubits only. *)
    Definition core (one bare : Prop) : Prop := exists k e0 P f, (k < N)%nat /\ In e0 (E (zk k)) /\ (forall q, q <> e_left e0 -> q <> e_right e0 -> P q = bzero) /\
      (forall s e, (s < N)%nat -> In e (E (zk s)) -> fl X Y s e = xorb ((k <=? s)%nat && par P (edge_op (xyz (zk s)) e)) (((s =? k)%nat && f) && edge_eqb e e0)) /\
      (forall q, In q D -> X N q = P q) /\
      (style lay = "EM3_v2"%string \/ anti2 (pbits (xyz (zk k))) (P (e_left e0)) && anti2 (pbits (xyz (zk k))) (P (e_right e0)) && f = false) /\
      (one -> P (e_left e0) = bzero \/ P (e_right e0) = bzero) /\ (bare -> f = true -> par P (edge_op (xyz (zk k)) e0) = true).
    Variable z : nat -> edge -> bool.
    Variable A0 : cpx -> bits.
    Hypothesis HA0 : forall q, isdata lay q -> anti2 (pbits (init_basis lay)) (A0 q) = false.
    Definition frecord : list bool := recw lay (mm lay A0 X Y z) N ++ map (fun q => anti2 (pbits (final_basis lay)) (C lay A0 X z N q)) D.
    Notation Bz := (fun i => nth i (recw lay (m lay z A0) N ++ map (dbit lay z A0) D) false).
    Notation Bf := (fun i => nth i (recw lay (fl X Y) N ++ map (fun q => anti2 (pbits (final_basis lay)) (X N q)) D) false).
    Lemma record_split i : nth i frecord false = xorb (Bz i) (Bf i).
    Proof.
      unfold frecord. apply nth_app_xor; [rewrite !(length_recw lay Hv); reflexivity ..| |].
      - intros j. unfold recw. generalize (seq 0 N). intros l. revert j. induction l as [|s l IH]; intros j; [destruct j; reflexivity|]. cbn [flat_map].
        apply nth_app_xor; [now rewrite !map_length ..| | exact IH]. intros j'. rewrite <- nth_map_xor. f_equal. apply map_ext. intros e. unfold mm. apply bitw_xor.
      - intros j. rewrite <- nth_map_xor. f_equal. apply map_ext. intros q. unfold C, dbit. apply anti2_bxor_r.
    Qed.
    Lemma dat_at w (f : cpx -> bool) q : In q D -> nth (N * ne + index cpx_eqb q D) (recw lay w N ++ map f D) false = f q.
    Proof.
      intros Hq. rewrite app_nth2 by (rewrite (length_recw lay Hv); lia). rewrite (length_recw lay Hv).
      replace (N * ne + index cpx_eqb q D - N * ne)%nat with (index cpx_eqb q D) by lia. apply nth_index; [apply cpx_eqb_eq | exact Hq].
    Qed.
    Lemma Bz_quiet d : In d (detectors 0 0 0 0 (circuit_i lay)) -> xsum Bz (d_meas d) = false.
    Proof.
      apply (clean_quiet Hs z A0 HA0 Bz).
      - intros s e Hs' He. rewrite bit_bitw. cbv beta. now apply (nth_recw lay Hv).
      - intros q Hq. cbv beta. now apply dat_at.
    Qed.
    Lemma Bz_effect : effect lay Bz = false.
    Proof.
      apply (clean_effect Hs z A0 HA0 Bz).
      - intros s e Hs' He. rewrite bit_bitw. cbv beta. now apply (nth_recw lay Hv).
      - intros q Hq. cbv beta. now apply dat_at.
    Qed.
    Lemma Bf_harmless one bare : core one bare -> quiet lay Bf -> effect lay Bf = false.
    Proof.
      intros (k & e0 & P & f & Hk & He0 & HP & Hfl & HX & _) HQ.
      apply (fault_harmless lay Hv Hobs Hs Hw k Hk e0 He0 P HP f Bf).
      - intros s e Hs' He. rewrite <- Hfl by assumption. apply (VE_bitw (fl X Y) Bf N); [|exact Hs' | exact He]. intros s' e' Hs'' He'. cbv beta. now apply (nth_recw lay Hv).
      - intros q Hq. unfold dat. rewrite dat_at by exact Hq. now rewrite HX.
      - exact HQ.
    Qed.
    Theorem record_harmless one bare : core one bare -> quiet lay (fun i => nth i frecord false) -> effect lay (fun i => nth i frecord false) = false.
    Proof.
      intros Hc HQ.
      assert (HQf : quiet lay Bf).
      { intros d Hd Hwd. specialize (HQ d Hd Hwd). pose proof (Bz_quiet d Hd) as Hz. rewrite (xsum_ext _ _ _ (fun i _ => record_split i)), xsum_xorb, Hz, xorb_false_l in HQ. exact HQ. }
      pose proof (Bf_harmless one bare Hc HQf) as Ef. pose proof Bz_effect as Ez.
      pose proof (circuit_includes lay Hv Hobs (fun i => nth i frecord false) (oidx lay) Hs) as I0.
      pose proof (circuit_includes lay Hv Hobs Bz (oidx lay) Hs) as I1.
      pose proof (circuit_includes lay Hv Hobs Bf (oidx lay) Hs) as I2.
      unfold mine in *. rewrite Nat.eqb_refl in *. cbn [andb] in *. rewrite <- I0, (xsum_ext _ _ _ (fun i _ => record_split i)), xsum_xorb, I1, I2, Ef, Ez. reflexivity.
    Qed.
  End Err.
End S.
