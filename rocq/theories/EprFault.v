(** Errors in the double EPR circuit: what its detectors and observables say when results
    of the checks are wrong. *)
From Coq Require Import QArith String.
From Verif Require Import Prelude Layout LayoutFacts LayoutEdges LayoutLists LayoutHex LayoutHex2 Pauli LayoutObs LayoutLogic LayoutIndex Prop_Layout
  Distance Distance2 Prop_Distance
  Tracker TrackerFacts Stim Circuit Annot Shift Ends Gen Gen2 Traj Eval Frame Exec Exec2 Exec4 Prop_Circuit
  Noise NoiseFacts NoiseMoments Epr EprRun EprRun2 EprNoise Prop_Epr Struct Struct2 Struct3 FaultSpec FaultLin FaultQuiet FaultCore FaultChain.
Open Scope Z_scope.

Section F.
  Variable lay : layout.
  Hypothesis Hv : valid lay.
  Hypothesis Hst : style lay = "EM3"%string.
  Notation E := (round_edges lay).
  Notation zk := Z.of_nat.
  Notation ne := (length (E 0)).
  Notation ix := (ix lay).
  Notation ids := [0; 1; 2; 3]%nat.
  Notation n := (sub_rounds lay).
  Notation par0 := (flat_map (parity_i lay 0) ids).
  Notation parn := (flat_map (parity_i lay n) ids).
  Let He := Hem lay Hst.
  Local Opaque data_qubit_coords measure_qubit_coords q2i_dict hex_entries hexes round_edges all_edges isort.

  (** ** The circuit *)
  (** the tracker before sub-round k *)
  Fixpoint etr (k : nat) : mtrack :=
    match k with
    | O => tr_init
    | S k => match epr_sub_round lay ids (zk k) (etr k) with Ok (_, tr) => tr | Err _ => tr_init end
    end.
  Definition ann (k : nat) : list instr := flat_map (eobs lay (zk k) (etr k)) ids ++ edets lay (zk k) (etr k) ++ [tick_i].
  Definition chunk (k : nat) : list instr := checks_i lay (zk k) ++ ann k.
  Definition mpp_a (k : nat) : instr := mkI "MPP" (mpp_targets lay (zk k)) (if noisy lay (zk k) then [Num (noise lay)] else []).

  Lemma etr_EI g k st0 : EI lay 4 0 tr_init (fun _ => false) st0 -> exists st, run g (flat_map (fun j => mpp_a j :: ann j) (seq 0 k)) st0 = Ok st /\ EI lay 4 (zk k) (etr k) (fun _ => false) st.
  Proof.
    intros H0. induction k as [|k (st & R & HI)]; [exists st0; auto|].
    destruct (epr_step lay Hv He g 4 (zk k) (etr k) _ st ltac:(lia) HI) as (tr' & E1 & st' & R' & HI'). exists st'.
    rewrite seq_S, flat_map_app, run_app, R. cbn [bind flat_map Nat.add]. rewrite app_nil_r. split.
    - exact R'.
    - replace (zk (S k)) with (zk k + 1) by lia. cbn [etr]. rewrite E1. exact HI'.
  Qed.
  Lemma etr_any k : exists st, EI lay 4 (zk k) (etr k) (fun _ => false) st.
  Proof.
    destruct (first_ok lay Hv Hst (fun _ => false) (fun _ => bzero)) as (st0 & _ & H0). destruct (etr_EI (fun _ => false) k st0 H0) as (st & _ & H). now exists st.
  Qed.
  Lemma etr_step k : epr_sub_round lay ids (zk k) (etr k) = Ok (map Stim.I (epr_i lay (zk k) (etr k)), etr (S k)).
  Proof.
    destruct (etr_any k) as (st & HI). destruct (epr_step lay Hv He (fun _ => false) 4 (zk k) (etr k) _ st ltac:(lia) HI) as (tr' & E1 & _). cbn [etr]. rewrite E1. reflexivity.
  Qed.
  Lemma ann_annot k : exists l, ann k = l ++ [tick_i] /\ Forall annot l.
  Proof.
    destruct (etr_any k) as (st & HI). destruct (epr_notes lay Hv (fun _ => false) 4 (zk k) (etr k) _ st ltac:(lia) HI) as (l & El & Hn). exists l. split; [|exact (notes_annot _ _ _ Hn)].
    unfold epr_i in El. unfold ann. injection El as El. exact El.
  Qed.
  Lemma chunk_body mem k : zk k < n -> epr_body lay (zk k) (mem, etr k) = Ok (mem ++ map Stim.I (chunk k), etr (S k)).
  Proof.
    intros Hk. destruct (ann_annot k) as (l & El & Ha). unfold epr_body. rewrite etr_step. cbn [bind]. unfold chunk, checks_i, noisy. replace (zk k <=? n) with true by (symmetry; apply Z.leb_le; lia). rewrite andb_true_r.
    change (epr_i lay (zk k) (etr k)) with (mpp_e lay (zk k) :: ann k). rewrite El.
    destruct (3 <=? zk k); cbn [andb]; [|reflexivity]. unfold layout_noise_model. rewrite Hst. cbn [String.eqb Ascii.eqb Bool.eqb bind].
    unfold mpp_e. change (mpp_targets lay (zk k)) with (pair_targets (xyz (zk k)) (fun e => ix (e_left e)) (fun e => ix (e_right e)) (E (zk k))).
    rewrite noisy_moment; [reflexivity | exact Ha | now apply all_paired].
  Qed.
  Lemma chunks_for m : zk m <= n -> for_ (zrange 0 (zk m)) (epr_body lay) ([], tr_init) = Ok (map Stim.I (flat_map chunk (seq 0 m)), etr m).
  Proof.
    induction m as [|m IH]; intros Hm; [reflexivity|]. rewrite (zrange_split 0 (zk m) (zk (S m))) by lia. replace (zrange (zk m) (zk (S m))) with [zk m] by (replace (zk (S m)) with (zk m + 1) by lia; now rewrite zrange_one).
    rewrite for_app, IH by lia. rewrite bind_ok. cbn [for_]. rewrite (chunk_body _ m ltac:(lia)). rewrite bind_ok, seq_S, flat_map_app, map_app. cbn [flat_map Nat.add]. now rewrite app_nil_r.
  Qed.
  Lemma epr_circuit : 0 <= n -> exists c, double_epr_circuit lay = Ok c /\ flatten c = par0 ++ flat_map chunk (seq 0 (Z.to_nat n)) ++ parn.
  Proof.
    intros Hn. exists (map Stim.I (par0 ++ flat_map chunk (seq 0 (Z.to_nat n)) ++ parn)). split; [|apply flatten_I].
    rewrite double_epr_eq. pose proof (chunks_for (Z.to_nat n)) as K. rewrite Z2Nat.id in K by exact Hn.
    eapply eq_trans; [apply (f_equal (fun m => bind m _)); apply K; lia|]. rewrite bind_ok, !(parities_eq lay Hv), !bind_ok. now rewrite !map_app.
  Qed.
  Lemma gates_ann k : gates (ann k) = ann k.
  Proof.
    destruct (ann_annot k) as (l & -> & Ha). rewrite gates_app. f_equal. induction Ha as [|i l H F IH]; [reflexivity|]. destruct i as [nm ts ag]. destruct H as [H|H]; cbn [iname] in H; subst nm; cbn; f_equal; exact IH.
  Qed.
  Lemma gates_checks k : gates (checks_i lay (zk k)) = [mpp_a k].
  Proof. unfold checks_i, mpp_a. destruct (noisy lay (zk k)); reflexivity. Qed.
  Lemma gates_chunks l : gates (flat_map chunk l) = flat_map (fun j => mpp_a j :: ann j) l.
  Proof. induction l as [|k l IH]; [reflexivity|]. cbn [flat_map]. unfold chunk at 1. now rewrite !gates_app, gates_checks, gates_ann, IH. Qed.
  Lemma gates_par s : gates (flat_map (parity_i lay s) ids) = flat_map (parity_i lay s) ids.
  Proof. reflexivity. Qed.
  (** without errors *)
  Lemma base_ok g f : exists st, run g (par0 ++ flat_map (fun j => mpp_a j :: ann j) (seq 0 (Z.to_nat n)) ++ parn) (start f) = Ok st /\ (0 <= n -> Forall (fun b => b = false) (fdets st) /\ forall j, fobs st j = false).
  Proof.
    destruct (first_ok lay Hv Hst g f) as (st0 & R0 & H0). destruct (etr_EI g (Z.to_nat n) st0 H0) as (st1 & R1 & H1).
    destruct (run_parities lay Hv He g n st1) as (st2 & R2 & _ & D & O & O').
    exists st2. rewrite run_app, R0. cbn [bind]. rewrite run_app, R1. cbn [bind]. split; [exact R2|]. intros Hn. rewrite Z2Nat.id in H1 by exact Hn. rewrite D. split; [apply (ei_dets _ _ _ _ _ _ H1)|].
    intros j. destruct (Nat.lt_ge_cases j 4) as [Hj|Hj]; [destruct (O j Hj) as [-> _]; rewrite (ei_obs _ _ _ _ _ _ H1 j Hj); destruct (EprRun2.val _ _ _ _); reflexivity|].
    rewrite (O' j Hj). exact (ei_obs' _ _ _ _ _ _ H1 j Hj).
  Qed.

  (** ** Wrong results *)
  Lemma H2_back s h : In h (H2 lay s) -> In h (H2 lay (s - 3)).
  Proof. unfold H2. now replace ((s - 3 - 2) mod 3) with ((s - 2) mod 3) by dlia. Qed.
  Section V.
    (** v s e: the result of check e in sub-round s is wrong *)
    Variable v : Z -> edge -> bool.
    Definition hv (t : Z) (h : cpx) : bool := xsum (v t) (first_edges_around_hex lay h).
    Definition hexv (t : Z) (h : cpx) : bool := xorb (xsum (v t) (second_edges_around_hex lay h)) (hv (t - 1) h).
    (** the detectors up to sub-round s *)
    Definition gone (s : nat) : list bool := flat_map (fun r => if 6 <=? zk r then map (fun h => xorb (hexv (zk r) h) (hexv (zk r - 3) h)) (H2 lay (zk r)) else []) (seq 0 s).
    Definition moved (j s : nat) : bool := xsum (fun r => xsum (v (zk r)) (eoat lay j (zk r))) (seq 0 s).
    Record FV (k : nat) (st : fstate) : Prop := {
      fv_len : length (frec st) = (4 + tm (etr k))%nat;
      fv_half : (1 <= k)%nat -> forall h, In h (H2 lay (zk k)) -> gd (fun x => nth (4 + x) (frec st) false) (tm (etr k)) (cur (etr k) (KHalf (KC h))) (hv (zk k - 1) h);
      fv_hex : forall r h, (3 <= r < k)%nat -> (k <= r + 3)%nat -> In h (H2 lay (zk r)) -> gd (fun x => nth (4 + x) (frec st) false) (tm (etr k)) (cur (etr k) (KC h)) (hexv (zk r) h);
      fv_dets : fdets st = gone k;
      fv_obs : forall j, (j < 4)%nat -> fobs st j = moved j k;
      fv_obs' : forall j, (4 <= j)%nat -> fobs st j = false
    }.
    Lemma fv_step g k st st1 : FV k st -> frec st1 = frec st ++ map (v (zk k)) (E (zk k)) -> fdets st1 = fdets st -> fobs st1 = fobs st ->
      exists st2, run g (ann k) st1 = Ok st2 /\ fr st2 = fr st1 /\ FV (S k) st2.
    Proof.
      intros [Il Ih Ix Id Io Io'] F1 F2 F3. set (s := zk k) in *. set (tr := etr k) in *.
      destruct (etr_any k) as (sb & HI). fold s tr in HI. destruct HI as [Iw It _ Lh _ Iv _ _ _ _].
      assert (Rd : eready lay s tr).
      { split.
        - intros L h Hh. apply has_live, Lh; [lia | exact Hh].
        - intros L h Hh. apply has_live, (Iv (s - 3)); [lia|]. now apply H2_back. }
      destruct (epr_sub_round_spec lay Hv s tr Iw Rd) as (tr' & Es & Ew & Et & Eh & Eh' & Ex & Ex').
      assert (Etr : tr' = etr (S k)) by (unfold s, tr in Es; rewrite etr_step in Es; exact (f_equal (fun r => match r with Ok (_, t) => t | Err _ => tr_init end) (eq_sym Es))).
      set (B := fun x => nth (4 + x) (frec st) false) in *.
      set (B1 := fun x => nth (4 + x) (frec st1) false).
      assert (Ag : forall y, (y < tm tr)%nat -> B y = B1 y) by (intros y Hy; unfold B, B1; rewrite F1, app_nth1 by lia; reflexivity).
      assert (Lr : length (frec st1) = (4 + (tm tr + length (E s)))%nat) by (rewrite F1, app_length, map_length, Il; lia).
      assert (Up : forall w x, gd B (tm tr) w x -> gd B1 (tm tr + length (E s)) w x).
      { intros w x H. eapply gd_mono; [|eapply gd_agree; [exact Ag | exact H]]. lia. }
      assert (Raw : forall e, In e (E s) -> gd B1 (tm tr + length (E s)) (raw lay s tr e) (v s e)).
      { intros e Hin. pose proof (index_lt edge_eqb edge_eqb_eq e _ Hin) as Hi.
        eapply gd_eq; [|apply (gd_single B1); lia]. unfold B1. rewrite F1. rewrite Nat.add_assoc, <- Il, app_nth2_plus. apply (nth_index edge_eqb edge_eqb_eq). exact Hin. }
      assert (Half : forall h, In h (H1 lay s) -> gd B1 (tm tr + length (E s)) (ehalf lay s tr h) (hv s h)).
      { intros h Hh. unfold ehalf. apply gd_comb_map. intros e Hin. apply Raw. now apply (first_in lay Hv s h). }
      assert (Hex : forall h, 3 <= s -> In h (H2 lay s) -> gd B1 (tm tr + length (E s)) (ehex lay s tr h) (hexv s h)).
      { intros h L Hh. unfold ehex. apply gd_comb_last; [intros e Hin; apply Raw; now apply (second_in lay Hv s h) | apply Up, Ih; [unfold s in L; lia | exact Hh]]. }
      assert (Lx : forall h, 3 <= s -> In h (H2 lay s) -> live (ehex lay s tr h)).
      { intros h L Hh. unfold ehex. apply live_comb. intros w Hin. apply in_app_iff in Hin. destruct Hin as [Hin|[<-|[]]].
        - apply in_map_iff in Hin. destruct Hin as (e & <- & _). discriminate.
        - apply Lh; [lia | exact Hh]. }
      set (m := fun j => xsum (v s) (eoat lay j s)).
      destruct (run_eobs lay g 4 s tr m ids st1 Lr) as (st2 & R2 & G1 & G2 & G3 & G4).
      { intros j _. apply gd_comb_map. intros e Hin. apply Raw. unfold eoat, obs_edges_in in Hin. apply filter_In in Hin. tauto. }
      { repeat constructor; cbn; intuition discriminate. }
      set (w := fun h => comb [ehex lay s tr h; cur tr (KC h)]).
      set (dl := if 6 <=? s then map (fun h => xorb (hexv s h) (hexv (s - 3) h)) (H2 lay s) else []).
      assert (Cmp : forall h, 6 <= s -> In h (H2 lay s) -> gd B1 (tm tr + length (E s)) (w h) (xorb (hexv s h) (hexv (s - 3) h))).
      { intros h L Hh. apply gd_comb2; [apply Hex; [lia | exact Hh]|]. apply Up. replace (s - 3) with (zk (k - 3)) by (unfold s in *; lia). apply Ix; [unfold s in *; lia | lia |]. replace (zk (k - 3)) with (s - 3) by (unfold s in *; lia). now apply H2_back. }
      assert (Lw : forall h, 6 <= s -> In h (H2 lay s) -> live (w h)).
      { intros h L Hh. apply live_comb. intros u [<-|[<-|[]]]; [apply Lx; [lia | exact Hh]|]. apply (Iv (s - 3)); [lia|]. now apply H2_back. }
      assert (R3 : run g (edets lay s tr) st2 = Ok (add_dets st2 dl)).
      { unfold edets, dl. destruct (Z.leb_spec 6 s) as [L|L]; [|now rewrite add_dets_nil].
        rewrite (run_dets_off g 4) by first [rewrite G2; exact Lr | intros h Hh; apply (gd_wf B1 _ _ (xorb (hexv s h) (hexv (s - 3) h))), Cmp; [lia | exact Hh]]. rewrite G2. fold B1. do 2 f_equal.
        assert (Q : forall l, (forall h, In h l -> In h (H2 lay s)) -> flat_map (fun h => dval B1 (w h)) l = map (fun h => xorb (hexv s h) (hexv (s - 3) h)) l); [|now apply Q].
        induction l as [|h l IH]; intros Hl; [reflexivity|]. cbn [flat_map map]. rewrite IH by (intros; apply Hl; now right). specialize (Cmp h L (Hl h (or_introl eq_refl))). specialize (Lw h L (Hl h (or_introl eq_refl))).
        unfold live in Lw. destruct (w h) as [l'|]; [|congruence]. destruct Cmp as (_ & _ & <-). reflexivity. }
      exists (add_dets st2 dl). split; [unfold ann; fold s tr; rewrite run_app, R2; cbn [bind]; rewrite run_app, R3; reflexivity|]. split; [exact G1|].
      assert (Esk : zk (S k) = s + 1) by (unfold s; lia).
      split; rewrite <- ?Etr.
      - cbn [add_dets frec]. rewrite G2, Lr, Et. reflexivity.
      - intros _ h Hh. rewrite Esk in *. assert (Hh1 : In h (H1 lay s)) by (unfold H2 in Hh; unfold H1; now replace ((s + 1 - 2) mod 3) with ((s - 1) mod 3) in Hh by dlia).
        rewrite (cur_cons _ _ _ _ (Eh h Hh1)). cbn [add_dets frec]. rewrite G2, Et. replace (s + 1 - 1) with s by lia. now apply Half.
      - intros r h Hr Hr' Hh. cbn [add_dets frec]. rewrite G2, Et. destruct (Nat.eq_dec r k) as [->|N].
        + fold s in Hh |- *. rewrite (cur_cons _ _ _ _ (Ex h ltac:(unfold s; lia) Hh)). apply Hex; [unfold s; lia | exact Hh].
        + unfold cur. rewrite Ex'; [apply Up, (Ix r); [lia|lia|exact Hh]|]. right. intros Hi. unfold H2 in Hh, Hi. apply in_hexes in Hh; [|exact Hv]. apply in_hexes in Hi; [|exact Hv].
          destruct Hh as [_ Hh], Hi as [_ Hi]. rewrite Hh in Hi. unfold s in Hi. revert Hi. clear - Hr Hr' N. intros. dlia.
      - cbn [add_dets fdets]. rewrite G3, F2, Id. unfold gone. rewrite seq_S, flat_map_app. cbn [flat_map Nat.add]. rewrite app_nil_r. reflexivity.
      - intros j Hj. cbn [add_dets fobs]. rewrite G4, F3, Io by exact Hj. replace (existsb (Nat.eqb j) ids) with true by (destruct j as [|[|[|[|j]]]]; [..|lia]; reflexivity).
        cbn [andb]. unfold moved. rewrite seq_S, xsum_app. cbn [Nat.add]. unfold xsum at 5. cbn [fold_right]. now rewrite xorb_false_r.
      - intros j Hj. cbn [add_dets fobs]. rewrite G4, F3, Io' by exact Hj. replace (existsb (Nat.eqb j) ids) with false by (destruct j as [|[|[|[|j]]]]; [lia..|]; reflexivity). reflexivity.
    Qed.
  End V.

  (** ** Runs that differ by one error *)
  Lemma still_measures l : forall st, forall x, fr (fold_left (do_measure still) l st) x = fr st x.
  Proof.
    induction l as [|P l IH]; intros st x; [reflexivity|]. cbn [fold_left]. rewrite IH. unfold do_measure. cbn [fr]. generalize (fr st). induction P as [|pq P IHP]; intros f; [reflexivity|].
    cbn [fold_left]. rewrite IHP. unfold ap1. cbn [bsel still]. destruct (Nat.eqb x (snd pq)); [destruct (f x) as [[] []]; reflexivity | reflexivity].
  Qed.
  Lemma mpp_products k : products (mpp_targets lay (zk k)) = Ok (map (fun e => [(xyz (zk k), ix (e_left e)); (xyz (zk k), ix (e_right e))]) (E (zk k))).
  Proof. unfold mpp_targets. apply products_pairs. Qed.
  Lemma still_mpp k st : exists st1, run still [mpp_a k] st = Ok st1 /\ frec st1 = frec st ++ map (fun e => par (At lay st) (edge_op (xyz (zk k)) e)) (E (zk k)) /\
    fdets st1 = fdets st /\ fobs st1 = fobs st /\ forall x, fr st1 x = fr st x.
  Proof.
    destruct (fold_products still (xyz (zk k)) (fun e => ix (e_left e)) (fun e => ix (e_right e)) edge_eqb edge_eqb_eq (E (zk k)) st (NoDup_lr lay Hv (zk k)))
      as (F1 & F2 & F3 & _). cbn zeta in *. eexists. split; [|split; [|split; [exact F2|split; [exact F3|intros x; apply still_measures]]]].
    - unfold mpp_a. cbn [run]. unfold run_instr. cbn [iname itargets]. change (canon "MPP") with "MPP"%string. cbn [annotation existsb String.eqb Ascii.eqb Bool.eqb orb]. rewrite mpp_products. reflexivity.
    - rewrite F1. f_equal. apply map_ext. intros e. unfold edge_op. rewrite par_pstr, !xsum_cons. unfold xsum. cbn [fold_right]. now rewrite xorb_false_r.
  Qed.
  Lemma fv_rest v m : forall k st, FV v k st -> (forall t e, (k <= t)%nat -> In e (E (zk t)) -> (t < k + m)%nat -> v (zk t) e = par (At lay st) (edge_op (xyz (zk t)) e)) ->
    exists st', run still (flat_map (fun j => mpp_a j :: ann j) (seq k m)) st = Ok st' /\ FV v (k + m) st' /\ forall x, fr st' x = fr st x.
  Proof.
    induction m as [|m IH]; intros k st HF Hvv; [exists st; rewrite Nat.add_0_r; auto|].
    destruct (still_mpp k st) as (st1 & R1 & F1 & F2 & F3 & F4).
    destruct (fv_step v still k st st1 HF) as (st2 & R2 & F5 & HF2); [|exact F2|exact F3|].
    { rewrite F1. f_equal. apply map_ext_in. intros e Hin. symmetry. apply Hvv; [lia | exact Hin | lia]. }
    assert (Fs : forall x, fr st2 x = fr st x) by (intros x; now rewrite F5, F4).
    destruct (IH (S k) st2 HF2) as (st3 & R3 & HF3 & F6).
    { intros t e Ht Hin Ht'. rewrite (Hvv t e ltac:(lia) Hin ltac:(lia)). apply par_ext. intros pq _. unfold At. symmetry. apply Fs. }
    exists st3. replace (k + S m)%nat with (S k + m)%nat by lia. split; [|split; [exact HF3 | intros x; now rewrite F6]].
    cbn [seq flat_map]. change ((mpp_a k :: ann k) ++ flat_map (fun j => mpp_a j :: ann j) (seq (S k) m)) with ([mpp_a k] ++ ann k ++ flat_map (fun j => mpp_a j :: ann j) (seq (S k) m)).
    rewrite run_app, R1. cbn [bind]. rewrite run_app, R2. exact R3.
  Qed.
  Lemma zero_start v : exists st, run still par0 (start (fun _ => bzero)) = Ok st /\ FV v 0 st /\ forall x, fr st x = bzero.
  Proof.
    destruct (run_parities lay Hv He still 0 (start (fun _ => bzero))) as (st & R & L & D & _). exists st. split; [exact R|].
    assert (C : clean st).
    { apply clean_sums. assert (C0 : sums (start (fun _ => bzero)) (start (fun _ => bzero)) (start (fun _ => bzero))) by (apply clean_sums; repeat split; constructor).
      destruct (run_sum still still still (fun _ => eq_refl) _ _ _ _ st C0 R) as (b & c & Rb & Rc & S). congruence. }
    destruct C as (C1 & C2 & C3 & C4). split; [split|exact C1].
    - rewrite L. reflexivity.
    - intros K. lia.
    - intros r h K. lia.
    - rewrite D. reflexivity.
    - intros j _. apply C4.
    - intros j _. apply C4.
  Qed.

  (** *** The effect of an error in sub-round s on check e0: A on its qubits, and (fl) a wrong result *)
  Section Effect.
    Variable s : nat.
    Variable e0 : edge.
    Variable A : cpx -> bits.
    Variable fl : bool.
    Definition wrong (t : Z) (e : edge) : bool := xorb ((zk s <=? t) && par A (edge_op (xyz t) e)) (((t =? zk s) && fl) && edge_eqb e e0).
    Definition effect (j : nat) : bool := xorb (par A (Oi lay j (zk s))) (fl && emem e0 (eo lay j)).
    Hypothesis He0 : In e0 (E (zk s)).
    Lemma moved_eq j m : (j < 4)%nat -> moved wrong j m = if (m <=? s)%nat then false else xorb (effect j) (par A (Oi lay j (zk m))).
    Proof.
      intros Hj. induction m as [|m IH]; [reflexivity|]. unfold moved in *. rewrite seq_S, xsum_app, IH. cbn [Nat.add]. unfold xsum at 1. cbn [fold_right]. rewrite xorb_false_r. clear IH.
      assert (Hs : xsum (wrong (zk m)) (eoat lay j (zk m)) = xorb ((s <=? m)%nat && xorb (par A (Oi lay j (zk m))) (par A (Oi lay j (zk (S m))))) ((m =? s)%nat && fl && emem e0 (eo lay j))).
      { unfold wrong. rewrite xsum_xorb. f_equal.
        - replace (zk s <=? zk m) with (s <=? m)%nat by (destruct (Nat.leb_spec s m), (Z.leb_spec (zk s) (zk m)); lia || reflexivity).
          destruct (s <=? m)%nat; cbn [andb]; [|now apply xsum_false].
          replace (zk (S m)) with (zk m + 1) by lia. rewrite (par_same A _ _ (Oi_step lay Hv j (zk m) Hj)), par_app, par_flat_map. destruct (par A (Oi lay j (zk m))), (xsum _ _); reflexivity.
        - replace (zk m =? zk s) with (m =? s)%nat by (destruct (Nat.eqb_spec m s), (Z.eqb_spec (zk m) (zk s)); lia || reflexivity).
          rewrite (xsum_pick edge_eqb edge_eqb_eq) by (unfold eoat; rewrite (oin_filter lay); apply NoDup_filter, NoDup_round_edges, Hv).
          destruct (Nat.eqb_spec m s) as [->|]; [|reflexivity]. cbn [andb]. f_equal. unfold eoat. rewrite (oin_filter lay).
          destruct (emem e0 (eo lay j)) eqn:K.
          + apply existsb_exists. exists e0. split; [apply filter_In; auto | now apply edge_eqb_eq].
          + apply not_true_is_false. intros K'. apply existsb_exists in K'. destruct K' as (x & Hx & K'). apply edge_eqb_eq in K'. subst x. apply filter_In in Hx. destruct Hx. congruence. }
      rewrite Hs. unfold effect. destruct (Nat.leb_spec m s), (Nat.leb_spec s m), (Nat.leb_spec (S m) s), (Nat.eqb_spec m s); try lia; subst; cbn [andb];
        repeat match goal with |- context [par A ?x] => destruct (par A x) end; destruct fl, (emem e0 (eo lay j)); reflexivity.
    Qed.
    Hypothesis Hsn : zk s < n.
    Hypothesis HA : forall q, q <> e_left e0 -> q <> e_right e0 -> A q = bzero.
    Let N := Z.to_nat n.
    Definition outcome (st : fstate) : Prop := fdets st = gone wrong N /\ (forall j, (j < 4)%nat -> fobs st j = effect j) /\ forall j, (4 <= j)%nat -> fobs st j = false.
    Lemma end_ok st : FV wrong N st -> (forall q, isdata lay q -> At lay st q = A q) -> (forall j, fr st (snd (anc lay j)) = bzero) -> exists st', run still parn st = Ok st' /\ outcome st'.
    Proof.
      intros [_ _ _ Fd Fo Fo'] Ha Hz. destruct (run_parities lay Hv He still n st) as (st' & R & _ & D & O & O'). exists st'. split; [exact R|]. split; [now rewrite D|]. split.
      - intros j Hj. destruct (O j Hj) as [-> _]. rewrite Fo, moved_eq by exact Hj. replace (N <=? s)%nat with false by (symmetry; apply Nat.leb_gt; unfold N; lia).
        unfold EprRun2.val. rewrite Hz, anti2_zero_r, xorb_false_l. replace (zk N) with n by (unfold N; lia). rewrite (par_ext (At lay st) A) by (intros pq Hpq; apply Ha, (Oi_data lay Hv j n pq Hpq)).
        destruct (effect j), (par A _); reflexivity.
      - intros j Hj. now rewrite O', Fo'.
    Qed.
    Lemma zk_leb a b : (zk a <=? zk b) = (a <=? b)%nat.
    Proof. destruct (Nat.leb_spec a b), (Z.leb_spec (zk a) (zk b)); lia || reflexivity. Qed.
    Lemma zk_eqb a b : (zk a =? zk b) = (a =? b)%nat.
    Proof. destruct (Nat.eqb_spec a b), (Z.eqb_spec (zk a) (zk b)); lia || reflexivity. Qed.
    Lemma par_zero Q : par (fun _ => bzero) Q = false.
    Proof. unfold par. apply xsum_false. intros pq _. apply anti2_zero_r. Qed.
    (** before it *)
    Lemma before_it : exists st, run still (par0 ++ flat_map (fun j => mpp_a j :: ann j) (seq 0 s)) (start (fun _ => bzero)) = Ok st /\ FV wrong s st /\ forall x, fr st x = bzero.
    Proof.
      destruct (zero_start wrong) as (st0 & R0 & F0 & Z0). destruct (fv_rest wrong s 0 st0 F0) as (st & R & HF & Z).
      { intros t e _ _ Ht. unfold wrong. rewrite zk_leb, zk_eqb. destruct (Nat.leb_spec s t); [lia|]. destruct (Nat.eqb_spec t s); [lia|]. cbn [andb xorb]. symmetry.
        rewrite (par_ext (At lay st0) (fun _ => bzero)); [apply par_zero | intros pq _; apply Z0]. }
      exists st. rewrite run_app, R0. split; [exact R|]. split; [exact HF | intros x; now rewrite Z].
    Qed.
    (** a Pauli error *)
    Lemma kicked err : fl = false -> (forall q, isdata lay q -> err (ix q) = A q) -> (forall j, err (snd (anc lay j)) = bzero) ->
      exists st0 st, run still (par0 ++ flat_map (fun j => mpp_a j :: ann j) (seq 0 s)) (start (fun _ => bzero)) = Ok st0 /\
        run still (flat_map (fun j => mpp_a j :: ann j) (seq s (N - s)) ++ parn) (strike err st0) = Ok st /\ outcome st.
    Proof.
      intros Hfl Ha Hz. destruct before_it as (st0 & R0 & F0 & Z0). exists st0.
      destruct (fv_rest wrong (N - s) s (strike err st0)) as (st1 & R1 & F1 & Z1).
      { destruct F0 as [? ? ? ? ? ?]. split; assumption. }
      { intros t e Ht Hin _. unfold wrong. rewrite zk_leb, Hfl. destruct (Nat.leb_spec s t); [|lia]. rewrite andb_false_r. cbn [andb]. rewrite xorb_false_r. apply par_ext. intros pq Hpq.
        unfold At, strike. cbn [with_fr fr]. rewrite Z0. destruct (round_edge_facts lay Hv (zk t) e Hin) as (Hl & Hr & _).
        rewrite Ha; [destruct (A _) as [[] []]; reflexivity|]. destruct Hpq as [<-|[<-|[]]]; assumption. }
      replace (s + (N - s))%nat with N in F1 by (unfold N; lia).
      destruct (end_ok st1 F1) as (st2 & R2 & O2).
      { intros q Hq. unfold At. rewrite Z1. unfold strike. cbn [with_fr fr]. rewrite Z0, Ha by exact Hq. destruct (A q) as [[] []]; reflexivity. }
      { intros j. rewrite Z1. unfold strike. cbn [with_fr fr]. rewrite Z0, Hz. reflexivity. }
      exists st2. split; [exact R0|]. split; [|exact O2]. rewrite run_app, R1. exact R2.
    Qed.
    (** a wrong result *)
    Lemma flip_one r : (r < length (E (zk s)))%nat -> nth r (E (zk s)) e0 = e0 -> flip r (map (fun _ => false) (E (zk s))) = map (fun e => edge_eqb e e0) (E (zk s)).
    Proof.
      pose proof (NoDup_round_edges lay Hv (zk s)) as Hn. revert r. generalize dependent (E (zk s)). intros l _ Hn. induction l as [|x l IH]; intros r Hr Hx; [cbn in Hr; lia|].
      inversion Hn as [|? ? Hx' Hn']; subst. destruct r as [|r]; cbn [map flip nth] in *.
      - subst x. rewrite (proj2 (edge_eqb_eq e0 e0) eq_refl). cbn [negb]. f_equal. apply map_ext_in. intros y Hy. symmetry. apply not_true_is_false. intros K. apply edge_eqb_eq in K. subst y. contradiction.
      - rewrite IH by (assumption || (cbn in Hr; lia)). f_equal. symmetry. apply not_true_is_false. intros K. apply edge_eqb_eq in K. subst x. apply Hx'. rewrite <- Hx at 1. apply nth_In. cbn in Hr. lia.
    Qed.
    Lemma flip_app j a b : flip (length a + j) (a ++ b) = a ++ flip j b.
    Proof. induction a as [|x a IH]; [reflexivity|]. cbn. now rewrite IH. Qed.
    Lemma misreads r : fl = true -> (forall q, A q = bzero) -> (r < length (E (zk s)))%nat -> nth r (E (zk s)) e0 = e0 ->
      exists st0 st1 st, run still (par0 ++ flat_map (fun j => mpp_a j :: ann j) (seq 0 s)) (start (fun _ => bzero)) = Ok st0 /\
        run still [mpp_a s] st0 = Ok st1 /\
        run still (ann s ++ flat_map (fun j => mpp_a j :: ann j) (seq (S s) (N - S s)) ++ parn) (misread (length (frec st0) + r) st1) = Ok st /\ outcome st.
    Proof.
      intros Hfl Ha Hr Hx. destruct before_it as (st0 & R0 & F0 & Z0). destruct (still_mpp s st0) as (st1 & R1 & G1 & G2 & G3 & G4). exists st0, st1.
      assert (PA : forall Q, par A Q = false) by (intros Q; unfold par; apply xsum_false; intros pq _; rewrite Ha; apply anti2_zero_r).
      assert (P0 : forall Q, par (At lay st0) Q = false) by (intros Q; unfold par; apply xsum_false; intros pq _; unfold At; rewrite Z0; apply anti2_zero_r).
      destruct (fv_step wrong still s st0 (misread (length (frec st0) + r) st1) F0) as (st2 & R2 & G5 & F2); [|exact G2|exact G3|].
      { cbn [misread frec]. rewrite G1, flip_app. f_equal. rewrite (map_ext _ (fun _ => false) (fun e => P0 _)), flip_one by assumption. apply map_ext. intros e. unfold wrong. rewrite PA, Z.eqb_refl, Hfl, andb_false_r. now destruct (edge_eqb e e0). }
      destruct (fv_rest wrong (N - S s) (S s) st2 F2) as (st3 & R3 & F3 & G6).
      { intros t e Ht Hin _. unfold wrong. rewrite PA, zk_eqb. destruct (Nat.eqb_spec t s); [lia|]. rewrite andb_false_r. cbn [andb xorb]. symmetry.
        unfold par. apply xsum_false. intros pq _. unfold At. rewrite G5. cbn [misread fr]. rewrite G4, Z0. apply anti2_zero_r. }
      replace (S s + (N - S s))%nat with N in F3 by (unfold N; lia).
      destruct (end_ok st3 F3) as (st4 & R4 & O4).
      { intros q Hq. unfold At. rewrite G6, G5. cbn [misread fr]. now rewrite G4, Z0, Ha. }
      { intros j. rewrite G6, G5. cbn [misread fr]. now rewrite G4, Z0. }
      exists st4. split; [exact R0|]. split; [exact R1|]. split; [|exact O4]. rewrite run_app, R2. cbn [bind]. rewrite run_app, R3. exact R4.
    Qed.
  End Effect.

  (** ** Where an error happens *)
  Lemma split_tick b rest : forall l1 i l2, filter is_tick b = [] -> b ++ tick_i :: rest = l1 ++ i :: l2 ->
    (filter is_tick l1 = [] /\ exists c2, b ++ [tick_i] = l1 ++ i :: c2 /\ l2 = c2 ++ rest) \/ exists l1', l1 = b ++ tick_i :: l1' /\ rest = l1' ++ i :: l2.
  Proof.
    induction b as [|x b IH]; intros l1 i l2 Hb Eq; cbn [app] in *.
    - destruct l1 as [|y l1]; cbn [app] in Eq; injection Eq as E1 E2.
      + left. split; [reflexivity|]. exists []. subst. auto.
      + right. exists l1. subst. auto.
    - cbn [filter] in Hb. destruct (is_tick x) eqn:Ex; [discriminate|]. destruct l1 as [|y l1]; cbn [app] in Eq; injection Eq as E1 E2.
      + left. split; [reflexivity|]. exists (b ++ [tick_i]). subst. split; [reflexivity|]. now rewrite <- app_assoc.
      + subst y. destruct (IH l1 i l2 Hb E2) as [(H1 & c2 & H2 & H3)|(l1' & H1 & H2)].
        * left. split; [cbn [filter]; now rewrite Ex|]. exists c2. rewrite H2. auto.
        * right. exists l1'. rewrite H1. auto.
  Qed.
  Lemma chunk_tick k : exists b, chunk k = b ++ [tick_i] /\ filter is_tick b = [].
  Proof.
    destruct (ann_annot k) as (l & El & Hl). exists (checks_i lay (zk k) ++ l). unfold chunk. rewrite El, app_assoc. split; [reflexivity|]. rewrite filter_app, (ticks_annot l Hl), app_nil_r. unfold checks_i. destruct (noisy lay (zk k)); reflexivity.
  Qed.
  Lemma locate m tail i l2 : forall k l1, flat_map chunk (seq k m) ++ tail = l1 ++ i :: l2 -> forall s, length (filter is_tick l1) = s -> (s < m)%nat ->
    exists c1 c2, chunk (k + s) = c1 ++ i :: c2 /\ l1 = flat_map chunk (seq k s) ++ c1 /\ l2 = c2 ++ flat_map chunk (seq (S (k + s)) (m - S s)) ++ tail.
  Proof.
    induction m as [|m IH]; intros k l1 Eq s Hs Hm; [lia|]. cbn [seq flat_map] in Eq. destruct (chunk_tick k) as (b & Eb & Hb). rewrite Eb, <- !app_assoc in Eq. cbn [app] in Eq.
    destruct (split_tick b _ l1 i l2 Hb Eq) as [(H1 & c2 & H2 & H3)|(l1' & H1 & H2)].
    - rewrite H1 in Hs. cbn in Hs. subst s. exists l1, c2. rewrite Nat.add_0_r, Eb. cbn [seq flat_map app]. replace (S m - 1)%nat with m by lia. auto.
    - rewrite H1, ticks_app in Hs. rewrite Hb in Hs. cbn [length Nat.add filter] in Hs. change (is_tick tick_i) with true in Hs. cbn [length] in Hs. destruct s as [|s]; [lia|].
      destruct (IH (S k) l1' H2 s ltac:(lia) ltac:(lia)) as (c1 & c2 & H4 & H5 & H6). exists c1, c2. replace (k + S s)%nat with (S k + s)%nat by lia. split; [exact H4|]. split; [|exact H6].
      rewrite H1, H5. cbn [seq flat_map]. now rewrite Eb, <- !app_assoc.
  Qed.
  Lemma skip_pre pre X : forall l1 i l2, filter is_tick pre = [] -> pre ++ X = l1 ++ i :: l2 -> (1 <= length (filter is_tick l1))%nat -> exists l1', l1 = pre ++ l1' /\ X = l1' ++ i :: l2.
  Proof.
    induction pre as [|x pre IH]; intros l1 i l2 Hp Eq Hl; [exists l1; auto|]. cbn [filter] in Hp. destruct (is_tick x) eqn:Ex; [discriminate|].
    destruct l1 as [|y l1]; [cbn in Hl; lia|]. cbn [app] in Eq. injection Eq as <- Eq. cbn [filter] in Hl. rewrite Ex in Hl. destruct (IH l1 i l2 Hp Eq Hl) as (l1' & -> & E2). exists l1'. auto.
  Qed.
  Lemma annot_no_fault i f : annot i \/ i = tick_i -> fault_of i f -> False.
  Proof. intros [[H|H]|H] Hf; inversion Hf; subst; cbn in *; discriminate. Qed.
  Lemma ann_no_fault k c1 i c2 f : ann k = c1 ++ i :: c2 -> fault_of i f -> False.
  Proof.
    intros Eq. destruct (ann_annot k) as (l & El & Hl). assert (Hi : In i (ann k)) by (rewrite Eq; apply in_app_iff; right; now left). rewrite El in Hi. apply in_app_iff in Hi.
    apply annot_no_fault. destruct Hi as [Hi|[<-|[]]]; [left | now right]. now apply (proj1 (Forall_forall _ _) Hl).
  Qed.
  (** the fault is an error on the qubits of a check just before it, or its wrong result *)
  Definition case_kick (s : nat) c1 i c2 f : Prop := exists err e0, f = Kick err /\ gates c1 = [] /\ gates [i] = [] /\ gates c2 = mpp_a s :: ann s /\ In e0 (E (zk s)) /\ only [ix (e_left e0); ix (e_right e0)] err.
  Definition case_read (s : nat) c1 i c2 f : Prop := exists r, f = Misread r /\ gates c1 = [] /\ gates [i] = [mpp_a s] /\ gates c2 = ann s /\ (r < length (E (zk s)))%nat.
  Lemma chunk_fault s c1 i c2 f : chunk s = c1 ++ i :: c2 -> fault_of i f -> case_kick s c1 i c2 f \/ case_read s c1 i c2 f.
  Proof.
    intros Eq Hf.
    assert (Rd : forall args c, i = mkI "MPP" (mpp_targets lay (zk s)) args -> args = (if noisy lay (zk s) then [Num (noise lay)] else []) -> gates c = [] -> c2 = ann s -> c1 = c -> case_read s c1 i c2 f).
    { intros args c Hi Ha Hc H2 H1. subst i c1 c2. inversion Hf; subst. match goal with H : products _ = Ok _ |- _ => rewrite mpp_products in H; injection H as H; subst l end.
      match goal with H : (k < _)%nat |- _ => rewrite map_length in H; exists k; repeat split; auto end. apply gates_ann. }
    unfold chunk, checks_i in Eq. unfold case_kick. unfold mpp_a in *. destruct (noisy lay (zk s)) eqn:En; cbn [app] in Eq.
    - destruct c1 as [|x c1]; cbn [app] in Eq; injection Eq as E1 E2.
      + left. subst i c2. inversion Hf as [|ts1 a b ts2 args err Hev Ho Hts | | | |]; subst. unfold qs, pairs, pair_qubits in Hts.
        rewrite flat_map_concat_map, concat_map, map_map, <- flat_map_concat_map in Hts. cbn [map] in Hts. symmetry in Hts.
        destruct (even_pairs (fun e => TQ (ix (e_left e))) (fun e => TQ (ix (e_right e))) _ _ _ _ _ Hts Hev) as (e0 & Hin & Ea & Eb). injection Ea as ->. injection Eb as ->.
        exists err, e0. repeat split; auto. change (gates (mkI "MPP" (mpp_targets lay (zk s)) [Num (noise lay)] :: ann s)) with (mkI "MPP" (mpp_targets lay (zk s)) [Num (noise lay)] :: gates (ann s)). now rewrite gates_ann.
      + destruct c1 as [|y c1]; cbn [app] in E2; injection E2 as E2 E3.
        * right. eapply (Rd _ [x]); [symmetry; exact E2 | reflexivity | subst x; reflexivity | symmetry; exact E3 | reflexivity].
        * exfalso. exact (ann_no_fault s c1 i c2 f E3 Hf).
    - destruct c1 as [|x c1]; cbn [app] in Eq; injection Eq as E1 E2.
      + right. eapply (Rd _ []); [symmetry; exact E1 | reflexivity | reflexivity | symmetry; exact E2 | reflexivity].
      + exfalso. exact (ann_no_fault s c1 i c2 f E2 Hf).
  Qed.
  Definition acted (err : nat -> bits) (q : cpx) : bits := if cmem q (data_qubit_coords lay) then err (ix q) else bzero.
  Lemma acted_data err q : isdata lay q -> err (ix q) = acted err q.
  Proof. intros Hq. unfold acted. replace (cmem q (data_qubit_coords lay)) with true; [reflexivity|]. symmetry. apply cmem_In. now apply (in_data lay Hv). Qed.
  Lemma acted_off err e0 s q : In e0 (E s) -> only [ix (e_left e0); ix (e_right e0)] err -> q <> e_left e0 -> q <> e_right e0 -> acted err q = bzero.
  Proof.
    intros Hin Ho Hl Hr. unfold acted. destruct (cmem q (data_qubit_coords lay)) eqn:K; [|reflexivity]. apply cmem_In, (in_data lay Hv) in K. destruct (round_edge_facts lay Hv s e0 Hin) as (Dl & Dr & _).
    apply Ho. intros [F|[F|[]]]; apply (ix_inj lay Hv) in F; try (apply data_in_qubits; assumption); congruence.
  Qed.
  Lemma anc_off err e0 s j : In e0 (E s) -> only [ix (e_left e0); ix (e_right e0)] err -> err (snd (anc lay j)) = bzero.
  Proof.
    intros Hin Ho. destruct (round_edge_facts lay Hv s e0 Hin) as (Dl & Dr & _). apply Ho. pose proof (ix_lt lay Hv He _ Dl). pose proof (ix_lt lay Hv He _ Dr). pose proof (anc_ge lay j). intros [F|[F|[]]]; lia.
  Qed.
  (** The difference that a fault makes. *)
  Theorem fault_run c l1 i f l2 s : double_epr_circuit lay = Ok c -> flatten c = l1 ++ i :: l2 -> fault_of i f -> length (filter is_tick l1) = s -> (1 <= s)%nat -> zk s < n ->
    exists e0 A fl, In e0 (E (zk s)) /\ (forall q, q <> e_left e0 -> q <> e_right e0 -> A q = bzero) /\ (fl = true -> forall q, A q = bzero) /\
      exists st, run_faulty still l1 i f l2 (start (fun _ => bzero)) = Ok st /\ outcome s e0 A fl st.
  Proof.
    intros Hc Ef Hf Ht Hs1 Hsn. destruct (epr_circuit ltac:(lia)) as (c' & Hc' & Fc). rewrite Hc in Hc'. injection Hc' as <-. rewrite Fc in Ef.
    destruct (skip_pre par0 _ l1 i l2 ltac:(reflexivity) Ef ltac:(lia)) as (l1' & -> & E1). rewrite ticks_app in Ht. change (length (filter is_tick par0)) with 0%nat in Ht. cbn [Nat.add] in Ht.
    destruct (locate _ _ _ _ 0 l1' E1 s Ht ltac:(lia)) as (c1 & c2 & Ec & El1 & El2). cbn [Nat.add] in *.
    assert (G1 : gates (par0 ++ l1') = par0 ++ flat_map (fun j => mpp_a j :: ann j) (seq 0 s) ++ gates c1) by (rewrite El1, !gates_app, gates_chunks; reflexivity).
    assert (G2 : gates l2 = gates c2 ++ flat_map (fun j => mpp_a j :: ann j) (seq (S s) (Z.to_nat n - S s)) ++ parn) by (rewrite El2, !gates_app, gates_chunks; reflexivity).
    unfold run_faulty. rewrite G1, G2. destruct (chunk_fault s c1 i c2 f Ec Hf) as [(err & e0 & -> & -> & -> & -> & Hin & Ho)|(r & -> & -> & -> & -> & Hr)]; rewrite app_nil_r.
    - exists e0, (acted err), false. split; [exact Hin|]. split; [intros q; now apply (acted_off err e0 (zk s))|]. split; [discriminate|].
      destruct (kicked s e0 (acted err) false Hin Hsn err eq_refl (acted_data err) (fun j => anc_off err e0 (zk s) j Hin Ho)) as (st0 & st & R0 & R1 & O1).
      exists st. rewrite R0. cbn [bind run happens]. split; [|exact O1]. rewrite <- R1. f_equal. replace (Z.to_nat n - s)%nat with (S (Z.to_nat n - S s)) by lia. cbn [seq flat_map]. now rewrite <- app_assoc.
    - set (d := nth r (E (zk s)) (mkEdge (0, 0) (0, 0) (0, 0))). assert (Hin : In d (E (zk s))) by now apply nth_In.
      exists d, (fun _ => bzero), true. split; [exact Hin|]. split; [reflexivity|]. split; [reflexivity|].
      destruct (misreads s d (fun _ => bzero) true Hin Hsn r eq_refl (fun _ => eq_refl) Hr (nth_indep _ _ _ Hr)) as (st0 & st1 & st & R0 & R1 & R2 & O2).
      exists st. rewrite R0, bind_ok, R1, bind_ok. cbn [happens]. split; [exact R2 | exact O2].
  Qed.

  (** ** What no detector notices *)
  Section Seen.
    Variable s : nat.
    Variable e0 : edge.
    Variable A : cpx -> bits.
    Variable fl : bool.
    Hypothesis He0 : In e0 (E (zk s)).
    Hypothesis HA : forall q, q <> e_left e0 -> q <> e_right e0 -> A q = bzero.
    Notation a := (e_left e0).
    Notation b := (e_right e0).
    Notation wr := (wrong s e0 A fl).
    Lemma ab : isdata lay a /\ isdata lay b /\ a <> b /\ b = LayoutEdges.partner lay (zk s) a /\ a = LayoutEdges.partner lay (zk s) b.
    Proof.
      destruct (round_edge_facts lay Hv (zk s) e0 He0) as (Hl & Hr & Pl & Pr & E1 & E2 & _). refine (conj Hl (conj Hr (conj _ (conj E1 E2)))). intros F. rewrite F in Pl. congruence.
    Qed.
    Lemma par_ab p l : NoDup l -> par A (pstr p l) = xorb (cmem a l && anti2 (pbits p) (A a)) (cmem b l && anti2 (pbits p) (A b)).
    Proof. intros H. apply par_two; auto. apply ab. Qed.
    Lemma hv_eq t h : In h (H1 lay t) -> hv wr t h = xorb ((zk s <=? t) && par A (half_op lay h)) (((t =? zk s) && fl) && emem e0 (first_edges_around_hex lay h)).
    Proof.
      intros Hh. destruct (hexcat1 lay Hv t h Hh) as [Ih Hc]. unfold hv, wrong. rewrite xsum_xorb, (xsum_pick edge_eqb edge_eqb_eq) by (now apply NoDup_first). f_equal.
      destruct (zk s <=? t); cbn [andb]; [|now apply xsum_false]. rewrite par_edges. unfold half_op. rewrite (par_pstr_perm _ _ _ _ (first_edges_cover lay h)). do 2 f_equal. now apply xyz_eq.
    Qed.
    Lemma hexv_eq t h : In h (H2 lay t) -> hexv wr t h =
      xorb (xorb ((zk s <=? t) && par A (half_op2 lay h)) ((zk s + 1 <=? t) && par A (half_op lay h)))
           (xorb (((t =? zk s) && fl) && emem e0 (second_edges_around_hex lay h)) (((t =? zk s + 1) && fl) && emem e0 (first_edges_around_hex lay h))).
    Proof.
      intros Hh. destruct (hexcat2 lay Hv t h Hh) as [Ih Hc]. unfold hexv. rewrite hv_eq by now apply H2_H1.
      replace (zk s <=? t - 1) with (zk s + 1 <=? t) by (destruct (Z.leb_spec (zk s + 1) t), (Z.leb_spec (zk s) (t - 1)); lia || reflexivity).
      replace (t - 1 =? zk s) with (t =? zk s + 1) by (destruct (Z.eqb_spec t (zk s + 1)), (Z.eqb_spec (t - 1) (zk s)); lia || reflexivity).
      replace (xsum (wr t) (second_edges_around_hex lay h)) with (xorb ((zk s <=? t) && par A (half_op2 lay h)) (((t =? zk s) && fl) && emem e0 (second_edges_around_hex lay h))); [apply xorb_swap|].
      unfold wrong. rewrite xsum_xorb, (xsum_pick edge_eqb edge_eqb_eq) by (now apply NoDup_second). f_equal.
      destruct (zk s <=? t); cbn [andb]; [|symmetry; now apply xsum_false]. rewrite par_edges. unfold half_op2. rewrite (par_pstr_perm _ _ _ _ (second_edges_cover lay h)). do 2 f_equal. symmetry. now apply xyz_eq.
    Qed.
    (** hexagons of category s are on one end of the check only *)
    Lemma one_end q : 4 <= data_width lay -> q = a \/ q = b -> let h := hexq lay (zk s) q in
      In h (H2 lay (zk s + 2)) /\ par A (hex_op lay h) = anti2 (pbits (xyz (zk s))) (A q).
    Proof.
      intros Hw Hq h. destruct ab as (Ha & Hb & Nab & Eb & Ea). assert (Dq : isdata lay q) by (destruct Hq as [->| ->]; assumption).
      destruct (hexq_ishex lay Hv (zk s) q Dq) as [Ih Ch]. fold h in Ih, Ch.
      assert (Hin : In q (qubits_around_hex lay h)) by (apply (mem_around lay Hv); auto; apply (hexq_self lay Hv); exact Dq).
      assert (Hout : forall q', (q = a /\ q' = b) \/ (q = b /\ q' = a) -> ~ In q' (qubits_around_hex lay h)).
      { intros q' C Hin'. apply (in_around lay Hv h q' Ih) in Hin'. destruct Hin' as [Dq' F]. rewrite Ch in F. rewrite (hexq_mod lay (zk s mod 3) (zk s)) in F by dlia. unfold h in F.
        apply (hexq_apart lay Hv (zk s) q Hw Dq). rewrite <- F. f_equal. destruct C as [[-> ->]|[-> ->]]; symmetry; assumption. }
      split; [unfold h; rewrite (hexq_mod lay (zk s) (zk s + 2 - 2)) by (f_equal; lia); now apply (hexq_H2 lay Hv)|].
      unfold hex_op. replace (xyz (hexcat h)) with (xyz (zk s)) by (apply xyz_eq; rewrite Ch; dlia).
      rewrite par_ab by (now apply NoDup_around). apply cmem_In in Hin. destruct Hq as [Eq|Eq]; subst q.
      - rewrite Hin, (proj2 (cmem_false b _) (Hout b (or_introl (conj eq_refl eq_refl)))). cbn [andb]. apply xorb_false_r.
      - rewrite Hin, (proj2 (cmem_false a _) (Hout a (or_intror (conj eq_refl eq_refl)))). cbn [andb]. apply xorb_false_l.
    Qed.
    (** the check is among the edges around its hexagons of the other two categories *)
    Lemma both_second : let h := hexq lay (zk s + 1) a in ishex lay h /\ hexcat h = (zk s + 1) mod 3 /\ In h (H2 lay (zk s)) /\ In a (qubits_around_hex lay h) /\ In b (qubits_around_hex lay h) /\ emem e0 (second_edges_around_hex lay h) = true.
    Proof.
      intros h. destruct ab as (Ha & Hb & Nab & Eb & Ea). destruct (hexq_ishex lay Hv (zk s + 1) a Ha) as [Ih Ch]. fold h in Ih, Ch. split; [exact Ih|]. split; [exact Ch|].
      assert (Aa : In a (qubits_around_hex lay h)) by (apply (mem_around lay Hv); auto; now apply (hexq_self lay Hv)).
      split; [unfold h; rewrite (hexq_mod lay (zk s + 1) (zk s - 2)) by dlia; now apply (hexq_H2 lay Hv)|]. split; [exact Aa|].
      split; [apply (mem_around lay Hv); auto; rewrite Eb, (hexq_partner lay Hv) by (first [exact Ha | rewrite Ch; dlia]); now apply (hexq_self lay Hv)|].
      apply emem_In. apply (in_second lay Hv h e0 a Ih); [|now left|exact Aa]. rewrite <- round_edges_mod. replace ((hexcat h + 2) mod 3) with (zk s mod 3) by (rewrite Ch; dlia). now rewrite round_edges_mod.
    Qed.
    Lemma both_first : let h := hexq lay (zk s + 2) a in ishex lay h /\ hexcat h = (zk s + 2) mod 3 /\ In h (H2 lay (zk s + 1)) /\ In a (qubits_around_hex lay h) /\ In b (qubits_around_hex lay h) /\ emem e0 (first_edges_around_hex lay h) = true.
    Proof.
      intros h. destruct ab as (Ha & Hb & Nab & Eb & Ea). destruct (hexq_ishex lay Hv (zk s + 2) a Ha) as [Ih Ch]. fold h in Ih, Ch. split; [exact Ih|]. split; [exact Ch|].
      assert (Aa : In a (qubits_around_hex lay h)) by (apply (mem_around lay Hv); auto; now apply (hexq_self lay Hv)).
      split; [unfold h; rewrite (hexq_mod lay (zk s + 2) (zk s + 1 - 2)) by dlia; now apply (hexq_H2 lay Hv)|]. split; [exact Aa|].
      split; [apply (mem_around lay Hv); auto; rewrite Eb, (hexq_partner lay Hv) by (first [exact Ha | rewrite Ch; dlia]); now apply (hexq_self lay Hv)|].
      apply emem_In. apply (in_first lay Hv h e0 a Ih); [|now left|exact Aa]. rewrite <- round_edges_mod. replace ((hexcat h + 1) mod 3) with (zk s mod 3) by (rewrite Ch; dlia). now rewrite round_edges_mod.
    Qed.
    Lemma in_gone t h : (t < Z.to_nat n)%nat -> 6 <= zk t -> In h (H2 lay (zk t)) -> In (xorb (hexv wr (zk t) h) (hexv wr (zk t - 3) h)) (gone wr (Z.to_nat n)).
    Proof. intros Ht H6 Hh. apply in_flat_map. exists t. split; [apply in_seq; lia|]. replace (6 <=? zk t) with true by (symmetry; now apply Z.leb_le). apply in_map_iff. eauto. Qed.

    Hypothesis Hfl : fl = true -> forall q, A q = bzero.
    Hypothesis Hw : 4 <= data_width lay.
    Hypothesis H4 : 4 <= zk s.
    Hypothesis Hn : zk s + 3 <= n.
    Hypothesis H4' : zk s = 4 -> 8 <= n.
    Hypothesis HQ : forall x, In x (gone wr (Z.to_nat n)) -> x = false.
    Lemma quiet t h : 6 <= t < n -> In h (H2 lay t) -> hexv wr t h = hexv wr (t - 3) h.
    Proof.
      intros Ht Hh. pose proof (HQ _ (in_gone (Z.to_nat t) h ltac:(lia) ltac:(lia) ltac:(rewrite Z2Nat.id by lia; exact Hh))) as K. rewrite Z2Nat.id in K by lia.
      destruct (hexv wr t h), (hexv wr (t - 3) h); cbn in K; congruence.
    Qed.
    Ltac bits := repeat match goal with |- context [?x <=? ?y] => destruct (Z.leb_spec x y); try lia | |- context [?x =? ?y] => destruct (Z.eqb_spec x y); try lia
      | H : context [?x <=? ?y] |- _ => destruct (Z.leb_spec x y); try lia | H : context [?x =? ?y] |- _ => destruct (Z.eqb_spec x y); try lia end.
    Theorem seen j : (j < 4)%nat -> effect s e0 A fl j = false.
    Proof.
      intros Hj. unfold effect. assert (C : fl = true \/ fl = false) by (clear; destruct fl; auto). destruct C as [Efl|Efl].
      - exfalso. assert (PA : forall Q, par A Q = false) by (intros Q; unfold par; apply xsum_false; intros pq _; rewrite (Hfl Efl); apply anti2_zero_r).
        destruct (Z.eq_dec (zk s) 4) as [E4|E4].
        + destruct both_second as (Ih & Ch & Hh & _ & _ & Em). set (h := hexq lay (zk s + 1) a) in *. clearbody h.
          assert (Hh3 : In h (H2 lay (zk s + 3))) by (unfold H2 in *; now replace ((zk s + 3 - 2) mod 3) with ((zk s - 2) mod 3) by dlia).
          pose proof (quiet (zk s + 3) h ltac:(lia) Hh3) as Q. rewrite hexv_eq in Q by exact Hh3. replace (zk s + 3 - 3) with (zk s) in Q by lia. rewrite hexv_eq in Q by exact Hh. rewrite !PA, Efl, !andb_false_r, Em in Q. bits. cbn in Q. discriminate.
        + destruct both_first as (Ih & Ch & Hh & _ & _ & Em). set (h := hexq lay (zk s + 2) a) in *. clearbody h.
          pose proof (quiet (zk s + 1) h ltac:(lia) Hh) as Q. rewrite hexv_eq in Q by exact Hh. rewrite hexv_eq in Q by now apply H2_back. rewrite !PA, Efl, !andb_false_r, Em in Q. bits. cbn in Q. discriminate.
      - rewrite Efl. cbn [andb]. rewrite xorb_false_r.
        assert (Oe : forall q, q = a \/ q = b -> anti2 (pbits (xyz (zk s))) (A q) = false).
        { intros q Hq. destruct (one_end q Hw Hq) as [Hh <-]. set (h := hexq lay (zk s) q) in *. clearbody h.
          pose proof (quiet (zk s + 2) h ltac:(lia) Hh) as Q. rewrite hexv_eq in Q by exact Hh. rewrite hexv_eq in Q by now apply H2_back. rewrite Efl, !andb_false_r in Q. rewrite (hex_halves lay A h). bits. cbn [andb xorb] in Q. rewrite !xorb_false_r in Q. exact Q. }
        assert (Eq : anti2 (pbits (xyz (zk s - 1))) (A a) = anti2 (pbits (xyz (zk s - 1))) (A b)).
        { destruct (Z.eq_dec (zk s) 4) as [E4|E4].
          - destruct both_second as (Ih & Ch & Hh & Aa & Ab & Em). set (h := hexq lay (zk s + 1) a) in *. clearbody h.
            assert (Hh3 : In h (H2 lay (zk s + 3))) by (unfold H2 in *; now replace ((zk s + 3 - 2) mod 3) with ((zk s - 2) mod 3) by dlia).
            pose proof (quiet (zk s + 3) h ltac:(lia) Hh3) as Q. rewrite hexv_eq in Q by exact Hh3. replace (zk s + 3 - 3) with (zk s) in Q by lia. rewrite hexv_eq in Q by exact Hh. rewrite Efl, !andb_false_r in Q. bits. cbn [andb xorb] in Q. rewrite !xorb_false_r in Q.
            unfold half_op in Q. rewrite par_ab in Q by (now apply NoDup_around). apply cmem_In in Aa, Ab. rewrite Aa, Ab in Q. cbn [andb] in Q. replace (xyz (hexcat h + 1)) with (xyz (zk s - 1)) in Q by (apply xyz_eq; rewrite Ch; dlia).
            destruct (par A (half_op2 lay h)), (anti2 _ (A a)), (anti2 _ (A b)); cbn in Q; congruence.
          - destruct both_first as (Ih & Ch & Hh & Aa & Ab & Em). set (h := hexq lay (zk s + 2) a) in *. clearbody h.
            pose proof (quiet (zk s + 1) h ltac:(lia) Hh) as Q. rewrite hexv_eq in Q by exact Hh. rewrite hexv_eq in Q by now apply H2_back. rewrite Efl, !andb_false_r in Q. bits. cbn [andb xorb] in Q. rewrite !xorb_false_r in Q.
            rewrite <- (hex_halves lay A h) in Q. unfold hex_op in Q. rewrite par_ab in Q by (now apply NoDup_around). apply cmem_In in Aa, Ab. rewrite Aa, Ab in Q. cbn [andb] in Q. replace (xyz (hexcat h)) with (xyz (zk s - 1)) in Q by (apply xyz_eq; rewrite Ch; dlia).
            destruct (anti2 _ (A a)), (anti2 _ (A b)); cbn in Q; congruence. }
        pose proof (Oe a (or_introl eq_refl)) as Fa. pose proof (Oe b (or_intror eq_refl)) as Fb.
        assert (X : exists x, A a = bsel x (pbits (xyz (zk s))) /\ A b = bsel x (pbits (xyz (zk s)))).
        { revert Fa Fb Eq. clear. unfold xyz. assert (C : zk s mod 3 = 0 \/ zk s mod 3 = 1 \/ zk s mod 3 = 2) by dlia.
          destruct C as [C|[C|C]]; rewrite C; [replace ((zk s - 1) mod 3) with 2 by (revert C; dlia) | replace ((zk s - 1) mod 3) with 0 by (revert C; dlia) | replace ((zk s - 1) mod 3) with 1 by (revert C; dlia)];
          destruct (A a) as [[] []], (A b) as [[] []]; cbn; intros; try discriminate; first [exists true; split; reflexivity | exists false; split; reflexivity]. }
        destruct X as (x & Xa & Xb). destruct (Oi_pstr lay j (zk s)) as (p & l & El & Hl). pose proof (Oi_edge lay Hv j (zk s) e0 He0) as K. rewrite El in *.
        rewrite par_ab, Xa, Xb by exact Hl. destruct x; cbn [bsel]; [|now rewrite anti2_zero_r, !andb_false_r].
        rewrite anticommutes_sym, anti_par in K. rewrite (par_two (bits_at (edge_op (xyz (zk s)) e0)) a b) in K; [|exact Hl|apply ab|].
        + rewrite <- K. unfold edge_op, ends. rewrite !bits_at_pstr by (repeat constructor; cbn; intuition; destruct ab as (_ & _ & Nab & _); congruence).
          cbn [cmem existsb]. rewrite !cpx_eqb_refl, orb_true_r. cbn [orb]. reflexivity.
        + intros q Q1 Q2. unfold edge_op. rewrite bits_at_pstr by (repeat constructor; cbn; intuition; destruct ab as (_ & _ & Nab & _); congruence).
          destruct (cmem q _) eqn:F; [|reflexivity]. apply cmem_In in F. destruct F as [F|[F|[]]]; congruence.
    Qed.
  End Seen.
End F.
