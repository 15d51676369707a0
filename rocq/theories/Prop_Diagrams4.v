(** C65: pictures of the honeycomb circuits. *)
From Coq Require Import QArith Qround Ascii Lqa.
From Verif Require Import Prelude Layout LayoutFacts LayoutEdges LayoutLists LayoutHex LayoutHex2 Pauli LayoutObs LayoutLogic LayoutIndex
  Tracker TrackerFacts Stim Circuit Noise Annot Shift Ends Gen Gen2 Gen3 Traj Eval Frame Exec Exec2 Exec3 Exec4 Moments Prop_Circuit NoiseFacts NoiseMoments GenShape
  Text Collect Prop_Collect Diagrams Prop_Diagrams Prop_Diagrams2 Prop_Diagrams3.
Open Scope Z_scope.

Section S.
  Variable lay : layout.
  Hypothesis Hv : valid lay.
  Hypothesis Hobs : obs lay = "V"%string \/ obs lay = "H"%string.
  Notation n := (sub_rounds lay).
  Notation annk := (annk lay (tr0 lay)).
  Notation mop := (mop lay).
  Notation ix := (ix lay).
  Notation used := (used_ix lay).
  Local Opaque data_qubit_coords measure_qubit_coords q2i_dict hex_entries hexes round_edges all_edges isort.
  (** What each instruction shows, and on which qubits. *)
  Definition pict (i : instr) : Prop := exists s l, shown i s l /\ map fst s = touched i /\ incl (touched i) used.

  Lemma used_all q : is_em3 (style lay) = false -> In q (qubits lay) -> In (ix q) used.
  Proof. intros H Hq. unfold used_ix. apply in_map. unfold used_qubit_coords. rewrite H. now rewrite (q2i_dict_keys lay Hv). Qed.
  Lemma used_data q : In q (data_qubit_coords lay) -> In (ix q) used.
  Proof.
    intros Hq. unfold used_ix. apply in_map. unfold used_qubit_coords. destruct (is_em3 (style lay)); [exact Hq|]. rewrite (q2i_dict_keys lay Hv). apply in_or_app. now left.
  Qed.
  Lemma pict_silent name ts args : In name silent -> flat_map qubits_of ts = [] \/ name = "QUBIT_COORDS"%string -> pict (mkI name ts args).
  Proof.
    intros H T. exists [], []. split; [now constructor|]. assert (E : touched (mkI name ts args) = []).
    { unfold touched. cbn [iname itargets]. destruct T as [->| ->]; [|reflexivity]. now destruct (_ =? _)%string. }
    rewrite E. split; [reflexivity|intros x []].
  Qed.
  Lemma pict_one name c l : In (name, c) letters1 -> canon name <> "QUBIT_COORDS"%string -> incl l used -> pict (g name l).
  Proof.
    intros H N K. exists (map (fun q => (q, c)) l), []. split; [unfold g, qs; now constructor|]. rewrite t_g by exact N. split; [|exact K]. rewrite map_map. cbn [fst]. apply map_id.
  Qed.
  Lemma pict_two name c d (ps : list (nat * nat)) l : In (name, (c, d)) letters2 -> canon name <> "QUBIT_COORDS"%string -> l = flat_map (fun '(a, b) => [a; b]) ps -> incl l used -> pict (g name l).
  Proof.
    intros H N -> K. exists (flat_map (fun '(a, b) => [(a, c); (b, d)]) ps), ps. split.
    - unfold g, qs. replace (map TQ (flat_map (fun '(a, b) => [a; b]) ps)) with (flat_map (fun '(a, b) => [TQ a; TQ b]) ps); [now constructor|].
      clear. induction ps as [|[a b] ps IH]; [reflexivity|]. cbn. now rewrite IH.
    - rewrite t_g by exact N. split; [|exact K]. clear. induction ps as [|[a b] ps IH]; [reflexivity|]. cbn. now rewrite IH.
  Qed.
  Lemma pict_det t v co : Forall pict (det t v co).
  Proof.
    destruct v as [s|]; [|constructor]. constructor; [|constructor]. apply pict_silent; [cbn; tauto|]. left. unfold tg. induction (isort Nat.leb s) as [|x l IH]; [reflexivity|]. exact IH.
  Qed.
  Lemma pict_obs t s k : pict (mkI "OBSERVABLE_INCLUDE" (tg t s) k).
  Proof. apply pict_silent; [cbn; tauto|]. left. unfold tg. induction (isort Nat.leb s) as [|x l IH]; [reflexivity|]. exact IH. Qed.
  Lemma pict_flat {X} (f : X -> list instr) l : (forall x, Forall pict (f x)) -> Forall pict (flat_map f l).
  Proof. intros H. induction l as [|x l IH]; [constructor|]. cbn [flat_map]. apply Forall_app. auto. Qed.
  Lemma pict_tick : pict tick_i.
  Proof. apply pict_silent; [cbn; tauto|now left]. Qed.
  Lemma pict_ann k : Forall pict (annk k).
  Proof.
    unfold Shift.annk, ann. repeat (apply Forall_app; split).
    - unfold obsinc. destruct (pc3 lay); [constructor|]. destruct (comb _); [|constructor]. constructor; [apply pict_obs | constructor].
    - unfold dets0. destruct (_ && _); [|constructor]. apply pict_flat. intros; apply pict_det.
    - apply pict_flat. intros; apply pict_det.
    - constructor; [|constructor]. apply pict_silent; [cbn; tauto|now left].
  Qed.
  Lemma incl_centers s : is_em3 (style lay) = false -> incl (centers lay s) used.
  Proof. intros H x Hx. unfold centers in Hx. apply in_map_iff in Hx as (e & <- & He). apply used_all; [exact H|]. now apply (ends_in lay Hv s e). Qed.
  Lemma incl_lpairs s : is_em3 (style lay) = false -> incl (lpairs lay s) used.
  Proof. intros H x Hx. unfold lpairs in Hx. apply in_flat_map in Hx as (e & He & Hx). destruct (ends_in lay Hv s e He) as (A & B & C). destruct Hx as [<-|[<-|[]]]; now apply used_all. Qed.
  Lemma incl_rpairs s : is_em3 (style lay) = false -> incl (rpairs lay s) used.
  Proof. intros H x Hx. unfold rpairs in Hx. apply in_flat_map in Hx as (e & He & Hx). destruct (ends_in lay Hv s e He) as (A & B & C). destruct Hx as [<-|[<-|[]]]; now apply used_all. Qed.
  Lemma incl_data : incl (Ends.data_ix lay) used.
  Proof. intros x Hx. unfold Ends.data_ix in Hx. apply in_map_iff in Hx as (q & <- & Hq). now apply used_data. Qed.
  Lemma incl_data1 : incl (data1 lay) used.
  Proof. intros x Hx. unfold data1 in Hx. apply in_map_iff in Hx as (q & <- & Hq). apply filter_In in Hq as [Hq _]. now apply used_data. Qed.
  Lemma incl_data2 : incl (data2 lay) used.
  Proof. intros x Hx. unfold data2 in Hx. apply in_map_iff in Hx as (q & <- & Hq). apply filter_In in Hq as [Hq _]. now apply used_data. Qed.
  Lemma incl_meas : is_em3 (style lay) = false -> incl (meas_ix lay) used.
  Proof. intros H x Hx. unfold meas_ix in Hx. apply in_map_iff in Hx as (q & <- & Hq). apply used_all; [exact H|]. apply in_or_app. now right. Qed.
  Lemma lpairs_ps s : lpairs lay s = flat_map (fun '(a, b) => [a; b]) (map (fun e => (ix (e_left e), ix (e_center e))) (round_edges lay s)).
  Proof. unfold lpairs. induction (round_edges lay s) as [|e l IH]; [reflexivity|]. cbn. now rewrite IH. Qed.
  Lemma rpairs_ps s : rpairs lay s = flat_map (fun '(a, b) => [a; b]) (map (fun e => (ix (e_right e), ix (e_center e))) (round_edges lay s)).
  Proof. unfold rpairs. induction (round_edges lay s) as [|e l IH]; [reflexivity|]. cbn. now rewrite IH. Qed.
  Lemma pict_l name c d s : In (name, (c, d)) letters2 -> canon name <> "QUBIT_COORDS"%string -> is_em3 (style lay) = false -> pict (g name (lpairs lay s)).
  Proof. intros H N E. eapply pict_two; [exact H|exact N|apply lpairs_ps|now apply incl_lpairs]. Qed.
  Lemma pict_r name c d s : In (name, (c, d)) letters2 -> canon name <> "QUBIT_COORDS"%string -> is_em3 (style lay) = false -> pict (g name (rpairs lay s)).
  Proof. intros H N E. eapply pict_two; [exact H|exact N|apply rpairs_ps|now apply incl_rpairs]. Qed.
  Lemma pict_mop s : Forall pict (mop s).
  Proof. unfold mop. destruct (is_em3 _) eqn:E; [constructor|]. constructor; [|constructor]. apply (pict_one "M" "M"); [cbn; tauto|discriminate|now apply incl_centers]. Qed.
  Lemma pict_mpp k : pict (mkI "MPP" (mpp_targets lay k) []).
  Proof.
    set (gs := map (fun e => [(xyz k, ix (e_left e)); (xyz k, ix (e_right e))]) (round_edges lay k)).
    assert (E : mpp_targets lay k = flat_map product_targets (map (map (fun '(P, q) => TP P q)) gs)).
    { unfold mpp_targets, gs. induction (round_edges lay k) as [|e l IH]; [reflexivity|]. cbn [map flat_map product_targets app]. now rewrite IH. }
    eexists _, _. split.
    - rewrite E. apply shown_mpp. apply Forall_forall. intros g Hg. apply in_map_iff in Hg as (e & <- & _). now right.
    - split.
      + clear E. unfold touched, mpp_targets, gs. clear gs. cbn [iname itargets canon String.eqb Ascii.eqb Bool.eqb]. induction (round_edges lay k) as [|e l IH]; [reflexivity|]. cbn [map flat_map app fst qubits_of]. cbn [map flat_map app fst qubits_of] in IH. now rewrite IH.
      + intros x Hx. unfold touched, mpp_targets in Hx. cbn [iname itargets canon String.eqb Ascii.eqb Bool.eqb] in Hx. apply in_flat_map in Hx as (t & Ht & Hx). apply in_flat_map in Ht as (e & He & Ht).
        destruct (round_edge_facts lay Hv k e He) as (Hl & Hr & _). apply (in_data lay Hv) in Hl, Hr.
        destruct Ht as [<-|[<-|[<-|[]]]]; cbn [qubits_of In] in Hx; [destruct Hx as [<-|[]]; now apply used_data|destruct Hx|destruct Hx as [<-|[]]; now apply used_data].
  Qed.
  Ltac one E := first
    [ apply pict_tick
    | match goal with |- pict (g ?nm _) => apply (pict_l nm "@" "X"); [cbn; tauto|discriminate|exact E] end
    | match goal with |- pict (g ?nm _) => apply (pict_r nm "@" "X"); [cbn; tauto|discriminate|exact E] end
    | match goal with |- pict (g ?nm _) => apply (pict_l nm "@" "Z"); [cbn; tauto|discriminate|exact E] end
    | match goal with |- pict (g ?nm _) => apply (pict_r nm "@" "Z"); [cbn; tauto|discriminate|exact E] end
    | eapply pict_one; [cbn; tauto|discriminate|first [apply incl_data | apply incl_data1 | apply incl_data2 | apply incl_meas; exact E | apply incl_centers; exact E]] ].
  Ltac okp E := repeat first [apply pict_ann | apply pict_mop | apply Forall_app; split | apply Forall_cons; [one E|] | apply Forall_nil].
  Theorem circuit_pict : supported lay -> Forall pict (circuit_i lay).
  Proof.
    intros (Hn & Hs).
    assert (Hh : forall p, Forall pict (hdata lay p)).
    { intros []; unfold hdata; cbn [pauli_eqb]; [| |constructor]; (constructor; [|constructor; [apply pict_tick|constructor]]).
      - apply (pict_one "H" "H"); [cbn; tauto|discriminate|apply incl_data].
      - apply (pict_one "H_YZ" "G"); [cbn; tauto|discriminate|apply incl_data]. }
    unfold circuit_i. apply Forall_app. split; [|apply Forall_app; split; [|apply Forall_app; split]].
    - unfold coords_i. apply Forall_forall. intros i Hi. apply in_map_iff in Hi as (q & <- & _). apply pict_silent; [cbn; tauto|now right].
    - unfold init_i. apply Forall_app. split; [|apply Hh]. constructor; [|constructor; [apply pict_tick|constructor]]. apply (pict_one "R" "R"); [cbn; tauto|discriminate|apply incl_refl].
    - unfold body_i. assert (HE : Forall pict (em3_body lay)).
      { unfold em3_body, em3_i. apply pict_flat. intros k. apply Forall_app. split; [constructor; [apply pict_mpp|constructor]|]. repeat first [apply pict_ann | apply pict_mop | apply Forall_app; split | apply Forall_cons; [apply pict_tick|] | apply Forall_nil]. }
      destruct Hs as [Es|[Es|[Es|[Es|[Es H3]]]]]; rewrite Es.
      + change (Forall pict (sd6_body lay)). assert (E : is_em3 (style lay) = false) by (now rewrite Es).
        unfold sd6_body, sd6_single_i, sd6_begin_i, sd6_step_i, sd6_end_i, sd6_close_i. apply Forall_app. split; [destruct (_ =? _)|destruct (_ =? _); [|destruct (_ =? _)]]; okp E.
        apply pict_flat. intros k. okp E.
      + change (Forall pict (pc3_body lay)). assert (E : is_em3 (style lay) = false) by (now rewrite Es). unfold pc3_body. apply Forall_app. split.
        * apply pict_flat. intros k. unfold pc3_i. repeat (apply Forall_app; split).
          -- destruct (_ <? _); [|constructor]. constructor; [|constructor]. unfold pcx. destruct (xyz _); [apply (pict_l _ "X" "X")|apply (pict_l _ "Y" "X")|apply (pict_l _ "@" "X")]; solve [cbn; tauto|discriminate|exact E].
          -- destruct (_ && _); [|constructor]. constructor; [|constructor]. unfold pcx. destruct (xyz _); [apply (pict_r _ "X" "X")|apply (pict_r _ "Y" "X")|apply (pict_r _ "@" "X")]; solve [cbn; tauto|discriminate|exact E].
          -- destruct (_ <=? _); okp E.
          -- okp E.
        * unfold pc3_obs_i. apply pict_flat. intros k. destruct (comb _); [|constructor]. constructor; [apply pict_obs | constructor].
      + exact HE.
      + exact HE.
      + change (Forall pict (si_body lay)). assert (E : is_em3 (style lay) = false) by (now rewrite Es). unfold si_body, si_i, si_head, si_gates. apply pict_flat. intros k. apply Forall_app. split; [destruct k|]; okp E.
    - unfold fin. apply Forall_app. split; [apply Hh|]. repeat (apply Forall_app; split).
      + constructor; [|constructor]. apply (pict_one "M" "M"); [cbn; tauto|discriminate|apply incl_data].
      + destruct (pauli_eqb _ _); apply pict_flat; intros; apply pict_det.
      + apply pict_flat; intros; apply pict_det.
      + unfold fin_obs. destruct (comb _); [|constructor]. constructor; [apply pict_obs | constructor].
  Qed.

  (** Where the qubits are. *)
  Definition at_qubit (q : cpx) : cplx := ((fst q # 2), (snd q # 2) * 2)%Q.
  Lemma declared_coords : declared (coords_i lay) = map (fun q => (ix q, at_qubit q)) (used_qubit_coords lay).
  Proof. unfold declared, coords_i. rewrite flat_map_of_map. cbn. apply flat_map_single. Qed.
  Lemma used_place q : In q (used_qubit_coords lay) -> whole (at_qubit q) (fst q / 2) (snd q) /\ fst q mod 2 = 0.
  Proof.
    intros Hq. apply (Gen3.used_in lay Hv) in Hq. assert (K : inbox lay q /\ fst q mod 2 = 0).
    { apply in_app_or in Hq as [Hq|Hq]; [apply (in_data lay Hv) in Hq; destruct Hq as (B & M & _)|apply (in_measure lay Hv) in Hq; destruct Hq as (B & [[M M']|[M M']])]; (split; [exact B|dlia]). }
    destruct K as [[Bx By] M]. split; [|exact M]. unfold whole, at_qubit. cbn [fst snd].
    split; [|split; [|split; [dlia|lia]]].
    - unfold Qeq, inject_Z. cbn [Qnum Qden]. dlia.
    - unfold Qeq, Qmult, inject_Z. cbn [Qnum Qden]. lia.
  Qed.
  Lemma only_coords l : Forall (fun i => iname i <> "QUBIT_COORDS"%string) l -> declared l = [].
  Proof.
    intros H. unfold declared. induction H as [|i l H _ IH]; [reflexivity|]. cbn [flat_map]. rewrite IH, app_nil_r. unfold declares. now rewrite (proj2 (String.eqb_neq _ _) H).
  Qed.
  (** coords, then anything else that is drawn on used qubits, with each qubit once per moment *)
  Lemma shown_moment m : Forall pict m -> NoDup (flat_map touched m) -> exists s l, shown_all m s l /\ NoDup (map fst s).
  Proof.
    intros H N. assert (K : exists s l, shown_all m s l /\ map fst s = flat_map touched m).
    { clear N. induction H as [|i m (s & l & S & E & _) _ (s' & l' & S' & E')]; [exists [], []; split; [constructor|reflexivity]|].
      exists (s ++ s'), (l ++ l'). split; [now constructor|]. rewrite map_app, E, E'. reflexivity. }
    destruct K as (s & l & S & E). exists s, l. split; [exact S|]. now rewrite E.
  Qed.
  Lemma moment_incl l : forall c m, In m (moments c l) -> incl m (c ++ l).
  Proof.
    induction l as [|j l IH]; intros c m H; cbn [moments] in H; [destruct H as [<-|[]]; rewrite app_nil_r; apply incl_refl|].
    destruct (is_tick j); [destruct H as [<-|H]; [apply incl_appl, incl_refl|intros x Hx; apply in_or_app; right; right; now apply (IH _ _ H)]|].
    intros x Hx. apply (IH _ _ H) in Hx. rewrite <- app_assoc in Hx. exact Hx.
  Qed.
  Lemma plot_ok l : Forall pict l -> Forall (fun i => iname i <> "QUBIT_COORDS"%string) l -> clean (coords_i lay ++ l) ->
    plottable (coords_i lay ++ l) /\ (forall q p, In (q, p) (declared (coords_i lay ++ l)) -> exists x y, whole p x y).
  Proof.
    intros P NC Cl. assert (D : declared (coords_i lay ++ l) = map (fun q => (ix q, at_qubit q)) (used_qubit_coords lay)) by (now rewrite declared_app, declared_coords, (only_coords l NC), app_nil_r).
    assert (Pc : Forall pict (coords_i lay)). { unfold coords_i. apply Forall_forall. intros i Hi. apply in_map_iff in Hi as (q & <- & _). apply pict_silent; [cbn; tauto|now right]. }
    split.
    - constructor.
      + intros i Hi Ni. apply in_app_or in Hi as [Hi|Hi]; [|rewrite Forall_forall in NC; destruct (NC i Hi Ni)]. unfold coords_i in Hi. apply in_map_iff in Hi as (q & <- & _). exists [ix q], (fst q # 2), (snd q # 2). split; reflexivity.
      + rewrite D, map_map. cbn [fst]. apply (NoDup_ix lay Hv); [intros q Hq; now apply (Gen3.used_in lay Hv)|now apply NoDup_used].
      + rewrite D, map_map. cbn [snd]. pose proof (NoDup_used lay Hv) as N. pose proof used_place as U. revert U N. generalize (used_qubit_coords lay). intros us. induction us as [|q us IH]; intros U N; cbn [map]; [constructor|]. inversion N as [|? ? N1 N2]. subst.
        constructor; [|apply IH; [intros q' Hq'; apply U; now right|exact N2]]. apply Forall_forall. intros p Hp. apply in_map_iff in Hp as (q' & <- & Hq'). intros [S1 S2]. apply N1. replace q with q'; [exact Hq'|].
        destruct (U q ltac:(now left)) as [(A1 & A2 & _) M]. destruct (U q' ltac:(now right)) as [(B1 & B2 & _) M']. rewrite A1, B1 in S1. rewrite A2, B2 in S2.
        pose proof (inject_Z_injective (fst q / 2) (fst q' / 2)) as [I1 _]. pose proof (inject_Z_injective (snd q) (snd q')) as [I2 _]. specialize (I1 S1). specialize (I2 S2). destruct q as [x y], q' as [x' y']. cbn [fst snd] in *. f_equal; [dlia|congruence].
      + intros m Hm. apply shown_moment; [|unfold clean in Cl; rewrite Forall_forall in Cl; exact (Cl m Hm)]. apply moment_incl in Hm. cbn [app] in Hm. apply Forall_forall. intros i Hi. apply Hm in Hi. apply in_app_or in Hi as [Hi|Hi]; [rewrite Forall_forall in Pc|rewrite Forall_forall in P]; auto.
      + intros l1 i l2 s k E S. assert (Pi : pict i). { assert (Hi : In i (coords_i lay ++ l)) by (rewrite E; apply in_or_app; right; now left). apply in_app_or in Hi as [Hi|Hi]; [rewrite Forall_forall in Pc|rewrite Forall_forall in P]; auto. }
        destruct Pi as (s' & k' & S' & Et & Iu). destruct (shown_unique _ _ _ _ _ S S') as [<- _].
        assert (NotI : iname i = "QUBIT_COORDS"%string \/ exists l3, l1 = coords_i lay ++ l3).
        { clear - E. revert E. assert (Q : Forall (fun i => iname i = "QUBIT_COORDS"%string) (coords_i lay)) by (unfold coords_i; apply Forall_forall; intros j Hj; apply in_map_iff in Hj as (q & <- & _); reflexivity).
          revert l1 Q. generalize (coords_i lay). intros cs. induction cs as [|c cs IH]; intros l1 Q E; [right; now exists l1|]. inversion Q as [|? ? Q1 Q2]. subst. destruct l1 as [|j l1]; cbn [app] in E; injection E as E1 E2; [left; congruence|].
          destruct (IH l1 Q2 E2) as [K|(l3 & ->)]; [now left|]. right. exists l3. cbn. now rewrite E1. }
        destruct NotI as [K|(l3 & ->)]; [destruct (shown_coords _ _ _ S K) as [-> _]; intros x []|].
        rewrite Et. intros x Hx. apply Iu in Hx. rewrite declared_app, declared_coords, map_app, map_map. apply in_or_app. left. cbn [fst]. exact Hx.
    - intros q p H. rewrite D in H. apply in_map_iff in H as (z & [= _ <-] & Hz). exists (fst z / 2), (snd z). now apply used_place.
  Qed.
  Lemma rest_not_coords : supported lay -> Forall (fun i => iname i <> "QUBIT_COORDS"%string) (init_i lay ++ body_i lay ++ fin lay (trk lay (tr0 lay) (Z.to_nat n))).
  Proof.
    intros (Hn & Hs). set (NQ := fun i => iname i <> "QUBIT_COORDS"%string).
    assert (Ann : forall k, Forall NQ (annk k)).
    { intros k. unfold Shift.annk, ann. assert (Dt : forall t v co, Forall NQ (det t v co)) by (intros t [s|] co; repeat constructor; discriminate).
      assert (Fl : forall X (f : X -> list instr) l, (forall x, Forall NQ (f x)) -> Forall NQ (flat_map f l)) by (intros X f l H; induction l as [|x l IH]; [constructor|]; cbn [flat_map]; apply Forall_app; auto).
      repeat (apply Forall_app; split).
      - unfold obsinc. destruct (pc3 lay); [constructor|]. destruct (comb _); repeat constructor; discriminate.
      - unfold dets0. destruct (_ && _); [|constructor]. apply Fl. intros; apply Dt.
      - apply Fl. intros; apply Dt.
      - repeat constructor; discriminate. }
    assert (Dt : forall t v co, Forall NQ (det t v co)) by (intros t [s|] co; repeat constructor; discriminate).
    assert (Fl : forall X (f : X -> list instr) l, (forall x, Forall NQ (f x)) -> Forall NQ (flat_map f l)) by (intros X f l H; induction l as [|x l IH]; [constructor|]; cbn [flat_map]; apply Forall_app; auto).
    assert (Mo : forall s, Forall NQ (mop s)) by (intros s; unfold mop; destruct (is_em3 _); repeat constructor; discriminate).
    assert (Hh : forall p, Forall NQ (hdata lay p)) by (intros []; unfold hdata; cbn [pauli_eqb]; repeat constructor; discriminate).
    assert (Gi : forall nm l, nm <> "QUBIT_COORDS"%string -> NQ (g nm l)) by (intros nm l H; exact H).
    assert (Ti : NQ tick_i) by discriminate.
    apply Forall_app. split; [|apply Forall_app; split].
    - unfold init_i. apply Forall_app. split; [|apply Hh]. repeat constructor; discriminate.
    - assert (Ok1 : forall nm l, nm <> "QUBIT_COORDS"%string -> NQ (g nm l)) by (intros; assumption). unfold body_i. destruct (_ =? _)%string; [|destruct (_ =? _)%string; [|destruct (is_em3 _)]].
      + unfold sd6_body, sd6_single_i, sd6_begin_i, sd6_step_i, sd6_end_i, sd6_close_i. repeat first [apply Ann | apply Mo | apply Fl; intros k | apply Forall_app; split | apply Forall_cons; [first [exact Ti|apply Gi; discriminate]|] | apply Forall_nil | match goal with |- context [if ?b then _ else _] => destruct b end].
      + unfold pc3_body, pc3_i, pc3_obs_i. repeat first [apply Ann | apply Mo | apply Fl; intros k | apply Forall_app; split | apply Forall_cons; [first [exact Ti|apply Gi; unfold pcx; destruct (xyz _); discriminate|discriminate]|] | apply Forall_nil | match goal with |- context [if ?b then _ else _] => destruct b end | destruct (comb _)].
      + unfold em3_body, em3_i. repeat first [apply Ann | apply Mo | apply Fl; intros k | apply Forall_app; split | apply Forall_cons; [first [exact Ti|apply Gi; discriminate|discriminate]|] | apply Forall_nil].
      + unfold si_body, si_i, si_gates. apply Fl. intros k. apply Forall_app. split; [destruct k; cbn [si_head]|]; repeat first [apply Ann | apply Mo | apply Forall_app; split | apply Forall_cons; [first [exact Ti|apply Gi; discriminate]|] | apply Forall_nil].
    - unfold fin. apply Forall_app. split; [apply Hh|]. repeat (apply Forall_app; split).
      + repeat constructor; discriminate.
      + destruct (pauli_eqb _ _); apply Fl; intros; apply Dt.
      + apply Fl; intros; apply Dt.
      + unfold fin_obs. destruct (comb _); repeat constructor; discriminate.
  Qed.
End S.

(** The last moment contains whatever follows the last TICK; the first one what precedes the first. *)
Lemma last_moment b : forallb (fun i => negb (is_tick i)) b = true -> forall a c, exists ms p, moments c (a ++ b) = ms ++ [p ++ b].
Proof.
  intros H. induction a as [|i a IH]; intros c; cbn [app moments].
  - exists [], c. now rewrite (moments_notick b c H).
  - destruct (is_tick i); [|apply IH]. destruct (IH []) as (ms & p & E). exists (c :: ms), p. now rewrite E.
Qed.
Lemma shown_in m : forall s l i s1 l1, shown_all m s l -> In i m -> shown i s1 l1 -> incl s1 s.
Proof.
  induction m as [|j m IH]; intros s l i s1 l1 S Hi S1; [destruct Hi|]. inversion S as [|? sj lj ? sm lm A B]. subst. destruct Hi as [->|Hi].
  - destruct (shown_unique _ _ _ _ _ S1 A) as [-> _]. apply incl_appl, incl_refl.
  - apply incl_appr. exact (IH _ _ _ _ _ B Hi S1).
Qed.
Lemma moments_count l : forall c, length (moments c l) = S (length (filter is_tick l)).
Proof. induction l as [|i l IH]; intros c; cbn [moments filter]; [reflexivity|]. destruct (is_tick i); cbn [length]; now rewrite IH. Qed.
Lemma in_moments l i : In i l -> is_tick i = false -> forall c, exists m, In m (moments c l) /\ In i m.
Proof.
  assert (K : forall l c, In i c -> exists m, In m (moments c l) /\ In i m).
  { clear l. induction l as [|j l IH]; intros c H; cbn [moments]; [exists c; split; [now left|exact H]|].
    destruct (is_tick j); [exists c; split; [now left|exact H]|]. apply IH, in_or_app. now left. }
  intros H T. induction l as [|j l IH]; intros c; [destruct H|]. cbn [moments]. destruct H as [->|H].
  - rewrite T. apply K, in_or_app. right. now left.
  - destruct (is_tick j); [|now apply IH]. destruct (IH H []) as (m & A & B). exists m. split; [now right|exact B].
Qed.

(** What follows the declarations. *)
Definition after_coords (lay : layout) : list instr := init_i lay ++ body_i lay ++ fin lay (trk lay (tr0 lay) (Z.to_nat (sub_rounds lay))).
Lemma circuit_after lay : circuit_i lay = coords_i lay ++ after_coords lay.
Proof. reflexivity. Qed.
Lemma after_pict lay : valid lay -> obs lay = "V"%string \/ obs lay = "H"%string -> supported lay -> Forall (pict lay) (after_coords lay).
Proof. intros Hv Ho Hs. pose proof (circuit_pict lay Hv Ho Hs) as P. rewrite circuit_after in P. now apply Forall_app in P as [_ P]. Qed.
Lemma edge_some lay r : valid lay -> exists e, In e (round_edges lay r).
Proof.
  intros Hv. pose proof (count_round_edges lay Hv r) as C. destruct (valid_tiles lay Hv) as (Hw & Hh & _). destruct (round_edges lay r) as [|e l]; [cbn [length] in C; nia|]. exists e. now left.
Qed.

(** The whole circuit: every level can be read off C64; in particular the picture starts with
    a reset of every qubit in use and ends with a measurement of every data qubit. *)
Theorem C65_picture : forall lay c, valid lay -> supported_input lay -> generate_ideal_circuit lay = Ok c ->
  plottable (flatten c) /\ (forall q p, In (q, p) (declared (flatten c)) -> exists x y, whole p x y) /\
  exists s, plot_circuit c false = Ok s /\
    let n := 1 + Z.of_nat (length (filter is_tick (flatten c))) in
    let at_level q z := char_at s (fst (spot n (fst q / 2) (snd q) z)) (snd (spot n (fst q / 2) (snd q) z)) in
    (forall q, In q (used_qubit_coords lay) -> at_level q 0 = "R"%char) /\
    (forall q, In q (data_qubit_coords lay) -> at_level q (n - 1) = "M"%char).
Proof.
  intros lay c Hv Hs E. pose proof (sup_obs lay Hs) as Ho. pose proof (sup_sup lay Hs) as Hsup. pose proof (sup_gen lay c Hv Hs E) as F.
  destruct (plot_ok lay Hv Ho (after_coords lay)) as [P W]; [exact (after_pict lay Hv Ho Hsup)|exact (rest_not_coords lay Hsup)|rewrite <- circuit_after; exact (circuit_clean lay Hv Ho Hsup)|].
  rewrite <- circuit_after in P, W. rewrite F. split; [exact P|]. split; [exact W|].
  assert (Ei : iter_circuit c 1 0 = circuit_i lay) by (rewrite C56_iterates by lia; exact F).
  (* the first and the last moment *)
  set (R0 := mkI "R" (map TQ (used_ix lay)) []). set (M0 := mkI "M" (map TQ (Ends.data_ix lay)) []).
  assert (First : exists ms, moments [] (circuit_i lay) = (coords_i lay ++ [R0]) :: ms).
  { rewrite circuit_after. unfold after_coords, init_i. rewrite <- app_assoc. cbn [app]. change (mkI "R" (qs (used_ix lay)) []) with R0.
    exists (moments [] (hdata lay (init_basis lay) ++ body_i lay ++ fin lay (trk lay (tr0 lay) (Z.to_nat (sub_rounds lay))))).
    change (coords_i lay ++ R0 :: tick_i :: hdata lay (init_basis lay) ++ body_i lay ++ fin lay (trk lay (tr0 lay) (Z.to_nat (sub_rounds lay)))) with (coords_i lay ++ [R0] ++ tick_i :: hdata lay (init_basis lay) ++ body_i lay ++ fin lay (trk lay (tr0 lay) (Z.to_nat (sub_rounds lay)))).
    rewrite app_assoc, moments_tick, moments_notick; [reflexivity|]. rewrite forallb_app. apply andb_true_iff. split; [|reflexivity]. apply forallb_forall. intros i Hi. unfold coords_i in Hi. apply in_map_iff in Hi as (q & <- & _). reflexivity. }
  assert (Last : exists ms p r, moments [] (circuit_i lay) = ms ++ [p ++ M0 :: r]).
  { set (r := (if pauli_eqb (xyz (sub_rounds lay - 1)) (final_basis lay) then fin_edges lay (trk lay (tr0 lay) (Z.to_nat (sub_rounds lay))) else fin_other lay (trk lay (tr0 lay) (Z.to_nat (sub_rounds lay)))) ++ fin_hexes lay (trk lay (tr0 lay) (Z.to_nat (sub_rounds lay))) ++ fin_obs lay (trk lay (tr0 lay) (Z.to_nat (sub_rounds lay)))).
    destruct (last_moment (M0 :: r)) with (a := coords_i lay ++ init_i lay ++ body_i lay ++ hdata lay (final_basis lay)) (c := @nil instr) as (ms & p & K).
    { cbn [forallb]. apply (proj1 (quiet_fin lay (trk lay (tr0 lay) (Z.to_nat (sub_rounds lay))))). }
    exists ms, p, r. rewrite <- K. f_equal. rewrite circuit_after. unfold after_coords, fin. fold r. rewrite <- !app_assoc. reflexivity. }
  destruct First as (ms1 & E1). destruct Last as (ms2 & p2 & r2 & E2).
  destruct (edge_some lay 0 Hv) as (e & He). destruct (round_edge_facts lay Hv 0 e He) as (Hd & _). apply (in_data lay Hv) in Hd.
  assert (SR : shown R0 (map (fun q => (q, "R"%string)) (used_ix lay)) []) by (constructor; cbn; tauto).
  assert (SM : shown M0 (map (fun q => (q, "M"%string)) (Ends.data_ix lay)) []) by (constructor; cbn; tauto).
  assert (Hdx : forall q, In q (data_qubit_coords lay) -> In (ix lay q) (Ends.data_ix lay)) by (intros q Hq; exact (in_map (ix lay) _ q Hq)).
  pose proof (C64_plot c false) as K. cbv beta iota zeta in K. rewrite Ei in K.
  destruct (K P W) as (drawn & s & Dr & Es & Sp).
  { destruct (pl_known _ P (coords_i lay ++ [R0])) as (s & l & S & _); [rewrite E1; now left|]. exists (coords_i lay ++ [R0]), s, l. split; [rewrite E1; now left|]. split; [exact S|].
    pose proof (shown_in _ _ _ R0 _ _ S ltac:(apply in_or_app; right; now left) SR) as I0. intros ->. apply (I0 (ix lay (e_left e), "R"%string)). apply in_map_iff. eexists. split; [reflexivity|]. exact (used_data lay Hv _ Hd). }
  exists s. split; [exact Es|]. intros n at_level.
  assert (Vd : visible drawn = drawn).
  { rewrite E2 in Dr. apply Forall2_app_inv_l in Dr as (d1 & d2 & D1 & D2 & ->). inversion D2 as [|? d ? ? S D3]. subst. inversion D3. subst. unfold visible. rewrite last_last. destruct d as [sd ld]. cbn [fst snd] in S.
    destruct sd as [|x sd]; [|reflexivity]. exfalso. apply (shown_in _ _ _ M0 _ _ S ltac:(apply in_or_app; right; now left) SM (ix lay (e_left e), "M"%string)). apply in_map_iff. eexists. split; [reflexivity|]. now apply Hdx. }
  assert (Ln : Z.of_nat (length (visible drawn)) = n).
  { rewrite Vd. rewrite <- (Forall2_len _ _ _ Dr), moments_count. unfold n. lia. }
  rewrite Vd in Sp, Ln. cbv zeta in Sp. rewrite Ln in Sp.
  assert (Dc : forall q, In q (used_qubit_coords lay) -> In (ix lay q, at_qubit q) (declared (circuit_i lay)) /\ whole (at_qubit q) (fst q / 2) (snd q)).
  { intros q Hq. split; [|exact (proj1 (used_place lay Hv q Hq))]. rewrite circuit_after, declared_app, declared_coords. apply in_or_app. left. apply in_map_iff. eexists. split; [reflexivity|exact Hq]. }
  split; intros q Hq.
  - rewrite E1 in Dr. inversion Dr as [|? d ? dr S _]. subst. destruct d as [sd ld]. cbn [fst snd] in S. destruct (Sp 0%nat sd ld eq_refl) as [Sq _]. destruct (Dc q Hq) as [D1 D2].
    destruct (Sq _ _ _ _ D1 D2) as [Sc _]. apply Sc. apply (shown_in _ _ _ R0 _ _ S ltac:(apply in_or_app; right; now left) SR). apply in_map_iff. eexists. split; [reflexivity|]. unfold used_ix. now apply in_map.
  - assert (Hu : In q (used_qubit_coords lay)) by (unfold used_qubit_coords; destruct (is_em3 (style lay)); [exact Hq|]; rewrite (q2i_dict_keys lay Hv); apply in_or_app; now left).
    destruct (Dc q Hu) as [D1 D2]. rewrite E2 in Dr. apply Forall2_app_inv_l in Dr as (d1 & d2 & F1 & F2 & ->). inversion F2 as [|? d ? ? S F3]. subst. inversion F3. subst. destruct d as [sd ld]. cbn [fst snd] in S.
    destruct (Sp (length d1) sd ld) as [Sq _]; [rewrite nth_error_app2 by lia; now rewrite Nat.sub_diag|].
    destruct (Sq _ _ _ _ D1 D2) as [Sc _]. replace (n - 1) with (Z.of_nat (length d1)) by (rewrite app_length in Ln; cbn [length] in Ln; lia). apply Sc.
    apply (shown_in _ _ _ M0 _ _ S ltac:(apply in_or_app; right; now left) SM). apply in_map_iff. eexists. split; [reflexivity|]. now apply Hdx.
Qed.
Print Assumptions C65_picture.

(** ** Only the repeated block *)
Definition is_coords (i : instr) : bool := (iname i =? "QUBIT_COORDS")%string.
Lemma split_coords cs : forall af a t b, Forall (fun i => is_coords i = true) cs -> Forall (fun i => is_coords i = false) af -> is_coords t = false ->
  cs ++ af = a ++ t :: b -> exists a', a = cs ++ a' /\ af = a' ++ t :: b.
Proof.
  induction cs as [|c cs IH]; intros af a t b H1 H2 Ht E; [exists a; auto|]. inversion H1 as [|? ? C1 C2]. subst. destruct a as [|x a]; cbn [app] in E; injection E as E1 E2; [congruence|].
  subst. destruct (IH af a t b C2 H2 Ht E2) as (a' & -> & K). exists a'. auto.
Qed.
Lemma moments_prefix a : forallb (fun i => negb (is_tick i)) a = true -> forall c b, moments c (a ++ b) = moments (c ++ a) b.
Proof.
  induction a as [|i a IH]; intros H c b; [now rewrite app_nil_r|]. cbn [forallb] in H. apply andb_true_iff in H as [H1 H2]. cbn [app moments]. destruct (is_tick i); [discriminate|]. rewrite IH by exact H2. now rewrite <- app_assoc.
Qed.
Lemma filter_none {A} (f : A -> bool) l : Forall (fun x => f x = false) l -> filter f l = [].
Proof. induction 1 as [|x l H _ IH]; [reflexivity|]. cbn. now rewrite H. Qed.
Lemma filter_all {A} (f : A -> bool) l : Forall (fun x => f x = true) l -> filter f l = l.
Proof. induction 1 as [|x l H _ IH]; [reflexivity|]. cbn. now rewrite H, IH. Qed.
Lemma blocks_plain l : flat_map (fun x => match x with I op => if (iname op =? "QUBIT_COORDS")%string then [op] else [] | Rep _ body => flatten body end) (map I l) = filter is_coords l.
Proof. induction l as [|i l IH]; [reflexivity|]. cbn [map flat_map filter]. rewrite IH. unfold is_coords. now destruct (_ =? _)%string. Qed.
Lemma coords_all lay : Forall (fun i => is_coords i = true) (coords_i lay).
Proof. unfold coords_i. apply Forall_forall. intros i Hi. apply in_map_iff in Hi as (q & <- & _). reflexivity. Qed.
Lemma coords_quiet lay : forallb (fun i => negb (is_tick i)) (coords_i lay) = true /\ flat_map touched (coords_i lay) = [].
Proof.
  unfold coords_i. generalize (used_qubit_coords lay). intros us. induction us as [|q us [A B]]; [split; reflexivity|]. split; [exact A|exact B].
Qed.
(** Every unit of the circuit acts on some qubit. *)
Lemma centers_some lay s : valid lay -> centers lay s <> [].
Proof. intros Hv K. destruct (edge_some lay s Hv) as (e & He). apply (in_map (fun e => ix lay (e_center e))) in He. unfold centers in K. rewrite K in He. destruct He. Qed.
Lemma unit_busy lay j : valid lay -> exists i, In i (unit_i lay j) /\ touched i <> [] /\ is_tick i = false.
Proof.
  intros Hv. assert (Mo : forall s, is_em3 (style lay) = false -> mop lay s = [g "M" (centers lay s)]) by (intros s H; unfold mop; rewrite H; reflexivity).
  assert (Tm : forall s, touched (g "M" (centers lay s)) <> []) by (intros s; rewrite t_g by discriminate; now apply centers_some).
  assert (Tr : forall s, touched (g "R" (centers lay s)) <> []) by (intros s; rewrite t_g by discriminate; now apply centers_some).
  unfold unit_i. destruct (style lay =? "SD6")%string eqn:E1; [|destruct (style lay =? "PC3")%string eqn:E2; [|destruct (is_em3 (style lay)) eqn:E3]].
  - exists (g "R" (centers lay (Z.of_nat j + 2))). split; [|split; [apply Tr|reflexivity]]. unfold sd6_step_i. apply in_or_app. left. cbn [In]. tauto.
  - apply String.eqb_eq in E2. assert (E3 : is_em3 (style lay) = false) by (now rewrite E2). unfold pc3_i. destruct (2 <=? Z.of_nat j).
    + exists (g "M" (centers lay (Z.of_nat (j - 2)))). split; [|split; [apply Tm|reflexivity]]. apply in_or_app. right. apply in_or_app. right. apply in_or_app. left. apply in_or_app. left. rewrite Mo by exact E3. now left.
    + exists (g "R" (centers lay (Z.of_nat j - 2))). split; [|split; [apply Tr|reflexivity]]. apply in_or_app. right. apply in_or_app. right. apply in_or_app. left. now left.
  - exists (mkI "MPP" (mpp_targets lay (Z.of_nat j)) []). split; [unfold em3_i; now left|]. split; [|reflexivity].
    destruct (edge_some lay (Z.of_nat j) Hv) as (e & He). unfold touched, mpp_targets. cbn [iname itargets canon String.eqb Ascii.eqb Bool.eqb]. destruct (round_edges lay (Z.of_nat j)) as [|e' l]; [destruct He|]. discriminate.
  - exists (g "M" (centers lay 0)). split; [|split; [apply Tm|reflexivity]]. unfold si_i. apply in_or_app. right. apply in_or_app. right. apply in_or_app. left. apply in_or_app. left. rewrite Mo by reflexivity. now left.
Qed.

(** With only_repeat_block, the picture shows one pass through the repeated block; when the
    circuit is too short to have one, there is nothing to draw and an exception is raised. *)
Theorem C65_block : forall lay c, valid lay -> supported_input lay -> generate_ideal_circuit lay = Ok c ->
  (forall k body, In (Rep k body) c ->
    let ops := filter is_coords (flatten c) ++ flatten body in
    iter_circuit c 1 1 = ops /\ plottable ops /\ (forall q p, In (q, p) (declared ops) -> exists x y, whole p x y) /\
    (exists m s l, In m (moments [] ops) /\ shown_all m s l /\ s <> []) /\ exists s, plot_circuit c true = Ok s) /\
  ((forall k body, ~ In (Rep k body) c) -> plot_circuit c true = Err ValueError).
Proof.
  intros lay c Hv Hs E. pose proof (sup_obs lay Hs) as Ho. pose proof (sup_sup lay Hs) as Hsup.
  destruct (generate_shape lay Hv Ho Hsup) as (c' & E' & F & (X & Y & Z0 & k & Ec & Hk & HX & (y & EY) & j & l & Ej)). rewrite E in E'. injection E' as <-.
  pose proof (rest_not_coords lay Hsup) as NC. fold (after_coords lay) in NC. pose proof (after_pict lay Hv Ho Hsup) as PA. pose proof (circuit_clean lay Hv Ho Hsup) as Cl. rewrite circuit_after in F, Cl.
  assert (NC' : Forall (fun i => is_coords i = false) (after_coords lay)) by (apply Forall_forall; intros i Hi; rewrite Forall_forall in NC; apply String.eqb_neq; exact (NC i Hi)).
  assert (Fc : filter is_coords (flatten c) = coords_i lay).
  { rewrite F, filter_app, (filter_none is_coords (after_coords lay) NC'), app_nil_r. apply filter_all, coords_all. }
  clear NC. assert (Ei : iter_circuit c 1 1 = filter is_coords X ++ flat_map (fun x => match x with I op => if (iname op =? "QUBIT_COORDS")%string then [op] else [] | Rep _ body => flatten body end) (circuit_mul (map I Y) k) ++ filter is_coords Z0).
  { rewrite C56_iterates_blocks, Ec, !flat_map_app, !blocks_plain. reflexivity. }
  assert (Em : flatten c = X ++ flatten (circuit_mul (map I Y) k) ++ Z0) by (rewrite Ec, !flatten_app, !flatten_I; reflexivity).
  unfold circuit_mul in Ei, Em, Ec. destruct (k =? 0) eqn:K0; [|destruct (k =? 1) eqn:K1].
  1,2: assert (NR : forall k' body, ~ In (Rep k' body) c).
  1,3: intros k' body K; rewrite Ec in K; repeat (apply in_app_or in K; destruct K as [K|K]); try (apply in_map_iff in K as (? & [=] & _)); destruct K.
  1,2: split; [intros k' body K; destruct (NR k' body K)|intros _].
  1,2: assert (Eo : iter_circuit c 1 1 = coords_i lay ++ []).
  1: rewrite Ei, <- Fc, Em, app_nil_r; cbn [flatten flat_map app]; now rewrite filter_app.
  2: rewrite Ei, <- Fc, Em, app_nil_r, blocks_plain, flatten_I, !filter_app; reflexivity.
  1,2: destruct (plot_ok lay Hv Ho []) as [P _]; [constructor|constructor|rewrite app_nil_r; apply clean_moment; [apply coords_quiet|rewrite (proj2 (coords_quiet lay)); constructor]|].
  1,2: pose proof (C64_levels c true) as L; cbv beta iota zeta in L; rewrite Eo in L; destruct (L P) as (drawn & levels & lks & D & Ep & V1 & V2).
  1,2: rewrite app_nil_r, (moments_notick _ [] (proj1 (coords_quiet lay))) in D; cbn [app] in D; inversion D as [|? d ? ? S D']; subst; inversion D'; subst.
  1,2: assert (Sn : fst d = []).
  1,3: clear - S; revert S; generalize (snd d), (fst d); pose proof (coords_all lay) as Q; revert Q; generalize (coords_i lay); intros cs; induction cs as [|x cs IH]; intros Q l0 s0 S; inversion S as [|? ? ? ? ? ? A B]; subst; [reflexivity|];
    inversion Q as [|? ? Q1 Q2]; subst; destruct (shown_coords _ _ _ A (proj1 (String.eqb_eq _ _) Q1)) as [-> _]; rewrite (IH Q2 _ _ B); reflexivity.
  1,2: assert (Vn : visible [d] = []) by (destruct d as [sd ld]; cbn [fst] in Sn; rewrite Sn; reflexivity).
  1,2: rewrite Vn in V1; inversion V1; subst; unfold plot_circuit; rewrite Ep; reflexivity.
  (* a proper loop *)
  assert (Hk2 : 2 <= k) by (apply Z.eqb_neq in K0, K1; lia).
  assert (Ey : flatten (map I Y) = Y) by apply flatten_I.
  assert (Er : exists r, flatten [Rep k (map I Y)] = Y ++ Y ++ r).
  { exists (concat (repeat Y (Z.to_nat (k - 2)))). cbn [flatten flat_map flatten_item]. rewrite app_nil_r. change (flat_map flatten_item (map I Y)) with (flatten (map I Y)). rewrite Ey. replace (Z.to_nat k) with (S (S (Z.to_nat (k - 2)))) by lia. reflexivity. }
  destruct Er as (r & Er). rewrite Er in Em. rewrite F in Em.
  assert (Em' : coords_i lay ++ after_coords lay = (X ++ y) ++ tick_i :: (Y ++ r) ++ Z0).
  { rewrite Em. rewrite EY at 1. rewrite <- !app_assoc. reflexivity. }
  destruct (split_coords _ _ _ tick_i _ (coords_all lay) NC' eq_refl Em') as (a' & Ea & Eaf).
  assert (NY : Forall (fun i => is_coords i = false) Y /\ Forall (fun i => is_coords i = false) Z0 /\ Forall (pict lay) Y).
  { rewrite Eaf in NC', PA. apply Forall_app in NC' as [_ NC']. pose proof (Forall_inv_tail NC') as N2. apply Forall_app in PA as [_ PA]. pose proof (Forall_inv_tail PA) as P2. apply Forall_app in N2 as [N2 N3]. apply Forall_app in N2 as [N2 _]. apply Forall_app in P2 as [P2 _]. apply Forall_app in P2 as [P2 _]. auto. }
  destruct NY as (NY & NZ & PY).
  assert (FX : filter is_coords X = coords_i lay).
  { rewrite <- Fc, F, Em, !filter_app, (filter_none is_coords Y NY), (filter_none is_coords Z0 NZ), app_nil_r. cbn [app].
    assert (Nr : filter is_coords r = []). { apply filter_none. rewrite Eaf in NC'. apply Forall_app in NC' as [_ NC']. pose proof (Forall_inv_tail NC') as N2. apply Forall_app in N2 as [N2 _]. now apply Forall_app in N2 as [_ N2]. }
    now rewrite Nr, app_nil_r. }
  assert (Eo : iter_circuit c 1 1 = coords_i lay ++ Y).
  { rewrite Ei, FX, (filter_none is_coords Z0 NZ). cbn [flat_map]. now rewrite Ey, !app_nil_r. }
  assert (Cy : clean (coords_i lay ++ Y)).
  { assert (C1 : Forall once (moments [] y)).
    { unfold clean in Cl. rewrite Em' in Cl. destruct HX as [->|(x & ->)].
      - cbn [app] in Cl. rewrite moments_tick in Cl. now apply Forall_app in Cl as [Cl _].
      - rewrite moments_tick in Cl. apply Forall_app in Cl as [Cl _]. rewrite <- app_assoc in Cl. cbn [app] in Cl. change (mkI "TICK" [] []) with tick_i in Cl. rewrite moments_tick in Cl. now apply Forall_app in Cl as [_ Cl]. }
    rewrite EY, app_assoc. apply clean_end. unfold clean. rewrite moments_prefix by apply coords_quiet. cbn [app]. destruct (moments_acc y (coords_i lay)) as (f & t & M1 & M2). rewrite M1 in C1. rewrite M2. inversion C1 as [|? ? C2 C3]. subst.
    constructor; [|exact C3]. unfold once. rewrite flat_map_app, (proj2 (coords_quiet lay)). exact C2. }
  destruct (plot_ok lay Hv Ho Y) as [P W]; [exact PY|apply Forall_forall; intros i Hi; rewrite Forall_forall in NY; apply String.eqb_neq; exact (NY i Hi)|exact Cy|].
  assert (Busy : exists m s l, In m (moments [] (coords_i lay ++ Y)) /\ shown_all m s l /\ s <> []).
  { destruct (unit_busy lay j Hv) as (i & Hi & Ti & Ni). assert (HiY : In i Y) by (rewrite Ej; apply in_or_app; now left).
    destruct (in_moments (coords_i lay ++ Y) i ltac:(apply in_or_app; now right) Ni []) as (m & Hm & Him). destruct (pl_known _ P m Hm) as (s & l0 & S & _). exists m, s, l0. split; [exact Hm|]. split; [exact S|].
    rewrite Forall_forall in PY. destruct (PY i HiY) as (s1 & l1 & S1 & T1 & _). pose proof (shown_in _ _ _ _ _ _ S Him S1) as I1. intros ->. destruct s1 as [|x s1]; [now rewrite <- T1 in Ti|]. destruct (I1 x ltac:(now left)). }
  split.
  - intros k' body K ops. assert (Eb : flatten body = Y).
    { rewrite Ec in K. apply in_app_or in K as [K|K]; [apply in_map_iff in K as (? & [=] & _)|]. apply in_app_or in K as [K|K]; [|apply in_map_iff in K as (? & [=] & _)]. destruct K as [[= <- <-]|[]]. exact Ey. }
    unfold ops. rewrite Fc, Eb. split; [exact Eo|]. split; [exact P|]. split; [exact W|]. split; [exact Busy|].
    pose proof (C64_plot c true) as K'. cbv beta iota zeta in K'. rewrite Eo in K'. destruct (K' P W Busy) as (_ & s & _ & Es & _). now exists s.
  - intros NR. exfalso. apply (NR k (map I Y)). rewrite Ec. apply in_or_app. right. now left.
Qed.
Print Assumptions C65_block.
(** Both cases occur: 13 sub-rounds give a loop, 3 do not. *)
Example C65_example : forall n, n = 3 \/ n = 13 -> let lay := mkLayout 2 6 n "SD6" "H" 0 in valid lay /\ supported_input lay /\
  exists c, generate_ideal_circuit lay = Ok c /\ (n = 3 -> forall k body, ~ In (Rep k body) c) /\ (n = 13 -> exists k body, In (Rep k body) c).
Proof.
  intros n Hn lay. assert (V : valid lay) by (repeat split; vm_compute; reflexivity). assert (Su : supported_input lay) by (split; [cbn; lia|]; split; [now right|now left]).
  split; [exact V|]. split; [exact Su|]. destruct (C16_accepts_exactly_supported lay V ltac:(cbn; lia)) as [(_ & c & E)|(K & _)]; [|contradiction]. exists c. split; [exact E|].
  set (loops := existsb (fun x => match x with Rep _ _ => true | I _ => false end)).
  assert (L : match generate_ideal_circuit lay with Ok c => loops c | _ => false end = (n =? 13)) by (destruct Hn; subst n; vm_compute; reflexivity).
  rewrite E in L. split; intros ->.
  - intros k body H. assert (loops c = true) by (apply existsb_exists; eexists; split; [exact H|reflexivity]). cbn in L. congruence.
  - cbn in L. apply existsb_exists in L as ([i|k body] & H & X); [discriminate|]. eauto.
Qed.
