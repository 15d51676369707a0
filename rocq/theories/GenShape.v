(** The instructions of the generated circuits: names and arguments. *)
From Coq Require Import QArith.
From Verif Require Import Prelude Layout LayoutFacts LayoutEdges LayoutLists LayoutHex LayoutHex2 Pauli LayoutObs LayoutLogic LayoutIndex
  Tracker TrackerFacts Stim Circuit Noise Annot Shift Ends Gen Gen2 Gen3 NoiseFacts NoiseMoments.
Open Scope Z_scope.

(** The instruction names of each style. *)
Definition style_names (st : string) : list string :=
  ["QUBIT_COORDS"; "TICK"; "DETECTOR"; "OBSERVABLE_INCLUDE"; "SHIFT_COORDS"; "R"; "M"; "H"; "H_YZ"]%string ++
  (if (st =? "SD6")%string then ["C_ZYX"; "C_XYZ"; "CX"]
   else if (st =? "PC3")%string then ["XCX"; "YCX"; "CX"]
   else if is_em3 st then ["MPP"]
   else ["C_ZYX"; "CZ"])%string.
(** The targets of a list of pair measurements. *)
Definition pairs_targets (l : list (pauli * nat * nat)) : list target := flat_map (fun '(p, a, b) => [TP p a; TComb; TP p b]) l.
Definition fine (lay : layout) (i : instr) : Prop :=
  in_names (iname i) (style_names (style lay)) = true /\ plain_tick i /\
  (iname i = "MPP"%string -> iargs i = [] /\ exists l, itargets i = pairs_targets l).

Section S.
  Variable lay : layout.
  Notation n := (sub_rounds lay).
  Notation annk := (annk lay (tr0 lay)).
  Notation mop := (mop lay).
  Notation fine := (fine lay).
  Local Opaque data_qubit_coords measure_qubit_coords q2i_dict hex_entries hexes round_edges all_edges isort.
  Lemma fine_base i : in_names (iname i) ["QUBIT_COORDS"; "DETECTOR"; "OBSERVABLE_INCLUDE"; "SHIFT_COORDS"; "R"; "M"; "H"; "H_YZ"]%string = true -> fine i.
  Proof.
    intros H. apply in_names_In in H. split; [|split].
    - apply in_names_In. unfold style_names. apply in_or_app. left. cbn [In] in *. tauto.
    - intros E. rewrite E in H. cbn [In] in H. decompose [or] H; discriminate || contradiction.
    - intros E. rewrite E in H. cbn [In] in H. decompose [or] H; discriminate || contradiction.
  Qed.
  Lemma fine_det t v co : Forall fine (det t v co).
  Proof. destruct v; repeat constructor. all: now apply fine_base. Qed.
  Lemma fine_flat {X} (f : X -> list instr) l : (forall x, Forall fine (f x)) -> Forall fine (flat_map f l).
  Proof. intros H. induction l as [|x l IH]; [constructor|]. cbn [flat_map]. apply Forall_app. auto. Qed.
  Lemma fine_g name l : in_names name (style_names (style lay)) = true -> name <> "TICK"%string -> name <> "MPP"%string -> fine (g name l).
  Proof. intros H T M. split; [exact H|]. split; intros E; cbn [g iname] in E; contradiction. Qed.
  Lemma fine_tick : fine tick_i.
  Proof. split; [apply in_names_In; unfold style_names; apply in_or_app; left; cbn [In tick_i iname]; tauto|]. split; [intros _; reflexivity|]. discriminate. Qed.
  Lemma fine_ann k : Forall fine (annk k).
  Proof.
    unfold Shift.annk, ann. repeat (apply Forall_app; split).
    - unfold obsinc. destruct (pc3 lay); [constructor|]. destruct (comb _); [|constructor]. constructor; [now apply fine_base | constructor].
    - unfold dets0. destruct (_ && _); [|constructor]. apply fine_flat. intros; apply fine_det.
    - apply fine_flat. intros; apply fine_det.
    - constructor; [now apply fine_base | constructor].
  Qed.
  Lemma fine_mop s : Forall fine (mop s).
  Proof. unfold mop. destruct (is_em3 _); [constructor|]. constructor; [now apply fine_base | constructor]. Qed.
  Ltac ok := repeat first [apply fine_ann | apply fine_mop | apply Forall_app; split | apply Forall_cons; [first [apply fine_tick | apply fine_base; reflexivity]|] | apply Forall_nil].
  Ltac okg Es := repeat first [apply fine_ann | apply fine_mop | apply Forall_app; split | apply Forall_cons; [first [apply fine_tick | apply fine_base; reflexivity | apply fine_g; [rewrite Es; reflexivity | discriminate | discriminate]]|] | apply Forall_nil].
  Lemma pairs_mpp k : exists l, mpp_targets lay k = pairs_targets l.
  Proof.
    exists (map (fun e => (xyz k, ix lay (e_left e), ix lay (e_right e))) (round_edges lay k)). unfold mpp_targets, pairs_targets.
    induction (round_edges lay k) as [|e l IH]; [reflexivity|]. cbn [map flat_map]. now rewrite IH.
  Qed.
  Theorem circuit_fine : supported lay -> Forall fine (circuit_i lay).
  Proof.
    intros (Hn & Hs).
    assert (Hh : forall p, Forall fine (hdata lay p)) by (intros []; unfold hdata; cbn [pauli_eqb]; ok).
    unfold circuit_i. apply Forall_app. split; [|apply Forall_app; split; [|apply Forall_app; split]].
    - unfold coords_i. apply Forall_forall. intros i Hi. apply in_map_iff in Hi. destruct Hi as (q & <- & _). now apply fine_base.
    - unfold init_i. apply Forall_app. split; [ok | apply Hh].
    - unfold body_i. assert (HE : style lay = "EM3"%string \/ style lay = "EM3_v2"%string -> Forall fine (em3_body lay)).
      { intros Es. assert (K : in_names "MPP" (style_names (style lay)) = true) by (destruct Es as [-> | ->]; reflexivity).
        unfold em3_body, em3_i. apply fine_flat. intros k. apply Forall_app. split; [|ok]. constructor; [|constructor].
        split; [exact K|]. split; [discriminate|]. intros _. split; [reflexivity | apply pairs_mpp]. }
      destruct Hs as [Es|[Es|[Es|[Es|[Es H3]]]]].
      + rewrite Es. change (Forall fine (sd6_body lay)).
        unfold sd6_body, sd6_single_i, sd6_begin_i, sd6_step_i, sd6_end_i, sd6_close_i. apply Forall_app. split; [destruct (_ =? _)|destruct (_ =? _); [|destruct (_ =? _)]]; okg Es.
        apply fine_flat. intros k. okg Es.
      + rewrite Es. change (Forall fine (pc3_body lay)). unfold pc3_body. apply Forall_app. split.
        * apply fine_flat. intros k. unfold pc3_i. repeat (apply Forall_app; split).
          -- destruct (_ <? _); [|constructor]. constructor; [|constructor]. apply fine_g; rewrite ?Es; unfold pcx; destruct (xyz _); cbn; reflexivity || discriminate.
          -- destruct (_ && _); [|constructor]. constructor; [|constructor]. apply fine_g; rewrite ?Es; unfold pcx; destruct (xyz _); cbn; reflexivity || discriminate.
          -- destruct (_ <=? _); ok.
          -- ok.
        * unfold pc3_obs_i. apply fine_flat. intros k. destruct (comb _); [|constructor]. constructor; [now apply fine_base | constructor].
      + rewrite Es. apply HE. auto.
      + rewrite Es. apply HE. auto.
      + rewrite Es. change (Forall fine (si_body lay)). unfold si_body, si_i, si_head, si_gates. apply fine_flat. intros k. apply Forall_app. split; [destruct k|]; okg Es.
    - unfold fin. apply Forall_app. split; [apply Hh|]. ok.
      + destruct (pauli_eqb _ _); apply fine_flat; intros; apply fine_det.
      + apply fine_flat; intros; apply fine_det.
      + unfold fin_obs. destruct (comb _); [|constructor]. constructor; [now apply fine_base | constructor].
  Qed.
End S.

(** ** Instructions written = instructions executed, when every loop runs *)
Lemma instrs_I m : instrs (map I m) = m.
Proof. induction m as [|y m IH]; [reflexivity|]. unfold instrs in *. cbn [map flat_map instrs_item app]. now rewrite IH. Qed.
Lemma instrs_app a b : instrs (a ++ b) = instrs a ++ instrs b.
Proof. apply flat_map_app. Qed.
Lemma instrs_folded mi c i : folded mi c -> In i (instrs c) -> In i (flatten c).
Proof.
  intros (X & Y & Z & k & -> & Hk & _) H. rewrite !instrs_app, !instrs_I in H. rewrite !flatten_app, !flatten_I, flatten_mul, flatten_I by exact Hk.
  rewrite !in_app_iff in *. destruct H as [H|[H|H]]; auto. right. left. unfold circuit_mul in H.
  destruct (Z.eqb_spec k 0); [destruct H|].
  assert (K : In i Y).
  { destruct (Z.eqb_spec k 1); [now rewrite instrs_I in H|]. unfold instrs in H. cbn [flat_map instrs_item] in H. rewrite app_nil_r in H. fold (instrs (map I Y)) in H. now rewrite instrs_I in H. }
  replace (Z.to_nat k) with (S (Z.to_nat (k - 1))) by lia. cbn [repeat concat]. apply in_or_app. now left.
Qed.
