(** Between two TICKs no qubit is used twice; every observable annotation is for
    the layout's observable. *)
From Coq Require Import QArith.
From Verif Require Import Prelude Layout LayoutFacts LayoutEdges LayoutLists LayoutHex LayoutHex2 Pauli LayoutObs LayoutLogic LayoutIndex
  Tracker TrackerFacts Stim Circuit Annot Shift Ends Gen Gen2 Gen3 Traj Eval Frame Exec Exec2 Exec3 Exec4 Struct2.
Open Scope Z_scope.

(** ** Specification *)
Definition qubits_of (t : target) : list nat := match t with TQ q | TP _ q => [q] | _ => [] end.
(** The qubits an instruction acts on, with repetitions. *)
Definition touched (i : instr) : list nat := if (canon (iname i) =? "QUBIT_COORDS")%string then [] else flat_map qubits_of (itargets i).
Definition is_tick (i : instr) : bool := (canon (iname i) =? "TICK")%string.
(** The circuit cut at its TICKs. *)
Fixpoint moments (now : list instr) (l : list instr) : list (list instr) :=
  match l with
  | [] => [now]
  | i :: r => if is_tick i then now :: moments [] r else moments (now ++ [i]) r
  end.
Definition once (m : list instr) : Prop := NoDup (flat_map touched m).
Definition clean (l : list instr) : Prop := Forall once (moments [] l).

(** ** Facts *)
Lemma moments_tick a b : forall c, moments c (a ++ tick_i :: b) = moments c a ++ moments [] b.
Proof.
  induction a as [|i a IH]; intros c; cbn [app moments]; [reflexivity|].
  destruct (is_tick i); [cbn [app]; now rewrite IH | apply IH].
Qed.
Lemma clean_tick a b : clean a -> clean b -> clean (a ++ tick_i :: b).
Proof. intros Ha Hb. unfold clean. rewrite moments_tick. apply Forall_app. auto. Qed.
Lemma clean_end a : clean a -> clean (a ++ [tick_i]).
Proof. intros H. apply clean_tick; [exact H|]. repeat constructor. Qed.
Lemma moments_notick l : forall c, forallb (fun i => negb (is_tick i)) l = true -> moments c l = [c ++ l].
Proof.
  induction l as [|i l IH]; intros c H; cbn [moments]; [now rewrite app_nil_r|]. cbn [forallb] in H. apply andb_true_iff in H. destruct H as [H1 H2].
  destruct (is_tick i); [discriminate|]. rewrite IH by exact H2. now rewrite <- app_assoc.
Qed.
Lemma clean_moment l : forallb (fun i => negb (is_tick i)) l = true -> NoDup (flat_map touched l) -> clean l.
Proof. intros H1 H2. unfold clean. rewrite moments_notick by exact H1. repeat constructor. exact H2. Qed.
Lemma qubits_TQ l : flat_map qubits_of (qs l) = l.
Proof. unfold qs. induction l as [|x l IH]; [reflexivity|]. cbn. now rewrite IH. Qed.
Definition quiet (l : list instr) : Prop := forallb (fun i => negb (is_tick i)) l = true /\ flat_map touched l = [].
Lemma quiet_app a b : quiet a -> quiet b -> quiet (a ++ b).
Proof. intros [A1 A2] [B1 B2]. split; [rewrite forallb_app, A1, B1; reflexivity | rewrite flat_map_app, A2, B2; reflexivity]. Qed.
Lemma quiet_flat {X} (f : X -> list instr) l : (forall x, quiet (f x)) -> quiet (flat_map f l).
Proof. intros H. induction l as [|x l IH]; [split; reflexivity|]. cbn [flat_map]. now apply quiet_app. Qed.
Lemma touched_tg name t s args : touched (mkI name (tg t s) args) = [].
Proof.
  unfold touched. cbn [iname itargets]. destruct (_ =? _)%string; [reflexivity|]. unfold tg. induction (isort Nat.leb s) as [|x l IH]; [reflexivity|]. exact IH.
Qed.
Lemma quiet_det t v co : quiet (det t v co).
Proof. destruct v as [s|]; [|split; reflexivity]. split; [reflexivity|]. cbn [det flat_map]. now rewrite touched_tg. Qed.
Lemma quiet_ann lay s tr : quiet (ann lay s tr).
Proof.
  unfold ann. repeat apply quiet_app.
  - unfold obsinc. destruct (pc3 lay); [split; reflexivity|]. destruct (comb _); [|split; reflexivity]. split; [reflexivity|]. cbn [flat_map]. now rewrite touched_tg.
  - unfold dets0. destruct (_ && _); [|split; reflexivity]. apply quiet_flat. intros x. apply quiet_det.
  - unfold hexdets. apply quiet_flat. intros x. apply quiet_det.
  - split; reflexivity.
Qed.

Lemma flat_map_flat_map' {X Y Z} (f : Y -> list Z) (h : X -> list Y) l : flat_map f (flat_map h l) = flat_map (fun x => flat_map f (h x)) l.
Proof. induction l as [|x l IH]; [reflexivity|]. cbn [flat_map]. now rewrite flat_map_app, IH. Qed.

Section S.
  Variable lay : layout.
  Hypothesis Hv : valid lay.
  Hypothesis Hobs : obs lay = "V"%string \/ obs lay = "H"%string.
  Notation ix := (ix lay).
  Notation E := (round_edges lay).
  Notation zk := Z.of_nat.
  Notation n := (sub_rounds lay).
  Notation N := (Z.to_nat n).
  Notation trk := (trk lay (tr0 lay)).
  Notation annk := (annk lay (tr0 lay)).
  Notation mop := (mop lay).
  Notation supported := (supported lay).
  Local Opaque data_qubit_coords measure_qubit_coords q2i_dict hex_entries hexes round_edges all_edges isort.

  (** Kinds of qubits: left data 0, right data 1, centres 2, 3, 4. *)
  Inductive kind : nat -> Z -> Prop :=
  | kind_l q : isdata lay q -> data_qubit_parity q = false -> kind (ix q) 0
  | kind_r q : isdata lay q -> data_qubit_parity q = true -> kind (ix q) 1
  | kind_c s e : In e (E s) -> kind (ix (e_center e)) (2 + s mod 3).
  Lemma kind_fun x c c' : kind x c -> kind x c' -> c = c'.
  Proof.
    intros H H'. inversion H as [q Hq Pq E1 E2|q Hq Pq E1 E2|s e He E1 E2]; subst; inversion H' as [q' Hq' Pq' E1 E2|q' Hq' Pq' E1 E2|s' e' He' E1 E2]; subst; try reflexivity.
    - apply (ix_inj lay Hv) in E1; [subst; congruence | now apply data_in_qubits | now apply data_in_qubits].
    - exfalso. symmetry in E1. revert E1. now apply (ix_data_center lay Hv q s').
    - apply (ix_inj lay Hv) in E1; [subst; congruence | now apply data_in_qubits | now apply data_in_qubits].
    - exfalso. symmetry in E1. revert E1. now apply (ix_data_center lay Hv q s').
    - exfalso. revert E1. now apply (ix_data_center lay Hv q' s).
    - exfalso. revert E1. now apply (ix_data_center lay Hv q' s).
    - destruct (Z.eq_dec (s mod 3) (s' mod 3)) as [->|Ne]; [reflexivity|]. exfalso. symmetry in E1. revert E1. now apply (ix_centers lay Hv s s').
  Qed.
  (** Distinct qubits of the listed kinds. *)
  Definition of_kinds (l : list nat) (K : list Z) : Prop := NoDup l /\ forall x, In x l -> exists c, In c K /\ kind x c.
  Lemma kinds_app l1 l2 K1 K2 : of_kinds l1 K1 -> of_kinds l2 K2 -> (forall c, In c K1 -> In c K2 -> False) -> of_kinds (l1 ++ l2) (K1 ++ K2).
  Proof.
    intros [N1 H1] [N2 H2] Hd. split.
    - apply NoDup_app_intro; auto. intros x X1 X2. destruct (H1 x X1) as (c & C1 & K). destruct (H2 x X2) as (c' & C2 & K'). rewrite (kind_fun x c c' K K') in C1. now apply (Hd c').
    - intros x Hx. apply in_app_or in Hx. destruct Hx as [Hx|Hx]; [destruct (H1 x Hx) as (c & C & K) | destruct (H2 x Hx) as (c & C & K)]; exists c; rewrite in_app_iff; auto.
  Qed.
  Lemma k_centers s : of_kinds (centers lay s) [2 + s mod 3].
  Proof. split; [apply NoDup_centers, Hv|]. intros x Hx. unfold centers in Hx. apply in_map_iff in Hx. destruct Hx as (e & <- & He). eexists. split; [now left | now apply kind_c]. Qed.
  Lemma k_lpairs s : of_kinds (lpairs lay s) [0; 2 + s mod 3].
  Proof.
    split; [apply NoDup_lpairs, Hv|]. intros x Hx. unfold lpairs in Hx. apply in_flat_map in Hx. destruct Hx as (e & He & Hx).
    destruct (round_edge_facts lay Hv s e He) as (Hl & Hr & Pl & Pr & _). destruct Hx as [<-|[<-|[]]].
    - exists 0. split; [now left | now apply kind_l].
    - eexists. split; [right; now left | now apply kind_c].
  Qed.
  Lemma k_rpairs s : of_kinds (rpairs lay s) [1; 2 + s mod 3].
  Proof.
    split; [apply NoDup_rpairs, Hv|]. intros x Hx. unfold rpairs in Hx. apply in_flat_map in Hx. destruct Hx as (e & He & Hx).
    destruct (round_edge_facts lay Hv s e He) as (Hl & Hr & Pl & Pr & _). destruct Hx as [<-|[<-|[]]].
    - exists 1. split; [now left | now apply kind_r].
    - eexists. split; [right; now left | now apply kind_c].
  Qed.
  Lemma k_data : of_kinds (data_ix lay) [0; 1].
  Proof.
    split; [apply NoDup_data_ix, Hv|]. intros x Hx. unfold data_ix, Ends.data_ix in Hx. apply in_map_iff in Hx. destruct Hx as (q & <- & Hq). apply (in_data lay Hv) in Hq.
    destruct (data_qubit_parity q) eqn:P; [exists 1 | exists 0]; (split; [cbn; tauto|]); constructor; auto.
  Qed.
  Lemma k_data1 : of_kinds (data1 lay) [0].
  Proof.
    split; [unfold data1; apply NoDup_ix; [exact Hv | intros q Hq; apply filter_In in Hq; apply data_in_qubits, in_data; tauto | apply NoDup_filter, NoDup_data]|].
    intros x Hx. unfold data1 in Hx. apply in_map_iff in Hx. destruct Hx as (q & <- & Hq). apply filter_In in Hq. destruct Hq as [Hq P]. apply (in_data lay Hv) in Hq.
    exists 0. split; [now left|]. constructor; [exact Hq|]. now destruct (data_qubit_parity q).
  Qed.
  Lemma k_data2 : of_kinds (data2 lay) [1].
  Proof.
    split; [unfold data2; apply NoDup_ix; [exact Hv | intros q Hq; apply filter_In in Hq; apply data_in_qubits, in_data; tauto | apply NoDup_filter, NoDup_data]|].
    intros x Hx. unfold data2 in Hx. apply in_map_iff in Hx. destruct Hx as (q & <- & Hq). apply filter_In in Hq. destruct Hq as [Hq P]. apply (in_data lay Hv) in Hq.
    exists 1. split; [now left|]. now constructor.
  Qed.
  Lemma k_meas : of_kinds (meas_ix lay) [2; 3; 4].
  Proof.
    split; [apply NoDup_meas, Hv|]. intros x Hx. unfold meas_ix in Hx. apply in_map_iff in Hx. destruct Hx as (q & <- & Hq).
    apply (Permutation_in _ (measure_perm lay Hv)) in Hq. apply in_map_iff in Hq. destruct Hq as (e & <- & He). apply in_all_edges_round in He. destruct He as (r & Hr & He).
    exists (2 + r mod 3). split; [|now apply kind_c]. assert (C : r = 0 \/ r = 1 \/ r = 2) by lia. destruct C as [->|[->| ->]]; cbn; tauto.
  Qed.

  (** ** Cutting the generated lists *)
  Lemma mo_g name l c r : canon name <> "TICK"%string -> moments c (g name l :: r) = moments (c ++ [g name l]) r.
  Proof. intros H. cbn [moments]. unfold is_tick, g. cbn [iname]. apply String.eqb_neq in H. now rewrite H. Qed.
  Lemma mo_tick c r : moments c (tick_i :: r) = c :: moments [] r.
  Proof. reflexivity. Qed.
  Lemma mo_quiet l c r : quiet l -> moments c (l ++ r) = moments (c ++ l) r.
  Proof.
    intros [H _]. revert c. induction l as [|i l IH]; intros c; cbn [app]; [now rewrite app_nil_r|]. cbn [forallb] in H. apply andb_true_iff in H. destruct H as [H1 H2].
    cbn [moments]. destruct (is_tick i); [discriminate|]. rewrite IH by exact H2. now rewrite <- app_assoc.
  Qed.
  Lemma t_g name l : canon name <> "QUBIT_COORDS"%string -> touched (g name l) = l.
  Proof. intros H. unfold touched, g. cbn [iname itargets]. apply String.eqb_neq in H. now rewrite H, qubits_TQ. Qed.
  Lemma t_quiet l : quiet l -> flat_map touched l = [].
  Proof. now intros [_ H]. Qed.
  Lemma quiet_annk k : quiet (annk k).
  Proof. apply quiet_ann. Qed.
  Lemma mop_g s : is_em3 (style lay) = false -> mop s = [g "M" (centers lay s)].
  Proof. intros H. unfold mop. now rewrite H. Qed.
  Lemma kinds_nil : of_kinds [] [].
  Proof. split; [constructor | intros x []]. Qed.
  Lemma kinds_NoDup l K : of_kinds l K -> NoDup l.
  Proof. now intros [H _]. Qed.

  Ltac mo := repeat first [rewrite mo_tick | rewrite mo_g by (cbn; discriminate) | match goal with |- context [moments _ (annk ?k ++ _)] => rewrite (mo_quiet (annk k)) by apply quiet_annk end]; cbn [moments app].
  Ltac tt := repeat progress (rewrite ?flat_map_app; cbn [flat_map app]); rewrite ?t_g by (cbn; discriminate); repeat match goal with |- context [flat_map touched (annk ?k)] => rewrite (t_quiet (annk k)) by apply quiet_annk end; cbn [app]; rewrite ?app_nil_r.
  Ltac kk := unfold once; tt; first [solve [constructor] | eapply kinds_NoDup; repeat first [eapply kinds_app | apply k_centers | apply k_lpairs | apply k_rpairs | apply k_data | apply k_data1 | apply k_data2 | apply k_meas];
    (let c := fresh in let H := fresh in let H' := fresh in intros c H H'; cbn [In app] in H, H'; clear -H H'; dlia)].
  Ltac each := repeat (apply Forall_cons; [try kk|]); try apply Forall_nil.

  Lemma clean_flat {X} (f : X -> list instr) l r : (forall x, In x l -> exists b, f x = b ++ [tick_i] /\ clean b) -> clean r -> clean (flat_map f l ++ r).
  Proof.
    intros H Hr. induction l as [|x l IH]; [exact Hr|]. cbn [flat_map]. destruct (H x (or_introl eq_refl)) as (b & -> & Hb). rewrite <- !app_assoc. cbn [app].
    apply clean_tick; [exact Hb|]. apply IH. intros; apply H; now right.
  Qed.
  Lemma clean_after a b r : a = b ++ [tick_i] -> clean b -> clean r -> clean (a ++ r).
  Proof. intros -> Hb Hr. rewrite <- app_assoc. now apply clean_tick. Qed.

  Lemma clean_em3 r : is_em3 (style lay) = true -> clean r -> clean (em3_body lay ++ r).
  Proof.
    intros H Hr. unfold em3_body. apply clean_flat; [|exact Hr]. intros k _. exists (mkI "MPP" (mpp_targets lay (zk k)) [] :: annk k). split.
    - unfold em3_i, mop. rewrite H. cbn [app]. reflexivity.
    - apply clean_moment; [cbn [forallb]; apply (proj1 (quiet_annk k))|]. cbn [flat_map]. rewrite t_quiet by apply quiet_annk. rewrite app_nil_r.
      unfold touched. cbn [iname itargets canon String.eqb Ascii.eqb Bool.eqb]. unfold mpp_targets.
      rewrite (flat_map_flat_map' qubits_of). cbn [flat_map qubits_of app]. apply NoDup_lr, Hv.
  Qed.
  Lemma clean_sd6 r : is_em3 (style lay) = false -> 1 <= n -> clean r -> clean (sd6_body lay ++ r).
  Proof.
    intros H Hn Hr. unfold sd6_body. rewrite <- app_assoc.
    assert (Close : forall c, once c -> (forall x, In x (flat_map touched c) -> exists s, kind x (2 + s mod 3)) -> Forall once (moments c (sd6_close_i lay ++ r))).
    { intros c Hc Hk. unfold sd6_close_i. destruct (_ =? 0); [|destruct (_ =? 0)]; cbn [app]; mo; apply Forall_cons; try exact Hr; try exact Hc; unfold once; tt.
      all: apply NoDup_app_intro; [exact Hc | apply (kinds_NoDup _ _ k_data) |]; intros x X1 X2; destruct (Hk x X1) as (s & K1); destruct (proj2 k_data x X2) as (c' & C & K2);
        pose proof (kind_fun x _ _ K1 K2); cbn [In] in C; clear -C H0; dlia. }
    destruct (Z.eqb_spec n 1) as [E1|N1].
    - unfold clean, sd6_single_i. rewrite mop_g by exact H. rewrite <- !app_assoc. cbn [app]. mo. each. apply Close; [kk|].
      tt. intros x Hx. destruct (proj2 (k_centers 0) x Hx) as (c & [<-|[]] & K). now exists 0.
    - rewrite <- !app_assoc. eapply clean_after; [unfold sd6_begin_i; rewrite (app_removelast_last tick_i) at 1 by discriminate; reflexivity | cbn [removelast]; unfold clean; mo; each |].
      apply clean_flat.
      + intros k _. eexists. split; [unfold sd6_step_i; rewrite !app_assoc; reflexivity|]. unfold clean. rewrite mop_g by exact H. rewrite <- !app_assoc. cbn [app]. mo.
        rewrite <- (app_nil_r (annk k)). mo. each.
      + unfold clean, sd6_end_i. rewrite !mop_g by exact H. rewrite <- !app_assoc. cbn [app]. mo. rewrite <- ?app_assoc. cbn [app]. mo. each. apply Close; [kk|].
        tt. intros x Hx. destruct (proj2 (k_centers _) x Hx) as (c & [<-|[]] & K). eauto.
  Qed.
  Lemma clean_si r : is_em3 (style lay) = false -> clean r -> clean (si_body lay ++ r).
  Proof.
    intros H Hr. unfold si_body. apply clean_flat; [|exact Hr]. intros j _. eexists. split; [unfold si_i; rewrite !app_assoc; reflexivity|].
    rewrite !mop_g by exact H. rewrite <- !app_assoc. unfold clean. unfold si_head, si_gates.
    destruct j as [|j]; cbn [app]; mo; rewrite <- ?app_assoc; cbn [app]; mo; rewrite <- ?app_assoc; cbn [app]; mo; rewrite <- (app_nil_r (annk (3 * _ + 2))); mo; each.
  Qed.
  Lemma clean_pc3 r : is_em3 (style lay) = false -> clean r -> clean (flat_map (pc3_i lay) (seq 0 (Z.to_nat (n + 2))) ++ r).
  Proof.
    intros H Hr. apply clean_flat; [|exact Hr]. intros k _. eexists. split; [unfold pc3_i; rewrite !app_assoc; reflexivity|].
    assert (Hp : forall s l, canon (pcx s) <> "TICK"%string /\ touched (g (pcx s) l) = l).
    { intros s l. unfold pcx. destruct (xyz s); (split; [cbn; discriminate | apply t_g; cbn; discriminate]). }
    rewrite !mop_g by exact H.
    assert (K1 : of_kinds (flat_map touched (if zk k <? n then [g (pcx (zk k)) (lpairs lay (zk k))] else [])) [0; 2 + zk k mod 3]).
    { destruct (_ <? _); cbn [flat_map]; [rewrite (proj2 (Hp _ _)), app_nil_r; apply k_lpairs | split; [constructor | intros x []]]. }
    assert (K2 : of_kinds (flat_map touched (if (1 <=? zk k) && (zk k <=? n) then [g (pcx (zk k - 1)) (rpairs lay (zk k - 1))] else [])) [1; 2 + (zk k - 1) mod 3]).
    { destruct (_ && _); cbn [flat_map]; [rewrite (proj2 (Hp _ _)), app_nil_r; apply k_rpairs | split; [constructor | intros x []]]. }
    assert (K3 : of_kinds (flat_map touched (if 2 <=? zk k then [g "M" (centers lay (zk (k - 2)))] ++ annk (k - 2) else [g "R" (centers lay (zk k - 2))])) [2 + (zk k - 2) mod 3]).
    { destruct (Z.leb_spec 2 (zk k)) as [L|L].
      - rewrite flat_map_app, (t_quiet (annk (k - 2))) by apply quiet_annk. cbn [flat_map]. rewrite t_g by (cbn; discriminate). rewrite !app_nil_r.
        replace ((zk k - 2) mod 3) with (zk (k - 2) mod 3) by (f_equal; lia). apply k_centers.
      - cbn [flat_map]. rewrite t_g by (cbn; discriminate). rewrite app_nil_r. apply k_centers. }
    apply clean_moment.
    - rewrite !forallb_app. destruct (zk k <? n), ((1 <=? zk k) && (zk k <=? n)), (2 <=? zk k); rewrite ?forallb_app; cbn [forallb app]; rewrite ?(proj1 (quiet_annk _)); unfold pcx, is_tick, g; cbn [iname];
        repeat match goal with |- context [xyz ?z] => destruct (xyz z) end; reflexivity.
    - rewrite !flat_map_app, <- app_assoc. eapply kinds_NoDup. apply kinds_app; [exact K1 | apply kinds_app; [exact K2 | exact K3 |]|]; intros c C1 C2; cbn [In app] in C1, C2; clear -C1 C2; dlia.
  Qed.
  Lemma quiet_pc3_obs tr : quiet (pc3_obs_i lay tr).
  Proof. unfold pc3_obs_i. apply quiet_flat. intros k. destruct (comb _); [|split; reflexivity]. split; [reflexivity|]. cbn [flat_map]. now rewrite touched_tg. Qed.
  Lemma hdata_clean p r : clean r -> clean (hdata lay p ++ r).
  Proof.
    intros Hr. unfold hdata. destruct p; cbn [pauli_eqb app]; [| |exact Hr];
    (eapply (clean_after [_; _] [_]); [reflexivity | | exact Hr]; apply clean_moment; [reflexivity|]; cbn [flat_map]; unfold touched; cbn [iname itargets canon basis_h String.eqb Ascii.eqb Bool.eqb]; rewrite qubits_TQ, app_nil_r; apply (kinds_NoDup _ _ k_data)).
  Qed.
  Lemma quiet_fin tr : quiet ((if pauli_eqb (xyz (n - 1)) (final_basis lay) then fin_edges lay tr else fin_other lay tr) ++ fin_hexes lay tr ++ fin_obs lay tr).
  Proof.
    repeat apply quiet_app.
    - destruct (pauli_eqb _ _); apply quiet_flat; intros x; apply quiet_det.
    - apply quiet_flat; intros x; apply quiet_det.
    - unfold fin_obs. destruct (comb _); [|split; reflexivity]. split; [reflexivity|]. cbn [flat_map]. now rewrite touched_tg.
  Qed.
  Lemma fin_clean q tr : quiet q -> clean (q ++ fin lay tr).
  Proof.
    intros Hq. unfold fin. assert (M : forall q, quiet q -> clean (q ++ [mkI "M" (qs (Ends.data_ix lay)) []] ++ (if pauli_eqb (xyz (n - 1)) (final_basis lay) then fin_edges lay tr else fin_other lay tr) ++ fin_hexes lay tr ++ fin_obs lay tr)).
    { intros q0 Hq0. apply clean_moment.
      - rewrite forallb_app, (proj1 Hq0), forallb_app, (proj1 (quiet_fin tr)). reflexivity.
      - rewrite flat_map_app, (proj2 Hq0), flat_map_app, (proj2 (quiet_fin tr)). cbn [flat_map app]. unfold touched. cbn [iname itargets canon String.eqb Ascii.eqb Bool.eqb]. rewrite qubits_TQ, !app_nil_r. apply (kinds_NoDup _ _ k_data). }
    unfold hdata. destruct (final_basis lay) eqn:F; cbn [pauli_eqb]; [| |cbn [app]; now apply M].
    all: rewrite app_assoc; eapply (clean_after (q ++ [_; _]) (q ++ [_])); [rewrite <- app_assoc; reflexivity | | apply (M []); split; reflexivity].
    all: apply clean_moment; [rewrite forallb_app, (proj1 Hq); reflexivity|]; rewrite flat_map_app, (proj2 Hq); cbn [flat_map app]; unfold touched; cbn [iname itargets canon basis_h String.eqb Ascii.eqb Bool.eqb]; rewrite qubits_TQ, app_nil_r; apply (kinds_NoDup _ _ k_data).
  Qed.
  Theorem circuit_clean : supported -> clean (circuit_i lay).
  Proof.
    intros (Hn & Hs). unfold circuit_i, init_i. rewrite <- app_assoc.
    assert (HB : clean (body_i lay ++ fin lay (trk N))).
    { assert (HF : clean (fin lay (trk N))) by (apply (fin_clean []); split; reflexivity).
      unfold body_i. destruct Hs as [Es|[Es|[Es|[Es|[Es H3]]]]]; rewrite Es; cbn [String.eqb Ascii.eqb Bool.eqb].
      - apply clean_sd6; auto. now rewrite Es.
      - unfold pc3_body. rewrite <- app_assoc. apply clean_pc3; [now rewrite Es|]. apply fin_clean, quiet_pc3_obs.
      - apply clean_em3; auto. now rewrite Es.
      - apply clean_em3; auto. now rewrite Es.
      - apply clean_si; auto. now rewrite Es. }
    rewrite app_assoc. eapply (clean_after (coords_i lay ++ [_; _]) (coords_i lay ++ [_])); [rewrite <- app_assoc; reflexivity | | now apply hdata_clean].
    assert (Q : quiet (coords_i lay)).
    { unfold coords_i. induction (used_qubit_coords lay) as [|q l IH]; [split; reflexivity|]. cbn [map]. change (?a :: ?b) with ([a] ++ b). apply quiet_app; [split; reflexivity | exact IH]. }
    apply clean_moment; [rewrite forallb_app, (proj1 Q); reflexivity|]. rewrite flat_map_app, (proj2 Q). cbn [flat_map app]. unfold touched. cbn [iname itargets canon String.eqb Ascii.eqb Bool.eqb].
    rewrite qubits_TQ, app_nil_r. unfold used_ix. apply NoDup_ix; [exact Hv | intros q Hq; now apply (Gen3.used_in lay Hv) | now apply NoDup_used].
  Qed.

  (** ** Observable annotations *)
  Definition obs_ok (i : instr) : Prop := canon (iname i) = "OBSERVABLE_INCLUDE"%string -> iargs i = [int_arg (zk (oidx lay))].
  Lemma ok_det t v co : Forall obs_ok (det t v co).
  Proof. destruct v; repeat constructor. unfold obs_ok. cbn. discriminate. Qed.
  Lemma ok_flat {X} (f : X -> list instr) l : (forall x, Forall obs_ok (f x)) -> Forall obs_ok (flat_map f l).
  Proof. intros H. induction l as [|x l IH]; [constructor|]. cbn [flat_map]. apply Forall_app. auto. Qed.
  Lemma ok_g name l : canon name <> "OBSERVABLE_INCLUDE"%string -> obs_ok (g name l).
  Proof. intros H K. contradiction. Qed.
  Lemma ok_tick : obs_ok tick_i.
  Proof. unfold obs_ok. cbn. discriminate. Qed.
  Lemma ok_ann k : Forall obs_ok (annk k).
  Proof.
    unfold Shift.annk, ann. repeat (apply Forall_app; split).
    - unfold obsinc. destruct (pc3 lay); [constructor|]. destruct (comb _); repeat constructor.
    - unfold dets0. destruct (_ && _); [|constructor]. apply ok_flat. intros; apply ok_det.
    - apply ok_flat. intros; apply ok_det.
    - repeat constructor. unfold obs_ok. cbn. discriminate.
  Qed.
  Lemma ok_mop s : Forall obs_ok (mop s).
  Proof. unfold mop. destruct (is_em3 _); repeat constructor. unfold obs_ok. cbn. discriminate. Qed.
  Ltac ok := repeat first [apply ok_ann | apply ok_mop | apply Forall_app; split | apply Forall_cons; [first [apply ok_tick | apply ok_g; cbn; discriminate | unfold obs_ok; cbn; discriminate]|] | apply Forall_nil].
  Theorem circuit_obs_ok : Forall obs_ok (circuit_i lay).
  Proof.
    assert (Hh : forall p, Forall obs_ok (hdata lay p)) by (intros []; unfold hdata; cbn [pauli_eqb]; ok).
    unfold circuit_i. apply Forall_app. split; [|apply Forall_app; split; [|apply Forall_app; split]].
    - unfold coords_i. apply Forall_forall. intros i Hi. apply in_map_iff in Hi. destruct Hi as (q & <- & _). unfold obs_ok. cbn. discriminate.
    - unfold init_i. apply Forall_app. split; [ok | apply Hh].
    - unfold body_i. destruct (_ =? _)%string; [|destruct (_ =? _)%string; [|destruct (is_em3 _)]].
      + unfold sd6_body, sd6_single_i, sd6_begin_i, sd6_step_i, sd6_end_i, sd6_close_i. apply Forall_app. split; [destruct (_ =? _)|destruct (_ =? _); [|destruct (_ =? _)]]; ok.
        apply ok_flat. intros k. ok.
      + unfold pc3_body. apply Forall_app. split.
        * apply ok_flat. intros k. unfold pc3_i. repeat (apply Forall_app; split).
          -- destruct (_ <? _); [|constructor]. constructor; [|constructor]. apply ok_g. unfold pcx. destruct (xyz _); cbn; discriminate.
          -- destruct (_ && _); [|constructor]. constructor; [|constructor]. apply ok_g. unfold pcx. destruct (xyz _); cbn; discriminate.
          -- destruct (_ <=? _); ok.
          -- ok.
        * unfold pc3_obs_i. apply ok_flat. intros k. destruct (comb _); repeat constructor.
      + unfold em3_body, em3_i. apply ok_flat. intros k. ok.
      + unfold si_body, si_i, si_head, si_gates. apply ok_flat. intros k. apply Forall_app. split; [destruct k|]; ok.
    - unfold fin. apply Forall_app. split; [apply Hh|]. ok.
      + destruct (pauli_eqb _ _); apply ok_flat; intros; apply ok_det.
      + apply ok_flat; intros; apply ok_det.
      + unfold fin_obs. destruct (comb _); repeat constructor.
  Qed.
  Lemma circuit_has_obs : 1 <= n -> exists i, In i (circuit_i lay) /\ canon (iname i) = "OBSERVABLE_INCLUDE"%string.
  Proof.
    intros Hn. assert (S0 : exists s, comb (map (dq lay (trk N)) (snd (obr lay n))) = Some s).
    { destruct (comb _) as [s|] eqn:F; [eauto|]. exfalso. revert F. apply comb_some. intros v Hin. apply in_map_iff in Hin. destruct Hin as (q & <- & _). discriminate. }
    destruct S0 as (s & Es). exists (mkI "OBSERVABLE_INCLUDE" (tg (ftime lay (trk N)) s) [int_arg (zk (oidx lay))]). split; [|reflexivity].
    unfold circuit_i, fin, fin_obs. rewrite Es. rewrite !in_app_iff. cbn [In]. tauto.
  Qed.
End S.
