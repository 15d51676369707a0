(** C25, C66, C67: what an undetected error of the instantaneous code can do, and how many
    data qubits it must touch. *)
From Coq Require Import QArith String.
From Verif Require Import Prelude Layout LayoutFacts LayoutEdges LayoutLists LayoutHex LayoutHex2 Pauli LayoutObs LayoutLogic Prop_Layout Distance Distance2.
Open Scope Z_scope.

(** ** Vocabulary.  Right after sub-round r the code's stabilizer group is generated by the
    checks just measured and by the hex stabilizers. *)
Definition on_data_qubits (lay : layout) (P : pstring) : Prop := forall p q, In (p, q) P -> In q (data_qubit_coords lay).
(** P changes no value of a check of sub-round r nor of a stabilizer. *)
Definition undetected (lay : layout) (r : Z) (P : pstring) : Prop :=
  (forall e, In e (round_edges lay r) -> anticommutes (check lay r e) P = false) /\
  (forall h c, hex_of lay h c -> anticommutes (stabilizer lay h c) P = false).
(** P is, up to phase, a product of checks of sub-round r and stabilizers. *)
Definition generator (lay : layout) (r : Z) (g : pstring) : Prop :=
  (exists e, In e (round_edges lay r) /\ g = check lay r e) \/ (exists h c, hex_of lay h c /\ g = stabilizer lay h c).
Definition harmless (lay : layout) (r : Z) (P : pstring) : Prop :=
  exists l, (forall g, In g l -> generator lay r g) /\ same_operator P (concat l).
(** The data qubits on which P is not the identity. *)
Definition is_identity (b : bits) : bool := match b with (false, false) => true | _ => false end.
Definition qubits_touched (lay : layout) (P : pstring) : list cpx :=
  filter (fun q => negb (is_identity (bits_at P q))) (data_qubit_coords lay).
(** The observable's operator before sub-round s. *)
Definition observable (lay : layout) (o : string) (s : Z) (op : pstring) : Prop :=
  obs_op (obs_before_sub_round (with_obs lay o) s) op.

Lemma undetected_iff lay r P : valid lay -> undetected lay r P <-> undet lay P r.
Proof.
  intros Hv. split; intros [A B]; (split; [exact A|]).
  - intros h Hh. exact (B h (hexcat h) (proj2 (hex_of_iff lay h _ Hv) (conj Hh eq_refl))).
  - intros h c Hh. apply hex_of_iff in Hh; [|exact Hv]. destruct Hh as [Hh ->]. exact (B h Hh).
Qed.
Lemma harmless_iff lay r P : valid lay -> harmless lay r P <-> product_of lay r P.
Proof.
  intros Hv. split.
  - intros (l & Hl & E).
    assert (K : exists es hs, (forall e, In e es -> In e (round_edges lay r)) /\ (forall h, In h hs -> ishex lay h) /\
      same_operator (concat l) (flat_map (edge_op (xyz r)) es ++ flat_map (hex_op lay) hs)).
    { clear E. induction l as [|g l IH]; [exists [], []; repeat split; try contradiction|].
      destruct IH as (es & hs & A & B & C); [intros; apply Hl; right; assumption|].
      destruct (Hl g (or_introl eq_refl)) as [(e & He & ->)|(h & c & Hh & ->)].
      - exists (e :: es), hs. split; [intros e' [<-|?]; auto|]. split; [exact B|]. intros q. cbn [concat flat_map].
        rewrite <- app_assoc, !bits_at_app, C, bits_at_app. reflexivity.
      - apply hex_of_iff in Hh; [|exact Hv]. destruct Hh as [Hh ->]. exists es, (h :: hs). split; [exact A|]. split; [intros h' [<-|?]; auto|].
        intros q. cbn [concat flat_map]. rewrite !bits_at_app, C, bits_at_app. change (stabilizer lay h (hexcat h)) with (hex_op lay h).
        rewrite !bxor_assoc. f_equal. apply bxor_comm. }
    destruct K as (es & hs & A & B & C). exists es, hs. split; [exact A|]. split; [exact B|]. intros q. now rewrite E, C.
  - intros (es & hs & A & B & C). exists (map (check lay r) es ++ map (fun h => stabilizer lay h (hexcat h)) hs). split.
    + intros g Hg. apply in_app_or in Hg. destruct Hg as [Hg|Hg]; apply in_map_iff in Hg; destruct Hg as (x & <- & Hx).
      * left. eauto.
      * right. exists x, (hexcat x). split; [apply hex_of_iff; auto | reflexivity].
    + intros q. rewrite C, concat_app, <- !flat_map_concat_map. reflexivity.
Qed.
Lemma on_data_iff lay P : valid lay -> on_data_qubits lay P <-> on_data lay P.
Proof. intros Hv. split; intros H p q K; specialize (H p q K); [exact (proj1 (in_data lay Hv q) H) | exact (proj2 (in_data lay Hv q) H)]. Qed.
Lemma touched_eq lay P : qubits_touched lay P = moved lay P.
Proof. unfold qubits_touched, moved. apply filter_ext. intros q. unfold acts. now destruct (bits_at P q) as [[] []]. Qed.
Lemma obs_h_op lay s op : observable lay "H" s op -> op = Hop lay s.
Proof. intros H. apply obs_op_HV in H. destruct H as [[_ ->]|[E _]]; [reflexivity | discriminate E]. Qed.
Lemma obs_v_op lay s op : observable lay "V" s op -> op = Vop lay s.
Proof. intros H. apply obs_op_HV in H. destruct H as [[E _]|[_ ->]]; [discriminate E | reflexivity]. Qed.
Lemma distance_tiles lay : valid lay -> code_distance_1qdep lay = Z.min (2 * tile_width lay) (4 * tile_height lay).
Proof. intros Hv. pose proof (valid_tiles lay Hv) as K. unfold code_distance_1qdep. destruct K as (_ & _ & -> & ->). f_equal. dlia. Qed.

(** ** C25 *)
(** Every error that no check and no stabilizer sees, and that is not a product of them,
    touches at least code_distance_1qdep data qubits. *)
Theorem C25_distance : forall lay r P, valid lay -> on_data_qubits lay P -> undetected lay r P -> ~ harmless lay r P ->
  code_distance_1qdep lay <= Z.of_nat (length (qubits_touched lay P)).
Proof.
  intros lay r P Hv Hd HU HN. apply (proj1 (on_data_iff lay P Hv)) in Hd. apply (proj1 (undetected_iff lay r P Hv)) in HU. rewrite harmless_iff in HN by exact Hv.
  rewrite touched_eq, distance_tiles by exact Hv. apply (weight_min lay Hv r P HU). intros W. apply HN, (wind_zero lay Hv P r Hd HU W).
Qed.
Print Assumptions C25_distance.
(** The bound is attained after every sub-round. *)
Theorem C25_attained : forall lay r, valid lay -> exists P, on_data_qubits lay P /\ undetected lay r P /\ ~ harmless lay r P /\
  Z.of_nat (length (qubits_touched lay P)) = code_distance_1qdep lay.
Proof.
  intros lay r Hv. rewrite distance_tiles by exact Hv.
  assert (exists s, r mod 3 = (s - 1) mod 3 /\ (s mod 6 = 1 \/ s mod 6 = 2 \/ s mod 6 = 3 \/ s mod 6 = 4)) as (s & Hs & Hs6) by (exists (r mod 3 + 1); dlia).
  destruct (Z.le_ge_cases (2 * tile_width lay) (4 * tile_height lay)) as [L|L].
  - exists (Hop lay s). split; [apply on_data_iff, Hop_data; exact Hv|]. split; [apply undetected_iff, Hop_undet; auto|]. split.
    + rewrite harmless_iff by exact Hv. intros K. pose proof (product_commutes lay r _ _ K (Vop_undet lay Hv r s Hs)) as E. rewrite HV_anti in E by exact Hv. discriminate E.
    + rewrite touched_eq, length_moved_h by auto. lia.
  - exists (Vop lay s). split; [apply on_data_iff, Vop_data; exact Hv|]. split; [apply undetected_iff, Vop_undet; auto|]. split.
    + rewrite harmless_iff by exact Hv. intros K. pose proof (product_commutes lay r _ _ K (Hop_undet lay Hv r s Hs)) as E. rewrite anticommutes_sym, HV_anti in E by exact Hv. discriminate E.
    + rewrite touched_eq, length_moved_v by auto. lia.
Qed.
Print Assumptions C25_attained.
Example C25_example : code_distance_1qdep lay_4_12 = 4 /\ (exists P, on_data_qubits lay_4_12 P /\ undetected lay_4_12 2 P /\ ~ harmless lay_4_12 2 P /\
  Z.of_nat (length (qubits_touched lay_4_12 P)) = 4).
Proof. split; [reflexivity|]. exact (C25_attained lay_4_12 2 lay_4_12_valid). Qed.

(** ** C66: the code keeps two logical qubits and no more *)
Definition included (c : bool) (P : pstring) : pstring := if c then P else [].
(** An undetected error acts, up to a product of checks and stabilizers, as the product of
    those observables whose partners it anticommutes with. *)
Theorem C66_logical_class : forall lay r P hs vs ht vt, valid lay -> on_data_qubits lay P -> undetected lay r P ->
  observable lay "H" (r + 1) hs -> observable lay "V" (r + 1) vs -> observable lay "H" (r + 4) ht -> observable lay "V" (r + 4) vt ->
  harmless lay r (included (anticommutes P vs) hs ++ included (anticommutes P hs) vs ++
                  included (anticommutes P vt) ht ++ included (anticommutes P ht) vt ++ P).
Proof.
  intros lay r P hs vs ht vt Hv Hd HU H1 H2 H3 H4. apply obs_h_op in H1, H3. apply obs_v_op in H2, H4. subst.
  apply (proj1 (on_data_iff lay P Hv)) in Hd. apply (proj1 (undetected_iff lay r P Hv)) in HU. apply harmless_iff; [exact Hv|].
  replace (r + 4) with (r + 1 + 3) by lia.
  pose proof (classify lay Hv r (r + 1) ltac:(dlia) P Hd HU) as K. unfold against, comb in K. rewrite <- !app_assoc in K. exact K.
Qed.
Print Assumptions C66_logical_class.
(** So an undetected error is a product of checks and stabilizers exactly when it flips none
    of the four observables. *)
Theorem C66_harmless_iff : forall lay r P hs vs ht vt, valid lay -> on_data_qubits lay P ->
  observable lay "H" (r + 1) hs -> observable lay "V" (r + 1) vs -> observable lay "H" (r + 4) ht -> observable lay "V" (r + 4) vt ->
  harmless lay r P <-> (undetected lay r P /\ anticommutes P hs = false /\ anticommutes P vs = false /\
                        anticommutes P ht = false /\ anticommutes P vt = false).
Proof.
  intros lay r P hs vs ht vt Hv Hd H1 H2 H3 H4. split.
  - intros K. pose proof K as K'. apply harmless_iff in K'; [|exact Hv]. apply obs_h_op in H1, H3. apply obs_v_op in H2, H4. subst.
    split.
    { apply undetected_iff; [exact Hv|]. destruct K' as (es & hs & He & Hh & EP). split.
      - intros e Hin. rewrite (anticommutes_same_r _ _ _ EP), anticommutes_app_r, !(anticommutes_sym (edge_op _ _)).
        rewrite anticommutes_flat_map_l by (intros e' He'; apply (edges_commute lay Hv r); auto).
        rewrite anticommutes_flat_map_l by (intros h Hh'; rewrite anticommutes_sym; apply (edge_hex_commute lay Hv r); auto). reflexivity.
      - intros h Hin. rewrite (anticommutes_same_r _ _ _ EP), anticommutes_app_r, !(anticommutes_sym (hex_op _ _)).
        rewrite anticommutes_flat_map_l by (intros e' He'; apply (edge_hex_commute lay Hv r); auto).
        rewrite anticommutes_flat_map_l by (intros h' Hh'; apply (hexes_commute lay Hv); auto). reflexivity. }
    repeat split; apply (product_commutes lay r _ _ K'); first [apply Hop_undet | apply Vop_undet]; auto; dlia.
  - intros (HU & E1 & E2 & E3 & E4). pose proof (C66_logical_class lay r P hs vs ht vt Hv Hd HU H1 H2 H3 H4) as K.
    rewrite E1, E2, E3, E4 in K. exact K.
Qed.
Print Assumptions C66_harmless_iff.
(** The sixteen products of observables are pairwise inequivalent. *)
Theorem C66_sixteen_classes : forall lay r hs vs ht vt a b c d a' b' c' d', valid lay ->
  observable lay "H" (r + 1) hs -> observable lay "V" (r + 1) vs -> observable lay "H" (r + 4) ht -> observable lay "V" (r + 4) vt ->
  harmless lay r ((included a hs ++ included b vs ++ included c ht ++ included d vt) ++
                  (included a' hs ++ included b' vs ++ included c' ht ++ included d' vt)) ->
  a = a' /\ b = b' /\ c = c' /\ d = d'.
Proof.
  intros lay r hs vs ht vt a b c d a' b' c' d' Hv H1 H2 H3 H4 K. apply obs_h_op in H1, H3. apply obs_v_op in H2, H4. subst.
  apply harmless_iff in K; [|exact Hv]. replace (r + 4) with (r + 1 + 3) in K by lia.
  change (product_of lay r (comb lay (r + 1) (a, b, c, d) ++ comb lay (r + 1) (a', b', c', d'))) in K.
  apply (against_product lay Hv r (r + 1)) in K; [|dlia]. rewrite against_app, !against_comb in K by exact Hv. apply xor4_zero in K.
  injection K as -> -> -> ->. auto.
Qed.
Print Assumptions C66_sixteen_classes.
Example C66_example : exists hs vs ht vt, observable lay_4_12 "H" (0 + 1) hs /\ observable lay_4_12 "V" (0 + 1) vs /\
  observable lay_4_12 "H" (0 + 4) ht /\ observable lay_4_12 "V" (0 + 4) vt /\ undetected lay_4_12 0 hs /\ ~ harmless lay_4_12 0 hs.
Proof.
  pose proof lay_4_12_valid as Hv.
  exists (Hop lay_4_12 1), (Vop lay_4_12 1), (Hop lay_4_12 4), (Vop lay_4_12 4).
  split; [eexists _, _; split; [vm_compute; reflexivity | reflexivity]|]. split; [eexists _, _; split; [vm_compute; reflexivity | reflexivity]|].
  split; [eexists _, _; split; [vm_compute; reflexivity | reflexivity]|]. split; [eexists _, _; split; [vm_compute; reflexivity | reflexivity]|].
  split; [apply undetected_iff, Hop_undet; try exact Hv; reflexivity|].
  rewrite harmless_iff by exact Hv. intros K. pose proof (product_commutes lay_4_12 0 _ _ K (Vop_undet lay_4_12 Hv 0 1 eq_refl)) as E. rewrite HV_anti in E by exact Hv. discriminate E.
Qed.

(** ** C67: the two observables are protected against different weights *)
Theorem C67_flip_horizontal : forall lay r P op, valid lay -> on_data_qubits lay P -> undetected lay r P ->
  observable lay "H" (r + 1) op -> anticommutes P op = true -> data_height lay / 3 * 2 <= Z.of_nat (length (qubits_touched lay P)).
Proof.
  intros lay r P op Hv Hd HU Ho HA. apply obs_h_op in Ho. subst op. apply (proj1 (on_data_iff lay P Hv)) in Hd. apply (proj1 (undetected_iff lay r P Hv)) in HU.
  rewrite touched_eq. pose proof (weight_flip_h lay Hv r (r + 1) ltac:(dlia) P Hd HU HA). pose proof (valid_tiles lay Hv) as (_ & _ & _ & ->). dlia.
Qed.
Print Assumptions C67_flip_horizontal.
Theorem C67_flip_vertical : forall lay r P op, valid lay -> on_data_qubits lay P -> undetected lay r P ->
  observable lay "V" (r + 1) op -> anticommutes P op = true -> data_width lay <= Z.of_nat (length (qubits_touched lay P)).
Proof.
  intros lay r P op Hv Hd HU Ho HA. apply obs_v_op in Ho. subst op. apply (proj1 (on_data_iff lay P Hv)) in Hd. apply (proj1 (undetected_iff lay r P Hv)) in HU.
  rewrite touched_eq. pose proof (weight_flip_v lay Hv r (r + 1) ltac:(dlia) P Hd HU HA). pose proof (valid_tiles lay Hv) as (_ & _ & -> & _). dlia.
Qed.
Print Assumptions C67_flip_vertical.
(** The vertical observable itself is such an error, and has exactly that weight. *)
Theorem C67_flip_horizontal_attained : forall lay r, valid lay -> exists P op, on_data_qubits lay P /\ undetected lay r P /\
  observable lay "H" (r + 1) op /\ anticommutes P op = true /\ Z.of_nat (length (qubits_touched lay P)) = data_height lay / 3 * 2.
Proof.
  intros lay r Hv. exists (Vop lay (r + 1)), (Hop lay (r + 1)). split; [apply on_data_iff, Vop_data; exact Hv|]. split; [apply undetected_iff, Vop_undet; try exact Hv; dlia|].
  split; [unfold observable, obs_op, obs_before_sub_round, Hop; cbn [obs with_obs String.eqb Ascii.eqb Bool.eqb];
    destruct (obs_h_before_sub_round (with_obs lay "H") (r + 1)) as [p qs] eqn:E; exists p, qs; split; [reflexivity|];
    change (obs_h_before_sub_round lay (r + 1)) with (obs_h_before_sub_round (with_obs lay "H") (r + 1)); rewrite E; reflexivity|].
  split; [rewrite anticommutes_sym; apply HV_anti; exact Hv|].
  rewrite touched_eq, length_moved_v by auto. pose proof (valid_tiles lay Hv) as (_ & _ & _ & ->). dlia.
Qed.
Print Assumptions C67_flip_horizontal_attained.
Example C67_example : let lay := mkLayout 4 6 7 "SD6" "H" (1 # 1000) in data_height lay / 3 * 2 = 4 /\
  exists P op, on_data_qubits lay P /\ undetected lay 5 P /\ observable lay "H" (5 + 1) op /\ anticommutes P op = true.
Proof.
  cbv zeta. split; [reflexivity|]. destruct (C67_flip_horizontal_attained (mkLayout 4 6 7 "SD6" "H" (1 # 1000)) 5) as (P & op & H1 & H2 & H3 & H4 & _).
  - unfold valid; cbn; repeat split; try reflexivity; lia.
  - exists P, op. auto.
Qed.
