(** Properties of the noise models (src/noise.py) and of the complete generator. *)
From Coq Require Import QArith.
From Verif Require Import Prelude Layout LayoutFacts Prop_Layout Tracker Stim Circuit Noise Gen Gen3 Prop_Circuit NoiseFacts NoiseMoments GenShape.
Open Scope Z_scope.

(** ** Specification of the named models: strength per gate, per idling qubit, and per
    qubit idling during measurements and resets *)
Definition one_of (gate : string) (l : list string) : bool := existsb (String.eqb gate) l.
Definition annotation (gate : string) : bool := one_of gate ["TICK"; "DETECTOR"; "OBSERVABLE_INCLUDE"; "SHIFT_COORDS"; "QUBIT_COORDS"]%string.
Definition clifford1 : list string := ["I"; "H"; "H_YZ"; "C_XYZ"; "C_ZYX"]%string.
Definition clifford2 : list string := ["CX"; "CY"; "CZ"; "XCX"; "XCY"; "XCZ"; "YCX"; "YCY"; "YCZ"]%string.
Definition strength (model : string) (p : Q) (gate : string) : option Q :=
  if annotation gate then Some 0%Q
  else if (model =? "SD6")%string then
    if one_of gate (["R"; "M"; "CX"]%string ++ clifford1) then Some p else None
  else if (model =? "PC3")%string then
    if one_of gate (["R"; "M"]%string ++ clifford1 ++ clifford2) then Some p else None
  else if (model =? "EM3")%string then
    if one_of gate (["R"; "M"; "MPP"]%string ++ clifford1) then Some p else None
  else if (model =? "EM3_v2")%string then
    if one_of gate ["R"; "M"]%string then Some (p / (2 # 1))%Q
    else if one_of gate ["MPP"]%string then Some p
    else if one_of gate (clifford1 ++ clifford2) then Some 0%Q else None
  else if (model =? "SI1000")%string then
    if one_of gate ["CZ"]%string then Some p
    else if one_of gate ["R"]%string then Some ((2 # 1) * p)%Q
    else if one_of gate ["M"]%string then Some ((5 # 1) * p)%Q
    else if one_of gate clifford1 then Some (p / (10 # 1))%Q else None
  else None.
Definition idle_strength (model : string) (p : Q) : Q := if (model =? "SI1000")%string then (p / (10 # 1))%Q else p.
Definition wait_strength (model : string) (p : Q) : Q := if (model =? "SI1000")%string then ((2 # 1) * p)%Q else 0%Q.
Definition models : list string := ["SD6"; "PC3"; "EM3"; "EM3_v2"; "SI1000"]%string.

(** ** C11, second part: the styles with a noise model *)
Theorem C11_noise_model_dispatch : forall lay,
  (In (style lay) models <-> exists nm, layout_noise_model lay = Ok nm) /\
  (~ In (style lay) models -> layout_noise_model lay = Err NotImplementedError).
Proof.
  intros lay. unfold layout_noise_model, models.
  destruct (String.eqb_spec (style lay) "SD6") as [->|N1]; [split; [split; [eauto | cbn; tauto] | cbn; tauto]|].
  destruct (String.eqb_spec (style lay) "PC3") as [->|N2]; [split; [split; [eauto | cbn; tauto] | cbn; tauto]|].
  destruct (String.eqb_spec (style lay) "EM3") as [->|N3]; [split; [split; [eauto | cbn; tauto] | cbn; tauto]|].
  destruct (String.eqb_spec (style lay) "EM3_v2") as [->|N4]; [split; [split; [eauto | cbn; tauto] | cbn; tauto]|].
  destruct (String.eqb_spec (style lay) "SI1000") as [->|N5]; [split; [split; [eauto | cbn; tauto] | cbn; tauto]|].
  split; [split; [|intros (nm & K); discriminate] | reflexivity]. cbn. intros [K|[K|[K|[K|[K|[]]]]]]; symmetry in K; contradiction.
Qed.
Print Assumptions C11_noise_model_dispatch.

(** ** C29: strengths *)
Lemma model_cases lay nm : layout_noise_model lay = Ok nm ->
  style lay = "SD6"%string /\ nm = NM_SD6 (noise lay) \/ style lay = "PC3"%string /\ nm = NM_PC3 (noise lay) \/
  style lay = "EM3"%string /\ nm = NM_EM3_v1 (noise lay) \/ style lay = "EM3_v2"%string /\ nm = NM_EM3_v2 (noise lay) \/
  style lay = "SI1000"%string /\ nm = NM_SI1000 (noise lay).
Proof.
  unfold layout_noise_model. intros H.
  destruct (String.eqb_spec (style lay) "SD6") as [E|N1]; [injection H as <-; auto|].
  destruct (String.eqb_spec (style lay) "PC3") as [E|N2]; [injection H as <-; auto|].
  destruct (String.eqb_spec (style lay) "EM3") as [E|N3]; [injection H as <-; auto|].
  destruct (String.eqb_spec (style lay) "EM3_v2") as [E|N4]; [injection H as <-; auto 6|].
  destruct (String.eqb_spec (style lay) "SI1000") as [E|N5]; [injection H as <-; auto 8|]. discriminate.
Qed.
Theorem C29_strengths : forall lay nm op, layout_noise_model lay = Ok nm ->
  op_strength nm op = match strength (style lay) (noise lay) (iname op) with Some q => Ok q | None => Err NotImplementedError end /\
  idle nm = idle_strength (style lay) (noise lay) /\ measure_reset_idle nm = wait_strength (style lay) (noise lay) /\
  (use_correlated nm = true <-> style lay = "EM3_v2"%string).
Proof.
  intros lay nm op H. destruct op as [name ts args]. set (p := noise lay). unfold op_strength. cbn [iname].
  destruct (model_cases lay nm H) as [[-> ->]|[[-> ->]|[[-> ->]|[[-> ->]|[-> ->]]]]]; fold p;
  (split; [|split; [reflexivity|]; split; [reflexivity|]; split; (reflexivity || discriminate)]);
  (destruct (in_dec string_dec name (["TICK"; "DETECTOR"; "OBSERVABLE_INCLUDE"; "SHIFT_COORDS"; "QUBIT_COORDS"; "R"; "M"; "MPP"]%string ++ clifford1 ++ clifford2)) as [I'|N];
   [cbn [app clifford1 clifford2 In] in I'; decompose [or] I'; try contradiction; subst name; reflexivity|];
   assert (K : forall s, In s (["TICK"; "DETECTOR"; "OBSERVABLE_INCLUDE"; "SHIFT_COORDS"; "QUBIT_COORDS"; "R"; "M"; "MPP"]%string ++ clifford1 ++ clifford2) -> (name =? s)%string = false /\ (s =? name)%string = false)
     by (intros s Hs; split; apply String.eqb_neq; intros ->; auto);
   unfold strength, annotation, in_names, one_of, clifford1, clifford2, ANY_CLIFFORD_1_OPS, ANY_CLIFFORD_2_OPS, ANNOTATION_OPS;
   cbn [NM_SD6 NM_PC3 NM_EM3_v1 NM_EM3_v2 NM_SI1000 noisy_gates any_clifford_1 any_clifford_2 app existsb dict_get];
   repeat match goal with |- context [(name =? ?s)%string] => rewrite (proj1 (K s ltac:(cbn; tauto))) end;
   repeat match goal with |- context [(?s =? name)%string] => rewrite (proj2 (K s ltac:(cbn; tauto))) end;
   reflexivity).
Qed.
Print Assumptions C29_strengths.
