(** What one sub-round's measurements add to the tracker and to the circuit:
    sub_round_measurements_and_detectors in closed form. *)
From Coq Require Import QArith.
From Verif Require Import Prelude Layout LayoutFacts LayoutEdges LayoutLists LayoutHex LayoutHex2 Pauli LayoutLogic LayoutIndex
  Tracker TrackerFacts Stim Circuit.
Open Scope Z_scope.

Lemma key_eqb_eq a : forall b, key_eqb a b = true <-> a = b.
Proof.
  induction a as [c|e|k IH]; intros [c'|e'|k']; cbn; try (split; [discriminate | intros K; discriminate K]).
  - rewrite cpx_eqb_eq. split; intros K; [now f_equal | now injection K].
  - rewrite edge_eqb_eq. split; intros K; [now f_equal | now injection K].
  - rewrite IH. split; intros K; [now f_equal | now injection K].
Qed.
Lemma key_eqb_refl a : key_eqb a a = true.
Proof. now apply key_eqb_eq. Qed.
Lemma key_eqb_neq a b : key_eqb a b = false <-> a <> b.
Proof. rewrite <- key_eqb_eq. destruct (key_eqb a b); split; intros; congruence. Qed.

Lemma flat_map_ext_in {A B} (f g : A -> list B) l : (forall x, In x l -> f x = g x) -> flat_map f l = flat_map g l.
Proof. intros H. rewrite !flat_map_concat_map. f_equal. now apply map_ext_in. Qed.

Lemma bind_ok {A B} (a : A) (f : A -> res B) : bind (Ok a) f = f a.
Proof. reflexivity. Qed.

Notation wft := (wf (K := key)).

(** ** Tracker loops over distinct keys *)
Definition cur (tr : mtrack) (k : key) : entry := hd None (hist tr k).
Definition comb (vs : list entry) : entry := fold_left combine_entry vs (Some []).
Definition has (tr : mtrack) (k : key) : Prop := hist tr k <> [].

Lemma lookup_cur (tr : mtrack) k : has tr k -> lookup tr (K1 k) = Ok (cur tr k).
Proof. intros H. unfold K1. rewrite lookup_key. unfold cur, has in *. destruct (hist tr k); [congruence | reflexivity]. Qed.

Lemma time_set_cur (tr : mtrack) ks : (forall k, In k ks -> has tr k) ->
  measurement_time_set tr (map K1 ks) = Ok (comb (map (cur tr) ks)).
Proof.
  intros H. unfold measurement_time_set, comb. apply loop_lookups.
  induction ks as [|k ks IH]; [reflexivity|]. cbn [map lookups]. rewrite lookup_cur by (apply H; now left). cbn [bind].
  rewrite IH by (intros; apply H; now right). reflexivity.
Qed.

Lemma push_same tr k v t : hist (push key_eqb tr k v t) k = v :: hist tr k.
Proof. unfold push. cbn. now rewrite key_eqb_refl. Qed.
Lemma push_other tr k v t k' : k' <> k -> hist (push key_eqb tr k v t) k' = hist tr k'.
Proof. intros H. unfold push. cbn. apply key_eqb_neq in H. now rewrite H. Qed.

(** The position of an element in a list. *)
Fixpoint index {A} (eqb : A -> A -> bool) (x : A) (l : list A) : nat :=
  match l with [] => 0%nat | y :: r => if eqb x y then 0%nat else S (index eqb x r) end.

Lemma add_measurements_spec {A} (eqb : A -> A -> bool) (Heq : forall a b, eqb a b = true <-> a = b) (f : A -> key) l : forall tr, NoDup (map f l) ->
  exists tr', add_measurements key_eqb tr (map (fun x => K1 (f x)) l) = Ok tr' /\ tm tr' = (tm tr + length l)%nat /\
    (forall x, In x l -> hist tr' (f x) = Some [(tm tr + index eqb x l)%nat] :: hist tr (f x)) /\
    (forall k, ~ In k (map f l) -> hist tr' k = hist tr k).
Proof.
  induction l as [|a l IH]; intros tr Hn.
  - exists tr. split; [reflexivity|]. split; [cbn; lia|]. split; [intros x []|]. reflexivity.
  - cbn [map] in Hn. inversion Hn as [|? ? Ha Hn']; subst.
    destruct (IH (push key_eqb tr (f a) (Some [tm tr]) (S (tm tr))) Hn') as (tr' & E & T & H1 & H2).
    exists tr'. split; [exact E|]. split; [rewrite T; cbn [push tm length]; lia|]. split.
    + intros x Hx. cbn [index]. destruct (eqb x a) eqn:Ex.
      * apply Heq in Ex. subst x. rewrite H2 by exact Ha. rewrite push_same. f_equal. f_equal. f_equal. lia.
      * destruct Hx as [<-|Hx]; [rewrite (proj2 (Heq a a) eq_refl) in Ex; discriminate|]. rewrite H1 by exact Hx. cbn [push tm].
        rewrite push_other.
        -- f_equal. f_equal. f_equal. lia.
        -- intros K. apply Ha. rewrite <- K. now apply in_map.
    + intros k Hk. cbn [map In] in Hk. rewrite H2 by tauto. apply push_other. intros ->. tauto.
Qed.

Lemma add_dummies_spec {A} (f : A -> key) o l : forall tr, NoDup (map f l) ->
  exists tr', add_dummies key_eqb tr o (map (fun x => K1 (f x)) l) = Ok tr' /\ tm tr' = tm tr /\
    (forall x, In x l -> hist tr' (f x) = (if o then None else Some []) :: hist tr (f x)) /\
    (forall k, ~ In k (map f l) -> hist tr' k = hist tr k).
Proof.
  induction l as [|a l IH]; intros tr Hn.
  - exists tr. split; [reflexivity|]. split; [reflexivity|]. split; [intros x []|]. reflexivity.
  - cbn [map] in Hn. inversion Hn as [|? ? Ha Hn']; subst.
    destruct (IH (push key_eqb tr (f a) (if o then None else Some []) (tm tr)) Hn') as (tr' & E & T & H1 & H2).
    exists tr'. split; [exact E|]. split; [exact T|]. split.
    + intros x [<-|Hx].
      * rewrite H2 by exact Ha. apply push_same.
      * rewrite H1 by exact Hx. rewrite push_other; [reflexivity|]. intros K. apply Ha. rewrite <- K. now apply in_map.
    + intros k Hk. cbn [map In] in Hk. rewrite H2 by tauto. apply push_other. intros ->. tauto.
Qed.

Lemma for_groups {A} (keyf : A -> key) (args : A -> list (karg (K := key))) (v : A -> entry) xs : forall tr,
  NoDup (map keyf xs) ->
  (forall tr', (forall k, ~ In k (map keyf xs) -> hist tr' k = hist tr k) ->
     forall x, In x xs -> measurement_time_set tr' (args x) = Ok (v x)) ->
  exists tr', for_ xs (fun x tr => add_group key_eqb tr (args x) (K1 (keyf x))) tr = Ok tr' /\ tm tr' = tm tr /\
    (forall x, In x xs -> hist tr' (keyf x) = v x :: hist tr (keyf x)) /\
    (forall k, ~ In k (map keyf xs) -> hist tr' k = hist tr k).
Proof.
  induction xs as [|a xs IH]; intros tr Hn Hv.
  - exists tr. split; [reflexivity|]. split; [reflexivity|]. split; [intros x []|]. reflexivity.
  - cbn [map] in Hn. inversion Hn as [|? ? Ha Hn']; subst.
    destruct (IH (push key_eqb tr (keyf a) (v a) (tm tr)) Hn') as (tr' & E & T & H1 & H2).
    { intros tr' Ht x Hx. apply Hv; [|now right]. intros k Hk. cbn [map In] in Hk. rewrite Ht by tauto.
      apply push_other. intros ->. tauto. }
    exists tr'. split.
    { cbn [for_]. unfold add_group at 1. cbn [plain_key K1 bind]. rewrite (Hv tr (fun _ _ => eq_refl) a (or_introl eq_refl)). exact E. }
    split; [exact T|]. split.
    + intros x [<-|Hx].
      * rewrite H2 by exact Ha. apply push_same.
      * rewrite H1 by exact Hx. rewrite push_other; [reflexivity|]. intros K. apply Ha. rewrite <- K. now apply in_map.
    + intros k Hk. cbn [map In] in Hk. rewrite H2 by tauto. apply push_other. intros ->. tauto.
Qed.

(** ** Detectors *)
Definition tg (t : nat) (s : list nat) : list target := map (fun x => TRec (Z.of_nat x - Z.of_nat t)) (isort Nat.leb s).
Definition det (t : nat) (v : entry) (co : list num) : list instr :=
  match v with Some s => [mkI "DETECTOR" (tg t s) co] | None => [] end.

Lemma targets_of (tr : mtrack) keys v : wf tr -> measurement_time_set tr keys = Ok v ->
  get_record_targets tr keys None =
  Ok (match v with Some s => Some (map (fun x => Z.of_nat x - Z.of_nat (tm tr)) (isort Nat.leb s)) | None => None end).
Proof. intros Hw E. rewrite targets_plain by exact Hw. rewrite E. now destruct v. Qed.

Lemma append_detector_spec (tr : mtrack) keys out co v : wf tr -> measurement_time_set tr keys = Ok v ->
  append_detector tr keys out co = Ok (out ++ map I (det (tm tr) v co)).
Proof.
  intros Hw E. unfold append_detector. rewrite (targets_of tr keys v Hw E). cbn [bind].
  destruct v as [s|]; cbn [det map]; [|now rewrite app_nil_r].
  unfold append_operation. rewrite append_nf by reflexivity. unfold tg. now rewrite map_map.
Qed.

Lemma for_detectors {A} (args : A -> list (karg (K := key))) (co : A -> list num) (v : A -> entry) (tr : mtrack) xs : wf tr ->
  (forall x, In x xs -> measurement_time_set tr (args x) = Ok (v x)) ->
  forall out, for_ xs (fun x m => append_detector tr (args x) m (co x)) out =
  Ok (out ++ map I (flat_map (fun x => det (tm tr) (v x) (co x)) xs)).
Proof.
  intros Hw. induction xs as [|x xs IH]; intros H out; cbn [for_ flat_map map]; [now rewrite app_nil_r|].
  rewrite (append_detector_spec tr _ out (co x) (v x) Hw) by (apply H; now left). cbn [bind].
  rewrite IH by (intros; apply H; now right). now rewrite map_app, app_assoc.
Qed.

(** Adding a group for each key and comparing it with the key's previous group. *)
Lemma for_compared {A} (keyf : A -> key) (args : A -> list (karg (K := key))) (co : A -> list num) (v : A -> entry) xs : forall (tr : mtrack) out,
  wf tr -> NoDup (map keyf xs) ->
  (forall tr', (forall k, ~ In k (map keyf xs) -> hist tr' k = hist tr k) ->
     forall x, In x xs -> measurement_time_set tr' (args x) = Ok (v x)) ->
  (forall x, In x xs -> has tr (keyf x)) ->
  exists tr', for_ xs (fun x '(m, tr) =>
      let! tr := add_group key_eqb tr (args x) (K1 (keyf x)) in
      let! m := append_detector tr [K1 (keyf x); Prev (K1 (keyf x)) 1] m (co x) in Ok (m, tr)) (out, tr) =
    Ok (out ++ map I (flat_map (fun x => det (tm tr) (comb [v x; cur tr (keyf x)]) (co x)) xs), tr') /\
    wf tr' /\ tm tr' = tm tr /\
    (forall x, In x xs -> hist tr' (keyf x) = v x :: hist tr (keyf x)) /\
    (forall k, ~ In k (map keyf xs) -> hist tr' k = hist tr k).
Proof.
  induction xs as [|a xs IH]; intros tr out Hw Hn Hv Hp.
  - exists tr. cbn [for_ flat_map map]. rewrite app_nil_r. split; [reflexivity|]. split; [exact Hw|]. split; [reflexivity|]. split; [intros x []|]. reflexivity.
  - cbn [map] in Hn. inversion Hn as [|? ? Ha Hn']; subst.
    set (tr1 := push key_eqb tr (keyf a) (v a) (tm tr)).
    assert (G : add_group key_eqb tr (args a) (K1 (keyf a)) = Ok tr1).
    { unfold add_group. cbn [plain_key K1 bind]. now rewrite (Hv tr (fun _ _ => eq_refl) a (or_introl eq_refl)). }
    assert (Hw1 : wf tr1) by (eapply add_group_wf; [|exact G]; exact Hw).
    assert (D : measurement_time_set tr1 [K1 (keyf a); Prev (K1 (keyf a)) 1] = Ok (comb [v a; cur tr (keyf a)])).
    { unfold measurement_time_set, comb. apply loop_lookups. unfold K1. cbn [lookups Prev].
      rewrite lookup_key, lookup_prev by lia. unfold tr1. rewrite push_same. cbn [bind]. change (Z.to_nat 1) with 1%nat. cbn [nth_error].
      specialize (Hp a (or_introl eq_refl)). unfold has, cur in *. destruct (hist tr (keyf a)); [congruence | reflexivity]. }
    destruct (IH tr1 (out ++ map I (det (tm tr1) (comb [v a; cur tr (keyf a)]) (co a))) Hw1 Hn') as (tr' & E & W & T & H1 & H2).
    { intros tr' Ht x Hx. apply Hv; [|now right]. intros k Hk. cbn [map In] in Hk. rewrite Ht by tauto.
      apply push_other. intros ->. tauto. }
    { intros x Hx. unfold has, tr1. rewrite push_other; [apply Hp; now right|]. intros K. apply Ha. rewrite <- K. now apply in_map. }
    exists tr'. split; [|split; [exact W|split; [exact T|split]]].
    + cbn [for_]. rewrite G, bind_ok. rewrite (append_detector_spec tr1 _ out (co a) _ Hw1 D), !bind_ok. etransitivity; [exact E|].
      cbn [flat_map]. rewrite map_app, app_assoc. change (tm tr1) with (tm tr). do 4 f_equal.
      apply flat_map_ext_in. intros x Hx. unfold cur, tr1. rewrite push_other; [reflexivity|].
      intros K. apply Ha. rewrite <- K. now apply in_map.
    + intros x [<-|Hx].
      * rewrite H2 by exact Ha. apply push_same.
      * rewrite H1 by exact Hx. unfold tr1. rewrite push_other; [reflexivity|]. intros K. apply Ha. rewrite <- K. now apply in_map.
    + intros k Hk. cbn [map In] in Hk. rewrite H2 by tauto. apply push_other. intros ->. tauto.
Qed.

Lemma comb_single v : comb [v] = v.
Proof.
  destruct v as [s|]; [|reflexivity]. cbn. f_equal. unfold symdiff. cbn [filter app].
  induction s as [|x s IH]; [reflexivity|]. cbn. now rewrite IH.
Qed.

(** Trackers that cannot be told apart. *)
Definition treq (a b : mtrack) : Prop := tm a = tm b /\ forall k, hist a k = hist b k.
Lemma treq_refl a : treq a a.
Proof. split; reflexivity. Qed.

Section A.
  Variable lay : layout.
  Hypothesis Hv : valid lay.
  Hypothesis Hobs : obs lay = "V"%string \/ obs lay = "H"%string.
  Notation E := (round_edges lay).
  Notation ix := (ix lay).
  Local Opaque data_qubit_coords measure_qubit_coords q2i_dict hex_entries hexes round_edges all_edges isort.

  Definition pc3 : bool := (style lay =? "PC3")%string.
  Definition H1 (s : Z) : list cpx := hexes lay ((s - 1) mod 3).
  Definition H2 (s : Z) : list cpx := hexes lay ((s - 2) mod 3).
  (** The layout's observable: its edges and its index. *)
  Definition oedges : list edge := if (obs lay =? "V")%string then obs_v_edges lay else obs_h_edges lay.
  Definition oidx : nat := if (obs lay =? "V")%string then 0%nat else 1%nat.
  Definition oat (s : Z) : list edge := obs_edges_in oedges (E s).
  Lemma obs_edges_eq : obs_edges lay = Ok oedges.
  Proof. unfold obs_edges, oedges. destruct Hobs as [->| ->]; reflexivity. Qed.
  Lemma obs_index_eq : obs_index lay = Ok oidx.
  Proof. unfold obs_index, oidx. destruct Hobs as [->| ->]; reflexivity. Qed.
  (** (basis, qubits) of the observable before a sub-round. *)
  Definition obr (s : Z) : pauli * list cpx :=
    if (obs lay =? "V")%string then obs_v_before_sub_round lay s else obs_h_before_sub_round lay s.
  Lemma obs_before_eq s : obs_before_sub_round lay s = Ok (obr s).
  Proof. unfold obs_before_sub_round, obr. destruct Hobs as [->| ->]; reflexivity. Qed.

  (** ** The new entries of sub-round s, from the tracker before it *)
  Definition raw (s : Z) (tr : mtrack) (e : edge) : entry := Some [(tm tr + index edge_eqb e (E s))%nat].
  Definition vedge (s : Z) (tr : mtrack) (e : edge) : entry :=
    comb (raw s tr e :: if pc3 then [cur tr (KHalf (KE e))] else []).
  Definition vhalf (s : Z) (tr : mtrack) (h : cpx) : entry := comb (map (vedge s tr) (first_edges_around_hex lay h)).
  Definition vhex (s : Z) (tr : mtrack) (h : cpx) : entry :=
    comb (map (vedge s tr) (second_edges_around_hex lay h) ++ [cur tr (KHalf (KC h))]).
  Definition post (s : Z) (tr : mtrack) : mtrack :=
    mkTr (fun k => match k with
      | KHalf (KE e) => if emem e (E s) then raw s tr e :: hist tr k else hist tr k
      | KE e => if emem e (E s) then vedge s tr e :: hist tr k else hist tr k
      | KHalf (KC h) => if cmem h (H1 s) then vhalf s tr h :: hist tr k else hist tr k
      | KC h => if cmem h (H2 s) then vhex s tr h :: hist tr k else hist tr k
      | _ => hist tr k
      end) (tm tr + length (E s)).

  (** ** The instructions of sub-round s *)
  Definition shift_i : instr := mkI "SHIFT_COORDS" [] [int_arg 0; int_arg 0; int_arg 1].
  Definition obsinc (s : Z) (tr : mtrack) : list instr :=
    if pc3 then [] else
    match comb (map (vedge s tr) (oat s)) with
    | Some ts => [mkI "OBSERVABLE_INCLUDE" (tg (tm tr + length (E s)) ts) [int_arg (Z.of_nat oidx)]]
    | None => []
    end.
  Definition dets0 (s : Z) (tr : mtrack) : list instr :=
    if (s =? 0) && pauli_eqb (fst (obr 0)) PX
    then flat_map (fun e => det (tm tr + length (E s)) (vedge s tr e) (coords3 (e_center e))) (E s) else [].
  Definition hexdets (s : Z) (tr : mtrack) : list instr :=
    flat_map (fun h => det (tm tr + length (E s)) (comb [vhex s tr h; cur tr (KC h)]) (coords3 h)) (H2 s).
  Definition ann (s : Z) (tr : mtrack) : list instr := obsinc s tr ++ dets0 s tr ++ hexdets s tr ++ [shift_i].
  Definition mop (s : Z) : list instr :=
    if is_em3 (style lay) then [] else [mkI "M" (qs (map (fun e => ix (e_center e)) (E s))) []].

  Definition ready (tr : mtrack) : Prop :=
    (forall e, In e (all_edges lay) -> has tr (KE e) /\ has tr (KHalf (KE e))) /\
    (forall h, ishex lay h -> has tr (KC h) /\ has tr (KHalf (KC h))).

  Lemma has_cons (tr : mtrack) k v l : hist tr k = v :: l -> has tr k.
  Proof. unfold has. intros ->. discriminate. Qed.
  Lemma post_ready s tr : ready tr -> ready (post s tr).
  Proof.
    intros [R1 R2]. split.
    - intros e He. destruct (R1 e He) as [A B]. unfold has, post in *. cbn [hist]. destruct (emem e (E s)); split; auto; discriminate.
    - intros h Hh. destruct (R2 h Hh) as [A B]. unfold has, post in *. cbn [hist]. split.
      + destruct (cmem h (H2 s)); auto; discriminate.
      + destruct (cmem h (H1 s)); auto; discriminate.
  Qed.

  Lemma KHalf_inj a b : KHalf a = KHalf b -> a = b.
  Proof. intros K. now injection K. Qed.
  Lemma KE_inj a b : KE a = KE b -> a = b.
  Proof. intros K. now injection K. Qed.
  Lemma KC_inj a b : KC a = KC b -> a = b.
  Proof. intros K. now injection K. Qed.

  Lemma nodup_keys {A} (f : A -> key) l : (forall x y, f x = f y -> x = y) -> NoDup l -> NoDup (map f l).
  Proof. intros Hf Hn. apply NoDup_map_inj; [intros x y _ _; apply Hf | exact Hn]. Qed.

  Lemma centers_eq s : mapM (q2i lay) (map e_center (E s)) = Ok (map (fun e => ix (e_center e)) (E s)).
  Proof.
    rewrite (mapM_q2i lay Hv); [now rewrite map_map|]. intros q Hq. apply in_map_iff in Hq. destruct Hq as (e & <- & He).
    apply center_in_qubits; [exact Hv|]. now apply in_round_edges in He.
  Qed.

  Lemma cur_cons (tr : mtrack) k v l : hist tr k = v :: l -> cur tr k = v.
  Proof. unfold cur. now intros ->. Qed.

  Lemma vedge_some s tr e : pc3 = false -> vedge s tr e = Some [(tm tr + index edge_eqb e (E s))%nat].
  Proof. unfold vedge. intros ->. apply comb_single. Qed.

  Lemma smd_spec s tr : wf tr -> ready tr ->
    exists tr', sub_round_measurements_and_detectors lay tr s = Ok (map I (mop s ++ ann s tr), tr') /\
      wf tr' /\ treq tr' (post s tr).
  Proof.
    intros Hw [Re Rh]. unfold sub_round_measurements_and_detectors. fold pc3.
    (* the measurement instruction *)
    match goal with |- context [bind ?m _] => set (moment0 := m) end.
    assert (M0 : moment0 = Ok (map I (mop s))).
    { unfold moment0, mop. destruct (is_em3 (style lay)); cbn [negb]; [reflexivity|]. rewrite centers_eq. reflexivity. }
    rewrite M0, bind_ok. clear moment0 M0.
    (* raw measurements *)
    destruct (add_measurements_spec edge_eqb edge_eqb_eq (fun e => KHalf (KE e)) (E s) tr) as (tr1 & E1 & T1 & A1 & B1).
    { apply nodup_keys; [|apply NoDup_round_edges, Hv]. intros x y K. apply KE_inj, KHalf_inj, K. }
    rewrite E1, bind_ok. pose proof (add_measurements_wf key_eqb _ _ _ Hw E1) as Hw1.
    (* edge groups *)
    destruct (for_groups KE (fun e => map (fun t => Prev (K1 (KHalf (KE e))) t) (if pc3 then [0; 1] else [0])) (vedge s tr) (E s) tr1)
      as (tr2 & E2 & T2 & A2 & B2).
    { apply nodup_keys; [apply KE_inj | apply NoDup_round_edges, Hv]. }
    { intros tr' Ht e He. unfold measurement_time_set, vedge, comb. apply loop_lookups.
      assert (L : hist tr' (KHalf (KE e)) = raw s tr e :: hist tr (KHalf (KE e))).
      { rewrite Ht. - unfold raw. apply A1, He. - rewrite in_map_iff. intros (x & K & _). discriminate K. }
      assert (L0 : has tr (KHalf (KE e))) by (apply Re, (in_all_of_round lay s), He).
      destruct pc3; cbn [map lookups Prev K1]; unfold K1; cbn [Prev]; rewrite !lookup_prev by lia; rewrite L;
        change (Z.to_nat 0) with 0%nat; change (Z.to_nat 1) with 1%nat; cbn [nth_error bind]; [|reflexivity].
      unfold cur, has in *. destruct (hist tr (KHalf (KE e))); [congruence | reflexivity]. }
    rewrite E2, bind_ok.
    assert (Hw2 : wf tr2).
    { clear - Hw1 E2. revert tr1 Hw1 E2. induction (E s) as [|e l IH]; intros tr1 Hw1 E2; cbn [for_] in E2; [injection E2 as <-; exact Hw1|].
      destruct (add_group _ _ _ _) as [t|] eqn:G in E2; cbn [bind] in E2; [|discriminate]. eapply IH; [|exact E2]. eapply add_group_wf; [|exact G]. exact Hw1. }
    assert (C2 : forall e, In e (E s) -> cur tr2 (KE e) = vedge s tr e /\ has tr2 (KE e)).
    { intros e He. rewrite (cur_cons _ _ _ _ (A2 e He)). split; [reflexivity | eapply has_cons, A2, He]. }
    assert (G2 : forall es, (forall e, In e es -> In e (E s)) ->
      measurement_time_set tr2 (map (fun e => K1 (KE e)) es) = Ok (comb (map (vedge s tr) es))).
    { intros es Hes. rewrite <- (map_map KE K1). rewrite time_set_cur.
      - rewrite map_map. f_equal. f_equal. apply map_ext_in. intros e He. apply C2, Hes, He.
      - intros k Hk. apply in_map_iff in Hk. destruct Hk as (e & <- & He). apply C2, Hes, He. }
    assert (TM2 : tm tr2 = (tm tr + length (E s))%nat) by congruence.
    (* the observable *)
    match goal with |- context [bind ?m _] => set (moment1 := m) end.
    assert (M1 : moment1 = Ok (map I (mop s ++ obsinc s tr))).
    { unfold moment1, obsinc. destruct pc3 eqn:Ep; cbn [negb]; [now rewrite app_nil_r|].
      rewrite obs_edges_eq, bind_ok. fold (oat s).
      rewrite (targets_of tr2 _ (comb (map (vedge s tr) (oat s))) Hw2).
      2:{ apply G2. intros e He. unfold oat, obs_edges_in in He. apply filter_In in He. tauto. }
      destruct (fold_defined (map (vedge s tr) (oat s)) []) as (ts & Ets).
      { intros v Hin. apply in_map_iff in Hin. destruct Hin as (e & <- & _). rewrite vedge_some by exact Ep. discriminate. }
      unfold comb. rewrite Ets. cbn [bind]. rewrite obs_index_eq. cbn [bind append_obs]. unfold append_operation.
      rewrite append_nf by reflexivity. rewrite map_app. unfold tg. rewrite map_map, TM2. reflexivity. }
    rewrite M1, bind_ok. clear moment1 M1.
    (* first round detectors *)
    match goal with |- context [bind ?m _] => set (moment2 := m) end.
    assert (M2 : moment2 = Ok (map I (mop s ++ obsinc s tr ++ dets0 s tr))).
    { unfold moment2, dets0. destruct (Z.eqb_spec s 0) as [->|]; cbn [andb]; [|now rewrite app_nil_r].
      rewrite obs_before_eq, bind_ok. destruct (pauli_eqb (fst (obr 0)) PX); [|now rewrite app_nil_r].
      rewrite (for_detectors (fun e => [K1 (KE e)]) (fun e => coords3 (e_center e)) (vedge 0 tr) tr2 (E 0) Hw2).
      - rewrite <- map_app, <- app_assoc, TM2. reflexivity.
      - intros e He. rewrite <- (comb_single (vedge 0 tr e)). apply (G2 [e]). intros x [<-|[]]. exact He. }
    rewrite M2, bind_ok. clear moment2 M2.
    assert (Hround1 : forall h e, In h (H1 s) -> In e (first_edges_around_hex lay h) -> In e (E s)).
    { intros h e Hh He. apply in_hexes in Hh; [|exact Hv]. destruct Hh as [Hh Hc]. apply first_edges_round in He; auto.
      rewrite <- round_edges_mod. rewrite <- round_edges_mod in He. replace (s mod 3) with ((hexcat h + 1) mod 3); [exact He|]. rewrite Hc. dlia. }
    assert (Hround2 : forall h e, In h (H2 s) -> In e (second_edges_around_hex lay h) -> In e (E s)).
    { intros h e Hh He. apply in_hexes in Hh; [|exact Hv]. destruct Hh as [Hh Hc]. apply second_edges_round in He; auto.
      rewrite <- round_edges_mod. rewrite <- round_edges_mod in He. replace (s mod 3) with ((hexcat h + 2) mod 3); [exact He|]. rewrite Hc. dlia. }
    assert (Hdisj : forall h, In h (H1 s) -> In h (H2 s) -> False).
    { intros h I1 I2. apply in_hexes in I1, I2; auto. destruct I1 as [_ I1], I2 as [_ I2]. revert I1 I2. dlia. }
    (* half hexes *)
    unfold round_hex_centers at 1. replace ((0 <=? (s - 1) mod 3) && ((s - 1) mod 3 <? 3)) with true by (symmetry; apply andb_true_intro; split; [apply Z.leb_le | apply Z.ltb_lt]; dlia).
    rewrite bind_ok. fold (H1 s).
    destruct (for_groups (fun h => KHalf (KC h)) (fun h => map (fun e => K1 (KE e)) (first_edges_around_hex lay h)) (vhalf s tr) (H1 s) tr2)
      as (tr3 & E3 & T3 & A3 & B3).
    { apply nodup_keys; [|apply NoDup_hexes, Hv]. intros x y K. apply KC_inj, KHalf_inj, K. }
    { intros tr' Ht h Hh. unfold vhalf. rewrite <- (map_map KE K1), time_set_cur.
      - rewrite map_map. do 2 f_equal. apply map_ext_in. intros e He. unfold cur. rewrite Ht.
        + apply C2. now apply (Hround1 h). + rewrite in_map_iff. intros (x & K & _). discriminate K.
      - intros k Hk. apply in_map_iff in Hk. destruct Hk as (e & <- & He). unfold has. rewrite Ht.
        + apply C2. now apply (Hround1 h). + rewrite in_map_iff. intros (x & K & _). discriminate K. }
    rewrite E3, bind_ok.
    assert (Hw3 : wf tr3).
    { clear - Hw2 E3. revert tr2 Hw2 E3. induction (H1 s) as [|e l IH]; intros tr1 Hw1 E2; cbn [for_] in E2; [injection E2 as <-; exact Hw1|].
      destruct (add_group _ _ _ _) as [t|] eqn:G in E2; cbn [bind] in E2; [|discriminate]. eapply IH; [|exact E2]. eapply add_group_wf; [|exact G]. exact Hw1. }
    (* hexes and their detectors *)
    unfold round_hex_centers at 1. replace ((0 <=? (s - 2) mod 3) && ((s - 2) mod 3 <? 3)) with true by (symmetry; apply andb_true_intro; split; [apply Z.leb_le | apply Z.ltb_lt]; dlia).
    rewrite bind_ok. fold (H2 s).
    assert (K3 : forall k, hist tr3 k = hist (post s tr) k \/ exists h, k = KC h).
    { intros [h|e|[h|e|k]]; [right; eauto|left..]; cbn [post hist].
      - rewrite B3 by (rewrite in_map_iff; intros (x & K & _); discriminate K).
        destruct (emem e (E s)) eqn:F.
        + apply emem_In in F. rewrite (A2 e F). rewrite B1 by (rewrite in_map_iff; intros (x & K & _); discriminate K). reflexivity.
        + rewrite B2. * apply B1. rewrite in_map_iff; intros (x & K & _); discriminate K.
          * rewrite in_map_iff. intros (x & K & Hx). apply KE_inj in K. subst x. apply emem_In in Hx. congruence.
      - destruct (cmem h (H1 s)) eqn:F.
        + apply cmem_In in F. rewrite (A3 h F). rewrite B2 by (rewrite in_map_iff; intros (x & K & _); discriminate K).
          rewrite B1 by (rewrite in_map_iff; intros (x & K & _); discriminate K). reflexivity.
        + rewrite B3. * rewrite B2 by (rewrite in_map_iff; intros (x & K & _); discriminate K).
            apply B1. rewrite in_map_iff; intros (x & K & _); discriminate K.
          * rewrite in_map_iff. intros (x & K & Hx). apply KHalf_inj, KC_inj in K. subst x. apply cmem_In in Hx. congruence.
      - rewrite B3 by (rewrite in_map_iff; intros (x & K & _); discriminate K).
        rewrite B2 by (rewrite in_map_iff; intros (x & K & _); discriminate K).
        destruct (emem e (E s)) eqn:F.
        + apply emem_In in F. rewrite (A1 e F). reflexivity.
        + apply B1. rewrite in_map_iff. intros (x & K & Hx). apply KHalf_inj, KE_inj in K. subst x. apply emem_In in Hx. congruence.
      - rewrite B3 by (rewrite in_map_iff; intros (x & K & _); discriminate K).
        rewrite B2 by (rewrite in_map_iff; intros (x & K & _); discriminate K).
        apply B1. rewrite in_map_iff; intros (x & K & _); discriminate K. }
    assert (K3c : forall h, hist tr3 (KC h) = hist tr (KC h)).
    { intros h. rewrite B3, B2, B1; [reflexivity|..]; rewrite in_map_iff; intros (x & K & _); discriminate K. }
    destruct (for_compared KC (fun h => map (fun e => K1 (KE e)) (second_edges_around_hex lay h) ++ [K1 (KHalf (KC h))]) coords3 (vhex s tr) (H2 s) tr3
      (map I (mop s ++ obsinc s tr ++ dets0 s tr))) as (tr4 & E4 & Hw4 & T4 & A4 & B4).
    { exact Hw3. }
    { apply nodup_keys; [apply KC_inj | apply NoDup_hexes, Hv]. }
    { intros tr' Ht h Hh. unfold vhex.
      assert (Hx : ishex lay h) by (apply in_hexes in Hh; tauto).
      assert (P1 : forall e, In e (second_edges_around_hex lay h) -> hist tr' (KE e) = hist tr2 (KE e)).
      { intros e He. rewrite Ht by (rewrite in_map_iff; intros (x & K & _); discriminate K).
        apply B3. rewrite in_map_iff; intros (x & K & _); discriminate K. }
      assert (P2 : hist tr' (KHalf (KC h)) = hist tr (KHalf (KC h))).
      { rewrite Ht by (rewrite in_map_iff; intros (x & K & _); discriminate K).
        rewrite B3. - rewrite B2 by (rewrite in_map_iff; intros (x & K & _); discriminate K).
          apply B1. rewrite in_map_iff; intros (x & K & _); discriminate K.
        - rewrite in_map_iff. intros (x & K & Hx'). apply KHalf_inj, KC_inj in K. subst x. eapply Hdisj; eauto. }
      change [K1 (KHalf (KC h))] with (map K1 [KHalf (KC h)]). rewrite <- (map_map KE K1), <- map_app, time_set_cur.
      - rewrite map_app, map_map. cbn [map]. do 3 f_equal.
        + apply map_ext_in. intros e He. unfold cur. rewrite P1 by exact He. apply C2. now apply (Hround2 h).
        + unfold cur. now rewrite P2.
      - intros k Hk. apply in_app_iff in Hk. destruct Hk as [Hk|[<-|[]]].
        + apply in_map_iff in Hk. destruct Hk as (e & <- & He). unfold has. rewrite P1 by exact He. apply C2. now apply (Hround2 h).
        + unfold has. rewrite P2. apply Rh, Hx. }
    { intros h Hh. unfold has. rewrite K3c. apply Rh. apply in_hexes in Hh; tauto. }
    exists tr4. split; [|split; [exact Hw4|split]].
    - eapply eq_trans; [apply (f_equal (fun m => bind m _)); exact E4|]. rewrite bind_ok. unfold append_operation. rewrite append_nf by reflexivity.
      do 2 f_equal. rewrite <- map_app. change [I _] with (map I [shift_i]). rewrite <- map_app. f_equal.
      unfold ann. rewrite <- !app_assoc. do 3 f_equal. f_equal. unfold hexdets. apply flat_map_ext_in. intros h Hh.
      rewrite T3, TM2. unfold cur. now rewrite K3c.
    - rewrite T4, T3, TM2. reflexivity.
    - intros k. destruct (K3 k) as [K|(h & ->)].
      + destruct k as [h|e|k].
        * cbn [post hist] in *. destruct (cmem h (H2 s)) eqn:F.
          -- apply cmem_In in F. rewrite (A4 h F), K3c. reflexivity.
          -- rewrite B4; [apply K3c|]. rewrite in_map_iff. intros (x & K' & Hx). apply KC_inj in K'. subst x. apply cmem_In in Hx. congruence.
        * rewrite <- K. apply B4. rewrite in_map_iff; intros (x & K' & _); discriminate K'.
        * rewrite <- K. apply B4. rewrite in_map_iff; intros (x & K' & _); discriminate K'.
      + cbn [post hist]. destruct (cmem h (H2 s)) eqn:F.
        * apply cmem_In in F. rewrite (A4 h F), K3c. reflexivity.
        * rewrite B4; [apply K3c|]. rewrite in_map_iff. intros (x & K' & Hx). apply KC_inj in K'. subst x. apply cmem_In in Hx. congruence.
  Qed.
End A.
