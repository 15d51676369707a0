(** One error in a circuit treated moment by moment: what has to be shown of each
    moment so that the whole circuit ends in a state explained by a single [T]. *)
From Coq Require Import QArith.
From Verif Require Import Prelude Layout LayoutFacts Pauli Stim Circuit Noise Annot Shift Ends Frame Exec2 Moments NoiseFacts NoiseMoments NoiseAlign FaultSpec.
Open Scope Z_scope.

Lemma app_split {A} (x : A) (l1 l2 a b : list A) : a ++ b = l1 ++ x :: l2 -> (exists l, a = l1 ++ x :: l /\ l2 = l ++ b) \/ (exists l, l1 = a ++ l /\ b = l ++ x :: l2).
Proof.
  revert l1. induction a as [|y a IH]; intros l1 H; cbn [app] in H; [right; exists l1; auto|].
  destruct l1 as [|z l1]; cbn [app] in H; injection H as -> H; [left; exists a; auto|].
  destruct (IH l1 H) as [(l & -> & ->)|(l & -> & ->)]; [left; exists l; auto | right; exists l; auto].
Qed.
Lemma gates_cons i l : gates (i :: l) = gates [i] ++ gates l.
Proof. change (i :: l) with ([i] ++ l). apply gates_app. Qed.
Lemma fault_not_tick i f : is_tick i = true -> ~ fault_of i f.
Proof. intros H K. destruct K; discriminate. Qed.

Section G.
  Variable T : Type.
  Variable ok : fault -> T -> Prop.
  Variable t0 : T.
  Variable gs : nat -> bool.
  (** the possible states at one point of the circuit, for each explanation *)
  Definition fam := T -> fstate -> Prop.
  Implicit Types S : fam.

  Lemma run_faulty_app_r l1 i f l b st : run_faulty gs l1 i f (l ++ b) st = let! s := run_faulty gs l1 i f l st in run gs (gates b) s.
  Proof.
    unfold run_faulty. destruct (run gs (gates l1) st) as [s1|]; [|reflexivity]. cbn [bind]. destruct (run gs (gates [i]) s1) as [s2|]; [|reflexivity]. cbn [bind].
    now rewrite gates_app, run_app.
  Qed.
  Lemma run_faulty_app_l a l i f l2 st : run_faulty gs (a ++ l) i f l2 st = let! s := run gs (gates a) st in run_faulty gs l i f l2 s.
  Proof. unfold run_faulty. rewrite gates_app, run_app. destruct (run gs (gates a) st) as [s1|]; reflexivity. Qed.

  Definition good S (out : list instr) S' : Prop :=
    (forall t st, S t st -> runs gs (gates out) (S' t) st) /\
    (forall l1 i l2 f st, out = l1 ++ i :: l2 -> fault_of i f -> S t0 st -> exists t, ok f t /\ exists st', run_faulty gs l1 i f l2 st = Ok st' /\ S' t st').
  Lemma good_app S a S1 b S2 : good S a S1 -> good S1 b S2 -> good S (a ++ b) S2.
  Proof.
    intros [A1 A2] [B1 B2]. split.
    - intros t st H. rewrite gates_app. eapply runs_app; [apply (A1 t st H)|]. intros st' H'. now apply B1.
    - intros l1 i l2 f st E Hf H. destruct (app_split i l1 l2 a b E) as [(l & Ea & ->)|(l & -> & Eb)].
      + destruct (A2 l1 i l f st Ea Hf H) as (t & Ht & s1 & R1 & H1). destruct (B1 t s1 H1) as (s2 & R2 & H2).
        exists t. split; [exact Ht|]. exists s2. split; [|exact H2]. rewrite run_faulty_app_r, R1. exact R2.
      + destruct (A1 t0 st H) as (s1 & R1 & H1). destruct (B2 l i l2 f s1 Eb Hf H1) as (t & Ht & s2 & R2 & H2).
        exists t. split; [exact Ht|]. exists s2. split; [|exact H2]. rewrite run_faulty_app_l, R1. exact R2.
  Qed.
  Definition within S S' : Prop := forall t st, S t st -> S' t st.
  Lemma good_weak S S1 out S' : within S S1 -> good S1 out S' -> good S out S'.
  Proof. intros W [A1 A2]. split; [intros t st H; apply A1, W, H|]. intros l1 i l2 f st E Hf H. now apply (A2 l1 i l2 f st E Hf), W. Qed.
  Lemma good_tick S i : is_tick i = true -> good S [i] S.
  Proof.
    intros Hi. split.
    - intros t st H. unfold gates. cbn [filter]. destruct (is_noise i); cbn [negb]; [now apply runs_nil|]. exists st. split; [|exact H]. cbn [run].
      rewrite run_annotation; [reflexivity|]. unfold is_tick in Hi. apply String.eqb_eq in Hi. now rewrite Hi.
    - intros l1 j l2 f st E Hf. destruct l1 as [|x [|y l1]]; cbn [app] in E; injection E as -> E; try discriminate. exfalso. now apply (fault_not_tick _ _ Hi Hf).
  Qed.

  (** ** Moments *)
  Section Rel.
  (** what the noise model may turn a moment into *)
  Variable rel : list instr -> list instr -> Prop.
  Definition step S (m : list instr) S' : Prop := forall out, rel m out -> good S out S'.
  Inductive path : fam -> list (list instr) -> fam -> Prop :=
  | path_one S m S' : step S m S' -> path S [m] S'
  | path_cons S m S1 ms S' : step S m S1 -> path S1 ms S' -> path S (m :: ms) S'.
  Lemma path_good S ms S' : path S ms S' -> forall l now, Forall2 rel ms (moments now l) -> good S (now ++ l) S'.
  Proof.
    intros H. induction H as [S m S' H|S m S1 ms S' H HP IH]; intros l.
    - induction l as [|i l IH]; intros now F; cbn [moments] in F.
      + inversion F; subst. rewrite app_nil_r. now apply H.
      + destruct (is_tick i).
        * inversion F as [|? ? ? ? ? F2]; subst. inversion F2 as [E E'|]; subst. exfalso. revert E'. clear. generalize (@nil instr). induction l as [|j l IH]; intros a; cbn [moments]; [discriminate|]. destruct (is_tick j); [discriminate | apply IH].
        * specialize (IH _ F). now rewrite <- app_assoc in IH.
    - induction l as [|i l IHl]; intros now F; cbn [moments] in F.
      + inversion F as [|? ? ? ? ? F2]; subst. inversion F2; subst. inversion HP.
      + destruct (is_tick i) eqn:Ti.
        * inversion F as [|? ? ? ? F1 F2]; subst. apply IH in F2. change (now ++ i :: l) with (now ++ [i] ++ l). eapply good_app; [apply H, F1|]. eapply good_app; [apply good_tick, Ti|]. exact F2.
        * specialize (IHl _ F). now rewrite <- app_assoc in IHl.
  Qed.
  Lemma path_weak S S1 ms S' : within S S1 -> path S1 ms S' -> path S ms S'.
  Proof.
    intros W H. destruct H as [S1 m S' H|S1 m S2 ms S' H HP].
    - constructor. intros out R. exact (good_weak _ _ _ _ W (H out R)).
    - econstructor; [|exact HP]. intros out R. exact (good_weak _ _ _ _ W (H out R)).
  Qed.
  Definition seg S (l : list instr) S1 : Prop := forall r S', path S1 (moments [] r) S' -> path S (moments [] (l ++ r)) S'.
  Definition no_tick (m : list instr) : Prop := forallb (fun i => negb (is_tick i)) m = true.
  Lemma seg_nil S S1 : within S S1 -> seg S [] S1.
  Proof. intros W r S' H. exact (path_weak _ _ _ _ W H). Qed.
  Lemma seg_app S a S1 b S2 : seg S a S1 -> seg S1 b S2 -> seg S (a ++ b) S2.
  Proof. intros A B r S' H. rewrite <- app_assoc. apply A, B, H. Qed.
  Lemma seg_tick S m S1 : no_tick m -> step S m S1 -> seg S (m ++ [tick_i]) S1.
  Proof. intros Hm H r S' K. rewrite <- app_assoc. cbn [app]. rewrite moments_tick, moments_notick by exact Hm. cbn [app]. econstructor; eauto. Qed.
  Lemma seg_flat (f : nat -> list instr) (F : nat -> fam) a c : (forall k, (a <= k < a + c)%nat -> seg (F k) (f k) (F (Datatypes.S k))) -> seg (F a) (flat_map f (seq a c)) (F (a + c)%nat).
  Proof.
    revert a. induction c as [|c IH]; intros a H; cbn [seq flat_map].
    - rewrite Nat.add_0_r. apply seg_nil. now intros t st.
    - eapply seg_app; [apply H; lia|]. replace (a + Datatypes.S c)%nat with (Datatypes.S a + c)%nat by lia. apply IH. intros k Hk. apply H. lia.
  Qed.
  Lemma path_end S m S' : no_tick m -> step S m S' -> path S (moments [] m) S'.
  Proof. intros Hm H. rewrite moments_notick by exact Hm. now constructor. Qed.
  End Rel.

  (** ** A moment of gates, with noise before and after *)
  Definition robust S : Prop := forall x err st, only [x] err -> S t0 st -> exists t, ok (Kick err) t /\ S t (strike err st).
  (** errors on a pair of neighbouring targets *)
  Definition pairwise S (ts : list target) : Prop := forall a x y b err st, ts = a ++ TQ x :: TQ y :: b -> Nat.Even (length a) -> only [x; y] err -> S t0 st -> exists t, ok (Kick err) t /\ S t (strike err st).
  Definition pair_values (op : instr) : list target := map tvalue (filter (fun t => negb (is_combiner t)) (itargets op)).
  Record elem S (m : list instr) S' : Prop := {
    e_run : forall t st, S t st -> runs gs m (S' t) st;
    e_pre : robust S;
    e_post : robust S';
    e_two : forall op, In op m -> in_names (iname op) ANY_CLIFFORD_2_OPS = true -> pairwise S' (itargets op);
    e_mpp : forall op, In op m -> iname op = "MPP"%string -> pairwise S (pair_values op);
    e_mis : forall m1 op m2 l k st, m = m1 ++ op :: m2 -> iname op = "MPP"%string -> products (itargets op) = Ok l -> (k < length l)%nat -> S t0 st ->
      exists t, ok (Misread k) t /\ exists s1 s2 st', run gs m1 st = Ok s1 /\ run gs [op] s1 = Ok s2 /\ run gs m2 (misread (length (frec s1) + k) s2) = Ok st' /\ S' t st' }.
  Lemma elem_simple S m S' : (forall op, In op m -> iname op <> "MPP"%string) -> (forall t st, S t st -> runs gs m (S' t) st) -> robust S -> robust S' ->
    (forall op, In op m -> in_names (iname op) ANY_CLIFFORD_2_OPS = true -> pairwise S' (itargets op)) -> elem S m S'.
  Proof.
    intros N R R1 R2 H. split; auto.
    - intros op Ho E. exfalso. exact (N op Ho E).
    - intros m1 op m2 l k st -> E. exfalso. apply (N op); [apply in_or_app; right; now left | exact E].
  Qed.

  Definition can_do (f : fault) (Single Pair : (nat -> bits) -> Prop) : Prop := exists err, f = Kick err /\ (Single err \/ Pair err).
  Definition single (err : nat -> bits) : Prop := exists x, only [x] err.
  Definition pair_of (ts : list target) (err : nat -> bits) : Prop := exists a x y b, ts = a ++ TQ x :: TQ y :: b /\ Nat.Even (length a) /\ only [x; y] err.
  Definition pre_ok (m : list instr) (i : instr) : Prop := is_noise i = true /\
    forall f, fault_of i f -> exists err, f = Kick err /\ (single err \/ exists op, In op m /\ iname op = "MPP"%string /\ pair_of (pair_values op) err).
  Definition post_ok (m : list instr) (i : instr) : Prop := is_noise i = true /\
    forall f, fault_of i f -> exists err, f = Kick err /\ (single err \/ exists op, In op m /\ in_names (iname op) ANY_CLIFFORD_2_OPS = true /\ pair_of (itargets op) err).
  Definition noisy (m out : list instr) : Prop := exists nm pre post, out = pre ++ map (with_flip nm) m ++ post /\
    (forall i, In i pre -> pre_ok m i) /\ (forall i, In i post -> post_ok m i) /\ (forall op, In op m -> is_noise op = false).

  Lemma run_with_flip nm l : forall st, run gs (map (with_flip nm) l) st = run gs l st.
  Proof.
    induction l as [|i l IH]; intros st; [reflexivity|]. cbn [map run].
    replace (run_instr gs (with_flip nm i) st) with (run_instr gs i st); [destruct (run_instr gs i st); [apply IH | reflexivity]|].
    unfold with_flip. destruct (op_strength nm i); [|reflexivity]. destruct ((iname i =? "MPP")%string && _) eqn:E; [|reflexivity].
    apply andb_prop in E. destruct E as [E _]. apply String.eqb_eq in E. destruct i as [nme ts args]. cbn [iname] in E. subst. reflexivity.
  Qed.
  Lemma gates_noise l : (forall i, In i l -> is_noise i = true) -> gates l = [].
  Proof. intros H. induction l as [|i l IH]; [reflexivity|]. unfold gates. cbn [filter]. rewrite (H i (or_introl eq_refl)). cbn [negb]. apply IH. intros; apply H; now right. Qed.
  Lemma gates_keep l : (forall i, In i l -> is_noise i = false) -> gates l = l.
  Proof. intros H. induction l as [|i l IH]; [reflexivity|]. unfold gates. cbn [filter]. rewrite (H i (or_introl eq_refl)). cbn [negb]. f_equal. apply IH. intros; apply H; now right. Qed.
  Lemma flip_is_noise nm op : is_noise (with_flip nm op) = is_noise op.
  Proof. unfold with_flip. destruct (op_strength nm op); [|reflexivity]. destruct (_ && _); reflexivity. Qed.
  Lemma run_faulty_noise l1 i err l2 st : gates l1 = [] -> is_noise i = true -> run_faulty gs l1 i (Kick err) l2 st = run gs (gates l2) (strike err st).
  Proof. intros H1 Hi. unfold run_faulty. rewrite H1. unfold gates at 1. cbn [run bind filter]. rewrite Hi. cbn [negb run bind happens]. reflexivity. Qed.
  Lemma robust_single S : robust S -> forall err st, single err -> S t0 st -> exists t, ok (Kick err) t /\ S t (strike err st).
  Proof. intros R err st (x & Hx). now apply (R x). Qed.
  Lemma good_noise S l (P : instr -> Prop) : (forall i, In i l -> is_noise i = true /\ forall f, fault_of i f -> exists err, f = Kick err /\ forall st, S t0 st -> exists t, ok (Kick err) t /\ S t (strike err st)) -> good S l S.
  Proof.
    intros H. split.
    - intros t st K. rewrite gates_noise by (intros; now apply H). now apply runs_nil.
    - intros l1 i l2 f st -> Hf K. destruct (H i) as [Hi Hr]; [apply in_or_app; right; now left|]. destruct (Hr f Hf) as (err & -> & Hs). destruct (Hs st K) as (t & Ht & Ks).
      exists t. split; [exact Ht|]. exists (strike err st). split; [|exact Ks]. rewrite run_faulty_noise; [|apply gates_noise; intros j Hj; apply H, in_or_app; now left | exact Hi].
      rewrite gates_noise by (intros j Hj; apply H, in_or_app; right; now right). reflexivity.
  Qed.
  Lemma elem_step S m S' : elem S m S' -> step noisy S m S'.
  Proof.
    intros [ER EP EQ E2 EM EX] out (nm & pre & post & -> & Hpre & Hpost & Hid).
    apply (good_app _ _ S); [|apply (good_app _ _ S')].
    - apply good_noise; [exact (fun _ => True)|]. intros i Hi. destruct (Hpre i Hi) as [Ni Hf]. split; [exact Ni|]. intros f Kf. destruct (Hf f Kf) as (err & -> & K). exists err. split; [reflexivity|].
      intros st Hst. destruct K as [K|(op & Ho & En & a & x & y & b & Et & Ea & Hx)]; [now apply robust_single|]. exact (EM op Ho En a x y b err st Et Ea Hx Hst).
    - assert (Hid' : forall i, In i (map (with_flip nm) m) -> is_noise i = false) by (intros i Hi; apply in_map_iff in Hi; destruct Hi as (op & <- & Ho); rewrite flip_is_noise; auto).
      split.
      + intros t st H. rewrite gates_keep by exact Hid'. destruct (ER t st H) as (st' & R & H'). exists st'. split; [now rewrite run_with_flip | exact H'].
      + intros l1 i l2 f st E Hf H. destruct (map_eq_app _ _ _ _ E) as (m1 & m2' & -> & <- & E'). destruct m2' as [|op m2]; [discriminate|]. cbn [map] in E'. injection E' as E1 E2'. subst i l2.
        assert (Nf : is_noise (with_flip nm op) = false) by (apply Hid'; rewrite map_app; apply in_or_app; right; now left).
        inversion Hf as [? ? ? ? ? ? K|? ? ? ? ? ? ? ? K|? ? ? ? ? ? ? K|? ? ? ? ? ? ? K|? ? ? ? K|ts args l k Hp Hk K]; try (rewrite <- K in Nf; discriminate).
        assert (En : iname op = "MPP"%string /\ itargets op = ts).
        { unfold with_flip in K. destruct (op_strength nm op); [destruct (_ && _)|]; destruct op as [nme tss ar]; cbn [iname itargets] in *; injection K as K1 K2; auto. }
        destruct En as [En Et]. destruct (EX m1 op m2 l k st eq_refl En ltac:(now rewrite Et) Hk H) as (t & Ht & s1 & s2 & st' & R1 & R2 & R3 & H').
        exists t. split; [exact Ht|]. exists st'. split; [|exact H']. unfold run_faulty.
        rewrite (gates_keep (map (with_flip nm) m1)) by (intros j Hj; apply Hid'; rewrite map_app; apply in_or_app; now left).
        rewrite run_with_flip, R1. cbn [bind]. try rewrite K. rewrite (gates_keep [with_flip nm op]) by (intros j [<-|[]]; exact Nf).
        change ([with_flip nm op]) with (map (with_flip nm) [op]). rewrite run_with_flip, R2. cbn [bind happens].
        rewrite gates_keep by (intros j Hj; apply Hid'; rewrite map_app; apply in_or_app; right; now right). now rewrite run_with_flip.
    - apply good_noise; [exact (fun _ => True)|]. intros i Hi. destruct (Hpost i Hi) as [Ni Hf]. split; [exact Ni|]. intros f Kf. destruct (Hf f Kf) as (err & -> & K). exists err. split; [reflexivity|].
      intros st Hst. destruct K as [K|(op & Ho & En & a & x & y & b & Et & Ea & Hx)]; [now apply robust_single|]. exact (E2 op Ho En a x y b err st Et Ea Hx Hst).
  Qed.
End G.
