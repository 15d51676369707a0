(** The sub-rounds of the styles that use ancillas, moment by moment. *)
From Coq Require Import QArith.
From Verif Require Import Prelude Layout LayoutFacts LayoutEdges LayoutLists LayoutHex LayoutHex2 Pauli LayoutObs LayoutLogic LayoutIndex
  Tracker TrackerFacts Stim Circuit Noise Annot Shift Ends Gen Gen2 Gen3 Traj Eval Frame Exec Exec2 Exec3 Exec4 Moments NoiseFacts NoiseMoments NoiseAlign NoiseCorr
  FaultSpec FaultInv FaultZ FaultInj FaultStep FaultNoise FaultChain FaultEnd.
Open Scope Z_scope.

Lemma no_tick_app a b : no_tick a -> no_tick b -> no_tick (a ++ b).
Proof. unfold no_tick. intros H1 H2. now rewrite forallb_app, H1, H2. Qed.

Section Ch.
  Variable lay : layout.
  Hypothesis Hv : valid lay.
  Hypothesis Hobs : obs lay = "V"%string \/ obs lay = "H"%string.
  Hypothesis Hs : supported lay.
  Variable gs : nat -> bool.
  Variable nm : noise_model.
  Variable An : nat -> Prop.
  Notation E := (round_edges lay).
  Notation zk := Z.of_nat.
  Notation ne := (length (E 0)).
  Notation D := (data_qubit_coords lay).
  Notation trk := (trk lay (tr0 lay)).
  Notation annk := (annk lay (tr0 lay)).
  Notation ix := (ix lay).
  Notation run := (run gs).
  Notation runs := (runs gs).
  Notation n := (sub_rounds lay).
  Notation N := (Z.to_nat n).
  Notation okx := (okx lay).
  Notation Sx := (Sx lay).
  Notation rel := (noise_rel nm An).
  Notation step := (step expl okx tx0 gs rel).
  Notation seg := (seg expl okx tx0 gs rel).
  Notation path := (path expl okx tx0 gs rel).
  Local Opaque data_qubit_coords measure_qubit_coords q2i_dict hex_entries hexes round_edges all_edges isort.

  Definition fine (L R : nat) (pa : list (nat * phase)) (op : instr) : Prop := calm op \/ iname op <> "MPP"%string /\ half lay L R pa op.
  Lemma fine_left L R pa name x s : name <> "MPP"%string -> x mod 3 = zk s mod 3 -> In (s, LeftD) pa -> fine L R pa (Gen.g name (lpairs lay x)).
  Proof. intros Hn Ex Hin. right. split; [exact Hn|]. left. exists s. split; [exact Hin|]. unfold Gen.g. cbn [itargets]. now rewrite (lpairs_cong lay x (zk s) Ex). Qed.
  Lemma fine_right L R pa name x s : name <> "MPP"%string -> x mod 3 = zk s mod 3 -> In (s, BothD) pa -> R = S s -> fine L R pa (Gen.g name (rpairs lay x)).
  Proof. intros Hn Ex Hin HR. right. split; [exact Hn|]. right. exists s. split; [exact Hin|]. split; [exact HR|]. unfold Gen.g. cbn [itargets]. now rewrite (rpairs_cong lay x (zk s) Ex). Qed.
  Lemma fine_all L R pa m : Forall calm m -> Forall (fine L R pa) m.
  Proof. intros H. eapply Forall_impl; [|exact H]. intros op K. now left. Qed.
  Lemma seg_fine m L R M kL kR hm pa L' R' M' kL' kR' hm' pa' : no_tick m ->
    boundary lay L R M pa -> boundary lay L' R' M' pa' -> Forall (fine L' R' pa') m ->
    (forall A0 X Y st, St lay A0 X Y L R M kL kR hm pa st -> runs m (St lay A0 X Y L' R' M' kL' kR' hm' pa') st) ->
    seg (Sx L R M kL kR hm pa) (m ++ [tick_i]) (Sx L' R' M' kL' kR' hm' pa').
  Proof. intros Ht B1 B2 Hf Hr. apply seg_Sx; auto. exact (proj1 (Forall_forall _ _) Hf). Qed.
  Lemma fine_mop L R pa s k : Forall (fine L R pa) (mop lay s ++ annk k).
  Proof. apply fine_all, Forall_app. split; [apply calm_mop | apply calm_annk]. Qed.
  Lemma tick_mop s k : no_tick (mop lay s ++ annk k).
  Proof. apply calm_tick, Forall_app. split; [apply calm_mop | apply calm_annk]. Qed.

  Ltac cls := intros ? Hsp; cbn [In] in Hsp; repeat (destruct Hsp as [<-|Hsp]; [cbn [fst]; clear; dlia|]); destruct Hsp.
  Ltac split_or H := match type of H with _ \/ _ => destruct H as [H|H]; [|split_or H] | False => destruct H | _ => idtac end.
  Ltac bdy := refine (conj _ (conj _ (conj _ _))); [lia | lia
    | let H1 := fresh in let H2 := fresh in let Em := fresh in intros ? ? H1 H2 Em; cbn [In] in H1, H2; split_or H1; split_or H2; try subst; cbn [fst] in Em; first [reflexivity | exfalso; revert Em; clear; dlia]
    | let H1 := fresh in intros ? H1; cbn [In] in H1; split_or H1; first [discriminate | injection H1 as <-; lia]].
  Section Wrap.
    Variables (A0 : cpx -> bits) (X : nat -> cpx -> bits) (Y : nat -> edge -> bool).
    Notation St := (St lay A0 X Y).
    Lemma cx_left L R M kR (rest : list (nat * phase)) s st : s mod 3 = zk L mod 3 -> (forall sp, In sp rest -> zk (fst sp) mod 3 <> zk L mod 3) ->
      St L R M (S L) kR false ((L, Idle) :: rest) st ->
      exists st', run_instr gs (Gen.g "CX" (lpairs lay s)) st = Ok st' /\ St (S L) R M (S L) kR false ((L, LeftD) :: rest) st'.
    Proof.
      intros Es Hc H. rewrite (lpairs_cong lay s (zk L) Es). eapply (op_left lay Hv gs A0 X Y "CX" PZ PX); eauto; [cbn [In]; auto | apply rotn_xyz].
    Qed.
    Lemma cx_right L R M kL (rest : list (nat * phase)) s st : s mod 3 = zk R mod 3 -> (forall sp, In sp rest -> zk (fst sp) mod 3 <> zk R mod 3) ->
      St L R M kL (S R) false ((R, LeftD) :: rest) st ->
      exists st', run_instr gs (Gen.g "CX" (rpairs lay s)) st = Ok st' /\ St L (S R) M kL (S R) false ((R, BothD) :: rest) st'.
    Proof.
      intros Es Hc H. rewrite (rpairs_cong lay s (zk R) Es). eapply (op_right lay Hv gs A0 X Y "CX" PZ PX); eauto; [cbn [In]; auto | apply rotn_xyz].
    Qed.
    Lemma reset s k L R M kL kR (rest : list (nat * phase)) st : pc3 lay = false \/ (k < 3)%nat -> s mod 3 = zk k mod 3 -> (L <= k <= M + 2)%nat -> (forall sp, In sp rest -> zk (fst sp) mod 3 <> zk k mod 3) ->
      St L R M kL kR false rest st ->
      exists st', run_instr gs (Gen.g "R" (centers lay s)) st = Ok st' /\ St L R M kL kR false ((k, Idle) :: rest) st'.
    Proof. intros Hp Es Hk Hc H. rewrite (centers_cong lay s (zk k) Es). apply (op_reset lay Hv gs A0 X Y true k L R M kL kR rest st); auto. Qed.
    Lemma drop (keep : bool) s k L R M kL kR (rest : list (nat * phase)) st : pc3 lay = false \/ (k < 3)%nat -> s mod 3 = zk k mod 3 -> (L <= k <= M + 2)%nat -> (forall sp, In sp rest -> zk (fst sp) mod 3 <> zk k mod 3) ->
      St L R M kL kR false rest st ->
      exists st', run_instr gs (Gen.g "R" (centers lay s)) st = Ok st' /\ St L R M kL kR false ((if keep then [(k, Idle)] else []) ++ rest) st'.
    Proof. intros Hp Es Hk Hc H. rewrite (centers_cong lay s (zk k) Es). apply (op_reset lay Hv gs A0 X Y keep k L R M kL kR rest st); auto. Qed.
    Lemma swap L R M kL kR hm a b st : St L R M kL kR hm [a; b] st -> St L R M kL kR hm [b; a] st.
    Proof. apply St_incl; [intros x [<-|[<-|[]]]; cbn; auto | intros s [K|[K|[]]]; cbn; auto]. Qed.
    Lemma perm L R M kL kR hm pa pa' st : (forall x, In x pa <-> In x pa') -> St L R M kL kR hm pa st -> St L R M kL kR hm pa' st.
    Proof. intros H. apply St_incl; [intros x K; now apply H | intros s K; now apply H]. Qed.
    Lemma measure s L R M kL kR (rest : list (nat * phase)) st : is_em3 (style lay) = false -> s mod 3 = zk M mod 3 -> (S M <= R)%nat ->
      (forall sp, In sp rest -> zk (fst sp) mod 3 <> zk M mod 3) -> St L R M kL kR false ((M, BothD) :: rest) st ->
      runs (mop lay s ++ annk M) (St L R (S M) kL kR false rest) st.
    Proof. intros Hem Es HR Hc H. rewrite (mop_cong lay s (zk M) Es). apply (op_measure lay Hv gs A0 X Y false L R M kL kR rest st); auto. discriminate. Qed.
    Lemma cz_left s L R M kL kR (rest : list (nat * phase)) st : s mod 3 = zk L mod 3 -> (kL mod 3 = S L mod 3)%nat -> (forall sp, In sp rest -> zk (fst sp) mod 3 <> zk L mod 3) ->
      St L R M kL kR true ((L, Idle) :: rest) st ->
      exists st', run_instr gs (Gen.g "CZ" (lpairs lay s)) st = Ok st' /\ St (S L) R M kL kR true ((L, LeftD) :: rest) st'.
    Proof.
      intros Es Ek Hc H. rewrite (lpairs_cong lay s (zk L) Es). eapply (op_left lay Hv gs A0 X Y "CZ" PZ PZ); eauto; [cbn [In]; auto | rewrite rotn_mod, Ek, <- rotn_mod; apply rotn_xyz].
    Qed.
    Lemma cz_right s L R M kL kR (rest : list (nat * phase)) st : s mod 3 = zk R mod 3 -> (kR mod 3 = S R mod 3)%nat -> (forall sp, In sp rest -> zk (fst sp) mod 3 <> zk R mod 3) ->
      St L R M kL kR true ((R, LeftD) :: rest) st ->
      exists st', run_instr gs (Gen.g "CZ" (rpairs lay s)) st = Ok st' /\ St L (S R) M kL kR true ((R, BothD) :: rest) st'.
    Proof.
      intros Es Ek Hc H. rewrite (rpairs_cong lay s (zk R) Es). eapply (op_right lay Hv gs A0 X Y "CZ" PZ PZ); eauto; [cbn [In]; auto | rewrite rotn_mod, Ek, <- rotn_mod; apply rotn_xyz].
    Qed.
    Lemma pc_left L R M (rest : list (nat * phase)) st : (forall sp, In sp rest -> zk (fst sp) mod 3 <> zk L mod 3) ->
      St L R M 0 0 false ((L, Idle) :: rest) st ->
      exists st', run_instr gs (Gen.g (pcx (zk L)) (lpairs lay (zk L))) st = Ok st' /\ St (S L) R M 0 0 false ((L, LeftD) :: rest) st'.
    Proof. intros Hc H. apply (op_left lay Hv gs A0 X Y _ (xyz (zk L)) PX); [apply pcx_name | reflexivity | reflexivity | exact Hc | exact H]. Qed.
    Lemma pc_right L R M (rest : list (nat * phase)) st : (forall sp, In sp rest -> zk (fst sp) mod 3 <> zk R mod 3) ->
      St L R M 0 0 false ((R, LeftD) :: rest) st ->
      exists st', run_instr gs (Gen.g (pcx (zk R)) (rpairs lay (zk R))) st = Ok st' /\ St L (S R) M 0 0 false ((R, BothD) :: rest) st'.
    Proof. intros Hc H. apply (op_right lay Hv gs A0 X Y _ (xyz (zk R)) PX); [apply pcx_name | reflexivity | reflexivity | exact Hc | exact H]. Qed.
  End Wrap.
  Ltac nxt tac := eapply runs_cons; [tac | let st := fresh "st" in let H := fresh "H" in intros st H].
  Ltac rot1 H := apply (op_rot1 lay Hv gs _ _ _ _ _ _ _ _ _ _ _ H).
  Ltac rot2 H := apply (op_rot2 lay Hv gs _ _ _ _ _ _ _ _ _ _ _ H).
  Ltac rota H := apply (op_rot_all lay Hv gs _ _ _ _ _ _ _ _ _ _ _ H).

  (** ** SD6 *)
  Section SD6.
    Hypothesis Hp : pc3 lay = false.
    Hypothesis Hem : is_em3 (style lay) = false.
    Definition sd6_at (k : nat) : fam expl := Sx (S k) k k (S (S k)) (S k) false [(k, LeftD); (S k, Idle)].
    Lemma calm_R l : calm (Gen.g "R" l). Proof. apply calm_g; [discriminate | reflexivity | reflexivity]. Qed.
    Lemma calm_C l : calm (Gen.g "C_ZYX" l). Proof. apply calm_g; [discriminate | reflexivity | reflexivity]. Qed.
    Lemma calm_D l : calm (Gen.g "C_XYZ" l). Proof. apply calm_g; [discriminate | reflexivity | reflexivity]. Qed.
    Lemma calm_H l : calm (Gen.g "H" l). Proof. apply calm_g; [discriminate | reflexivity | reflexivity]. Qed.
    Ltac fin1 := first [left; first [apply calm_R | apply calm_C | apply calm_D | apply calm_H]
      | eapply fine_left; [discriminate | |cbn [In]; eauto]; [clear; dlia]
      | eapply fine_right; [discriminate | | |reflexivity]; [clear; dlia | cbn [In]; auto]].
    Ltac fins := repeat (apply Forall_cons; [fin1|]); first [apply Forall_nil | apply fine_mop].
    Ltac ticks := first [reflexivity | repeat match goal with |- no_tick (?a :: ?b) => apply (no_tick_app [a] b); [reflexivity|] end; apply tick_mop].
    Ltac mom := eapply seg_app; [apply seg_fine; [ticks | bdy | bdy | fins | intros A0 X Y st H] |].

    Lemma sd6_begin_seg : (1 <= N)%nat -> seg (Sx 0 0 0 0 0 false []) (sd6_begin_i lay) (sd6_at 0).
    Proof.
      intros HN.
      change (sd6_begin_i lay) with (([Gen.g "R" (centers lay 0); Gen.g "C_ZYX" (data1 lay)] ++ [tick_i]) ++ ([Gen.g "CX" (lpairs lay 0)] ++ [tick_i]) ++ ([Gen.g "R" (centers lay 1); Gen.g "C_ZYX" (Gen.data_ix lay)] ++ [tick_i])).
      eapply seg_app; [apply (seg_fine _ 0 0 0 0 0 false [] 0 0 0 1 0 false [(0%nat, Idle)]); [ticks | bdy | bdy | fins | intros A0 X Y st H]|].
      { nxt ltac:(apply (reset A0 X Y 0 0%nat 0 0 0 0 0 [] st); [now left | reflexivity | lia | cls | exact H]). nxt ltac:(rot1 H0). now apply runs_nil. }
      eapply seg_app; [apply (seg_fine _ 0 0 0 1 0 false [(0%nat, Idle)] 1 0 0 1 0 false [(0%nat, LeftD)]); [ticks | bdy | bdy | fins | intros A0 X Y st H]|].
      { nxt ltac:(apply (cx_left A0 X Y 0 0 0 0 [] 0 st); [reflexivity | cls | exact H]). now apply runs_nil. }
      apply (seg_fine _ 1 0 0 1 0 false [(0%nat, LeftD)]); [ticks | bdy | bdy | fins | intros A0 X Y st H].
      nxt ltac:(apply (reset A0 X Y 1 1%nat 1 0 0 1 0 [(0%nat, LeftD)] st); [now left | reflexivity | lia | cls | exact H]). nxt ltac:(rota H0). apply runs_nil. now apply swap.
    Qed.
    Lemma sd6_step_seg k : (S (S (S k)) <= N)%nat -> seg (sd6_at k) (sd6_step_i lay k) (sd6_at (S k)).
    Proof.
      intros HN. unfold sd6_step_i, sd6_at.
      replace ([Gen.g "CX" (lpairs lay (zk k + 1)); Gen.g "CX" (rpairs lay (zk k)); tick_i; Gen.g "R" (centers lay (zk k + 2)); Gen.g "C_ZYX" (Gen.data_ix lay)] ++ mop lay (zk k) ++ annk k ++ [tick_i])
        with (([Gen.g "CX" (lpairs lay (zk k + 1)); Gen.g "CX" (rpairs lay (zk k))] ++ [tick_i]) ++ (Gen.g "R" (centers lay (zk k + 2)) :: Gen.g "C_ZYX" (Gen.data_ix lay) :: mop lay (zk k) ++ annk k) ++ [tick_i])
        by (cbn [app]; rewrite <- ?app_assoc; reflexivity).
      eapply seg_app; [apply (seg_fine _ (S k) k k (S (S k)) (S k) false [(k, LeftD); (S k, Idle)] (S (S k)) (S k) k (S (S k)) (S k) false [(k, BothD); (S k, LeftD)]); [ticks | bdy | bdy | fins | intros A0 X Y st H]|].
      { apply swap in H. nxt ltac:(apply (cx_left A0 X Y (S k) k k (S k) [(k, LeftD)] (zk k + 1) st); [dlia | cls | exact H]). apply swap in H0.
        nxt ltac:(apply (cx_right A0 X Y (S (S k)) k k (S (S k)) [(S k, LeftD)] (zk k) st0); [reflexivity | cls | exact H0]). now apply runs_nil. }
      apply (seg_fine _ (S (S k)) (S k) k (S (S k)) (S k) false [(k, BothD); (S k, LeftD)]); [ticks | bdy | bdy | fins | intros A0 X Y st H].
      nxt ltac:(apply (reset A0 X Y (zk k + 2) (S (S k)) (S (S k)) (S k) k (S (S k)) (S k) [(k, BothD); (S k, LeftD)] st); [now left | dlia | lia | cls | exact H]).
      nxt ltac:(rota H0).
      apply (measure A0 X Y); [exact Hem | reflexivity | lia | cls |]. eapply perm; [|exact H1]. intros x. cbn [In]. tauto.
    Qed.
    Lemma sd6_end_seg k m : (S (S k) <= N)%nat -> no_tick m -> Forall calm m -> forall S',
      (forall A0 X Y st, St lay A0 X Y (S (S k)) (S (S k)) (S (S k)) (S (S k)) (S (S k)) false [] st -> runs m (St lay A0 X Y (S (S k)) (S (S k)) (S (S k)) 0 0 false []) st) ->
      S' = Sx (S (S k)) (S (S k)) (S (S k)) 0 0 false [] ->
      seg (sd6_at k) (sd6_end_i lay k ++ m ++ [tick_i]) S'.
    Proof.
      intros HN Tm Cm S' Hm ->. unfold sd6_end_i, sd6_at.
      replace (([Gen.g "CX" (lpairs lay (zk k + 1)); Gen.g "CX" (rpairs lay (zk k)); tick_i] ++ mop lay (zk k) ++ annk k ++
        [tick_i; Gen.g "C_ZYX" (data2 lay); tick_i; Gen.g "CX" (rpairs lay (zk k + 1)); tick_i] ++ mop lay (zk k + 1) ++ annk (S k)) ++ m ++ [tick_i])
        with (([Gen.g "CX" (lpairs lay (zk k + 1)); Gen.g "CX" (rpairs lay (zk k))] ++ [tick_i]) ++ ((mop lay (zk k) ++ annk k) ++ [tick_i]) ++ ([Gen.g "C_ZYX" (data2 lay)] ++ [tick_i]) ++
              ([Gen.g "CX" (rpairs lay (zk k + 1))] ++ [tick_i]) ++ ((mop lay (zk k + 1) ++ annk (S k)) ++ m) ++ [tick_i])
        by (cbn [app]; rewrite <- ?app_assoc; cbn [app]; rewrite <- ?app_assoc; reflexivity).
      eapply seg_app; [apply (seg_fine _ (S k) k k (S (S k)) (S k) false [(k, LeftD); (S k, Idle)] (S (S k)) (S k) k (S (S k)) (S k) false [(k, BothD); (S k, LeftD)]); [ticks | bdy | bdy | fins | intros A0 X Y st H]|].
      { apply swap in H. nxt ltac:(apply (cx_left A0 X Y (S k) k k (S k) [(k, LeftD)] (zk k + 1) st); [dlia | cls | exact H]). apply swap in H0.
        nxt ltac:(apply (cx_right A0 X Y (S (S k)) k k (S (S k)) [(S k, LeftD)] (zk k) st0); [reflexivity | cls | exact H0]). now apply runs_nil. }
      eapply seg_app; [apply (seg_fine _ (S (S k)) (S k) k (S (S k)) (S k) false [(k, BothD); (S k, LeftD)] (S (S k)) (S k) (S k) (S (S k)) (S k) false [(S k, LeftD)]); [ticks | bdy | bdy | fins | intros A0 X Y st H]|].
      { apply (measure A0 X Y); [exact Hem | reflexivity | lia | cls | exact H]. }
      eapply seg_app; [apply (seg_fine _ (S (S k)) (S k) (S k) (S (S k)) (S k) false [(S k, LeftD)] (S (S k)) (S k) (S k) (S (S k)) (S (S k)) false [(S k, LeftD)]); [ticks | bdy | bdy | fins | intros A0 X Y st H]|].
      { nxt ltac:(rot2 H). now apply runs_nil. }
      eapply seg_app; [apply (seg_fine _ (S (S k)) (S k) (S k) (S (S k)) (S (S k)) false [(S k, LeftD)] (S (S k)) (S (S k)) (S k) (S (S k)) (S (S k)) false [(S k, BothD)]); [ticks | bdy | bdy | fins | intros A0 X Y st H]|].
      { nxt ltac:(apply (cx_right A0 X Y (S (S k)) (S k) (S k) (S (S k)) [] (zk k + 1) st); [dlia | cls | exact H]). now apply runs_nil. }
      apply (seg_fine _ (S (S k)) (S (S k)) (S k) (S (S k)) (S (S k)) false [(S k, BothD)]); [apply no_tick_app; [apply tick_mop | exact Tm] | bdy | bdy | apply Forall_app; split; [apply fine_mop | now apply fine_all] | intros A0 X Y st H].
      eapply runs_app; [apply (measure A0 X Y); [exact Hem | clear; dlia | | | exact H]; [lia | cls]|]. intros s Hs0. now apply Hm.
    Qed.
    Lemma sd6_single_seg m : (1 <= N)%nat -> no_tick m -> Forall calm m -> forall S',
      (forall A0 X Y st, St lay A0 X Y 1 1 1 1 1 false [] st -> runs m (St lay A0 X Y 1 1 1 0 0 false []) st) ->
      S' = Sx 1 1 1 0 0 false [] ->
      seg (Sx 0 0 0 0 0 false []) (sd6_single_i lay ++ m ++ [tick_i]) S'.
    Proof.
      intros HN Tm Cm S' Hm ->. unfold sd6_single_i.
      replace (([Gen.g "R" (centers lay 0); Gen.g "C_ZYX" (Gen.data_ix lay); tick_i; Gen.g "CX" (lpairs lay 0); tick_i; Gen.g "CX" (rpairs lay 0); tick_i] ++ mop lay 0 ++ annk 0) ++ m ++ [tick_i])
        with (([Gen.g "R" (centers lay 0); Gen.g "C_ZYX" (Gen.data_ix lay)] ++ [tick_i]) ++ ([Gen.g "CX" (lpairs lay 0)] ++ [tick_i]) ++ ([Gen.g "CX" (rpairs lay 0)] ++ [tick_i]) ++ ((mop lay 0 ++ annk 0) ++ m) ++ [tick_i])
        by (cbn [app]; rewrite <- ?app_assoc; reflexivity).
      eapply seg_app; [apply (seg_fine _ 0 0 0 0 0 false [] 0 0 0 1 1 false [(0%nat, Idle)]); [ticks | bdy | bdy | fins | intros A0 X Y st H]|].
      { nxt ltac:(apply (reset A0 X Y 0 0%nat 0 0 0 0 0 [] st); [now left | reflexivity | lia | cls | exact H]). nxt ltac:(rota H0). now apply runs_nil. }
      eapply seg_app; [apply (seg_fine _ 0 0 0 1 1 false [(0%nat, Idle)] 1 0 0 1 1 false [(0%nat, LeftD)]); [ticks | bdy | bdy | fins | intros A0 X Y st H]|].
      { nxt ltac:(apply (cx_left A0 X Y 0 0 0 1 [] 0 st); [reflexivity | cls | exact H]). now apply runs_nil. }
      eapply seg_app; [apply (seg_fine _ 1 0 0 1 1 false [(0%nat, LeftD)] 1 1 0 1 1 false [(0%nat, BothD)]); [ticks | bdy | bdy | fins | intros A0 X Y st H]|].
      { nxt ltac:(apply (cx_right A0 X Y 1 0 0 1 [] 0 st); [reflexivity | cls | exact H]). now apply runs_nil. }
      apply (seg_fine _ 1 1 0 1 1 false [(0%nat, BothD)]); [apply no_tick_app; [apply tick_mop | exact Tm] | bdy | bdy | apply Forall_app; split; [apply fine_mop | now apply fine_all] | intros A0 X Y st H].
      eapply runs_app; [apply (measure A0 X Y); [exact Hem | reflexivity | | | exact H]; [lia | cls]|]. intros s Hs0. now apply Hm.
    Qed.
    Definition sd6_turn : list instr := if (n + 1) mod 3 =? 0 then [Gen.g "C_ZYX" (Gen.data_ix lay)] else if (n + 2) mod 3 =? 0 then [Gen.g "C_XYZ" (Gen.data_ix lay)] else [].
    Lemma sd6_turn_ok A0 X Y st : 1 <= n -> St lay A0 X Y N N N N N false [] st -> runs sd6_turn (St lay A0 X Y N N N 0 0 false []) st.
    Proof.
      intros Hn H. unfold sd6_turn.
      destruct (Z.eqb_spec ((n + 1) mod 3) 0) as [C|C]; [|destruct (Z.eqb_spec ((n + 2) mod 3) 0) as [C2|C2]].
      + eapply runs_cons; [rota H|]. intros st' H'. apply runs_nil.
        eapply St_rot; [| |exact H']; apply Nat2Z.inj; rewrite Nat2Z.inj_mod; clear -C Hn; change (zk (0 mod 3)) with 0; change (zk 3) with 3; dlia.
      + eapply runs_cons; [apply (op_unrot_all lay Hv gs _ _ _ _ _ _ _ _ _ _ _ H)|]. intros st' H'. apply runs_nil.
        eapply St_rot; [| |exact H']; apply Nat2Z.inj; rewrite Nat2Z.inj_mod; clear -C2 Hn; change (zk (0 mod 3)) with 0; change (zk 3) with 3; dlia.
      + apply runs_nil. eapply St_rot; [| |exact H]; apply Nat2Z.inj; rewrite Nat2Z.inj_mod; clear -C C2 Hn; change (zk (0 mod 3)) with 0; change (zk 3) with 3; dlia.
    Qed.
    Lemma calm_turn : Forall calm sd6_turn.
    Proof. unfold sd6_turn. destruct (_ =? 0); [|destruct (_ =? 0)]; repeat constructor; discriminate. Qed.
    Lemma body_sd6 : seg (Sx 0 0 0 0 0 false []) (sd6_body lay) (last_at lay).
    Proof.
      pose proof (proj1 Hs) as Hn. unfold sd6_body. change (sd6_close_i lay) with (sd6_turn ++ [tick_i]).
      destruct (Z.eqb_spec n 1) as [E1|N1].
      - apply sd6_single_seg; [lia | apply calm_tick, calm_turn | apply calm_turn | intros A0 X Y st H | unfold last_at; now rewrite E1].
        pose proof (sd6_turn_ok A0 X Y st Hn) as K. rewrite E1 in K. now apply K.
      - rewrite <- !app_assoc. eapply seg_app; [apply sd6_begin_seg; lia|]. eapply seg_app.
        + apply (seg_flat expl okx tx0 gs rel (sd6_step_i lay) sd6_at 0 (Z.to_nat (n - 2))). intros k Hk. apply sd6_step_seg. lia.
        + rewrite Nat.add_0_l. assert (EN : N = S (S (Z.to_nat (n - 2)))) by lia. apply sd6_end_seg; [lia | apply calm_tick, calm_turn | apply calm_turn | intros A0 X Y st H | unfold last_at; now rewrite EN].
          pose proof (sd6_turn_ok A0 X Y st Hn) as K. rewrite EN in K. now apply K.
    Qed.

    (** ** SI1000 *)
    Definition si_at (j : nat) : fam expl := Sx (3 * j) (3 * j) (3 * j) 0 0 false (match j with O => [(0, Idle); (1, Idle); (2, Idle)] | _ => [] end)%nat.
    Lemma si_seg j : (3 * j + 3 <= N)%nat -> seg (si_at j) (si_i lay j) (si_at (S j)).
    Proof.
      intros HN. unfold si_i, si_at.
      set (a := (3 * j)%nat) in *.
      eapply seg_app with (S1 := Sx a a a 0 0 false [(a, Idle); (S a, Idle); (S (S a), Idle)]).
      { destruct j as [|j]; [apply seg_nil; now intros t st|]. cbn [si_head].
        change [Gen.g "R" (meas_ix lay); tick_i] with ([Gen.g "R" (meas_ix lay)] ++ [tick_i]). clearbody a.
        apply seg_fine; [ticks | bdy | bdy | fins | intros A0 X Y st H].
        nxt ltac:(apply (op_reset_all lay Hv gs A0 X Y a a a a 0 0 st (or_introl Hp)); [lia | exact H]). apply runs_nil. now rewrite Nat.add_1_r, (Nat.add_comm a 2) in H0. }
      assert (La : forall i, lpairs lay (zk i) = lpairs lay (zk (a + i))) by (intros i; apply lpairs_cong; unfold a; dlia).
      assert (Ra : forall i, rpairs lay (zk i) = rpairs lay (zk (a + i))) by (intros i; apply rpairs_cong; unfold a; dlia).
      assert (Ma : forall i, mop lay (zk i) = mop lay (zk (a + i))) by (intros i; apply mop_cong; unfold a; dlia).
      assert (H3 : forall i, ((S (a + i)) mod 3 = S i mod 3)%nat) by (intros i; unfold a; rewrite <- Nat.add_succ_r; apply mod3_add).
      unfold si_gates.
      change 0 with (zk 0). change 1 with (zk 1). change 2 with (zk 2). rewrite (La 0%nat), (La 1%nat), (La 2%nat), (Ra 0%nat), (Ra 1%nat), (Ra 2%nat), (Ma 0%nat), (Ma 1%nat), (Ma 2%nat).
      rewrite Nat.add_0_r, Nat.add_1_r, (Nat.add_comm a 2). change (2 + a)%nat with (S (S a)).
      specialize (H3 0%nat) as M0. specialize (H3 1%nat) as M1. specialize (H3 2%nat) as M2.
      rewrite Nat.add_0_r in M0. rewrite Nat.add_1_r in M1. rewrite (Nat.add_comm a 2) in M2. change (2 + a)%nat with (S (S a)) in M2.
      assert (HN' : (S (S (S a)) <= N)%nat) by lia.
      replace (3 * S j)%nat with (S (S (S a))) by (unfold a; lia).
      clear La Ra Ma H3. clearbody a. change (zk 0) with 0.
      match goal with |- seg _ ?l _ => replace l with
        (([Gen.g "C_ZYX" (data1 lay); Gen.g "H" (meas_ix lay)] ++ [tick_i]) ++ ([Gen.g "C_ZYX" (data2 lay); Gen.g "CZ" (lpairs lay (zk a))] ++ [tick_i]) ++ ([Gen.g "C_ZYX" (data1 lay); Gen.g "CZ" (rpairs lay (zk a))] ++ [tick_i]) ++
         ([Gen.g "C_ZYX" (data2 lay); Gen.g "CZ" (lpairs lay (zk (S a)))] ++ [tick_i]) ++ ([Gen.g "C_ZYX" (data1 lay); Gen.g "CZ" (rpairs lay (zk (S a)))] ++ [tick_i]) ++
         ([Gen.g "C_ZYX" (data2 lay); Gen.g "CZ" (lpairs lay (zk (S (S a))))] ++ [tick_i]) ++ ([Gen.g "CZ" (rpairs lay (zk (S (S a))))] ++ [tick_i]) ++ ([Gen.g "H" (meas_ix lay)] ++ [tick_i]) ++
         ((mop lay (zk a) ++ annk a) ++ (mop lay (zk (S a)) ++ annk (S a)) ++ (mop lay (zk (S (S a))) ++ annk (S (S a)))) ++ [tick_i])
        by (cbn [app]; rewrite <- ?app_assoc; reflexivity) end.
      eapply seg_app; [apply (seg_fine _ a a a 0 0 false [(a, Idle); (S a, Idle); (S (S a), Idle)] a a a 1 0 true [(a, Idle); (S a, Idle); (S (S a), Idle)]); [ticks | bdy | bdy | fins | intros A0 X Y st H]|].
      { nxt ltac:(rot1 H). nxt ltac:(apply (op_H lay Hv gs _ _ _ _ _ _ _ _ _ _ _ H0)). now apply runs_nil. }
      eapply seg_app; [apply (seg_fine _ a a a 1 0 true [(a, Idle); (S a, Idle); (S (S a), Idle)] (S a) a a 1 1 true [(a, LeftD); (S a, Idle); (S (S a), Idle)]); [ticks | bdy | bdy | fins | intros A0 X Y st H]|].
      { nxt ltac:(rot2 H). nxt ltac:(apply (cz_left A0 X Y (zk a) a a a 1 1 [(S a, Idle); (S (S a), Idle)] st0); [reflexivity | rewrite M0; reflexivity | cls | exact H0]). now apply runs_nil. }
      eapply seg_app; [apply (seg_fine _ (S a) a a 1 1 true [(a, LeftD); (S a, Idle); (S (S a), Idle)] (S a) (S a) a 2 1 true [(a, BothD); (S a, Idle); (S (S a), Idle)]); [ticks | bdy | bdy | fins | intros A0 X Y st H]|].
      { nxt ltac:(rot1 H). nxt ltac:(apply (cz_right A0 X Y (zk a) (S a) a a 2 1 [(S a, Idle); (S (S a), Idle)] st0); [reflexivity | rewrite M0; reflexivity | cls | exact H0]). now apply runs_nil. }
      eapply seg_app; [apply (seg_fine _ (S a) (S a) a 2 1 true [(a, BothD); (S a, Idle); (S (S a), Idle)] (S (S a)) (S a) a 2 2 true [(S a, LeftD); (a, BothD); (S (S a), Idle)]); [ticks | bdy | bdy | fins | intros A0 X Y st H]|].
      { nxt ltac:(rot2 H). nxt ltac:(apply (cz_left A0 X Y (zk (S a)) (S a) (S a) a 2 2 [(a, BothD); (S (S a), Idle)] st0); [reflexivity | rewrite M1; reflexivity | cls |]); [eapply perm; [|exact H0]; intros x; cbn [In]; tauto|]. now apply runs_nil. }
      eapply seg_app; [apply (seg_fine _ (S (S a)) (S a) a 2 2 true [(S a, LeftD); (a, BothD); (S (S a), Idle)] (S (S a)) (S (S a)) a 3 2 true [(S a, BothD); (a, BothD); (S (S a), Idle)]); [ticks | bdy | bdy | fins | intros A0 X Y st H]|].
      { nxt ltac:(rot1 H). nxt ltac:(apply (cz_right A0 X Y (zk (S a)) (S (S a)) (S a) a 3 2 [(a, BothD); (S (S a), Idle)] st0); [reflexivity | rewrite M1; reflexivity | cls | exact H0]). now apply runs_nil. }
      eapply seg_app; [apply (seg_fine _ (S (S a)) (S (S a)) a 3 2 true [(S a, BothD); (a, BothD); (S (S a), Idle)] (S (S (S a))) (S (S a)) a 3 3 true [(S (S a), LeftD); (S a, BothD); (a, BothD)]); [ticks | bdy | bdy | fins | intros A0 X Y st H]|].
      { nxt ltac:(rot2 H). nxt ltac:(apply (cz_left A0 X Y (zk (S (S a))) (S (S a)) (S (S a)) a 3 3 [(S a, BothD); (a, BothD)] st0); [reflexivity | rewrite M2; reflexivity | cls |]); [eapply perm; [|exact H0]; intros x; cbn [In]; tauto|]. now apply runs_nil. }
      eapply seg_app; [apply (seg_fine _ (S (S (S a))) (S (S a)) a 3 3 true [(S (S a), LeftD); (S a, BothD); (a, BothD)] (S (S (S a))) (S (S (S a))) a 3 3 true [(S (S a), BothD); (S a, BothD); (a, BothD)]); [ticks | bdy | bdy | fins | intros A0 X Y st H]|].
      { nxt ltac:(apply (cz_right A0 X Y (zk (S (S a))) (S (S (S a))) (S (S a)) a 3 3 [(S a, BothD); (a, BothD)] st); [reflexivity | rewrite M2; reflexivity | cls | exact H]). now apply runs_nil. }
      eapply seg_app; [apply (seg_fine _ (S (S (S a))) (S (S (S a))) a 3 3 true [(S (S a), BothD); (S a, BothD); (a, BothD)] (S (S (S a))) (S (S (S a))) a 3 3 false [(S (S a), BothD); (S a, BothD); (a, BothD)]); [ticks | bdy | bdy | fins | intros A0 X Y st H]|].
      { nxt ltac:(apply (op_H lay Hv gs _ _ _ _ _ _ _ _ _ _ _ H)). now apply runs_nil. }
      apply (seg_fine _ (S (S (S a))) (S (S (S a))) a 3 3 false [(S (S a), BothD); (S a, BothD); (a, BothD)]);
        [apply no_tick_app; [apply tick_mop | apply no_tick_app; apply tick_mop] | bdy | bdy | apply Forall_app; split; [apply fine_mop | apply Forall_app; split; apply fine_mop] | intros A0 X Y st H].
      eapply runs_app; [apply (measure A0 X Y (zk a) (S (S (S a))) (S (S (S a))) a 3 3 [(S a, BothD); (S (S a), BothD)] st Hem); [reflexivity | lia | cls |]; eapply perm; [|exact H]; intros x; cbn [In]; tauto|].
      clear st H. intros st H. eapply runs_app; [apply (measure A0 X Y (zk (S a)) (S (S (S a))) (S (S (S a))) (S a) 3 3 [(S (S a), BothD)] st Hem); [reflexivity | lia | cls | exact H]|].
      clear st H. intros st H. eapply runs_weaken; [|apply (measure A0 X Y (zk (S (S a))) (S (S (S a))) (S (S (S a))) (S (S a)) 3 3 [] st Hem); [reflexivity | lia | cls | exact H]].
      intros s K. eapply St_rot; [| |exact K]; reflexivity.
    Qed.
    Lemma body_si : n mod 3 = 0 -> seg (Sx 0 0 0 0 0 false [(0, Idle); (1, Idle); (2, Idle)]%nat) (si_body lay) (last_at lay).
    Proof.
      intros H3. pose proof (proj1 Hs) as Hn. unfold si_body.
      pose proof (seg_flat expl okx tx0 gs rel (si_i lay) si_at 0 (Z.to_nat (n / 3))) as K. cbn [Nat.add] in K.
      replace (last_at lay) with (si_at (Z.to_nat (n / 3))); [apply K; intros k Hk; apply si_seg; revert Hk H3; clear; dlia|].
      unfold si_at, last_at. replace (3 * Z.to_nat (n / 3))%nat with N by (revert H3; clear -Hn; dlia). destruct (Z.to_nat (n / 3)) eqn:F; [|reflexivity].
      exfalso. revert F Hn H3. clear. dlia.
    Qed.
  End SD6.

  (** ** PC3 *)
  Section PC3.
    Hypothesis Hp : pc3 lay = true.
    Hypothesis Hem : is_em3 (style lay) = false.
    Definition pc3_pa (k : nat) : list (nat * phase) :=
      (if zk k <? n then [(k, Idle)] else []) ++ (if (1 <=? zk k) && (zk k <=? n) then [((k - 1)%nat, LeftD)] else []) ++
                   (if (2 <=? zk k) && (zk k <=? n + 1) then [((k - 2)%nat, BothD)] else []).
    Definition pc3_at (k : nat) : fam expl := Sx (Nat.min k N) (Nat.min (k - 1) N) (k - 2) 0 0 false (pc3_pa k).
    Lemma in_pc3 k s p : In (s, p) (pc3_pa k) <-> (p = Idle /\ s = k /\ (k < N)%nat) \/ (p = LeftD /\ k = S s /\ (k <= N)%nat) \/ (p = BothD /\ k = S (S s) /\ (S s <= N)%nat).
    Proof.
      pose proof (proj1 Hs) as Hn. unfold pc3_pa. rewrite !in_app_iff.
      assert (I : forall (b : bool) (y : nat * phase), In (s, p) (if b then [y] else []) <-> b = true /\ y = (s, p)).
      { intros [] y; cbn [In]; intuition congruence. }
      rewrite !I, !andb_true_iff, !Z.ltb_lt, !Z.leb_le. split.
      - intros [(K1 & K2)|[(K1 & K2)|(K1 & K2)]]; injection K2 as <- <-; [left | right; left | right; right]; (split; [reflexivity | lia]).
      - intros [(-> & -> & K)|[(-> & -> & K)|(-> & -> & K)]]; [left | right; left | right; right]; (split; [lia | f_equal; lia]).
    Qed.
    Lemma pc3_boundary k : boundary lay (Nat.min k N) (Nat.min (k - 1) N) (k - 2) (pc3_pa k).
    Proof.
      refine (conj _ (conj _ (conj _ _))); [lia | lia | |].
      - intros [s p] [s' p'] H1 H2. cbn [fst]. rewrite in_pc3 in H1, H2.
        destruct H1 as [(-> & K1 & _)|[(-> & K1 & _)|(-> & K1 & _)]], H2 as [(-> & K2 & _)|[(-> & K2 & _)|(-> & K2 & _)]]; intros Em; try (f_equal; lia); exfalso; revert Em; clear -K1 K2; dlia.
      - intros s H. rewrite in_pc3 in H. destruct H as [(K & _)|[(_ & K1 & K2)|(K & _)]]; [discriminate | lia | discriminate].
    Qed.
    Lemma pc3_seg k : (k < Z.to_nat (n + 2))%nat -> seg (pc3_at k) (pc3_i lay k) (pc3_at (S k)).
    Proof.
      intros Hk. pose proof (proj1 Hs) as Hn. unfold pc3_i, pc3_at.
      
      match goal with |- seg _ (?a ++ ?b ++ ?c ++ ?d) _ => replace (a ++ b ++ c ++ d) with (((a ++ b) ++ c) ++ d) by (rewrite <- !app_assoc; reflexivity) end.
      apply seg_fine.
      - apply no_tick_app; [apply no_tick_app; [destruct (_ <? _) | destruct (_ && _)]; try reflexivity; unfold pcx; destruct (xyz _); reflexivity |].
        destruct (2 <=? zk k); [apply tick_mop | reflexivity].
      - apply pc3_boundary.
      - apply pc3_boundary.
      - apply Forall_app. split; [apply Forall_app; split|].
        + destruct (Z.ltb_spec (zk k) n); [|apply Forall_nil]. apply Forall_cons; [|apply Forall_nil]. apply fine_left with (s := k); [unfold pcx; destruct (xyz _); discriminate | reflexivity | rewrite in_pc3; right; left; repeat split; lia].
        + destruct ((1 <=? zk k) && (zk k <=? n)) eqn:B; [|constructor]. rewrite andb_true_iff, !Z.leb_le in B. apply Forall_cons; [|apply Forall_nil].
          apply fine_right with (s := (k - 1)%nat); [unfold pcx; destruct (xyz _); discriminate | f_equal; lia | rewrite in_pc3; right; right; repeat split; lia | lia].
        + destruct (2 <=? zk k); [apply fine_mop|]. apply Forall_cons; [|apply Forall_nil]. left. apply calm_R.
      - intros A0 X Y st H. rewrite <- app_assoc.
        (* the left halves of sub-round k *)
        eapply runs_app with (Mid := St lay A0 X Y (Nat.min (S k) N) (Nat.min (k - 1) N) (k - 2) 0 0 false
          ((if zk k <? n then [(k, LeftD)] else []) ++ (if (1 <=? zk k) && (zk k <=? n) then [((k - 1)%nat, LeftD)] else []) ++
                     (if (2 <=? zk k) && (zk k <=? n + 1) then [((k - 2)%nat, BothD)] else []))).
        { unfold pc3_pa in H. destruct (Z.ltb_spec (zk k) n) as [L|L].
          - replace (Nat.min (S k) N) with (S k) by lia. replace (Nat.min k N) with k in H by lia.
            eapply runs_cons; [apply (pc_left A0 X Y); [|exact H]|intros; apply runs_nil; eassumption].
            intros sp Hin. apply in_app_or in Hin. destruct Hin as [Hin|Hin];
            match type of Hin with In _ (if ?b then _ else _) => destruct b eqn:B; [|destruct Hin] end; apply andb_prop in B; destruct B as [B _]; apply Z.leb_le in B;
            destruct Hin as [<-|[]]; cbn [fst]; clear -B; dlia.
          - apply runs_nil. replace (Nat.min (S k) N) with (Nat.min k N) by lia. exact H. }
        clear st H. intros st H.
        (* the right halves of sub-round k - 1 *)
        eapply runs_app with (Mid := St lay A0 X Y (Nat.min (S k) N) (Nat.min k N) (k - 2) 0 0 false
          ((if (2 <=? zk k) && (zk k <=? n + 1) then [((k - 2)%nat, BothD)] else []) ++ (if zk k <? n then [(k, LeftD)] else []) ++
           (if (1 <=? zk k) && (zk k <=? n) then [((k - 1)%nat, BothD)] else []))).
        { destruct ((1 <=? zk k) && (zk k <=? n)) eqn:B.
          - apply andb_prop in B. destruct B as [B1 B2]. apply Z.leb_le in B1, B2.
            replace (Nat.min k N) with (S (k - 1)) by lia. replace (Nat.min (k - 1) N) with (k - 1)%nat in H by lia. replace (zk k - 1) with (zk (k - 1)) by lia.
            eapply runs_cons; [apply (pc_right A0 X Y (Nat.min (S k) N) (k - 1) (k - 2) ((if zk k <? n then [(k, LeftD)] else []) ++ (if (2 <=? zk k) && (zk k <=? n + 1) then [((k - 2)%nat, BothD)] else [])))|].
            + intros sp Hin. apply in_app_or in Hin. destruct Hin as [Hin|Hin];
              match type of Hin with In _ (if ?b then _ else _) => destruct b eqn:B; [|destruct Hin] end; rewrite ?andb_true_iff, ?Z.leb_le in B;
              destruct Hin as [<-|[]]; cbn [fst]; clear -B B1; [dlia | destruct B as [B _]; dlia].
            + eapply perm; [|exact H]. intros x. rewrite !in_app_iff. cbn [In]. rewrite !in_app_iff. tauto.
            + clear st H. intros st H. apply runs_nil. eapply perm; [|exact H]. intros x. cbn [In]. rewrite !in_app_iff. cbn [In]. tauto.
          - apply runs_nil. replace (Nat.min k N) with (Nat.min (k - 1) N) by (apply andb_false_iff in B; rewrite !Z.leb_gt in B; lia).
            eapply perm; [|exact H]. intros x. rewrite !in_app_iff. tauto. }
        clear st H. intros st H.
        (* measuring sub-round k - 2, or resetting *)
        assert (Hr : forall sp, In sp ((if zk k <? n then [(k, LeftD)] else []) ++ (if (1 <=? zk k) && (zk k <=? n) then [((k - 1)%nat, BothD)] else [])) ->
          zk (fst sp) mod 3 <> zk (S k) mod 3).
        { intros sp Hin. apply in_app_or in Hin. destruct Hin as [Hin|Hin];
            match type of Hin with In _ (if ?b then _ else _) => destruct b eqn:B; [|destruct Hin] end; rewrite ?andb_true_iff, ?Z.leb_le in B;
            destruct Hin as [<-|[]]; cbn [fst]; clear -B; [dlia | destruct B as [B _]; dlia]. }
        assert (Epa : pc3_pa (S k) = (if zk (S k) <? n then [(S k, Idle)] else []) ++ (if zk k <? n then [(k, LeftD)] else []) ++ (if (1 <=? zk k) && (zk k <=? n) then [((k - 1)%nat, BothD)] else [])).
        { unfold pc3_pa.
          replace (1 <=? zk (S k)) with true by (symmetry; apply Z.leb_le; lia).
          replace (zk (S k) <=? n) with (zk k <? n) by (destruct (Z.ltb_spec (zk k) n), (Z.leb_spec (zk (S k)) n); lia).
          replace (2 <=? zk (S k)) with (1 <=? zk k) by (destruct (Z.leb_spec 1 (zk k)), (Z.leb_spec 2 (zk (S k))); lia).
          replace (zk (S k) <=? n + 1) with (zk k <=? n) by (destruct (Z.leb_spec (zk k) n), (Z.leb_spec (zk (S k)) (n + 1)); lia).
          replace (S k - 1)%nat with k by lia. replace (S k - 2)%nat with (k - 1)%nat by lia. reflexivity. }
        rewrite Epa. clear Epa. replace (S k - 1)%nat with k by lia.
        destruct (Z.leb_spec 2 (zk k)) as [H2|H2].
        + replace (zk k <=? n + 1) with true in H by (symmetry; apply Z.leb_le; lia). cbn [andb app] in H.
          replace (S k - 2)%nat with (S (k - 2)) by lia. replace (if zk (S k) <? n then [(S k, Idle)] else []) with (if zk (S k) <? n then [((k - 2 + 3)%nat, Idle)] else []) by (replace (k - 2 + 3)%nat with (S k) by lia; reflexivity).
          apply (op_measure lay Hv gs A0 X Y (zk (S k) <? n)); [exact Hem | lia | | | exact H].
          * intros sp Hin. specialize (Hr sp Hin). replace (zk (k - 2) mod 3) with (zk (S k) mod 3); [exact Hr|]. clear -H2. dlia.
          * intros K. split; [exact Hp | lia].
        + eapply runs_cons; [|intros s Hs'; apply runs_nil; exact Hs'].
          replace (S k - 2)%nat with (k - 2)%nat by lia. apply (drop A0 X Y (zk (S k) <? n)); [right; lia | clear; dlia | lia | exact Hr |]. exact H.
    Qed.
    Lemma body_pc3 : seg (Sx 0 0 0 0 0 false [(0, Idle)]%nat) (flat_map (pc3_i lay) (seq 0 (Z.to_nat (n + 2)))) (last_at lay).
    Proof.
      pose proof (proj1 Hs) as Hn.
      pose proof (seg_flat expl okx tx0 gs rel (pc3_i lay) pc3_at 0 (Z.to_nat (n + 2))) as K. cbn [Nat.add] in K.
      replace (last_at lay) with (pc3_at (Z.to_nat (n + 2))).
      2:{ unfold pc3_at, last_at, pc3_pa. replace (Nat.min (Z.to_nat (n + 2)) N) with N by lia. replace (Nat.min (Z.to_nat (n + 2) - 1) N) with N by lia.
          replace (Z.to_nat (n + 2) - 2)%nat with N by lia. replace (zk (Z.to_nat (n + 2)) <? n) with false by (symmetry; apply Z.ltb_ge; lia).
          replace (zk (Z.to_nat (n + 2)) <=? n) with false by (symmetry; apply Z.leb_gt; lia). replace (zk (Z.to_nat (n + 2)) <=? n + 1) with false by (symmetry; apply Z.leb_gt; lia).
          rewrite !andb_false_r. reflexivity. }
      replace (Sx 0 0 0 0 0 false [(0, Idle)]%nat) with (pc3_at 0).
      2:{ unfold pc3_at, pc3_pa. replace (zk 0 <? n) with true by (symmetry; apply Z.ltb_lt; lia). reflexivity. }
      apply K. intros k Hk. apply pc3_seg. lia.
    Qed.
  End PC3.
End Ch.
