(** C15, continued: negative offsets (src/measure_tracker.py). *)
From Verif Require Import Prelude Tracker TrackerFacts Prop_Tracker.
Open Scope Z_scope.

(** A negative offset does not look into the future, and is not refused: Prev(k, -j) is
    the j-th entry ever recorded for k, because Python's h[-t] counts from the front once
    t is zero or less. *)
Theorem C15_negative_offset :
  forall (K : Type) (keqb : K -> K -> bool)
    (cs cs' : list (call (K := K))) tr tr' k j v,
  do_calls keqb tr_init cs = Ok tr -> do_calls keqb tr cs' = Ok tr' ->
  measurement_time_set tr [AKey (Some k)] = Ok v ->
  list_sum (map (adds keqb k) cs) = j ->
  measurement_time_set tr' [Prev (AKey (Some k)) (- Z.of_nat j)] = Ok v.
Proof.
  intros K keqb cs cs' tr tr' k j v Hcs Hcs' Hv Hj. cbn [Prev]. unfold measurement_time_set in *.
  rewrite loop_single in *. rewrite lookup_key in Hv.
  destruct (do_calls_hist keqb cs k _ tr Hcs) as (old & H & L). cbn [tr_init hist] in H. rewrite app_nil_r in H. rewrite H in Hv.
  destruct (do_calls_hist keqb cs' k tr tr' Hcs') as (new & H' & _). rewrite H in H'. destruct old as [|w old]; [discriminate|]. cbn [length] in L.
  unfold lookup, hist_of. rewrite H'. unfold assert_. replace (1 + - Z.of_nat j <=? Z.of_nat (length (new ++ w :: old))) with true by (symmetry; apply Z.leb_le; lia). cbn [bind].
  unfold py_neg_index. replace (1 <=? 1 + - Z.of_nat j) with false by (symmetry; apply Z.leb_gt; lia).
  rewrite rev_app_distr. cbn [rev]. replace (Z.to_nat (- (1 + - Z.of_nat j))) with (length (rev old)) by (rewrite rev_length; lia).
  rewrite <- app_assoc, nth_error_app2 by lia. rewrite Nat.sub_diag. exact Hv.
Qed.
Print Assumptions C15_negative_offset.
(** If there are fewer entries, the lookup fails with an IndexError. *)
Theorem C15_negative_beyond :
  forall (K : Type) (keqb : K -> K -> bool)
    (cs : list (call (K := K))) tr k j,
  do_calls keqb tr_init cs = Ok tr -> (list_sum (map (adds keqb k) cs) < j)%nat ->
  measurement_time_set tr [Prev (AKey (Some k)) (- Z.of_nat j)] = Err IndexError.
Proof.
  intros K keqb cs tr k j Hcs Hj. cbn [Prev]. unfold measurement_time_set. rewrite loop_single.
  destruct (do_calls_hist keqb cs k _ tr Hcs) as (old & H & L). cbn [tr_init hist] in H. rewrite app_nil_r in H.
  unfold lookup, hist_of. rewrite H. unfold assert_. replace (1 + - Z.of_nat j <=? Z.of_nat (length old)) with true by (symmetry; apply Z.leb_le; lia). cbn [bind].
  unfold py_neg_index. replace (1 <=? 1 + - Z.of_nat j) with false by (symmetry; apply Z.leb_gt; lia).
  replace (nth_error (rev old) _) with (@None entry); [reflexivity|]. symmetry. apply nth_error_None. rewrite rev_length. lia.
Qed.
Print Assumptions C15_negative_beyond.
(** So a wrong offset can go unnoticed: here Prev(1, -1) answers with the oldest entry. *)
Example C15_negative_example :
  match do_calls Nat.eqb tr_init demo with
  | Ok tr => measurement_time_set tr [Prev (AKey (Some 1%nat)) (-1)] = Ok (Some [0%nat])
             /\ measurement_time_set tr [Prev (AKey (Some 1%nat)) (-2)] = Ok (Some [2%nat])
             /\ measurement_time_set tr [Prev (AKey (Some 1%nat)) (-3)] = Err IndexError
  | Err _ => False
  end.
Proof. vm_compute. repeat split; reflexivity. Qed.
