(** Model of src/measure_tracker.py.

    Keys may be any Python objects with equality; the model takes an arbitrary
    type [K] with a boolean equality.  A frozenset of measurement times is a
    duplicate-free list; Python's [defaultdict] side effect of creating empty
    entries on lookup cannot be observed through the class. *)
From Verif Require Import Prelude.
Open Scope Z_scope.

Section Tracker.
  Context {K : Type} (keqb : K -> K -> bool).

  (** lines 9-16.  An argument of the tracker: a key (Python's None is [None]) or
      a [Prev] object holding a key that is not itself a [Prev]. *)
  Inductive karg :=
  | AKey (k : option K)
  | APrev (k : option K) (offset : Z).
  (** Prev.__init__, lines 11-16: nested [Prev]s are merged. *)
  Definition Prev (v : karg) (offset : Z) : karg :=
    match v with
    | AKey k => APrev k offset
    | APrev k off' => APrev k (offset + off')
    end.

  (** An entry: None is an obstacle, Some the set of measurement times. *)
  Definition entry := option (list nat).
  (** lines 24-26.  [hist k] lists the entries of k, latest first. *)
  Record tracker := mkTr { hist : K -> list entry; tm : nat }.
  (** lines 24-26: the new tracker *)
  Definition tr_init : tracker := mkTr (fun _ => []) 0.

  (** self.history[k]: None is a key that is never written, absent keys give [] *)
  Definition hist_of (tr : tracker) (k : option K) : list entry :=
    match k with Some k => hist tr k | None => [] end.
  (** self.history[k].append(v), with the new time *)
  Definition push (tr : tracker) (k : K) (v : entry) (t' : nat) : tracker :=
    mkTr (fun k' => if keqb k' k then v :: hist tr k' else hist tr k') t'.

  (** assert key is not None; assert not isinstance(key, Prev) *)
  Definition plain_key (a : karg) : res K :=
    match a with AKey (Some k) => Ok k | _ => Err AssertionError end.

  (** lines 28-33 *)
  Fixpoint add_measurements (tr : tracker) (keys : list karg) : res tracker :=
    match keys with
    | [] => Ok tr
    | a :: r => let! k := plain_key a in
                add_measurements (push tr k (Some [tm tr]) (S (tm tr))) r
    end.

  (** lines 35-40 *)
  Fixpoint add_dummies (tr : tracker) (obstacle : bool) (keys : list karg) : res tracker :=
    match keys with
    | [] => Ok tr
    | a :: r => let! k := plain_key a in
                add_dummies (push tr k (if obstacle then None else Some []) (tm tr)) obstacle r
    end.

  (** h[-t] for a Python list h given latest first. *)
  Definition py_neg_index {A} (l : list A) (t : Z) : res A :=
    match (if 1 <=? t then nth_error l (Z.to_nat (t - 1)) else nth_error (rev l) (Z.to_nat (- t))) with
    | Some x => Ok x
    | None => Err IndexError
    end.

  (** lines 50-56: the entry an argument refers to. *)
  Definition lookup (tr : tracker) (a : karg) : res entry :=
    let (k, t) := match a with AKey k => (k, 1) | APrev k off => (k, 1 + off) end in
    let h := hist_of tr k in
    let! _ := assert_ (t <=? Z.of_nat (length h)) in
    py_neg_index h t.

  (** lines 47-60 *)
  Fixpoint time_set_loop (tr : tracker) (keys : list karg) (acc : list nat) : res entry :=
    match keys with
    | [] => Ok (Some acc)
    | a :: r => let! v := lookup tr a in
                match v with
                | None => Ok None
                | Some s => time_set_loop tr r (symdiff acc s)
                end
    end.
  (** lines 47-60 *)
  Definition measurement_time_set (tr : tracker) (keys : list karg) : res entry := time_set_loop tr keys [].

  (** lines 42-45 *)
  Definition add_group (tr : tracker) (keys : list karg) (group_key : karg) : res tracker :=
    let! k := plain_key group_key in
    let! v := measurement_time_set tr keys in
    Ok (push tr k v (tm tr)).

  (** lines 66-68: [t0, = self.history[key][-1]; t0 += 1].  [after = None] is the
      default argument None. *)
  Definition after_time (tr : tracker) (after : option K) : res Z :=
    match after with
    | None => Ok (Z.of_nat (tm tr))
    | Some k =>
        match hist tr k with
        | [] => Err IndexError
        | None :: _ => Err TypeError
        | Some [t] :: _ => Ok (Z.of_nat t + 1)
        | Some _ :: _ => Err ValueError
        end
    end.
  (** stim.target_rec: only negative look-backs are accepted (stim's other limit,
      24 bits, is not modelled).  A target rec[k] is the integer k. *)
  Definition target_rec (k : Z) : res Z := if k <? 0 then Ok k else Err IndexError.
  (** lines 62-72 *)
  Definition get_record_targets (tr : tracker) (keys : list karg) (after : option K) : res (option (list Z)) :=
    let! t0 := after_time tr after in
    let! times := measurement_time_set tr keys in
    match times with
    | None => Ok None
    | Some s => let! ts := mapM (fun t => target_rec (Z.of_nat t - t0)) (isort Nat.leb s) in Ok (Some ts)
    end.

  (** ** Histories of calls *)
  Inductive call :=
  | CMeasure (keys : list karg)
  | CDummies (obstacle : bool) (keys : list karg)
  | CGroup (keys : list karg) (group_key : karg).
  (** one call of a method: lines 28-45 *)
  Definition do_call (tr : tracker) (c : call) : res tracker :=
    match c with
    | CMeasure ks => add_measurements tr ks
    | CDummies o ks => add_dummies tr o ks
    | CGroup ks g => add_group tr ks g
    end.
  (** calls in a row; an exception stops them *)
  Fixpoint do_calls (tr : tracker) (cs : list call) : res tracker :=
    match cs with
    | [] => Ok tr
    | c :: r => let! tr' := do_call tr c in do_calls tr' r
    end.
End Tracker.
Arguments AKey {K} k.
Arguments APrev {K} k offset.
Arguments tr_init {K}.
Arguments mkTr {K} hist tm.
Arguments CMeasure {K} keys.
Arguments CDummies {K} obstacle keys.
Arguments CGroup {K} keys group_key.
