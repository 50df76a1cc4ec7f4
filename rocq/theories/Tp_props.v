(** Properties C25-C28: the trigger primitive buffer, for every execution of any length, every thread
    schedule of the counter read-outs, and any outcome of every push. *)
From Coq Require Import ZArith List Bool Lia ZifyBool Sorting.Permutation Sorting.Sorted.
From Verif Require Import Base_model Tp_model Tp_spec Tp_proofs.
Import ListNotations.
Open Scope Z_scope.

(** C25. Accepted = still buffered + pushed to the TP stream, as multisets; what was pushed to the TP stream is
    exactly what the sets list, in order; each set is ordered by start time and ends after its primitives. *)
Theorem C25_nothing_lost :
  forall (T heap : Type) (time_start : T -> Z) h_empty h_push h_top h_pop (elements : heap -> list T),
  pq_ok time_start h_empty h_push h_top h_pop elements ->
  forall (timeout window : Z) (l : list (action T)) (s : tpst T heap) (e : list (event T)),
  tp_run T time_start heap h_empty h_push h_top h_pop timeout window l (tp_new h_empty) = Next s e ->
  Permutation (accepted (since_reset e)) (elements (tp_buffer s) ++ pushed (since_reset e)) /\
  pushed (since_reset e) = concat (map ts_objects (sets (since_reset e))) ++ opened (tp_open s) /\
  Forall (fun x => StronglySorted Z.le (map time_start (ts_objects x)) /\ Forall (fun t => time_start t < ts_end x) (ts_objects x))
    (sets (since_reset e)).
Proof. exact @c25. Qed.
Print Assumptions C25_nothing_lost.

(** C25. The only undefined behaviour is a division by a window size of 0. *)
Theorem C25_fault_only_for_zero_window :
  forall (T heap : Type) (time_start : T -> Z) h_empty h_push h_top h_pop (timeout window : Z) (l : list (action T)),
  tp_run T time_start heap h_empty h_push h_top h_pop timeout window l (tp_new h_empty) = Fault -> window = 0.
Proof. exact @c25_fault. Qed.
Print Assumptions C25_fault_only_for_zero_window.

(** C26. With an orderly clock: windows aligned, disjoint, increasing; each set is not empty and lists exactly
    the accepted primitives of its window. *)
Theorem C26_windows :
  forall (T heap : Type) (time_start : T -> Z) h_empty h_push h_top h_pop (elements : heap -> list T),
  pq_ok time_start h_empty h_push h_top h_pop elements ->
  forall timeout window : Z, 0 < window -> 0 < timeout ->
  forall (l : list (action T)) (s : tpst T heap) (e : list (event T)),
  tp_run T time_start heap h_empty h_push h_top h_pop timeout window l (tp_new h_empty) = Next s e ->
  orderly time_start timeout window (calls_since_reset l) ->
  ForallOrdPairs (fun x y => ts_end x <= ts_start y) (sets (since_reset e)) /\
  forall x, In x (sets (since_reset e)) ->
    ts_start x mod window = 0 /\ ts_end x = ts_start x + window /\ ts_objects x <> [] /\
    Permutation (ts_objects x) (filter (in_window time_start x) (accepted (since_reset e))).
Proof. exact @c26_windows. Qed.
Print Assumptions C26_windows.

(** C26. Nothing accepted after a set was sent starts before the end of that set. *)
Theorem C26_no_late_primitives :
  forall (T heap : Type) (time_start : T -> Z) h_empty h_push h_top h_pop (elements : heap -> list T),
  pq_ok time_start h_empty h_push h_top h_pop elements ->
  forall timeout window : Z, 0 < window -> 0 < timeout ->
  forall (l : list (action T)) (s : tpst T heap) (e : list (event T)) a x ok b,
  tp_run T time_start heap h_empty h_push h_top h_pop timeout window l (tp_new h_empty) = Next s e ->
  orderly time_start timeout window (calls_since_reset l) ->
  since_reset e = a ++ ESet x ok :: b -> Forall (fun t => ts_end x <= time_start t) (accepted b).
Proof. exact @c26_late. Qed.
Print Assumptions C26_no_late_primitives.

(** C26. A call of try_sending_tpsets sends a set exactly when a buffered primitive is due. *)
Theorem C26_sends_exactly_when_due :
  forall (T heap : Type) (time_start : T -> Z) h_empty h_push h_top h_pop (elements : heap -> list T),
  pq_ok time_start h_empty h_push h_top h_pop elements ->
  forall timeout window : Z, 0 < window -> 0 < timeout ->
  forall (l : list (action T)) (s : tpst T heap) (e : list (event T)) (now : Z),
  tp_run T time_start heap h_empty h_push h_top h_pop timeout window l (tp_new h_empty) = Next s e ->
  orderly time_start timeout window (calls_since_reset l) ->
  tp_open s = None ->
  exists s', tp_step T time_start heap h_empty h_push h_top h_pop timeout window (ATry now) s = Next s' [] /\
    (tp_open s' <> None <-> exists t, In t (elements (tp_buffer s)) /\ time_start t + window + timeout < now).
Proof. exact @c26_due. Qed.
Print Assumptions C26_sends_exactly_when_due.

(** C26. The sending loop ends, whichever pushes fail, and the set is then pushed. *)
Theorem C26_set_is_completed :
  forall (T heap : Type) (time_start : T -> Z) h_empty h_push h_top h_pop (elements : heap -> list T),
  pq_ok time_start h_empty h_push h_top h_pop elements ->
  forall (timeout window : Z) (s : tpst T heap) (oks : nat -> bool) (ok : bool), tp_open s <> None ->
  exists n s' e', tp_run T time_start heap h_empty h_push h_top h_pop timeout window
                    (map (fun i => ASend (oks i)) (seq 0 n) ++ [AFinish ok]) s = Next s' e' /\ tp_open s' = None.
Proof. exact @c26_completes. Qed.
Print Assumptions C26_set_is_completed.

(** C27. The acceptance rule for all 64-bit values. *)
Theorem C27_acceptance :
  forall (T heap : Type) (time_start : T -> Z) h_empty h_push h_top h_pop (elements : heap -> list T),
  pq_ok time_start h_empty h_push h_top h_pop elements ->
  forall (timeout window : Z) (s : tpst T heap) (t : T) (now : Z), tp_open s = None ->
  exists s' b, tp_step T time_start heap h_empty h_push h_top h_pop timeout window (AAdd t now) s = Next s' [EAdd t b] /\
    (b = true <-> (time_start t + timeout) mod two64 > now) /\
    (b = true -> Permutation (elements (tp_buffer s')) (t :: elements (tp_buffer s))) /\ (b = false -> s' = s).
Proof. exact @c27. Qed.
Print Assumptions C27_acceptance.

(** C27. Without overflow: younger than the timeout. When start + timeout exceeds 2^64, every primitive that has
    started is rejected, however fresh. *)
Theorem C27_wrap_around :
  forall (T heap : Type) (time_start : T -> Z) h_empty h_push h_top h_pop (elements : heap -> list T),
  pq_ok time_start h_empty h_push h_top h_pop elements ->
  forall (timeout window : Z) (s : tpst T heap) (t : T) (now : Z), tp_open s = None ->
  0 <= time_start t < two64 -> 0 <= timeout < two64 ->
  (time_start t + timeout < two64 ->
     exists s', tp_step T time_start heap h_empty h_push h_top h_pop timeout window (AAdd t now) s
                = Next s' [EAdd t (now - time_start t <? timeout)]) /\
  (two64 <= time_start t + timeout -> time_start t <= now ->
     tp_step T time_start heap h_empty h_push h_top h_pop timeout window (AAdd t now) s = Next s [EAdd t false]).
Proof. exact @c27_rule. Qed.
Print Assumptions C27_wrap_around.

(** C28. Each value read out is the number of successful pushes since the previous read-out or reset, modulo 2^64. *)
Theorem C28_counters :
  forall (T heap : Type) (time_start : T -> Z) h_empty h_push h_top h_pop (elements : heap -> list T),
  pq_ok time_start h_empty h_push h_top h_pop elements ->
  forall (timeout window : Z) (l : list (action T)) (s : tpst T heap) (e : list (event T)),
  tp_run T time_start heap h_empty h_push h_top h_pop timeout window l (tp_new h_empty) = Next s e ->
  (forall a n b, e = a ++ ETps n :: b -> n = u64 (tps_unread a)) /\
  (forall a n b, e = a ++ ESets n :: b -> n = u64 (sets_unread a)).
Proof. exact @c28. Qed.
Print Assumptions C28_counters.

(** C28. Sequence numbers since the last reset are 0, 1, 2, ... whether or not the pushes succeeded. *)
Theorem C28_sequence_numbers :
  forall (T heap : Type) (time_start : T -> Z) h_empty h_push h_top h_pop (elements : heap -> list T),
  pq_ok time_start h_empty h_push h_top h_pop elements ->
  forall (timeout window : Z) (l : list (action T)) (s : tpst T heap) (e : list (event T)),
  tp_run T time_start heap h_empty h_push h_top h_pop timeout window l (tp_new h_empty) = Next s e ->
  numbered (sets (since_reset e)).
Proof. exact @c28_seqno. Qed.
Print Assumptions C28_sequence_numbers.

(** C28. Reset discards the buffered primitives. *)
Theorem C28_reset_discards :
  forall (T heap : Type) (time_start : T -> Z) h_empty h_push h_top h_pop (elements : heap -> list T),
  pq_ok time_start h_empty h_push h_top h_pop elements ->
  forall (timeout window : Z) (l : list (action T)) (s : tpst T heap) (e : list (event T)),
  tp_run T time_start heap h_empty h_push h_top h_pop timeout window l (tp_new h_empty) = Next s e -> tp_open s = None ->
  exists s', tp_step T time_start heap h_empty h_push h_top h_pop timeout window AReset s = Next s' [EReset] /\
             elements (tp_buffer s') = [].
Proof. exact @c28_reset. Qed.
Print Assumptions C28_reset_discards.

(** A queue that satisfies the contract: a list ordered by start time. *)
Fixpoint ins (t : Z * Z) (l : list (Z * Z)) : list (Z * Z) :=
  match l with [] => [t] | u :: l' => if fst t <? fst u then t :: l else u :: ins t l' end.
Definition ex_heap : Type := { l : list (Z * Z) | StronglySorted (fun a b => fst a <= fst b) l }.

Lemma ins_perm t l : Permutation (ins t l) (t :: l).
Proof. induction l as [|u l IH]; cbn; auto. destruct (_ <? _); auto. rewrite IH. constructor. Qed.
Lemma ins_sorted t l : StronglySorted (fun a b => fst a <= fst b) l -> StronglySorted (fun a b => fst a <= fst b) (ins t l).
Proof.
  induction 1 as [|u l H1 IH H2]; cbn.
  - repeat constructor.
  - destruct (fst t <? fst u) eqn:E.
    + constructor; [now constructor|]. constructor; [lia|]. eapply Forall_impl; [|exact H2]. cbn. lia.
    + constructor; auto. rewrite ins_perm. constructor; auto. lia.
Qed.
Definition ex_push (t : Z * Z) (h : ex_heap) : ex_heap := exist _ (ins t (proj1_sig h)) (ins_sorted t _ (proj2_sig h)).
Definition ex_top (h : ex_heap) : option (Z * Z) := hd_error (proj1_sig h).
Lemma tl_sorted {A} (R : A -> A -> Prop) l : StronglySorted R l -> StronglySorted R (tl l).
Proof. destruct 1; [constructor|assumption]. Qed.
Definition ex_pop (h : ex_heap) : ex_heap := exist _ (tl (proj1_sig h)) (tl_sorted _ _ (proj2_sig h)).
Definition ex_empty : ex_heap := exist _ [] (SSorted_nil _).

Example ex_pq_ok : pq_ok fst ex_empty ex_push ex_top ex_pop (@proj1_sig _ _).
Proof.
  constructor; unfold ex_top, ex_pop, ex_push; cbn.
  - reflexivity.
  - intros t [l H]. cbn. apply ins_perm.
  - intros [[|t l] H]; cbn; split; congruence.
  - intros [[|t l] H] u; cbn; intros E; [discriminate|]. injection E as <-. apply StronglySorted_inv in H as [_ H].
    constructor; [lia|auto].
  - intros [[|t l] H] u; cbn; intros E; [discriminate|]. injection E as <-. auto.
Qed.

Notation ex_run := (tp_run (Z * Z) fst ex_heap ex_empty ex_push ex_top ex_pop 100 50).

(** Timeout 100, window 50: one late primitive, a failed push, two sets, read-outs inside the loop, a reset. *)
Definition ex_calls : list (action (Z * Z)) :=
  [AAdd (7, 0) 5; AReset;
   AAdd (120, 1) 130; AAdd (101, 2) 131; AAdd (10, 3) 140; AAdd (149, 4) 150; AAdd (150, 5) 160;
   ATry 252; ASend true; AReadTps; ASend false; ASend true; AReadTps; AFinish true;
   AAdd (153, 6) 252; ATry 301; ASend true; ASend true; AFinish false; AReadSets; AReadTps].

Example C26_orderly_example : orderly fst 100 50 (calls_since_reset ex_calls).
Proof.
  split; cbn; repeat (constructor; try lia).
  all: unfold two64; cbn; lia.
Qed.

Example C25_example :
  match ex_run ex_calls (tp_new ex_empty) with
  | Next s e => accepted (since_reset e) = [(120, 1); (101, 2); (149, 4); (150, 5); (153, 6)] /\
      sets (since_reset e) = [mk_tpset 100 150 0 [(101, 2); (120, 1); (149, 4)]; mk_tpset 150 200 1 [(150, 5); (153, 6)]] /\
      proj1_sig (tp_buffer s) = [] /\
      flat_map (fun x => match x with ETps n => [n] | ESets n => [- n] | _ => [] end) e = [1; 1; -1; 2]
  | _ => False
  end.
Proof. vm_compute. repeat split. Qed.

(** C27: a primitive that starts at 2^64 - 10 and is offered at once is rejected. *)
Example C27_example :
  ex_run [AAdd (two64 - 10, 1) (two64 - 10)] (tp_new ex_empty) = Next (tp_new ex_empty) [EAdd (two64 - 10, 1) false] /\
  ex_run [ATry 0] (tp_new ex_empty) = Next (tp_new ex_empty) [].
Proof. vm_compute. auto. Qed.

Example C25_zero_window_example :
  tp_run (Z * Z) fst ex_heap ex_empty ex_push ex_top ex_pop 100 0 [AAdd (7, 0) 5; ATry 500] (tp_new ex_empty) = Fault.
Proof. vm_compute. reflexivity. Qed.

Example C26_open_example :
  match ex_run [AAdd (120, 1) 130; AAdd (101, 2) 131; ATry 252] (tp_new ex_empty) with Next s _ => tp_open s <> None | _ => False end.
Proof. vm_compute. discriminate. Qed.
