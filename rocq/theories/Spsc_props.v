(** Property C03: the ring shared by one producer thread and one consumer thread. *)
From Coq Require Import ZArith List Bool.
From Verif Require Import Base_model Ring_model Ring_spec Spsc_model Spsc_spec Spsc_proofs.
Import ListNotations.
Open Scope Z_scope.

(** C03. For every interleaving, and every choice of (possibly stale) values the acquire loads may
    return, no thread touches a dead slot or overwrites a live one, and the answers are those of an
    ideal bounded queue whose "full"/"empty" answers may be stale. *)
Theorem C03_every_schedule_is_a_queue :
  forall (A : Type) (n : Z) (r : ring A) (es : list (sched A)),
    supported_size n -> ring_new n = Ok r ->
    s_bad (execute (spsc_init r) es) = false /\
    exists l, answered_all (n - 1) [] (s_log (execute (spsc_init r) es)) l.
Proof. exact (@spsc_safe_lemma). Qed.
Print Assumptions C03_every_schedule_is_a_queue.

(** C03. The values received are a prefix of the values accepted, in order, none lost or repeated;
    at most capacity-many are still inside. *)
Theorem C03_received_is_prefix_of_accepted :
  forall (A : Type) (n : Z) (r : ring A) (es : list (sched A)),
    supported_size n -> ring_new n = Ok r ->
    let lg := s_log (execute (spsc_init r) es) in
    no_pop lg ->
    exists rest, accepted lg = received lg ++ rest /\ Z.of_nat (length rest) < n.
Proof. exact (@spsc_prefix_lemma). Qed.
Print Assumptions C03_received_is_prefix_of_accepted.

(** C03. When loads return the latest value, every interleaving is linearisable: replaying the
    calls one at a time, in the order they returned, on the ideal queue gives the same answers. *)
Theorem C03_linearisable :
  forall (A : Type) (n : Z) (r : ring A) (es : list (sched A)),
    supported_size n -> ring_new n = Ok r -> all_latest (spsc_init r) es ->
    let s := execute (spsc_init r) es in
    s_assert s = false ->
    fst (q_run (q_new n) (map fst (s_log s))) = map (fun e => Ok (snd e)) (s_log s).
Proof. exact (@spsc_exact_lemma). Qed.
Print Assumptions C03_linearisable.

(** C03. The assertion of popFront can fail only when the queue is empty at that moment. *)
Theorem C03_assert_only_on_empty :
  forall (A : Type) (n : Z) (r : ring A) (es : list (sched A)) (e : sched A),
    supported_size n -> ring_new n = Ok r -> all_latest (spsc_init r) (es ++ [e]) ->
    let s := execute (spsc_init r) es in
    s_assert s = false -> s_assert (sched_step s e) = true ->
    snd (q_run (q_new n) (map fst (s_log s))) = Ok (q_new n).
Proof. exact (@spsc_assert_lemma). Qed.
Print Assumptions C03_assert_only_on_empty.

(** C03. The overflow counter is the number of refused writes (as an int). *)
Theorem C03_overflow_counts_refusals :
  forall (A : Type) (n : Z) (r : ring A) (es : list (sched A)),
    ring_new n = Ok r ->
    let s := execute (spsc_init r) es in r_overflow (s_ring s) = i32 (refused (s_log s)).
Proof. exact (@overflow_lemma). Qed.
Print Assumptions C03_overflow_counts_refusals.
Example C03_overflow_example :
  exists r, ring_new 2 = Ok r /\
    let s := execute (spsc_init r) [CallWrite 7; GoProducer 9; GoProducer 9; GoProducer 9; CallWrite 8; GoProducer 9; CallWrite 9; GoProducer 9] in
    s_log s = [(OWrite 7, RBool true); (OWrite 8, RBool false); (OWrite 9, RBool false)] /\ r_overflow (s_ring s) = 2.
Proof. eexists. split; [reflexivity|vm_compute; split; reflexivity]. Qed.

(** An interleaving in which the producer writes while the consumer reads; the second read is stale. *)
Definition C03_schedule : list (sched Z) :=
  [CallWrite 7; GoProducer 9; GoProducer 9; GoProducer 9;
   CallWrite 8; CallConsumer KRead; GoProducer 9; GoConsumer 1; GoConsumer 1; GoProducer 9; GoConsumer 1;
   GoProducer 9; GoConsumer 1; CallConsumer KRead; GoConsumer 1; CallOccupancy 9].

Example C03_example :
  exists r, ring_new 4 = Ok r /\
    s_log (execute (spsc_init r) C03_schedule) =
      [(OWrite 7, RBool true); (OWrite 8, RBool true); (ORead, RElem (Some 7));
       (ORead, RElem None); (OOccupancy, RNum 1)].
Proof. eexists. split; [reflexivity|vm_compute; reflexivity]. Qed.

Example C03_example_latest :
  exists r, ring_new 4 = Ok r /\
    let es := [CallWrite 7; CallConsumer KPopFront; GoProducer 9; GoProducer 9; GoProducer 9;
               GoConsumer 9; GoConsumer 9; CallWrite 8; GoConsumer 9; GoConsumer 9; CallConsumer KPopFront] in
    all_latest (spsc_init r) es /\ s_assert (execute (spsc_init r) es) = false /\
    s_assert (sched_step (execute (spsc_init r) es) (GoConsumer 9)) = true /\
    s_log (execute (spsc_init r) es) = [(OWrite 7, RBool true); (OPop 1, RUnit)].
Proof.
  eexists. split; [reflexivity|]. cbv zeta. split; [|vm_compute; repeat split; reflexivity].
  vm_compute. repeat (split; [first [exact I|repeat constructor]|]). repeat constructor.
Qed.
