(** Properties C01 and C02: the latency ring as a bounded FIFO, and its iterator. *)
From Coq Require Import ZArith List Bool.
From Verif Require Import Base_model Ring_model Ring_spec Ring_proofs.
Import ListNotations.
Open Scope Z_scope.

(** C01. Every sequence of calls on a ring of size [n] gets exactly the answers of the ideal queue. *)
Theorem C01_ring_is_bounded_fifo :
  forall (A : Type) (n : Z) (ops : list (op A)),
    supported_size n -> Forall supported_op ops ->
    exists r, ring_new n = Ok r /\ fst (run r ops) = fst (q_run (q_new n) ops).
Proof. exact (@fifo_lemma). Qed.
Print Assumptions C01_ring_is_bounded_fifo.

Example C01_example :
  let ops := [OWrite 10; OWrite 11; OWrite 12; ORead; OWrite 13; OBack; OPop 1; OFront; OOccupancy; OIsFull;
              OFlush; OIsEmpty; OPop 1] in
  exists r, ring_new 3 = Ok r /\ Forall supported_op ops /\
    fst (run r ops) =
      [Ok (RBool true); Ok (RBool true); Ok (RBool false); Ok (RElem (Some 10)); Ok (RBool true);
       Ok (RElem (Some 13)); Ok RUnit; Ok (RElem (Some 13)); Ok (RNum 1); Ok (RBool false);
       Ok RUnit; Ok (RBool true); Crash].
Proof. cbv zeta. eexists. split; [reflexivity|]. split; [repeat constructor|vm_compute; reflexivity]. Qed.

(** C01. The overflow counter counts exactly the refused writes (as a 32-bit int). *)
Theorem C01_overflow_counts_refused_writes :
  forall (A : Type) (n : Z) (ops : list (op A)) (r0 r : ring A),
    supported_size n -> Forall supported_op ops ->
    ring_new n = Ok r0 -> snd (run r0 ops) = Ok r ->
    r_overflow r = i32 (count_refused ops (fst (q_run (q_new n) ops))).
Proof. exact (@overflow_lemma). Qed.
Print Assumptions C01_overflow_counts_refused_writes.

Example C01_overflow_example :
  let ops := [OWrite 1; OWrite 2; OWrite 3; ORead; OWrite 4; OWrite 5] in
  exists r, ring_new 3 = Ok r /\
    match snd (run r ops) with Ok r' => r_overflow r' = 2 | Crash => False end.
Proof. cbv zeta. eexists. split; [reflexivity|vm_compute; reflexivity]. Qed.

(** C02. Walking from begin() to end() yields exactly the stored elements, oldest first. *)
Theorem C02_iteration_yields_contents :
  forall (A : Type) (n : Z) (ops : list (op A)) (r : ring A) (q : queue A),
    supported_size n -> Forall supported_op ops -> reached n ops r q ->
    walk (length (q_items q)) r (it_begin r) = Some (q_items q).
Proof. exact (@iteration_lemma). Qed.
Print Assumptions C02_iteration_yields_contents.

(** C02. The k-th position is good and holds the k-th element, or is end() when there is none. *)
Theorem C02_positions :
  forall (A : Type) (n : Z) (ops : list (op A)) (r : ring A) (q : queue A) (k : nat),
    supported_size n -> Forall supported_op ops -> reached n ops r q ->
    match nth_error (q_items q) k with
    | Some x => it_good r (advance k r (it_begin r)) = true /\ deref r (advance k r (it_begin r)) = Ok x
    | None => advance k r (it_begin r) = it_end /\ it_good r (advance k r (it_begin r)) = false
    end.
Proof. exact (@positions_lemma). Qed.
Print Assumptions C02_positions.

(** C02. Any in-range position is good iff it is one of the positions of stored elements. *)
Theorem C02_good_iff_stored :
  forall (A : Type) (n : Z) (ops : list (op A)) (r : ring A) (q : queue A) (i : Z),
    supported_size n -> Forall supported_op ops -> reached n ops r q -> 0 <= i < q_size q ->
    (it_good r i = true <-> exists k, (k < length (q_items q))%nat /\ i = advance k r (it_begin r)).
Proof. exact (@good_lemma). Qed.
Print Assumptions C02_good_iff_stored.

(** C02, limit of the claim: a position beyond the memory is reported good whenever the ring is
    wrapped. No position obtained from begin/++/lower_bound is of this kind. *)
Theorem C02_good_beyond_memory :
  forall (A : Type) (n : Z) (ops : list (op A)) (r : ring A) (q : queue A) (i : Z),
    supported_size n -> Forall supported_op ops -> reached n ops r q -> q_size q <= i < max_u32 ->
    it_good r i = (r_write r <? r_read r).
Proof. exact (@good_beyond_lemma). Qed.
Print Assumptions C02_good_beyond_memory.

(** A wrapped ring: size 4, contents 3,4,5 around the wrap point. *)
Example C02_example :
  let ops := [OWrite 1; OWrite 2; OWrite 3; ORead; ORead; OWrite 4; OWrite 5] in
  exists r q, reached 4 ops r q /\ q_items q = [3; 4; 5] /\ r_write r < r_read r /\
    walk 3 r (it_begin r) = Some [3; 4; 5] /\ it_good r 1 = false /\ it_good r 2 = true /\ it_good r 7 = true.
Proof.
  cbv zeta. eexists. eexists. split.
  - eexists. split; [reflexivity|]. split; vm_compute; reflexivity.
  - vm_compute. repeat split; reflexivity.
Qed.
