(** Property C07 and the buffer part of C08: the skip-list latency buffer. *)
From Coq Require Import ZArith List Bool Permutation.
From Verif Require Import Base_model Ring_model Ring_spec Ring_proofs SkipList_model SkipList_spec SkipList_proofs.
Import ListNotations.
Open Scope Z_scope.

(** C07. Every sequence of calls gets the answers of a finite set ordered by timestamp. *)
Theorem C07_skip_list_is_ordered_set :
  forall (A : Type) (ts : A -> Z) (ops : list (sl_op A)),
    Forall (valid_op ts) ops -> never_huge ts [] ops ->
    exists s, set_run ts [] ops (fst (sl_run ts [] ops)) s.
Proof. exact (@set_lemma). Qed.
Print Assumptions C07_skip_list_is_ordered_set.

(** Elements are (timestamp, payload) pairs; arrival out of order, one duplicate timestamp. *)
Example C07_example :
  let ops := [SWrite (50, 1); SWrite (20, 2); SWrite (90, 3); SWrite (20, 4); SFront; SBack; SOccupancy;
              SLowerBound 21; SLowerBound 91; SRead; SPop 1; SBack; SFlush; SRead] in
  fst (sl_run fst [] ops) =
    [SoBool true; SoBool true; SoBool true; SoBool false; SoElem (Some (20, 2)); SoElem (Some (90, 3)); SoNum 3;
     SoElem (Some (50, 1)); SoElem None; SoElem (Some (20, 2)); SoUnit; SoElem (Some (50, 1)); SoUnit; SoElem None].
Proof. vm_compute. reflexivity. Qed.

(** C08. On the ring pop(k) discards the k oldest elements... *)
Theorem C08_ring_pop_discards_oldest :
  forall (A : Type) (n : Z) (ops : list (op A)) (r : ring A) (q : queue A) (k : nat),
    supported_size n -> Forall supported_op ops -> reached n ops r q -> (k <= length (q_items q))%nat ->
    exists r' q', reached n (ops ++ [OPop k]) r' q' /\ q_items q' = skipn k (q_items q).
Proof. exact (@pop_reached). Qed.
Print Assumptions C08_ring_pop_discards_oldest.

(** C08. ... whereas on the skip list it discards the k newest, keeping the oldest. *)
Theorem C08_skip_list_pop_keeps_oldest :
  forall (A : Type) (k : nat) (l : list A), sl_pop k l = firstn (length l - k) l.
Proof. exact (@pop_keeps_oldest). Qed.
Print Assumptions C08_skip_list_pop_keeps_oldest.

Example C08_example :
  sl_pop 2 [10; 20; 30; 40; 50] = [10; 20; 30] /\
  exists r q, reached 8 [OWrite 10; OWrite 20; OWrite 30; OWrite 40; OWrite 50; OPop 2] r q /\
    q_items q = [30; 40; 50].
Proof.
  split; [reflexivity|]. eexists. eexists. split.
  - eexists. split; [reflexivity|]. split; vm_compute; reflexivity.
  - reflexivity.
Qed.
