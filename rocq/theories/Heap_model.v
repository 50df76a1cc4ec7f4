(** Model of the std::priority_queue that keeps the trigger primitives, /repo/include/readout/utils/TPHandler.hpp, lines 105-115:
    a std::vector with TPComparator, as libstdc++ implements it (GCC 13, bits/stl_queue.h, lines 723-778, and bits/stl_heap.h,
    lines 135-147 and 224-267). Moves are copies. *)
From Coq Require Import ZArith List Bool Arith.
Import ListNotations.
Open Scope nat_scope.

Section Heap.
Context {T : Type}.
Variable time_start : T -> Z.

(** TPComparator, TPHandler.hpp, lines 107-111. *)
Definition later (left right : T) : bool := (time_start right <? time_start left)%Z.

(** *(first + i) = x *)
Definition put (v : list T) (i : nat) (x : T) : list T := firstn i v ++ x :: skipn (S i) v.

(** __push_heap with topIndex 0, stl_heap.h, lines 139-146. Each turn halves the hole; [fuel] bounds the turns. *)
Fixpoint sift_up (fuel : nat) (v : list T) (hole : nat) (x : T) : list T :=
  match fuel with
  | O => v
  | S fuel' =>
    let parent := (hole - 1) / 2 in
    if (0 <? hole) && later (nth parent v x) x
    then sift_up fuel' (put v hole (nth parent v x)) parent x
    else put v hole x
  end.

(** __adjust_heap, lines 228-237: the hole goes down to a place with fewer than two children, always to the earlier of the two. *)
Fixpoint sift_down (fuel : nat) (v : list T) (hole : nat) (x : T) : list T * nat :=
  match fuel with
  | O => (v, hole)
  | S fuel' =>
    if hole <? (length v - 1) / 2
    then let right := 2 * (hole + 1) in
         let child := if later (nth right v x) (nth (right - 1) v x) then right - 1 else right in
         sift_down fuel' (put v hole (nth child v x)) child x
    else (v, hole)
  end.

(** __adjust_heap from the front, lines 228-248. *)
Definition adjust (v : list T) (x : T) : list T :=
  let (v1, hole) := sift_down (length v) v 0 x in
  if Nat.even (length v) && (hole =? (length v - 2) / 2)
  then let left := 2 * (hole + 1) - 1 in sift_up (S (length v)) (put v1 hole (nth left v1 x)) left x
  else sift_up (S (length v)) v1 hole x.

(** push, stl_queue.h, lines 740-741. *)
Definition pq_insert (x : T) (v : list T) : list T := sift_up (S (length v)) (v ++ [x]) (length v) x.

(** top, line 726; on an empty queue undefined, here none. *)
Definition pq_first (v : list T) : option T := hd_error v.

(** pop, lines 776-777, with pop_heap, stl_heap.h, lines 328-334 and 262-266: the last element is taken out and put in at the
    front. (The place of the last element, which gets the first one in line 263, is the one pop_back drops.) *)
Definition pq_remove (v : list T) : list T :=
  match v with
  | [] => []
  | [_] => []
  | x :: _ => adjust (removelast v) (last v x)
  end.

(** What the queue goes through from empty. *)
Inductive pq_op : Type := PPush (x : T) | PPop.
Definition pq_step (v : list T) (o : pq_op) : list T := match o with PPush x => pq_insert x v | PPop => pq_remove v end.
Definition pq_run (ops : list pq_op) : list T := fold_left pq_step ops [].

End Heap.
Arguments pq_op : clear implicits.
