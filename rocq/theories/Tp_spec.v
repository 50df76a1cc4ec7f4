(** Vocabulary for properties C25-C28, stated over what the environment sees of the buffer. *)
From Coq Require Import ZArith List Bool Sorting.Permutation Sorting.Sorted.
From Verif Require Import Base_model Tp_model.
Import ListNotations.
Open Scope Z_scope.

(** The contract assumed of std::priority_queue with TPComparator: [elements] is its content as a multiset;
    top() is one of the elements with the least start time, any of them. *)
Record pq_ok {T heap : Type} (time_start : T -> Z) (h_empty : heap) (h_push : T -> heap -> heap)
  (h_top : heap -> option T) (h_pop : heap -> heap) (elements : heap -> list T) : Prop := mk_pq_ok {
  pq_empty : elements h_empty = [];
  pq_push : forall t h, Permutation (elements (h_push t h)) (t :: elements h);
  pq_top_none : forall h, h_top h = None <-> elements h = [];
  pq_top_min : forall h t, h_top h = Some t -> Forall (fun u => time_start t <= time_start u) (elements h);
  pq_pop : forall h t, h_top h = Some t -> Permutation (t :: elements (h_pop h)) (elements h)
}.

(** What has happened since the last reset, from the events and from the calls. *)
Definition since_reset {T} (e : list (event T)) : list (event T) :=
  fold_left (fun acc x => match x with EReset => [] | _ => acc ++ [x] end) e [].
Definition calls_since_reset {T} (l : list (action T)) : list (action T) :=
  fold_left (fun acc a => match a with AReset => [] | _ => acc ++ [a] end) l [].

(** Primitives accepted, primitives pushed to the TP stream, sets pushed. *)
Definition accepted {T} (e : list (event T)) : list T :=
  flat_map (fun x => match x with EAdd t true => [t] | _ => [] end) e.
Definition pushed {T} (e : list (event T)) : list T :=
  flat_map (fun x => match x with ETp t _ => [t] | _ => [] end) e.
Definition sets {T} (e : list (event T)) : list (tpset T) :=
  flat_map (fun x => match x with ESet s _ => [s] | _ => [] end) e.
(** Primitives of the set under construction. *)
Definition opened {T} (o : option (tpset T)) : list T := match o with Some x => ts_objects x | None => [] end.

(** The clock values of the calls, and the primitives offered. *)
Definition clocks {T} (l : list (action T)) : list Z :=
  flat_map (fun a => match a with AAdd _ now => [now] | ATry now => [now] | _ => [] end) l.
Definition offered {T} (l : list (action T)) : list T :=
  flat_map (fun a => match a with AAdd t _ => [t] | _ => [] end) l.

(** Calls with a clock that does not go back and start times far enough from 2^64. *)
Definition orderly {T} (time_start : T -> Z) (timeout window : Z) (l : list (action T)) : Prop :=
  StronglySorted Z.le (clocks l) /\
  Forall (fun t => 0 <= time_start t /\ time_start t + window + timeout < two64) (offered l).

Definition in_window {T} (time_start : T -> Z) (x : tpset T) (t : T) : bool :=
  (ts_start x <=? time_start t) && (time_start t <? ts_end x).

(** Numbers successfully pushed since the last read-out or reset. *)
Definition tps_unread {T} (e : list (event T)) : Z :=
  fold_left (fun n x => match x with ETp _ true => n + 1 | ETps _ | EReset => 0 | _ => n end) e 0.
Definition sets_unread {T} (e : list (event T)) : Z :=
  fold_left (fun n x => match x with ESet _ true => n + 1 | ESets _ | EReset => 0 | _ => n end) e 0.

(** Sequence numbers 0, 1, 2, ... of a 64-bit counter. *)
Definition numbered {T} (l : list (tpset T)) : Prop :=
  forall i x, nth_error l i = Some x -> ts_seqno x = u64 (Z.of_nat i).
