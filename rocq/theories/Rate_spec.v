(** Vocabulary for C33. *)
From Coq Require Import ZArith List Bool Sorted.
From Verif Require Import Base_model Rate_model.
Import ListNotations.
Open Scope Z_scope.

(** Times in the order in which they occur: readings of a call, then its return. *)
Definition event_times (e : rl_event) : list Z :=
  match e with Adjust _ => [] | Call rs t => rs ++ [t] end.

(** A clock that never goes back, starting at [t0], and stays below 2^62 ns (146 years) as do the periods. *)
Definition clock_ok (t0 : Z) (l : list rl_event) : Prop :=
  Sorted Z.le (t0 :: concat (map event_times l)) /\ 0 <= t0 /\
  Forall (fun t => t < 2 ^ 62) (t0 :: concat (map event_times l)) /\
  Forall (fun e => match e with Adjust p => 0 <= p < 2 ^ 62 | _ => True end) l.

(** Only calls, no change of the period. *)
Definition calls (l : list rl_event) : Prop := Forall (fun e => match e with Adjust _ => False | _ => True end) l.

(** Return times of the calls. *)
Definition returns (l : list rl_event) : list Z :=
  concat (map (fun e => match e with Adjust _ => [] | Call _ t => [t] end) l).
