(** Specification of the look of the waiting-request thread at the newest element. *)
From Coq Require Import ZArith List Bool.
From Verif Require Import Base_model Look_model.
Import ListNotations.
Open Scope Z_scope.

(** Elements received so far, including one being stored. *)
Definition begun {E} (s : lkst E) : Z :=
  Z.of_nat (length (k_all s)) + (match k_new s with Some _ => 1 | None => 0 end).

(** Received in time order. *)
Definition in_time {E} (ts : E -> Z) (l : list E) : Prop :=
  forall i j x y, (i <= j)%nat -> nth_error l i = Some x -> nth_error l j = Some y -> ts x <= ts y.

(** The elements offered to the buffer in a schedule. *)
Definition offered {E} (acts : list (lkact E)) : list E :=
  flat_map (fun a => match a with KWrite x => [x] | _ => [] end) acts.

(** Removals in a schedule. *)
Definition removals {E} (acts : list (lkact E)) : nat :=
  length (filter (fun a => match a with KPop => true | _ => false end) acts).

Inductive subsequence {E} : list E -> list E -> Prop :=
| sq_nil : subsequence [] []
| sq_skip : forall x l l', subsequence l l' -> subsequence l (x :: l')
| sq_take : forall x l l', subsequence l l' -> subsequence (x :: l) (x :: l').
