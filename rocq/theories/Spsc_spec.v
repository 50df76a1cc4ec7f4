(** Specification of the concurrent ring: the answers the two clients get, in return order, are
    those of an ideal bounded queue, except that "full" and "empty" may refer to the past. *)
From Coq Require Import ZArith List Bool.
From Verif Require Import Base_model Ring_model Ring_spec Spsc_model.
Import ListNotations.
Open Scope Z_scope.

Section Spec.
Context {A : Type}.

(** One answered call on the ideal queue holding [l] (at most [cap] elements); the new contents. *)
Inductive answered (cap : Z) : list A -> op A * out A -> list A -> Prop :=
| A_write : forall l x, Z.of_nat (length l) < cap ->
    answered cap l (OWrite x, RBool true) (l ++ [x])
| A_refused : forall l x, answered cap l (OWrite x, RBool false) l
| A_read : forall l x, answered cap (x :: l) (ORead, RElem (Some x)) l
| A_read_empty : forall l, answered cap l (ORead, RElem None) l
| A_pop : forall l x, answered cap (x :: l) (OPop 1, RUnit) l
| A_front : forall l x, answered cap (x :: l) (OFront, RElem (Some x)) (x :: l)
| A_front_empty : forall l, answered cap l (OFront, RElem None) l
| A_occupancy : forall l k, 0 <= k <= Z.of_nat (length l) -> answered cap l (OOccupancy, RNum k) l.

Inductive answered_all (cap : Z) : list A -> list (op A * out A) -> list A -> Prop :=
| AA_nil : forall l, answered_all cap l [] l
| AA_snoc : forall l lg e l1 l2, answered_all cap l lg l1 -> answered cap l1 e l2 ->
    answered_all cap l (lg ++ [e]) l2.

(** How many writes were refused. *)
Definition refused (lg : list (op A * out A)) : Z :=
  Z.of_nat (length (filter (fun e => match e with (OWrite _, RBool false) => true | _ => false end) lg)).
(** Values accepted by write() and values handed out by read(), in order. *)
Definition accepted (lg : list (op A * out A)) : list A :=
  flat_map (fun e => match e with (OWrite x, RBool true) => [x] | _ => [] end) lg.
Definition received (lg : list (op A * out A)) : list A :=
  flat_map (fun e => match e with (ORead, RElem (Some x)) => [x] | _ => [] end) lg.
Definition no_pop (lg : list (op A * out A)) : Prop :=
  forall e, In e lg -> match fst e with OPop _ => False | _ => True end.

End Spec.
