(** Specification of the error registry over the history of calls, latest first. *)
From Coq Require Import ZArith List Bool String.
From Verif Require Import Registry_model.
Import ListNotations.
Open Scope Z_scope.

(** [in_force h name iv]: in the history [h] (latest call first) the interval [iv] was added under
    [name], no later call added the same name, and no later call trimmed beyond its end. *)
Fixpoint in_force (h : list reg_op) (name : string) (iv : interval) : Prop :=
  match h with
  | [] => False
  | RAdd n i :: h' => (n = name /\ i = iv) \/ (n <> name /\ in_force h' name iv)
  | RTrim ts :: h' => ts <= iv_end iv /\ in_force h' name iv
  end.
