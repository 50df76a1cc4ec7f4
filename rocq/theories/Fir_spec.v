(** What is expected of a low pass filter with integer coefficients. *)
From Coq Require Import ZArith List Reals.
From Verif Require Import Fir_model.
Import ListNotations.
Open Scope R_scope.

(** Sum of the coefficients: the response to a constant signal of height one. *)
Definition gain (l : list R) : R := fold_right Rplus 0 l.
Definition gain_int (l : list Z) : Z := fold_right Z.add 0%Z l.

(** Linear phase: the same coefficients from both ends. *)
Definition symmetric {X} (l : list X) : Prop := l = rev l.

(** Arithmetic whose operations are wrong by at most the relative error eps, and whose functions and pi are wrong by at most eps
    (2^-52 for doubles and a good mathematical library). *)
Definition accurate (eps : R) (A : arith) : Prop :=
  (forall x, Rabs (fl A x - x) <= eps * Rabs x) /\
  (forall x, Rabs (fsin A x - sin x) <= eps) /\ (forall x, Rabs (fcos A x - cos x) <= eps) /\ Rabs (fpi A - PI) <= eps.
