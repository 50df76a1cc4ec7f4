(** Specification of the clean-up. *)
From Coq Require Import ZArith List Bool.
From Verif Require Import Base_model Float_model.
Import ListNotations.
Open Scope Z_scope.

(** A share between nothing and everything: m * 2^e <= 1, single precision. *)
Definition proper_share (pct : float32) : Prop :=
  0 <= fst pct < 2 ^ 24 /\ snd pct <= 0 /\ fst pct <= 2 ^ (- snd pct).

(** Exactly 100 %. *)
Definition full_share (pct : float32) : Prop := fst pct = 2 ^ (- snd pct).

Section Spec.
Context {E : Type}.
Variable ts : E -> Z.

(** [l'] is [l] without its [k] oldest elements, all of them older than [next]; fewer than [quota]
    are removed only when the next one is not older than [next]. *)
Definition trimmed (quota : Z) (next : Z) (l l' : list E) (k : nat) : Prop :=
  l' = skipn k l /\ (k <= length l)%nat /\ Z.of_nat k <= quota /\
  (forall x, In x (firstn k l) -> ts x < next) /\
  (Z.of_nat k = quota \/ exists x, nth_error l k = Some x /\ next <= ts x).

End Spec.
