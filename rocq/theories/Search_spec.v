(** Specification of the searches on the stored elements, as statements about the plain list of
    contents (oldest first). *)
From Coq Require Import ZArith List Bool.
From Verif Require Import Base_model Ring_model Ring_spec Search_model.
Import ListNotations.
Open Scope Z_scope.

Section Spec.
Context {A : Type}.
Variable ts : A -> Z.

(** Timestamps never decrease from one element to a later one. *)
Definition non_decreasing (l : list A) : Prop :=
  forall i j x y, (i <= j)%nat -> nth_error l i = Some x -> nth_error l j = Some y -> ts x <= ts y.

(** Element [k] is the newest one that is not newer than [key]. *)
Definition newest_not_newer (l : list A) (key : Z) (k : nat) : Prop :=
  (k < length l)%nat /\
  (forall j x, (j <= k)%nat -> nth_error l j = Some x -> ts x <= key) /\
  (forall j x, (k < j)%nat -> nth_error l j = Some x -> key < ts x).

(** The search must answer end() iff there is nothing at or before the key. *)
Definition nothing_at_or_before (l : list A) (key : Z) : Prop :=
  forall x, In x l -> key < ts x.

(** Elements exactly [d] apart, the first one at [t0]. *)
Definition equally_spaced (l : list A) (t0 d : Z) : Prop :=
  forall k x, nth_error l k = Some x -> ts x = t0 + Z.of_nat k * d.

End Spec.
