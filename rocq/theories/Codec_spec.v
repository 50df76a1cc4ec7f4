(** Vocabulary for property C32. *)
From Coq Require Import ZArith List Bool.
From Verif Require Import Base_model Bytes_model.
Import ListNotations.
Open Scope Z_scope.

Definition bytes (m : list Z) : Prop := Forall (fun b => 0 <= b < 256) m.

(** Same object size, and every byte outside [p] unchanged. *)
Definition changes_only (p : nat -> Prop) (m m' : list Z) : Prop :=
  length m' = length m /\ forall i, ~ p i -> nth_error m' i = nth_error m i.

(** Position [i] lies in the [n] bytes from [off]. *)
Definition within (off n i : nat) : Prop := (off <= i < off + n)%nat.

(** The two fields lie inside a frame of [stride] bytes and do not overlap. *)
Definition fields_ok (p1 p2 stride : nat) : Prop :=
  (p1 + 4 <= stride /\ p2 + 4 <= stride /\ (p1 + 4 <= p2 \/ p2 + 4 <= p1))%nat.
