(** Specification of zero-copy recording. *)
From Coq Require Import ZArith List Bool.
From Verif Require Import Base_model Ring_model Record_model Zcopy_model.
Import ListNotations.
Open Scope Z_scope.

Section Spec.
Context {E : Type}.
Variable ts : E -> Z.

(** Timestamps are positive and never go back. *)
Definition ordered_data (l : list E) : Prop :=
  (forall x, In x l -> 1 <= ts x) /\
  (forall i j x y, (i <= j)%nat -> nth_error l i = Some x -> nth_error l j = Some y -> ts x <= ts y).

(** The bytes of a list of elements of [P] bytes each, in order. *)
Definition bytes_of (P : Z) (e : E) : list (option (E * Z)) :=
  map (fun o => Some (e, Z.of_nat o)) (seq 0 (Z.to_nat P)).
Definition stream (P : Z) (l : list E) : list (option (E * Z)) := flat_map (bytes_of P) l.

(** Element number k lives in slot k mod n; is that slot aligned? *)
Definition aligned (n P align addr0 : Z) (k : nat) : Prop := (addr0 + Z.of_nat k mod n * P) mod align = 0.
(** The first aligned element not older than element number [from]. *)
Definition first_aligned (n P align addr0 : Z) (from k : nat) : Prop :=
  (from <= k)%nat /\ aligned n P align addr0 k /\ forall j, (from <= j < k)%nat -> ~ aligned n P align addr0 j.

End Spec.

Section Spec2.
Context {E : Type}.

(** The elements offered to the buffer in a list of steps. *)
Fixpoint zarrivals (acts : list (zaction (E := E))) : list E :=
  match acts with
  | [] => []
  | ZWrite x :: acts' => x :: zarrivals acts'
  | _ :: acts' => zarrivals acts'
  end.

(** Elements in the buffer, and how many bytes an accepted element number i has been recorded up to: byte position in
    the stream of all accepted elements that follows the last byte of the file, when the file starts with element k0. *)
Definition zstored (s : zstate (E := E)) : list E := skipn (s_popped (z_core s)) (s_all (z_core s)).
Definition written_to (P : Z) (k0 : nat) (s : zstate (E := E)) : Z := Z.of_nat k0 * P + Z.of_nat (length (z_file s)).
(** Byte position of the newest accepted element. *)
Definition newest (P : Z) (s : zstate (E := E)) : Z := (Z.of_nat (length (s_all (z_core s))) - 1) * P.
End Spec2.
