(** Byte memory: an allocated block is the list of its bytes; access outside it is undefined behaviour.
    Models the C++ object representation on a little-endian machine (the code reinterprets byte buffers
    as structs throughout /repo, e.g. ReadoutTypes.hpp 98-106), not a particular file. *)
From Coq Require Import ZArith List Bool.
From Verif Require Import Base_model.
Import ListNotations.
Open Scope Z_scope.

(** memcpy out of / load of [n] bytes. *)
Definition rd (off n : nat) (m : list Z) : res (list Z) :=
  if (off + n <=? length m)%nat then Ok (firstn n (skipn off m)) else Crash.

(** memcpy into / store. *)
Definition wr (off : nat) (bs m : list Z) : res (list Z) :=
  if (off + length bs <=? length m)%nat then Ok (firstn off m ++ bs ++ skipn (off + length bs) m) else Crash.

(** Little-endian encoding of the low [n] bytes of a number, and decoding. *)
Fixpoint le (n : nat) (z : Z) : list Z :=
  match n with O => [] | S n' => z mod 256 :: le n' (z / 256) end.
Fixpoint unle (bs : list Z) : Z :=
  match bs with [] => 0 | b :: bs' => b + 256 * unle bs' end.
