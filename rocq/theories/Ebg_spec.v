(** What the generator is specified to produce: rounds of a quiet phase and an error phase. *)
From Coq Require Import ZArith List Bool.
From Verif Require Import Base_model Ebg_model.
Import ListNotations.
Open Scope Z_scope.

Definition entry (l : list Z) (k : nat) : Z := nth (k mod length l) l 0.

(** A phase of configured length n takes n calls, but at least one. *)
Definition phase_length (n : Z) : nat := Nat.max 1 (Z.to_nat n).

(** Round k = 0, 1, ...: zeros for the k-th quiet length, then the (k+1)-th error word for the (k+1)-th error length
    (zeros if that length is zero); indices modulo the table size. *)
Definition round (bits errs noerrs : list Z) (k : nat) : list Z :=
  repeat 0 (phase_length (entry noerrs k)) ++
  repeat (if entry errs (S k) =? 0 then 0 else entry bits (S k)) (phase_length (entry errs (S k))).

Definition rounds (bits errs noerrs : list Z) (n : nat) : list Z :=
  concat (map (round bits errs noerrs) (seq 0 n)).

(** Three tables of the declared, positive size. *)
Definition tables_ok (t : tables) : Prop :=
  0 < eb_size t /\ Z.of_nat (length (eb_bits t)) = eb_size t /\ Z.of_nat (length (eb_errs t)) = eb_size t /\
  Z.of_nat (length (eb_noerrs t)) = eb_size t.
