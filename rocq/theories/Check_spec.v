(** Specification of the arrival checks, on plain sequences of timestamps and error fields. *)
From Coq Require Import ZArith List Bool.
From Verif Require Import Base_model Elem_model Check_model.
Import ListNotations.
Open Scope Z_scope.

(** Number of neighbours (a, b) in [prev :: l] related by [p]. *)
Definition count_neighbours (p : Z -> Z -> bool) (prev : Z) (l : list Z) : Z :=
  Z.of_nat (length (filter (fun ab => p (fst ab) (snd ab)) (combine (prev :: l) l))).

(** [b] is not one duration after [a] on the 64-bit clock. *)
Definition jumps (dur : Z) (a b : Z) : bool := negb (b =? (a + dur) mod 2 ^ 64).

(** The last of [prev :: l]. *)
Definition last_of (prev : Z) (l : list Z) : Z := last l prev.

(** Frames spaced by [tick] from [t0] on, modulo 2^64. *)
Definition stamped (t0 tick : Z) (e : elem) : Prop :=
  forall i f, nth_error (e_frames e) i = Some f -> f_ts f = (t0 + Z.of_nat i * tick) mod 2 ^ 64.

(** Only bits of [S] are set among the 16 error bits. *)
Definition only_bits (S : list Z) (w : Z) : bool :=
  forallb (fun j => negb (Z.testbit w j) || existsb (Z.eqb j) S) (map Z.of_nat (seq 0 16)).

(** Number of set bits among the 16. *)
Definition set_bits (w : Z) : Z := Z.of_nat (length (filter (Z.testbit w) (map Z.of_nat (seq 0 16)))).

Fixpoint sum (l : list Z) : Z := match l with [] => 0 | x :: l' => x + sum l' end.

(** Blocks of 10000 started by the first [n] frames. *)
Definition started_blocks (n : Z) : Z := (n + 9999) / 10000.

(** Counter and report flag of a processor that has seen [n] discontinuities. *)
Definition consistent (n : Z) (c : check) : Prop :=
  ck_ctr c = i32 n /\ 0 <= n /\ ck_reported c = (1000 <? n).

(** The second timestamp repeats the first. *)
Definition repeats (a b : Z) : bool := a =? b.

(** A selection of the members of a list, in order, each at most once. *)
Inductive sublist {T : Type} : list T -> list T -> Prop :=
| sub_nil : sublist [] []
| sub_keep : forall x a b, sublist a b -> sublist (x :: a) (x :: b)
| sub_drop : forall x a b, sublist a b -> sublist a (x :: b).

(** 16 non-negative counters. *)
Definition good_state {F : Type} (s : errst F) : Prop :=
  length (es_counters s) = 16%nat /\ Forall (fun c => 0 <= c) (es_counters s) /\ is_u64 (es_processed s).

(** Number of frames of [l] whose error bits all lie in [S]. *)
Definition forwarded {F : Type} (errors : F -> Z) (S : list Z) (l : list F) : Z :=
  Z.of_nat (length (filter (fun f => only_bits S (errors f)) l)).

(** Some set bit of [w] has a counter below the threshold, after the decrement due every 10000th frame. *)
Definition has_credit {F : Type} (threshold : Z) (s : errst F) (w : Z) : Prop :=
  exists j c, nth_error (es_counters s) j = Some c /\ Z.testbit w (Z.of_nat j) = true /\
    (if es_processed s mod 10000 =? 0 then Z.max 0 (c - 1) else c) < threshold.
