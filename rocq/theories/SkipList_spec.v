(** Specification of the skip-list buffer: a finite set of elements, at most one per timestamp.
    The set is a list in no particular order. *)
From Coq Require Import ZArith List Bool Permutation.
From Verif Require Import Base_model SkipList_model.
Import ListNotations.
Open Scope Z_scope.

Section Spec.
Context {A : Type}.
Variable ts : A -> Z.

Definition smallest (x : A) (s : list A) : Prop := In x s /\ forall y, In y s -> ts x <= ts y.
Definition largest (x : A) (s : list A) : Prop := In x s /\ forall y, In y s -> ts y <= ts x.
Definition present (t : Z) (s : list A) : Prop := exists y, In y s /\ ts y = t.
(** [x] is the first element not older than [key]. *)
Definition first_from (key : Z) (x : A) (s : list A) : Prop :=
  In x s /\ key <= ts x /\ forall y, In y s -> key <= ts y -> ts x <= ts y.

(** Remove the [n] newest (all, when fewer are stored). *)
Inductive drop_newest : nat -> list A -> list A -> Prop :=
| dn_zero : forall s s', Permutation s s' -> drop_newest 0 s s'
| dn_empty : forall n, drop_newest (S n) [] []
| dn_one : forall n x s s1 s', largest x s -> Permutation s (x :: s1) -> drop_newest n s1 s' ->
    drop_newest (S n) s s'.

Inductive set_step (s : list A) : sl_op A -> sl_out A -> list A -> Prop :=
| ss_write : forall x, ~ present (ts x) s -> set_step s (SWrite x) (SoBool true) (x :: s)
| ss_write_dup : forall x, present (ts x) s -> set_step s (SWrite x) (SoBool false) s
| ss_put : forall x, ~ present (ts x) s -> set_step s (SPut x) (SoBool true) (x :: s)
| ss_put_dup : forall x, present (ts x) s -> set_step s (SPut x) (SoBool false) s
| ss_read : forall x, smallest x s -> set_step s SRead (SoElem (Some x)) s
| ss_read_empty : s = [] -> set_step s SRead (SoElem None) s
| ss_front : forall x, smallest x s -> set_step s SFront (SoElem (Some x)) s
| ss_front_empty : s = [] -> set_step s SFront (SoElem None) s
| ss_back : forall x, largest x s -> set_step s SBack (SoElem (Some x)) s
| ss_back_empty : s = [] -> set_step s SBack (SoElem None) s
| ss_occupancy : set_step s SOccupancy (SoNum (Z.of_nat (length s))) s
| ss_pop : forall n s', drop_newest n s s' -> set_step s (SPop n) SoUnit s'
| ss_flush : set_step s SFlush SoUnit []
| ss_conf : set_step s SConf SoUnit []
| ss_lower : forall key x, first_from key x s -> set_step s (SLowerBound key) (SoElem (Some x)) s
| ss_lower_none : forall key, (forall y, In y s -> ts y < key) -> set_step s (SLowerBound key) (SoElem None) s.

(** The answers [ys] are those of the set after the calls [ops]; contents [s']. *)
Inductive set_run : list A -> list (sl_op A) -> list (sl_out A) -> list A -> Prop :=
| sr_nil : forall s, set_run s [] [] s
| sr_cons : forall s o y s1 ops ys s', set_step s o y s1 -> set_run s1 ops ys s' ->
    set_run s (o :: ops) (y :: ys) s'.

(** Timestamps are 64-bit unsigned values. *)
Definition valid_op (o : sl_op A) : Prop :=
  match o with SWrite x | SPut x => 0 <= ts x | _ => True end.

(** The buffer never holds 2^31 or more elements (occupancy() returns through an int). *)
Fixpoint never_huge (l : list A) (ops : list (sl_op A)) : Prop :=
  Z.of_nat (length l) < 2147483648 /\
  match ops with [] => True | o :: ops' => never_huge (fst (sl_step ts l o)) ops' end.

End Spec.
