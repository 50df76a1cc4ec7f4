(** Model of the error registry. /repo/include/readout/FrameErrorRegistry.hpp.
    The map is an association list with at most one entry per name; the mutex makes add_error and
    remove_errors_until atomic. has_error takes no lock (line 63): it is modelled as a read of a
    complete map; the map down to its nodes, read while it is modified, is Walk_model.v. *)
From Coq Require Import ZArith List Bool String.
Import ListNotations.
Open Scope Z_scope.

(** ErrorInterval, lines 23-36. *)
Record interval : Type := mk_interval { iv_start : Z; iv_end : Z }.
Definition registry : Type := list (string * interval).

(** m_errors.erase(name), line 46. *)
Definition erase (name : string) (m : registry) : registry :=
  filter (fun p => negb (String.eqb (fst p) name)) m.

(** add_error, lines 41-48. *)
Definition add_error (name : string) (iv : interval) (m : registry) : registry := (name, iv) :: erase name m.

(** remove_errors_until, lines 50-61. *)
Definition remove_errors_until (ts : Z) (m : registry) : registry :=
  filter (fun p => negb (iv_end (snd p) <? ts)) m.

(** has_error(name), lines 63-65. *)
Definition has_error (name : string) (m : registry) : bool :=
  existsb (fun p => String.eqb (fst p) name) m.

(** has_error(), line 67. *)
Definition has_any_error (m : registry) : bool := match m with [] => false | _ => true end.

Inductive reg_op : Type :=
| RAdd (name : string) (iv : interval)
| RTrim (ts : Z).

Definition reg_step (m : registry) (o : reg_op) : registry :=
  match o with
  | RAdd name iv => add_error name iv m
  | RTrim ts => remove_errors_until ts m
  end.

Definition reg_run (ops : list reg_op) : registry := fold_left reg_step ops [].
