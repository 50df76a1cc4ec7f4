(** Model of the skip-list latency buffer.
    /repo/include/readout/models/SkipListLatencyBufferModel.hpp

    folly::ConcurrentSkipList<T> (external) is modelled by its documented contract: a set ordered by
    operator< (here: the timestamp), kept as a list in increasing order. *)
From Coq Require Import ZArith List Bool.
From Verif Require Import Base_model Search_model.
Import ListNotations.
Open Scope Z_scope.

Section SkipList.
Context {A : Type}.
Variable ts : A -> Z.                     (* get_first_timestamp(), what operator< compares *)

(** Accessor::insert (folly): position by operator<; refused if an equivalent element exists. *)
Fixpoint sl_insert (x : A) (l : list A) : list A * bool :=
  match l with
  | [] => ([x], true)
  | y :: l' => if ts x <? ts y then (x :: y :: l', true)
               else if ts y <? ts x then let (l'', b) := sl_insert x l' in (y :: l'', b)
               else (y :: l', false)
  end.

(** write, lines 96-105, and put, lines 107-116. *)
Definition sl_write (x : A) (l : list A) : list A * bool := sl_insert x l.

(** occupancy, lines 81-89 (int from size_t: exact below 2^31). *)
Definition sl_occupancy (l : list A) : Z := i32 (Z.of_nat (length l)).

(** read, lines 118-130: copies the first element and leaves it in the list. *)
Definition sl_read (l : list A) : option A := hd_error l.

(** front, lines 153-157; back, lines 159-163. *)
Definition sl_front (l : list A) : option A := hd_error l.
Definition sl_back (l : list A) : option A := match l with [] => None | y :: _ => Some (last l y) end.

(** pop, lines 165-173: pop_back() removes the last element, and does nothing on an empty list. *)
Fixpoint sl_pop (n : nat) (l : list A) : list A :=
  match n with O => l | S n' => sl_pop n' (removelast l) end.

(** flush, line 91 (size_t from occupancy). *)
Definition sl_flush (l : list A) : list A := sl_pop (Z.to_nat (u64 (sl_occupancy l))) l.

(** conf, lines 75-79. *)
Definition sl_conf (l : list A) : list A := [].

(** Iterator, lines 44-73: the node is identified by its timestamp; -1 is the null node, end(). *)
Definition sl_end : Z := -1.
Definition sl_lower_bound (l : list A) (key : Z) : Z :=        (* lines 146-151 *)
  match find (fun y => key <=? ts y) l with Some y => ts y | None => sl_end end.
Definition sl_begin (l : list A) : Z :=                        (* lines 132-137 *)
  match l with [] => sl_end | y :: _ => ts y end.
Definition sl_good (i : Z) : bool := negb (i =? sl_end).       (* line 68 *)
Definition sl_deref (l : list A) (i : Z) : res A :=            (* line 57 *)
  match find (fun y => ts y =? i) l with Some y => Ok y | None => Crash end.
Definition sl_incr (l : list A) (i : Z) : Z :=                 (* lines 59-63 *)
  match find (fun y => i <? ts y) l with Some y => ts y | None => sl_end end.

(** The buffer as a transition system over API calls. *)
Inductive sl_op : Type :=
| SWrite (x : A) | SPut (x : A) | SRead | SPop (n : nat) | SFlush | SFront | SBack | SOccupancy
| SLowerBound (key : Z) | SConf.
Inductive sl_out : Type :=
| SoBool (b : bool) | SoElem (x : option A) | SoNum (z : Z) | SoUnit.

(** *lower_bound(key), null when it equals end(). *)
Definition sl_found (l : list A) (i : Z) : option A :=
  if i =? sl_end then None else match sl_deref l i with Ok x => Some x | Crash => None end.

Definition sl_step (l : list A) (o : sl_op) : list A * sl_out :=
  match o with
  | SWrite x | SPut x => let (l', b) := sl_write x l in (l', SoBool b)
  | SRead => (l, SoElem (sl_read l))
  | SPop n => (sl_pop n l, SoUnit)
  | SFlush => (sl_flush l, SoUnit)
  | SFront => (l, SoElem (sl_front l))
  | SBack => (l, SoElem (sl_back l))
  | SOccupancy => (l, SoNum (sl_occupancy l))
  | SLowerBound key => (l, SoElem (sl_found l (sl_lower_bound l key)))
  | SConf => (sl_conf l, SoUnit)
  end.

Fixpoint sl_run (l : list A) (ops : list sl_op) : list sl_out * list A :=
  match ops with
  | [] => ([], l)
  | o :: ops' => let (l', y) := sl_step l o in let (ys, lf) := sl_run l' ops' in (y :: ys, lf)
  end.

End SkipList.
Arguments sl_op : clear implicits.
Arguments sl_out : clear implicits.
