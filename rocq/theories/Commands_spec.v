(** What is expected of the commands of a generated configuration. *)
From Coq Require Import String List.
From Verif Require Import Gen_model Commands_model.
Import ListNotations.

(** [x] stands before [y] in [l]. *)
Definition before {A} (x y : A) (l : list A) : Prop := exists l1 l2 l3, l = (l1 ++ x :: l2 ++ y :: l3)%list.

Definition is_consumer (p : plugin) : bool :=
  match p with TimeSyncConsumer | FragmentConsumer | ErroredFrameConsumer => true | _ => false end.

(** What was put into and taken from a queue, in order. *)
Fixpoint pushed {A} (q : string) (l : list (event A)) : list A :=
  match l with
  | [] => []
  | LPush _ q' a :: r => if String.eqb q' q then a :: pushed q r else pushed q r
  | _ :: r => pushed q r
  end.
Fixpoint popped {A} (q : string) (l : list (event A)) : list A :=
  match l with
  | [] => []
  | LPop _ q' a :: r => if String.eqb q' q then a :: popped q r else popped q r
  | _ :: r => popped q r
  end.
(** [l] holds the events since the last start command. *)
Definition since_start {A} (whole l : list (event A)) : Prop := exists l1, whole = (l1 ++ LBegin :: l)%list /\ ~ In LBegin l.
