(** Specification of post-processing (C43). *)
From Coq Require Import ZArith List Bool.
From Verif Require Import Base_model Post_model.
Import ListNotations.
Open Scope nat_scope.

Section Spec.
Context {X : Type}.

Fixpoint offers (acts : list (@paction X)) : list X :=
  match acts with [] => [] | POffer x :: t => x :: offers t | _ :: t => offers t end.

(** [a] arises from [b] by leaving out items. *)
Inductive subseq : list X -> list X -> Prop :=
| sq_nil : subseq [] []
| sq_keep : forall x a b, subseq a b -> subseq (x :: a) (x :: b)
| sq_skip : forall x a b, subseq a b -> subseq a (x :: b).

(** The offered items at whose arrival queue i had a free place. *)
Fixpoint accepted (i : nat) (s : @post X) (acts : list (@paction X)) : list X :=
  match acts with
  | [] => []
  | a :: acts' =>
      match a, nth_error (p_lanes s) i with
      | POffer x, Some l => if (length (l_queue l) <? l_cap l)%nat then [x] else []
      | _, _ => []
      end ++ match paction_step s a with Ok s1 => accepted i s1 acts' | Crash => [] end
  end.

(** The actions of a run, without set-up. *)
Definition is_run (a : @paction X) : bool := match a with PAddTask | PConf _ => false | _ => true end.
(** What thread i and its queue are concerned with. *)
Definition concerns (i : nat) (a : @paction X) : bool := match a with PThread j => (i =? j)%nat | _ => true end.
(** Steps of threads, and stop. *)
Definition is_drain (a : @paction X) : bool := match a with PThread _ | PStop => true | _ => false end.
Definition steps_of (i : nat) (acts : list (@paction X)) : nat :=
  length (filter (fun a => match a with PThread j => (i =? j)%nat | _ => false end) acts).
End Spec.
