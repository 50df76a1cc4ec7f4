(** Specification: a first-in-first-out queue with room for [cap] elements, and how many elements a ring of a configured size has room for. *)
From Coq Require Import ZArith List Bool.
From Verif Require Import Base_model Size_model.
Import ListNotations.
Open Scope Z_scope.

Section Spec.
Context {A : Type}.

Definition fifo_step (cap : Z) (l : list A) (o : size_op A) : option (list A * size_out A) :=
  match o with
  | SWrite x => if Z.of_nat (length l) <? cap then Some (l ++ [x], SBool true) else Some (l, SBool false)
  | SRead => match l with [] => Some ([], SElem None) | x :: l' => Some (l', SElem (Some x)) end
  | SPop k => if (k <=? length l)%nat then Some (skipn k l, SUnit) else None
  | SIsEmpty => Some (l, SBool (match l with [] => true | _ => false end))
  | SIsFull => Some (l, SBool (Z.of_nat (length l) =? cap))
  end.

(** The answers to a history of calls; [None]: more is popped than there is. *)
Fixpoint fifo_run (cap : Z) (l : list A) (ops : list (size_op A)) : option (list A * list (size_out A)) :=
  match ops with
  | [] => Some (l, [])
  | o :: ops' =>
    match fifo_step cap l o with
    | None => None
    | Some (l1, y) => match fifo_run cap l1 ops' with None => None | Some (l2, ys) => Some (l2, y :: ys) end
    end
  end.

End Spec.

(** Slots in use: the configured size modulo 2^32, except that a multiple of 2^32 gives 2^32; one of them always stays free. *)
Definition slots_of (n : Z) : Z := if n mod 2 ^ 32 =? 0 then 2 ^ 32 else n mod 2 ^ 32.
Definition room (n : Z) : Z := slots_of n - 1.
