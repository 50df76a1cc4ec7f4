(** Specification of the latency ring: a bounded first-in-first-out queue, as a plain list. *)
From Coq Require Import ZArith List Bool.
From Verif Require Import Base_model Ring_model.
Import ListNotations.
Open Scope Z_scope.

Section Spec.
Context {A : Type}.

Record queue : Type := mk_queue { q_size : Z; q_items : list A }.   (* oldest first *)

Definition q_new (n : Z) : queue := mk_queue n [].

(** What each call must do. [Crash] marks calls that break the documented precondition
    (popping more than is stored, sizes below 2). *)
Definition q_step (q : queue) (o : op A) : res (queue * out A) :=
  let items := q_items q in
  let len := Z.of_nat (length items) in
  match o with
  | OWrite x => if len <? q_size q - 1
                then Ok (mk_queue (q_size q) (items ++ [x]), RBool true)
                else Ok (q, RBool false)
  | ORead => match items with
             | [] => Ok (q, RElem None)
             | x :: l => Ok (mk_queue (q_size q) l, RElem (Some x))
             end
  | OPop n => if (n <=? length items)%nat
              then Ok (mk_queue (q_size q) (skipn n items), RUnit)
              else Crash
  | OFlush => Ok (mk_queue (q_size q) [], RUnit)
  | OFront => Ok (q, RElem (hd_error items))
  | OBack => Ok (q, RElem (hd_error (rev items)))
  | OOccupancy => Ok (q, RNum len)
  | OIsEmpty => Ok (q, RBool (len =? 0))
  | OIsFull => Ok (q, RBool (len =? q_size q - 1))
  | OCapacity => Ok (q, RNum (q_size q - 1))
  | OGetSize => Ok (q, RNum (q_size q))
  | OConf n _ _ => if n <? 2 then Crash else Ok (mk_queue n [], RUnit)
  end.

Fixpoint q_run (q : queue) (ops : list (op A)) : list (res (out A)) * res queue :=
  match ops with
  | [] => ([], Ok q)
  | o :: ops' =>
    match q_step q o with
    | Crash => ([Crash], Crash)
    | Ok (q', y) => let (ys, qf) := q_run q' ops' in (Ok y :: ys, qf)
    end
  end.

(** Sizes the 32-bit index arithmetic supports. *)
Definition supported_size (n : Z) : Prop := 2 <= n <= 2147483648.

Definition supported_op (o : op A) : Prop :=
  match o with OConf n _ _ => n <= 2147483648 | _ => True end.

(** Number of refused writes in a sequence of answers. *)
Definition refused (o : op A) (y : res (out A)) : Z :=
  match o, y with OWrite _, Ok (RBool false) => 1 | _, _ => 0 end.

Fixpoint count_refused (ops : list (op A)) (ys : list (res (out A))) : Z :=
  match ops, ys with
  | o :: ops', y :: ys' => refused o y + count_refused ops' ys'
  | _, _ => 0
  end.

(** [r] and [q] are the ring and the ideal queue after the same calls on a new buffer of size [n]. *)
Definition reached (n : Z) (ops : list (op A)) (r : ring A) (q : queue) : Prop :=
  exists r0, ring_new n = Ok r0 /\ snd (run r0 ops) = Ok r /\ snd (q_run (q_new n) ops) = Ok q.

(** Walk an iterator from [i], collecting the elements, until it equals end(). *)
Fixpoint walk (fuel : nat) (r : ring A) (i : Z) : option (list A) :=
  if i =? it_end then Some []
  else match fuel with
       | O => None
       | S f => match deref r i with
                | Crash => None
                | Ok x => match walk f r (it_incr r i) with
                          | Some l => Some (x :: l)
                          | None => None
                          end
                end
       end.

(** Position reached by [k] increments from begin(). *)
Fixpoint advance (k : nat) (r : ring A) (i : Z) : Z :=
  match k with O => i | S k' => advance k' r (it_incr r i) end.

End Spec.
Arguments queue : clear implicits.
