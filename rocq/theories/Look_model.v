(** Model of the look of the waiting-request thread at the newest element, taken while the consumer thread
    writes and the clean-up thread removes elements: nothing keeps these three apart.
    /repo/include/readout/models/DefaultRequestHandlerModel.hpp (check_waiting_requests, lines 446-448),
    IterableQueueModel.hpp (write, popFront, back)

    One step per access to shared memory; every load sees the latest value (x86, sequentially
    consistent at this granularity). *)
From Coq Require Import ZArith List Bool.
From Verif Require Import Base_model.
Import ListNotations.
Open Scope Z_scope.

Section Look.
Context {E : Type}.
Variable ts : E -> Z.                       (* get_first_timestamp() *)
(** The destructor of an element changes nothing that the timestamp is read from (all types but the raw trigger
    primitives, which keep their frame behind a unique_ptr; ReadoutTypes.hpp, line 435). *)
Variable trivial : bool.

(** What the thread is doing: nothing; writeIndex_ loaded; holding the pointer that back() returned. *)
Inductive lookpc : Type := KIdle | KLoaded (w : Z) | KPointer (p : Z).

(** What lines 447-448 make of it: null gives the smallest value; a slot that holds no finished element gives an
    arbitrary one (or, for raw trigger primitives, a crash). *)
Inductive looked : Type := Newest (t : Z) | NoElement | Indeterminate.

Record lkst : Type := mk_lkst {
  k_size : Z;                               (* size_ *)
  k_slots : Z -> option E;                  (* records_: None where no finished element is *)
  k_w : Z;                                  (* writeIndex_ *)
  k_r : Z;                                  (* readIndex_ *)
  k_new : option E;                         (* the element the consumer is constructing, in slot k_w *)
  k_look : lookpc;
  k_out : list looked;                      (* results of the looks, latest first *)
  (* not in the code, for stating properties: *)
  k_all : list E;                           (* all elements published so far *)
  k_popped : nat;                           (* how many were removed *)
  k_from : nat                              (* number published when the look under way began *)
}.

Definition look_new (n : Z) : lkst := mk_lkst n (fun _ => None) 0 0 None KIdle [] [] 0 0.

Definition put (f : Z -> option E) (i : Z) (v : option E) : Z -> option E := fun j => if j =? i then v else f j.

Definition next_slot (n i : Z) : Z := if i + 1 =? n then 0 else i + 1.

Inductive lkact : Type :=
| KWrite (x : E)        (* write, lines 232-239: the indices, and the construction begins unless it is full *)
| KPublish              (* line 240: the element is complete and writeIndex_ stored *)
| KPop                  (* popFront, lines 270-283 *)
| KLoadW                (* back, line 408 *)
| KLoadR                (* back, lines 409-418 *)
| KReadTs.              (* line 448: last_frame->get_first_timestamp() *)

Definition lk_step (s : lkst) (a : lkact) : option lkst :=
  match a with
  | KWrite x =>
    match k_new s with
    | Some _ => None
    | None =>
      if next_slot (k_size s) (k_w s) =? k_r s then Some s
      else Some (mk_lkst (k_size s) (put (k_slots s) (k_w s) None) (k_w s) (k_r s) (Some x) (k_look s) (k_out s)
                   (k_all s) (k_popped s) (k_from s))
    end
  | KPublish =>
    match k_new s with
    | None => None
    | Some x => Some (mk_lkst (k_size s) (put (k_slots s) (k_w s) (Some x)) (next_slot (k_size s) (k_w s)) (k_r s) None
                        (k_look s) (k_out s) (k_all s ++ [x]) (k_popped s) (k_from s))
    end
  | KPop =>
    if k_r s =? k_w s then None                            (* the assertion of line 273 *)
    else Some (mk_lkst (k_size s) (if trivial then k_slots s else put (k_slots s) (k_r s) None) (k_w s)
                 (next_slot (k_size s) (k_r s)) (k_new s) (k_look s) (k_out s) (k_all s) (S (k_popped s)) (k_from s))
  | KLoadW =>
    match k_look s with
    | KIdle => Some (mk_lkst (k_size s) (k_slots s) (k_w s) (k_r s) (k_new s) (KLoaded (k_w s)) (k_out s)
                       (k_all s) (k_popped s) (length (k_all s)))
    | _ => None
    end
  | KLoadR =>
    match k_look s with
    | KLoaded w =>
      if w =? k_r s
      then Some (mk_lkst (k_size s) (k_slots s) (k_w s) (k_r s) (k_new s) KIdle (NoElement :: k_out s)
                   (k_all s) (k_popped s) (k_from s))
      else Some (mk_lkst (k_size s) (k_slots s) (k_w s) (k_r s) (k_new s)
                   (KPointer (if w =? 0 then k_size s - 1 else w - 1)) (k_out s) (k_all s) (k_popped s) (k_from s))
    | _ => None
    end
  | KReadTs =>
    match k_look s with
    | KPointer p =>
      Some (mk_lkst (k_size s) (k_slots s) (k_w s) (k_r s) (k_new s) KIdle
              ((match k_slots s p with Some e => Newest (ts e) | None => Indeterminate end) :: k_out s)
              (k_all s) (k_popped s) (k_from s))
    | _ => None
    end
  end.

Fixpoint lk_run (s : lkst) (acts : list lkact) : option lkst :=
  match acts with
  | [] => Some s
  | a :: rest => match lk_step s a with None => None | Some s' => lk_run s' rest end
  end.

(** newest_ts of lines 447-448 as compared with the window ends in line 452; [junk] is what an indeterminate slot
    yields. *)
Definition newest_used (junk : Z) (l : looked) : Z :=
  match l with Newest t => t | NoElement => 0 | Indeterminate => junk end.

End Look.
Arguments lkst : clear implicits.
Arguments lkact : clear implicits.
