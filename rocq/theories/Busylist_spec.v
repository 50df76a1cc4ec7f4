(** Specification of requests on the skip-list buffer served while data keep arriving. *)
From Coq Require Import ZArith List Bool.
From Verif Require Import Base_model SkipList_spec Elem_model Request_model Request_spec.
Import ListNotations.
Open Scope Z_scope.

(** The stored set, in no particular order, after the arrivals [xs]: an element is taken unless one of the same
    timestamp is there. *)
Definition took (s : list elem) (xs : list elem) : list elem :=
  fold_left (fun s x => if existsb (fun y => e_ts y =? e_ts x) s then s else x :: s) xs s.

(** [x] starts in the window. *)
Definition starts_in (b e : Z) (x : elem) : Prop := b <= e_ts x < e.

Fixpoint in_order (l : list elem) : Prop :=
  match l with
  | x :: (y :: _) as rest => e_ts x < e_ts y /\ in_order rest
  | _ => True
  end.

(** The payload made of the elements [T]: the frames of the window they hold. [seen] are the elements stored when
    the newest was looked up, [all] those there in the end. Everything in [seen] that starts in the window is
    delivered, and nothing else than elements of [all] that start in it. *)
Definition delivered (b e : Z) (seen all T : list elem) : Prop :=
  in_order T /\ (forall x, In x T -> starts_in b e x /\ In x all) /\
  forall x, In x seen -> starts_in b e x -> In x T.

(** The reply to a request, [s0] being stored when it starts and [xs] arriving while it runs: that for an
    empty buffer if it was empty at a moment, else that for the oldest element of one moment and the newest of a
    later one, with the elements delivered. *)
Definition answered_in_motion (dnf : Z) (lk : link) (running : bool) (s0 xs : list elem) (dr : request) (st : stats)
  (reply : res (code * option fragment * stats)) : Prop :=
  (exists before after, xs = before ++ after /\ took s0 before = [] /\ right_answer dnf running [] dr st reply) \/
  (exists before between after o n,
     xs = before ++ between ++ after /\
     smallest e_ts o (took s0 before) /\ largest e_ts n (took s0 (before ++ between)) /\
     right_answer dnf running [o; n] dr st reply /\
     forall fo st', reply = Ok (kFound, fo, st') ->
       exists T, delivered (rq_begin dr) (rq_end dr) (took s0 (before ++ between)) (took s0 xs) T /\
         fo = Some (mk_fragment (create_fragment_header lk dr) (window_bytes T (rq_begin dr) (rq_end dr)))).
