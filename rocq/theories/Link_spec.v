(** Specification of a link as a whole: what has been received in the current run, and what a history
    of calls must look like. *)
From Coq Require Import ZArith List Bool.
From Verif Require Import Base_model Elem_model Float_model Request_model Request_spec Cleanup_spec Link_model.
Import ListNotations.
Open Scope Z_scope.

(** The elements received since the last restart, oldest first. *)
Definition received (ops : list link_op) : list elem :=
  fold_left (fun acc o => match o with LArrive e => acc ++ [e] | LRestart => [] | _ => acc end) ops [].

(** Elements of [nf] frames; clean-ups of less than everything; windows that are not reversed. *)
Definition proper_op (nf : Z) (o : link_op) : Prop :=
  match o with
  | LArrive e => e_num e = nf
  | LClean limit pct _ => 0 <= limit /\ proper_share pct /\ ~ full_share pct
  | LRequest dr => rq_begin dr <= rq_end dr
  | LRestart => True
  end.

(** A history in which, in every run, the elements arrive well-formed and in time order. *)
Definition proper_history (tick nf : Z) (ops : list link_op) : Prop :=
  Forall (proper_op nf) ops /\ forall k, wf tick (received (firstn k ops)).

Definition refused_out (y : link_out) : Prop := y = OutWrite false.

(** Two neighbours of [l] that are not [dur] apart. *)
Definition has_gap (dur : Z) (l : list elem) : Prop :=
  exists k x y, nth_error l k = Some x /\ nth_error l (S k) = Some y /\ e_ts y <> e_ts x + dur.
