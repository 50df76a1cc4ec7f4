(** Specification of the fake card: what is known of a link is the file its emulator holds and whether it is configured. *)
From Coq Require Import String ZArith List.
Import ListNotations.

Section Spec.
(** The queues of the module. *)
Variable queues : list string.

(** Links as (queue, contents of the file if it can be read). *)
Definition links := list (string * option (list Z)).

(** The links can be configured one after another when the queues of [done] are configured already. *)
Definition acceptable (done : string -> Prop) (ls : links) : Prop :=
  NoDup (map fst ls) /\ forall q f, In (q, f) ls -> In q queues /\ ~ done q /\ f <> None.

(** What a link list adds to a map from queues to files. *)
Definition files_after (before : string -> option (list Z)) (ls : links) (after : string -> option (list Z)) : Prop :=
  forall q, (forall f, In (q, f) ls -> after q = f) /\ (~ In q (map fst ls) -> after q = before q).
End Spec.
