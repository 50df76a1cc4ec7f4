(** Specification of the mutual exclusion between clean-up and buffer readers. *)
From Coq Require Import ZArith List Bool.
From Verif Require Import Guard_model.
Import ListNotations.
Open Scope Z_scope.

(** A thread between entering and leaving the guarded section, i.e. possibly reading the buffer. *)
Definition reading (w : wpc) : bool := match w with WNotifyIn | WIn => true | _ => false end.

Definition readers (s : gstate) : nat := length (filter reading (g_threads s)).

(** A notification is on its way: some thread is just about to call notify_all. *)
Definition notification_pending (s : gstate) : Prop :=
  In WNotifyIn (g_threads s) \/ In WNotifyOut (g_threads s) \/ g_clean s = GNotify.
