(** Specification of a link that keeps up (C76). *)
From Coq Require Import ZArith List Bool.
From Verif Require Import Base_model Elem_model Float_model Request_model Link_model Link_spec Emu_model Chain_model Chain_spec.
Import ListNotations.
Open Scope Z_scope.

(** In every stretch of the history without an interruption at most [m] things arrive. *)
Definition paced {A : Type} (arrived : list A -> nat) (interrupts : A -> Prop) (m : nat) (ops : list A) : Prop :=
  forall a b c, ops = a ++ b ++ c -> Forall (fun o => ~ interrupts o) b -> (arrived (a ++ b) <= arrived a + m)%nat.

(** A clean-up brings up to [m] elements above the limit back to it. *)
Definition absorbs (limit : Z) (quota : Z -> Z) (m : nat) : Prop :=
  forall o, limit < o <= limit + Z.of_nat m -> o - limit <= quota o.

(** Clean-ups and restarts of a link; its clean-ups are not held up by a recording. *)
Definition link_interrupts (o : link_op) : Prop := match o with LClean _ _ _ | LRestart => True | _ => False end.
Definition link_paced (m : nat) (ops : list link_op) : Prop := paced (fun l => length (received l)) link_interrupts m ops.
Definition unheld (ops : list link_op) : Prop := forall limit pct next, In (LClean limit pct next) ops -> next = max_u64.

(** The same for an emulated source with its link. *)
Definition chain_interrupts (o : chain_op) : Prop := match o with XClean _ _ _ | XRestart => True | _ => False end.
Definition chain_paced (dropouts : list bool) (m : nat) (ops : list chain_op) : Prop :=
  paced (fun l => length (fl_got (flow_run dropouts l))) chain_interrupts m ops.
Definition chain_cleaned_with (limit : Z) (pct : float32) (ops : list chain_op) : Prop :=
  forall l p next, In (XClean l p next) ops -> l = limit /\ p = pct /\ next = max_u64.
