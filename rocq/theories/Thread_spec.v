(** Specification of the history of a reusable thread (C35). *)
From Coq Require Import List Bool Arith.
From Verif Require Import Base_model Thread_model.
Import ListNotations.

(** What the accepted, started and finished events of a history say: nothing pending, a task accepted but not
    started, or a task running. Any other order of events has no meaning ([None]): a second task accepted before the
    first finished, a task started twice, not accepted or out of turn, or finished without running. *)
Inductive tphase := Free | Pending (id : nat) | Running (id : nat).

Definition phase_step (p : option tphase) (e : tev) : option tphase :=
  match e with
  | EReturn _ _ | EReady _ => p
  | EAccept x => match p with Some Free => Some (Pending x) | _ => None end
  | EStart x => match p with Some (Pending y) => if x =? y then Some (Running x) else None | _ => None end
  | EFinish x => match p with Some (Running y) => if x =? y then Some Free else None | _ => None end
  end.
Definition phase (log : list tev) : option tphase := fold_left phase_step log (Some Free).

(** Times each kind of event occurs for a task. *)
Definition accepted (id : nat) (log : list tev) : nat :=
  length (filter (fun e => match e with EAccept x => x =? id | _ => false end) log).
Definition started (id : nat) (log : list tev) : nat :=
  length (filter (fun e => match e with EStart x => x =? id | _ => false end) log).
Definition finished (id : nat) (log : list tev) : nat :=
  length (filter (fun e => match e with EFinish x => x =? id | _ => false end) log).

(** The lost wake-up: the task is assigned but the worker waits; since [log] only refusals and "not ready" answers. *)
Definition stuck (log : list tev) (s : tst) : Prop :=
  t_executed s = false /\ t_assigned s = true /\ t_w s = WWait /\ (t_c s = CIdle \/ t_c s = DWait) /\
  exists more, t_log s = log ++ more /\ Forall (fun e => (exists x, e = EReturn x false) \/ e = EReady false) more.
