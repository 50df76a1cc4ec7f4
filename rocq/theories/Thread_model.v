(** Model of ReusableThread, /repo/include/readout/utils/ReusableThread.hpp, as a transition system: one worker
    thread, one controlling thread (the owner of the object). Each step is one access to a shared variable.
    The worker holds m_mtx except inside m_cv.wait; nobody else locks it, so it is not part of the state.
    Atomics are sequentially consistent (the default of std::atomic). *)
From Coq Require Import ZArith List Bool.
From Verif Require Import Base_model.
Import ListNotations.

(** Where thread_worker (lines 102-117) is. *)
Inductive wpc :=
| WQuit                (* about to read m_thread_quit, line 106 *)
| WExec                (* about to read m_task_executed, line 107 *)
| WAssigned            (* about to read m_task_assigned, line 107 *)
| WTask                (* about to call m_task(), line 108 *)
| WRunning (id : nat)  (* inside the task *)
| WSetExec             (* line 109 *)
| WSetAssigned         (* line 110 *)
| WPreWait             (* decided to wait, line 112, not waiting yet *)
| WWait                (* blocked in m_cv.wait *)
| WEnd                 (* line 116 *)
| WDone
| WBad.                (* m_task() called without a task: bad_function_call *)

(** Where the controlling thread is. *)
Inductive cpc :=
| CIdle
| CExch (id : nat)     (* set_work line 78: m_task_assigned was false, about to exchange m_task_executed *)
| CBind (id : nat)     (* line 79 *)
| CAssign (id : nat)   (* line 80 *)
| CNotify (id : nat)   (* line 81 *)
| DWait                (* destructor, line 39 *)
| DQuit                (* line 42 *)
| DLoop                (* line 43 *)
| DNotify              (* line 45 *)
| CGone.               (* joined, line 47 *)

(** Observable events. [EAccept]: the exchange succeeded, so set_work will return true. *)
Inductive tev :=
| EAccept (id : nat) | EReturn (id : nat) (ok : bool) | EStart (id : nat) | EFinish (id : nat) | EReady (r : bool).

Record tst : Type := mk_tst {
  t_executed : bool; t_assigned : bool; t_quit : bool; t_done : bool; t_task : option nat; t_w : wpc; t_c : cpc; t_log : list tev
}.

(** Constructor, lines 28-35: the worker starts. *)
Definition t_new : tst := mk_tst true false false false None WQuit CIdle [].

Inductive top := OpSet (id : nat) | OpReady | OpDestroy.
Inductive tact :=
| Worker              (* the worker takes its next step *)
| Spurious            (* m_cv.wait returns without notification (allowed by the standard) *)
| Control             (* the controlling thread takes the next step of its call *)
| Begin (o : top).    (* the controlling thread starts a call *)

Definition set_w (w : wpc) (s : tst) : tst :=
  mk_tst (t_executed s) (t_assigned s) (t_quit s) (t_done s) (t_task s) w (t_c s) (t_log s).
Definition set_c (c : cpc) (s : tst) : tst :=
  mk_tst (t_executed s) (t_assigned s) (t_quit s) (t_done s) (t_task s) (t_w s) c (t_log s).
Definition put (e : tev) (s : tst) : tst :=
  mk_tst (t_executed s) (t_assigned s) (t_quit s) (t_done s) (t_task s) (t_w s) (t_c s) (t_log s ++ [e]).
Definition set_executed (b : bool) (s : tst) : tst :=
  mk_tst b (t_assigned s) (t_quit s) (t_done s) (t_task s) (t_w s) (t_c s) (t_log s).
Definition set_assigned (b : bool) (s : tst) : tst :=
  mk_tst (t_executed s) b (t_quit s) (t_done s) (t_task s) (t_w s) (t_c s) (t_log s).
Definition set_quit (b : bool) (s : tst) : tst :=
  mk_tst (t_executed s) (t_assigned s) b (t_done s) (t_task s) (t_w s) (t_c s) (t_log s).
Definition set_done (b : bool) (s : tst) : tst :=
  mk_tst (t_executed s) (t_assigned s) (t_quit s) b (t_task s) (t_w s) (t_c s) (t_log s).
Definition set_task (x : option nat) (s : tst) : tst :=
  mk_tst (t_executed s) (t_assigned s) (t_quit s) (t_done s) x (t_w s) (t_c s) (t_log s).

(** m_cv.notify_all(): wakes the worker only if it is waiting. *)
Definition notify (s : tst) : tst := match t_w s with WWait => set_w WQuit s | _ => s end.

(** thread_worker, lines 102-117. *)
Definition worker_step (s : tst) : tst :=
  match t_w s with
  | WQuit => if t_quit s then set_w WEnd s else set_w WExec s
  | WExec => if t_executed s then set_w WPreWait s else set_w WAssigned s
  | WAssigned => if t_assigned s then set_w WTask s else set_w WPreWait s
  | WTask => match t_task s with Some id => put (EStart id) (set_w (WRunning id) s) | None => set_w WBad s end
  | WRunning id => put (EFinish id) (set_w WSetExec s)
  | WSetExec => set_executed true (set_w WSetAssigned s)
  | WSetAssigned => set_assigned false (set_w WQuit s)
  | WPreWait => set_w WWait s
  | WWait => s
  | WEnd => set_done true (set_w WDone s)
  | WDone => s
  | WBad => s
  end.

(** set_work lines 76-85, destructor lines 37-48, after their first step. *)
Definition control_step (s : tst) : tst :=
  match t_c s with
  | CIdle => s
  | CExch id => if t_executed s then put (EAccept id) (set_executed false (set_c (CBind id) s))
                else put (EReturn id false) (set_c CIdle s)
  | CBind id => set_task (Some id) (set_c (CAssign id) s)
  | CAssign id => set_assigned true (set_c (CNotify id) s)
  | CNotify id => put (EReturn id true) (set_c CIdle (notify s))
  | DWait => if t_assigned s then s else set_c DQuit s
  | DQuit => set_quit true (set_c DLoop s)
  | DLoop => if t_done s then set_c CGone s else set_c DNotify s
  | DNotify => set_c DLoop (notify s)
  | CGone => s
  end.

(** A new call: first step of set_work (the read of m_task_assigned), get_readiness (line 72), destructor. *)
Definition begin_step (o : top) (s : tst) : tst :=
  match t_c s with
  | CIdle => match o with
             | OpSet id => if t_assigned s then put (EReturn id false) s else set_c (CExch id) s
             | OpReady => put (EReady (t_executed s)) s
             | OpDestroy => set_c DWait s
             end
  | _ => s
  end.

(** A step that is not enabled changes nothing. *)
Definition t_step (s : tst) (a : tact) : tst :=
  match a with
  | Worker => worker_step s
  | Spurious => match t_w s with WWait => set_w WQuit s | _ => s end
  | Control => control_step s
  | Begin o => begin_step o s
  end.

Definition t_run (l : list tact) : tst := fold_left t_step l t_new.
