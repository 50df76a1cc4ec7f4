(** Model of the trigger primitive buffer.
    /repo/include/readout/utils/TPHandler.hpp (whole class, 25-119).

    The methods are split into the steps at which another thread can read the counters
    (get_and_reset_num_sent_tps and get_and_reset_num_sent_tpsets are called from get_info, on another
    thread than add_tp, try_sending_tpsets and reset). A push and the increment of its counter are one
    step: a read-out between them would report that push one read-out later. *)
From Coq Require Import ZArith List Bool.
From Verif Require Import Base_model.
Import ListNotations.
Open Scope Z_scope.

Section Tp.
(** triggeralgs::TriggerPrimitive and its field time_start (a 64-bit unsigned number). *)
Variable T : Type.
Variable time_start : T -> Z.
(** std::priority_queue<TriggerPrimitive, vector, TPComparator> (lines 106-115): Tp_spec.v states
    what is assumed of it, Heap_model.v models the one of libstdc++. [h_top] is None when empty() holds. *)
Variable heap : Type.
Variable h_empty : heap.
Variable h_push : T -> heap -> heap.
Variable h_top : heap -> option T.
Variable h_pop : heap -> heap.
(** m_tp_timeout and m_tpset_window_size (uint64_t, lines 98-99). *)
Variable timeout window : Z.

(** trigger::TPSet, the fields assigned at lines 51-56 and 69 (type and origin are constants). *)
Record tpset : Type := mk_tpset { ts_start : Z; ts_end : Z; ts_seqno : Z; ts_objects : list T }.

(** m_tp_buffer, m_next_tpset_seqno, m_sent_tps, m_sent_tpsets (lines 100-104, 115); [tp_open] is the local
    variable tpset while try_sending_tpsets is in its loop. *)
Record tpst : Type := mk_tpst {
  tp_buffer : heap; tp_seqno : Z; tp_sent : Z; tp_sets : Z; tp_open : option tpset
}.

Definition tp_new : tpst := mk_tpst h_empty 0 0 0 None.

(** [AAdd t now]: add_tp. [ATry now]: try_sending_tpsets up to the loop. [ASend ok]: one iteration of the
    loop, [ok] false when the push throws QueueTimeoutExpired. [AFinish ok]: the push of the set. *)
Inductive action : Type :=
| AAdd (t : T) (now : Z) | ATry (now : Z) | ASend (ok : bool) | AFinish (ok : bool)
| AReadTps | AReadSets | AReset.

(** What the environment sees: the result of add_tp, pushes to the two sinks, counters, resets. *)
Inductive event : Type :=
| EAdd (t : T) (accepted : bool) | ETp (t : T) (ok : bool) | ESet (x : tpset) (ok : bool)
| ETps (n : Z) | ESets (n : Z) | EReset.

(** [Stuck]: the step cannot happen in this state; [Fault]: undefined behaviour. *)
Inductive result : Type := Next (s : tpst) (e : list event) | Stuck | Fault.

(** add_tp, lines 38-46. *)
Definition add_tp (t : T) (now : Z) (s : tpst) : result :=
  if u64 (time_start t + timeout) >? now
  then Next (mk_tpst (h_push t (tp_buffer s)) (tp_seqno s) (tp_sent s) (tp_sets s) None) [EAdd t true]
  else Next s [EAdd t false].

(** try_sending_tpsets, lines 50-56. Division by zero when the window is 0. *)
Definition begin_set (now : Z) (s : tpst) : result :=
  match h_top (tp_buffer s) with
  | None => Next s []
  | Some t =>
    if u64 (u64 (time_start t + window) + timeout) <? now then
      if window =? 0 then Fault
      else
        let start := u64 ((time_start t / window) * window) in
        Next (mk_tpst (tp_buffer s) (u64 (tp_seqno s + 1)) (tp_sent s) (tp_sets s)
                (Some (mk_tpset start (u64 (start + window)) (tp_seqno s) []))) []
    else Next s []
  end.

(** Loop condition, line 58. *)
Definition more (x : tpset) (s : tpst) : option T :=
  match h_top (tp_buffer s) with
  | None => None
  | Some t => if time_start t <? ts_end x then Some t else None
  end.

(** Loop body, lines 59-71. *)
Definition send_tp (ok : bool) (s : tpst) : result :=
  match tp_open s with
  | None => Stuck
  | Some x =>
    match more x s with
    | None => Stuck
    | Some t =>
      Next (mk_tpst (h_pop (tp_buffer s)) (tp_seqno s) (if ok then u64 (tp_sent s + 1) else tp_sent s) (tp_sets s)
              (Some (mk_tpset (ts_start x) (ts_end x) (ts_seqno x) (ts_objects x ++ [t])))) [ETp t ok]
    end
  end.

(** Lines 73-78. *)
Definition send_set (ok : bool) (s : tpst) : result :=
  match tp_open s with
  | None => Stuck
  | Some x =>
    match more x s with
    | Some _ => Stuck
    | None => Next (mk_tpst (tp_buffer s) (tp_seqno s) (tp_sent s) (if ok then u64 (tp_sets s + 1) else tp_sets s) None) [ESet x ok]
    end
  end.

(** add_tp, try_sending_tpsets and reset (81-89) come from one thread, so not inside the loop; the read-outs
    (91, 93) at any time. *)
Definition tp_step (a : action) (s : tpst) : result :=
  match a with
  | AAdd t now => match tp_open s with None => add_tp t now s | Some _ => Stuck end
  | ATry now => match tp_open s with None => begin_set now s | Some _ => Stuck end
  | ASend ok => send_tp ok s
  | AFinish ok => send_set ok s
  | AReadTps => Next (mk_tpst (tp_buffer s) (tp_seqno s) 0 (tp_sets s) (tp_open s)) [ETps (tp_sent s)]
  | AReadSets => Next (mk_tpst (tp_buffer s) (tp_seqno s) (tp_sent s) 0 (tp_open s)) [ESets (tp_sets s)]
  | AReset => match tp_open s with None => Next (mk_tpst h_empty 0 0 0 None) [EReset] | Some _ => Stuck end
  end.

(** Any execution: a list of steps; the events in order. *)
Fixpoint tp_run (l : list action) (s : tpst) : result :=
  match l with
  | [] => Next s []
  | a :: l' =>
    match tp_step a s with
    | Next s1 e => match tp_run l' s1 with Next s2 e' => Next s2 (e ++ e') | r => r end
    | r => r
    end
  end.
End Tp.

Arguments mk_tpset {T} _ _ _ _. Arguments ts_start {T} _. Arguments ts_end {T} _. Arguments ts_seqno {T} _. Arguments ts_objects {T} _.
Arguments mk_tpst {T heap} _ _ _ _ _. Arguments tp_buffer {T heap} _. Arguments tp_seqno {T heap} _. Arguments tp_sent {T heap} _.
Arguments tp_sets {T heap} _. Arguments tp_open {T heap} _.
Arguments AAdd {T} _ _. Arguments ATry {T} _. Arguments ASend {T} _. Arguments AFinish {T} _.
Arguments AReadTps {T}. Arguments AReadSets {T}. Arguments AReset {T}.
Arguments EAdd {T} _ _. Arguments ETp {T} _ _. Arguments ESet {T} _ _. Arguments ETps {T} _. Arguments ESets {T} _. Arguments EReset {T}.
Arguments Next {T heap} _ _. Arguments Stuck {T heap}. Arguments Fault {T heap}.
Arguments tp_new {T heap} _.
