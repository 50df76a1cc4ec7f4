(** Model of the way of a payload from the raw input queue through the latency ring to a post-processing task, over any number of runs.
    /repo/include/readout/models/ReadoutModel.hpp 135-176 (start, stop), 228-257 (run_consume),
    /repo/include/readout/models/TaskRawDataProcessorModel.hpp 65-86, 99-106, 136-147, the ring of Ring_model.v.
    One task with its queue (the queues are independent of each other, Post_model.v); the queue holds pointers into the ring.
    Threads interleave at the calls on the queues and the ring (memory-level interleavings of the ring: Spsc_model.v); folly::ProducerConsumerQueue
    by its contract, a FIFO with size-1 places. A payload is what preprocess_item left of it. Reconfiguration between runs is not modelled.
    A thread that is handed work while it is free takes it (Thread_model.v). *)
From Coq Require Import ZArith List Bool.
From Verif Require Import Base_model Ring_model.
Import ListNotations.
Open Scope Z_scope.

Section Pipe.
Context {A : Type}.

(** run_consume: without work, at the loop condition 236, at the pop 241, with a payload at 243, at back() of 247, at
    postprocess_item of 247 with the pointer (None: null). *)
Inductive cphase : Type := CFree | CTest | CPop | CWrite (x : A) | CBack | COffer (p : option Z).
(** run_post_processing_thread: without work, at 139, at 141, inside the task with the pointer, 142. *)
Inductive wphase : Type := WFree | WTest | WRead | WBusy (p : option Z).
(** The command thread: no run, running, waiting for the consumer in stop (161-166), waiting in TaskRawDataProcessorModel::stop. *)
Inductive command : Type := NoRun | Running | Waiting | Draining.

(** [p_mem i]: the bytes at records_[i], which popFront leaves alone (payloads are trivially destructible). *)
Record pipe : Type := mkPipe {
  p_input : list A; p_ring : ring A; p_mem : Z -> option A; p_consumer : cphase;
  p_queue : list (option Z); p_places : nat; p_worker : wphase; p_command : command
}.

(** m_run_marker of the module, and of the processor. *)
Definition marker (s : pipe) : bool := match p_command s with Running => true | _ => false end.
Definition task_marker (s : pipe) : bool := match p_command s with Running | Waiting => true | _ => false end.

Inductive action : Type :=
| AArrive (x : A)          (* a payload is put on the raw input queue *)
| AConsumer                (* the consumer thread takes its next step *)
| AWorker                  (* the post-processing thread takes its next step *)
| ALook                    (* the running task reads the element it was given *)
| AClean (n : nat)         (* the clean-up removes n of the stored elements *)
| AStart | AStop           (* start; do_stop clears the run marker *)
| AFlush                   (* the rest of stop after the consumer has finished: flush and TaskRawDataProcessorModel::stop *)
| AStopped.                (* stop returns after the task's thread has finished *)

(** What happened, as far as a user could tell. *)
Inductive event : Type :=
| EStored (x : A) | ERefused (x : A)      (* write succeeded, or the buffer was full *)
| EOffer (null accepted : bool)           (* postprocess_item; not accepted: the PostprocessingNotKeepingUp warning *)
| ETaken | ELook (v : option A) | EDone   (* the task is called, reads, returns *)
| ECleaned (left : nat) | EStopped.

(** A new ring of size [n] and a queue constructed with size [q]. *)
Definition pipe_new (n : Z) (q : nat) : res pipe :=
  do r <- ring_new n;
  if (2 <=? q)%nat then Ok (mkPipe [] r (fun _ => None) CFree [] (q - 1) WFree NoRun) else Crash.

Definition set_consumer (s : pipe) (c : cphase) : pipe :=
  mkPipe (p_input s) (p_ring s) (p_mem s) c (p_queue s) (p_places s) (p_worker s) (p_command s).
Definition set_worker (s : pipe) (w : wphase) : pipe :=
  mkPipe (p_input s) (p_ring s) (p_mem s) (p_consumer s) (p_queue s) (p_places s) w (p_command s).
Definition set_ring (s : pipe) (r : ring A) (m : Z -> option A) : pipe :=
  mkPipe (p_input s) r m (p_consumer s) (p_queue s) (p_places s) (p_worker s) (p_command s).
Definition set_command (s : pipe) (c : command) : pipe :=
  mkPipe (p_input s) (p_ring s) (p_mem s) (p_consumer s) (p_queue s) (p_places s) (p_worker s) c.

(** run_consume, 236-256. *)
Definition consumer_step (s : pipe) : res (pipe * list event) :=
  match p_consumer s with
  | CFree => Ok (s, [])
  | CTest => Ok (set_consumer s (if marker s || negb (match p_input s with [] => true | _ => false end) then CPop else CFree), [])
  | CPop => match p_input s with
            | [] => Ok (set_consumer s CTest, [])                                       (* timeout, 251-254 *)
            | x :: l => Ok (mkPipe l (p_ring s) (p_mem s) (CWrite x) (p_queue s) (p_places s) (p_worker s) (p_command s), [])
            end
  | CWrite x =>
      do w <- write x (p_ring s);
      let m := if snd w then upd (p_mem s) (r_write (p_ring s)) (Some x) else p_mem s in
      Ok (set_consumer (set_ring s (fst w) m) CBack, [if snd w then EStored x else ERefused x])
  | CBack => Ok (set_consumer s (COffer (back (p_ring s))), [])
  | COffer p =>
      let full := (p_places s <=? length (p_queue s))%nat in
      let q := if full then p_queue s else p_queue s ++ [p] in
      Ok (mkPipe (p_input s) (p_ring s) (p_mem s) CTest q (p_places s) (p_worker s) (p_command s),
          [EOffer (match p with None => true | Some _ => false end) (negb full)])
  end.

(** run_post_processing_thread, 139-146. *)
Definition worker_step (s : pipe) : res (pipe * list event) :=
  match p_worker s with
  | WFree => Ok (s, [])
  | WTest => Ok (set_worker s (if task_marker s || (0 <? length (p_queue s))%nat then WRead else WFree), [])
  | WRead => match p_queue s with
             | [] => Ok (set_worker s WTest, [])
             | p :: q => Ok (mkPipe (p_input s) (p_ring s) (p_mem s) (p_consumer s) q (p_places s) (WBusy p) (p_command s), [ETaken])
             end
  | WBusy _ => Ok (set_worker s WTest, [EDone])
  end.

Definition act (s : pipe) (a : action) : res (pipe * list event) :=
  match a with
  | AArrive x => Ok (mkPipe (p_input s ++ [x]) (p_ring s) (p_mem s) (p_consumer s) (p_queue s) (p_places s) (p_worker s) (p_command s), [])
  | AConsumer => consumer_step s
  | AWorker => worker_step s
  | ALook => match p_worker s with
             | WBusy (Some i) => Ok (s, [ELook (p_mem s i)])
             | WBusy None => Crash                                                      (* the null pointer is followed *)
             | _ => Ok (s, [])
             end
  | AClean n => (* Request_model.v: never more than is stored *)
      if Z.of_nat n <=? occupancy (p_ring s)
      then do r <- pop n (p_ring s); Ok (set_ring s r (p_mem s), [ECleaned (Z.to_nat (occupancy r))]) else Ok (s, [])
  | AStart => match p_command s with
              | NoRun => Ok (mkPipe (p_input s) (p_ring s) (p_mem s) (match p_consumer s with CFree => CTest | c => c end) (p_queue s) (p_places s)
                               (match p_worker s with WFree => WTest | w => w end) Running, [])
              | _ => Ok (s, [])
              end
  | AStop => match p_command s with Running => Ok (set_command s Waiting, []) | _ => Ok (s, []) end
  | AFlush => match p_command s, p_consumer s with
              | Waiting, CFree => do r <- flush (p_ring s); Ok (set_command (set_ring s r (p_mem s)) Draining, [])
              | _, _ => Ok (s, [])
              end
  | AStopped => match p_command s, p_worker s with
                | Draining, WFree => Ok (set_command s NoRun, [EStopped])
                | _, _ => Ok (s, [])
                end
  end.

Fixpoint pipe_run (s : pipe) (acts : list action) : res (pipe * list event) :=
  match acts with
  | [] => Ok (s, [])
  | a :: acts' => do x <- act s a; do y <- pipe_run (fst x) acts'; Ok (fst y, snd x ++ snd y)
  end.
End Pipe.
Arguments pipe : clear implicits.
Arguments action : clear implicits.
Arguments event : clear implicits.
