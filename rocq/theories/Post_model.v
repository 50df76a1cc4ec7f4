(** Model of the post-processing of raw data: /repo/include/readout/models/TaskRawDataProcessorModel.hpp
    folly::ProducerConsumerQueue (external) is modelled by its contract: a FIFO with size-1 places (a size below 2 is
    refused by its constructor); ReusableThread by its contract (Thread_model.v): set_work is ignored while the thread
    is busy. Threads interleave at the calls on the queues. *)
From Coq Require Import ZArith List Bool.
From Verif Require Import Base_model Loops_model.
Import ListNotations.
Open Scope nat_scope.

Section Post.
Context {X : Type}.                        (* the items: pointers into the latency buffer, or null *)

(** A worker is without work, about to test the loop condition (line 139), or about to read (line 141). *)
Inductive pphase : Type := PIdle | PTest | PRead.

(** A queue with the thread of the same index, and the items given to the task (line 142). *)
Record lane : Type := mk_lane { l_cap : nat; l_queue : list X; l_seen : list X; l_phase : pphase }.
Record post : Type := mk_post { p_tasks : nat; p_lanes : list lane; p_marker : bool }.

Inductive paction : Type :=
| PAddTask                                 (* add_postprocess_task, 114-119 *)
| PConf (size : nat)                       (* conf, 47-63, with postprocess_queue_sizes *)
| PStart | PStop                           (* start, 65-76; stop, 78-81 (the waiting of 82-84 is the caller's) *)
| POffer (x : X)                           (* postprocess_item, 99-106 *)
| PThread (i : nat).                       (* one step of run_post_processing_thread, 136-147, of thread i *)

Definition post_new : post := mk_post 0 [] false.

Definition new_lane (size : nat) : lane := mk_lane (size - 1) [] [] PIdle.

(** write of line 102 on one queue. *)
Definition offer_lane (x : X) (l : lane) : lane :=
  if (length (l_queue l) <? l_cap l)%nat then mk_lane (l_cap l) (l_queue l ++ [x]) (l_seen l) (l_phase l) else l.

Definition start_lane (l : lane) : lane :=
  mk_lane (l_cap l) (l_queue l) (l_seen l) (match l_phase l with PIdle => PTest | ph => ph end).

Definition thread_lane (marker : bool) (l : lane) : lane :=
  match l_phase l with
  | PIdle => l
  | PTest => mk_lane (l_cap l) (l_queue l) (l_seen l)
               (if marker || (0 <? length (l_queue l))%nat then PRead else PIdle)        (* 139 *)
  | PRead => match l_queue l with
             | [] => mk_lane (l_cap l) [] (l_seen l) PTest                               (* 143-145 *)
             | x :: q => mk_lane (l_cap l) q (l_seen l ++ [x]) PTest                     (* 141-142 *)
             end
  end.

(** start, line 73: m_items_to_postprocess_queues[i] for i below the number of tasks. *)
Definition start (s : post) : res post :=
  if (p_tasks s <=? length (p_lanes s))%nat
  then Ok (mk_post (p_tasks s) (map start_lane (firstn (p_tasks s) (p_lanes s)) ++ skipn (p_tasks s) (p_lanes s)) true)
  else Crash.

Definition paction_step (s : post) (a : paction) : res post :=
  match a with
  | PAddTask => Ok (mk_post (S (p_tasks s)) (p_lanes s) (p_marker s))
  | PConf size =>
      if (2 <=? size)%nat || (p_tasks s =? 0)%nat
      then Ok (mk_post (p_tasks s) (p_lanes s ++ repeat (new_lane size) (p_tasks s)) (p_marker s))
      else Crash
  | PStart => start s
  | PStop => Ok (mk_post (p_tasks s) (p_lanes s) false)
  | POffer x => Ok (mk_post (p_tasks s) (map (offer_lane x) (p_lanes s)) (p_marker s))
  | PThread i => Ok (mk_post (p_tasks s)
                       (match nth_error (p_lanes s) i with Some l => set_nth i (thread_lane (p_marker s) l) (p_lanes s) | None => p_lanes s end)
                       (p_marker s))
  end.

Fixpoint post_run (s : post) (acts : list paction) : res post :=
  match acts with [] => Ok s | a :: acts' => do s1 <- paction_step s a; post_run s1 acts' end.
End Post.
