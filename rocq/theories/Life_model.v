(** Model of the life of a data link handler under the commands conf, start, stop, record, scrap and its destruction, with all its threads.
    /repo/plugins/DataLinkHandler.cpp 60-107, /repo/include/readout/models/ReadoutModel.hpp 104-178, 228-257, 259-340,
    DefaultRequestHandlerModel.hpp 101-182, 184-200, 238-247, 259-301, 407-413, 440-478, TaskRawDataProcessorModel.hpp 47-86, 99-106, 113-118,
    136-147, utils/ReusableThread.hpp 28-76, 102-119. Commands come one after the other (the application framework executes them so) and init is done.
    The threads interleave at the iterations of their loops; what the iterations do to payloads, requests and files is modelled in the other files
    and appears here as an arbitrary outcome. A worker that was given work takes it up (Thread_model.v has the lost wake-up). *)
From Coq Require Import List Bool Arith.
From Verif Require Import Base_model.
Import ListNotations.
Open Scope nat_scope.

(** The ReusableThreads: ReadoutModel.hpp 373, 402, 410; DefaultRequestHandlerModel.hpp m_recording_thread, m_cleanup_thread;
    TaskRawDataProcessorModel.hpp 160. *)
Inductive tid : Type := Consumer | Requester | Timesync | Cleanup | Recording | Post (i : nat).
Definition tid_eq (a b : tid) : bool :=
  match a, b with
  | Consumer, Consumer | Requester, Requester | Timesync, Timesync | Cleanup, Cleanup | Recording, Recording => true
  | Post i, Post j => i =? j
  | _, _ => false
  end.

(** ReusableThread.hpp 102-119: [Off] executed and not assigned; [Given] work assigned, not begun; [Head] in the work, at the condition of
    its loop; [Body] in the loop's body (only told apart where it matters); [Late] between 109 and 110: executed, still assigned. *)
Inductive worker : Type := Off | Given | Head | Body | Late.
(** get_readiness, 68. *)
Definition ready (w : worker) : bool := match w with Off | Late => true | _ => false end.

(** boost::asio::thread_pool: joined, tasks not begun, tasks that found their data not there yet and will go to the waiting list. *)
Record pool : Type := mkPool { o_joined : bool; o_pending : nat; o_retry : nat }.

(** What conf sets: number of post-processing tasks the processor registers (WIBFrameProcessor.hpp 225-236: one with enable_software_tpg),
    whether the buffer's memory could be allocated, enable_raw_recording, retry_count. At least one request handling thread. *)
Record setup : Type := mkSetup { c_tasks : nat; c_alloc : bool; c_record : bool; c_retries : nat }.

Inductive cmd : Type :=
| CConf (c : setup) | CStart (args_ok : bool) | CStop | CRecord | CScrap | CDestroy.

(** The steps of the thread that executes a command. *)
Inductive mop : Type :=
| MConf (c : setup) | MRecord
| MMarker (b : bool) | MHMarker (b : bool) | MPMarker (b : bool)   (* the three run markers: module, request handler, raw processor *)
| MWork (t : tid)         (* set_work, its result ignored *)
| MWait (t : tid)         (* while (!get_readiness()) sleep *)
| MPool | MSpawn          (* new thread pool, m_waiting_queue_thread = std::thread(...) *)
| MJoinWaiting | MJoinPool
| MFlush | MParse (ok : bool)
| MGone (t : tid)         (* ~ReusableThread *)
| MDropWaiting.           (* ~std::thread *)

(** [f_mem]: the buffer has its memory. [f_open]: m_buffered_writer is open. [f_wait]: m_waiting_queue_thread, None: not joinable,
    Some false: finished. [f_list]: the waiting requests with the retries each has left. [f_queues]: lengths of the post-processing queues.
    [f_links]: number of response queues. [f_todo]: the command in progress. *)
Record life : Type := mkLife {
  f_conf : bool;
  f_mem : bool;
  f_open : bool;
  f_retries : nat;
  f_tasks : nat;
  f_queues : list nat;
  f_marker : bool;
  f_hmarker : bool;
  f_pmarker : bool;
  f_thread : tid -> worker;
  f_isrec : bool;
  f_wait : option bool;
  f_list : list nat;
  f_pool : option pool;
  f_ring : nat;
  f_input : nat;
  f_reqs : nat;
  f_links : nat;
  f_todo : option (cmd * list mop)
}.

Definition set_conf (s : life) (v : bool) : life :=
  mkLife v (f_mem s) (f_open s) (f_retries s) (f_tasks s) (f_queues s) (f_marker s) (f_hmarker s) (f_pmarker s) (f_thread s) (f_isrec s) (f_wait s) (f_list s) (f_pool s) (f_ring s) (f_input s) (f_reqs s) (f_links s) (f_todo s).
Definition set_mem (s : life) (v : bool) : life :=
  mkLife (f_conf s) v (f_open s) (f_retries s) (f_tasks s) (f_queues s) (f_marker s) (f_hmarker s) (f_pmarker s) (f_thread s) (f_isrec s) (f_wait s) (f_list s) (f_pool s) (f_ring s) (f_input s) (f_reqs s) (f_links s) (f_todo s).
Definition set_open (s : life) (v : bool) : life :=
  mkLife (f_conf s) (f_mem s) v (f_retries s) (f_tasks s) (f_queues s) (f_marker s) (f_hmarker s) (f_pmarker s) (f_thread s) (f_isrec s) (f_wait s) (f_list s) (f_pool s) (f_ring s) (f_input s) (f_reqs s) (f_links s) (f_todo s).
Definition set_retries (s : life) (v : nat) : life :=
  mkLife (f_conf s) (f_mem s) (f_open s) v (f_tasks s) (f_queues s) (f_marker s) (f_hmarker s) (f_pmarker s) (f_thread s) (f_isrec s) (f_wait s) (f_list s) (f_pool s) (f_ring s) (f_input s) (f_reqs s) (f_links s) (f_todo s).
Definition set_tasks (s : life) (v : nat) : life :=
  mkLife (f_conf s) (f_mem s) (f_open s) (f_retries s) v (f_queues s) (f_marker s) (f_hmarker s) (f_pmarker s) (f_thread s) (f_isrec s) (f_wait s) (f_list s) (f_pool s) (f_ring s) (f_input s) (f_reqs s) (f_links s) (f_todo s).
Definition set_queues (s : life) (v : list nat) : life :=
  mkLife (f_conf s) (f_mem s) (f_open s) (f_retries s) (f_tasks s) v (f_marker s) (f_hmarker s) (f_pmarker s) (f_thread s) (f_isrec s) (f_wait s) (f_list s) (f_pool s) (f_ring s) (f_input s) (f_reqs s) (f_links s) (f_todo s).
Definition set_marker (s : life) (v : bool) : life :=
  mkLife (f_conf s) (f_mem s) (f_open s) (f_retries s) (f_tasks s) (f_queues s) v (f_hmarker s) (f_pmarker s) (f_thread s) (f_isrec s) (f_wait s) (f_list s) (f_pool s) (f_ring s) (f_input s) (f_reqs s) (f_links s) (f_todo s).
Definition set_hmarker (s : life) (v : bool) : life :=
  mkLife (f_conf s) (f_mem s) (f_open s) (f_retries s) (f_tasks s) (f_queues s) (f_marker s) v (f_pmarker s) (f_thread s) (f_isrec s) (f_wait s) (f_list s) (f_pool s) (f_ring s) (f_input s) (f_reqs s) (f_links s) (f_todo s).
Definition set_pmarker (s : life) (v : bool) : life :=
  mkLife (f_conf s) (f_mem s) (f_open s) (f_retries s) (f_tasks s) (f_queues s) (f_marker s) (f_hmarker s) v (f_thread s) (f_isrec s) (f_wait s) (f_list s) (f_pool s) (f_ring s) (f_input s) (f_reqs s) (f_links s) (f_todo s).
Definition set_thread (s : life) (v : tid -> worker) : life :=
  mkLife (f_conf s) (f_mem s) (f_open s) (f_retries s) (f_tasks s) (f_queues s) (f_marker s) (f_hmarker s) (f_pmarker s) v (f_isrec s) (f_wait s) (f_list s) (f_pool s) (f_ring s) (f_input s) (f_reqs s) (f_links s) (f_todo s).
Definition set_isrec (s : life) (v : bool) : life :=
  mkLife (f_conf s) (f_mem s) (f_open s) (f_retries s) (f_tasks s) (f_queues s) (f_marker s) (f_hmarker s) (f_pmarker s) (f_thread s) v (f_wait s) (f_list s) (f_pool s) (f_ring s) (f_input s) (f_reqs s) (f_links s) (f_todo s).
Definition set_wait (s : life) (v : option bool) : life :=
  mkLife (f_conf s) (f_mem s) (f_open s) (f_retries s) (f_tasks s) (f_queues s) (f_marker s) (f_hmarker s) (f_pmarker s) (f_thread s) (f_isrec s) v (f_list s) (f_pool s) (f_ring s) (f_input s) (f_reqs s) (f_links s) (f_todo s).
Definition set_list (s : life) (v : list nat) : life :=
  mkLife (f_conf s) (f_mem s) (f_open s) (f_retries s) (f_tasks s) (f_queues s) (f_marker s) (f_hmarker s) (f_pmarker s) (f_thread s) (f_isrec s) (f_wait s) v (f_pool s) (f_ring s) (f_input s) (f_reqs s) (f_links s) (f_todo s).
Definition set_pool (s : life) (v : option pool) : life :=
  mkLife (f_conf s) (f_mem s) (f_open s) (f_retries s) (f_tasks s) (f_queues s) (f_marker s) (f_hmarker s) (f_pmarker s) (f_thread s) (f_isrec s) (f_wait s) (f_list s) v (f_ring s) (f_input s) (f_reqs s) (f_links s) (f_todo s).
Definition set_ring (s : life) (v : nat) : life :=
  mkLife (f_conf s) (f_mem s) (f_open s) (f_retries s) (f_tasks s) (f_queues s) (f_marker s) (f_hmarker s) (f_pmarker s) (f_thread s) (f_isrec s) (f_wait s) (f_list s) (f_pool s) v (f_input s) (f_reqs s) (f_links s) (f_todo s).
Definition set_input (s : life) (v : nat) : life :=
  mkLife (f_conf s) (f_mem s) (f_open s) (f_retries s) (f_tasks s) (f_queues s) (f_marker s) (f_hmarker s) (f_pmarker s) (f_thread s) (f_isrec s) (f_wait s) (f_list s) (f_pool s) (f_ring s) v (f_reqs s) (f_links s) (f_todo s).
Definition set_reqs (s : life) (v : nat) : life :=
  mkLife (f_conf s) (f_mem s) (f_open s) (f_retries s) (f_tasks s) (f_queues s) (f_marker s) (f_hmarker s) (f_pmarker s) (f_thread s) (f_isrec s) (f_wait s) (f_list s) (f_pool s) (f_ring s) (f_input s) v (f_links s) (f_todo s).
Definition set_todo (s : life) (v : option (cmd * list mop)) : life :=
  mkLife (f_conf s) (f_mem s) (f_open s) (f_retries s) (f_tasks s) (f_queues s) (f_marker s) (f_hmarker s) (f_pmarker s) (f_thread s) (f_isrec s) (f_wait s) (f_list s) (f_pool s) (f_ring s) (f_input s) (f_reqs s) (f_links s) v.

Definition set_worker (s : life) (t : tid) (w : worker) : life :=
  set_thread s (fun t' => if tid_eq t' t then w else f_thread s t').

(** A module after init with [links] request/response queue pairs. *)
Definition life_new (links : nat) : life :=
  mkLife false false false 0 0 [] false false false (fun _ => Off) false None [] None 0 0 0 links None.

Inductive action : Type :=
| AArrive | ARequest          (* a payload, a data request is put on its input queue *)
| ACommand (c : cmd)          (* the framework issues a command; only when the last one has returned *)
| AStep                       (* the thread executing the command takes its next step *)
| AThread (t : tid) (k : nat) (* a ReusableThread takes its next step with outcome [k] *)
| AWaiting (k : nat)          (* the waiting-list thread does one pass *)
| APool (not_yet : bool)      (* a pool thread handles a request up to its decision *)
| APoolPut.                   (* a pool thread puts a request on the waiting list *)

Inductive event : Type :=
| ECommand (c : cmd) | EReturned (c : cmd) | EThrew (c : cmd)
| EError                      (* an ers::error was reported *)
| ERecord | ERecorded         (* a recording is accepted, is over *)
| EIgnored (t : tid).         (* set_work returned false and nobody looked *)

(** issue_request, 259: boost::asio::post on *m_request_handler_thread_pool, [n] times. *)
Definition post (s : life) (n : nat) : res life :=
  match n, f_pool s with
  | O, _ => Ok s
  | _, None => Crash
  | _, Some p => Ok (set_pool s (Some (mkPool (o_joined p) (o_pending p + n) (o_retry p))))
  end.

(** postprocess_item, TaskRawDataProcessorModel.hpp 99-106: queue [i] takes the element if bit [i] says so (it may be full). *)
Fixpoint offer (qs : list nat) (k : nat) : list nat :=
  match qs with
  | [] => []
  | q :: rest => (if Nat.odd k then S q else q) :: offer rest (Nat.div2 k)
  end.
Fixpoint take (qs : list nat) (i : nat) : list nat :=
  match qs, i with
  | [], _ => []
  | q :: rest, O => Nat.pred q :: rest
  | q :: rest, S i' => q :: take rest i'
  end.

(** One iteration of the task of thread [t], or its start or end.
    run_consume, ReadoutModel.hpp 236-256: a payload is written (bit 0 of [k]: the buffer had room) and offered.
    run_requests 315-339: the requests still queued when the marker is off are thrown away.
    run_timesync 265-302: bit 0 of [k]: a fake trigger is issued to every response queue.
    periodic_cleanups 407-413: [k] elements go. The recording, 195-244: ends its time if [k] is not 0; then m_recording is cleared, 243,
    and the file flushed. run_post_processing_thread 136-147. *)
Definition iterate (s : life) (t : tid) (k : nat) : res (life * list event) :=
  match t with
  | Consumer =>
      match f_input s with
      | O => if f_marker s then Ok (s, []) else Ok (set_worker s t Late, [])
      | S n => if f_mem s
               then Ok (set_queues (set_ring (set_input s n) (if Nat.odd k then S (f_ring s) else f_ring s)) (offer (f_queues s) (Nat.div2 k)), [])
               else Crash
      end
  | Requester =>
      if f_marker s then Ok (set_worker s t Body, [])
      else match f_reqs s with O => Ok (set_worker s t Late, []) | S n => Ok (set_reqs s n, []) end
  | Timesync => if f_marker s then Ok (set_worker s t Body, []) else Ok (set_worker s t Late, [])
  | Cleanup => if f_hmarker s then Ok (set_ring s (f_ring s - k), []) else Ok (set_worker s t Late, [])
  | Recording =>
      if f_isrec s then match k with O => Ok (s, []) | S _ => Ok (set_isrec s false, []) end
      else Ok (set_worker s t Late, [ERecorded])
  | Post i =>
      match nth i (f_queues s) 0 with
      | O => if f_pmarker s then Ok (s, []) else Ok (set_worker s t Late, [])
      | S _ => Ok (set_queues s (take (f_queues s) i), [])
      end
  end.

Definition thread_step (s : life) (t : tid) (k : nat) : res (life * list event) :=
  match f_thread s t with
  | Off => Ok (s, [])
  | Given => Ok (match t with Recording => set_isrec (set_worker s t Head) true | _ => set_worker s t Head end, [])
  | Late => Ok (set_worker s t Off, [])
  | Head => iterate s t k
  | Body =>
      match t with
      | Requester =>
          match f_reqs s with
          | O => Ok (set_worker s t Head, [])
          | S n => do s' <- post (set_reqs s n) 1; Ok (set_worker s' t Head, [])
          end
      | Timesync => do s' <- post s (if Nat.odd k then f_links s else 0); Ok (set_worker s' t Head, [])
      | _ => Ok (set_worker s t Head, [])
      end
  end.

(** One pass of check_waiting_requests, 440-478, over the list: request [i] is issued again if bit [i] says so, else answered with an
    empty fragment if it has no retries left. Result: the requests that stay, and how many were issued. (The swaps reorder the list.) *)
Fixpoint pass (l : list nat) (k : nat) : list nat * nat :=
  match l with
  | [] => ([], 0)
  | r :: rest =>
      let (keep, n) := pass rest (Nat.div2 k) in
      if Nat.odd k then (keep, S n) else match r with O => (keep, n) | S r' => (r' :: keep, n) end
  end.
Definition waiting_step (s : life) (k : nat) : res (life * list event) :=
  match f_wait s with
  | Some true =>
      match f_list s with
      | [] => if f_hmarker s then Ok (s, []) else Ok (set_wait s (Some false), [])
      | l => let (keep, n) := pass l k in do s' <- post (set_list s keep) n; Ok (s', [])
      end
  | _ => Ok (s, [])
  end.

(** A posted task, 259-299: data_request answers kNotYet only while m_run_marker is set. *)
Definition pool_step (s : life) (not_yet : bool) : life :=
  match f_pool s with
  | Some (mkPool false (S n) r) => set_pool s (Some (mkPool false n (if not_yet && f_hmarker s then S r else r)))
  | _ => s
  end.
Definition pool_put (s : life) : life :=
  match f_pool s with
  | Some (mkPool false n (S r)) => set_list (set_pool s (Some (mkPool false n r))) (f_list s ++ [f_retries s])
  | _ => s
  end.

Definition posts (s : life) : list tid := map Post (seq 0 (f_tasks s)).

(** The commands as sequences of steps: do_conf 60-66; do_start 76-87 with ReadoutModel::start 135-157, TaskRawDataProcessorModel::start 65-76 and
    DefaultRequestHandlerModel::start 146-171; do_stop 89-97 with 159-176, 173-182 and 78-86; do_record 99-105; do_scrap 68-74; the destructors of the
    members of ReadoutModel 370-411, of DefaultRequestHandlerModel and of TaskRawDataProcessorModel 149-166. *)
Definition program (s : life) (c : cmd) : list mop :=
  match c with
  | CConf c => [MConf c]
  | CStart ok =>
      [MMarker true; MPMarker true] ++ map MWork (posts s) ++
      [MPool; MHMarker true; MWork Cleanup; MSpawn; MWork Consumer; MWork Requester; MWork Timesync; MParse ok]
  | CStop =>
      [MMarker false; MHMarker false; MWait Recording; MWait Cleanup; MJoinWaiting; MJoinPool;
       MWait Timesync; MWait Consumer; MWait Requester; MFlush; MPMarker false] ++ map MWait (posts s)
  | CRecord => [MRecord]
  | CScrap => []
  | CDestroy =>
      [MGone Timesync; MGone Requester; MDropWaiting; MGone Cleanup; MGone Recording] ++ map MGone (posts s) ++ [MGone Consumer]
  end.

(** A thread that may use the buffer's memory at any moment. *)
Definition uses_buffer (s : life) : bool :=
  existsb (fun t => negb (ready (f_thread s t))) (Consumer :: Cleanup :: Recording :: posts s) ||
  match f_wait s with Some true => true | _ => false end ||
  match f_pool s with Some (mkPool false n r) => negb (n + r =? 0) | _ => false end.

Inductive outcome : Type := Blocked | Threw (s : life) | Done (s : life) (ev : list event) | Abort.

(** conf: IterableQueueModel::conf frees the memory and allocates anew (439-447), so a thread using the buffer meanwhile uses freed memory;
    a failed allocation is reported and swallowed (ReadoutModel.hpp 121-125); a file opened once stays (m_recording_configured);
    every conf registers the tasks anew and adds a queue per registered task.
    record 184-193: error if m_recording or no file; set_work's result ignored.
    MWork: set_work 71-81. MSpawn: move assignment to a joinable std::thread calls std::terminate; the destructor of one too. MJoinWaiting: join on a
    thread that is not joinable throws std::system_error. MPool: the old pool, if any, has been joined. A start without conf reads
    m_retry_count uninitialised: Abort. MParse: a start command without run number throws at the end, DataLinkHandler.cpp 83. *)
Definition mop_step (s : life) (m : mop) : outcome :=
  match m with
  | MConf c =>
      if uses_buffer s then Abort
      else let n := f_tasks s + c_tasks c in
           Done (set_conf (set_mem (set_open (set_retries (set_tasks (set_queues (set_ring s 0)
                   (f_queues s ++ repeat 0 n)) n) (c_retries c)) (f_open s || c_record c)) (c_alloc c)) true)
                (if c_alloc c then [] else [EError])
  | MRecord =>
      if f_isrec s || negb (f_open s) then Done s [EError]
      else match f_thread s Recording with Off => Done (set_worker s Recording Given) [ERecord] | _ => Done s [EIgnored Recording] end
  | MMarker b => if f_conf s then Done (set_marker s b) [] else if b then Abort else Done (set_marker s b) []
  | MHMarker b => Done (set_hmarker s b) []
  | MPMarker b => Done (set_pmarker s b) []
  | MWork t => match f_thread s t with Off => Done (set_worker s t Given) [] | _ => Done s [EIgnored t] end
  | MWait t => if ready (f_thread s t) then Done s [] else Blocked
  | MPool => Done (set_pool s (Some (mkPool false 0 0))) []
  | MSpawn => match f_wait s with None => Done (set_wait s (Some true)) [] | Some _ => Abort end
  | MJoinWaiting => match f_wait s with None => Threw s | Some true => Blocked | Some false => Done (set_wait s None) [] end
  | MJoinPool =>
      match f_pool s with
      | None => Abort
      | Some p => if o_pending p + o_retry p =? 0 then Done (set_pool s (Some (mkPool true 0 0))) []
                  else if o_joined p then Done s [] else Blocked
      end
  | MFlush => Done (set_ring s 0) []
  | MParse ok => if ok then Done s [] else Threw s
  | MGone t => match f_thread s t with Off => Done s [] | _ => Blocked end
  | MDropWaiting => match f_wait s with None => Done s [] | Some _ => Abort end
  end.

(** The thread executing the command. An exception ends it. (Nothing may be asked of a destroyed module, Life_spec.v.) *)
Definition command_step (s : life) : res (life * list event) :=
  match f_todo s with
  | None => Ok (s, [])
  | Some (c, []) => Ok (set_todo s None, [EReturned c])
  | Some (c, m :: rest) =>
      match mop_step s m with
      | Blocked => Ok (s, [])
      | Threw s' => Ok (set_todo s' None, [EThrew c])
      | Done s' ev => Ok (set_todo s' (Some (c, rest)), ev)
      | Abort => Crash
      end
  end.

Definition life_step (s : life) (a : action) : res (life * list event) :=
  match a with
  | AArrive => Ok (set_input s (S (f_input s)), [])
  | ARequest => Ok (set_reqs s (S (f_reqs s)), [])
  | ACommand c => match f_todo s with None => Ok (set_todo s (Some (c, program s c)), [ECommand c]) | Some _ => Ok (s, []) end
  | AStep => command_step s
  | AThread t k => thread_step s t k
  | AWaiting k => waiting_step s k
  | APool b => Ok (pool_step s b, [])
  | APoolPut => Ok (pool_put s, [])
  end.

Fixpoint life_run (s : life) (acts : list action) : res (life * list event) :=
  match acts with
  | [] => Ok (s, [])
  | a :: rest => do r <- life_step s a; do q <- life_run (fst r) rest; Ok (fst q, snd r ++ snd q)
  end.
