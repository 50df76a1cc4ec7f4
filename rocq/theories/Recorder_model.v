(** Model of the life of a recorder module under the commands conf, start, stop and its destruction, with its worker thread and monitoring.
    /repo/plugins/DataRecorder.cpp 29-35, 83-104; /repo/include/readout/models/RecorderModel.hpp 34-112; utils/BufferedFileWriter.hpp as in
    File_model.v, here with several files; utils/ReusableThread.hpp 28-117. init is done. Commands come one after the other.
    The input queue is unbounded and its operations are atomic (the real one may refuse a push; that is the producer's affair). *)
From Coq Require Import String ZArith List Bool Arith.
From Verif Require Import Base_model File_model.
Import ListNotations.
Open Scope nat_scope.

Section Recorder.
Variable enc : codec -> list Z -> list Z.
Variable d : device.

(** What do_conf, RecorderModel.hpp 64-76, gets: output_file (a path), stream_buffer_size, compression_algorithm, use_o_direct. *)
Record conf : Type := mkConf { cf_path : nat; cf_size : nat; cf_alg : string; cf_direct : bool }.

(** ** The files *)
(** The file the writer has open: that of a path, or one whose path has been removed. *)
Inductive place : Type := Nowhere | At (p : nat) | Orphan (f : option (list Z)).
(** The files by path, the file and the state of m_buffered_writer. *)
Record disk : Type := mkDisk { k_fs : nat -> option (list Z); k_place : place; k_w : writer }.
Definition the_file (x : disk) : option (list Z) :=
  match k_place x with Nowhere => None | At p => k_fs x p | Orphan f => f end.
Definition set_path (fs : nat -> option (list Z)) (p : nat) (f : option (list Z)) : nat -> option (list Z) := fun q => if q =? p then f else fs q.
(** The disk after the writer has done something to its file. *)
Definition with_world (x : disk) (y : world) : disk :=
  match k_place x with
  | Nowhere => mkDisk (k_fs x) Nowhere (snd y)
  | At p => mkDisk (set_path (k_fs x) p (fst y)) (At p) (snd y)
  | Orphan _ => mkDisk (k_fs x) (Orphan (fst y)) (snd y)
  end.
Definition world_of (x : disk) : world := (the_file x, k_w x).

(** remove(3), RecorderModel.hpp 68: [works] says whether the file system lets it. A file that is open lives on without a path. *)
Definition removed (p : nat) (works : bool) (x : disk) : disk :=
  if works then
    mkDisk (set_path (k_fs x) p None)
           (match k_place x with At q => if q =? p then Orphan (k_fs x p) else At q | y => y end) (k_w x)
  else x.

(** BufferedFileWriter.hpp 99-141: an open writer is closed; then ::open ([works] says whether it succeeds), not truncating; then the algorithm is looked up.
    The result says whether open returned. *)
Definition opened (g : conf) (works : bool) (x : disk) : bool * disk :=
  let x1 := if w_open (k_w x) then with_world x (w_close enc d (world_of x)) else x in
  if negb works then (false, mkDisk (k_fs x1) Nowhere (k_w x1)) else
  let fs := set_path (k_fs x1) (cf_path g) (Some (content (k_fs x1 (cf_path g)))) in
  match codec_of (cf_alg g) with
  | None => (false, mkDisk fs Nowhere (k_w x1))
  | Some c => (true, mkDisk fs (At (cf_path g)) (mk_w true (cf_direct g) (cf_direct g) 0 (cf_size g) [] c [] false))
  end.
(** ~BufferedFileWriter, 82-86. *)
Definition closed (x : disk) : disk :=
  if w_open (k_w x) then let y := with_world x (w_close enc d (world_of x)) in mkDisk (k_fs y) Nowhere (k_w y) else x.
Definition writes (e : list Z) (x : disk) : bool * disk := let r := w_write d e (world_of x) in (fst r, with_world x (snd r)).
Definition flushes (x : disk) : disk := with_world x (w_flush d (world_of x)).

(** ** The worker *)
(** ReusableThread.hpp 102-117. Executed and not assigned: [Awake] before the test 107, [Doze] after it and before the wait 112, [Off] waiting.
    Assigned and not begun: [Given]; [Missed] if the notification 81 came before the wait: only a spurious wake-up helps. [Late] between 109 and 110:
    executed, still assigned. In do_work, RecorderModel.hpp 93-112: [Test] at the condition of the loop; [Pop] in pop; [Popped], [Counted] before the two increments;
    [Writing] before write; [Flushing] before flush. *)
Inductive worker : Type := Off | Awake | Doze | Given | Missed | Late | Test | Pop | Popped (e : list Z) | Counted (e : list Z) | Writing (e : list Z) | Flushing.
(** get_readiness, 72. *)
Definition ready (w : worker) : bool := match w with Off | Awake | Doze | Late => true | _ => false end.

Inductive cmd : Type :=
| CConf (g : conf) (removes opens : bool)   (* with what the file system answers to remove and to open *)
| CStart | CStop | CDestroy.

(** The steps of the thread that executes a command. *)
Inductive mop : Type := MRemove (p : nat) (works : bool) | MOpen (g : conf) (works : bool) | MZero | MMarker (b : bool) | MGive | MWait | MJoin | MClose.

(** Where get_info, 49-62, is: before it reads the total, before it reads the packets since the last call, before it resets them. *)
Inductive monitor : Type := ITotal | ISince | IReset.

(** [y_fd]: m_fd has been assigned. m_run_marker; the worker; the queue; m_packets_processed_total, m_packets_processed_since_last_info (atomic<int>);
    the command in progress. m_time_point_last_info (written by the worker at its beginning and by get_info, without synchronisation) is left out. *)
Record rec : Type := mkRec {
  y_disk : disk; y_fd : bool; y_marker : bool; y_thread : worker; y_queue : list (list Z); y_total : Z; y_since : Z; y_mon : monitor;
  y_todo : option (cmd * list mop)
}.
(** The constructor, 34-37; [fs]: the files there are. m_run_marker is not initialised: any value. *)
Definition rec_new (fs : nat -> option (list Z)) (marker : bool) : rec :=
  mkRec (mkDisk fs Nowhere w_new) false marker Awake [] 0%Z 0%Z ITotal None.

Definition set_disk (s : rec) (x : disk) : rec := mkRec x (y_fd s) (y_marker s) (y_thread s) (y_queue s) (y_total s) (y_since s) (y_mon s) (y_todo s).
Definition set_fd (s : rec) : rec := mkRec (y_disk s) true (y_marker s) (y_thread s) (y_queue s) (y_total s) (y_since s) (y_mon s) (y_todo s).
Definition set_marker (s : rec) (b : bool) : rec := mkRec (y_disk s) (y_fd s) b (y_thread s) (y_queue s) (y_total s) (y_since s) (y_mon s) (y_todo s).
Definition set_thread (s : rec) (w : worker) : rec := mkRec (y_disk s) (y_fd s) (y_marker s) w (y_queue s) (y_total s) (y_since s) (y_mon s) (y_todo s).
Definition set_queue (s : rec) (q : list (list Z)) : rec := mkRec (y_disk s) (y_fd s) (y_marker s) (y_thread s) q (y_total s) (y_since s) (y_mon s) (y_todo s).
Definition set_total (s : rec) (z : Z) : rec := mkRec (y_disk s) (y_fd s) (y_marker s) (y_thread s) (y_queue s) z (y_since s) (y_mon s) (y_todo s).
Definition set_since (s : rec) (z : Z) : rec := mkRec (y_disk s) (y_fd s) (y_marker s) (y_thread s) (y_queue s) (y_total s) z (y_mon s) (y_todo s).
Definition set_mon (s : rec) (m : monitor) : rec := mkRec (y_disk s) (y_fd s) (y_marker s) (y_thread s) (y_queue s) (y_total s) (y_since s) m (y_todo s).
Definition set_todo (s : rec) (t : option (cmd * list mop)) : rec := mkRec (y_disk s) (y_fd s) (y_marker s) (y_thread s) (y_queue s) (y_total s) (y_since s) (y_mon s) t.

Inductive action : Type :=
| ACommand (c : cmd)        (* the framework issues a command; only when the last one has returned *)
| AStep                     (* the thread executing the command takes its next step *)
| AThread                   (* the worker takes its next step *)
| ASpurious                 (* the worker wakes up without notification *)
| AOffer (e : list Z)       (* the producer pushes a payload *)
| AMonitor.                 (* the monitoring thread takes its next step in get_info *)

Inductive event : Type :=
| ECommand (c : cmd) | EReturned (c : cmd) | EThrew (c : cmd)
| EIgnored                  (* set_work returned false and nobody looked *)
| EOffer (e : list Z) | ETake (e : list Z)
| EWarn                     (* CannotWriteToFile, 104 *)
| ETotal (v : Z) | ESince (v : Z).

(** The worker. A pop that finds nothing in time goes round the loop. A flush with an m_fd never assigned hands an indeterminate value to fcntl: Crash. *)
Definition thread_step (s : rec) : res (rec * list event) :=
  match y_thread s with
  | Off | Missed => Ok (s, [])
  | Awake => Ok (set_thread s Doze, [])
  | Doze => Ok (set_thread s Off, [])
  | Late => Ok (set_thread s Awake, [])
  | Given => Ok (set_thread s Test, [])
  | Test => Ok (set_thread s (if y_marker s then Pop else Flushing), [])
  | Pop => match y_queue s with
           | [] => Ok (set_thread s Test, [])
           | e :: q => Ok (set_queue (set_thread s (Popped e)) q, [ETake e])
           end
  | Popped e => Ok (set_total (set_thread s (Counted e)) (i32 (y_total s + 1)), [])
  | Counted e => Ok (set_since (set_thread s (Writing e)) (i32 (y_since s + 1)), [])
  | Writing e => let r := writes e (y_disk s) in
                 if fst r then Ok (set_disk (set_thread s Test) (snd r), []) else Ok (set_disk (set_thread s Flushing) (snd r), [EWarn])
  | Flushing => if y_fd s then Ok (set_disk (set_thread s Late) (flushes (y_disk s)), []) else Crash
  end.

(** do_conf 64-76, do_start 77-82, do_stop 84-90; destruction: m_work_thread (123) goes before m_buffered_writer (120). *)
Definition program (c : cmd) : list mop :=
  match c with
  | CConf g removes opens => [MRemove (cf_path g) removes; MOpen g opens]
  | CStart => [MZero; MMarker true; MGive]
  | CStop => [MMarker false; MWait]
  | CDestroy => [MJoin; MClose]
  end.

Inductive outcome : Type := Blocked | Threw (s : rec) | Done (s : rec) (ev : list event) | Bad.

(** MOpen while the worker has work: the writer is used by two threads at once. MGive: set_work, ReusableThread.hpp 76-85, whose result nobody looks at.
    MJoin: ~ReusableThread, 37-48, waits while a task is assigned. *)
Definition mop_step (s : rec) (m : mop) : outcome :=
  match m with
  | MRemove p works => Done (set_disk s (removed p works (y_disk s))) []
  | MOpen g works =>
      if ready (y_thread s) then
        let r := opened g works (y_disk s) in
        let s' := set_fd (set_disk s (snd r)) in
        if fst r then Done s' [] else Threw s'
      else Bad
  | MZero => Done (set_total s 0%Z) []
  | MMarker b => Done (set_marker s b) []
  | MGive => match y_thread s with
             | Off | Awake => Done (set_thread s Given) []
             | Doze => Done (set_thread s Missed) []
             | _ => Done s [EIgnored]
             end
  | MWait => if ready (y_thread s) then Done s [] else Blocked
  | MJoin => match y_thread s with Off | Awake | Doze => Done s [] | _ => Blocked end
  | MClose => Done (set_disk s (closed (y_disk s))) []
  end.

(** The thread executing the command. An exception ends it. *)
Definition command_step (s : rec) : res (rec * list event) :=
  match y_todo s with
  | None => Ok (s, [])
  | Some (c, []) => Ok (set_todo s None, [EReturned c])
  | Some (c, m :: rest) =>
      match mop_step s m with
      | Blocked => Ok (s, [])
      | Threw s' => Ok (set_todo s' None, [EThrew c])
      | Done s' ev => Ok (set_todo s' (Some (c, rest)), ev)
      | Bad => Crash
      end
  end.

(** get_info, 49-62. *)
Definition monitor_step (s : rec) : rec * list event :=
  match y_mon s with
  | ITotal => (set_mon s ISince, [ETotal (y_total s)])
  | ISince => (set_mon s IReset, [ESince (y_since s)])
  | IReset => (set_since (set_mon s ITotal) 0%Z, [])
  end.

Definition rec_step (s : rec) (a : action) : res (rec * list event) :=
  match a with
  | ACommand c => match y_todo s with None => Ok (set_todo s (Some (c, program c)), [ECommand c]) | Some _ => Ok (s, []) end
  | AStep => command_step s
  | AThread => thread_step s
  | ASpurious => Ok (match y_thread s with Off => set_thread s Awake | Missed => set_thread s Given | _ => s end, [])
  | AOffer e => Ok (set_queue s (y_queue s ++ [e]), [EOffer e])
  | AMonitor => Ok (monitor_step s)
  end.

Fixpoint rec_run (s : rec) (acts : list action) : res (rec * list event) :=
  match acts with
  | [] => Ok (s, [])
  | a :: rest => do r <- rec_step s a; do q <- rec_run (fst r) rest; Ok (fst q, snd r ++ snd q)
  end.
End Recorder.
