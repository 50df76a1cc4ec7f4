(** Model of the life of a data request inside the request handler, as interleaved threads.
    /repo/include/readout/models/DefaultRequestHandlerModel.hpp: start 144-168, stop 170-182,
    issue_request 261-305, get_info 307-362, check_waiting_requests 440-502, data_request 504-623.
    Threads: the caller of issue_request, the workers of the pool, the waiting-list thread, the thread
    that calls stop/start, and the monitoring thread calling get_info. One step is one access to shared
    state (or one critical section of m_waiting_requests_lock); the order of steps is arbitrary.
    Simplified: the latency buffer and the error registry may change arbitrarily between two steps
    ([FBuf]), but one data_request sees one state of them (see C12); the waits for the recording and the
    clean-up thread in stop (lines 174-179) and the clean-up guard (266-277) only delay a thread and are
    left out; the number of worker threads is not bounded; m_handled_requests and response times are
    left out; counters are unbounded integers (std::atomic<int> in the code). *)
From Coq Require Import ZArith List Bool.
From Verif Require Import Base_model Elem_model Lb_model Request_model.
Import ListNotations.
Open Scope Z_scope.

(** A request handed to issue_request; [t_id] numbers the calls and is not part of the program. *)
Record task : Type := mk_task { t_id : nat; t_req : request }.

(** RequestElement (RequestHandlerConcept.hpp): request and retry count. [w_seen] is history: the newest
    timestamps at the checks the entry has been through. *)
Record waiter : Type := mk_waiter { w_task : task; w_retry : nat; w_seen : list Z }.

(** Why a fragment was sent; history only. *)
Inductive why : Type := ByWorker | TimedOut (seen : list Z) | EndOfRun.

(** A fragment handed to the output queue; [a_pushed] is false when the push timed out and the fragment
    was dropped with a warning (lines 285-287, 474-478, 489-491). *)
Record answer : Type := mk_answer { a_task : task; a_frag : fragment; a_why : why; a_pushed : bool }.

(** What check_waiting_requests does with an entry, lines 452-497. *)
Inductive verdict : Type := VReissue | VTimeout | VEnd | VKeep.
Definition verdict_of (retries : nat) (marker : bool) (newest : Z) (w : waiter) : verdict :=
  if rq_end (t_req (w_task w)) <? newest then VReissue                (* 453 *)
  else if (retries <=? w_retry w)%nat then VTimeout                   (* 458 *)
  else if negb marker then VEnd                                       (* 480 *)
  else VKeep.                                                         (* 496 *)

(** std::swap(v[i], v.back()); v.pop_back(): lines 455-456, 477-478, 492-493. *)
Definition swap_remove {A} (l : list A) (i : nat) : list A :=
  match skipn i l with
  | [] => l
  | _ :: tl => match rev tl with
               | [] => firstn i l
               | z :: m => firstn i l ++ z :: rev m
               end
  end.

(** m_waiting_requests[i].retry_count++, line 496. *)
Definition bump (newest : Z) (w : waiter) : waiter := mk_waiter (w_task w) (S (w_retry w)) (w_seen w ++ [newest]).
Fixpoint bump_at (newest : Z) (l : list waiter) (i : nat) : list waiter :=
  match l, i with
  | [], _ => []
  | w :: l', O => bump newest w :: l'
  | w :: l', S i' => w :: bump_at newest l' i'
  end.

(** Result of one pass: entries kept, re-issued, answered by time-out, answered by end of run. *)
Record pass_res : Type := mk_pass { p_kept : list waiter; p_reissued : list waiter; p_timed : list waiter; p_ended : list waiter }.

(** The for loop of lines 451-498, for the case that the marker does not change during the pass ([floop]
    below re-reads it for every entry). The local variable size is the length of the list throughout. *)
Fixpoint pass (fuel : nat) (retries : nat) (marker : bool) (newest : Z) (l : list waiter) (i : nat) : pass_res :=
  match fuel with
  | O => mk_pass l [] [] []
  | S fuel' =>
    match nth_error l i with
    | None => mk_pass l [] [] []
    | Some w =>
      match verdict_of retries marker newest w with
      | VReissue => let r := pass fuel' retries marker newest (swap_remove l i) i in
                    mk_pass (p_kept r) (w :: p_reissued r) (p_timed r) (p_ended r)
      | VTimeout => let r := pass fuel' retries marker newest (swap_remove l i) i in
                    mk_pass (p_kept r) (p_reissued r) (w :: p_timed r) (p_ended r)
      | VEnd => let r := pass fuel' retries marker newest (swap_remove l i) i in
                mk_pass (p_kept r) (p_reissued r) (p_timed r) (w :: p_ended r)
      | VKeep => pass fuel' retries marker newest (bump_at newest l i) (S i)
      end
    end
  end.

Definition check_pass (retries : nat) (marker : bool) (newest : Z) (l : list waiter) : pass_res :=
  pass (length l) retries marker newest l 0.

Section Flow.
Variable dnf : Z.                (* bit number of kDataNotFound *)
Variable lk : link.
Variable tick : Z.
Context {B : Type}.
Variable L : lb elem B.
Variable retries : nat.          (* m_retry_count *)

(** Where a worker is: about to look at the buffer; having looked at it, before loading m_run_marker
    (line 588); about to push the fragment (284); about to put the request on the waiting list (291). *)
Inductive wstep : Type := KBegin | KRead (missing : bool) (buf : B) | KPush (fr : fragment) | KWait.

(** The waiting-list thread: loading m_run_marker (442); reading the size, without the lock (442);
    locking (444); in the loop at index i with the newest timestamp (451); ended. *)
Inductive lpc : Type := LTop | LSize | LLock | LPass (i : nat) (newest : Z) | LDone.

(** The thread calling stop: running; marker cleared (172); waiting-list thread joined (180); pool joined (181). *)
Inductive spc : Type := SRun | SAsked | SJoined | SDone.

Record fstate : Type := mk_fstate {
  f_marker : bool;                 (* m_run_marker *)
  f_pool : list task;              (* tasks posted to the pool and not yet started *)
  f_work : list (task * wstep);    (* tasks being executed *)
  f_waiting : list waiter;         (* m_waiting_requests *)
  f_loop : lpc;
  f_stop : spc;
  f_buf : bool * B;                (* has_error("MISSING_FRAMES") and the latency buffer *)
  f_stats : stats;                 (* counters since they were last read *)
  f_timed : Z;                     (* m_num_requests_timed_out *)
  f_crashed : bool;                (* a null or dangling pointer was dereferenced *)
  f_out : list answer;             (* fragments sent *)
  (* history: *)
  f_issued : list task;            (* requests accepted so far *)
  f_lost : list task;              (* destroyed with the old pool at the next start *)
  f_sum : stats;                   (* totals published by get_info since the start *)
  f_sum_timed : Z;
  f_reads : list (B * request);    (* data_request executions since the start *)
  f_start_out : nat                (* number of fragments sent before the start *)
}.

Inductive counter : Type := NFound | NBad | NOld | NDelayed | NUncategorized | NTimed.

Inductive faction : Type :=
| FIssue (r : request)             (* issue_request *)
| FBuf (missing : bool) (b : B)    (* the buffer or the registry changes *)
| FTake (i : nat)                  (* a pool thread starts the i-th posted task *)
| FWork (i : nat) (full : bool)    (* a worker takes a step; [full]: the fragment queue is full until the time-out *)
| FLoop (full : bool)              (* the waiting-list thread takes a step *)
| FStop                            (* the thread in stop() takes a step *)
| FStart                           (* start() *)
| FInfo (c : counter).             (* one of the exchange(0) calls of get_info, lines 310-318 *)

Definition no_stats : stats := mk_stats 0 0 0 0 0.

(** The state after the first start(). *)
Definition finit (missing : bool) (b : B) : fstate :=
  mk_fstate true [] [] [] LTop SRun (missing, b) no_stats 0 false [] [] [] no_stats 0 [] 0.

Definition upd_work (s : fstate) (w : list (task * wstep)) : fstate :=
  mk_fstate (f_marker s) (f_pool s) w (f_waiting s) (f_loop s) (f_stop s) (f_buf s) (f_stats s) (f_timed s)
    (f_crashed s) (f_out s) (f_issued s) (f_lost s) (f_sum s) (f_sum_timed s) (f_reads s) (f_start_out s).
Definition upd_loop (s : fstate) (pool : list task) (w : list waiter) (l : lpc) : fstate :=
  mk_fstate (f_marker s) pool (f_work s) w l (f_stop s) (f_buf s) (f_stats s) (f_timed s)
    (f_crashed s) (f_out s) (f_issued s) (f_lost s) (f_sum s) (f_sum_timed s) (f_reads s) (f_start_out s).
Definition upd_out (s : fstate) (st : stats) (timed : Z) (a : answer) : fstate :=
  mk_fstate (f_marker s) (f_pool s) (f_work s) (f_waiting s) (f_loop s) (f_stop s) (f_buf s) st timed
    (f_crashed s) (f_out s ++ [a]) (f_issued s) (f_lost s) (f_sum s) (f_sum_timed s) (f_reads s) (f_start_out s).
Definition upd_read (s : fstate) (st : stats) (x : B * request) : fstate :=
  mk_fstate (f_marker s) (f_pool s) (f_work s) (f_waiting s) (f_loop s) (f_stop s) (f_buf s) st (f_timed s)
    (f_crashed s) (f_out s) (f_issued s) (f_lost s) (f_sum s) (f_sum_timed s) (f_reads s ++ [x]) (f_start_out s).
Definition upd_stop (s : fstate) (m : bool) (p : spc) : fstate :=
  mk_fstate m (f_pool s) (f_work s) (f_waiting s) (f_loop s) p (f_buf s) (f_stats s) (f_timed s)
    (f_crashed s) (f_out s) (f_issued s) (f_lost s) (f_sum s) (f_sum_timed s) (f_reads s) (f_start_out s).
Definition crash_now (s : fstate) : fstate :=
  mk_fstate (f_marker s) (f_pool s) (f_work s) (f_waiting s) (f_loop s) (f_stop s) (f_buf s) (f_stats s) (f_timed s)
    true (f_out s) (f_issued s) (f_lost s) (f_sum s) (f_sum_timed s) (f_reads s) (f_start_out s).

Definition replace {A} (l : list A) (i : nat) (x : A) : list A := firstn i l ++ x :: skipn (S i) l.
Definition remove_at {A} (l : list A) (i : nat) : list A := firstn i l ++ skipn (S i) l.

(** A worker's step, lines 272-293. *)
Definition fwork (s : fstate) (i : nat) (full : bool) : option fstate :=
  match nth_error (f_work s) i with
  | None => None
  | Some (t, KBegin) =>
      Some (upd_work s (replace (f_work s) i (t, KRead (fst (f_buf s)) (snd (f_buf s)))))
  | Some (t, KRead missing buf) =>
      match data_request dnf lk tick L (f_marker s) missing buf (t_req t) (f_stats s) with
      | Ok (kNotYet, _, st) => Some (upd_read (upd_work s (replace (f_work s) i (t, KWait))) st (buf, t_req t))
      | Ok (_, Some fr, st) => Some (upd_read (upd_work s (replace (f_work s) i (t, KPush fr))) st (buf, t_req t))
      | _ => Some (crash_now s)
      end
  | Some (t, KPush fr) =>
      Some (upd_out (upd_work s (remove_at (f_work s) i)) (f_stats s) (f_timed s) (mk_answer t fr ByWorker (negb full)))
  | Some (t, KWait) =>
      match f_loop s with
      | LPass _ _ => None                                   (* m_waiting_requests_lock is taken *)
      | _ => Some (upd_loop (upd_work s (remove_at (f_work s) i)) (f_pool s) (f_waiting s ++ [mk_waiter t 0 []]) (f_loop s))
      end
  end.

Definition one_bad (st : stats) : stats :=
  mk_stats (st_found st) (st_bad st + 1) (st_old st) (st_delayed st) (st_uncategorized st).

(** A step of check_waiting_requests, lines 440-502. *)
Definition floop (s : fstate) (full : bool) : option fstate :=
  match f_loop s with
  | LTop => Some (upd_loop s (f_pool s) (f_waiting s) (if f_marker s then LLock else LSize))
  | LSize => Some (upd_loop s (f_pool s) (f_waiting s) (match f_waiting s with [] => LDone | _ => LLock end))
  | LLock =>
      match lb_back L (snd (f_buf s)) with
      | Ok None => Some (upd_loop s (f_pool s) (f_waiting s) (LPass 0 0))
      | Ok (Some e) => Some (upd_loop s (f_pool s) (f_waiting s) (LPass 0 (e_ts e)))
      | Crash => Some (crash_now s)
      end
  | LPass i newest =>
      match nth_error (f_waiting s) i with
      | None => Some (upd_loop s (f_pool s) (f_waiting s) LTop)
      | Some w =>
        let fr := create_empty_fragment dnf lk (t_req (w_task w)) in
        match verdict_of retries (f_marker s) newest w with
        | VReissue => Some (upd_loop s (f_pool s ++ [w_task w]) (swap_remove (f_waiting s) i) (LPass i newest))
        | VTimeout => Some (upd_out (upd_loop s (f_pool s) (swap_remove (f_waiting s) i) (LPass i newest))
                              (one_bad (f_stats s)) (f_timed s + 1)
                              (mk_answer (w_task w) fr (TimedOut (w_seen w ++ [newest])) (negb full)))
        | VEnd => Some (upd_out (upd_loop s (f_pool s) (swap_remove (f_waiting s) i) (LPass i newest))
                              (one_bad (f_stats s)) (f_timed s)
                              (mk_answer (w_task w) fr EndOfRun (negb full)))
        | VKeep => Some (upd_loop s (f_pool s) (bump_at newest (f_waiting s) i) (LPass (S i) newest))
        end
      end
  | LDone => None
  end.

(** exchange(0) of one counter (lines 310-318): its value goes to the published totals. *)
Definition finfo (s : fstate) (c : counter) : fstate :=
  let st := f_stats s in let su := f_sum s in
  let put (st su : stats) (t st_t : Z) :=
    mk_fstate (f_marker s) (f_pool s) (f_work s) (f_waiting s) (f_loop s) (f_stop s) (f_buf s) st t
      (f_crashed s) (f_out s) (f_issued s) (f_lost s) su st_t (f_reads s) (f_start_out s) in
  match c with
  | NFound => put (mk_stats 0 (st_bad st) (st_old st) (st_delayed st) (st_uncategorized st))
                  (mk_stats (st_found su + st_found st) (st_bad su) (st_old su) (st_delayed su) (st_uncategorized su)) (f_timed s) (f_sum_timed s)
  | NBad => put (mk_stats (st_found st) 0 (st_old st) (st_delayed st) (st_uncategorized st))
                (mk_stats (st_found su) (st_bad su + st_bad st) (st_old su) (st_delayed su) (st_uncategorized su)) (f_timed s) (f_sum_timed s)
  | NOld => put (mk_stats (st_found st) (st_bad st) 0 (st_delayed st) (st_uncategorized st))
                (mk_stats (st_found su) (st_bad su) (st_old su + st_old st) (st_delayed su) (st_uncategorized su)) (f_timed s) (f_sum_timed s)
  | NDelayed => put (mk_stats (st_found st) (st_bad st) (st_old st) 0 (st_uncategorized st))
                (mk_stats (st_found su) (st_bad su) (st_old su) (st_delayed su + st_delayed st) (st_uncategorized su)) (f_timed s) (f_sum_timed s)
  | NUncategorized => put (mk_stats (st_found st) (st_bad st) (st_old st) (st_delayed st) 0)
                (mk_stats (st_found su) (st_bad su) (st_old su) (st_delayed su) (st_uncategorized su + st_uncategorized st)) (f_timed s) (f_sum_timed s)
  | NTimed => put st su 0 (f_sum_timed s + f_timed s)
  end.

(** stop(), lines 170-182; thread_pool::join (external) returns when every posted task has finished. *)
Definition fstop (s : fstate) : option fstate :=
  match f_stop s with
  | SRun => Some (upd_stop s false SAsked)
  | SAsked => match f_loop s with LDone => Some (upd_stop s false SJoined) | _ => None end
  | SJoined => match f_pool s, f_work s with [], [] => Some (upd_stop s false SDone) | _, _ => None end
  | SDone => None
  end.

(** start(), lines 144-168: counters reset, a new pool (the tasks left in the old one are destroyed
    with it), marker set, waiting-list thread started. m_waiting_requests is not cleared. *)
Definition fstart (s : fstate) : option fstate :=
  match f_stop s with
  | SDone => Some (mk_fstate true [] (f_work s) (f_waiting s) LTop SRun (f_buf s) no_stats 0 (f_crashed s) (f_out s)
                     (f_issued s) (f_lost s ++ f_pool s) no_stats 0 [] (length (f_out s)))
  | _ => None
  end.

Definition fstep (s : fstate) (a : faction) : option fstate :=
  if f_crashed s then None else
  match a with
  | FIssue r =>
      let t := mk_task (length (f_issued s)) r in
      Some (mk_fstate (f_marker s) (f_pool s ++ [t]) (f_work s) (f_waiting s) (f_loop s) (f_stop s) (f_buf s) (f_stats s)
              (f_timed s) (f_crashed s) (f_out s) (f_issued s ++ [t]) (f_lost s) (f_sum s) (f_sum_timed s) (f_reads s) (f_start_out s))
  | FBuf missing b =>
      Some (mk_fstate (f_marker s) (f_pool s) (f_work s) (f_waiting s) (f_loop s) (f_stop s) (missing, b) (f_stats s)
              (f_timed s) (f_crashed s) (f_out s) (f_issued s) (f_lost s) (f_sum s) (f_sum_timed s) (f_reads s) (f_start_out s))
  | FTake i =>
      match f_stop s with
      | SDone => None                                          (* the pool has no threads any more *)
      | _ => match nth_error (f_pool s) i with
             | Some t => Some (mk_fstate (f_marker s) (remove_at (f_pool s) i) (f_work s ++ [(t, KBegin)]) (f_waiting s)
                           (f_loop s) (f_stop s) (f_buf s) (f_stats s) (f_timed s) (f_crashed s) (f_out s) (f_issued s)
                           (f_lost s) (f_sum s) (f_sum_timed s) (f_reads s) (f_start_out s))
             | None => None
             end
      end
  | FWork i full => fwork s i full
  | FLoop full => floop s full
  | FStop => fstop s
  | FStart => fstart s
  | FInfo c => Some (finfo s c)
  end.

Fixpoint frun (s : fstate) (acts : list faction) : option fstate :=
  match acts with
  | [] => Some s
  | a :: acts' => match fstep s a with Some s' => frun s' acts' | None => None end
  end.

End Flow.
