(** Model of the mutual exclusion between request handling, recording and clean-up.
    /repo/include/readout/models/DefaultRequestHandlerModel.hpp: issue_request 266-276, record 208-219,
    cleanup_check 250-259; fields m_requests_running, m_cv_mutex, m_cv, m_cleanup_requested (625-700).
    Every step is one lock acquisition, critical section, notification, pop or wake-up; the schedule is
    arbitrary. m_cv.wait(lock, pred) is "while (!pred) sleep": a thread that finds the predicate false
    sleeps and releases the mutex; it wakes by notify_all or spuriously and then contends for the mutex
    again. Simplified: sections between lock and unlock that contain no wait and no pop are one step
    (nobody else can hold the mutex meanwhile); what is done inside the guarded section (data_request,
    lower_bound) and the decision how many elements to pop are left open. *)
From Coq Require Import ZArith List Bool.
From Verif Require Import Base_model.
Import ListNotations.
Open Scope Z_scope.

(** A thread of the request pool or the recording thread: outside; about to lock (267/210); asleep in
    wait (268/211); after the increment, before notify_all (271/214); inside the guarded section
    (272/215); after the decrement, before notify_all (277/220). *)
Inductive wpc : Type := WOut | WLock | WSleep | WNotifyIn | WIn | WNotifyOut.

(** The clean-up thread: outside; asleep in wait (254); woken, about to re-check; popping with k
    iterations left (255, cleanup()); about to clear the flag (256); about to notify (257). *)
Inductive gpc : Type := GIdle | GSleep | GWoken | GRun (k : nat) | GClear | GNotify.

Record gstate : Type := mk_gstate {
  g_threads : list wpc;
  g_running : Z;          (* m_requests_running, std::atomic<int> *)
  g_requested : bool;     (* m_cleanup_requested *)
  g_clean : gpc;
  g_pops : nat            (* number of elements removed so far *)
}.

Inductive gaction : Type :=
| GEnter (i : nat)              (* thread i gets a request (or starts a recording pass) *)
| GWork (i : nat)               (* thread i takes a step *)
| GSpurious (i : nat)           (* thread i wakes without notification *)
| GClean (over : bool) (k : nat)   (* clean-up step; [over]: occupancy() > m_pop_limit_size; k: number to pop *)
| GSpuriousC.

Definition ginit (threads : nat) : gstate := mk_gstate (repeat WOut threads) 0 false GIdle 0.

Definition gfree (s : gstate) : bool :=
  match g_clean s with GIdle | GSleep | GWoken => true | _ => false end.

Fixpoint setw (l : list wpc) (i : nat) (w : wpc) : list wpc :=
  match l, i with
  | [], _ => []
  | _ :: l', O => w :: l'
  | y :: l', S i' => y :: setw l' i' w
  end.

(** m_cv.notify_all(): every sleeper leaves wait and contends for the mutex. *)
Definition wake (l : list wpc) : list wpc := map (fun w => match w with WSleep => WLock | _ => w end) l.
Definition wakec (c : gpc) : gpc := match c with GSleep => GWoken | _ => c end.

Definition gwork (s : gstate) (i : nat) : option gstate :=
  match nth_error (g_threads s) i with
  | Some WLock =>
      if gfree s then
        if g_requested s
        then Some (mk_gstate (setw (g_threads s) i WSleep) (g_running s) (g_requested s) (g_clean s) (g_pops s))
        else Some (mk_gstate (setw (g_threads s) i WNotifyIn) (i32 (g_running s + 1)) (g_requested s) (g_clean s) (g_pops s))
      else None
  | Some WNotifyIn =>
      Some (mk_gstate (setw (wake (g_threads s)) i WIn) (g_running s) (g_requested s) (wakec (g_clean s)) (g_pops s))
  | Some WIn =>
      if gfree s
      then Some (mk_gstate (setw (g_threads s) i WNotifyOut) (i32 (g_running s - 1)) (g_requested s) (g_clean s) (g_pops s))
      else None
  | Some WNotifyOut =>
      Some (mk_gstate (setw (wake (g_threads s)) i WOut) (g_running s) (g_requested s) (wakec (g_clean s)) (g_pops s))
  | _ => None
  end.

Definition gclean (s : gstate) (over : bool) (k : nat) : option gstate :=
  match g_clean s with
  | GIdle =>
      if over && negb (g_requested s)                                                (* line 253 *)
      then Some (mk_gstate (g_threads s) (g_running s) true (if g_running s =? 0 then GRun k else GSleep) (g_pops s))
      else if over then Some (mk_gstate (g_threads s) (g_running s) true GIdle (g_pops s))   (* exchange(true) *)
      else Some s
  | GSleep => None
  | GWoken => Some (mk_gstate (g_threads s) (g_running s) (g_requested s) (if g_running s =? 0 then GRun k else GSleep) (g_pops s))
  | GRun (S j) => Some (mk_gstate (g_threads s) (g_running s) (g_requested s) (GRun j) (S (g_pops s)))
  | GRun O => Some (mk_gstate (g_threads s) (g_running s) (g_requested s) GClear (g_pops s))
  | GClear => Some (mk_gstate (g_threads s) (g_running s) false GNotify (g_pops s))
  | GNotify => Some (mk_gstate (wake (g_threads s)) (g_running s) (g_requested s) GIdle (g_pops s))
  end.

Definition gstep (s : gstate) (a : gaction) : option gstate :=
  match a with
  | GEnter i => match nth_error (g_threads s) i with
                | Some WOut => Some (mk_gstate (setw (g_threads s) i WLock) (g_running s) (g_requested s) (g_clean s) (g_pops s))
                | _ => None
                end
  | GWork i => gwork s i
  | GSpurious i => match nth_error (g_threads s) i with
                   | Some WSleep => Some (mk_gstate (setw (g_threads s) i WLock) (g_running s) (g_requested s) (g_clean s) (g_pops s))
                   | _ => None
                   end
  | GClean over k => gclean s over k
  | GSpuriousC => match g_clean s with
                  | GSleep => Some (mk_gstate (g_threads s) (g_running s) (g_requested s) GWoken (g_pops s))
                  | _ => None
                  end
  end.

Fixpoint grun (s : gstate) (acts : list gaction) : option gstate :=
  match acts with
  | [] => Some s
  | a :: acts' => match gstep s a with Some s' => grun s' acts' | None => None end
  end.
