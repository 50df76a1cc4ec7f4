(** Model of recording interleaved with arrivals and clean-ups, on a ring latency buffer.
    /repo/include/readout/models/DefaultRequestHandlerModel.hpp, record 184-248, cleanup_check 250-259,
    cleanup 415-438. Threads: producer (ReadoutModel consumer), clean-up thread, recording thread.
    Each step is one access to shared state; the order of steps is arbitrary. Calls on the ring are
    atomic (C03 refines write against pop). Simplified: file writes always succeed (a failure is only
    logged, line 223); get_payload_size() bytes of the element stand for the element; lines 222-230 read the element once
    (the code reads it several times; C18_element_is_not_torn shows that this makes no difference); request threads
    are left out because they touch neither the buffer nor the timestamp to record (their effect, to
    delay a clean-up, only removes schedules; see C12). *)
From Coq Require Import ZArith List Bool.
From Verif Require Import Base_model Ring_model Search_model.
Import ListNotations.
Open Scope Z_scope.

Section Record.
Context {E : Type}.
Variable ts : E -> Z.         (* get_first_timestamp() *)
Variable dur : E -> Z.        (* expected_tick_difference * get_num_frames(), lines 227-228 *)
Variable limit : Z.           (* m_pop_limit_size *)
Variable quota : Z -> Z.      (* unsigned(m_pop_size_pct * occupancy), line 422 *)

(** Clean-up thread: idle; waiting for m_requests_running == 0 (line 254); removal loop with k
    iterations left (425); about to pop after a successful comparison (427); after the loop (435). *)
Inductive cpc : Type := CIdle | CWait | CLoop (k : nat) | CPop (k : nat) | CEnd.

(** Recording thread: idle; top of the while loop (199); reading front() (202); storing the result
    (203); waiting for the clean-up flag (210); searching (214); leaving the section (216-219); loop
    condition with iterator i and k chunks done (222); reading the element (223); storing the new next
    timestamp (229-230); incrementing the iterator (232). *)
Inductive rpc : Type :=
| RIdle | RTop | RFront | RSet (v : Z) | RWait | RSearch | RDec (i : Z)
| RLoop (i : Z) (k : nat) | RDeref (i : Z) (k : nat) | RUpd (e : E) (i : Z) (k : nat) | RIncr (i : Z) (k : nat).

Record rstate : Type := mk_rstate {
  s_ring : ring E;
  s_mem : Z -> option E;      (* what records_[i] last contained: a popped slot keeps its bytes *)
  s_next : Z;                 (* m_next_timestamp_to_record *)
  s_requested : bool;         (* m_cleanup_requested *)
  s_running : Z;              (* m_requests_running *)
  s_cpc : cpc;
  s_rpc : rpc;
  s_file : list E;            (* elements written by the current (or last) recording *)
  s_crashed : bool;           (* a null pointer was dereferenced *)
  (* history, not part of the program: *)
  s_all : list E;             (* elements accepted by the buffer so far *)
  s_popped : nat;             (* how many of them were removed *)
  s_first : option Z;         (* first non-zero timestamp to record of the current (or last) recording *)
  s_upto : Z                  (* timestamp to record, before it is reset at the end *)
}.

Inductive action : Type :=
| AWrite (x : E)              (* producer *)
| AClean                      (* one step of the clean-up thread *)
| AStart                      (* record command *)
| ARec (expired : bool).      (* one step of the recording thread; [expired]: the time is over (198) *)

Definition init (n : Z) : rstate :=
  mk_rstate (mk_ring n (fun _ => None) 0 0 0) (fun _ => None) max_u64 false 0 CIdle RIdle [] false [] 0 None 0.

Definition set_rpc (s : rstate) (p : rpc) : rstate :=
  mk_rstate (s_ring s) (s_mem s) (s_next s) (s_requested s) (s_running s) (s_cpc s) p (s_file s) (s_crashed s)
            (s_all s) (s_popped s) (s_first s) (s_upto s).
Definition set_cpc (s : rstate) (req : bool) (p : cpc) : rstate :=
  mk_rstate (s_ring s) (s_mem s) (s_next s) req (s_running s) p (s_rpc s) (s_file s) (s_crashed s)
            (s_all s) (s_popped s) (s_first s) (s_upto s).
Definition set_running (s : rstate) (k : Z) (p : rpc) : rstate :=
  mk_rstate (s_ring s) (s_mem s) (s_next s) (s_requested s) k (s_cpc s) p (s_file s) (s_crashed s)
            (s_all s) (s_popped s) (s_first s) (s_upto s).
Definition set_next (s : rstate) (v : Z) (p : rpc) (first : option Z) : rstate :=
  mk_rstate (s_ring s) (s_mem s) v (s_requested s) (s_running s) (s_cpc s) p (s_file s) (s_crashed s)
            (s_all s) (s_popped s) first v.
Definition crash (s : rstate) : rstate :=
  mk_rstate (s_ring s) (s_mem s) (s_next s) (s_requested s) (s_running s) (s_cpc s) (s_rpc s) (s_file s) true
            (s_all s) (s_popped s) (s_first s) (s_upto s).

(** m_cv_mutex is held by the clean-up from line 252 to 258 except while it waits in line 254. *)
Definition mutex_free (s : rstate) : bool :=
  match s_cpc s with CIdle | CWait => true | _ => false end.

(** [None]: the thread is blocked or not running. *)
Definition clean_step (s : rstate) : option rstate :=
  match s_cpc s with
  | CIdle =>                                                        (* lines 252-253 *)
      if limit <? occupancy (s_ring s) then Some (set_cpc s true CWait) else Some s
  | CWait =>                                                        (* lines 254, 418-422 *)
      if s_running s =? 0 then
        if limit <? occupancy (s_ring s)
        then Some (set_cpc s true (CLoop (Z.to_nat (quota (occupancy (s_ring s))))))
        else Some (set_cpc s false CIdle)
      else None
  | CLoop O => Some (set_cpc s (s_requested s) CEnd)
  | CLoop (S k) =>                                                  (* line 426 *)
      match deref_opt (s_ring s) (front (s_ring s)) with
      | Ok (Some x) => if ts x <? s_next s then Some (set_cpc s (s_requested s) (CPop k))
                       else Some (set_cpc s (s_requested s) CEnd)
      | _ => Some (crash s)
      end
  | CPop k =>                                                       (* line 427 *)
      match pop 1 (s_ring s) with
      | Ok r => Some (mk_rstate r (s_mem s) (s_next s) (s_requested s) (s_running s) (CLoop k) (s_rpc s) (s_file s)
                                (s_crashed s) (s_all s) (S (s_popped s)) (s_first s) (s_upto s))
      | Crash => Some (crash s)
      end
  | CEnd =>                                                         (* lines 435, 256 *)
      match deref_opt (s_ring s) (front (s_ring s)) with
      | Ok (Some x) => Some (set_cpc s false CIdle)
      | _ => Some (crash s)
      end
  end.

Definition rec_step (expired : bool) (s : rstate) : option rstate :=
  match s_rpc s with
  | RIdle => None
  | RTop =>
      if expired then
        Some (mk_rstate (s_ring s) (s_mem s) max_u64 (s_requested s) (s_running s) (s_cpc s) RIdle (s_file s)
                        (s_crashed s) (s_all s) (s_popped s) (s_first s) (s_upto s))      (* line 237 *)
      else if s_next s =? 0 then Some (set_rpc s RFront)                                   (* lines 199-201 *)
      else if s_requested s then Some s else Some (set_rpc s RWait)
  | RFront =>                                                                              (* line 202 *)
      match deref_opt (s_ring s) (front (s_ring s)) with
      | Ok None => Some (set_rpc s (RSet 0))
      | Ok (Some x) => Some (set_rpc s (RSet (ts x)))
      | Crash => Some (crash s)
      end
  | RSet v => Some (set_next s v RWait (if v =? 0 then None else Some v))                  (* line 203 *)
  | RWait => if mutex_free s && negb (s_requested s) then Some (set_running s (s_running s + 1) RSearch) else None
  | RSearch =>
      match bs_lower_bound ts (s_ring s) (s_next s) with                                   (* line 214 *)
      | SFound i => Some (set_rpc s (RDec i))
      | _ => Some (crash s)
      end
  | RDec i => if mutex_free s then Some (set_running s (s_running s - 1) (RLoop i 0)) else None
  | RLoop i k => if negb (i =? it_end) && it_good (s_ring s) i && (k <? 1000)%nat
                 then Some (set_rpc s (RDeref i k)) else Some (set_rpc s RTop)
  | RDeref i k =>
      match s_mem s i with
      | None => Some (crash s)
      | Some e =>
        if s_next s <=? ts e
        then Some (mk_rstate (s_ring s) (s_mem s) (s_next s) (s_requested s) (s_running s) (s_cpc s) (RUpd e i k)
                             (s_file s ++ [e]) (s_crashed s) (s_all s) (s_popped s) (s_first s) (s_upto s))
        else Some (set_rpc s (RIncr i k))
      end
  | RUpd e i k => Some (set_next s (u64 (ts e + dur e)) (RIncr i (S k)) (s_first s))
  | RIncr i k => Some (set_rpc s (RLoop (it_incr (s_ring s) i) k))
  end.

Definition astep (s : rstate) (a : action) : option rstate :=
  if s_crashed s then None else
  match a with
  | AWrite x =>
      match write x (s_ring s) with
      | Ok (r, true) => Some (mk_rstate r (upd (s_mem s) (r_write (s_ring s)) (Some x)) (s_next s) (s_requested s)
                                        (s_running s) (s_cpc s) (s_rpc s) (s_file s) (s_crashed s)
                                        (s_all s ++ [x]) (s_popped s) (s_first s) (s_upto s))
      | Ok (r, false) => Some (mk_rstate r (s_mem s) (s_next s) (s_requested s)
                                        (s_running s) (s_cpc s) (s_rpc s) (s_file s) (s_crashed s)
                                        (s_all s) (s_popped s) (s_first s) (s_upto s))
      | Crash => Some (crash s)
      end
  | AClean => clean_step s
  | AStart => match s_rpc s with                                                           (* lines 187-195 *)
              | RIdle => Some (mk_rstate (s_ring s) (s_mem s) 0 (s_requested s) (s_running s) (s_cpc s) RTop []
                                         (s_crashed s) (s_all s) (s_popped s) None 0)
              | _ => None
              end
  | ARec expired => rec_step expired s
  end.

Fixpoint arun (s : rstate) (acts : list action) : option rstate :=
  match acts with
  | [] => Some s
  | a :: acts' => match astep s a with Some s' => arun s' acts' | None => None end
  end.

(** The iterator the recording thread holds. *)
Definition iterator_of (p : rpc) : option Z :=
  match p with
  | RDec i | RLoop i _ | RDeref i _ | RUpd _ i _ | RIncr i _ => Some i
  | _ => None
  end.

End Record.
Arguments rpc : clear implicits.
Arguments rstate : clear implicits.
Arguments action : clear implicits.
