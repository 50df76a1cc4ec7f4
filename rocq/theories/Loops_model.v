(** Model of the three loops of the readout: /repo/include/readout/models/ReadoutModel.hpp, and of the handler that
    answers with empty fragments, /repo/include/readout/models/EmptyFragmentRequestHandlerModel.hpp.
    The threads interleave call by call (memory-level interleavings of the ring: Spsc_model.v). *)
From Coq Require Import ZArith List Bool.
From Verif Require Import Base_model Ring_model Request_model.
Import ListNotations.
Open Scope Z_scope.

(** ** run_consume, lines 228-257, with the ring as latency buffer *)
Section Consume.
Context {A P : Type}.
(** preprocess_item on the processor's state and the payload (the functions of the frame processors: Check_model.v). *)
Variable pre : P -> A -> P * A.

(** The seven atomic<int> of lines 358-364 that the consumer touches. *)
Record counters : Type := mk_cnt { n_num : Z; n_sum : Z; n_timeouts : Z; n_stats : Z; n_over : Z }.
Definition counters_zero : counters := mk_cnt 0 0 0 0 0.

(** Buffer, processor state, counters, what was handed to postprocess_item (the element the pointer shows at that
    moment; None for a null pointer), and the elements removed by clean-ups. *)
Record cons : Type := mk_cons {
  c_ring : ring A; c_pre : P; c_cnt : counters; c_post : list (option A); c_removed : list A
}.

(** What get_info reads (lines 180-208). *)
Record info : Type := mk_info { i_sum : Z; i_num : Z; i_over : Z; i_stats : Z; i_timeouts : Z }.

(** One event of the loop or of another thread: a payload arrives, and [between] elements are removed by the clean-up
    between write and back; the pop times out; the clean-up removes [n] elements; get_info is called. *)
Inductive cevent : Type := CArrive (x : A) (between : nat) | CTimeout | CPop (n : nat) | CInfo.

(** A clean-up removes [n] elements: the ring's pop, remembering what was there. *)
Fixpoint take_front (n : nat) (r : ring A) : res (ring A * list A) :=
  match n with
  | O => Ok (r, [])
  | S n' => do x <- deref_opt r (front r);
            do r1 <- popFront r;
            do q <- take_front n' r1;
            Ok (fst q, match x with Some y => y :: snd q | None => snd q end)
  end.

(** start, lines 135-157, and the head of run_consume, 230-233. *)
Definition consume_begin (r : ring A) (p : P) : cons := mk_cons r p counters_zero [] [].

Definition consume_step (s : cons) (e : cevent) : res (cons * option info) :=
  let c := c_cnt s in
  match e with
  | CArrive x between =>
      let q := pre (c_pre s) x in
      do w <- write (snd q) (c_ring s);
      let over := if snd w then n_over c else i32 (n_over c + 1) in
      do t <- take_front between (fst w);
      do b <- deref_opt (fst t) (back (fst t));
      Ok (mk_cons (fst t) (fst q)
            (mk_cnt (i32 (n_num c + 1)) (i32 (n_sum c + 1)) (n_timeouts c) (i32 (n_stats c + 1)) over)
            (c_post s ++ [b]) (c_removed s ++ snd t), None)
  | CTimeout => Ok (mk_cons (c_ring s) (c_pre s) (mk_cnt (n_num c) (n_sum c) (i32 (n_timeouts c + 1)) (n_stats c) (n_over c))
                      (c_post s) (c_removed s), None)
  | CPop n => do t <- take_front n (c_ring s);
              Ok (mk_cons (fst t) (c_pre s) c (c_post s) (c_removed s ++ snd t), None)
  | CInfo => Ok (mk_cons (c_ring s) (c_pre s) (mk_cnt 0 (n_sum c) 0 0 0) (c_post s) (c_removed s),
                 Some (mk_info (n_sum c) (n_num c) (n_over c) (n_stats c) (n_timeouts c)))
  end.

Fixpoint consume (s : cons) (evs : list cevent) : res (cons * list info) :=
  match evs with
  | [] => Ok (s, [])
  | e :: evs' => do q <- consume_step s e; do t <- consume (fst q) evs';
                 Ok (fst t, match snd q with Some i => i :: snd t | None => snd t end)
  end.
End Consume.

(** ** setup_request_response_queues, lines 211-226 *)

(** Which of data_requests_i and data_response_i are configured; None is the InitializationError. *)
Fixpoint setup (fuel : nat) (has_request has_response : nat -> bool) (i : nat) : option nat :=
  match fuel with
  | O => Some i
  | S fuel' => if has_request i then if has_response i then setup fuel' has_request has_response (S i) else None
               else Some i
  end.

(** ** run_requests, lines 309-346 *)
Section Requests.
Context {R : Type}.

(** Where the thread is: about to test the run marker, about to serve queue i of the pass, clearing queue i, joined. *)
Inductive rphase : Type := RTest | RServe (i : nat) | RClear (i : nat) | RJoined.

(** Queues, phase, run marker, issued requests with the index of the response queue (those of fake triggers are in
    run_timesync), discarded requests with their queue, m_num_requests and m_sum_requests. *)
Record reqs : Type := mk_reqs {
  q_queues : list (list R); q_phase : rphase; q_marker : bool; q_issued : list (R * nat); q_discarded : list (R * nat);
  q_num : Z; q_sum : Z
}.

Definition set_nth {X} (i : nat) (v : X) (l : list X) : list X := firstn i l ++ match skipn i l with [] => [] | _ :: t => v :: t end.

(** The thread takes its next step; another thread sends a request; stop clears the marker; the time-sync thread
    starts (lines 262-263: it resets both request counters); it issues a fake trigger (286-287); get_info. *)
Inductive raction : Type := AThread | ASend (i : nat) (r : R) | AStop | ATimesyncStart | AFake | AInfo.

(** The beginning of run_requests, lines 311-313, after start (139-140). *)
Definition requests_begin (queues : list (list R)) : reqs := mk_reqs queues RTest true [] [] 0 0.

Definition thread_step (s : reqs) : reqs :=
  match q_phase s with
  | RTest => if q_marker s then mk_reqs (q_queues s) (RServe 0) true (q_issued s) (q_discarded s) (q_num s) (q_sum s)
             else mk_reqs (q_queues s) (RClear 0) false (q_issued s) (q_discarded s) (q_num s) (q_sum s)
  | RServe i =>
      match nth_error (q_queues s) i with
      | None => mk_reqs (q_queues s) RTest (q_marker s) (q_issued s) (q_discarded s) (q_num s) (q_sum s)
      | Some [] => mk_reqs (q_queues s) (RServe (S i)) (q_marker s) (q_issued s) (q_discarded s) (q_num s) (q_sum s)
      | Some (r :: rest) =>
          mk_reqs (set_nth i rest (q_queues s)) (RServe (S i)) (q_marker s) (q_issued s ++ [(r, i)]) (q_discarded s)
            (i32 (q_num s + 1)) (i32 (q_sum s + 1))
      end
  | RClear i =>
      match nth_error (q_queues s) i with
      | None => mk_reqs (q_queues s) RJoined (q_marker s) (q_issued s) (q_discarded s) (q_num s) (q_sum s)
      | Some [] => mk_reqs (q_queues s) (RClear (S i)) (q_marker s) (q_issued s) (q_discarded s) (q_num s) (q_sum s)
      | Some (r :: rest) =>
          mk_reqs (set_nth i rest (q_queues s)) (RClear i) (q_marker s) (q_issued s) (q_discarded s ++ [(r, i)])
            (q_num s) (q_sum s)
      end
  | RJoined => s
  end.

Definition raction_step (s : reqs) (a : raction) : reqs :=
  match a with
  | AThread => thread_step s
  | ASend i r => match nth_error (q_queues s) i with
                 | None => s
                 | Some q => mk_reqs (set_nth i (q ++ [r]) (q_queues s)) (q_phase s) (q_marker s) (q_issued s) (q_discarded s) (q_num s) (q_sum s)
                 end
  | AStop => mk_reqs (q_queues s) (q_phase s) false (q_issued s) (q_discarded s) (q_num s) (q_sum s)
  | ATimesyncStart => mk_reqs (q_queues s) (q_phase s) (q_marker s) (q_issued s) (q_discarded s) 0 0
  | AFake => mk_reqs (q_queues s) (q_phase s) (q_marker s) (q_issued s) (q_discarded s) (i32 (q_num s + 1)) (i32 (q_sum s + 1))
  | AInfo => mk_reqs (q_queues s) (q_phase s) (q_marker s) (q_issued s) (q_discarded s) 0 (q_sum s)
  end.

Definition rrun (s : reqs) (acts : list raction) : reqs := fold_left raction_step acts s.
End Requests.

(** ** run_timesync, lines 259-307 *)

(** What one turn sends: a time-sync message, and fake requests with the index of their response queue. *)
Record tsync_out : Type := mk_tso { ts_message : option Z; ts_requests : list (request * nat) }.

(** us, line 64. *)
Definition us : Z := 1000.

(** One turn, lines 267-291, with last DAQ time [daq]; [run_number] and [seq] of the request keep the default of the
    external message type; m_current_fake_trigger_id is an int, trigger_number unsigned 64 bit. *)
Definition timesync_turn (fake : bool) (responses : nat) (run_number sq : Z) (daq id : Z) : tsync_out * Z :=
  if negb (daq =? 0) then
    if fake then
      let id1 := i32 (id + 1) in
      let ts := if daq >? 500 * us then u64 (daq - 500 * us) else 0 in
      let b := if ts >? 100 then u64 (ts - 100) else 0 in
      let dr := mk_request (u64 id1) ts b (u64 (b + 300000)) run_number sq in
      (mk_tso (Some daq) (map (fun i => (dr, i)) (seq 0 responses)), id1)
    else (mk_tso (Some daq) [], id)
  else (mk_tso None [], id).

Fixpoint timesync (fake : bool) (responses : nat) (run_number sq : Z) (daqs : list Z) (id : Z) : list tsync_out * Z :=
  match daqs with
  | [] => ([], id)
  | t :: daqs' => let o := timesync_turn fake responses run_number sq t id in
                  let q := timesync fake responses run_number sq daqs' (snd o) in (fst o :: fst q, snd q)
  end.

(** ** EmptyFragmentRequestHandlerModel::issue_request, lines 40-62 *)

(** Requests in the order of the calls, each with whether the fragment queue takes the fragment in time; the fragments
    that end up in the queue. The latency buffer is not looked at. *)
Definition empty_issue (dnf : Z) (lk : link) (queue : list fragment) (rq : request * bool) : list fragment :=
  if snd rq then queue ++ [empty_handler_fragment dnf lk (fst rq)] else queue.
Definition empty_run (dnf : Z) (lk : link) (queue : list fragment) (rqs : list (request * bool)) : list fragment :=
  fold_left (empty_issue dnf lk) rqs queue.
