(** Model of a data request served while the consumer thread keeps storing data, one step per access of
    the request thread to memory the consumer thread changes.
    /repo/include/readout/models/DefaultRequestHandlerModel.hpp (data_request),
    IterableQueueModel.hpp, BinarySearchQueueModel.hpp, FixedRateQueueModel.hpp,
    /repo/include/readout/FrameErrorRegistry.hpp

    Clean-ups are excluded while a request runs (C12), so readIndex_ does not change and no stored
    element is removed or overwritten. writeIndex_ has a modification order: one value for every
    published element. A load may return any value of it not older than the one this thread saw before
    (read coherence). What the slots contain is known to the request thread only as far as it is
    synchronised with the consumer: by an acquire load of the index stored after the slot. *)
From Coq Require Import ZArith List Bool.
From Verif Require Import Base_model Ring_model Search_model Elem_model Request_model.
Import ListNotations.
Open Scope Z_scope.

(** What the consumer thread does for one payload (ReadoutModel.hpp, lines 241-243): a gap found by the
    preprocessing (WIBFrameProcessor.hpp, line 303; WIB2FrameProcessor.hpp, line 80) is registered by
    erase (FrameErrorRegistry.hpp, line 46) and insert (line 47), then the payload is stored. *)
Inductive arrival : Type :=
| AErase
| AInsert
| AStore (x : elem).

(** Shared memory and what the request thread knows of it. *)
Record shared : Type := mk_shared {
  sh_hist : list (ring elem);   (* the ring at the start and after each publication; simplification of
                                   writeIndex_'s modification order together with the slots behind it *)
  sh_flag : bool;               (* "MISSING_FRAMES" is in m_errors *)
  sh_seen : nat;                (* position of the newest index this thread has loaded *)
  sh_acq : nat                  (* position up to which it is synchronised with the consumer *)
}.

(** When a request starts it has locked m_cv_mutex (DefaultRequestHandlerModel.hpp, lines 265-269). *)
Definition sh_start (r : ring elem) (flag : bool) : shared := mk_shared [r] flag 0 0.

Definition sh_nth (s : shared) (p : nat) : res (ring elem) :=
  match nth_error (sh_hist s) p with Some r => Ok r | None => Crash end.
Definition sh_now (s : shared) : res (ring elem) := sh_nth s (length (sh_hist s) - 1).

(** One step of the consumer thread. A refused write only raises overflow_ctr (IterableQueueModel.hpp,
    line 245), which no request reads; the counter is left out here. *)
Definition arrive (a : arrival) (s : shared) : res shared :=
  match a with
  | AErase => Ok (mk_shared (sh_hist s) false (sh_seen s) (sh_acq s))
  | AInsert => Ok (mk_shared (sh_hist s) true (sh_seen s) (sh_acq s))
  | AStore x =>
    do r <- sh_now s;
    do (r', stored) <- write x r;
    Ok (if stored then mk_shared (sh_hist s ++ [r']) (sh_flag s) (sh_seen s) (sh_acq s) else s)
  end.

Fixpoint arrive_all (l : list arrival) (s : shared) : res shared :=
  match l with
  | [] => Ok s
  | a :: l' => do s' <- arrive a s; arrive_all l' s'
  end.

(** What happens before an access of the request thread: steps of the consumer, and the position in the
    modification order that the load returns (cut to the allowed ones). *)
Record gap : Type := mk_gap { g_arrivals : list arrival; g_pick : nat }.

Definition next_gap (gs : list gap) : gap * list gap :=
  match gs with [] => (mk_gap [] 0, []) | g :: gs' => (g, gs') end.

Section Access.
(** Relaxed loads synchronise as well: the hardware the code is run on (x86) gives this. *)
Variable strong : bool.

(** A load of writeIndex_ (with the unchanging readIndex_): the ring as it was at some publication. *)
Definition load (acquire : bool) (gs : list gap) (s : shared) : res (ring elem * list gap * shared) :=
  let (g, gs') := next_gap gs in
  do s1 <- arrive_all (g_arrivals g) s;
  let p := Nat.max (sh_seen s1) (Nat.min (g_pick g) (length (sh_hist s1) - 1)) in
  do r <- sh_nth s1 p;
  Ok (r, gs', mk_shared (sh_hist s1) (sh_flag s1) p (if acquire || strong then p else sh_acq s1)).

(** has_error("MISSING_FRAMES") (FrameErrorRegistry.hpp, lines 63-65), which takes no lock. Simplified to
    one step that sees the current state of the map: the walk through the map is not modelled. *)
Definition load_flag (gs : list gap) (s : shared) : res (bool * list gap * shared) :=
  let (g, gs') := next_gap gs in
  do s1 <- arrive_all (g_arrivals g) s;
  Ok (sh_flag s1, gs', s1).

(** Use of the element in slot [i]: [Crash] (data race) unless its publication is synchronised with. *)
Definition use (s : shared) (i : Z) : res elem := do r <- sh_nth s (sh_acq s); deref r i.

Definition use_opt (s : shared) (p : option Z) : res elem :=
  match p with None => Crash | Some i => use s i end.

(** Iterator::operator++, IterableQueueModel.hpp lines 346-358: good() is evaluated twice, each time with
    its own loads (370-378, relaxed). *)
Definition it_incr2 (r1 r2 : ring elem) (i : Z) : Z :=
  let i1 := if it_good r1 i
            then let j := u32 (i + 1) in if j =? r_size r1 then 0 else j
            else i in
  if negb (it_good r2 i1) then it_end else i1.

Variable dnf : Z.
Variable lk : link.
Variable tick : Z.
(** lower_bound of the buffer type; it loads writeIndex_ once, with acquire (BinarySearchQueueModel.hpp
    line 38; FixedRateQueueModel.hpp line 41 through occupancy(), IterableQueueModel.hpp line 317). *)
Variable search : ring elem -> Z -> bool -> search_res.

(** The extraction loop, DefaultRequestHandlerModel.hpp lines 546-568. *)
Fixpoint busy_extract (fuel : nat) (gs : list gap) (s : shared) (it b e_w : Z) : res (list Z) :=
  match fuel with
  | O => Crash
  | S fuel' =>
    do (r, gs1, s1) <- load false gs s;                      (* start_iter.good() *)
    if it_good r it then
      do e <- use s1 it;
      if e_ts e <? e_w then
        do (r1, gs2, s2) <- load false gs1 s1;               (* ++start_iter *)
        do (r2, gs3, s3) <- load false gs2 s2;
        do rest <- busy_extract fuel' gs3 s3 (it_incr2 r1 r2 it) b e_w;
        Ok (element_bytes tick e b e_w ++ rest)
      else Ok []
    else Ok []
  end.

(** data_request, lines 504-623, with the loads in program order. [running] is the value of m_run_marker
    read in line 588. *)
Definition busy_request (running : bool) (gs : list gap) (s : shared) (dr : request) (st : stats)
  : res (code * option fragment * stats) :=
  let h := create_fragment_header lk dr in
  do (r0, gs, s) <- load true gs s;                          (* occupancy(), line 514 *)
  if negb (occupancy r0 =? 0) then
    do (r1, gs, s) <- load true gs s;                        (* front(), line 516 *)
    let front_element := front r1 in
    do (r2, gs, s) <- load false gs s;                       (* back(), line 517 *)
    let last_element := back r2 in
    do f <- use_opt s front_element;                         (* line 518 *)
    do bk <- use_opt s last_element;                         (* line 519 *)
    let last_ts := e_ts f in
    let newest_ts := e_ts bk in
    let not_yet :=
      let st' := mk_stats (st_found st) (st_bad st) (st_old st) (st_delayed st + 1) (st_uncategorized st) in
      if running then Ok (kNotYet, None, st')
      else Ok (kNotFound, Some (mk_fragment (set_dnf dnf h) []),
               mk_stats (st_found st') (st_bad st' + 1) (st_old st') (st_delayed st') (st_uncategorized st')) in
    if (last_ts <=? rq_begin dr) && (rq_end dr <=? newest_ts) then
      do (missing, gs, s) <- load_flag gs s;                 (* line 534 *)
      do (r3, gs, s) <- load true gs s;                      (* lower_bound, lines 534-535 *)
      match search r3 (rq_begin dr) missing with
      | SFound it =>
        if it =? it_end then not_yet                         (* lines 536-539 *)
        else
          do bytes <- busy_extract (Z.to_nat (r_size r3)) gs s it (rq_begin dr) (rq_end dr);
          Ok (kFound, Some (mk_fragment h bytes),
              mk_stats (st_found st + 1) (st_bad st) (st_old st) (st_delayed st) (st_uncategorized st))
      | _ => Crash
      end
    else if rq_begin dr <? last_ts then                      (* lines 570-574 *)
      Ok (kNotFound, Some (mk_fragment (set_dnf dnf h) []),
          mk_stats (st_found st) (st_bad st + 1) (st_old st + 1) (st_delayed st) (st_uncategorized st))
    else if newest_ts <? rq_end dr then not_yet              (* lines 575-577 *)
    else                                                     (* lines 578-584 *)
      Ok (kNotFound, Some (mk_fragment (set_dnf dnf h) []),
          mk_stats (st_found st) (st_bad st + 1) (st_old st) (st_delayed st) (st_uncategorized st + 1))
  else                                                       (* lines 605-610 *)
    Ok (kNotFound, Some (mk_fragment (set_dnf dnf h) []),
        mk_stats (st_found st) (st_bad st + 1) (st_old st) (st_delayed st) (st_uncategorized st)).

End Access.
