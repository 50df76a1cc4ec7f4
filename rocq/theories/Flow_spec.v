(** Specification of the life of a request: where it can be, and what may happen to it. *)
From Coq Require Import ZArith List Bool Permutation.
From Verif Require Import Base_model Elem_model Lb_model Request_model Flow_model.
Import ListNotations.
Open Scope Z_scope.

Section Spec.
Context {B : Type}.

(** Requests that were answered (a fragment was handed to the output queue). *)
Definition answered (s : @fstate B) : list task := map a_task (f_out s).

(** Requests that are somewhere inside the handler. *)
Definition inside (s : @fstate B) : list task := f_pool s ++ map fst (f_work s) ++ map w_task (f_waiting s).

(** The two situations in which a request comes too late: it is handed over after the pool was joined,
    or put on the waiting list after the waiting-list thread has ended. *)
Definition too_late (s : @fstate B) (a : @faction B) : Prop :=
  match a with
  | FIssue _ => f_stop s = SDone
  | FWork i _ => f_loop s = LDone /\ exists t, nth_error (f_work s) i = Some (t, KWait)
  | _ => False
  end.

(** Workers that decided to retry later but have not yet put the request on the list. *)
Definition deciding (s : @fstate B) : nat :=
  length (filter (fun x => match snd x with KWait => true | _ => false end) (f_work s)).

(** Steps of the handler's own threads (no new request, no restart, no change of the buffer). *)
Definition own_step (a : @faction B) : Prop :=
  match a with FTake _ | FWork _ _ | FLoop _ | FStop => True | _ => False end.

Definition not_restart (a : @faction B) : Prop := match a with FStart => False | _ => True end.

(** Fragments made since the last start: sent, or held by a worker about to send them. *)
Definition made (s : @fstate B) : list fragment :=
  map a_frag (skipn (f_start_out s) (f_out s)) ++
  flat_map (fun x => match snd x with KPush fr => [fr] | _ => [] end) (f_work s).

Definition is_timeout (a : answer) : bool := match a_why a with TimedOut _ => true | _ => false end.

Definition count {A} (p : A -> bool) (l : list A) : Z := Z.of_nat (length (filter p l)).

(** What a data_request call must find, from the first and last timestamps of the buffer alone. *)
Inductive found_as : Type := AsEmpty | AsOld | AsCurrent.
Definition find_class (L : lb elem B) (x : B * request) : found_as :=
  if lb_occupancy L (fst x) =? 0 then AsEmpty
  else match lb_front L (fst x) with
       | Ok (Some f) => if rq_begin (snd x) <? e_ts f then AsOld else AsCurrent
       | _ => AsEmpty
       end.
Definition is_old (c : found_as) : bool := match c with AsOld => true | _ => false end.
Definition is_empty (c : found_as) : bool := match c with AsEmpty => true | _ => false end.
Definition is_current (c : found_as) : bool := match c with AsCurrent => true | _ => false end.

(** Totals since the start: published so far plus not yet published. *)
Definition tot (f : stats -> Z) (s : @fstate B) : Z := f (f_sum s) + f (f_stats s).
Definition tot_timed (s : @fstate B) : Z := f_sum_timed s + f_timed s.

End Spec.

(** One pass over the waiting list, entry by entry: the fate of an entry depends on nothing but itself,
    the newest timestamp, the configured number of retries and whether the run goes on. *)
Definition arrived (newest : Z) (w : waiter) : bool := rq_end (t_req (w_task w)) <? newest.
Definition exhausted (retries : nat) (w : waiter) : bool := (retries <=? w_retry w)%nat.
Definition pass_spec (retries : nat) (running : bool) (newest : Z) (l : list waiter) (r : pass_res) : Prop :=
  Permutation (p_reissued r) (filter (arrived newest) l) /\
  Permutation (p_timed r) (filter (fun w => negb (arrived newest w) && exhausted retries w) l) /\
  Permutation (p_ended r) (filter (fun w => negb (arrived newest w) && negb (exhausted retries w) && negb running) l) /\
  Permutation (p_kept r)
    (map (fun w => mk_waiter (w_task w) (S (w_retry w)) (w_seen w ++ [newest]))
         (filter (fun w => negb (arrived newest w) && negb (exhausted retries w) && running) l)).

(** Passes one after the other while the run is active; before each, some entries are added at the end.
    Collects the entries answered by time-out in each pass. *)
Fixpoint checks (retries : nat) (l : list waiter) (rounds : list (Z * list waiter)) : list waiter * list (list waiter) :=
  match rounds with
  | [] => (l, [])
  | (newest, more) :: rest =>
      let r := check_pass retries true newest (l ++ more) in
      let (l', out) := checks retries (p_kept r) rest in (l', p_timed r :: out)
  end.

(** A waiting entry after some rounds of checks that did not resolve it. *)
Definition aged (w : waiter) (rounds : list (Z * list waiter)) : waiter :=
  mk_waiter (w_task w) (w_retry w + length rounds) (w_seen w ++ map fst rounds).

(** The "data not found" bit of a fragment. *)
Definition not_found_bit (dnf : Z) (fr : fragment) : bool := Z.testbit (h_error_bits (fg_header fr)) dnf.
