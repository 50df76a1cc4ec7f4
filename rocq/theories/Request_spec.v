(** Specification of request extraction: what a fragment must contain. *)
From Coq Require Import ZArith List Bool.
From Verif Require Import Base_model Elem_model Request_model.
Import ListNotations.
Open Scope Z_scope.

(** All stored frames, oldest first. *)
Definition all_frames (l : list elem) : list frame := flat_map e_frames l.

(** The bytes of the stored frames with begin <= timestamp < end, in order. *)
Definition window_bytes (l : list elem) (b e : Z) : list Z :=
  flat_map f_bytes (filter (fun f => (b <=? f_ts f) && (f_ts f <? e)) (all_frames l)).

(** An element whose frames are equally spaced by the nominal tick difference (64-bit, no wrap). *)
Definition regular (tick : Z) (e : elem) : Prop :=
  e_frames e <> [] /\ 0 <= e_ts e /\
  (forall k f, nth_error (e_frames e) k = Some f -> f_ts f = e_ts e + Z.of_nat k * tick) /\
  e_ts e + e_num e * tick < two64.

(** Every frame of an element precedes every later element. *)
Definition in_time_order (l : list elem) : Prop :=
  forall i j x y f, (i < j)%nat -> nth_error l i = Some x -> nth_error l j = Some y ->
    In f (e_frames x) -> f_ts f < e_ts y.

(** Well-formed contents: regular elements in time order. *)
Definition wf (tick : Z) (l : list elem) : Prop := Forall (regular tick) l /\ in_time_order l.

Definition oldest_ts (l : list elem) : Z := match l with [] => 0 | e :: _ => e_ts e end.
Definition newest_ts (l : list elem) : Z := oldest_ts (rev l).

(** What the answer to a request must be, from the buffer contents alone. *)
Definition classify (running : bool) (l : list elem) (b e : Z) : code :=
  match l with
  | [] => kNotFound
  | _ => if (oldest_ts l <=? b) && (e <=? newest_ts l) then kFound
         else if b <? oldest_ts l then kNotFound
         else if running then kNotYet else kNotFound
  end.

(** A header that mirrors the request and the link identity. *)
Definition mirrors (lk : link) (dr : request) (h : header) : Prop :=
  h_trigger_number h = rq_trigger_number dr /\ h_trigger_timestamp h = rq_trigger_timestamp dr /\
  h_begin h = rq_begin dr /\ h_end h = rq_end dr /\ h_run h = rq_run dr /\ h_seq h = rq_seq dr /\
  h_system h = lk_system lk /\ h_region h = lk_region lk /\ h_element h = lk_element lk /\ h_type h = lk_type lk.

(** The reason behind the answer, and the counters it must raise. *)
Inductive reason : Type := BufferEmpty | WindowServed | WindowTooOld | WindowTooNew.

Definition reason_of (l : list elem) (b e : Z) : reason :=
  match l with
  | [] => BufferEmpty
  | _ => if (oldest_ts l <=? b) && (e <=? newest_ts l) then WindowServed
         else if b <? oldest_ts l then WindowTooOld else WindowTooNew
  end.

Definition one_if (b : bool) : Z := if b then 1 else 0.

Definition counted (running : bool) (r : reason) (s s' : stats) : Prop :=
  st_found s' = st_found s + one_if (match r with WindowServed => true | _ => false end) /\
  st_old s' = st_old s + one_if (match r with WindowTooOld => true | _ => false end) /\
  st_delayed s' = st_delayed s + one_if (match r with WindowTooNew => true | _ => false end) /\
  st_bad s' = st_bad s + one_if (match r with WindowServed => false | WindowTooNew => negb running | _ => true end) /\
  st_uncategorized s' = st_uncategorized s.

(** A correct reply to a request, given the contents [l] of the buffer. [dnf] is the bit number of
    "data not found". *)
Definition right_answer (dnf : Z) (running : bool) (l : list elem) (dr : request) (s : stats)
  (reply : res (code * option fragment * stats)) : Prop :=
  exists fo s', reply = Ok (classify running l (rq_begin dr) (rq_end dr), fo, s') /\
    counted running (reason_of l (rq_begin dr) (rq_end dr)) s s' /\
    match classify running l (rq_begin dr) (rq_end dr) with
    | kNotYet => fo = None
    | kFound => exists fr, fo = Some fr /\ Z.testbit (h_error_bits (fg_header fr)) dnf = false
    | kNotFound => exists fr, fo = Some fr /\ fg_bytes fr = [] /\ Z.testbit (h_error_bits (fg_header fr)) dnf = true
    end.
