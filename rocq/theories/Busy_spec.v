(** Specification of requests served while data keep arriving. *)
From Coq Require Import ZArith List Bool.
From Verif Require Import Base_model Ring_model Ring_spec Search_model Search_spec Elem_model Request_model Request_spec
  Busy_model.
Import ListNotations.
Open Scope Z_scope.

(** What a buffer of [n] slots holds after the given steps of the consumer: it takes elements as long as
    there is room, and nothing is removed while a request runs. *)
Fixpoint contents (n : Z) (l : list elem) (steps : list arrival) : list elem :=
  match steps with
  | [] => l
  | AStore x :: rest => contents n (if Z.of_nat (length l) <? n - 1 then l ++ [x] else l) rest
  | _ :: rest => contents n l rest
  end.

(** Whether a gap is on record after these steps. *)
Fixpoint on_record (flag : bool) (steps : list arrival) : bool :=
  match steps with
  | [] => flag
  | AErase :: rest => on_record false rest
  | AInsert :: rest => on_record true rest
  | AStore _ :: rest => on_record flag rest
  end.

(** Everything the consumer does during the request. *)
Definition steps_of (gs : list gap) : list arrival := flat_map g_arrivals gs.

(** [l] is what the buffer held at some moment of the request. *)
Definition held_during (n : Z) (l0 : list elem) (gs : list gap) (l : list elem) : Prop :=
  exists before after, steps_of gs = before ++ after /\ l = contents n l0 before.

(** No gap inside: consecutive elements one element length apart, and no 64-bit wrap in sight. *)
Definition gap_free (tick n : Z) (l : list elem) : Prop :=
  match l with
  | [] => True
  | x :: _ => equally_spaced e_ts l (e_ts x) (tick * e_num x) /\ e_ts x + n * (tick * e_num x) < two64
  end.

(** Whenever no gap is on record, the buffer has none. *)
Definition gaps_on_record (tick n : Z) (l0 : list elem) (flag : bool) (gs : list gap) : Prop :=
  forall before after, steps_of gs = before ++ after -> on_record flag before = false ->
    gap_free tick n (contents n l0 before).

(** The reply to a request in terms of what the buffer held at some moment of it: the classification, the
    counters and the error bit as for that content, and for a served request exactly the frames of the window,
    to which nothing stored later belongs. *)
Definition answered_as_at_a_moment (dnf : Z) (lk : link) (n : Z) (running : bool) (l0 : list elem) (gs : list gap)
  (dr : request) (s : stats) (reply : res (code * option fragment * stats)) : Prop :=
  exists l, held_during n l0 gs l /\ right_answer dnf running l dr s reply /\
    forall fo s', reply = Ok (kFound, fo, s') ->
      fo = Some (mk_fragment (create_fragment_header lk dr) (window_bytes l (rq_begin dr) (rq_end dr))) /\
      window_bytes l (rq_begin dr) (rq_end dr) =
        window_bytes (contents n l0 (steps_of gs)) (rq_begin dr) (rq_end dr).

(** The consumer stores nothing before the [i]-th access of the request for any [i] below [k]. *)
Definition nothing_stored_before (k : nat) (gs : list gap) : Prop :=
  forall x, ~ In (AStore x) (steps_of (firstn k gs)).

(** The steps of the consumer for the payloads [xs], the one before them starting at [prev]: a payload that does
    not start [d] after its predecessor is put on record first. *)
Fixpoint consumer_steps (d prev : Z) (xs : list elem) : list arrival :=
  match xs with
  | [] => []
  | x :: rest => (if e_ts x =? prev + d then [AStore x] else [AErase; AInsert; AStore x])
                 ++ consumer_steps d (e_ts x) rest
  end.

(** Number of payloads that do not start [d] after their predecessor. *)
Fixpoint gaps (d prev : Z) (xs : list elem) : nat :=
  match xs with
  | [] => 0
  | x :: rest => (if e_ts x =? prev + d then 0 else 1) + gaps d (e_ts x) rest
  end.
