(** Independent description of hit stitching, per channel (properties C29 and C59). *)
From Coq Require Import ZArith List Bool.
From Verif Require Import Base_model Stitch_model.
Import ListNotations.
Open Scope Z_scope.

(** The hits of channel [c] in order of arrival, each with the block it came in. *)
Definition hits_of (c : Z) (l : list block) : list (block * hit) :=
  flat_map (fun b => if b_wire b =? c then map (fun h => (b, h)) (b_hits b) else []) l.

(** The stored primitives of channel [c], in order. *)
Definition stored (c : Z) (s : stst) : list prim := filter (fun p => p_channel p =? c) (st_tps s).

(** Start time of a hit in clock ticks. *)
Definition start_of (x : block * hit) : Z := (b_ts (fst x) + 25 * h_start (snd x)) mod two64.

(** What is stored for one channel, as segments of its hits: a segment is one hit, or a hit and its
    continuation. [pending] is a hit that announced a continuation. A hit that announces none and continues
    none is not stored. If a continuation announces another one, the channel is dead. *)
Fixpoint segments (pending : option (block * hit)) (l : list (block * hit)) : list (block * hit * option (block * hit)) :=
  match l with
  | [] => []
  | x :: l' =>
    match pending with
    | None => segments (if h_cont (snd x) then Some x else None) l'
    | Some a =>
      if (h_start (snd x) =? 0) && ((start_of x - start_of a) mod two64 <=? 1600)
      then if h_cont (snd x) then [] else (a, Some x) :: segments None l'
      else (a, None) :: segments (if h_cont (snd x) then Some x else None) l'
    end
  end.

(** The state of a channel after its hits: nothing pending, one hit pending, or dead. *)
Inductive chan : Type := Idle | Pending (a : block * hit) | Dead.
Definition chan_step (k : chan) (x : block * hit) : chan :=
  match k with
  | Idle => if h_cont (snd x) then Pending x else Idle
  | Pending a =>
    if (h_start (snd x) =? 0) && ((start_of x - start_of a) mod two64 <=? 1600)
    then if h_cont (snd x) then Dead else Idle
    else if h_cont (snd x) then Pending x else Idle
  | Dead => Dead
  end.
Definition chan_after (l : list (block * hit)) : chan := fold_left chan_step l Idle.

(** The content of a stored primitive: that of its first hit, with peak, sum and time over threshold combined.
    The time over threshold is the end time within the block minus the absolute start time; the peak time
    of a continuation with the higher peak is added to the peak time of the first hit. *)
Definition content (seg : block * hit * option (block * hit)) (p : prim) : Prop :=
  let '(a, o) := seg in
  let b := fst a in let h := snd a in
  p_start p = start_of a /\ p_channel p = b_wire b /\ p_detid p = b_fiber b /\
  match o with
  | None =>
    p_peak p = (b_ts b + 25 * h_peak h) mod two64 /\ p_tot p = (25 * h_end h - start_of a) mod two64 /\
    p_sum p = h_sum h /\ p_padc p = h_padc h
  | Some x =>
    p_padc p = Z.max (h_padc h) (h_padc (snd x)) /\
    p_peak p = (if h_padc h <? h_padc (snd x)
                then b_ts b + 25 * h_peak h + (b_ts (fst x) + 25 * h_peak (snd x))
                else b_ts b + 25 * h_peak h) mod two64 /\
    p_tot p = (25 * h_end h - start_of a + (25 * h_end (snd x) - start_of x)) mod two64 /\
    p_sum p = (h_sum h + h_sum (snd x)) mod two32
  end.

(** Values of the bit fields. *)
Definition hit_ok (h : hit) : Prop :=
  0 <= h_start h < 65536 /\ 0 <= h_end h < 65536 /\ 0 <= h_peak h < 65536 /\ 0 <= h_padc h < 65536 /\ 0 <= h_sum h < 65536.
Definition block_ok (b : block) : Prop := 0 <= b_ts b < two64 /\ Forall hit_ok (b_hits b).
