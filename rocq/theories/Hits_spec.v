(** Specification of hit finding on one channel, over the integers and over all ticks since the start.
    Written from the description of the algorithm (frugal quantile estimates, 7-tap filter of the pedestal-subtracted and
    clipped samples, threshold of five times the distance of the quartiles, one hit for each maximal run over threshold). *)
From Coq Require Import ZArith List Bool.
Import ListNotations.
Open Scope Z_scope.

(** An estimate with its accumulator: moves by one after more than [lim] net samples on one side. *)
Definition spec_move (lim : Z) (e : Z * Z) (s : Z) : Z * Z :=
  let a := snd e + Z.sgn (s - fst e) in
  if Z.abs a <=? lim then (fst e, a) else (fst e + Z.sgn a, 0).

(** Pedestal, lower and upper quartile. *)
Definition estimates : Type := (Z * Z) * (Z * Z) * (Z * Z).
Definition pedestal (e : estimates) : Z := fst (fst (fst e)).
Definition width (e : estimates) : Z := fst (snd e) - fst (snd (fst e)).
Definition spec_estimates (e : estimates) (s : Z) : estimates :=
  let '(m, lo, hi) := e in
  (spec_move 10 m s, if s <? fst m then spec_move 10 lo s else lo, if fst m <? s then spec_move 10 hi s else hi).

Section Channel.
Variable taps : list Z.      (* filter coefficients; the first seven are used *)
Variable e : Z.              (* their sum is about 2^e *)
Variable ped0 : Z.           (* start pedestal *)
Variable s : nat -> Z.       (* the samples *)

(** Estimates after the first t samples. *)
Fixpoint est (t : nat) : estimates :=
  match t with
  | O => ((ped0, 0), (ped0 - 3, 0), (ped0 + 3, 0))
  | S t => spec_estimates (est t) (s t)
  end.
(** Sample t without pedestal, clipped. *)
Definition signal (t : nat) : Z := Z.min (s t - pedestal (est (S t))) (32767 / 2 ^ e).
(** Filter output at tick t: the seven samples t-8 .. t-2, nothing before the start. *)
Definition filtered (t : nat) : Z :=
  fold_right Z.add 0 (map (fun j => nth j taps 0 * (if (8 <=? t + j)%nat then signal (t + j - 8) else 0)) (seq 0 7)).
Definition limit (t : nat) : Z := 5 * width (est (S t)) * 2 ^ e.
Definition over (t : nat) : bool := limit t <? filtered t.

(** Number of consecutive ticks over threshold just before tick t. *)
Fixpoint run_length (t : nat) : nat :=
  match t with
  | O => O
  | S t => if over t then S (run_length t) else O
  end.
(** Charge of the run that ends just before tick t. *)
Definition run_charge (t : nat) : Z :=
  Z.min 32767 (fold_right Z.add 0 (map (fun k => filtered k / 2 ^ e) (seq (t - run_length t) (run_length t)))).
(** A hit ends at tick t. *)
Definition hit_ends (t : nat) : bool := negb (over t) && (0 <? run_length t)%nat.
End Channel.

(** What a hit becomes: (start, peak, time over threshold, channel, integral, peak charge), from the time stamp of the
    message, the end tick inside the message, length and charge of the run. One tick is 25 clocks; 64-bit time stamps. *)
Definition primitive : Type := Z * Z * Z * Z * Z * Z.
Definition expected_primitive (ts chan end_tick len charge : Z) : primitive :=
  let start := (ts + 25 * (end_tick - len)) mod 2 ^ 64 in
  let stop := (ts + 25 * end_tick) mod 2 ^ 64 in
  (start, (start + stop) mod 2 ^ 64 / 2, 25 * len, chan, charge, charge / 20).
