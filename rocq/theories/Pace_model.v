(** The period of the rate limiter from a rate and a slow-down factor.
    /repo/include/readout/models/SourceEmulatorModel.hpp line 131 (and /repo/src/wib/TPEmulatorModel.hpp line 115): the limiter is made with
    "m_rate_khz / m_link_conf.slowdown"; /repo/include/readout/utils/RateLimiter.hpp lines 61-65: the period is
    "(1000.f / m_kilohertz) * static_cast<double>(us)" cast to 64-bit unsigned.
    IEEE-754 binary64, round to nearest even. A positive double is a pair (m, e) standing for m * 2^e with m < 2^53.
    Simplified: rates and factors are positive, so that there is no division by zero and no infinity; no overflow and no gradual underflow
    (the exponents here are far from the limits). *)
From Coq Require Import ZArith List Bool.
From Verif Require Import Base_model Rate_model.
Import ListNotations.
Open Scope Z_scope.

Definition double : Type := (Z * Z)%type.

(** Nearest integer to num / den, ties to even. *)
Definition nearest (num den : Z) : Z :=
  let q := num / den in
  let r := num mod den in
  if 2 * r <? den then q else if den <? 2 * r then q + 1 else if Z.even q then q else q + 1.

(** num * 2^k and den as two integers with the same ratio. *)
Definition scale (num den k : Z) : Z * Z := if 0 <=? k then (num * 2 ^ k, den) else (num, den * 2 ^ (- k)).

(** The double nearest to num / den: 53 significant bits. *)
Definition round53 (num den : Z) : double :=
  let k0 := 52 - (Z.log2 num - Z.log2 den) in
  let (a, b) := scale num den k0 in
  let k := if a <? 2 ^ 52 * b then k0 + 1 else k0 in
  let (a, b) := scale num den k in
  (nearest a b, - k).

Definition divd (x y : double) : double :=
  let (q, e) := round53 (fst x) (fst y) in (q, e + snd x - snd y).
Definition muld (x y : double) : double :=
  let (q, e) := round53 (fst x * fst y) 1 in (q, e + snd x + snd y).

(** Cast to a 64-bit unsigned integer of a double below 2^64: truncation. *)
Definition truncd (x : double) : Z :=
  let (m, e) := x in if 0 <=? e then m * 2 ^ e else m / 2 ^ (- e).

(** Constructor and adjust, RateLimiter.hpp 38-43 and 61-65. 1000.f is promoted to double; us is 1000 (line 32). *)
Definition period_of (kilohertz : double) : Z := truncd (muld (divd (1000, 0) kilohertz) (1000, 0)).

(** SourceEmulatorModel::start 131, with an integer rate (166, 200 or 66 in /repo/src/CreateSourceEmulator.hpp 37-76) and an integer factor. *)
Definition emulator_period (rate_khz slowdown : Z) : Z := period_of (divd (rate_khz, 0) (slowdown, 0)).
