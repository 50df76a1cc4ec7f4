(** Model of the design of the low pass filter used by the hit finding.
    /repo/src/wib/tpg/DesignFIR.cpp 20-68, /repo/src/wib/tpg/DesignFIR.hpp 24-29, /repo/src/wib/WIBFrameProcessor.hpp 99-109, 570-573.
    Doubles are real numbers; [arith] is the arithmetic: every operation returns the rounded exact result. Overflow, underflow and
    signed zeros are not modelled. Conversions of int to double are exact (all values are below 2^53). *)
From Coq Require Import ZArith List Bool Reals.
From Verif Require Import Base_model.
Import ListNotations.
Open Scope R_scope.

(** Double arithmetic: rounding of the result of +, -, *, / and of a literal, the library functions sin and cos, and
    pi() = atan(1) * 4, DesignFIR.hpp 25-29. *)
Record arith := mkArith { fl : R -> R; fsin : R -> R; fcos : R -> R; fpi : R }.

(** Arithmetic without rounding. *)
Definition exact_arith : arith := mkArith (fun x => x) sin cos PI.

Section Design.
Variable A : arith.
Definition add (x y : R) : R := fl A (x + y).
Definition sub (x y : R) : R := fl A (x - y).
Definition mul (x y : R) : R := fl A (x * y).
Definition div (x y : R) : R := fl A (x / y).

(** hamming, 20-28, entry n. *)
Definition hamming_at (M : nat) (n : nat) : R :=
  sub (fl A (54 / 100)) (mul (fl A (46 / 100)) (fcos A (div (mul (mul 2 (fpi A)) (INR n)) (INR (M - 1))))).
(** hamming, 20-28. With M = 1 the only entry is computed from 0 / 0; the NaN makes every later result a NaN and its conversion to
    int16_t at 65 undefined, reported here. *)
Definition hamming (M : nat) : res (list R) :=
  if Nat.eqb M 1 then Crash else Ok (map (hamming_at M) (seq 0 M)).

(** sinc, 30-37. *)
Definition sinc (x : R) : R :=
  if Req_EM_T x 0 then 1 else div (fsin A (mul (fpi A) x)) (mul (fpi A) x).

(** firwin, 39-55: the entry m before the division, 45-46; m - alpha is an int. *)
Definition firwin_val (N : nat) (cutoff : R) (window : list R) (m : nat) : R :=
  mul (nth m window 0) (sinc (mul cutoff (IZR (Z.of_nat m - Z.of_nat (N / 2))))).
(** firwin, 39-55. A sum of zero would give infinities or NaN, undefined at 65; reported here. *)
Definition firwin (N : nat) (cutoff : R) : res (list R) :=
  bind (hamming N) (fun window =>
  let vals := map (firwin_val N cutoff window) (seq 0 N) in
  let sum := fold_left add vals 0 in
  if Req_EM_T sum 0 then (if Nat.eqb N 0 then Ok [] else Crash) else Ok (map (fun v => div v sum) vals)).

(** std::round: to the nearest integer, half away from zero. *)
Definition round_away (x : R) : Z :=
  if Rle_dec 0 x then Int_part (x + / 2) else (- Int_part (- x + / 2))%Z.

(** Conversion to int16_t, 65: undefined outside the range. *)
Definition to_i16 (x : Z) : res Z :=
  if ((-32768 <=? x)%Z && (x <=? 32767)%Z)%bool then Ok x else Crash.

Fixpoint all_i16 (l : list Z) : res (list Z) :=
  match l with
  | [] => Ok []
  | x :: t => bind (to_i16 x) (fun y => bind (all_i16 t) (fun ys => Ok (y :: ys)))
  end.

(** firwin_int, 57-68. Negative N (std::length_error from the vector constructor, 63) is not modelled. *)
Definition firwin_int (N : nat) (cutoff : R) (multiplier : Z) : res (list Z) :=
  bind (firwin N cutoff) (fun coeffs => all_i16 (map (fun c => round_away (mul (IZR multiplier) c)) coeffs)).

(** WIBFrameProcessor::start, 99-100 with the constants of 570-573: seven taps and a zero. *)
Definition link_taps : res (list Z) :=
  bind (firwin_int 7 (fl A (1 / 10)) (2 ^ 6)) (fun t => Ok (t ++ [0%Z])).
End Design.
