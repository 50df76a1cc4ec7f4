(** The single-precision arithmetic behind the clean-up share.
    /repo/include/readout/models/DefaultRequestHandlerModel.hpp, lines 119 and 422:
    "float * size_t" converted to unsigned. IEEE-754 binary32, round to nearest even, as emitted by
    gcc for x86-64. A non-negative float is a pair (m, e) standing for m * 2^e with m < 2^24.
    Simplified: no overflow (the values here are far below 2^127) and no gradual underflow (a product
    that small truncates to 0 either way). *)
From Coq Require Import ZArith List Bool.
From Verif Require Import Base_model.
Open Scope Z_scope.

Definition float32 : Type := (Z * Z)%type.

(** Divide by 2^s, to nearest, ties to even. *)
Definition rne (M s : Z) : Z :=
  if s =? 0 then M
  else let q := M / 2 ^ s in
       let r := M mod 2 ^ s in
       let half := 2 ^ (s - 1) in
       if r <? half then q
       else if half <? r then q + 1
       else if Z.even q then q else q + 1.

(** Round an integer to 24 significant bits. *)
Definition round24 (M : Z) : float32 :=
  let s := Z.max 0 (Z.log2 M - 23) in (rne M s, s).

(** Conversion of an unsigned integer to float. *)
Definition to_float (n : Z) : float32 := round24 n.

Definition mulf (a b : float32) : float32 :=
  let (q, s) := round24 (fst a * fst b) in (q, s + snd a + snd b).

(** Conversion to unsigned: truncation, then the low 32 bits. *)
Definition trunc (a : float32) : Z :=
  let (m, e) := a in if 0 <=? e then m * 2 ^ e else m / 2 ^ (- e).

(** "m_pop_limit_pct * m_buffer_capacity" (line 119) and "m_pop_size_pct * occupancy()" (line 422). *)
Definition share (pct : float32) (n : Z) : Z := u32 (trunc (mulf pct (to_float n))).
