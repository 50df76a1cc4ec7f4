(** Machine integers and outcomes used by every model file.

    These definitions model the C++ built-in types used in /repo, not a particular file:
    unsigned types wrap modulo 2^n; [i16]/[i32] are the two's complement conversions that gcc and
    clang implement for narrowing to a signed type. *)
From Coq Require Import ZArith List Bool.
Import ListNotations.
Open Scope Z_scope.

Definition two16 : Z := 65536.
Definition two32 : Z := 4294967296.
Definition two64 : Z := 18446744073709551616.
Definition max_u64 : Z := 18446744073709551615.  (* std::numeric_limits<uint64_t>::max() *)
Definition max_u32 : Z := 4294967295.            (* std::numeric_limits<uint32_t>::max() *)

Definition u8 (z : Z) : Z := z mod 256.
Definition u16 (z : Z) : Z := z mod two16.
Definition u32 (z : Z) : Z := z mod two32.
Definition u64 (z : Z) : Z := z mod two64.
Definition i16 (z : Z) : Z := (z + 32768) mod two16 - 32768.
Definition i32 (z : Z) : Z := (z + 2147483648) mod two32 - 2147483648.
Definition i64 (z : Z) : Z := (z + 9223372036854775808) mod two64 - 9223372036854775808.

Definition is_u64 (z : Z) : Prop := 0 <= z < two64.
Definition is_u32 (z : Z) : Prop := 0 <= z < two32.

(** Result of a C++ call: a normal return, or [Crash] when the call aborts (failed assert) or has
    undefined behaviour (access to a slot without live object, null dereference, ...). *)
Inductive res (B : Type) : Type :=
| Ok (b : B)
| Crash.
Arguments Ok {B} _.
Arguments Crash {B}.

Definition bind {B C : Type} (x : res B) (f : B -> res C) : res C :=
  match x with Ok b => f b | Crash => Crash end.

Notation "'do' x <- e ; f" := (bind e (fun x => f))
  (at level 200, x pattern, e at level 100, f at level 200).
