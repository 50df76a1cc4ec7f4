(** Model of the rate limiter, /repo/include/readout/utils/RateLimiter.hpp.
    The clock is an oracle: each call of limit() is given the values gettime() (lines 80-85) returns during it.
    adjust (lines 61-65) is modelled by the period it stores; Pace_model.v computes it from the rate. *)
From Coq Require Import ZArith List Bool.
From Verif Require Import Base_model.
Import ListNotations.
Open Scope Z_scope.

(** m_now, m_deadline, m_period (lines 88-92). *)
Record rl : Type := mk_rl { rl_now : Z; rl_deadline : Z; rl_period : Z }.

Definition max_overshoot : Z := 10000000.  (* 10 ms in ns, line 39 *)

(** Constructor and init, lines 38-48: [t] is what gettime() returns. *)
Definition rl_init (period t : Z) : rl := mk_rl t (u64 (t + period)) period.

(** adjust, lines 61-65. *)
Definition rl_adjust (period : Z) (s : rl) : rl := mk_rl (rl_now s) (rl_deadline s) period.

(** The waiting loop, lines 72-74. [None]: the readings do not fit the loop (it would still be spinning, or would
    already have stopped). *)
Fixpoint spin (deadline now : Z) (readings : list Z) : option Z :=
  if now <? deadline
  then match readings with [] => None | r :: rs => spin deadline r rs end
  else match readings with [] => Some now | _ => None end.

(** limit, lines 67-77. *)
Definition rl_limit (readings : list Z) (s : rl) : option rl :=
  if rl_now s >? u64 (rl_deadline s + max_overshoot)
  then match readings with
       | [] => Some (mk_rl (rl_now s) (u64 (rl_now s + rl_period s)) (rl_period s))
       | _ => None
       end
  else match spin (rl_deadline s) (rl_now s) readings with
       | Some now => Some (mk_rl now (u64 (rl_deadline s + rl_period s)) (rl_period s))
       | None => None
       end.

(** What happens to one limiter. A call carries the clock values it read and the time at which it returned; the
    period is read at the end of a call, so an adjust by another thread during a call is one before it. *)
Inductive rl_event := Adjust (period : Z) | Call (readings : list Z) (returned : Z).

Definition rl_step (s : rl) (e : rl_event) : option rl :=
  match e with Adjust p => Some (rl_adjust p s) | Call rs _ => rl_limit rs s end.

Fixpoint rl_run (s : rl) (l : list rl_event) : option rl :=
  match l with
  | [] => Some s
  | e :: l' => match rl_step s e with Some s' => rl_run s' l' | None => None end
  end.
