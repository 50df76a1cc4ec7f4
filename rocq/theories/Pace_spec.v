(** Histories of an emulated source and its link in time (C77). Times are readings of the monotonic clock in ns. *)
From Coq Require Import ZArith List Bool Sorted.
From Verif Require Import Base_model Rate_model Emu_model Chain_model Chain_spec Sustain_spec.
Import ListNotations.
Open Scope Z_scope.

(** Something happened to source or link at a time, or the producing thread came back from the rate limiter at that time after having read
    the clock as given. *)
Inductive timed : Type := At (t : Z) (o : chain_op) | Limited (readings : list Z) (t : Z).

Definition when (e : timed) : Z := match e with At t _ => t | Limited _ t => t end.
Definition ops_of (h : list timed) : list chain_op := flat_map (fun e => match e with At _ o => [o] | Limited _ _ => [] end) h.
Definition is_restart (e : timed) : Prop := match e with At _ XRestart => True | _ => False end.
Definition interrupts (e : timed) : Prop := match e with At _ o => chain_interrupts o | Limited _ _ => False end.

(** The producing thread: it makes an element, then calls the limiter, and so on; every run begins with a new limiter. [pr_last]: the last
    time this thread saw. *)
Record producer : Type := mk_producer { pr_limiter : rl; pr_last : Z; pr_owes_call : bool }.
Definition new_run (period t : Z) : producer := mk_producer (rl_init period t) t false.

Inductive produces (period : Z) : producer -> timed -> producer -> Prop :=
| PRestart s t : pr_last s <= t -> produces period s (At t XRestart) (new_run period t)
| PMake s t room : pr_owes_call s = false -> pr_last s <= t -> produces period s (At t (XProduce room)) (mk_producer (pr_limiter s) t true)
| PLimit s rs t l : pr_owes_call s = true -> Sorted Z.le (pr_last s :: rs ++ [t]) -> rl_limit rs (pr_limiter s) = Some l ->
    produces period s (Limited rs t) (mk_producer l t false)
| POther s t o : o <> XRestart -> (forall room, o <> XProduce room) -> produces period s (At t o) s.

Inductive producer_run (period : Z) : producer -> list timed -> producer -> Prop :=
| PRnil s : producer_run period s [] s
| PRcons s e s1 h s2 : produces period s e s1 -> producer_run period s1 h s2 -> producer_run period s (e :: h) s2.

(** A history that begins at [t0]: the clock does not go back and stays below 2^62 ns, and the source keeps to its limiter. *)
Definition timed_history (period t0 : Z) (h : list timed) : Prop :=
  0 <= t0 /\ Sorted Z.le (t0 :: map when h) /\ Forall (fun e => when e < 2 ^ 62) h /\ exists s, producer_run period (new_run period t0) h s.

(** No stretch without a clean-up or restart lasts longer than [T]. *)
Definition cleaned_every (T : Z) (h : list timed) : Prop :=
  forall a b c, h = a ++ b ++ c -> Forall (fun e => ~ interrupts e) b -> forall e1 e2, In e1 b -> In e2 b -> when e2 - when e1 <= T.

(** No element waits longer than [D] in the queue. *)
Definition prompt (dropouts : list bool) (D : Z) (h : list timed) : Prop :=
  forall a1 t1 room a2 t2 b i w, h = a1 ++ At t1 (XProduce room) :: a2 ++ At t2 XConsume :: b -> Forall (fun e => ~ is_restart e) a2 ->
    fl_next (flow_run dropouts (ops_of a1)) = i -> fl_waiting (flow_run dropouts (ops_of (a1 ++ At t1 (XProduce room) :: a2))) = i :: w -> t2 - t1 <= D.
