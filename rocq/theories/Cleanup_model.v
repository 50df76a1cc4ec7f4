(** Model of the clean-up. /repo/include/readout/models/DefaultRequestHandlerModel.hpp, lines 407-438,
    over any latency buffer. One thread; its interleaving with requests and recording is in
    Guard_model.v and Record_model.v. *)
From Coq Require Import ZArith List Bool.
From Verif Require Import Base_model Lb_model Float_model Registry_model.
Import ListNotations.
Open Scope Z_scope.

(** m_pop_reqs, m_pops_count, m_occupancy, m_num_buffer_cleanups (lines 675-678). *)
Record pop_stats : Type := mk_pop_stats { ps_reqs : Z; ps_count : Z; ps_occupancy : Z; ps_cleanups : Z }.

Section Cleanup.
Context {E B : Type}.
Variable ts : E -> Z.
Variable L : lb E B.

(** The removal loop, lines 425-432: [k] iterations left; front() is null on an empty buffer. *)
Fixpoint pop_loop (k : nat) (next : Z) (buf : B) (popped : Z) : res (B * Z) :=
  match k with
  | O => Ok (buf, popped)
  | S k' =>
    do f <- lb_front L buf;
    match f with
    | None => Crash
    | Some x => if ts x <? next
                then do buf' <- lb_pop L 1 buf; pop_loop k' next buf' (popped + 1)
                else Ok (buf, popped)
    end
  end.

(** cleanup, lines 415-438. [limit] is m_pop_limit_size, [pct] m_pop_size_pct, [next]
    m_next_timestamp_to_record (constant during one clean-up here). *)
Definition cleanup (limit : Z) (pct : float32) (next : Z) (buf : B) (reg : registry) (st : pop_stats)
  : res (B * registry * pop_stats) :=
  if limit <? lb_occupancy L buf then
    do (buf', popped) <- pop_loop (Z.to_nat (share pct (lb_occupancy L buf))) next buf 0;
    do f <- lb_front L buf';
    match f with
    | None => Crash                                               (* line 435 *)
    | Some x => Ok (buf', remove_errors_until (ts x) reg,
                    mk_pop_stats (ps_reqs st + 1) (ps_count st + popped) (lb_occupancy L buf') (ps_cleanups st + 1))
    end
  else Ok (buf, reg, mk_pop_stats (ps_reqs st) (ps_count st) (ps_occupancy st) (ps_cleanups st + 1)).

End Cleanup.
