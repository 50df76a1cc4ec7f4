(** One readout link for WIB-type data: consumer, latency ring, error registry, clean-up and requests
    put together. /repo/include/readout/models/ReadoutModel.hpp (start 135-157, stop 159-176,
    run_consume 228-257), src/CreateReadout.hpp lines 61-86 (FixedRateQueueModel). Each call is one step;
    the interleaving of threads inside the calls is in Spsc_model.v, Guard_model.v and Flow_model.v. *)
From Coq Require Import String ZArith List Bool.
From Verif Require Import Base_model Ring_model Search_model Elem_model Lb_model Float_model Registry_model
  Request_model Cleanup_model Check_model.
Import ListNotations.
Open Scope Z_scope.

Record link_state : Type := mk_link_state {
  ls_ring : ring elem; ls_check : check; ls_pops : pop_stats; ls_stats : stats
}.

Inductive link_op : Type :=
| LArrive (e : elem)                                    (* one element popped from the source queue *)
| LClean (limit : Z) (pct : float32) (next : Z)         (* cleanup() of the request handler *)
| LRequest (dr : request)                               (* data_request() *)
| LRestart.                                             (* stop, then start *)

Inductive link_out : Type :=
| OutWrite (accepted : bool)
| OutReply (c : code) (f : option fragment)
| OutNone.

Section Link.
Variable dnf : Z.
Variable lk : link.
Variable dur tick : Z.
(** Whether start resets the timestamp check: WIB does, WIB2 does not. *)
Variable resets : bool.
Variable running : bool.

Definition link_step (s : link_state) (o : link_op) : res (link_state * link_out) :=
  match o with
  | LArrive e =>
    (* run_consume, lines 239-246: preprocess_item, then write; a refused element is lost. *)
    let (e', c') := timestamp_check dur tick false e (ls_check s) in
    do (r', ok) <- write e' (ls_ring s);
    Ok (mk_link_state r' c' (ls_pops s) (ls_stats s), OutWrite ok)
  | LClean limit pct next =>
    do (r', reg', p') <- cleanup e_ts (fr_lb e_ts e_num tick) limit pct next (ls_ring s) (ck_reg (ls_check s)) (ls_pops s);
    let c := ls_check s in
    Ok (mk_link_state r' (mk_check (ck_prev c) (ck_first c) (ck_reported c) (ck_ctr c) (ck_daq c) reg' (ck_reports c)) p' (ls_stats s),
        OutNone)
  | LRequest dr =>
    (* DefaultRequestHandlerModel.hpp line 534: has_error("MISSING_FRAMES") selects the search. *)
    do (c, f, st') <- data_request dnf lk tick (fr_lb e_ts e_num tick) running
                        (has_error "MISSING_FRAMES" (ck_reg (ls_check s))) (ls_ring s) dr (ls_stats s);
    Ok (mk_link_state (ls_ring s) (ls_check s) (ls_pops s) st', OutReply c f)
  | LRestart =>
    (* stop flushes the buffer (line 173), start restarts the processor (line 149). The registry stays. *)
    do r' <- flush (ls_ring s);
    Ok (mk_link_state r' (if resets then wib_start (ls_check s) else ls_check s) (ls_pops s) (ls_stats s), OutNone)
  end.

(** A history: the state after it and what each call returned; [Crash] if one crashed. *)
Fixpoint link_run (s : link_state) (ops : list link_op) : res (link_state * list link_out) :=
  match ops with
  | [] => Ok (s, [])
  | o :: ops' => do (s', y) <- link_step s o; do (s'', ys) <- link_run s' ops'; Ok (s'', y :: ys)
  end.

End Link.

(** A new link: empty ring of size [n], no errors registered. *)
Definition link_new (n : Z) : res link_state :=
  do r <- ring_new n;
  Ok (mk_link_state r (check_new []) (mk_pop_stats 0 0 0 0) (mk_stats 0 0 0 0 0)).
