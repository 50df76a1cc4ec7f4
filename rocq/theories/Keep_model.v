(** Model of how the request handler derives its clean-up settings, /repo/include/readout/models/DefaultRequestHandlerModel.hpp,
    conf, lines 99-121. The clean-up itself is in Cleanup_model.v (one call at a time) and in Record_model.v (interleaved).
    Left out: the number of threads, the recording file (Record_model.v, Zcopy_model.v), m_max_requested_elements (never read). *)
From Coq Require Import ZArith Bool.
From Verif Require Import Base_model Float_model.
Open Scope Z_scope.

(** Not below 0.0f and not above 1.0f, line 116. *)
Definition in_range (p : float32) : bool :=
  (0 <=? fst p) && (if 0 <? snd p then fst p =? 0 else fst p <=? 2 ^ (- snd p)).

(** m_pop_limit_size, m_pop_size_pct, and the number of errors reported. *)
Record handler : Type := mk_handler { h_limit : Z; h_pct : float32; h_errors : nat }.

(** A new handler, lines 65-70. *)
Definition handler_new : handler := mk_handler 0 (0, 0) 0.

(** conf with pop_limit_pct, pop_size_pct and latency_buffer_size, lines 102-121. The share is assigned before the check;
    the limit only if the check succeeds. ers::error reports and goes on. *)
Definition handler_conf (limit_pct size_pct : float32) (size : Z) (h : handler) : handler :=
  if in_range limit_pct && in_range size_pct
  then mk_handler (share limit_pct size) size_pct (h_errors h)
  else mk_handler (h_limit h) size_pct (S (h_errors h)).
