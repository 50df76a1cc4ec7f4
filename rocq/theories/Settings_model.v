(** Model of the numeric settings of the generated link configurations, /repo/python/readout/app_confgen.py 284-401 with the defaults of
    /repo/schema/readout/readoutconfig.jsonnet 40-113, and of the alignment check of zero-copy recording.
    Left out: region and element numbers, file names (Gen_model.v), queue timeouts, thread counts, the settings of software
    trigger primitive generation and of error reporting. *)
From Coq Require Import ZArith Bool.
From Verif Require Import Base_model Ring_model Float_model Keep_model.
Open Scope Z_scope.

(** CLOCK_SPEED_HZ, line 39. *)
Definition clock_speed_hz : Z := 50000000.

(** 3 * CLOCK_SPEED_HZ / (25 * 12 * DATA_RATE_SLOWDOWN_FACTOR), lines 295-297 and five more times; the result is a double, which becomes a u8
    by dropping its fraction. The quotient of two such small integers, rounded to a double, has the same integer part as the exact
    one (it is below 2^19, where doubles are 2^-34 apart, and at least 1/(300 s) below the next integer). [None]: division by zero. Negative
    factors are not modelled. *)
Definition latency_buffer_size (slowdown : Z) : option Z :=
  if slowdown =? 0 then None else Some (3 * clock_speed_hz / (25 * 12 * slowdown)).

(** datahandler, sw_tp_handler, raw_tp_handler. *)
Inductive handler_kind : Type := DataHandler | SwTpHandler | RawTpHandler.

Record link_settings : Type := mk_settings {
  st_buffer_size : Z;            (* latencybufferconf.latency_buffer_size *)
  st_alignment : Z;              (* latencybufferconf.latency_buffer_alignment_size *)
  st_handler_size : Z;           (* requesthandlerconf.latency_buffer_size *)
  st_limit : float32;            (* pop_limit_pct *)
  st_share : float32;            (* pop_size_pct *)
  st_stream : Z;                 (* stream_buffer_size *)
  st_recording : bool;           (* enable_raw_recording *)
  st_postprocess : Z;            (* rawdataprocessorconf.postprocess_queue_sizes *)
  st_retries : Z                 (* retry_count, an i4 *)
}.

(** The conf of one handler: datahandler 287-321, sw_tp_handler 326-357, raw_tp_handler 362-396. Alignment (jsonnet 51: 0), queue size
    (jsonnet 62: 10000) and retry count (jsonnet 88-89: 100) are not given there. 0.8 and 0.1 are stored as f4 (jsonnet 29). *)
Definition generated (k : handler_kind) (slowdown : Z) : option link_settings :=
  match latency_buffer_size slowdown with
  | None => None
  | Some n => Some (mk_settings n 0 n (13421773, -24) (13421773, -27) 8388608
                                (match k with DataHandler => true | _ => false end) 10000 100)
  end.

(** sizeof(WIB_SUPERCHUNK_STRUCT), ReadoutTypes.hpp 82, 151. *)
Definition wib_superchunk_size : Z := 5568.

(** Is "Latency buffer is not 4k aligned" reported? ZeroCopyRecordingRequestHandlerModel.hpp 41-43 (size_t arithmetic). *)
Definition alignment_error (align size element : Z) : bool := (align =? 0) || negb (u64 (element * size) mod 4096 =? 0).

(** m_retry_count = conf.retry_count, DefaultRequestHandlerModel.hpp 107: an int32_t stored in a size_t. The comparison of line 457 is between
    two size_t. *)
Definition retries_of (conf : Z) : nat := Z.to_nat (u64 conf).
