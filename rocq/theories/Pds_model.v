(** The emulated source and a photon detector (DAPHNE) link behind it: the producing thread of
    /repo/include/readout/models/SourceEmulatorModel.hpp (run_produce 153-221, Emu_model.v), the source queue, and the link of
    /repo/include/readout/models/ReadoutModel.hpp with the parts chosen in /repo/src/CreateReadout.hpp, lines 89-113: a ring with
    binary search and the default request handler (queue name with "pds_queue"), or a skip list and DAPHNEListRequestHandler
    ("pds_list"). Each call is one step; the interleaving of threads inside the calls is in Busy_model.v, Busylist_model.v and
    Guard_model.v. *)
From Coq Require Import String ZArith List Bool.
From Verif Require Import Base_model Bytes_model Codec_model Ebg_model Emu_model Elem_model Float_model Registry_model Ring_model
  SkipList_model Lb_model Request_model Cleanup_model Daphne_model Check_model Link_model Chain_model.
Import ListNotations.
Open Scope Z_scope.

(** The producer, the elements in the source queue (oldest first; as bytes), the latency buffer, m_first_ts_fake and the rest of
    DAPHNEFrameProcessor, and the statistics of the request handler. *)
Record pds (B : Type) : Type := mk_pds {
  pd_emu : emu_st; pd_queue : list (list Z); pd_buf : B; pd_first : bool; pd_check : check; pd_pops : pop_stats; pd_stats : stats
}.
Arguments mk_pds {B} _ _ _ _ _ _ _. Arguments pd_emu {B} _. Arguments pd_queue {B} _. Arguments pd_buf {B} _. Arguments pd_first {B} _.
Arguments pd_check {B} _. Arguments pd_pops {B} _. Arguments pd_stats {B} _.

Section Pds.
Context {B : Type}.
(** The latency buffer, its flush(), and cleanup() of the request handler. *)
Variable buf : lb elem B.
Variable flush_buf : B -> res B.
Variable clean : Z -> float32 -> Z -> B -> registry -> pop_stats -> res (B * registry * pop_stats).
(** Positions of timestamp_wf_1 and timestamp_wf_2 in a frame (detdataformats, outside /repo) and sizeof(FrameType): 584. *)
Variable p1 p2 stride : nat.
Variable c : emu_conf.
Variable dnf : Z.
Variable lk : link.
Variable running : bool.

Definition pds_step (s : pds B) (o : chain_op) : res (pds B * link_out) :=
  match o with
  | XProduce room =>
    (* SourceEmulatorModel.hpp 178-217; fake_timestamps is ReadoutTypes.hpp 254-263, fake_frame_errors does nothing (265-268). *)
    do (po, e') <- emu_slot c room (pd_emu s);
    match po with
    | None => Ok (mk_pds e' (pd_queue s) (pd_buf s) (pd_first s) (pd_check s) (pd_pops s) (pd_stats s), OutNone)
    | Some py =>
      do m <- fake_timestamps p1 p2 stride (py_ts py) (em_tick c) (py_data py);
      Ok (mk_pds e' (pd_queue s ++ if py_pushed py then [m] else []) (pd_buf s) (pd_first s) (pd_check s) (pd_pops s) (pd_stats s), OutNone)
    end
  | XConsume =>
    (* ReadoutModel.hpp 234-246; m_emulator_mode is off. *)
    match pd_queue s with
    | [] => Ok (s, OutNone)
    | m :: q =>
      do e <- view p1 p2 stride m;
      let '(e', first', c') := daphne_check 192 16 false (pd_first s) e (pd_check s) in
      do (b', ok) <- lb_write buf e' (pd_buf s);
      Ok (mk_pds (pd_emu s) q b' first' c' (pd_pops s) (pd_stats s), OutWrite ok)
    end
  | XClean limit pct next =>
    do (b', reg', p') <- clean limit pct next (pd_buf s) (ck_reg (pd_check s)) (pd_pops s);
    let k := pd_check s in
    Ok (mk_pds (pd_emu s) (pd_queue s) b' (pd_first s)
          (mk_check (ck_prev k) (ck_first k) (ck_reported k) (ck_ctr k) (ck_daq k) reg' (ck_reports k)) p' (pd_stats s), OutNone)
  | XRequest dr =>
    (* DefaultRequestHandlerModel.hpp 534: both buffers ignore has_error("MISSING_FRAMES"). get_expected_tick_difference() is that of
       the frames, here m_time_tick_diff of the emulator. *)
    do (k, f, st') <- data_request dnf lk (em_tick c) buf running (has_error "MISSING_FRAMES" (ck_reg (pd_check s))) (pd_buf s) dr (pd_stats s);
    Ok (mk_pds (pd_emu s) (pd_queue s) (pd_buf s) (pd_first s) (pd_check s) (pd_pops s) st', OutReply k f)
  | XRestart =>
    (* ReadoutModel.hpp 173: stop flushes the buffer; the processor keeps its state, the source queue its elements. *)
    do b' <- flush_buf (pd_buf s);
    do e' <- emu_begin c (es_gen (pd_emu s));
    Ok (mk_pds e' (pd_queue s) b' (pd_first s) (pd_check s) (pd_pops s) (pd_stats s), OutNone)
  end.

Fixpoint pds_run (s : pds B) (ops : list chain_op) : res (pds B * list link_out) :=
  match ops with
  | [] => Ok (s, [])
  | o :: ops' => do (s', y) <- pds_step s o; do (s'', ys) <- pds_run s' ops'; Ok (s'', y :: ys)
  end.

(** After the first start, with an empty buffer [b]. *)
Definition pds_new (g : gen) (b : B) : res (pds B) :=
  do e <- emu_begin c g; Ok (mk_pds e [] b true (check_new []) (mk_pop_stats 0 0 0 0) (mk_stats 0 0 0 0 0)).
End Pds.

(** "pds_queue": BinarySearchQueueModel and DefaultRequestHandlerModel, CreateReadout.hpp 89-100. *)
Definition pdsq_run := pds_run (bs_lb e_ts) flush (cleanup e_ts (bs_lb e_ts)).
Definition pdsq_step := pds_step (bs_lb e_ts) flush (cleanup e_ts (bs_lb e_ts)).

(** "pds_list": SkipListLatencyBufferModel and DAPHNEListRequestHandler (cleanup, 57; counters 76, 92, 98), CreateReadout.hpp 103-113.
    No element arrives while the clean-up runs (with arrivals: Daphne_model.v). The loop is given more rounds than there are elements. *)
Definition list_clean (limit : Z) (pct : float32) (next : Z) (l : list elem) (reg : registry) (st : pop_stats)
  : res (list elem * registry * pop_stats) :=
  match daphne_cleanup e_ts (S (List.length l)) [] l with
  | Some (Ok (k, hit)) =>
    Ok (cl_list k, reg, mk_pop_stats (ps_reqs st + if hit then 1 else 0) (ps_count st + Z.of_nat (List.length (cl_removed k)))
                          (ps_occupancy st) (ps_cleanups st + 1))
  | _ => Crash
  end.
Definition pdsl_run := pds_run (sl_lb e_ts) (fun l => Ok (sl_flush l)) list_clean.
Definition pdsl_step := pds_step (sl_lb e_ts) (fun l => Ok (sl_flush l)) list_clean.
