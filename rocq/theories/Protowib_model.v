(** The emulated source and a WIB (ProtoDUNE) link behind it, with the error bits: the producing thread of
    /repo/include/readout/models/SourceEmulatorModel.hpp (run_produce 153-221, Emu_model.v), the source queue, and the link of
    /repo/include/readout/models/ReadoutModel.hpp (Link_model.v) with WIBFrameProcessor (/repo/src/wib/WIBFrameProcessor.hpp:
    start 157-170, get_info 249, timestamp_check 282-321, frame_error_check 326-364; the latter in Check_model.v). Down to the
    bytes of the elements, for WIB_SUPERCHUNK_STRUCT (/repo/include/readout/ReadoutTypes.hpp 83-148). Each call is one step. *)
From Coq Require Import ZArith List Bool.
From Verif Require Import Base_model Bytes_model Ebg_model Emu_model Elem_model Float_model Request_model Check_model Link_model
  Chain_model.
Import ListNotations.
Open Scope Z_scope.

(** The accessors of one frame on its bytes: WIBHeader::get_timestamp and set_timestamp, wib_errors and WIBFrame::set_wib_errors.
    The frame struct is in detdataformats, outside /repo: the four functions are arbitrary here, and the theorems assume of them
    what Protowib_spec.v says. *)
Record frame_format : Type := mk_format {
  ff_get : list Z -> Z; ff_set : Z -> list Z -> list Z; ff_errors : list Z -> Z; ff_set_errors : Z -> list Z -> list Z
}.

(** The link with the error counters of the processor, the producer, and the source queue (elements as bytes, oldest first). *)
Record pwib : Type := mk_pwib { pw_chain : chain; pw_errors : errst frame }.

Inductive pwib_op : Type :=
| PwChain (o : chain_op)                               (* production, consumption, clean-up, request, restart *)
| PwInfo.                                              (* get_info() of the processor *)

Inductive pwib_out : Type :=
| PwOut (y : link_out)
| PwErrors (n : Z).                                    (* num_frame_errors *)

Section Protowib.
Variable ff : frame_format.
(** sizeof(WIBFrame): 464. *)
Variable stride : nat.
Variable c : emu_conf.
Variable dnf : Z.
Variable lk : link.
Variable running : bool.
(** m_error_counter_threshold, and whether the n-th push to the errored frame queue succeeds. *)
Variable threshold : Z.
Variable push_ok : nat -> bool.

(** wf[i] = f(wf[i]). *)
Definition on_frame (f : list Z -> list Z) (i : nat) (m : list Z) : res (list Z) :=
  do b <- rd (i * stride) stride m; wr (i * stride) (f b) m.

(** fake_timestamps, ReadoutTypes.hpp 108-118: [k] frames still to do. *)
Fixpoint stamp_frames (k i : nat) (ts_next offset : Z) (m : list Z) : res (list Z) :=
  match k with
  | O => Ok m
  | S k' => do m1 <- on_frame (ff_set ff ts_next) i m; stamp_frames k' (S i) (u64 (ts_next + offset)) offset m1
  end.

(** fake_frame_errors, lines 120-127; an index outside the vector is undefined behaviour. *)
Fixpoint mark_frames (k i : nat) (errs : list Z) (m : list Z) : res (list Z) :=
  match k with
  | O => Ok m
  | S k' => match nth_error errs i with
            | None => Crash
            | Some w => do m1 <- on_frame (ff_set_errors ff w) i m; mark_frames k' (S i) errs m1
            end
  end.

(** The element as the link sees it: begin() .. end(), lines 129-137. *)
Fixpoint pw_frames (m : list Z) (k i : nat) : res (list frame) :=
  match k with
  | O => Ok []
  | S k' => do b <- rd (i * stride) stride m; do fs <- pw_frames m k' (S i); Ok (mk_frame (ff_get ff b) b :: fs)
  end.
Definition pw_view (m : list Z) : res elem := do fs <- pw_frames m 12 0; Ok (mk_elem fs).

(** One step of the link: 300 ticks per element and 25 per frame; start resets the checks. *)
Definition pw_link (o : link_op) (s : pwib) : res (pwib * link_out) :=
  let ch := pw_chain s in
  do (l', y) <- link_step dnf lk 300 25 true running (ch_link ch) o;
  Ok (mk_pwib (mk_chain (ch_emu ch) (ch_queue ch) l') (pw_errors s), y).

Definition pw_step (s : pwib) (o : pwib_op) : res (pwib * pwib_out) :=
  let ch := pw_chain s in
  match o with
  | PwChain (XProduce room) =>
    (* SourceEmulatorModel.hpp 178-217. *)
    do (po, e') <- emu_slot c room (ch_emu ch);
    match po with
    | None => Ok (mk_pwib (mk_chain e' (ch_queue ch) (ch_link ch)) (pw_errors s), PwOut OutNone)
    | Some py =>
      do m <- stamp_frames 12 0 (py_ts py) (em_tick c) (py_data py);
      do m' <- mark_frames 12 0 (py_errs py) m;
      Ok (mk_pwib (mk_chain e' (ch_queue ch ++ if py_pushed py then [m'] else []) (ch_link ch)) (pw_errors s), PwOut OutNone)
    end
  | PwChain XConsume =>
    (* ReadoutModel.hpp 234-246: both checks (WIBFrameProcessor.hpp 70-73), then write. The checks do not change the element. *)
    match ch_queue ch with
    | [] => Ok (s, PwOut OutNone)
    | m :: q =>
      do e <- pw_view m;
      let errs := frame_errors (fun f => ff_errors ff (f_bytes f)) threshold push_ok (pw_errors s) (e_frames e) in
      do (s', y) <- pw_link (LArrive e) (mk_pwib (mk_chain (ch_emu ch) q (ch_link ch)) errs);
      Ok (s', PwOut y)
    end
  | PwChain (XClean limit pct next) => do (s', y) <- pw_link (LClean limit pct next) s; Ok (s', PwOut y)
  | PwChain (XRequest dr) => do (s', y) <- pw_link (LRequest dr) s; Ok (s', PwOut y)
  | PwChain XRestart =>
    (* WIBFrameProcessor.hpp 157-170; the queue keeps its elements, the generator its position. *)
    do (s', y) <- pw_link LRestart s;
    do e' <- emu_begin c (es_gen (ch_emu ch));
    Ok (mk_pwib (mk_chain e' (ch_queue (pw_chain s')) (ch_link (pw_chain s'))) (errst_start (pw_errors s')), PwOut y)
  | PwInfo =>
    (* line 249: m_frame_error_count.exchange(0) *)
    let x := pw_errors s in
    Ok (mk_pwib ch (mk_errst (es_counters x) (es_processed x) 0 (es_tries x) (es_sent x)), PwErrors (Check_model.es_count x))
  end.

Fixpoint pw_run (s : pwib) (ops : list pwib_op) : res (pwib * list pwib_out) :=
  match ops with
  | [] => Ok (s, [])
  | o :: ops' => do (s', y) <- pw_step s o; do (s'', ys) <- pw_run s' ops'; Ok (s'', y :: ys)
  end.

(** After the first start; [g] is the error bit generator made by conf. *)
Definition pw_new (g : gen) (n : Z) : res pwib := do ch <- chain_new c g n; Ok (mk_pwib ch errst_new).
End Protowib.
