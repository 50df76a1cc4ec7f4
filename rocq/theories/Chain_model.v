(** The emulated source and the link behind it put together: the producing thread of
    /repo/include/readout/models/SourceEmulatorModel.hpp (run_produce 153-221, Emu_model.v), the source queue, and the
    link of /repo/include/readout/models/ReadoutModel.hpp (Link_model.v), for element types with two 32-bit timestamp
    fields per frame: WIB2 (/repo/include/readout/ReadoutTypes.hpp 159-219). Down to the bytes of the elements. *)
From Coq Require Import ZArith List Bool.
From Verif Require Import Base_model Bytes_model Codec_model Ebg_model Emu_model Elem_model Float_model Request_model Link_model.
Import ListNotations.
Open Scope Z_scope.

(** The producer, the elements in the source queue (oldest first; as bytes), and the link. *)
Record chain : Type := mk_chain { ch_emu : emu_st; ch_queue : list (list Z); ch_link : link_state }.

Inductive chain_op : Type :=
| XProduce (room : bool)                               (* one turn of run_produce; does the push succeed before its timeout? *)
| XConsume                                             (* one turn of run_consume *)
| XClean (limit : Z) (pct : float32) (next : Z)        (* cleanup() of the request handler *)
| XRequest (dr : request)                              (* data_request() *)
| XRestart.                                            (* stop and start of the card and of the link *)

Section Chain.
(** Positions of the timestamp fields in a frame (detdataformats, outside /repo) and sizeof(FrameType): 468 for WIB2. *)
Variable p1 p2 stride : nat.
Variable c : emu_conf.
Variable dnf : Z.
Variable lk : link.
Variable resets running : bool.

(** Frame [i] of an element: begin() + i, ReadoutTypes.hpp 195-203; get_timestamp() is that of the frame struct. *)
Definition frame_at (m : list Z) (i : nat) : res frame :=
  do t <- split_get p1 p2 (i * stride) m; do b <- rd (i * stride) stride m; Ok (mk_frame t b).

Fixpoint frames_at (m : list Z) (k i : nat) : res (list frame) :=
  match k with
  | O => Ok []
  | S k' => do f <- frame_at m i; do fs <- frames_at m k' (S i); Ok (f :: fs)
  end.

(** The element as the link sees it: twelve frames, lines 195-209. *)
Definition view (m : list Z) : res elem := do fs <- frames_at m 12 0; Ok (mk_elem fs).

(** One step of the link with tick = m_time_tick_diff of the emulator and twelve frames per element. *)
Definition on_link (o : link_op) (s : chain) : res (chain * link_out) :=
  do (l', y) <- link_step dnf lk (em_tick c * 12) (em_tick c) resets running (ch_link s) o;
  Ok (mk_chain (ch_emu s) (ch_queue s) l', y).

Definition chain_step (s : chain) (o : chain_op) : res (chain * link_out) :=
  match o with
  | XProduce room =>
    (* SourceEmulatorModel.hpp 178-217. The queue's capacity is not modelled: [room] may be anything. fake_frame_errors
       does nothing for WIB2 (ReadoutTypes.hpp 190-193). *)
    do (po, e') <- emu_slot c room (ch_emu s);
    match po with
    | None => Ok (mk_chain e' (ch_queue s) (ch_link s), OutNone)
    | Some py =>
      do m <- fake_timestamps p1 p2 stride (py_ts py) (em_tick c) (py_data py);
      Ok (mk_chain e' (ch_queue s ++ if py_pushed py then [m] else []) (ch_link s), OutNone)
    end
  | XConsume =>
    (* ReadoutModel.hpp 234-246; nothing happens when the pop times out. *)
    match ch_queue s with
    | [] => Ok (s, OutNone)
    | m :: q => do e <- view m; on_link (LArrive e) (mk_chain (ch_emu s) q (ch_link s))
    end
  | XClean limit pct next => on_link (LClean limit pct next) s
  | XRequest dr => on_link (LRequest dr) s
  | XRestart =>
    (* Neither start empties the source queue. The producer starts run_produce afresh (lines 159-176). *)
    do (s', y) <- on_link LRestart s;
    do e' <- emu_begin c (es_gen (ch_emu s));
    Ok (mk_chain e' (ch_queue s') (ch_link s'), y)
  end.

Fixpoint chain_run (s : chain) (ops : list chain_op) : res (chain * list link_out) :=
  match ops with
  | [] => Ok (s, [])
  | o :: ops' => do (s', y) <- chain_step s o; do (s'', ys) <- chain_run s' ops'; Ok (s'', y :: ys)
  end.

(** After the first start: [g] is the error bit generator made by conf. *)
Definition chain_new (g : gen) (n : Z) : res chain :=
  do l <- link_new n; do e <- emu_begin c g; Ok (mk_chain e [] l).
End Chain.
