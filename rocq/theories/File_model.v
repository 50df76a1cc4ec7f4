(** Model of the buffered file writer and reader, of the file source buffer and of the raw recorder:
    /repo/include/readout/utils/BufferedFileWriter.hpp, BufferedFileReader.hpp, FileSourceBuffer.hpp and
    /repo/include/readout/models/RecorderModel.hpp.
    Environment, not code of the repository: one file on a device that refuses writes beyond [room] bytes, and, while
    O_DIRECT is set, writes whose offset or length is not a multiple of [align] (open(2)); a boost stream buffer of
    [w_size] > 0 bytes that is handed to the device when it is full and another byte arrives, when it is flushed and
    when the stream is reset; a failing device write sets the stream's bad bit and leaves the buffer as it was.
    A compressor is a function of everything written: it hands on its output when the stream is reset (boost
    compressors are not flushable, line 183); partial output before that is not modelled. *)
From Coq Require Import String ZArith List Bool.
From Verif Require Import Base_model.
Import ListNotations.
Open Scope Z_scope.

Record device : Type := mk_dev { d_align : nat; d_room : nat }.

(** write(2) at offset [off] of a file with content [f]. *)
Definition dev_write (d : device) (direct : bool) (off : nat) (bs f : list Z) : option (list Z) :=
  if direct && negb ((off mod d_align d =? 0)%nat && (length bs mod d_align d =? 0)%nat) then None
  else if (d_room d <? off + length bs)%nat then None
  else Some (firstn off f ++ bs ++ skipn (off + length bs) f).

(** The names of the compression algorithms, BufferedFileWriter.hpp 123-137. *)
Inductive codec : Type := CNone | CZstd | CLzma | CZlib.
Definition codec_of (s : string) : option codec :=
  if String.eqb s "zstd" then Some CZstd
  else if String.eqb s "lzma" then Some CLzma
  else if String.eqb s "zlib" then Some CZlib
  else if String.eqb s "None" then Some CNone
  else None.

Section Codec.
(** The compressors and decompressors of boost::iostreams. *)
Variable enc : codec -> list Z -> list Z.
Variable dec : codec -> list Z -> list Z.

(** ** BufferedFileWriter *)

(** Fields 193-204 and the state of the stream: m_is_open, m_use_o_direct, the O_DIRECT flag and the offset of the file
    descriptor, m_buffer_size, the stream buffer, the bytes held by the compressor, the bad bit. *)
Record writer : Type := mk_w {
  w_open : bool; w_use_direct : bool; w_fd_direct : bool; w_off : nat; w_size : nat; w_buf : list Z;
  w_codec : codec; w_plain : list Z; w_bad : bool
}.
(** BufferedFileWriter(), line 73. *)
Definition w_new : writer := mk_w false true true 0 0 [] CNone [] false.

(** The state of the world: the file (None if it does not exist) and the writer. *)
Definition world : Type := (option (list Z) * writer)%type.
Definition content (f : option (list Z)) : list Z := match f with Some c => c | None => [] end.

Definition set_stream (buf plain : list Z) (off : nat) (bad : bool) (w : writer) : writer :=
  mk_w (w_open w) (w_use_direct w) (w_fd_direct w) off (w_size w) buf (w_codec w) plain bad.
Definition set_fd_direct (b : bool) (w : writer) : writer :=
  mk_w (w_open w) (w_use_direct w) b (w_off w) (w_size w) (w_buf w) (w_codec w) (w_plain w) (w_bad w).

(** The stream buffer is handed to the device. *)
Definition sync (d : device) (x : world) : world :=
  let w := snd x in
  match w_buf w with
  | [] => x
  | _ => match dev_write d (w_fd_direct w) (w_off w) (w_buf w) (content (fst x)) with
         | Some c => (Some c, set_stream [] (w_plain w) (w_off w + length (w_buf w)) (w_bad w) w)
         | None => (fst x, set_stream (w_buf w) (w_plain w) (w_off w) true w)
         end
  end.

(** std::ostream::write into the stream buffer: stops at the first failure. *)
Fixpoint put (d : device) (bs : list Z) (x : world) : world :=
  match bs with
  | [] => x
  | b :: bs' =>
      if w_bad (snd x) then x else
      let x1 := if (length (w_buf (snd x)) =? w_size (snd x))%nat then sync d x else x in
      if w_bad (snd x1) then x1
      else put d bs' (fst x1, set_stream (w_buf (snd x1) ++ [b]) (w_plain (snd x1)) (w_off (snd x1)) false (snd x1))
  end.

(** write, lines 154-160. *)
Definition w_write (d : device) (bs : list Z) (x : world) : bool * world :=
  if negb (w_open (snd x)) then (false, x) else
  let x1 := match w_codec (snd x) with
            | CNone => put d bs x
            | _ => if w_bad (snd x) then x
                   else (fst x, set_stream (w_buf (snd x)) (w_plain (snd x) ++ bs) (w_off (snd x)) false (snd x))
            end in
  (negb (w_bad (snd x1)), x1).

(** close, lines 165-172. The bytes retained in the buffer are handed over even if the stream had failed. *)
Definition w_close (d : device) (x : world) : world :=
  let x1 := (fst x, set_fd_direct false (snd x)) in
  let x2 := match w_codec (snd x1) with
            | CNone => sync d x1
            | c => sync d (put d (enc c (w_plain (snd x1))) x1)
            end in
  let w := snd x2 in
  (fst x2, mk_w false (w_use_direct w) (w_fd_direct w) (w_off w) (w_size w) [] (w_codec w) [] (w_bad w)).

(** flush, lines 178-191. std::ostream::flush does nothing on a failed stream. *)
Definition w_flush (d : device) (x : world) : world :=
  let x1 := (fst x, set_fd_direct false (snd x)) in
  let x2 := if w_bad (snd x1) then x1 else sync d x1 in
  (fst x2, set_fd_direct (w_use_direct (snd x2)) (snd x2)).

Inductive open_result : Type := Opened | CannotOpen | BadAlgorithm | AlreadyOpen.

(** open, lines 99-141. [can] says whether the path can be opened or created; the file is not truncated. The fields
    set before a failure (m_use_o_direct, m_filename, ...) are overwritten by the next open. *)
Definition w_do_open (d : device) (can : bool) (size : nat) (algorithm : string) (direct : bool) (x : world) : open_result * world :=
  let x1 := if w_open (snd x) then w_close d x else x in
  if negb can then (CannotOpen, x1) else
  let f := Some (content (fst x1)) in
  match codec_of algorithm with
  | None => (BadAlgorithm, (f, snd x1))
  | Some c => (Opened, (f, mk_w true direct direct 0 size [] c [] false))
  end.

(** What a user does with an open writer. *)
Inductive wop : Type := OWrite (bs : list Z) | OFlush.

(** The results of the writes, and the world afterwards. *)
Fixpoint w_ops (d : device) (ops : list wop) (x : world) : list bool * world :=
  match ops with
  | [] => ([], x)
  | OWrite bs :: ops' => let r := w_write d bs x in let q := w_ops d ops' (snd r) in (fst r :: fst q, snd q)
  | OFlush :: ops' => w_ops d ops' (w_flush d x)
  end.

(** ** BufferedFileReader *)

(** The decoded bytes still to be read, m_is_open, and the fail bit. *)
Record reader : Type := mk_r { r_open : bool; r_data : list Z; r_fail : bool }.
Definition r_new : reader := mk_r false [] false.

(** open, lines 82-112: an open reader has a complete chain, so that boost's push throws std::logic_error. *)
Definition r_do_open (f : option (list Z)) (algorithm : string) (r : reader) : open_result * reader :=
  match f with
  | None => (CannotOpen, r)
  | Some c => match codec_of algorithm with
              | None => (BadAlgorithm, r)
              | Some CNone => if r_open r then (AlreadyOpen, r) else (Opened, mk_r true c false)
              | Some a => if r_open r then (AlreadyOpen, r) else (Opened, mk_r true (dec a c) false)
              end
  end.

(** read, lines 127-133: the result and the bytes stored into the element (gcount of them). *)
Definition r_read (size : nat) (r : reader) : (bool * list Z) * reader :=
  if negb (r_open r) then ((false, []), r)
  else if r_fail r then ((false, []), r)
  else let got := firstn size (r_data r) in
       ((length got =? size, got)%nat, mk_r true (skipn size (r_data r)) (length got <? size)%nat).

(** close, lines 138-142. *)
Definition r_close (r : reader) : reader := mk_r false [] false.

(** [n] reads. *)
Fixpoint r_reads (size n : nat) (r : reader) : list (bool * list Z) * reader :=
  match n with
  | O => ([], r)
  | S n' => let x := r_read size r in let q := r_reads size n' (snd x) in (fst x :: fst q, snd q)
  end.

End Codec.

(** ** FileSourceBuffer *)

(** Fields 89-98; the stream's open flag. *)
Record fsb : Type := mk_fsb { fs_limit : Z; fs_chunk : Z; fs_count : Z; fs_buffer : list Z; fs_open : bool }.
(** Constructor, lines 29-34. *)
Definition fsb_new (limit chunk : Z) : fsb := mk_fsb limit chunk 0 [] false.

(** What read reports: an exception, or the warnings given (size limit, remainder). *)
Inductive fsb_result : Type := FThrow | FRead (over_limit remainder : bool).

(** read, lines 41-80. Opening a stream that is open fails. Sizes are converted to int as in the code. *)
Definition fsb_read (f : option (list Z)) (s : fsb) : fsb_result * fsb :=
  if fs_open s then (FThrow, s) else
  match f with
  | None => (FThrow, s)
  | Some c =>
      let filesize := Z.of_nat (length c) in
      let chunked := fs_chunk s >? 0 in
      let remainder := i32 (Z.rem filesize (fs_chunk s)) in
      (FRead (filesize >? fs_limit s) (chunked && (remainder >? 0)),
       mk_fsb (fs_limit s) (fs_chunk s) (if chunked then i32 (Z.quot filesize (fs_chunk s)) else fs_count s)
              (c ++ fs_buffer s) true)
  end.

(** ** RecorderModel *)

(** What pop returns while the run marker is set. *)
Inductive rec_event : Type := RPop (element : list Z) | RTimeout.

(** m_packets_processed_total, m_packets_processed_since_last_info (atomic<int>); elements popped. *)
Record rec_st : Type := mk_rec { rc_total : Z; rc_since : Z; rc_popped : list (list Z) }.

(** do_work, lines 93-112: the loop ends when the run marker is cleared (end of the list) or a write fails. *)
Fixpoint rec_loop (d : device) (evs : list rec_event) (s : rec_st) (x : world) : rec_st * world :=
  match evs with
  | [] => (s, x)
  | RTimeout :: evs' => rec_loop d evs' s x
  | RPop e :: evs' =>
      let s1 := mk_rec (i32 (rc_total s + 1)) (i32 (rc_since s + 1)) (rc_popped s ++ [e]) in
      let r := w_write d e x in
      if fst r then rec_loop d evs' s1 (snd r) else (s1, snd r)
  end.
(** do_start, do_work to its end, do_stop (lines 77-112): the total counter restarts. *)
Definition rec_run (d : device) (evs : list rec_event) (s : rec_st) (x : world) : rec_st * world :=
  let q := rec_loop d evs (mk_rec 0 (rc_since s) (rc_popped s)) x in (fst q, w_flush d (snd q)).

(** Runs one after the other (start, stop, start, ...). *)
Fixpoint rec_runs (d : device) (runs : list (list rec_event)) (s : rec_st) (x : world) : rec_st * world :=
  match runs with
  | [] => (s, x)
  | evs :: runs' => let q := rec_run d evs s x in rec_runs d runs' (fst q) (snd q)
  end.

(** do_conf, lines 64-75: removes the output file, then opens it (an open writer is closed first: its file is unlinked,
    so what it still writes is lost). *)
Definition rec_conf (enc : codec -> list Z -> list Z) (d : device) (can : bool) (size : nat) (algorithm : string) (direct : bool) (x : world) :
  open_result * world :=
  let x1 := if w_open (snd x) then (None, snd (w_close enc d x)) else (None, snd x) in
  w_do_open enc d can size algorithm direct x1.
