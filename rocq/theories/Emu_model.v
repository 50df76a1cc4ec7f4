(** Model of the data production loop of the source emulator,
    /repo/include/readout/models/SourceEmulatorModel.hpp: conf 101-109 (dropout table), run_produce 153-221.
    Rate limiting (C33) is left out; the fake timestamps and error bits are recorded, not written into the bytes
    (writing timestamps is C32). *)
From Coq Require Import ZArith List Bool.
From Verif Require Import Base_model Bytes_model Ebg_model.
Import ListNotations.
Open Scope Z_scope.

(** Configuration: file content, sizeof(ReadoutType), frames per element, m_dropouts, m_time_tick_diff, set_t0_to,
    the getter of the first timestamp (of the element type, C32), the error tables, and FileSourceBuffer's count. *)
Record emu_conf : Type := mk_emu {
  em_source : list Z; em_size : nat; em_frames : nat; em_dropouts : list bool; em_tick : Z; em_t0 : Z;
  em_get_ts : list Z -> Z; em_tables : tables
}.

(** FileSourceBuffer.hpp 66-74: m_element_count. *)
Definition num_elem (c : emu_conf) : nat := length (em_source c) / em_size c.

(** The table of dropouts, lines 101-109: [draws] are the random draws >= m_dropout_rate; with rate zero the table has
    one entry (every draw is >= 0). *)
Definition make_dropouts (rate_is_zero : bool) (draws : list bool) : list bool :=
  if rate_is_zero then [true] else draws.

(** One payload handed to the queue: bytes copied from the file, first timestamp and error words applied to it, and
    whether the queue took it in time. *)
Record payload : Type := mk_payload { py_data : list Z; py_ts : Z; py_errs : list Z; py_pushed : bool }.

(** Local variables offset (uint), timestamp, dropout_index; member m_error_bit_generator; the two packet counters
    (atomic<int>). *)
Record emu_st : Type := mk_emst { es_offset : Z; es_ts : Z; es_drop : nat; es_gen : gen; es_count : Z }.

(** Beginning of run_produce, lines 159-176. *)
Definition emu_begin (c : emu_conf) (g : gen) : res emu_st :=
  do ts0 <- (if em_t0 c >=? 0 then Ok (em_t0 c) else do e <- rd 0 (em_size c) (em_source c); Ok (em_get_ts c e));
  Ok (mk_emst 0 (u64 ts0) 0 g 0).

(** One turn of the loop, lines 178-218. [pushed] says whether the queue accepts. *)
Definition emu_slot (c : emu_conf) (pushed : bool) (s : emu_st) : res (option payload * emu_st) :=
  let size := Z.of_nat (em_size c) in
  let offset := if (es_offset s =? Z.of_nat (num_elem c) * size) || ((es_offset s + 1) * size >? Z.of_nat (length (em_source c)))
                then 0 else es_offset s in
  match nth_error (em_dropouts c) (es_drop s) with
  | None => Crash
  | Some create =>
      let drop := (S (es_drop s) mod length (em_dropouts c))%nat in
      if create then
        do data <- rd (Z.to_nat (offset * size)) (em_size c) (em_source c);
        do errs <- gen_words (em_tables c) (em_frames c) (es_gen s);
        Ok (Some (mk_payload data (es_ts s) (fst errs) pushed),
            mk_emst (u32 (offset + 1)) (u64 (es_ts s + em_tick c * 12)) drop (snd errs) (i32 (es_count s + 1)))
      else Ok (None, mk_emst offset (u64 (es_ts s + em_tick c * 12)) drop (es_gen s) (es_count s))
  end.

(** The loop for as long as m_run_marker is set: one entry of [queue] per turn. *)
Fixpoint emu_loop (c : emu_conf) (queue : list bool) (s : emu_st) : res (list (option payload) * emu_st) :=
  match queue with
  | [] => Ok ([], s)
  | q :: queue' => do r <- emu_slot c q s; do rest <- emu_loop c queue' (snd r); Ok (fst r :: fst rest, snd rest)
  end.

Definition emu_run (c : emu_conf) (g : gen) (queue : list bool) : res (list (option payload) * emu_st) :=
  do s <- emu_begin c g; emu_loop c queue s.
