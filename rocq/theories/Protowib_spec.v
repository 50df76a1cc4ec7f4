(** What an emulated WIB (ProtoDUNE) link is specified to answer, count and forward (C81). *)
From Coq Require Import ZArith List Bool.
From Verif Require Import Base_model Bytes_model Ebg_model Elem_model Emu_model Emu_spec Check_spec Chain_model Chain_spec Protowib_model.
Import ListNotations.
Open Scope Z_scope.

(** What is assumed of the accessors of a frame: times below [limit] can be written into the frames [ok] and read back, the error
    field holds 16 bits, and writing it leaves the time alone. *)
Record lawful (ff : frame_format) (stride : nat) (limit : Z) (ok : list Z -> Prop) : Prop := mk_lawful {
  lf_set : forall ts f, length f = stride -> ok f -> 0 <= ts < limit ->
             length (ff_set ff ts f) = stride /\ ff_get ff (ff_set ff ts f) = ts;
  lf_errors : forall w f, length f = stride ->
             length (ff_set_errors ff w f) = stride /\ ff_get ff (ff_set_errors ff w f) = ff_get ff f /\
             ff_errors ff (ff_set_errors ff w f) = w mod 65536
}.

(** The header of a WIB frame as in detdataformats (not in /repo): error word in bytes 6-7, time in bytes 8-13, and its upper 15 bits
    in bytes 14-15 unless the top bit of those (z) is set. *)
Definition wib_get (f : list Z) : Z :=
  unle (firstn 6 (skipn 8 f)) + if nth 15 f 0 <? 128 then 2 ^ 48 * unle (firstn 2 (skipn 14 f)) else 0.
Definition wib_set (ts : Z) (f : list Z) : list Z :=
  firstn 8 f ++ le 6 ts ++ if nth 15 f 0 <? 128 then le 2 (ts / 2 ^ 48 mod 32768) ++ skipn 16 f else skipn 14 f.
Definition wib_format : frame_format :=
  mk_format wib_get wib_set (fun f => unle (firstn 2 (skipn 6 f))) (fun w f => firstn 6 f ++ le 2 w ++ skipn 8 f).
Definition z_clear (f : list Z) : Prop := 0 <= nth 15 f 0 < 128.

(** The calls that matter for the data. *)
Definition chain_ops (ops : list pwib_op) : list chain_op :=
  flat_map (fun o => match o with PwChain o => [o] | PwInfo => [] end) ops.

(** Error words used up before the current run: twelve for each element produced in an earlier run, after [used] before the first. *)
Definition words_used (dropouts : list bool) (used : nat) (ops : list chain_op) : nat :=
  snd (fold_left (fun su o => (flow_step dropouts (fst su) o,
                               match o with XRestart => snd su + 12 * produced dropouts (fl_next (fst su)) | _ => snd su end)%nat)
                 ops (mk_flow 0 [] [], used)).

(** Frame [j] of an element of the file. *)
Definition file_frame (c : emu_conf) (stride k j : nat) : list Z :=
  firstn stride (skipn (j * stride) (element (em_source c) (em_size c) k)).

(** Error word of frame [j] of slot [i] of a run before which [used] words were used up. *)
Definition slot_word (c : emu_conf) (used i j : nat) : Z :=
  nth j (error_words (em_tables c) (used + produced (em_dropouts c) i * 12) 12) 0.

(** Frame [j] of slot [i]: the bytes of the file, cyclically, with the emulated time and the error word. *)
Definition pw_slot_frame (ff : frame_format) (stride : nat) (c : emu_conf) (t0 : Z) (used i j : nat) : frame :=
  let ts := t0 + (Z.of_nat i * 12 + Z.of_nat j) * 25 in
  mk_frame ts (ff_set_errors ff (slot_word c used i j) (ff_set ff ts (file_frame c stride (produced (em_dropouts c) i) j))).

Definition pw_slot (ff : frame_format) (stride : nat) (c : emu_conf) (t0 : Z) (used i : nat) : elem :=
  mk_elem (map (pw_slot_frame ff stride c t0 used i) (seq 0 12)).

(** Set error bits in the slots of [l]. *)
Definition error_bits (c : emu_conf) (used : nat) (l : list nat) : Z :=
  sum (map (fun i => sum (map (fun j => set_bits (slot_word c used i j)) (seq 0 12))) l).

(** Sum of what get_info reported since the last start. *)
Definition reported (ops : list pwib_op) (ys : list pwib_out) : Z :=
  fold_left (fun a oy => match oy with
                         | (PwChain XRestart, _) => 0
                         | (_, PwErrors n) => a + n
                         | _ => a
                         end) (combine ops ys) 0.
