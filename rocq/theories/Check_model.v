(** Model of the checks run on every arriving element.
    /repo/src/wib/WIBFrameProcessor.hpp (start 157-170, timestamp_check 282-321, frame_error_check
    326-364), /repo/src/wib2/WIB2FrameProcessor.hpp (58-98), /repo/src/daphne/DAPHNEFrameProcessor.hpp
    (59-91), /repo/src/pacman/PACMANFrameProcessor.hpp (57-86), /repo/src/ssp/SSPFrameProcessor.hpp (67-88). *)
From Coq Require Import ZArith List Bool String.
From Verif Require Import Base_model Elem_model Registry_model.
Import ListNotations.
Open Scope Z_scope.

(** m_previous_ts, m_first_ts_missmatch, m_problem_reported, m_ts_error_ctr, m_last_processed_daq_ts,
    the registry, and (not in the code) the number of continuity problems reported so far: the TLOG of
    WIB lines 313-314. m_current_ts is the timestamp of the element being checked. *)
Record check : Type := mk_check {
  ck_prev : Z; ck_first : bool; ck_reported : bool; ck_ctr : Z; ck_daq : Z; ck_reg : registry; ck_reports : Z
}.

(** A processor after construction (WIB fields 267-273, WIB2 49-53), with the registry it is given. *)
Definition check_new (reg : registry) : check := mk_check 0 true false 0 0 reg 0.

(** WIBFrameProcessor::start, lines 157-161: resets everything but the registry and the published
    time. WIB2FrameProcessor does not override start. *)
Definition wib_start (c : check) : check :=
  mk_check 0 true false 0 (ck_daq c) (ck_reg c) (ck_reports c).

Section Frames.
(** The duration of a superchunk and the tick between frames: 300 and 25 (WIB), 384 and 32 (WIB2). *)
Variable dur tick : Z.

(** set_timestamp() on each frame (WIB 286-295; WIB2 62-70). Simplification: [f_bytes] keeps the other
    bytes of the frame, the timestamp field being exact for 64 bits. *)
Fixpoint restamp (next : Z) (l : list frame) : list frame :=
  match l with
  | [] => []
  | f :: l' => mk_frame next (f_bytes f) :: restamp (u64 (next + tick)) l'
  end.

(** timestamp_check, WIB 282-321, WIB2 58-98. [emu] is m_emulator_mode. *)
Definition timestamp_check (emu : bool) (e : elem) (c : check) : elem * check :=
  let e := if emu then mk_elem (restamp (u64 (ck_prev c + dur)) (e_frames e)) else e in
  let cur := e_ts e in
  let bad := negb (u64 (cur - ck_prev c) =? dur) in
  let ctr := if bad then i32 (ck_ctr c + 1) else ck_ctr c in
  let reg := if bad then add_error "MISSING_FRAMES" (mk_interval (u64 (ck_prev c + dur)) cur) (ck_reg c) else ck_reg c in
  let first := if bad then false else ck_first c in
  let report := (1000 <? ctr) && negb (ck_reported c) in
  (e, mk_check cur first (ck_reported c || report) ctr cur reg (ck_reports c + (if report then 1 else 0))).

(** preprocess_item for each arriving element (ReadoutModel.hpp line 242), timestamp check only. *)
Fixpoint check_all (emu : bool) (l : list elem) (c : check) : list elem * check :=
  match l with
  | [] => ([], c)
  | e :: l' => let (e', c1) := timestamp_check emu e c in
               let (r, c2) := check_all emu l' c1 in (e' :: r, c2)
  end.

(** DAPHNEFrameProcessor::timestamp_check, lines 59-91; [first] is m_first_ts_fake. fake_timestamps is
    ReadoutTypes.hpp lines 253-263. *)
Definition daphne_check (emu : bool) (first : bool) (e : elem) (c : check) : elem * bool * check :=
  let e := if emu then mk_elem (restamp (if first then ck_prev c else u64 (ck_prev c + dur)) (e_frames e)) else e in
  let cur := e_ts e in
  let report := (1000 <? ck_ctr c) && negb (ck_reported c) in
  (e, (if emu then false else first),
   mk_check cur (ck_first c) (ck_reported c || report) (ck_ctr c) cur (ck_reg c) (ck_reports c + (if report then 1 else 0))).

Fixpoint daphne_all (emu first : bool) (l : list elem) (c : check) : list elem * check :=
  match l with
  | [] => ([], c)
  | e :: l' => let '(e', first', c1) := daphne_check emu first e c in
               let (r, c2) := daphne_all emu first' l' c1 in (e' :: r, c2)
  end.

End Frames.

(** PACMANFrameProcessor::timestamp_check, lines 57-86, on the timestamp of the message. The second
    result tells whether the message was flagged (line 70). *)
Definition pacman_check (cur : Z) (c : check) : check * bool :=
  let bad := u64 (cur - ck_prev c) <=? 0 in
  let ctr := if bad then i32 (ck_ctr c + 1) else ck_ctr c in
  let report := (1000 <? ctr) && negb (ck_reported c) in
  (mk_check cur (ck_first c) (ck_reported c || report) ctr cur (ck_reg c) (ck_reports c + (if report then 1 else 0)), bad).

Fixpoint pacman_all (l : list Z) (c : check) : check * list bool :=
  match l with
  | [] => (c, [])
  | t :: l' => let (c1, b) := pacman_check t c in
               let (c2, bs) := pacman_all l' c1 in (c2, b :: bs)
  end.

(** SSPFrameProcessor::timestamp_check, line 87. *)
Definition ssp_check (e : elem) (c : check) : check :=
  mk_check (ck_prev c) (ck_first c) (ck_reported c) (ck_ctr c) (e_ts e) (ck_reg c) (ck_reports c).

(** ** Error field of the frames: WIBFrameProcessor::frame_error_check, lines 326-364 *)
Section Errors.
Context {F : Type}.
(** WIBHeader::wib_errors, a 16-bit field. *)
Variable errors : F -> Z.
(** m_error_counter_threshold. *)
Variable threshold : Z.
(** Whether the n-th push to the errored frame queue succeeds (line 350; on a time-out the exception is
    caught at 352 and the frame counts as not pushed). *)
Variable push_ok : nat -> bool.

(** m_error_occurrence_counters, m_frames_processed, m_frame_error_count; the number of pushes tried
    and the frames that went through. *)
Record errst : Type := mk_errst {
  es_counters : list Z; es_processed : Z; es_count : Z; es_tries : nat; es_sent : list F
}.

(** Lines 333-338. *)
Definition decay (processed : Z) (cs : list Z) : list Z :=
  if processed mod 10000 =? 0 then map (fun c => if c =? 0 then c else c - 1) cs else cs.

(** The loop over the 16 bits, lines 345-359: [j] is the bit of the first counter in [cs]; [pushed] is
    m_current_frame_pushed. Result: new counters, pushes tried, pushed. *)
Fixpoint bits_loop (w : Z) (j : Z) (cs : list Z) (tries : nat) (pushed : bool) : list Z * nat * bool :=
  match cs with
  | [] => ([], tries, pushed)
  | c :: cs' =>
    if Z.testbit w j && (c <? threshold) then
      let '(tries', pushed') := if pushed then (tries, pushed) else (S tries, push_ok tries) in
      let '(r, t, p) := bits_loop w (j + 1) cs' tries' pushed' in (c + 1 :: r, t, p)
    else
      let '(r, t, p) := bits_loop w (j + 1) cs' tries pushed in (c :: r, t, p)
  end.

(** std::bitset<16>(w).count(), line 342: set bits among bits j .. j+n-1. *)
Fixpoint popcount (w : Z) (j : Z) (n : nat) : Z :=
  match n with O => 0 | S n' => (if Z.testbit w j then 1 else 0) + popcount w (j + 1) n' end.

(** One frame, lines 332-362. *)
Definition frame_error_step (s : errst) (f : F) : errst :=
  let cs := decay (es_processed s) (es_counters s) in
  let count := if negb (errors f =? 0) then u64 (es_count s + popcount (errors f) 0 16) else es_count s in
  let '(cs', tries, pushed) := bits_loop (errors f) 0 cs (es_tries s) false in
  mk_errst cs' (u64 (es_processed s + 1)) count tries (es_sent s ++ if pushed then [f] else []).

(** All frames of the arriving superchunks, in order. *)
Definition frame_errors (s : errst) (l : list F) : errst := fold_left frame_error_step l s.

(** start, lines 169-170: the per-bit counters are not reset (get_info, line 249, also zeroes the count). *)
Definition errst_start (s : errst) : errst := mk_errst (es_counters s) 0 0 (es_tries s) (es_sent s).

(** m_error_occurrence_counters, lines 565-566. *)
Definition errst_new : errst := mk_errst (repeat 0 16) 0 0 0 [].

End Errors.
Arguments errst : clear implicits.
Arguments errst_new {F}.
