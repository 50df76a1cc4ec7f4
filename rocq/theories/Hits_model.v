(** Model of the hit finding of the trigger primitive generation, scalar and vectorised, and of the decoder of the hit list.
    /repo/src/wib/tpg/ProcessNaive.hpp 41-164, /repo/src/wib/tpg/ProcessAVX2.hpp 79-373,
    /repo/src/wib/tpg/ProcessingInfo.hpp 63-101, /repo/src/wib/WIBFrameProcessor.hpp 369-505.
    The state arrays are kept per channel instead of per quantity (a transposition), and per register of 16 channels.
    first_register = 0 and last_register = NREGISTERS, timeWindowNumFrames = 12, as in WIBFrameProcessor::start 124-135.
    ProcessingInfo::nhits is not modelled (nobody reads it). *)
From Coq Require Import ZArith List Bool.
From Verif Require Import Base_model Frugal_model Expand_model.
Import ListNotations.
Open Scope Z_scope.

(** ProcessingInfo.hpp 63-88: the parts of the constructor that matter. *)
Record params := mkParams { taps : list Z; tap_exponent : Z; threshold : Z }.
Definition multiplier (p : params) : Z := i16 (2 ^ tap_exponent p).
Definition adc_max (p : params) : Z := i16 (32767 / multiplier p).

(** ChanState 20-58, one channel. [prev]: the eight entries of prev_samp. *)
Record chan := mkChan { trk : tracker; prev : list Z; was_over : Z; charge : Z; tover : Z }.

Fixpoint set_nth {A} (n : nat) (x : A) (l : list A) : list A :=
  match l, n with
  | [], _ => []
  | _ :: t, O => x :: t
  | y :: t, S k => y :: set_nth k x t
  end.

(** A hit in the output: end tick, charge, time over threshold. *)
Definition hit : Type := Z * Z * Z.

(** * Scalar version *)
(** ProcessNaive.hpp 106-109. *)
Definition filter_naive (p : params) (abs : nat) (prev : list Z) : Z :=
  fold_left (fun f j => i16 (f + nth j (taps p) 0 * nth ((j + abs) mod 8) prev 0)) (seq 0 8) 0.
(** Body of the loop over samples, 83-143. [s]: the sample, as a signed 16-bit value. *)
Definition naive_step (p : params) (abs : nat) (itime : Z) (c : chan) (s : Z) : chan * list hit :=
  let t := track_naive (trk c) s in
  let sigma := i16 (q75 t - q25 t) in
  let sample := Z.min (i16 (s - median t)) (adc_max p) in
  let filt := filter_naive p abs (prev c) in
  let prev' := set_nth (abs mod 8) sample (prev c) in
  let is_over := 5 * sigma * multiplier p <? filt in
  let '(charge', tover', was') :=
    if is_over then (i16 (Z.min (charge c + Z.shiftr filt (tap_exponent p)) 32767), i16 (tover c + 1), 1)
    else (charge c, tover c, was_over c) in
  if negb (was' =? 0) && negb is_over
  then (mkChan t prev' 0 0 0, [(itime, charge', tover')])
  else (mkChan t prev' was' charge' tover', []).
(** The loop over the samples of one channel, from tick [itime]. *)
Fixpoint naive_channel (p : params) (abs : nat) (itime : Z) (c : chan) (ss : list Z) : chan * list hit :=
  match ss with
  | [] => (c, [])
  | s :: rest =>
      let '(c', h) := naive_step p abs itime c s in
      let '(c'', hs) := naive_channel p ((abs + 1) mod 8) (itime + 1) c' rest in
      (c'', h ++ hs)
  end.

(** * Vectorised version, one register of 16 lanes *)
(** Lanes before the threshold, 195-272: tracker, new prev_samp, sigma, filt. *)
Definition sigma_max (p : params) : Z := i16 (32768 / (multiplier p * 5)).
Definition filter_avx2 (p : params) (abs : nat) (prev : list Z) : Z :=
  let tap x := mullo16 (nth x (taps p) 0) (nth ((x + abs) mod 8) prev 0) in
  let filt0 := add16 0 (tap 0%nat) in
  let filt1 := add16 0 (tap 1%nat) in
  let filt2 := add16 0 (tap 2%nat) in
  let filt3 := add16 0 (tap 3%nat) in
  let filt0 := add16 filt0 (tap 4%nat) in
  let filt1 := add16 filt1 (tap 5%nat) in
  let filt2 := add16 filt2 (tap 6%nat) in
  add16 (add16 filt0 filt1) (add16 filt2 filt3).
Definition lane_filter (p : params) (abs : nat) (c : chan) (s : Z) : chan * Z * Z :=
  let t := track_avx2 (trk c) s in
  let s' := sub16 s (median t) in
  let sigma := min16 (sub16 (q75 t) (q25 t)) (sigma_max p) in
  let s' := min16 s' (adc_max p) in
  (mkChan t (set_nth abs s' (prev c)) (was_over c) (charge c) (tover c), sigma, filter_avx2 p abs (prev c)).

(** sigma * info.multiplier * info.threshold, 281: __m256i is a vector of four 64-bit integers, so the product is taken
    modulo 2^64 on each group of four lanes. *)
Definition pack64 (v : list Z) : Z := fold_right (fun x acc => u16 x + two16 * acc) 0 v.
Definition unpack64 (x : Z) : list Z := map (fun i => i16 (x / two16 ^ Z.of_nat i)) (seq 0 4).
Definition mul_epi64 (v : list Z) (k : Z) : list Z :=
  flat_map (fun g => unpack64 (u64 (pack64 (firstn 4 (skipn (4 * g) v)) * k))) (seq 0 4).

(** Lanes after the threshold, 281-305 and 356: channel with new charge, tover and prev_was_over, and [left]. *)
Definition lane_hit (p : params) (c : chan) (filt thr : Z) : chan * Z :=
  let is_over := cmpgt16 filt thr in
  let left := andnot16 is_over (was_over c) in
  let to_add_charge := blendv16 0 filt is_over in
  (mkChan (trk c) (prev c) is_over (adds16 (charge c) (srai16 to_add_charge (tap_exponent p)))
          (adds16 (tover c) (blendv16 0 1 is_over)), left).

(** A stored group, 337-349: tick, masked charges and times over threshold of the 16 lanes. *)
Definition group : Type := Z * list Z * list Z.
Definition avx2_step (p : params) (abs : nat) (itime : Z) (lanes : list chan) (ss : list Z) : list chan * list group :=
  let front := map2 (lane_filter p abs) lanes ss in
  let chans := map (fun x => fst (fst x)) front in
  let sigmas := map (fun x => snd (fst x)) front in
  let filts := map snd front in
  let thr := mul_epi64 (mul_epi64 sigmas (multiplier p)) (threshold p) in
  let back := map2 (fun c ft => lane_hit p c (fst ft) (snd ft)) chans (combine filts thr) in
  if existsb (fun x => negb (snd x =? 0)) back
  then (map (fun x => mkChan (trk (fst x)) (prev (fst x)) (was_over (fst x))
                             (blendv16 (charge (fst x)) 0 (snd x)) (blendv16 (tover (fst x)) 0 (snd x))) back,
        [(itime, map (fun x => blendv16 0 (charge (fst x)) (snd x)) back, map (fun x => tover (fst x)) back)])
  else (map fst back, []).
Fixpoint avx2_register (p : params) (abs : nat) (itime : Z) (lanes : list chan) (sss : list (list Z)) : list chan * list group :=
  match sss with
  | [] => (lanes, [])
  | ss :: rest =>
      let '(l', g) := avx2_step p abs itime lanes ss in
      let '(l'', gs) := avx2_register p ((abs + 1) mod 8) (itime + 1) l' rest in
      (l'', g ++ gs)
  end.

(** * Windows of one superchunk *)
Definition MAGIC : Z := 65535.
(** The samples of register [ireg] at the twelve ticks, 159-163, as signed lanes. *)
Definition lanes_of (reg : list Z) : list Z := map (fun l => i16 (word16 l reg)) (seq 0 16).
Definition register_samples (input : list (list Z)) (ireg : nat) : list (list Z) :=
  map (fun itime => lanes_of (nth (get256_index 6 ireg itime) input [])) (seq 0 12).

(** Channel states by register, and absTimeModNTAPS. *)
Record window_state := mkWin { regs : list (list chan); abs_time : nat }.

(** The 64 words written for a group, 337-349: channels, timenow, charges, times over threshold. *)
Definition group_words (ireg : nat) (g : group) : list Z :=
  let '(t, charges, tovers) := g in
  map (fun i => u16 (16 * Z.of_nat ireg + Z.of_nat i)) (seq 0 16) ++ repeat (u16 t) 16 ++ map u16 charges ++ map u16 tovers.
Definition process_window_avx2 (p : params) (w : window_state) (input : list (list Z)) : window_state * list Z :=
  let results := map (fun ireg => avx2_register p (abs_time w) 0 (nth ireg (regs w) []) (register_samples input ireg)) (seq 0 6) in
  (mkWin (map fst results) ((abs_time w + 12) mod 8),
   concat (map (fun x => flat_map (group_words (fst x)) (snd (snd x))) (combine (seq 0 6) results)) ++ repeat MAGIC 64).

(** process_window_naive, ProcessNaive.hpp 41-164, on the same state. *)
Definition channel_samples (input : list (list Z)) (ichan : nat) : list Z :=
  map (fun itime => i16 (uint16_at input (get16_index ichan itime))) (seq 0 12).
Definition hit_words (ichan : nat) (h : hit) : list Z :=
  let '(t, c, tv) := h in [u16 (Z.of_nat ichan); u16 t; u16 c; u16 tv].
Definition process_window_naive (p : params) (w : list chan * nat) (input : list (list Z)) : (list chan * nat) * list Z :=
  let results := map (fun x => naive_channel p (snd w) 0 (snd x) (channel_samples input (fst x))) (combine (seq 0 96) (fst w)) in
  ((map fst results, (snd w + 12) mod 8)%nat,
   concat (map (fun x => flat_map (hit_words (fst x)) (snd (snd x))) (combine (seq 0 96) results)) ++ repeat MAGIC 4).

(** * From hits to trigger primitives, WIBFrameProcessor.hpp 369-505 *)
(** detid, type, algorithm and version are constants of the run and not modelled. *)
Record prim := mkPrim { time_start : Z; time_peak : Z; time_over_threshold : Z; channel : Z; adc_integral : Z; adc_peak : Z }.
(** 440-468, one lane. *)
Definition make_prim (ts chan hit_end hit_charge hit_tover : Z) : prim :=
  let tp_t_begin := u64 (ts + u64 (25 * (hit_end - hit_tover))) in
  let tp_t_end := u64 (ts + u64 (25 * hit_end)) in
  mkPrim tp_t_begin (u64 (tp_t_begin + tp_t_end) / 2) (hit_tover * 25) (u16 (collection_index_to_channel chan))
         hit_charge (hit_charge / 20).
(** 415-489: the loop over the hit list. [Crash]: a read beyond what was written. *)
Fixpoint decode_hits (fuel : nat) (ts : Z) (w : list Z) : res (list prim) :=
  match fuel with
  | O => Crash
  | S fuel =>
      match w with
      | [] => Crash
      | x :: _ =>
          if x =? MAGIC then Ok []
          else if (length w <? 64)%nat then Crash
          else
            let lane i :=
              let ch := nth i w 0 in
              let hit_end := nth (16 + i) w 0 in
              let hit_charge := nth (32 + i) w 0 in
              let hit_tover := nth (48 + i) w 0 in
              if negb (hit_charge =? 0) && negb (ch =? MAGIC) then [make_prim ts ch hit_end hit_charge hit_tover] else [] in
            do rest <- decode_hits fuel ts (skipn 64 w);
            Ok (flat_map lane (seq 0 16) ++ rest)
      end
  end.

(** start, 97-175: a fresh ProcessingInfo; the first superchunk sets the pedestals, 385-386 and setState. *)
Definition init_chan (q : Z * Z * Z) : chan :=
  let '(m, lo, hi) := q in mkChan (mkTracker m lo hi 0 0 0) (repeat 0 8) 0 0 0.
Definition init_window (input : list (list Z)) : window_state :=
  let cs := map init_chan (set_state input) in
  mkWin (map (fun r => firstn 16 (skipn (16 * r) cs)) (seq 0 6)) 0.

(** find_collection_hits on a superchunk: [None] before the first one. *)
Definition find_collection_hits (p : params) (st : option window_state) (ts : Z) (mem : memory)
  : res (option window_state * list prim) :=
  let input := expand_collection mem in
  let w := match st with Some w => w | None => init_window input end in
  let '(w', out) := process_window_avx2 p w input in
  do tps <- decode_hits (length out) ts out;
  Ok (Some w', tps).
(** A run: one superchunk (timestamp, bytes) after the other. *)
Fixpoint tpg_run (p : params) (st : option window_state) (chunks : list (Z * memory)) : res (option window_state * list (list prim)) :=
  match chunks with
  | [] => Ok (st, [])
  | (ts, mem) :: rest =>
      do x <- find_collection_hits p st ts mem;
      do y <- tpg_run p (fst x) rest;
      Ok (fst y, snd x :: snd y)
  end.
