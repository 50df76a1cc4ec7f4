(** Properties C22, C23 and C24: the checks on arriving elements. *)
From Coq Require Import String ZArith List Bool Lia.
From Verif Require Import Base_model Elem_model Registry_model Check_model Check_spec Check_proofs.
Import ListNotations.
Open Scope Z_scope.

(** C22, WIB. After every start: elements pass unchanged, the counter (a 32-bit int) counts the
    superchunks that are not 300 after their predecessor (0 for the first), one report as soon as that
    number exceeds 1000 and never another, and the published time is the last element's. *)
Theorem C22_wib_counts_discontinuities :
  forall (tick : Z) (c : check) (l : list elem), Forall (fun e => is_u64 (e_ts e)) l ->
  let n := count_neighbours (jumps 300) 0 (map e_ts l) in
  let c' := snd (check_all 300 tick false l (wib_start c)) in
  fst (check_all 300 tick false l (wib_start c)) = l /\
  ck_ctr c' = i32 n /\ ck_reported c' = (1000 <? n) /\
  ck_reports c' = ck_reports c + (if 1000 <? n then 1 else 0) /\
  (l <> [] -> ck_daq c' = last_of 0 (map e_ts l)).
Proof. exact c22_wib. Qed.
Print Assumptions C22_wib_counts_discontinuities.

(** C22, WIB2. Nothing is reset between runs: the elements of all runs since construction count as one
    sequence, and the report is made at most once in all of them. *)
Theorem C22_wib2_counts_across_runs :
  forall (tick : Z) (reg : registry) (runs : list (list elem)),
  Forall (fun e => is_u64 (e_ts e)) (concat runs) ->
  let n := count_neighbours (jumps 384) 0 (map e_ts (concat runs)) in
  let c' := fold_left (fun c l => snd (check_all 384 tick false l c)) runs (check_new reg) in
  ck_ctr c' = i32 n /\ ck_reported c' = (1000 <? n) /\
  ck_reports c' = (if 1000 <? n then 1 else 0) /\
  (concat runs <> [] -> ck_daq c' = last_of 0 (map e_ts (concat runs))).
Proof. exact c22_wib2. Qed.
Print Assumptions C22_wib2_counts_across_runs.

(** C22. The registry holds exactly one MISSING_FRAMES entry, that of the last discontinuity: from the
    expected to the received timestamp. *)
Theorem C22_last_discontinuity_is_registered :
  forall (dur tick : Z) (l1 : list elem) (e : elem) (l2 : list elem) (c : check) (n : Z),
  0 <= dur < two64 -> Forall (fun e => is_u64 (e_ts e)) (l1 ++ e :: l2) -> consistent n c ->
  jumps dur (last_of (ck_prev c) (map e_ts l1)) (e_ts e) = true ->
  count_neighbours (jumps dur) (e_ts e) (map e_ts l2) = 0 ->
  let reg := ck_reg (snd (check_all dur tick false (l1 ++ e :: l2) c)) in
  hd_error reg = Some ("MISSING_FRAMES"%string,
                       mk_interval ((last_of (ck_prev c) (map e_ts l1) + dur) mod 2 ^ 64) (e_ts e)) /\
  has_error "MISSING_FRAMES" reg = true /\ has_error "MISSING_FRAMES" (tl reg) = false.
Proof. exact c22_registry. Qed.
Print Assumptions C22_last_discontinuity_is_registered.

(** C22. Emulator mode: element k carries the timestamps prev + (k+1)*dur + i*tick, whatever it carried
    before; nothing is counted, reported or registered. *)
Theorem C22_emulator_stamps_consecutively :
  forall (dur tick : Z) (l : list elem) (n : Z) (c : check),
  0 <= dur < two64 -> consistent n c -> Forall (fun e => e_frames e <> []) l ->
  let r := check_all dur tick true l c in
  List.length (fst r) = List.length l /\
  (forall k e', nth_error (fst r) k = Some e' ->
     stamped (ck_prev c + (Z.of_nat k + 1) * dur) tick e' /\
     exists e, nth_error l k = Some e /\ map f_bytes (e_frames e') = map f_bytes (e_frames e)) /\
  ck_ctr (snd r) = ck_ctr c /\ ck_reports (snd r) = ck_reports c /\ ck_reg (snd r) = ck_reg c.
Proof. exact c22_emulator. Qed.
Print Assumptions C22_emulator_stamps_consecutively.

(** C22, DAPHNE: no discontinuity is ever counted, reported or registered. *)
Theorem C22_daphne_never_flags :
  forall (dur tick : Z) (emu : bool) (l : list elem) (first : bool) (c : check), ck_ctr c = 0 ->
  let r := daphne_all dur tick emu first l c in
  ck_ctr (snd r) = 0 /\ ck_reports (snd r) = ck_reports c /\ ck_reg (snd r) = ck_reg c /\
  (emu = false -> fst r = l) /\ (fst r <> [] -> ck_daq (snd r) = last_of 0 (map e_ts (fst r))).
Proof. exact c22_daphne. Qed.
Print Assumptions C22_daphne_never_flags.

(** C22, DAPHNE in emulator mode: the first element ever is stamped with the time held (0 after construction), every
    later one 192 further on; frames 16 apart. *)
Theorem C22_daphne_emulator_stamps :
  forall (dur tick : Z) (l : list elem) (first : bool) (c : check),
  0 <= dur < two64 -> is_u64 (ck_prev c) -> Forall (fun e => e_frames e <> []) l ->
  let r := daphne_all dur tick true first l c in
  List.length (fst r) = List.length l /\
  forall k e', nth_error (fst r) k = Some e' ->
    stamped (ck_prev c + (Z.of_nat k + if first then 0 else 1) * dur) tick e' /\
    exists e, nth_error l k = Some e /\ map f_bytes (e_frames e') = map f_bytes (e_frames e).
Proof. exact c22_daphne_emulator. Qed.
Print Assumptions C22_daphne_emulator_stamps.

(** C22, SSP: nothing but the published time changes, and it is the last element's. *)
Theorem C22_ssp_publishes_the_last :
  forall (l : list elem) (c : check), let c' := fold_left (fun c e => ssp_check e c) l c in
  ck_daq c' = last_of (ck_daq c) (map e_ts l) /\ ck_ctr c' = ck_ctr c /\ ck_reports c' = ck_reports c /\ ck_reg c' = ck_reg c.
Proof.
  induction l as [|e l IH]; intros c; cbn zeta; cbn [fold_left]; [repeat split|].
  destruct (IH (ssp_check e c)) as (A & B & C & D). split; [|repeat split; assumption]. rewrite A. unfold last_of. cbn [map ssp_check ck_daq].
  generalize (map e_ts l) (e_ts e) (ck_daq c). clear. induction l as [|y l IH]; intros x d; [reflexivity|].
  change (last (x :: y :: l) d) with (last (y :: l) d). rewrite <- (IH y d), <- (IH y x). reflexivity.
Qed.
Print Assumptions C22_ssp_publishes_the_last.

Definition at_ts (t : Z) : elem := mk_elem [mk_frame t [1]; mk_frame (t + 25) [2]].

Example C22_wib_example :
  let c := wib_start (mk_check 77 false true 5000 9 [] 1) in
  let c' := snd (check_all 300 25 false (map at_ts [300; 600; 1200; 1500; 1500]) c) in
  ck_ctr c' = 2 /\ ck_reg c' = [("MISSING_FRAMES"%string, mk_interval 1800 1500)] /\ ck_daq c' = 1500 /\ ck_reports c' = 1.
Proof. vm_compute. auto. Qed.

(** 1002 elements with the same timestamp: 1002 discontinuities, one report. *)
Example C22_report_example :
  ck_reports (snd (check_all 300 25 false (repeat (at_ts 5) 1002) (wib_start (check_new [])))) = 1 /\
  ck_reports (snd (check_all 300 25 false (repeat (at_ts 5) 1000) (wib_start (check_new [])))) = 0.
Proof. vm_compute. auto. Qed.

(** The second run of a WIB2 link continues the comparison: no discontinuity at its first element. *)
Example C22_wib2_example :
  let c := fold_left (fun c l => snd (check_all 384 32 false l c)) [map at_ts [384; 768]; map at_ts [1152; 1536]] (check_new []) in
  ck_ctr c = 0.
Proof. vm_compute. reflexivity. Qed.

(** Across the 64-bit wrap-around there is no discontinuity. *)
Example C22_wrap_example :
  ck_ctr (snd (check_all 300 25 false (map at_ts [two64 - 100; 200]) (wib_start (check_new [])))) = 1.
Proof. vm_compute. reflexivity. Qed.

Example C22_registry_example :
  exists c, consistent 0 c /\ jumps 300 (last_of (ck_prev c) (map e_ts (map at_ts [300]))) (e_ts (at_ts 900)) = true /\
    count_neighbours (jumps 300) (e_ts (at_ts 900)) (map e_ts (map at_ts [1200])) = 0 /\
    ck_reg (snd (check_all 300 25 false (map at_ts [300; 900; 1200]) c)) = [("MISSING_FRAMES"%string, mk_interval 600 900)].
Proof. exists (check_new []). repeat split; vm_compute; congruence. Qed.

Example C22_emulator_example :
  map (fun e => map f_ts (e_frames e)) (fst (check_all 300 25 true (map at_ts [7; 7; 2]) (check_new []))) =
  [[300; 325]; [600; 625]; [900; 925]].
Proof. vm_compute. reflexivity. Qed.

Example C22_daphne_example :
  map e_ts (fst (daphne_all 192 16 true true (map at_ts [7; 7; 2]) (check_new []))) = [0; 192; 384] /\
  ck_ctr (snd (daphne_all 192 16 false true (map at_ts [7; 7; 2]) (check_new []))) = 0.
Proof. vm_compute. auto. Qed.

Example C22_daphne_emulator_example :
  map (fun e => map f_ts (e_frames e)) (fst (daphne_all 192 16 true false (map at_ts [7; 7]) (mk_check 50 true false 0 0 [] 0))) =
  [[242; 258]; [434; 450]].
Proof. vm_compute. reflexivity. Qed.
Example C22_ssp_example : ck_daq (fold_left (fun c e => ssp_check e c) (map at_ts [7; 9; 2]) (check_new [])) = 2.
Proof. vm_compute. reflexivity. Qed.

(** C23. The forwarded frames are a selection of the checked ones in order, each at most once, all with
    errors, whatever pushes fail. *)
Theorem C23_forwarded_once_and_only_errors :
  forall (F : Type) (errors : F -> Z) (threshold : Z) (push_ok : nat -> bool) (l : list F) (s : errst F), good_state s ->
  exists sent, es_sent (frame_errors errors threshold push_ok s l) = es_sent s ++ sent /\
  sublist sent l /\ Forall (fun f => errors f <> 0) sent.
Proof. exact (@c23_sublist). Qed.
Print Assumptions C23_forwarded_once_and_only_errors.

(** C23. A frame is forwarded only if one of its error bits is below the threshold (after the decrement
    at each 10000th frame), and it is forwarded then if the queue accepts it. *)
Theorem C23_forwarding_rule :
  forall (F : Type) (errors : F -> Z) (threshold : Z) (push_ok : nat -> bool) (s : errst F) (f : F), good_state s ->
  exists b : bool, es_sent (frame_error_step errors threshold push_ok s f) = es_sent s ++ (if b then [f] else []) /\
  (b = true -> errors f <> 0 /\ has_credit threshold s (errors f)) /\
  (has_credit threshold s (errors f) -> (forall n, push_ok n = true) -> b = true).
Proof. exact (@c23_frame). Qed.
Print Assumptions C23_forwarding_rule.

(** C23. Rate limit: of any sequence of frames checked since start, the forwarded ones whose error bits
    all lie in [S] number at most |S| * (threshold + started blocks of 10000). [S] a single bit gives
    the per-bit limit, all 16 bits the total. The counters left over from earlier runs do not matter. *)
Theorem C23_rate_limit :
  forall (F : Type) (errors : F -> Z) (threshold : Z) (push_ok : nat -> bool) (s : errst F) (l : list F) (S : list Z),
  good_state s -> es_processed s = 0 -> es_sent s = [] -> 0 <= threshold -> NoDup S ->
  Z.of_nat (List.length l) < 2 ^ 64 ->
  forwarded errors S (es_sent (frame_errors errors threshold push_ok s l)) <=
  Z.of_nat (List.length S) * (threshold + started_blocks (Z.of_nat (List.length l))).
Proof. exact (@c23_rate). Qed.
Print Assumptions C23_rate_limit.

(** C23. The published error count is the number of set error bits (64-bit). *)
Theorem C23_error_count :
  forall (F : Type) (errors : F -> Z) (threshold : Z) (push_ok : nat -> bool) (l : list F) (s : errst F),
  is_u64 (es_count s) ->
  es_count (frame_errors errors threshold push_ok s l) = (es_count s + sum (map (fun f => set_bits (errors f)) l)) mod 2 ^ 64.
Proof. exact (@c23_count). Qed.
Print Assumptions C23_error_count.

(** Threshold 2: of five frames with bit 0 the first two go, the one with bit 3 goes once; an error-free
    frame never. A failed push is retried on the next bit of the same frame. *)
Example C23_example :
  let s := frame_errors (fun w : Z => w) 2 (fun _ => true) errst_new [1; 1; 1; 0; 9; 1] in
  es_sent s = [1; 1; 9] /\ es_count s = 6.
Proof. vm_compute. auto. Qed.

Example C23_retry_example :
  es_sent (frame_errors (fun w : Z => w) 2 (fun n => Nat.eqb n 1) errst_new [3; 3]) = [3].
Proof. vm_compute. reflexivity. Qed.

(** After the decrement at frame 10000 one more frame passes. *)
Example C23_decay_example :
  es_sent (frame_errors (fun w : Z => w) 1 (fun _ => true) errst_new (repeat 4 10002)) = [4; 4].
Proof. vm_compute. reflexivity. Qed.

Example C23_state_example : good_state (@errst_new Z) /\ has_credit 1 (@errst_new Z) 4.
Proof.
  split; [unfold good_state, is_u64, two64; repeat split; try (vm_compute; congruence); repeat constructor; lia|].
  exists 2%nat, 0. repeat split; vm_compute; auto.
Qed.

(** C24. The check flags exactly the messages whose timestamp equals the previous one's; in particular
    never one that goes backwards. *)
Theorem C24_flags_exactly_repeats :
  forall (l : list Z) (n : Z) (c : check), is_u64 (ck_prev c) -> Forall is_u64 l -> consistent n c ->
  let n' := n + count_neighbours repeats (ck_prev c) l in
  let r := pacman_all l c in
  snd r = map (fun ab => repeats (fst ab) (snd ab)) (combine (ck_prev c :: l) l) /\
  consistent n' (fst r) /\
  ck_reports (fst r) = ck_reports c + ((if 1000 <? n' then 1 else 0) - (if 1000 <? n then 1 else 0)).
Proof. exact c24_all. Qed.
Print Assumptions C24_flags_exactly_repeats.

Example C24_example : snd (pacman_all [100; 50; 50; 60; 0] (check_new [])) = [false; false; true; false; false].
Proof. vm_compute. reflexivity. Qed.
