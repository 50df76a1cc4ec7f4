(** Properties C29 and C59: stitching of raw trigger primitive blocks, for every sequence of blocks. *)
From Coq Require Import ZArith List Bool Lia.
From Verif Require Import Base_model Stitch_model Stitch_spec Stitch_proofs.
Import ListNotations.
Open Scope Z_scope.

(** C29, C59. The primitives stored for a channel are exactly its completed segments, in order, with this content. *)
Theorem C29_stored_primitives :
  forall (l : list block) (c : Z), Forall block_ok l ->
  Forall2 content (segments None (hits_of c l)) (stored c (stitch_all l)).
Proof. exact c29_stored. Qed.
Print Assumptions C29_stored_primitives.

(** C29. Hits that announce no continuation, on a channel where none ever does, are not stored. *)
Theorem C29_lone_hits_are_lost :
  forall (l : list block) (c : Z), Forall block_ok l -> Forall (fun x => h_cont (snd x) = false) (hits_of c l) ->
  stored c (stitch_all l) = [].
Proof. exact c29_lone. Qed.
Print Assumptions C29_lone_hits_are_lost.

(** C29. A continued hit is stored once, merged, when its continuation arrives and not before. *)
Theorem C29_continued_hit_stored_once :
  forall (l : list block) b1 b2 h1 h2 c,
  Forall block_ok l -> chan_after (hits_of c l) = Idle -> block_ok b1 -> block_ok b2 -> b_wire b1 = c -> b_wire b2 = c ->
  b_hits b1 = [h1] -> b_hits b2 = [h2] -> h_cont h1 = true -> h_cont h2 = false -> h_start h2 = 0 ->
  (start_of (b2, h2) - start_of (b1, h1)) mod two64 <= 1600 ->
  stored c (stitch_all (l ++ [b1])) = stored c (stitch_all l) /\
  exists p, stored c (stitch_all (l ++ [b1; b2])) = stored c (stitch_all l) ++ [p] /\ content ((b1, h1), Some (b2, h2)) p.
Proof. exact c29_continued. Qed.
Print Assumptions C29_continued_hit_stored_once.

(** C29. After a continuation that announces another one, nothing is ever stored for that channel. *)
Theorem C29_channel_dies :
  forall (l l' : list block) (c : Z), chan_after (hits_of c l) = Dead ->
  stored c (stitch_all (l ++ l')) = stored c (stitch_all l).
Proof. exact c29_dead. Qed.
Print Assumptions C29_channel_dies.

(** C59. The time over threshold stored for a hit that was not merged is its end within the block minus its absolute
    start; it is the duration only if the block timestamp is 0. *)
Theorem C59_time_over_threshold :
  forall (l : list block) (c : Z) (i : nat) (b : block) (h : hit) (p : prim), Forall block_ok l ->
  nth_error (segments None (hits_of c l)) i = Some ((b, h), None) -> nth_error (stored c (stitch_all l)) i = Some p ->
  h_start h <= h_end h ->
  p_tot p = (25 * h_end h - (b_ts b + 25 * h_start h)) mod two64 /\
  (p_tot p = 25 * (h_end h - h_start h) <-> b_ts b = 0).
Proof. exact c59_tot. Qed.
Print Assumptions C59_time_over_threshold.

(** C59. If the continuation has the higher peak, the peak time stored for the merged hit is the sum of the two
    absolute peak times; otherwise it is the first. *)
Theorem C59_merged_peak_time :
  forall (l : list block) (c : Z) (i : nat) (b1 b2 : block) (h1 h2 : hit) (p : prim), Forall block_ok l ->
  nth_error (segments None (hits_of c l)) i = Some ((b1, h1), Some (b2, h2)) -> nth_error (stored c (stitch_all l)) i = Some p ->
  let t1 := b_ts b1 + 25 * h_peak h1 in
  let t2 := b_ts b2 + 25 * h_peak h2 in
  p_peak p = (if h_padc h1 <? h_padc h2 then t1 + t2 else t1) mod two64.
Proof. exact c59_peak. Qed.
Print Assumptions C59_merged_peak_time.

Definition blk (ts wire : Z) (l : list hit) : block := mk_block ts wire 1 l.

(** Channel 5: a lone hit, a continued hit, its end; channel 6 in between; then channel 5 dies. *)
Definition ex_blocks : list block :=
  [blk 1000 5 [mk_hit 3 9 4 100 500 false; mk_hit 40 63 60 120 700 true];
   blk 1000 6 [mk_hit 10 20 15 90 300 true];
   blk 2600 5 [mk_hit 0 7 2 130 200 false];
   blk 4200 5 [mk_hit 60 63 62 80 90 true];
   blk 5800 5 [mk_hit 0 63 30 80 90 true];
   blk 7400 5 [mk_hit 0 5 2 80 90 false]; blk 7400 6 [mk_hit 4 5 4 10 20 false]].

Example C29_example :
  Forall block_ok ex_blocks /\ chan_after (hits_of 5 ex_blocks) = Dead /\
  stored 5 (stitch_all ex_blocks) =
    [mk_prim 2000 (1000 + 60 * 25 + (2600 + 2 * 25)) (u64 (63 * 25 - 2000 + (7 * 25 - 2600))) 5 900 130 1] /\
  stored 6 (stitch_all ex_blocks) = [mk_prim 1250 1375 (u64 (20 * 25 - 1250)) 6 300 90 1].
Proof.
  split; [|split; [|vm_compute; auto]].
  - repeat constructor; cbn; lia.
  - vm_compute. reflexivity.
Qed.

Example C29_continued_example :
  chan_after (hits_of 5 [blk 1000 5 [mk_hit 3 9 4 100 500 false]]) = Idle /\
  (start_of (blk 2600 5 [], mk_hit 0 7 2 130 200 false) - start_of (blk 1000 5 [], mk_hit 40 63 60 120 700 true)) mod two64 <= 1600.
Proof. vm_compute. split; [reflexivity|discriminate]. Qed.

Example C29_lone_example : stored 5 (stitch_all [blk 1000 5 [mk_hit 3 9 4 100 500 false; mk_hit 12 13 12 100 500 false]]) = [].
Proof. vm_compute. reflexivity. Qed.

(** The segments of the two channels: one merged on channel 5, one alone on channel 6. *)
Example C59_example :
  map (fun seg => snd (fst seg)) (segments None (hits_of 6 ex_blocks)) = [mk_hit 10 20 15 90 300 true] /\
  map (fun seg => snd seg) (segments None (hits_of 6 ex_blocks)) = [None] /\
  map (fun seg => match snd seg with Some x => h_padc (snd (fst seg)) <? h_padc (snd x) | None => false end)
    (segments None (hits_of 5 ex_blocks)) = [true] /\
  map p_tot (stored 6 (stitch_all ex_blocks)) = [two64 - 750] /\ map p_peak (stored 5 (stitch_all ex_blocks)) = [2500 + 2650].
Proof. vm_compute. auto 10. Qed.
