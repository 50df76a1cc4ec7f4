(** C46 and C60: pedestal tracking. *)
From Coq Require Import ZArith Lia List Bool ZifyBool.
From Verif Require Import Base_model Frugal_model Frugal_spec Frugal_proofs.
Import ListNotations.
Open Scope Z_scope.

(** After any samples, the estimate lies between the smallest and the largest of start value and samples, and the
    accumulator inside its limit. *)
Theorem C46_range : forall ss lim m acc, is_i16 m -> Forall is_i16 ss -> 0 <= lim <= 32766 -> - lim <= acc <= lim ->
  let '(m', acc') := fold_left (fun st s => frugal_accum_update (fst st) s (snd st) lim) ss (m, acc) in
  low m ss <= m' <= high m ss /\ - lim <= acc' <= lim.
Proof. exact frugal_run_range. Qed.
Print Assumptions C46_range.

(** One sample moves the estimate by at most one, and only towards the sample. *)
Theorem C46_one_sample : forall m s acc lim, is_i16 m -> is_i16 s -> 0 <= lim <= 32766 -> - lim <= acc <= lim ->
  let '(m', acc') := frugal_accum_update m s acc lim in
  Z.abs (m' - m) <= 1 /\ Z.min m s <= m' <= Z.max m s /\ (lim + 1) * m' + acc' = (lim + 1) * m + acc + Z.sgn (s - m).
Proof.
  intros m s acc lim Hm Hs Hl Ha. rewrite frugal_clean by assumption.
  pose proof (clean_facts m s acc lim ltac:(lia) Ha) as F. destruct (clean m s acc lim). unfold sgn in F. intuition.
Qed.
Print Assumptions C46_one_sample.

(** With constant input the estimate equals the input exactly from this many samples on. *)
Theorem C46_convergence : forall n lim m acc s, is_i16 m -> is_i16 s -> 0 <= lim <= 32766 -> - lim <= acc <= lim ->
  (fst (fold_left (fun st s => frugal_accum_update (fst st) s (snd st) lim) (repeat s n) (m, acc)) = s
   <-> (lim + 1) * Z.abs (s - m) - Z.sgn (s - m) * acc <= Z.of_nat n).
Proof.
  intros n lim m acc s Hm Hs Hl Ha. pose proof (frugal_run_constant n lim m acc s Hm Hs Hl Ha) as R.
  unfold frugal_run in R. destruct (fold_left _ (repeat s n) (m, acc)) as [m' a']. destruct R as [R1 R2]. cbn [fst].
  pose proof (left_zero lim m' a' s ltac:(lia) R2) as [Z1 _]. fold (left_to_go lim m acc s).
  rewrite <- Z1. lia.
Qed.
Print Assumptions C46_convergence.

(** So whatever the accumulator was, (limit + 1) * distance + limit samples suffice. *)
Theorem C46_convergence_bound : forall n lim m acc s, is_i16 m -> is_i16 s -> 0 <= lim <= 32766 -> - lim <= acc <= lim ->
  (lim + 1) * Z.abs (s - m) + lim <= Z.of_nat n ->
  fst (fold_left (fun st s => frugal_accum_update (fst st) s (snd st) lim) (repeat s n) (m, acc)) = s.
Proof.
  intros n lim m acc s Hm Hs Hl Ha N. apply C46_convergence; try assumption.
  assert (- lim <= Z.sgn (s - m) * acc); [|lia].
  destruct (Z.sgn_spec (s - m)) as [[_ ->]|[[_ ->]|[_ ->]]]; lia.
Qed.
Print Assumptions C46_convergence_bound.

(** The vectorised update is the scalar one on the selected lanes and changes nothing on the others. *)
Theorem C46_vectorised : forall m s acc lim, is_i16 m -> is_i16 s -> 0 < lim <= 32766 -> - lim <= acc <= lim ->
  frugal_accum_update_avx2 m s acc lim (-1) = frugal_accum_update m s acc lim /\
  frugal_accum_update_avx2 m s acc lim 0 = (m, acc).
Proof.
  intros. split; [apply avx2_unmasked; assumption|]. apply avx2_masked; [assumption|unfold is_i16; lia].
Qed.
Print Assumptions C46_vectorised.

Example C46_ex : is_i16 500 /\ -10 <= 7 <= 10 /\
  map (fun n => fst (fold_left (fun st s => frugal_accum_update (fst st) s (snd st) 10) (repeat 503 n) (500, 7)))
      [3; 4; 14; 25; 26; 40]%nat = [500; 501; 501; 502; 503; 503] /\
  (10 + 1) * Z.abs (503 - 500) - Z.sgn (503 - 500) * 7 = 26 /\
  frugal_accum_update_avx2 500 503 10 10 (-1) = (501, 0).
Proof. unfold is_i16. repeat split; try lia; vm_compute; reflexivity. Qed.

(** * C60 *)
(** For every pedestal and every sequence of ADC samples the distance of the quartile estimates is not negative, in both
    implementations, and both keep the same estimates. *)
Theorem C60_noise_estimate_not_negative : forall ped ss, 0 <= ped < 4096 -> Forall (fun s => 0 <= s < 4096) ss ->
  let t := fold_left track_naive ss (tracker_init ped) in
  fold_left track_avx2 ss (tracker_init ped) = t /\
  0 <= q75 t - q25 t <= 4101 /\ q25 t - 1 <= median t <= q75 t + 1 /\ -3 <= median t <= 4098.
Proof.
  intros ped ss Hp F t. destruct (tracker_init_ordered ped ltac:(lia)) as [O W].
  destruct (track_run ss (tracker_init ped) (-3) 4098 O (within_mono (ped - 3) (ped + 3) (-3) 4098 _ W ltac:(lia) ltac:(lia)) ltac:(lia) ltac:(lia))
    as (O' & W' & E).
  { eapply Forall_impl; [|exact F]. cbn. lia. }
  fold t in O', W', E. split; [exact E|]. destruct O' as (_ & _ & _ & _ & O1 & _ & O2 & O3).
  destruct W' as (W1 & W2 & W3). lia.
Qed.
Print Assumptions C60_noise_estimate_not_negative.

(** Zero is reached: the threshold then is zero. *)
Theorem C60_zero_reached : exists ped ss, 0 <= ped < 4096 /\ Forall (fun s => 0 <= s < 4096) ss /\
  let t := fold_left track_naive ss (tracker_init ped) in q75 t - q25 t = 0.
Proof.
  exists 100, (97 :: repeat 98 11 ++ repeat 100 12 ++ repeat 99 11 ++ repeat 100 11 ++ repeat 101 11 ++ repeat 100 11
               ++ repeat 101 11 ++ repeat 102 11 ++ repeat 101 11).
  split; [lia|]. split; [|vm_compute; reflexivity].
  cbn [repeat app]. repeat constructor; lia.
Qed.
Print Assumptions C60_zero_reached.

Example C60_ex : let ss := [100; 130; 90; 100; 101; 99; 250; 3] in Forall (fun s => 0 <= s < 4096) ss /\
  fold_left track_naive ss (tracker_init 100) = mkTracker 100 97 103 0 (-1) 1.
Proof. split; [repeat constructor; lia|]. vm_compute. reflexivity. Qed.
