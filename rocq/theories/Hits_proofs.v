(** Vectorised and scalar hit finding agree. *)
From Coq Require Import ZArith Lia List Bool ZifyBool.
From Verif Require Import Base_model Frugal_model Frugal_spec Frugal_proofs Expand_model Hits_model.
Import ListNotations.
Open Scope Z_scope.

(** * 16-bit arithmetic *)
Lemma i16_i16_add_l : forall a b, i16 (i16 a + b) = i16 (a + b).
Proof.
  intros a b. unfold i16. f_equal. replace ((a + 32768) mod two16 - 32768 + b + 32768) with ((a + 32768) mod two16 + b) by lia.
  rewrite Zplus_mod_idemp_l. f_equal. lia.
Qed.
Lemma i16_i16_add_r : forall a b, i16 (a + i16 b) = i16 (a + b).
Proof. intros. rewrite Z.add_comm, i16_i16_add_l. f_equal. lia. Qed.
Lemma i16_bounds : forall z, is_i16 (i16 z).
Proof. intros z. unfold i16, is_i16, two16. pose proof (Z.mod_pos_bound (z + 32768) 65536). lia. Qed.
Lemma i16_plus_64k : forall a b, i16 (a + 65536 * b) = i16 a.
Proof.
  intros a b. unfold i16, two16. f_equal. replace (a + 65536 * b + 32768) with (a + 32768 + b * 65536) by lia.
  apply Z_mod_plus_full.
Qed.

Definition tap_sum (p : params) (n abs : nat) (prev : list Z) : Z :=
  fold_left (fun f j => f + nth j (taps p) 0 * nth ((j + abs) mod 8) prev 0) (seq 0 n) 0.

Lemma filter_naive_sum : forall p abs prev, filter_naive p abs prev = i16 (tap_sum p 8 abs prev).
Proof.
  intros. unfold filter_naive, tap_sum. cbn [seq fold_left].
  repeat (rewrite i16_i16_add_l; rewrite <- ?Z.add_assoc). f_equal; ring.
Qed.
Lemma filter_avx2_sum : forall p abs prev, filter_avx2 p abs prev = i16 (tap_sum p 7 abs prev).
Proof.
  intros. unfold filter_avx2, tap_sum, mullo16. cbn [seq fold_left].
  assert (forall x y, add16 (i16 x) (i16 y) = i16 (x + y)) as A by (intros; unfold add16; rewrite i16_i16_add_l, i16_i16_add_r; reflexivity).
  assert (forall x, add16 0 (i16 x) = i16 x) as A0 by (intros; unfold add16; rewrite i16_i16_add_r; reflexivity).
  rewrite !A0, !A. f_equal; ring.
Qed.
Lemma filters_agree : forall p abs prev, nth 7 (taps p) 0 = 0 -> filter_avx2 p abs prev = filter_naive p abs prev.
Proof.
  intros p abs prev H. rewrite filter_avx2_sum, filter_naive_sum. f_equal.
  unfold tap_sum. cbn [seq fold_left]. rewrite H. lia.
Qed.

(** * Threshold register *)
Lemma unpack_lane : forall x y, 0 <= x < 65536 -> (x + 65536 * y) / 65536 = y.
Proof. intros. replace (x + 65536 * y) with (x + y * 65536) by lia. rewrite Z.div_add, Z.div_small; lia. Qed.
Lemma mul64_four : forall a b c d k, 0 <= k -> 0 <= a -> 0 <= b -> 0 <= c -> 0 <= d ->
  a < 65536 -> b < 65536 -> c < 65536 -> d < 65536 ->
  a * k < 65536 -> b * k < 65536 -> c * k < 65536 -> d * k < 65536 ->
  unpack64 (u64 (pack64 [a; b; c; d] * k)) = [i16 (a * k); i16 (b * k); i16 (c * k); i16 (d * k)].
Proof.
  intros a b c d k K A B C D A1 B1 C1 D1 A2 B2 C2 D2.
  assert (pack64 [a; b; c; d] * k = a * k + 65536 * (b * k + 65536 * (c * k + 65536 * (d * k)))) as E.
  { unfold pack64, u16, two16. cbn [fold_right]. rewrite !Z.mod_small by lia. ring. }
  rewrite E. unfold u64. assert (0 <= a * k /\ 0 <= b * k /\ 0 <= c * k /\ 0 <= d * k) as (A3 & B3 & C3 & D3) by (repeat split; nia).
  rewrite Z.mod_small by (unfold two64; lia).
  unfold unpack64, two16. cbn [seq map]. change (Z.of_nat 0) with 0. change (Z.of_nat 1) with 1.
  change (Z.of_nat 2) with 2. change (Z.of_nat 3) with 3.
  rewrite Z.pow_0_r, Z.pow_1_r, Z.div_1_r.
  assert (forall z, z / 65536 ^ 2 = z / 65536 / 65536) as P2 by (intros; rewrite Z.div_div by lia; reflexivity).
  assert (forall z, z / 65536 ^ 3 = z / 65536 / 65536 / 65536) as P3 by (intros; rewrite !Z.div_div by lia; reflexivity).
  rewrite P2, P3. rewrite !unpack_lane by lia. rewrite !i16_plus_64k. reflexivity.
Qed.

Lemma list16 : forall (A : Type) (v : list A), length v = 16%nat ->
  exists a0 a1 a2 a3 a4 a5 a6 a7 a8 a9 a10 a11 a12 a13 a14 a15,
    v = [a0; a1; a2; a3; a4; a5; a6; a7; a8; a9; a10; a11; a12; a13; a14; a15].
Proof.
  intros A v H. do 16 (destruct v as [|? v]; [discriminate|]). destruct v; [|discriminate].
  repeat eexists.
Qed.
Lemma mul_epi64_lanes : forall v k, length v = 16%nat -> 0 <= k ->
  Forall (fun x => 0 <= x < 65536 /\ x * k < 65536) v -> mul_epi64 v k = map (fun x => i16 (x * k)) v.
Proof.
  intros v k L K F. destruct (list16 _ v L) as (a0&a1&a2&a3&a4&a5&a6&a7&a8&a9&a10&a11&a12&a13&a14&a15&->).
  repeat match goal with H : Forall _ (_ :: _) |- _ => let H1 := fresh in let H2 := fresh in
    apply Forall_cons_iff in H; destruct H as [H1 H2] end.
  unfold mul_epi64. cbn [seq flat_map Nat.mul Nat.add skipn firstn app].
  rewrite !mul64_four by (try assumption; lia). reflexivity.
Qed.

(** * Conditions *)
Definition params_ok (p : params) : Prop := 0 <= tap_exponent p <= 12 /\ threshold p = 5 /\ nth 7 (taps p) 0 = 0.
Definition chan_ok (c : chan) : Prop :=
  ordered (trk c) /\ within (-3) 4098 (trk c) /\ (was_over c = 0 \/ was_over c = 1) /\
  0 <= charge c <= 32767 /\ 0 <= tover c <= 32767.
Definition same (a n : chan) : Prop := a = mkChan (trk n) (prev n) (- was_over n) (charge n) (tover n).

(** The filter output is not between the largest threshold the vectorised code can express and the scalar threshold, and
    the time over threshold has not reached the end of its range. *)
Definition step_ok (p : params) (abs : nat) (c : chan) (s : Z) : Prop :=
  let t := track_naive (trk c) s in
  (q75 t - q25 t <= sigma_max p \/ filter_naive p abs (prev c) <= 5 * sigma_max p * multiplier p) /\
  (5 * (q75 t - q25 t) * multiplier p < filter_naive p abs (prev c) -> tover c < 32767).
Fixpoint run_ok (p : params) (abs : nat) (c : chan) (ss : list Z) : Prop :=
  match ss with
  | [] => True
  | s :: rest => step_ok p abs c s /\ run_ok p ((abs + 1) mod 8) (fst (naive_step p abs 0 c s)) rest
  end.

Lemma multiplier_val : forall p, params_ok p -> multiplier p = 2 ^ tap_exponent p /\ 1 <= multiplier p <= 4096.
Proof.
  intros p (E & _ & _). assert (1 <= 2 ^ tap_exponent p <= 4096).
  { split; [change 1 with (2 ^ 0)|change 4096 with (2 ^ 12)]; apply Z.pow_le_mono_r; lia. }
  unfold multiplier. rewrite i16_id by (unfold is_i16; lia). split; [reflexivity|assumption].
Qed.
Lemma sigma_max_val : forall p, params_ok p -> sigma_max p = 32768 / (multiplier p * 5) /\ 1 <= sigma_max p <= 6553 /\
  sigma_max p * (multiplier p * 5) <= 32768 < (sigma_max p + 1) * (multiplier p * 5) /\ sigma_max p * (multiplier p * 5) < 32768.
Proof.
  intros p H. destruct (multiplier_val p H) as [E M]. unfold sigma_max.
  assert (1 <= 32768 / (multiplier p * 5)) by (apply Z.div_le_lower_bound; lia).
  assert (32768 / (multiplier p * 5) < 6554) by (apply Z.div_lt_upper_bound; lia).
  rewrite i16_id by (unfold is_i16; lia).
  pose proof (Z.div_mod 32768 (multiplier p * 5) ltac:(lia)) as D.
  pose proof (Z.mod_pos_bound 32768 (multiplier p * 5) ltac:(lia)) as B.
  set (q := 32768 / (multiplier p * 5)) in *. set (m := multiplier p) in *. clearbody q m.
  assert (q * (m * 5) <> 32768) by lia.
  repeat split; try lia; nia.
Qed.

(** * One lane *)
Definition lane_all (p : params) (abs : nat) (c : chan) (s : Z) : chan * Z :=
  let '(c1, sigma, filt) := lane_filter p abs c s in lane_hit p c1 filt (5 * sigma * multiplier p).
Definition lane_clear (x : chan * Z) : chan :=
  mkChan (trk (fst x)) (prev (fst x)) (was_over (fst x)) (blendv16 (charge (fst x)) 0 (snd x)) (blendv16 (tover (fst x)) 0 (snd x)).

Lemma track_facts : forall c s, chan_ok c -> 0 <= s < 4096 ->
  track_avx2 (trk c) s = track_naive (trk c) s /\ ordered (track_naive (trk c) s) /\ within (-3) 4098 (track_naive (trk c) s).
Proof.
  intros c s (O & W & _) Hs.
  destruct (track_run [s] (trk c) (-3) 4098 O W ltac:(lia) ltac:(lia)) as (O' & W' & E).
  { repeat constructor; lia. }
  cbn [fold_left] in *. auto.
Qed.

Lemma lane_sigma : forall p abs a n s, params_ok p -> chan_ok n -> same a n -> 0 <= s < 4096 ->
  let t := track_naive (trk n) s in
  lane_filter p abs a s =
  (mkChan t (set_nth abs (Z.min (i16 (s - median t)) (adc_max p)) (prev n)) (- was_over n) (charge n) (tover n),
   Z.min (q75 t - q25 t) (sigma_max p), filter_naive p abs (prev n)) /\ 0 <= q75 t - q25 t <= 4101.
Proof.
  intros p abs a n s P K -> Hs t. destruct (track_facts n s K Hs) as (E & O & W). fold t in O, W, E.
  unfold lane_filter, sub16, min16. cbn [trk prev was_over charge tover]. rewrite E.
  rewrite filters_agree by apply P.
  assert (0 <= q75 t - q25 t <= 4101) as S.
  { destruct O as (_ & _ & _ & _ & _ & _ & _ & O). destruct W as (_ & W2 & W3). lia. }
  rewrite (i16_id (q75 t - q25 t)) by (unfold is_i16; lia). split; [reflexivity|exact S].
Qed.

Lemma lane_agrees : forall p abs itime a n s, (abs < 8)%nat -> params_ok p -> chan_ok n -> same a n -> 0 <= s < 4096 -> step_ok p abs n s ->
  let '(n', hs) := naive_step p abs itime n s in
  let '(a', lf) := lane_all p abs a s in
  chan_ok n' /\ same (lane_clear (a', lf)) n' /\ (lf = 0 \/ lf = -1) /\
  (lf = 0 -> hs = [] /\ blendv16 0 (charge a') lf = 0) /\
  (lf = -1 -> hs = [(itime, blendv16 0 (charge a') lf, tover a')]).
Proof.
  intros p abs itime a n s B P K S Hs OK.
  destruct (lane_sigma p abs a n s P K S Hs) as [E R].
  unfold lane_all. rewrite E. clear E. destruct (track_facts n s K Hs) as (_ & O & W).
  destruct (sigma_max_val p P) as (_ & SM & SM1 & SM2). destruct (multiplier_val p P) as [ME MB].
  destruct OK as [OK1 OK2]. unfold naive_step.
  set (t := track_naive (trk n) s) in *. set (filt := filter_naive p abs (prev n)) in *.
  assert (is_i16 filt) as FB by (unfold filt; rewrite filter_naive_sum; apply i16_bounds).
  rewrite (Nat.mod_small abs 8) by lia.
  rewrite (i16_id (q75 t - q25 t)) by (unfold is_i16; lia).
  set (prev' := set_nth abs _ (prev n)).
  set (sg := q75 t - q25 t) in *. set (m := multiplier p) in *. set (sx := sigma_max p) in *.
  assert ((5 * sg * m <? filt) = (5 * Z.min sg sx * m <? filt)) as EO.
  { unfold is_i16 in FB. destruct (Z.le_gt_cases sg sx); [rewrite Z.min_l by lia; reflexivity|].
    rewrite Z.min_r by lia. destruct OK1 as [OK1|OK1]; [lia|].
    replace (5 * sx * m <? filt) with false by lia. apply Z.ltb_ge. nia. }
  destruct K as (_ & _ & KW & KC & KT).
  unfold lane_hit, cmpgt16. rewrite <- EO.
  destruct (5 * sg * m <? filt) eqn:OV.
  - assert (0 <= filt) by (apply Z.ltb_lt in OV; nia).
    assert (0 <= Z.shiftr filt (tap_exponent p) <= 32767) as SH.
    { rewrite Z.shiftr_div_pow2 by (destruct P; lia). unfold is_i16 in FB. fold m in ME. split.
      - apply Z.div_pos; lia.
      - rewrite <- ME. apply Z.div_le_upper_bound; nia. }
    specialize (OK2 ltac:(apply Z.ltb_lt; assumption)).
    cbn [negb Z.eqb andb]. cbn [trk prev was_over charge tover].
    assert (andnot16 (-1) (- was_over n) = 0) as AN by (destruct KW as [-> | ->]; reflexivity).
    rewrite AN. unfold lane_clear, blendv16, adds16, srai16. cbn [fst snd trk prev was_over charge tover Z.ltb Z.compare].
    rewrite (i16_id (Z.min _ 32767)) by (unfold is_i16; lia). rewrite (i16_id (tover n + 1)) by (unfold is_i16; lia).
    split; [|split; [|split; [|split]]].
    + unfold chan_ok. cbn [trk prev was_over charge tover]. repeat (split; [first [assumption|lia]|]). lia.
    + unfold same. cbn [trk prev was_over charge tover]. f_equal; lia.
    + auto.
    + auto.
    + discriminate.
  - assert (andnot16 0 (- was_over n) = - was_over n) as AN.
    { unfold andnot16. change (Z.lnot 0) with (-1). apply Z.land_m1_l. }
    cbn [trk prev was_over charge tover]. rewrite AN. unfold adds16, blendv16, srai16. cbn [Z.ltb Z.compare].
    rewrite Z.shiftr_0_l.
    replace (Z.max (-32768) (Z.min 32767 (charge n + 0))) with (charge n) by lia.
    replace (Z.max (-32768) (Z.min 32767 (tover n + 0))) with (tover n) by lia.
    destruct KW as [KW|KW]; rewrite KW; cbn [negb andb Z.eqb Z.opp Z.ltb Z.compare Pos.eqb];
      unfold lane_clear, blendv16, same, chan_ok; cbn [fst snd trk prev was_over charge tover Z.ltb Z.compare Z.opp].
    + split; [|split; [reflexivity|split; [auto|split; [auto|discriminate]]]].
      repeat (split; [first [assumption|lia]|]). lia.
    + split; [|split; [reflexivity|split; [auto|split; [discriminate|reflexivity]]]].
      repeat (split; [first [assumption|lia]|]). lia.
Qed.

(** * One register *)
Lemma map2_map : forall (A B C : Type) (f : A -> B -> C) a b, map2 f a b = map (fun x => f (fst x) (snd x)) (combine a b).
Proof. reflexivity. Qed.

Lemma map2_nil_r : forall (A B C : Type) (f : A -> B -> C) a, map2 f a [] = [].
Proof. intros. unfold map2. destruct a; reflexivity. Qed.
Lemma map2_length : forall (A B C : Type) (f : A -> B -> C) a b, length a = length b -> length (map2 f a b) = length a.
Proof. intros. unfold map2. rewrite map_length, combine_length. lia. Qed.

Lemma avx2_step_lanes : forall p abs itime lanes ns ss, params_ok p -> length lanes = 16%nat -> length ss = 16%nat ->
  Forall2 same lanes ns -> Forall chan_ok ns -> Forall (fun s => 0 <= s < 4096) ss ->
  let back := map2 (lane_all p abs) lanes ss in
  avx2_step p abs itime lanes ss =
  if existsb (fun x => negb (snd x =? 0)) back
  then (map lane_clear back, [(itime, map (fun x => blendv16 0 (charge (fst x)) (snd x)) back, map (fun x => tover (fst x)) back)])
  else (map fst back, []).
Proof.
  intros p abs itime lanes ns ss P L1 L2 F K S back. unfold avx2_step.
  assert (Forall (fun x => 0 <= snd (fst x) <= sigma_max p) (map2 (lane_filter p abs) lanes ss)) as SG.
  { clear L1 L2 back. revert ss S. induction F as [|a n lanes ns E F IH]; intros ss S; [constructor|].
    destruct ss as [|s ss]; [constructor|]. inversion K; subst. inversion S; subst. constructor; [|apply IH; assumption].
    cbn [fst snd]. destruct (lane_sigma p abs a n s) as [E1 E2]; try assumption. rewrite E1. cbn [fst snd].
    destruct (sigma_max_val p P) as (_ & SM & _). lia. }
  destruct (sigma_max_val p P) as (_ & SM & SM1 & SM2). destruct (multiplier_val p P) as [ME MB].
  set (front := map2 (lane_filter p abs) lanes ss) in *.
  assert (length front = 16%nat) as LF by (unfold front; rewrite map2_length; lia).
  assert (mul_epi64 (mul_epi64 (map (fun x => snd (fst x)) front) (multiplier p)) (threshold p)
          = map (fun x => 5 * snd (fst x) * multiplier p) front) as T.
  { rewrite (mul_epi64_lanes (map (fun x => snd (fst x)) front)); [| rewrite map_length; exact LF | lia |].
    2:{ apply Forall_map. eapply Forall_impl; [|exact SG]. cbn beta. intros x X. split; [lia|]. nia. }
    rewrite map_map. destruct P as (_ & TH & _). rewrite TH.
    rewrite mul_epi64_lanes; [| rewrite map_length; exact LF | lia |].
    2:{ apply Forall_map. eapply Forall_impl; [|exact SG]. cbn beta. intros x X.
        assert (0 <= snd (fst x) * multiplier p <= sigma_max p * multiplier p) by nia.
        rewrite i16_id by (unfold is_i16; lia). lia. }
    rewrite map_map. apply map_ext_in. intros x I. rewrite Forall_forall in SG. specialize (SG x I). cbn beta in SG.
    assert (0 <= snd (fst x) * multiplier p <= sigma_max p * multiplier p) by nia.
    rewrite (i16_id (snd (fst x) * multiplier p)) by (unfold is_i16; lia).
    rewrite i16_id by (unfold is_i16; lia). ring. }
  rewrite T.
  assert (map2 (fun c ft => lane_hit p c (fst ft) (snd ft)) (map (fun x => fst (fst x)) front)
            (combine (map snd front) (map (fun x => 5 * snd (fst x) * multiplier p) front)) = back) as E.
  { unfold back. clear T LF SG L1 L2 S K F. unfold front. clear front back. unfold map2.
    revert ss. induction lanes as [|a lanes IH]; intros ss; [reflexivity|]. destruct ss as [|s ss]; [reflexivity|].
    cbn [combine map fst snd]. rewrite IH. reflexivity. }
  rewrite E. reflexivity.
Qed.

(** What the decoder takes from a register for lane l: the groups with non-zero charge in that lane. *)
Definition lane_hits (l : nat) (gs : list group) : list hit :=
  flat_map (fun g => if nth l (snd (fst g)) 0 =? 0 then [] else [(fst (fst g), nth l (snd (fst g)) 0, nth l (snd g) 0)]) gs.
Definition visible (h : hit) : bool := negb (snd (fst h) =? 0).

Lemma lane_hits_app : forall l a b, lane_hits l (a ++ b) = lane_hits l a ++ lane_hits l b.
Proof. intros. unfold lane_hits. apply flat_map_app. Qed.

Lemma nth_map_ex : forall (A B : Type) (f : A -> B) l n da db, (n < length l)%nat -> nth n (map f l) db = f (nth n l da).
Proof. intros. rewrite (nth_indep _ db (f da)) by (rewrite map_length; assumption). apply map_nth. Qed.

Lemma nth_map2 : forall (A B C : Type) (f : A -> B -> C) a b n da db dc, (n < length a)%nat -> (n < length b)%nat ->
  nth n (map2 f a b) dc = f (nth n a da) (nth n b db).
Proof.
  intros A B C f a. induction a as [|x a IH]; intros b n da db dc L1 L2; [cbn in L1; lia|].
  destruct b as [|y b]; [cbn in L2; lia|]. destruct n as [|n]; [reflexivity|].
  cbn [length] in *. unfold map2. cbn [combine map nth]. apply IH; lia.
Qed.

Definition chan0 : chan := mkChan (mkTracker 0 0 0 0 0 0) [] 0 0 0.

Lemma Forall2_nth_ : forall (A B : Type) (R : A -> B -> Prop) a b n da db, Forall2 R a b -> (n < length a)%nat -> R (nth n a da) (nth n b db).
Proof.
  intros A B R a b n da db F. revert n. induction F as [|x y a b H F IH]; intros n L; [cbn in L; lia|].
  destruct n as [|n]; [exact H|]. cbn [nth length] in *. apply IH. lia.
Qed.
Lemma Forall2_from_nth : forall (A B : Type) (R : A -> B -> Prop) a b da db, length a = length b ->
  (forall n, (n < length a)%nat -> R (nth n a da) (nth n b db)) -> Forall2 R a b.
Proof.
  intros A B R a. induction a as [|x a IH]; intros b da db L H; destruct b as [|y b]; try discriminate; constructor.
  - apply (H 0%nat). cbn. lia.
  - apply (IH b da db); [cbn in L; lia|]. intros n Ln. apply (H (S n)). cbn. lia.
Qed.
Lemma Forall_from_nth : forall (A : Type) (Q : A -> Prop) a da, (forall n, (n < length a)%nat -> Q (nth n a da)) -> Forall Q a.
Proof. intros A Q a da H. apply Forall_forall. intros x I. destruct (In_nth a x da I) as (n & L & <-). apply H, L. Qed.
Lemma Forall_nth_ : forall (A : Type) (Q : A -> Prop) a da n, Forall Q a -> (n < length a)%nat -> Q (nth n a da).
Proof. intros A Q a da n F L. rewrite Forall_forall in F. apply F, nth_In, L. Qed.

Lemma Forall2_length : forall (A B : Type) (R : A -> B -> Prop) a b, Forall2 R a b -> length a = length b.
Proof. intros A B R a b F. induction F; cbn; congruence. Qed.

Lemma register_agrees : forall sss p abs itime lanes ns, (abs < 8)%nat -> params_ok p ->
  length lanes = 16%nat -> Forall2 same lanes ns -> Forall chan_ok ns ->
  Forall (fun ss => length ss = 16%nat /\ Forall (fun s => 0 <= s < 4096) ss) sss ->
  (forall l, (l < 16)%nat -> run_ok p abs (nth l ns chan0) (map (fun ss => nth l ss 0) sss)) ->
  let '(lanes', gs) := avx2_register p abs itime lanes sss in
  length lanes' = 16%nat /\
  forall l, (l < 16)%nat ->
    let '(n', hs) := naive_channel p abs itime (nth l ns chan0) (map (fun ss => nth l ss 0) sss) in
    same (nth l lanes' chan0) n' /\ chan_ok n' /\ lane_hits l gs = filter visible hs.
Proof.
  induction sss as [|ss sss IH]; intros p abs itime lanes ns B P L F K S R; cbn [avx2_register].
  - split; [exact L|]. intros l Ll. cbn [map naive_channel].
    split; [apply Forall2_nth_; [exact F|lia]|]. split; [|reflexivity].
    apply Forall_nth_; [exact K|]. rewrite <- (Forall2_length _ _ _ _ _ F). lia.
  - inversion S as [|? ? [S1 S2] S3]; subst.
    pose proof (avx2_step_lanes p abs itime lanes ns ss P L S1 F K S2) as EQ. cbv zeta in EQ.
    set (back := map2 (lane_all p abs) lanes ss) in *.
    assert (length back = 16%nat) as LB by (unfold back; rewrite map2_length; lia).
    pose proof (Forall2_length _ _ _ _ _ F) as LN.
    set (ns' := map2 (fun n s => fst (naive_step p abs itime n s)) ns ss).
    assert (length ns' = 16%nat) as LN' by (unfold ns'; rewrite map2_length; lia).
    assert (forall l, (l < 16)%nat ->
      let '(n', hs) := naive_step p abs itime (nth l ns chan0) (nth l ss 0) in
      let '(a', lf) := nth l back (chan0, 0) in
      chan_ok n' /\ same (lane_clear (a', lf)) n' /\ (lf = 0 \/ lf = -1) /\
      (lf = 0 -> hs = [] /\ blendv16 0 (charge a') lf = 0) /\
      (lf = -1 -> hs = [(itime, blendv16 0 (charge a') lf, tover a')])) as STEP.
    { intros l Ll. specialize (R l Ll). cbn [map run_ok] in R. destruct R as [R1 R2].
      unfold back. rewrite (nth_map2 _ _ _ (lane_all p abs) lanes ss l chan0 0) by lia.
      apply (lane_agrees p abs itime (nth l lanes chan0) (nth l ns chan0) (nth l ss 0) B P); try assumption.
      - apply Forall_nth_; [exact K|lia].
      - apply Forall2_nth_; [exact F|lia].
      - apply (Forall_nth_ _ (fun s => 0 <= s < 4096)); [exact S2|lia]. }
    assert (forall l, (l < 16)%nat -> nth l ns' chan0 = fst (naive_step p abs itime (nth l ns chan0) (nth l ss 0))) as NS.
    { intros l Ll. unfold ns'. apply (nth_map2 _ _ _ (fun n s => fst (naive_step p abs itime n s))); lia. }
    (* both branches give the cleared lanes *)
    assert (exists g, (if existsb (fun x => negb (snd x =? 0)) back
      then (map lane_clear back, [(itime, map (fun x => blendv16 0 (charge (fst x)) (snd x)) back, map (fun x => tover (fst x)) back)])
      else (map fst back, [])) = (map lane_clear back, g) /\
      forall l, (l < 16)%nat -> lane_hits l g = filter visible (snd (naive_step p abs itime (nth l ns chan0) (nth l ss 0)))) as (g & G1 & G2).
    { destruct (existsb (fun x => negb (snd x =? 0)) back) eqn:EX.
      - eexists. split; [reflexivity|]. intros l Ll. specialize (STEP l Ll).
        destruct (naive_step p abs itime (nth l ns chan0) (nth l ss 0)) as [n' hs].
        destruct (nth l back (chan0, 0)) as [a' lf] eqn:EB. destruct STEP as (_ & _ & D & D0 & D1). cbn [snd].
        unfold lane_hits. cbn [flat_map fst snd]. rewrite app_nil_r.
        rewrite !(nth_map_ex _ _ _ back l (chan0, 0)) by lia. rewrite EB. cbn [fst snd].
        destruct D as [-> | ->].
        + destruct (D0 eq_refl) as [-> D2]. rewrite D2. reflexivity.
        + rewrite (D1 eq_refl). cbn [filter]. unfold visible. cbn [fst snd].
          destruct (blendv16 0 (charge a') (-1) =? 0); reflexivity.
      - exists []. assert (forall l, (l < 16)%nat -> snd (nth l back (chan0, 0)) = 0) as LZ.
        { intros l Ll. destruct (snd (nth l back (chan0, 0)) =? 0) eqn:C; [apply Z.eqb_eq, C|exfalso].
          assert (existsb (fun x => negb (snd x =? 0)) back = true) as EX'; [|congruence].
          apply existsb_exists. exists (nth l back (chan0, 0)). split; [apply nth_In; lia|]. rewrite C. reflexivity. }
        split.
        + f_equal. apply (nth_ext _ _ chan0 chan0); [rewrite !map_length; reflexivity|]. intros l Ll.
          rewrite map_length in Ll. rewrite !(nth_map_ex _ _ _ back l (chan0, 0)) by exact Ll.
          specialize (LZ l ltac:(lia)). destruct (nth l back (chan0, 0)) as [[a1 a2 a3 a4 a5] lf]. cbn [snd] in LZ. subst lf. reflexivity.
        + intros l Ll. specialize (STEP l Ll). specialize (LZ l Ll).
          destruct (naive_step p abs itime (nth l ns chan0) (nth l ss 0)) as [n' hs].
          destruct (nth l back (chan0, 0)) as [a' lf]. cbn [snd] in *. subst lf.
          destruct STEP as (_ & _ & _ & D0 & _). destruct (D0 eq_refl) as [-> _]. reflexivity. }
    assert (avx2_step p abs itime lanes ss = (map lane_clear back, g)) as EQ' by (rewrite EQ; exact G1).
    rewrite EQ'. clear EQ EQ' G1.
    assert (Forall2 same (map lane_clear back) ns') as F'.
    { apply (Forall2_from_nth _ _ _ _ _ chan0 chan0); [rewrite map_length; lia|]. rewrite map_length. intros l Ll.
      rewrite (nth_map_ex _ _ _ back l (chan0, 0)) by exact Ll. rewrite NS by lia. specialize (STEP l ltac:(lia)).
      destruct (naive_step p abs itime (nth l ns chan0) (nth l ss 0)) as [n' hs].
      destruct (nth l back (chan0, 0)) as [a' lf]. apply STEP. }
    assert (Forall chan_ok ns') as K'.
    { apply (Forall_from_nth _ _ _ chan0). rewrite LN'. intros l Ll. rewrite NS by lia. specialize (STEP l ltac:(lia)).
      destruct (naive_step p abs itime (nth l ns chan0) (nth l ss 0)) as [n' hs].
      destruct (nth l back (chan0, 0)) as [a' lf]. apply STEP. }
    assert (forall n s, fst (naive_step p abs itime n s) = fst (naive_step p abs 0 n s)) as TI.
    { intros n s. unfold naive_step. destruct (5 * _ * _ <? _); destruct (negb _ && negb _); reflexivity. }
    specialize (IH p ((abs + 1) mod 8)%nat (itime + 1) (map lane_clear back) ns'
                  (Nat.mod_upper_bound _ 8 ltac:(lia)) P ltac:(rewrite map_length; exact LB) F' K' S3).
    assert (forall l, (l < 16)%nat -> run_ok p ((abs + 1) mod 8) (nth l ns' chan0) (map (fun ss0 => nth l ss0 0) sss)) as R'.
    { intros l Ll. rewrite NS by lia. rewrite TI. specialize (R l Ll). cbn [map run_ok] in R. apply R. }
    specialize (IH R'). destruct (avx2_register p ((abs + 1) mod 8) (itime + 1) (map lane_clear back) sss) as [lanes' gs].
    destruct IH as [IH1 IH2]. split; [exact IH1|]. intros l Ll. specialize (IH2 l Ll). cbn [map naive_channel].
    specialize (G2 l Ll). rewrite NS in IH2 by lia.
    destruct (naive_step p abs itime (nth l ns chan0) (nth l ss 0)) as [n1 h1] eqn:EN. cbn [fst snd] in *.
    destruct (naive_channel p ((abs + 1) mod 8) (itime + 1) n1 (map (fun ss0 => nth l ss0 0) sss)) as [n2 h2].
    destruct IH2 as (I1 & I2 & I3). split; [exact I1|]. split; [exact I2|].
    rewrite lane_hits_app, G2, I3. rewrite filter_app. reflexivity.
Qed.
