(** The scalar hit finding follows the specification. *)
From Coq Require Import ZArith Lia List Bool ZifyBool Arith.
From Verif Require Import Base_model Frugal_model Frugal_spec Frugal_proofs Expand_model Hits_model Hits_spec Hits_proofs.
Import ListNotations.
Open Scope Z_scope.

Lemma spec_move_clean : forall m a s lim, - lim <= a <= lim -> spec_move lim (m, a) s = clean m s a lim.
Proof.
  intros m a s lim H. unfold spec_move, clean. cbn [fst snd].
  destruct (m <? s) eqn:A.
  - rewrite (Z.sgn_pos (s - m)) by lia. destruct (a =? lim) eqn:B.
    + replace (Z.abs (a + 1) <=? lim) with false by lia. rewrite Z.sgn_pos by lia. reflexivity.
    + replace (Z.abs (a + 1) <=? lim) with true by lia. reflexivity.
  - destruct (s <? m) eqn:C.
    + rewrite (Z.sgn_neg (s - m)) by lia. destruct (a =? - lim) eqn:B.
      * replace (Z.abs (a + -1) <=? lim) with false by lia. rewrite Z.sgn_neg by lia. reflexivity.
      * replace (Z.abs (a + -1) <=? lim) with true by lia. reflexivity.
    + replace (s - m) with 0 by lia. cbn [Z.sgn]. replace (Z.abs (a + 0) <=? lim) with true by lia. rewrite Z.add_0_r. reflexivity.
Qed.

Definition est_of (t : tracker) : estimates := ((median t, accum t), (q25 t, accum25 t), (q75 t, accum75 t)).
Lemma track_est : forall t x, ordered t -> within (-3) 4098 t -> 0 <= x < 4096 ->
  est_of (track_naive t x) = spec_estimates (est_of t) x.
Proof.
  intros t x O W Hx. rewrite track_naive_clean; [|apply (ordered_ok t (-3) 4098); try assumption; lia|unfold is_i16; lia].
  destruct O as (H1 & H2 & H3 & _). unfold clean_track, est_of, spec_estimates. cbn [fst].
  rewrite !spec_move_clean by lia.
  destruct (clean (median t) x (accum t) 10), (x <? median t), (clean (q25 t) x (accum25 t) 10), (median t <? x),
    (clean (q75 t) x (accum75 t) 10); reflexivity.
Qed.

Lemma set_nth_length : forall (A : Type) n (x : A) l, length (set_nth n x l) = length l.
Proof. intros A n x l. revert n. induction l as [|y l IH]; intros [|n]; cbn; auto. Qed.
Lemma nth_set_nth : forall (A : Type) n m (x d : A) l, (n < length l)%nat ->
  nth m (set_nth n x l) d = if (m =? n)%nat then x else nth m l d.
Proof.
  intros A n m x d l. revert n m. induction l as [|y l IH]; intros n m L; [cbn in L; lia|].
  destruct n as [|n], m as [|m]; cbn [set_nth nth Nat.eqb]; try reflexivity.
  apply IH. cbn in L. lia.
Qed.

Section Chan.
Variable p : params.
Variable ped0 : Z.
Variable s : nat -> Z.
Hypothesis P : params_ok p.
Hypothesis Hped : 0 <= ped0 < 4096.
Hypothesis Hs : forall t, 0 <= s t < 4096.

Notation E := (est ped0 s).
Notation D := (signal (tap_exponent p) ped0 s).
Notation FILT := (filtered (taps p) (tap_exponent p) ped0 s).
Notation OVER := (over (taps p) (tap_exponent p) ped0 s).
Notation RUN := (run_length (taps p) (tap_exponent p) ped0 s).
Notation CHARGE := (run_charge (taps p) (tap_exponent p) ped0 s).
Notation ENDS := (hit_ends (taps p) (tap_exponent p) ped0 s).
Notation LIMIT := (limit (tap_exponent p) ped0 s).

(** The sample at distance 8 - k before tick t. *)
Definition old_sample (t k : nat) : Z := if (8 <=? t + k)%nat then D (t + k - 8) else 0.

(** State before tick t. *)
Definition inv (t : nat) (c : chan) : Prop :=
  est_of (trk c) = E t /\ length (prev c) = 8%nat /\
  (forall k, (k < 8)%nat -> nth ((k + t) mod 8) (prev c) 0 = old_sample t k) /\
  was_over c = (if (0 <? RUN t)%nat then 1 else 0) /\ tover c = Z.of_nat (RUN t) /\ charge c = CHARGE t.

Lemma adc_max_val : adc_max p = 32767 / 2 ^ tap_exponent p /\ 7 <= adc_max p <= 32767.
Proof.
  destruct (multiplier_val p P) as [M B]. unfold adc_max. rewrite M in *.
  assert (7 <= 32767 / 2 ^ tap_exponent p) by (apply Z.div_le_lower_bound; lia).
  assert (32767 / 2 ^ tap_exponent p < 32768) by (apply Z.div_lt_upper_bound; lia).
  rewrite i16_id by (unfold is_i16; lia). lia.
Qed.

Lemma run_length_le : forall t, (RUN t <= t)%nat.
Proof. induction t as [|t IH]; cbn [run_length]; [lia|]. destruct (OVER t); lia. Qed.

Lemma run_charge_step : forall t, OVER t = true -> 0 <= FILT t / 2 ^ tap_exponent p ->
  CHARGE (S t) = Z.min 32767 (CHARGE t + FILT t / 2 ^ tap_exponent p).
Proof.
  intros t O H. unfold run_charge. cbn [run_length]. rewrite O.
  pose proof (run_length_le t) as L.
  replace (S t - S (RUN t))%nat with (t - RUN t)%nat by lia.
  replace (seq (t - RUN t) (S (RUN t))) with (seq (t - RUN t) (RUN t) ++ [t]).
  2:{ replace (S (RUN t)) with (RUN t + 1)%nat by lia. rewrite seq_app. cbn [seq]. f_equal. f_equal. lia. }
  rewrite map_app. cbn [map].
  set (l := map _ (seq (t - RUN t) (RUN t))). set (x := FILT t / 2 ^ tap_exponent p) in *.
  assert (fold_right Z.add 0 (l ++ [x]) = fold_right Z.add 0 l + x) as A.
  { clearbody l x. induction l as [|y l IH]; cbn [app fold_right]; lia. }
  rewrite A. lia.
Qed.
Lemma run_charge_not_over : forall t, OVER t = false -> CHARGE (S t) = 0 /\ RUN (S t) = 0%nat.
Proof. intros t O. unfold run_charge. cbn [run_length]. rewrite O. split; reflexivity. Qed.
Lemma run_charge_none : forall t, RUN t = 0%nat -> CHARGE t = 0.
Proof. intros t R. unfold run_charge. rewrite R. reflexivity. Qed.

Lemma filter_spec : forall t c, inv t c -> filter_naive p (t mod 8) (prev c) = i16 (FILT t).
Proof.
  intros t c (_ & _ & K & _). rewrite filter_naive_sum. f_equal.
  destruct P as (_ & _ & T7).
  assert (tap_sum p 8 (t mod 8) (prev c) = tap_sum p 7 (t mod 8) (prev c)) as T8.
  { unfold tap_sum. cbn [seq fold_left]. rewrite T7. lia. }
  rewrite T8. clear T8.
  assert (forall j, (j < 8)%nat -> nth ((j + t mod 8) mod 8) (prev c) 0 = old_sample t j) as K'.
  { intros j L. rewrite Nat.add_mod_idemp_r by lia. apply K, L. }
  unfold tap_sum, filtered. cbn [seq fold_left map fold_right].
  rewrite !K' by lia. unfold old_sample. cbn [Nat.add]. rewrite ?Nat.add_0_r. ring.
Qed.

Lemma est_facts : forall t, exists tr, est_of tr = E t /\ ordered tr /\ within (-3) 4098 tr.
Proof.
  induction t as [|t (tr & E1 & O & W)].
  - exists (tracker_init ped0). destruct (tracker_init_ordered ped0 ltac:(lia)) as [O W].
    split; [|split; [exact O|exact (within_mono (ped0 - 3) (ped0 + 3) (-3) 4098 _ W ltac:(lia) ltac:(lia))]].
    unfold tracker_init, est_of. cbn [median q25 q75 accum accum25 accum75 est].
    rewrite !i16_id by (unfold is_i16; lia). reflexivity.
  - exists (track_naive tr (s t)). cbn [est]. rewrite <- E1, track_est by (try assumption; apply Hs).
    split; [reflexivity|].
    destruct (track_run [s t] tr (-3) 4098 O W ltac:(lia) ltac:(lia)) as (O' & W' & _).
    { repeat constructor; specialize (Hs t); lia. }
    cbn [fold_left] in *. auto.
Qed.
Lemma est_of_inj : forall a b, est_of a = est_of b -> a = b.
Proof. intros [] [] H. unfold est_of in H. cbn in H. injection H as -> -> -> -> -> ->. reflexivity. Qed.

Lemma width_facts : forall t, 0 <= width (E t) <= 4101.
Proof.
  intros t. destruct (est_facts t) as (tr & T & (_ & _ & _ & _ & _ & _ & _ & O) & (_ & W2 & W3)).
  rewrite <- T. unfold width, est_of. cbn [fst snd]. lia.
Qed.
Lemma over_pos : forall t, OVER t = true -> 0 < FILT t.
Proof.
  intros t O. unfold over, limit in O. apply Z.ltb_lt in O. pose proof (width_facts (S t)).
  destruct (multiplier_val p P) as [M B]. nia.
Qed.
Lemma over_charge : forall t, OVER t = true -> 0 <= FILT t / 2 ^ tap_exponent p.
Proof. intros t O. apply over_pos in O. destruct (multiplier_val p P) as [M B]. apply Z.div_pos; lia. Qed.
Lemma charge_bounds : forall t, 0 <= CHARGE t <= 32767.
Proof.
  induction t as [|t IH]; [unfold run_charge; cbn; lia|].
  destruct (OVER t) eqn:O.
  - rewrite run_charge_step by (try exact O; apply over_charge, O). pose proof (over_charge t O). lia.
  - destruct (run_charge_not_over t O) as [-> _]. lia.
Qed.

(** One tick. *)
Lemma naive_tick : forall t itime c, inv t c -> is_i16 (FILT t) -> Z.of_nat (RUN t) < 32767 ->
  let '(c', hs) := naive_step p (t mod 8) itime c (s t) in
  inv (S t) c' /\ hs = (if ENDS t then [(itime, CHARGE t, Z.of_nat (RUN t))] else []).
Proof.
  intros t itime c I FB RB. pose proof (filter_spec t c I) as FS. rewrite i16_id in FS by exact FB.
  destruct I as (I1 & I2 & I3 & I4 & I5 & I6).
  destruct (est_facts t) as (tr & T1 & O & W). rewrite <- T1 in I1. apply est_of_inj in I1. subst tr.
  destruct (est_facts (S t)) as (tr' & T2 & O' & W').
  assert (track_naive (trk c) (s t) = tr') as TR.
  { apply est_of_inj. rewrite T2. cbn [est]. rewrite <- T1. apply track_est; try assumption. apply Hs. }
  destruct (multiplier_val p P) as [ME MB]. destruct adc_max_val as [AM AB].
  unfold naive_step. rewrite TR, FS. rewrite Nat.mod_mod by lia.
  assert (width (E (S t)) = q75 tr' - q25 tr') as WD by (rewrite <- T2; reflexivity).
  assert (pedestal (E (S t)) = median tr') as PD by (rewrite <- T2; reflexivity).
  assert (0 <= q75 tr' - q25 tr' <= 4101) as WB.
  { destruct O' as (_ & _ & _ & _ & _ & _ & _ & O'). destruct W' as (_ & W2 & W3). lia. }
  rewrite (i16_id (q75 tr' - q25 tr')) by (unfold is_i16; lia).
  assert (-3 <= median tr' <= 4098) as MT by (destruct W'; lia).
  rewrite (i16_id (s t - median tr')) by (unfold is_i16; specialize (Hs t); lia).
  rewrite AM. assert (Z.min (s t - median tr') (32767 / 2 ^ tap_exponent p) = D t) as DT.
  { unfold signal. rewrite PD. reflexivity. }
  rewrite DT. rewrite ME.
  assert ((5 * (q75 tr' - q25 tr') * 2 ^ tap_exponent p <? FILT t) = OVER t) as OV.
  { unfold over, limit. rewrite WD. reflexivity. }
  rewrite OV.
  assert (t mod 8 < 8)%nat as TM by (apply Nat.mod_upper_bound; lia).
  assert (forall k, (k < 8)%nat -> nth ((k + S t) mod 8) (set_nth (t mod 8) (D t) (prev c)) 0 = old_sample (S t) k) as PREV.
  { intros k Lk. rewrite nth_set_nth by lia. destruct (Nat.eq_dec k 7) as [->|N].
    - replace ((7 + S t) mod 8)%nat with (t mod 8)%nat.
      2:{ replace (7 + S t)%nat with (t + 1 * 8)%nat by lia. rewrite Nat.mod_add by lia. reflexivity. }
      rewrite Nat.eqb_refl. unfold old_sample. replace (8 <=? S t + 7)%nat with true by (symmetry; apply Nat.leb_le; lia).
      f_equal. lia.
    - assert ((k + S t) mod 8 <> t mod 8)%nat as NE.
      { intros X. pose proof (Nat.div_mod (k + S t) 8 ltac:(lia)). pose proof (Nat.div_mod t 8 ltac:(lia)). lia. }
      apply Nat.eqb_neq in NE. rewrite NE.
      replace (k + S t)%nat with (S k + t)%nat by lia. rewrite I3 by lia. unfold old_sample.
      replace (S t + k)%nat with (t + S k)%nat by lia. reflexivity. }
  assert (length (set_nth (t mod 8) (D t) (prev c)) = 8%nat) as LEN by (rewrite set_nth_length; exact I2).
  unfold hit_ends. destruct (OVER t) eqn:EO.
  - pose proof (over_charge t EO) as DP. pose proof (charge_bounds t) as CB.
    cbn [negb andb]. rewrite I5, I6. rewrite Z.shiftr_div_pow2 by (destruct P; lia).
    pose proof (run_charge_step t EO DP) as RS. rewrite Z.min_comm in RS.
    rewrite <- RS. pose proof (charge_bounds (S t)) as CB'.
    rewrite (i16_id (CHARGE (S t))) by (unfold is_i16; lia).
    rewrite (i16_id (Z.of_nat (RUN t) + 1)) by (unfold is_i16; lia).
    cbn [Z.eqb negb andb]. split; [|reflexivity].
    unfold inv. cbn [trk prev was_over charge tover]. split; [exact T2|]. split; [exact LEN|]. split; [exact PREV|].
    cbn [run_length]. rewrite EO. split; [reflexivity|]. split; [lia|reflexivity].
  - destruct (run_charge_not_over t EO) as [RC RL]. rewrite I4.
    destruct (Nat.eq_dec (RUN t) 0) as [RZ|RN].
    + rewrite RZ. cbn [Nat.ltb Nat.leb Z.eqb negb andb]. split; [|reflexivity].
      unfold inv. cbn [trk prev was_over charge tover]. split; [exact T2|]. split; [exact LEN|]. split; [exact PREV|].
      rewrite RL, RC. cbn [Nat.ltb Nat.leb]. rewrite I5, I6, RZ, (run_charge_none t RZ). repeat split; reflexivity.
    + assert ((0 <? RUN t)%nat = true) as RP by (apply Nat.ltb_lt; lia). rewrite RP. cbn [Z.eqb negb andb].
      split; [|rewrite I5, I6; reflexivity].
      unfold inv. cbn [trk prev was_over charge tover]. split; [exact T2|]. split; [exact LEN|]. split; [exact PREV|].
      rewrite RL, RC. repeat split; reflexivity.
Qed.

(** Hits that end at the ticks in [from, from + n), tick [from] being tick [i0] of the output. *)
Definition spec_hits (from n : nat) (i0 : Z) : list hit :=
  flat_map (fun k => if ENDS k then [(i0 + (Z.of_nat k - Z.of_nat from), CHARGE k, Z.of_nat (RUN k))] else []) (seq from n).

Lemma spec_hits_cons : forall from n i0,
  spec_hits from (S n) i0 = (if ENDS from then [(i0, CHARGE from, Z.of_nat (RUN from))] else []) ++ spec_hits (S from) n (i0 + 1).
Proof.
  intros. unfold spec_hits. cbn [seq flat_map]. f_equal.
  - rewrite Z.sub_diag, Z.add_0_r. reflexivity.
  - rewrite !flat_map_concat_map. f_equal. apply map_ext. intros k. destruct (ENDS k); [|reflexivity].
    replace (i0 + 1 + (Z.of_nat k - Z.of_nat (S from))) with (i0 + (Z.of_nat k - Z.of_nat from)) by lia. reflexivity.
Qed.

(** A stretch of ticks. *)
Lemma naive_stretch : forall n t i0 c, inv t c ->
  (forall k, (t <= k < t + n)%nat -> is_i16 (FILT k) /\ Z.of_nat (RUN k) < 32767) ->
  let '(c', hs) := naive_channel p (t mod 8) i0 c (map s (seq t n)) in
  inv (t + n) c' /\ hs = spec_hits t n i0.
Proof.
  induction n as [|n IH]; intros t i0 c I H; cbn [seq map naive_channel].
  - rewrite Nat.add_0_r. split; [exact I|reflexivity].
  - destruct (H t ltac:(lia)) as [H1 H2]. pose proof (naive_tick t i0 c I H1 H2) as N.
    destruct (naive_step p (t mod 8) i0 c (s t)) as [c1 h1]. destruct N as [I1 ->].
    replace ((t mod 8 + 1) mod 8)%nat with (S t mod 8)%nat by (rewrite Nat.add_mod_idemp_l by lia; f_equal; lia).
    specialize (IH (S t) (i0 + 1) c1 I1). replace (S t + n)%nat with (t + S n)%nat in IH by lia.
    specialize (IH ltac:(intros k Lk; apply H; lia)).
    destruct (naive_channel p (S t mod 8) (i0 + 1) c1 (map s (seq (S t) n))) as [c2 h2]. destruct IH as [I2 ->].
    split; [exact I2|]. symmetry. apply spec_hits_cons.
Qed.

(** Start. *)
Lemma inv_start : inv 0 (init_chan (ped0, ped0 - 3, ped0 + 3)).
Proof.
  unfold inv, init_chan. cbn [trk prev was_over charge tover]. repeat split.
  intros k Lk. replace (nth ((k + 0) mod 8) (repeat 0 8) 0) with 0.
  - unfold old_sample. replace (8 <=? 0 + k)%nat with false by (symmetry; apply Nat.leb_gt; lia). reflexivity.
  - rewrite nth_repeat. reflexivity.
Qed.
Lemma inv_chan_ok : forall t c, inv t c -> Z.of_nat (RUN t) <= 32767 -> chan_ok c.
Proof.
  intros t c (I1 & _ & _ & I4 & I5 & I6) R. destruct (est_facts t) as (tr & T & O & W).
  rewrite <- T in I1. apply est_of_inj in I1. subst tr. unfold chan_ok. pose proof (charge_bounds t).
  split; [exact O|]. split; [exact W|]. split; [rewrite I4; destruct (0 <? RUN t)%nat; auto|]. rewrite I5, I6. lia.
Qed.

(** Agreement with the vectorised version is guaranteed under the same conditions plus one on the threshold. *)
Lemma stretch_run_ok : forall n t c, inv t c ->
  (forall k, (t <= k < t + n)%nat -> is_i16 (FILT k) /\ Z.of_nat (RUN k) < 32767 /\
     (width (E (S k)) <= sigma_max p \/ FILT k <= 5 * sigma_max p * 2 ^ tap_exponent p)) ->
  run_ok p (t mod 8) c (map s (seq t n)).
Proof.
  induction n as [|n IH]; intros t c I H; cbn [seq map run_ok]; [exact Logic.I|].
  destruct (H t ltac:(lia)) as (H1 & H2 & H3). pose proof (naive_tick t 0 c I H1 H2) as N.
  destruct (naive_step p (t mod 8) 0 c (s t)) as [c1 h1] eqn:EN. destruct N as [I1 _]. cbn [fst].
  split.
  - unfold step_ok. rewrite (filter_spec t c I). rewrite i16_id by exact H1.
    destruct I as (J1 & _ & _ & _ & J5 & _). destruct (est_facts t) as (tr & T1 & O & W).
    rewrite <- T1 in J1. apply est_of_inj in J1. subst tr.
    assert (width (E (S t)) = q75 (track_naive (trk c) (s t)) - q25 (track_naive (trk c) (s t))) as WD.
    { cbn [est]. rewrite <- T1. rewrite <- track_est by (try assumption; apply Hs). reflexivity. }
    destruct (multiplier_val p P) as [M _]. rewrite M. rewrite <- WD. split; [exact H3|]. intros _. rewrite J5. exact H2.
  - replace ((t mod 8 + 1) mod 8)%nat with (S t mod 8)%nat by (rewrite Nat.add_mod_idemp_l by lia; f_equal; lia).
    apply IH; [exact I1|]. intros k Lk. apply H. lia.
Qed.
End Chan.
