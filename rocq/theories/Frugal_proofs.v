(** Lemmas on frugal quantile tracking. *)
From Coq Require Import ZArith Lia List Bool ZifyBool.
From Verif Require Import Base_model Frugal_model Frugal_spec.
Import ListNotations.
Open Scope Z_scope.

Lemma i16_id : forall z, is_i16 z -> i16 z = z.
Proof. intros z H. unfold i16, two16, is_i16 in *. rewrite Z.mod_small; lia. Qed.

(** Update over the integers. *)
Definition clean (m s acc lim : Z) : Z * Z :=
  if m <? s then if acc =? lim then (m + 1, 0) else (m, acc + 1)
  else if s <? m then if acc =? - lim then (m - 1, 0) else (m, acc - 1)
  else (m, acc).

Lemma frugal_clean : forall m s acc lim, is_i16 m -> is_i16 s -> 0 <= lim <= 32766 -> - lim <= acc <= lim ->
  frugal_accum_update m s acc lim = clean m s acc lim.
Proof.
  intros m s acc lim Hm Hs Hl Ha. unfold frugal_accum_update, clean, is_i16 in *.
  destruct (m <? s) eqn:A.
  - assert (s <? m = false) as B by lia. rewrite B. rewrite (i16_id (acc + 1)) by (unfold is_i16; lia).
    destruct (acc =? lim) eqn:C.
    + replace (lim <? acc + 1) with true by lia. rewrite (i16_id (m + 1)) by (unfold is_i16; lia).
      replace (0 <? - lim) with false by lia. reflexivity.
    + replace (lim <? acc + 1) with false by lia. replace (acc + 1 <? - lim) with false by lia. reflexivity.
  - destruct (s <? m) eqn:B.
    + rewrite (i16_id (acc - 1)) by (unfold is_i16; lia). replace (lim <? acc - 1) with false by lia.
      destruct (acc =? - lim) eqn:C.
      * replace (acc - 1 <? - lim) with true by lia. rewrite (i16_id (m - 1)) by (unfold is_i16; lia). reflexivity.
      * replace (acc - 1 <? - lim) with false by lia. reflexivity.
    + replace (lim <? acc) with false by lia. replace (acc <? - lim) with false by lia. reflexivity.
Qed.

Lemma clean_facts : forall m s acc lim, 0 <= lim -> - lim <= acc <= lim ->
  let '(m', acc') := clean m s acc lim in
  - lim <= acc' <= lim /\ Z.min m s <= m' <= Z.max m s /\ Z.abs (m' - m) <= 1 /\
  (lim + 1) * m' + acc' = (lim + 1) * m + acc + sgn (s - m) /\
  (m' <> m -> acc' = 0).
Proof.
  intros m s acc lim Hl Ha. unfold clean, sgn.
  destruct (m <? s) eqn:A.
  - replace (Z.sgn (s - m)) with 1 by (symmetry; apply Z.sgn_pos; lia).
    destruct (acc =? lim) eqn:C; repeat split; try lia; nia.
  - destruct (s <? m) eqn:B.
    + replace (Z.sgn (s - m)) with (-1) by (symmetry; apply Z.sgn_neg; lia).
      destruct (acc =? - lim) eqn:C; repeat split; try lia; nia.
    + assert (s = m) by lia. subst. rewrite Z.sub_diag. cbn [Z.sgn]. repeat split; lia.
Qed.

(** A run over samples. *)
Definition frugal_run (lim : Z) (st : Z * Z) (ss : list Z) : Z * Z :=
  fold_left (fun st s => frugal_accum_update (fst st) s (snd st) lim) ss st.

Lemma low_le : forall m ss, low m ss <= m.
Proof. intros m ss. unfold low, high. induction ss as [|s t IH]; cbn [fold_right]; lia. Qed.
Lemma high_ge : forall m ss, m <= high m ss.
Proof. intros m ss. unfold low, high. induction ss as [|s t IH]; cbn [fold_right]; lia. Qed.
Lemma low_mono : forall m m' ss, m <= m' -> low m ss <= low m' ss.
Proof. intros m m' ss H. unfold low, high. induction ss as [|s t IH]; cbn [fold_right]; lia. Qed.
Lemma high_mono : forall m m' ss, m <= m' -> high m ss <= high m' ss.
Proof. intros m m' ss H. unfold low, high. induction ss as [|s t IH]; cbn [fold_right]; lia. Qed.
Lemma low_min : forall m s ss, low (Z.min m s) ss = Z.min s (low m ss).
Proof. intros m s ss. unfold low, high. induction ss as [|x t IH]; cbn [fold_right]; lia. Qed.
Lemma high_max : forall m s ss, high (Z.max m s) ss = Z.max s (high m ss).
Proof. intros m s ss. unfold low, high. induction ss as [|x t IH]; cbn [fold_right]; lia. Qed.

Lemma frugal_run_range : forall ss lim m acc, is_i16 m -> Forall is_i16 ss -> 0 <= lim <= 32766 -> - lim <= acc <= lim ->
  let '(m', acc') := frugal_run lim (m, acc) ss in
  low m ss <= m' <= high m ss /\ - lim <= acc' <= lim.
Proof.
  induction ss as [|s ss IH]; intros lim m acc Hm Hs Hl Ha; [cbn; lia|].
  inversion Hs as [|? ? H1 H2]; subst. unfold frugal_run. cbn [fold_left fst snd].
  rewrite frugal_clean by assumption. pose proof (clean_facts m s acc lim ltac:(lia) Ha) as F.
  destruct (clean m s acc lim) as [m1 a1]. destruct F as (F1 & F2 & F3 & F4).
  specialize (IH lim m1 a1 ltac:(unfold is_i16 in *; lia) H2 Hl F1). unfold frugal_run in IH.
  destruct (fold_left _ ss (m1, a1)) as [m' a']. destruct IH as [I1 I2]. split; [|exact I2].
  cbn [low high fold_right]. change (fold_right Z.min m ss) with (low m ss). change (fold_right Z.max m ss) with (high m ss).
  pose proof (low_mono (Z.min m s) m1 ss ltac:(lia)). pose proof (high_mono m1 (Z.max m s) ss ltac:(lia)).
  rewrite low_min in *. rewrite high_max in *. lia.
Qed.

(** Distance left to a constant input. *)
Definition left_to_go (lim m acc s : Z) : Z := (lim + 1) * Z.abs (s - m) - Z.sgn (s - m) * acc.

Lemma left_zero : forall lim m acc s, 0 <= lim -> - lim <= acc <= lim ->
  (left_to_go lim m acc s = 0 <-> m = s) /\ 0 <= left_to_go lim m acc s.
Proof.
  intros lim m acc s Hl Ha. unfold left_to_go.
  destruct (Z.lt_trichotomy s m) as [L|[E|G]].
  - rewrite Z.sgn_neg, Z.abs_neq by lia. split; [split; [nia|lia]|nia].
  - subst. rewrite Z.sub_diag. cbn [Z.abs Z.sgn]. lia.
  - rewrite Z.sgn_pos, Z.abs_eq by lia. split; [split; [nia|lia]|nia].
Qed.
Lemma left_step : forall lim m acc s, 0 <= lim -> - lim <= acc <= lim -> m <> s ->
  let '(m', acc') := clean m s acc lim in left_to_go lim m' acc' s = left_to_go lim m acc s - 1.
Proof.
  intros lim m acc s Hl Ha N. unfold clean.
  destruct (m <? s) eqn:A.
  - destruct (acc =? lim) eqn:C; unfold left_to_go.
    + apply Z.eqb_eq in C. subst acc. rewrite (Z.sgn_pos (s - m)), !Z.abs_eq by lia. nia.
    + rewrite !(Z.sgn_pos (s - m)), !Z.abs_eq by lia. lia.
  - assert (s < m) by lia. replace (s <? m) with true by lia.
    destruct (acc =? - lim) eqn:C; unfold left_to_go.
    + apply Z.eqb_eq in C. subst acc. rewrite (Z.sgn_neg (s - m)), !Z.abs_neq by lia. nia.
    + rewrite !(Z.sgn_neg (s - m)), !Z.abs_neq by lia. lia.
Qed.
Lemma clean_same : forall m acc lim, clean m m acc lim = (m, acc).
Proof. intros. unfold clean. rewrite Z.ltb_irrefl. reflexivity. Qed.

Lemma frugal_run_constant : forall n lim m acc s, is_i16 m -> is_i16 s -> 0 <= lim <= 32766 -> - lim <= acc <= lim ->
  let '(m', acc') := frugal_run lim (m, acc) (repeat s n) in
  left_to_go lim m' acc' s = Z.max 0 (left_to_go lim m acc s - Z.of_nat n) /\ - lim <= acc' <= lim.
Proof.
  induction n as [|n IH]; intros lim m acc s Hm Hs Hl Ha.
  - cbn [repeat frugal_run fold_left]. pose proof (left_zero lim m acc s ltac:(lia) Ha).
    unfold frugal_run. cbn [fold_left]. split; [lia|exact Ha].
  - unfold frugal_run. cbn [repeat fold_left fst snd]. rewrite frugal_clean by assumption.
    pose proof (clean_facts m s acc lim ltac:(lia) Ha) as F.
    destruct (Z.eq_dec m s) as [E|N].
    + subst s. rewrite clean_same in *. specialize (IH lim m acc m Hm Hm Hl Ha). unfold frugal_run in IH.
      destruct (fold_left _ (repeat m n) (m, acc)) as [m' a']. destruct IH as [I1 I2]. split; [|exact I2].
      pose proof (left_zero lim m acc m ltac:(lia) Ha). lia.
    + pose proof (left_step lim m acc s ltac:(lia) Ha N) as S.
      pose proof (left_zero lim m acc s ltac:(lia) Ha) as Z0.
      destruct (clean m s acc lim) as [m1 a1]. destruct F as (F1 & F2 & F3 & F4).
      specialize (IH lim m1 a1 s ltac:(unfold is_i16 in *; lia) Hs Hl F1). unfold frugal_run in IH.
      destruct (fold_left _ (repeat s n) (m1, a1)) as [m' a']. destruct IH as [I1 I2]. split; [|exact I2].
      destruct Z0 as [Z1 Z2]. assert (left_to_go lim m acc s <> 0) by tauto. lia.
Qed.

(** * Vectorised update *)
Lemma avx2_masked : forall m s acc lim, is_i16 m -> is_i16 acc -> frugal_accum_update_avx2 m s acc lim 0 = (m, acc).
Proof.
  intros m s acc lim Hm Ha. unfold frugal_accum_update_avx2. rewrite !Z.land_0_r.
  unfold add16, adds16, blendv16. rewrite !Z.add_0_r. rewrite (i16_id acc) by assumption.
  unfold is_i16 in *. cbn [Z.ltb Z.compare]. f_equal. lia.
Qed.
Lemma avx2_unmasked : forall m s acc lim, is_i16 m -> is_i16 s -> 0 < lim <= 32766 -> - lim <= acc <= lim ->
  frugal_accum_update_avx2 m s acc lim (-1) = frugal_accum_update m s acc lim.
Proof.
  intros m s acc lim Hm Hs Hl Ha. rewrite frugal_clean by (try assumption; lia).
  unfold frugal_accum_update_avx2. rewrite !Z.land_m1_r.
  unfold cmpgt16, cmpeq16, blendv16, sign16, add16, adds16, clean, is_i16 in *.
  rewrite (i16_id (-1 * lim)) by (unfold is_i16; lia). replace (-1 * lim <? 0) with true by lia.
  destruct (m <? s) eqn:A.
  - replace (s =? m) with false by lia. cbn [Z.ltb Z.compare]. rewrite (i16_id (acc + 1)) by (unfold is_i16; lia).
    rewrite (i16_id (- (acc + 1))) by (unfold is_i16; lia).
    destruct (acc =? lim) eqn:C.
    + replace (lim <? acc + 1) with true by lia. replace (lim <? - (acc + 1)) with false by lia.
      cbn [Z.ltb Z.compare Z.lor]. f_equal. lia.
    + replace (lim <? acc + 1) with false by lia. replace (lim <? - (acc + 1)) with false by lia.
      cbn [Z.ltb Z.compare Z.lor]. f_equal. lia.
  - destruct (s <? m) eqn:B.
    + replace (s =? m) with false by lia. cbn [Z.ltb Z.compare]. rewrite (i16_id (acc + -1)) by (unfold is_i16; lia).
      rewrite (i16_id (- (acc + -1))) by (unfold is_i16; lia). replace (lim <? acc + -1) with false by lia.
      destruct (acc =? - lim) eqn:C.
      * replace (lim <? - (acc + -1)) with true by lia. cbn [Z.ltb Z.compare Z.lor]. f_equal. lia.
      * replace (lim <? - (acc + -1)) with false by lia. cbn [Z.ltb Z.compare Z.lor]. f_equal; lia.
    + replace (s =? m) with true by lia. cbn [Z.ltb Z.compare]. rewrite Z.add_0_r, (i16_id acc) by (unfold is_i16; lia).
      rewrite (i16_id (- acc)) by (unfold is_i16; lia).
      replace (lim <? acc) with false by lia. replace (lim <? - acc) with false by lia. cbn [Z.ltb Z.compare Z.lor]. f_equal. lia.
Qed.

(** * Trackers *)
Definition tracker_ok (t : tracker) : Prop :=
  is_i16 (median t) /\ is_i16 (q25 t) /\ is_i16 (q75 t) /\
  -10 <= accum t <= 10 /\ -10 <= accum25 t <= 10 /\ -10 <= accum75 t <= 10.

Definition clean_track (t : tracker) (s : Z) : tracker :=
  let '(n25, a25) := if s <? median t then clean (q25 t) s (accum25 t) 10 else (q25 t, accum25 t) in
  let '(n75, a75) := if median t <? s then clean (q75 t) s (accum75 t) 10 else (q75 t, accum75 t) in
  let '(m, a) := clean (median t) s (accum t) 10 in
  mkTracker m n25 n75 a a25 a75.

Lemma track_naive_clean : forall t s, tracker_ok t -> is_i16 s -> track_naive t s = clean_track t s.
Proof.
  intros t s (H1 & H2 & H3 & H4 & H5 & H6) Hs. unfold track_naive, clean_track.
  rewrite !frugal_clean by (try assumption; lia). reflexivity.
Qed.
Lemma track_avx2_naive : forall t s, tracker_ok t -> is_i16 s -> track_avx2 t s = track_naive t s.
Proof.
  intros t s (H1 & H2 & H3 & H4 & H5 & H6) Hs. unfold track_avx2, track_naive.
  rewrite (avx2_unmasked (median t)) by (try assumption; lia).
  assert (is_i16 (accum25 t) /\ is_i16 (accum75 t)) as [G1 G2] by (unfold is_i16; lia).
  unfold cmpgt16, cmpeq16. destruct (median t <? s) eqn:A.
  - replace (s =? median t) with false by lia. replace (s <? median t) with false by lia.
    change (Z.lxor (Z.lor (-1) 0) (-1)) with 0. rewrite avx2_masked, avx2_unmasked by (try assumption; lia). reflexivity.
  - destruct (s <? median t) eqn:B.
    + replace (s =? median t) with false by lia. change (Z.lxor (Z.lor 0 0) (-1)) with (-1).
      rewrite avx2_masked, avx2_unmasked by (try assumption; lia). reflexivity.
    + replace (s =? median t) with true by lia. change (Z.lxor (Z.lor 0 (-1)) (-1)) with 0.
      rewrite !avx2_masked by assumption. reflexivity.
Qed.

(** The three estimates stay ordered up to one count for the median, and the quartiles strictly. *)
Definition ordered (t : tracker) : Prop :=
  -10 <= accum t <= 10 /\ -10 <= accum25 t <= 10 /\ -10 <= accum75 t <= 10 /\
  11 * median t + accum t <= 11 * q75 t + accum75 t + 10 /\ median t <= q75 t + 1 /\
  11 * q25 t + accum25 t <= 11 * median t + accum t + 10 /\ q25 t <= median t + 1 /\
  q25 t <= q75 t.

Lemma clean_track_ordered : forall t s, ordered t -> ordered (clean_track t s).
Proof.
  intros [m a b x y z] s. unfold ordered, clean_track. cbn [median q25 q75 accum accum25 accum75].
  intros (H1 & H2 & H3 & H4 & H5 & H6 & H7 & H8).
  unfold clean. change (- (10)) with (-10). destruct (s <? m) eqn:A.
  - replace (m <? s) with false by lia.
    destruct (a <? s) eqn:B; [destruct (y =? 10) eqn:D|destruct (s <? a) eqn:C; [destruct (y =? -10) eqn:D|]];
      (destruct (x =? -10) eqn:E; cbn [median q25 q75 accum accum25 accum75]; repeat split; lia).
  - destruct (m <? s) eqn:A'.
    + destruct (b <? s) eqn:B; [destruct (z =? 10) eqn:D|destruct (s <? b) eqn:C; [destruct (z =? -10) eqn:D|]];
      (destruct (x =? 10) eqn:E; cbn [median q25 q75 accum accum25 accum75]; repeat split; lia).
    + cbn [median q25 q75 accum accum25 accum75]. repeat split; lia.
Qed.

(** The estimates stay inside any band that holds the start values and the samples. *)
Definition within (lo hi : Z) (t : tracker) : Prop :=
  lo <= median t <= hi /\ lo <= q25 t <= hi /\ lo <= q75 t <= hi.
Lemma clean_track_within : forall t s lo hi, ordered t -> within lo hi t -> lo <= s <= hi -> within lo hi (clean_track t s).
Proof.
  intros t s lo hi (H1 & H2 & H3 & _) (W1 & W2 & W3) Hs. unfold clean_track.
  pose proof (clean_facts (median t) s (accum t) 10 ltac:(lia) H1) as F1.
  pose proof (clean_facts (q25 t) s (accum25 t) 10 ltac:(lia) H2) as F2.
  pose proof (clean_facts (q75 t) s (accum75 t) 10 ltac:(lia) H3) as F3.
  destruct (clean (median t) s (accum t) 10) as [m1 a1], (clean (q25 t) s (accum25 t) 10) as [m2 a2],
    (clean (q75 t) s (accum75 t) 10) as [m3 a3].
  unfold within. destruct (s <? median t), (median t <? s); cbn [median q25 q75]; lia.
Qed.

Lemma ordered_ok : forall t lo hi, ordered t -> within lo hi t -> -32768 <= lo -> hi <= 32767 -> tracker_ok t.
Proof. intros t lo hi (H1 & H2 & H3 & _) (W1 & W2 & W3) L H. unfold tracker_ok, is_i16. repeat split; lia. Qed.

Lemma tracker_init_ordered : forall p, -32765 <= p <= 32764 -> ordered (tracker_init p) /\ within (p - 3) (p + 3) (tracker_init p).
Proof.
  intros p H. unfold tracker_init, ordered, within. cbn [median q25 q75 accum accum25 accum75].
  rewrite !i16_id by (unfold is_i16; lia). repeat split; lia.
Qed.
Lemma within_mono : forall lo hi lo' hi' t, within lo hi t -> lo' <= lo -> hi <= hi' -> within lo' hi' t.
Proof. unfold within. intros. lia. Qed.

Lemma track_run : forall ss t lo hi, ordered t -> within lo hi t -> -32768 <= lo -> hi <= 32767 ->
  Forall (fun s => lo <= s <= hi) ss ->
  ordered (fold_left track_naive ss t) /\ within lo hi (fold_left track_naive ss t) /\
  fold_left track_avx2 ss t = fold_left track_naive ss t.
Proof.
  induction ss as [|s ss IH]; intros t lo hi O W L H F; cbn [fold_left]; [split; [assumption|split; [assumption|reflexivity]]|].
  inversion F as [|? ? F1 F2]; subst.
  cbn beta in F1. assert (tracker_ok t) as K by (apply (ordered_ok t lo hi); assumption).
  rewrite track_avx2_naive by (try assumption; unfold is_i16; lia).
  rewrite track_naive_clean by (try assumption; unfold is_i16; lia).
  apply (IH _ lo hi); try assumption; [apply clean_track_ordered|apply clean_track_within]; assumption.
Qed.
