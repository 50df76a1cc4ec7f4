(** Accuracy of the period of the rate limiter (C77). *)
From Coq Require Import ZArith List Bool Lia.
From Verif Require Import Base_model Rate_model Pace_model.
Open Scope Z_scope.

Lemma nearest_err : forall num den, 0 <= num -> 0 < den -> 2 * Z.abs (nearest num den * den - num) <= den /\ num / den <= nearest num den.
Proof.
  intros num den Hn Hd. unfold nearest. pose proof (Z.div_mod num den ltac:(lia)) as E. pose proof (Z.mod_pos_bound num den Hd) as B.
  set (q := num / den) in *. set (r := num mod den) in *.
  destruct (Z.ltb_spec (2 * r) den); [nia|]. destruct (Z.ltb_spec den (2 * r)); [nia|]. destruct (Z.even q); nia.
Qed.

Lemma scale_pos : forall num den k, 0 < num -> 0 < den -> 0 < fst (scale num den k) /\ 0 < snd (scale num den k).
Proof.
  intros num den k H1 H2. unfold scale. destruct (Z.leb_spec 0 k); cbn [fst snd].
  - pose proof (Z.pow_pos_nonneg 2 k ltac:(lia) ltac:(lia)). nia.
  - pose proof (Z.pow_pos_nonneg 2 (- k) ltac:(lia) ltac:(lia)). nia.
Qed.

(** The scaled fraction has at least 53 bits. *)
Lemma scaled_big : forall num den, 0 < num -> 0 < den ->
  let k0 := 52 - (Z.log2 num - Z.log2 den) in
  let k := if fst (scale num den k0) <? 2 ^ 52 * snd (scale num den k0) then k0 + 1 else k0 in
  2 ^ 52 * snd (scale num den k) <= fst (scale num den k).
Proof.
  intros num den Hn Hd k0 k. unfold k. destruct (Z.ltb_spec (fst (scale num den k0)) (2 ^ 52 * snd (scale num den k0))) as [L|L]; [|exact L].
  pose proof (Z.log2_spec num Hn) as [N1 N2]. pose proof (Z.log2_spec den Hd) as [D1 D2]. pose proof (Z.log2_nonneg num). pose proof (Z.log2_nonneg den).
  set (ln := Z.log2 num) in *. set (ld := Z.log2 den) in *. unfold scale.
  destruct (Z.leb_spec 0 (k0 + 1)); cbn [fst snd].
  - assert (2 ^ 52 * 2 ^ (ld + 1) <= 2 ^ ln * 2 ^ (k0 + 1)) by (rewrite <- !Z.pow_add_r by lia; apply Z.pow_le_mono_r; unfold k0; lia).
    unfold Z.succ in D2. pose proof (Z.pow_pos_nonneg 2 (k0 + 1) ltac:(lia) ltac:(lia)). assert (0 < 2 ^ 52) by lia. nia.
  - assert (2 ^ 52 * 2 ^ (ld + 1) * 2 ^ (- (k0 + 1)) <= 2 ^ ln) by (rewrite <- !Z.pow_add_r by lia; apply Z.pow_le_mono_r; unfold k0; lia).
    unfold Z.succ in D2. pose proof (Z.pow_pos_nonneg 2 (- (k0 + 1)) ltac:(lia) ltac:(lia)) as Q. assert (0 < 2 ^ 52) by lia.
    set (p := 2 ^ (- (k0 + 1))) in *. set (d2 := 2 ^ (ld + 1)) in *. assert (den * p <= d2 * p) by nia. nia.
Qed.

Lemma round53_err : forall num den K, 0 < num -> 0 < den -> 0 <= K -> 0 <= snd (round53 num den) + K ->
  0 < fst (round53 num den) /\
  2 ^ 53 * Z.abs (fst (round53 num den) * 2 ^ (snd (round53 num den) + K) * den - num * 2 ^ K) <= num * 2 ^ K.
Proof.
  intros num den K Hn Hd HK. pose proof (scaled_big num den Hn Hd) as SB. cbn zeta in SB. unfold round53.
  set (k0 := 52 - (Z.log2 num - Z.log2 den)) in *. destruct (scale num den k0) as [a0 b0]. cbn [fst snd] in SB.
  set (k := if a0 <? 2 ^ 52 * b0 then k0 + 1 else k0) in *. pose proof (scale_pos num den k Hn Hd) as [P1 P2].
  destruct (scale num den k) as [a b] eqn:Sc. cbn [fst snd] in *. intros HE. pose proof (nearest_err a b ltac:(lia) P2) as [E F].
  set (q := nearest a b) in *. split.
  - assert (2 ^ 52 <= a / b) by (apply Z.div_le_lower_bound; lia). lia.
  - assert (G : 2 ^ 53 * Z.abs (q * b - a) <= a) by (change (2 ^ 53) with (2 * 2 ^ 52); lia).
    unfold scale in Sc. destruct (Z.leb_spec 0 k); injection Sc as <- <-.
    + pose proof (Z.pow_pos_nonneg 2 (- k + K) ltac:(lia) ltac:(lia)). replace (2 ^ K) with (2 ^ k * 2 ^ (- k + K)) by (rewrite <- Z.pow_add_r by lia; f_equal; lia).
      set (w := 2 ^ (- k + K)) in *. replace (q * w * den - num * (2 ^ k * w)) with ((q * den - num * 2 ^ k) * w) by ring. rewrite Z.abs_mul, (Z.abs_eq w) by lia. nia.
    + pose proof (Z.pow_pos_nonneg 2 K ltac:(lia) ltac:(lia)). rewrite Z.pow_add_r by lia. set (w := 2 ^ K) in *. set (v := 2 ^ (- k)) in *.
      replace (q * (v * w) * den - num * w) with ((q * (den * v) - num) * w) by ring. rewrite Z.abs_mul, (Z.abs_eq w) by lia. nia.
Qed.

Lemma round53_two : forall num den K, 0 < num -> 0 < den -> 0 <= K -> 0 <= snd (round53 num den) + K ->
  0 < fst (round53 num den) /\
  let x := fst (round53 num den) * 2 ^ (snd (round53 num den) + K) * den in
  0 < x /\ 2 ^ 53 * x <= (2 ^ 53 + 1) * (num * 2 ^ K) /\ (2 ^ 53 - 1) * (num * 2 ^ K) <= 2 ^ 53 * x.
Proof.
  intros num den K Hn Hd HK HE. destruct (round53_err num den K Hn Hd HK HE) as [P E]. split; [exact P|]. cbn zeta.
  pose proof (Z.pow_pos_nonneg 2 (snd (round53 num den) + K) ltac:(lia) ltac:(lia)). split; [apply Z.mul_pos_pos; [apply Z.mul_pos_pos|]; assumption|].
  set (x := fst (round53 num den) * 2 ^ (snd (round53 num den) + K) * den) in *. set (y := num * 2 ^ K) in *. lia.
Qed.

Lemma mul3_le : forall a b c x y z, 0 <= a <= x -> 0 <= b <= y -> 0 <= c <= z -> a * b * c <= x * y * z.
Proof. intros. assert (a * b <= x * y) by (apply Z.mul_le_mono_nonneg; lia). apply Z.mul_le_mono_nonneg; try lia; try (apply Z.mul_nonneg_nonneg; lia). Qed.

Lemma trunc_scaled : forall q E K, 0 < q -> 0 <= K -> 0 <= K + E ->
  truncd (q, E) * 2 ^ K <= q * 2 ^ (K + E) < (truncd (q, E) + 1) * 2 ^ K /\ 0 <= truncd (q, E).
Proof.
  intros q E K Hq HK HE. unfold truncd. pose proof (Z.pow_pos_nonneg 2 K ltac:(lia) ltac:(lia)) as Hw. destruct (Z.leb_spec 0 E).
  - rewrite Z.pow_add_r by lia. pose proof (Z.pow_pos_nonneg 2 E ltac:(lia) ltac:(lia)). set (w := 2 ^ K) in *. set (v := 2 ^ E) in *. clearbody w v.
    split; [nia|]. apply Z.mul_nonneg_nonneg; lia.
  - replace (2 ^ K) with (2 ^ (K + E) * 2 ^ (- E)) by (rewrite <- Z.pow_add_r by lia; f_equal; lia). pose proof (Z.pow_pos_nonneg 2 (- E) ltac:(lia) ltac:(lia)) as Q.
    pose proof (Z.pow_pos_nonneg 2 (K + E) ltac:(lia) ltac:(lia)) as Q2.
    pose proof (Z.mul_div_le q (2 ^ (- E)) Q). pose proof (Z.mul_succ_div_gt q (2 ^ (- E)) Q). assert (0 <= q / 2 ^ (- E)) by (apply Z.div_pos; lia).
    set (t := q / 2 ^ (- E)) in *. set (z := 2 ^ (- E)) in *. set (p := 2 ^ (K + E)) in *. clearbody t z p. split; [split; nia|assumption].
Qed.

Lemma emulator_period_accuracy : forall r s, 0 < r -> 0 < s ->
  2 ^ 51 * (emulator_period r s * r) <= (2 ^ 51 + 1) * (1000000 * s) /\
  (2 ^ 51 - 1) * (1000000 * s) < 2 ^ 51 * ((emulator_period r s + 1) * r) /\ 0 <= emulator_period r s.
Proof.
  intros r s Hr Hs. unfold emulator_period, period_of, divd, muld. cbn [fst snd].
  destruct (round53 r s) as [q1 e1] eqn:R1. cbn [fst snd]. destruct (round53 1000 q1) as [q2 e2] eqn:R2. cbn [fst snd].
  destruct (round53 (q2 * 1000) 1) as [q3 e3] eqn:R3.
  set (K := Z.abs e1 + Z.abs e2 + Z.abs e3).
  destruct (round53_two r s K Hr Hs ltac:(lia) ltac:(rewrite R1; cbn [snd]; lia)) as (P1 & X1 & A1 & B1). rewrite R1 in *. cbn [fst snd] in *.
  destruct (round53_two 1000 q1 K ltac:(lia) P1 ltac:(lia) ltac:(rewrite R2; cbn [snd]; lia)) as (P2 & X2 & A2 & B2). rewrite R2 in *. cbn [fst snd] in *.
  destruct (round53_two (q2 * 1000) 1 K ltac:(lia) ltac:(lia) ltac:(lia) ltac:(rewrite R3; cbn [snd]; lia)) as (P3 & X3 & A3 & B3). rewrite R3 in *. cbn [fst snd] in *.
  replace (e3 + (e2 + 0 - (e1 + 0 - 0)) + 0) with (e3 + e2 - e1) by lia. set (E := e3 + e2 - e1).
  pose proof (Z.pow_pos_nonneg 2 K ltac:(lia) ltac:(lia)) as HK. set (w := 2 ^ K) in *.
  pose proof (Z.pow_pos_nonneg 2 (e1 + K) ltac:(lia) ltac:(lia)) as H1. pose proof (Z.pow_pos_nonneg 2 (e2 + K) ltac:(lia) ltac:(lia)) as H2.
  pose proof (Z.pow_pos_nonneg 2 (e3 + K) ltac:(lia) ltac:(lia)) as H3.
  assert (HE : 0 <= K + E) by lia. pose proof (Z.pow_pos_nonneg 2 (K + E) ltac:(lia) HE) as HP.
  assert (T : 2 ^ (e3 + K) * 2 ^ (e2 + K) * w = 2 ^ (K + E) * (w * 2 ^ (e1 + K))).
  { unfold w. rewrite <- !Z.pow_add_r by lia. f_equal. unfold E. lia. }
  assert (HK0 : 0 <= K) by lia. destruct (trunc_scaled q3 E K P3 HK0 HE) as [[F1 F2] F3]. fold w in F1, F2.
  set (p1 := 2 ^ (e1 + K)) in *. set (p2 := 2 ^ (e2 + K)) in *. set (p3 := 2 ^ (e3 + K)) in *. set (pE := 2 ^ (K + E)) in *. set (u := 2 ^ 53) in *.
  assert (Hu : u = 9007199254740992) by reflexivity. clearbody p1 p2 p3 pE u.
  assert (N1 : 0 < r * w) by (apply Z.mul_pos_pos; assumption). assert (N2 : 0 < q2 * 1000 * w) by (apply Z.mul_pos_pos; [apply Z.mul_pos_pos; [assumption|reflexivity]|assumption]).
  assert (N3 : 0 < 1000 * w) by (apply Z.mul_pos_pos; [reflexivity|assumption]).
  assert (U1 : 0 <= u - 1) by (rewrite Hu; discriminate). assert (U0 : 0 <= u) by (rewrite Hu; discriminate). assert (U2 : 0 <= u + 1) by (rewrite Hu; discriminate).
  assert (U : u * u * (u - 1) * (q3 * pE * r) <= (u + 1) * (u + 1) * u * (1000000 * s * w)).
  { assert (M : (u * (q3 * p3 * 1)) * (u * (q2 * p2 * q1)) * ((u - 1) * (r * w)) <= ((u + 1) * (q2 * 1000 * w)) * ((u + 1) * (1000 * w)) * (u * (q1 * p1 * s)))
      by (apply mul3_le; split; try assumption; apply Z.mul_nonneg_nonneg; try assumption; apply Z.lt_le_incl; assumption).
    assert (C : 0 < q1 * q2 * (w * p1)) by (apply Z.mul_pos_pos; apply Z.mul_pos_pos; assumption). apply (Zmult_le_reg_r _ _ _ (Z.lt_gt _ _ C)).
    replace (u * u * (u - 1) * (q3 * pE * r) * (q1 * q2 * (w * p1))) with (u * u * (u - 1) * (q3 * q2 * q1 * r) * (pE * (w * p1))) by ring. rewrite <- T.
    replace (u * u * (u - 1) * (q3 * q2 * q1 * r) * (p3 * p2 * w)) with (u * (q3 * p3 * 1) * (u * (q2 * p2 * q1)) * ((u - 1) * (r * w))) by ring.
    replace ((u + 1) * (u + 1) * u * (1000000 * s * w) * (q1 * q2 * (w * p1))) with ((u + 1) * (q2 * 1000 * w) * ((u + 1) * (1000 * w)) * (u * (q1 * p1 * s))) by ring. exact M. }
  assert (V : (u - 1) * (u - 1) * u * (1000000 * s * w) <= u * u * (u + 1) * (q3 * pE * r)).
  { assert (M : ((u - 1) * (q2 * 1000 * w)) * ((u - 1) * (1000 * w)) * (u * (q1 * p1 * s)) <= (u * (q3 * p3 * 1)) * (u * (q2 * p2 * q1)) * ((u + 1) * (r * w)))
      by (apply mul3_le; split; try assumption; apply Z.mul_nonneg_nonneg; try assumption; apply Z.lt_le_incl; assumption).
    assert (C : 0 < q1 * q2 * (w * p1)) by (apply Z.mul_pos_pos; apply Z.mul_pos_pos; assumption). apply (Zmult_le_reg_r _ _ _ (Z.lt_gt _ _ C)).
    replace (u * u * (u + 1) * (q3 * pE * r) * (q1 * q2 * (w * p1))) with (u * u * (u + 1) * (q3 * q2 * q1 * r) * (pE * (w * p1))) by ring. rewrite <- T.
    replace (u * u * (u + 1) * (q3 * q2 * q1 * r) * (p3 * p2 * w)) with (u * (q3 * p3 * 1) * (u * (q2 * p2 * q1)) * ((u + 1) * (r * w))) by ring.
    replace ((u - 1) * (u - 1) * u * (1000000 * s * w) * (q1 * q2 * (w * p1))) with ((u - 1) * (q2 * 1000 * w) * ((u - 1) * (1000 * w)) * (u * (q1 * p1 * s))) by ring. exact M. }
  set (P := truncd (q3, E)) in *. clearbody P w E. clear A1 A2 A3 B1 B2 B3 T.
  assert (Y0 : 0 < 1000000 * s * w) by (apply Z.mul_pos_pos; [apply Z.mul_pos_pos; [reflexivity|assumption]|assumption]). set (Yw := 1000000 * s * w) in *.
  assert (G1 : P * w * r <= q3 * pE * r) by (apply Z.mul_le_mono_nonneg_r; lia). assert (G2 : q3 * pE * r < (P + 1) * w * r) by (apply Z.mul_lt_mono_pos_r; lia).
  assert (G0 : 0 <= P * w * r) by (apply Z.mul_nonneg_nonneg; [apply Z.mul_nonneg_nonneg|]; lia). set (A := q3 * pE * r) in *. clearbody A.
  rewrite Hu in U, V. change (2 ^ 51) with 2251799813685248. split; [|split; [|exact F3]].
  - apply (Zmult_le_reg_r _ _ w ltac:(lia)). replace (2251799813685248 * (P * r) * w) with (2251799813685248 * (P * w * r)) by ring.
    replace ((2251799813685248 + 1) * (1000000 * s) * w) with (2251799813685249 * Yw) by (unfold Yw; ring). clearbody Yw. set (Pr := P * w * r) in *. clearbody Pr. lia.
  - apply (Zmult_lt_reg_r _ _ w ltac:(lia)). replace (2251799813685248 * ((P + 1) * r) * w) with (2251799813685248 * ((P + 1) * w * r)) by ring.
    replace ((2251799813685248 - 1) * (1000000 * s) * w) with (2251799813685247 * Yw) by (unfold Yw; ring). clearbody Yw. set (Pr := (P + 1) * w * r) in *. clearbody Pr. lia.
Qed.
