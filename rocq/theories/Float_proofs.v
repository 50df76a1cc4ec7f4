From Coq Require Import ZArith List Bool Lia ZifyBool.
From Verif Require Import Base_model Ring_proofs Float_model Cleanup_spec.
Import ListNotations.
Open Scope Z_scope.

Lemma rne_bounds : forall M s, 0 <= s ->
  2 * (rne M s * 2 ^ s - M) <= 2 ^ s /\ - 2 ^ s <= 2 * (rne M s * 2 ^ s - M).
Proof.
  intros M s Hs. unfold rne. destruct (s =? 0) eqn:E.
  - assert (s = 0) by lia. subst. change (2 ^ 0) with 1. lia.
  - assert (2 ^ s = 2 * 2 ^ (s - 1)) as E1.
    { rewrite <- Z.pow_succ_r by lia. f_equal. lia. }
    assert (0 < 2 ^ (s - 1)) by (apply Z.pow_pos_nonneg; lia).
    pose proof (Z.div_mod M (2 ^ s) ltac:(lia)) as Hdm.
    pose proof (Z.mod_pos_bound M (2 ^ s) ltac:(lia)) as Hmb.
    set (q := M / 2 ^ s) in *. set (r := M mod 2 ^ s) in *.
    destruct (r <? 2 ^ (s - 1)) eqn:C1; [|destruct (2 ^ (s - 1) <? r) eqn:C2; [|destruct (Z.even q)]]; nia.
Qed.

Lemma round24_small : forall M, 0 <= M < 2 ^ 24 -> round24 M = (M, 0).
Proof.
  intros M H. unfold round24.
  assert (Z.log2 M <= 23).
  { destruct (Z.eq_dec M 0) as [->|Hn]; [cbn; lia|]. apply Z.lt_succ_r. apply Z.log2_lt_pow2; [lia|].
    change (Z.succ 23) with 24. lia. }
  replace (Z.max 0 (Z.log2 M - 23)) with 0 by lia. reflexivity.
Qed.

(** Rounding to 24 bits moves a value by at most 2^-24 of itself. *)
Lemma round24_error : forall M, 0 <= M ->
  2 ^ 24 * Z.abs (fst (round24 M) * 2 ^ snd (round24 M) - M) <= M.
Proof.
  intros M HM. unfold round24. set (s := Z.max 0 (Z.log2 M - 23)). cbn [fst snd].
  destruct (Z.eq_dec s 0) as [Hs|Hs].
  - rewrite Hs. unfold rne. cbn [Z.eqb]. change (2 ^ 0) with 1. replace (M * 1 - M) with 0 by lia. cbn [Z.abs]. lia.
  - assert (0 < s) as Hs' by lia.
    destruct (rne_bounds M s ltac:(lia)) as [H1 H2].
    assert (0 < M) as HM'.
    { destruct (Z.eq_dec M 0) as [->|]; [cbn in s; lia|lia]. }
    destruct (Z.log2_spec M HM') as [Hl _].
    assert (Z.log2 M = s + 23) as El by lia. rewrite El in Hl.
    rewrite Z.pow_add_r in Hl by lia.
    change (2 ^ 24) with (2 * 2 ^ 23). assert (0 < 2 ^ s) by (apply Z.pow_pos_nonneg; lia).
    assert (0 < 2 ^ 23) by reflexivity. nia.
Qed.

Lemma trunc_le : forall m e X, 0 <= m -> 0 <= X -> e <= 0 -> m <= X * 2 ^ (- e) -> trunc (m, e) <= X.
Proof.
  intros m e X Hm HX He H. unfold trunc. destruct (0 <=? e) eqn:E.
  - assert (e = 0) by lia. subst. change (2 ^ 0) with 1 in *. change (- 0) with 0 in H. change (2 ^ 0) with 1 in H. lia.
  - apply Z.div_le_upper_bound; [apply Z.pow_pos_nonneg; lia|]. lia.
Qed.

Lemma trunc_nonneg : forall m e, 0 <= m -> 0 <= trunc (m, e).
Proof.
  intros m e H. unfold trunc. destruct (0 <=? e) eqn:E.
  - assert (0 < 2 ^ e) by (apply Z.pow_pos_nonneg; lia). nia.
  - apply Z.div_pos; [lia|apply Z.pow_pos_nonneg; lia].
Qed.

Lemma rne_nonneg : forall M s, 0 <= M -> 0 <= s -> 0 <= rne M s.
Proof.
  intros M s HM Hs. unfold rne. destruct (s =? 0); [lia|].
  assert (0 <= M / 2 ^ s) by (apply Z.div_pos; [lia|apply Z.pow_pos_nonneg; lia]).
  destruct (_ <? _); [lia|]. destruct (_ <? _); [lia|]. destruct (Z.even _); lia.
Qed.

Lemma share_raw : forall pct n, proper_share pct -> 0 <= n < 2 ^ 24 ->
  mulf pct (to_float n) = (let (q, s) := round24 (fst pct * n) in (q, s + snd pct)).
Proof.
  intros pct n Hp Hn. unfold mulf, to_float. rewrite (round24_small n Hn). cbn [fst snd].
  destruct (round24 (fst pct * n)) as [q s]. f_equal. lia.
Qed.

(** A multiple of 2^s not below M bounds its rounding. *)
Lemma rne_le_multiple : forall M s K, 0 <= s -> M <= K * 2 ^ s -> rne M s <= K.
Proof.
  intros M s K Hs H. destruct (rne_bounds M s Hs) as [H1 _].
  assert (0 < 2 ^ s) by (apply Z.pow_pos_nonneg; lia).
  destruct (Z_le_gt_dec (rne M s) K); [assumption|].
  unfold rne in *. destruct (s =? 0) eqn:E; [assert (s = 0) by lia; subst; change (2 ^ 0) with 1 in *; lia|].
  assert (2 ^ s = 2 * 2 ^ (s - 1)) as E1 by (rewrite <- Z.pow_succ_r by lia; f_equal; lia).
  pose proof (Z.div_mod M (2 ^ s) ltac:(lia)) as Hdm.
  pose proof (Z.mod_pos_bound M (2 ^ s) ltac:(lia)) as Hmb.
  set (q := M / 2 ^ s) in *. set (r := M mod 2 ^ s) in *.
  assert (0 < 2 ^ (s - 1)) by (apply Z.pow_pos_nonneg; lia).
  destruct (r <? 2 ^ (s - 1)) eqn:C1; [|destruct (2 ^ (s - 1) <? r) eqn:C2; [|destruct (Z.even q)]]; nia.
Qed.

Lemma rne_exact : forall K s, 0 <= s -> rne (K * 2 ^ s) s = K.
Proof.
  intros K s Hs. unfold rne. destruct (s =? 0) eqn:E.
  - assert (s = 0) by lia. subst. change (2 ^ 0) with 1. lia.
  - assert (0 < 2 ^ s) by (apply Z.pow_pos_nonneg; lia).
    rewrite Z.mod_mul, Z.div_mul by lia.
    assert (0 < 2 ^ (s - 1)) by (apply Z.pow_pos_nonneg; lia).
    destruct (0 <? 2 ^ (s - 1)) eqn:E1; [reflexivity|lia].
Qed.

(** Facts about the rounding step of m * n, for m * 2^e <= 1. *)
Lemma round_step : forall m e n, 0 <= m < 2 ^ 24 -> e <= 0 -> m <= 2 ^ (- e) -> 0 <= n < 2 ^ 24 ->
  let s := Z.max 0 (Z.log2 (m * n) - 23) in
  0 <= s <= - e /\ (0 < s -> 2 ^ (s - 1) < n).
Proof.
  intros m e n Hm He Hp Hn s. split.
  - split; [lia|]. destruct (Z.eq_dec s 0) as [E|E]; [lia|].
    assert (0 < m * n) as HM.
    { destruct (Z.eq_dec (m * n) 0) as [E0|E0]; [|nia]. unfold s in E. rewrite E0 in E. cbn in E. lia. }
    destruct (Z.log2_spec (m * n) HM) as [Hl _].
    assert (Z.log2 (m * n) = s + 23) as El by lia. rewrite El in Hl.
    destruct (Z_le_gt_dec s (- e)) as [|Hgt]; [assumption|exfalso].
    assert (2 ^ (- e) <= 2 ^ (s - 1)) by (apply Z.pow_le_mono_r; lia).
    replace (s + 23) with ((s - 1) + 24) in Hl by lia. rewrite Z.pow_add_r in Hl by lia. nia.
  - intros Hs.
    assert (0 < m * n) as HM.
    { destruct (Z.eq_dec (m * n) 0) as [E0|E0]; [|nia]. unfold s in Hs. rewrite E0 in Hs. cbn in Hs. lia. }
    destruct (Z.log2_spec (m * n) HM) as [Hl _].
    assert (Z.log2 (m * n) = s + 23) as El by lia. rewrite El in Hl.
    replace (s + 23) with ((s - 1) + 24) in Hl by lia. rewrite Z.pow_add_r in Hl by lia. nia.
Qed.

Lemma pow_split : forall e s, 0 <= s <= - e -> 2 ^ (- e) = 2 ^ (- e - s) * 2 ^ s.
Proof. intros e s H. rewrite <- Z.pow_add_r by lia. f_equal. lia. Qed.

Lemma share_eq : forall pct n, proper_share pct -> 0 <= n < 2 ^ 24 ->
  let s := Z.max 0 (Z.log2 (fst pct * n) - 23) in
  trunc (mulf pct (to_float n)) = trunc (rne (fst pct * n) s, s + snd pct).
Proof. intros pct n Hp Hn s. rewrite (share_raw pct n Hp Hn). reflexivity. Qed.

Lemma trunc_bound : forall pct n, proper_share pct -> 0 <= n < 2 ^ 24 -> 0 <= trunc (mulf pct (to_float n)) <= n.
Proof.
  intros [m e] n Hp Hn. rewrite (share_eq (m, e) n Hp Hn). destruct Hp as (Hm & He & Hp). cbn [fst snd] in *.
  destruct (round_step m e n Hm He Hp Hn) as [Hs _]. set (s := Z.max 0 (Z.log2 (m * n) - 23)) in *.
  assert (0 <= m * n) by nia.
  split; [apply trunc_nonneg; apply rne_nonneg; lia|].
  apply trunc_le; try lia; [apply rne_nonneg; lia|].
  replace (- (s + e)) with (- e - s) by lia.
  apply rne_le_multiple; [lia|]. pose proof (pow_split e s Hs) as Hps. nia.
Qed.

Lemma share_bound : forall pct n, proper_share pct -> 0 <= n < 2 ^ 24 -> 0 <= share pct n <= n.
Proof.
  intros pct n Hp Hn. pose proof (trunc_bound pct n Hp Hn) as H. unfold share. rewrite u32_small; [exact H|].
  unfold two32. change (2 ^ 24) with 16777216 in Hn. lia.
Qed.

Lemma share_less : forall pct n, proper_share pct -> ~ full_share pct -> 0 < n < 2 ^ 24 -> share pct n < n.
Proof.
  intros pct n Hp Hf Hn. pose proof (trunc_bound pct n Hp ltac:(lia)) as Hb.
  unfold share. rewrite u32_small by (unfold two32; change (2 ^ 24) with 16777216 in Hn; lia).
  rewrite (share_eq pct n Hp ltac:(lia)). destruct pct as [m e]. destruct Hp as (Hm & He & Hp).
  unfold full_share in Hf. cbn [fst snd] in *.
  destruct (round_step m e n Hm He Hp ltac:(lia)) as [Hs Hs1]. set (s := Z.max 0 (Z.log2 (m * n) - 23)) in *.
  assert (0 < 2 ^ (- e - s)) by (apply Z.pow_pos_nonneg; lia).
  assert (0 < 2 ^ s) by (apply Z.pow_pos_nonneg; lia).
  pose proof (pow_split e s Hs) as Hps.
  assert (rne (m * n) s * 2 ^ s < n * 2 ^ (- e - s) * 2 ^ s) as Hlt.
  { destruct (rne_bounds (m * n) s ltac:(lia)) as [H1 _].
    destruct (Z.eq_dec s 0) as [E|E].
    - rewrite E in *. unfold rne. cbn [Z.eqb]. change (2 ^ 0) with 1 in *. nia.
    - assert (2 ^ s = 2 * 2 ^ (s - 1)) as E1 by (rewrite <- Z.pow_succ_r by lia; f_equal; lia).
      specialize (Hs1 ltac:(lia)). nia. }
  assert (rne (m * n) s < n * 2 ^ (- e - s)) as Hq by nia.
  unfold trunc. destruct (0 <=? s + e) eqn:E.
  - assert (s + e = 0) as E0 by lia. rewrite E0. change (2 ^ 0) with 1.
    replace (- e - s) with 0 in Hq by lia. change (2 ^ 0) with 1 in Hq. lia.
  - apply Z.div_lt_upper_bound; [apply Z.pow_pos_nonneg; lia|]. replace (- (s + e)) with (- e - s) by lia. lia.
Qed.

Lemma share_full : forall pct n, proper_share pct -> full_share pct -> 0 <= n < 2 ^ 24 -> share pct n = n.
Proof.
  intros pct n Hp Hf Hn. unfold share.
  rewrite u32_small; [|pose proof (trunc_bound pct n Hp Hn); unfold two32; change (2 ^ 24) with 16777216 in Hn; lia].
  rewrite (share_eq pct n Hp Hn). destruct pct as [m e]. destruct Hp as (Hm & He & Hp).
  unfold full_share in Hf. cbn [fst snd] in *.
  destruct (round_step m e n Hm He Hp Hn) as [Hs _]. set (s := Z.max 0 (Z.log2 (m * n) - 23)) in *.
  assert (0 < 2 ^ (- e - s)) by (apply Z.pow_pos_nonneg; lia).
  pose proof (pow_split e s Hs) as Hps.
  replace (m * n) with (n * 2 ^ (- e - s) * 2 ^ s) by nia. rewrite rne_exact by lia.
  unfold trunc. destruct (0 <=? s + e) eqn:E.
  - assert (s + e = 0) as E0 by lia. rewrite E0. replace (- e - s) with 0 by lia. change (2 ^ 0) with 1. lia.
  - replace (- (s + e)) with (- e - s) by lia. apply Z.div_mul. lia.
Qed.

(** The quota is the exact share up to one part in 2^24 (rounding) and truncation. *)
Lemma share_accuracy : forall pct n, proper_share pct -> 0 <= n < 2 ^ 24 ->
  2 ^ 24 * (share pct n * 2 ^ (- snd pct)) <= (2 ^ 24 + 1) * (fst pct * n) /\
  (2 ^ 24 - 1) * (fst pct * n) < 2 ^ 24 * ((share pct n + 1) * 2 ^ (- snd pct)).
Proof.
  intros pct n Hp Hn. unfold share.
  rewrite u32_small; [|pose proof (trunc_bound pct n Hp Hn); unfold two32; change (2 ^ 24) with 16777216 in Hn; lia].
  rewrite (share_eq pct n Hp Hn). destruct pct as [m e]. destruct Hp as (Hm & He & Hp). cbn [fst snd] in *.
  destruct (round_step m e n Hm He Hp Hn) as [Hs _].
  pose proof (round24_error (m * n) ltac:(nia)) as Herr. unfold round24 in Herr. cbn [fst snd] in Herr.
  set (s := Z.max 0 (Z.log2 (m * n) - 23)) in *. set (q := rne (m * n) s) in *.
  pose proof (pow_split e s Hs) as Hps.
  assert (0 < 2 ^ (- e - s)) by (apply Z.pow_pos_nonneg; lia).
  assert (0 < 2 ^ s) by (apply Z.pow_pos_nonneg; lia).
  assert (trunc (q, s + e) = q / 2 ^ (- e - s)) as ->.
  { unfold trunc. destruct (0 <=? s + e) eqn:E; [|f_equal; f_equal; lia].
    replace (s + e) with 0 by lia. replace (- e - s) with 0 by lia. change (2 ^ 0) with 1. rewrite Z.div_1_r. lia. }
  pose proof (Z.div_mod q (2 ^ (- e - s)) ltac:(lia)) as Hdm.
  pose proof (Z.mod_pos_bound q (2 ^ (- e - s)) ltac:(lia)) as Hmb.
  set (t := q / 2 ^ (- e - s)) in *. rewrite Hps. change (2 ^ 24) with 16777216 in *.
  assert (t * 2 ^ (- e - s) <= q) by nia.
  assert (q < (t + 1) * 2 ^ (- e - s)) by nia.
  assert (t * (2 ^ (- e - s) * 2 ^ s) <= q * 2 ^ s) by nia.
  assert (q * 2 ^ s + 2 ^ s <= (t + 1) * (2 ^ (- e - s) * 2 ^ s)) by nia.
  lia.
Qed.
