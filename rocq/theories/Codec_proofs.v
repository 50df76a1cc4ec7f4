From Coq Require Import ZArith List Bool Lia ZifyBool.
From Verif Require Import Base_model Bytes_model Bytes_proofs Codec_model Codec_spec.
Import ListNotations.
Open Scope Z_scope.

Lemma land_field x a n : 0 <= a -> 0 <= n -> Z.land x (Z.shiftl (Z.ones n) a) = Z.shiftl (Z.land (Z.shiftr x a) (Z.ones n)) a.
Proof.
  intros Ha Hn. apply Z.bits_inj'. intros k Hk. rewrite Z.land_spec.
  destruct (Z.lt_ge_cases k a).
  - rewrite !Z.shiftl_spec_low by assumption. apply andb_false_r.
  - rewrite !Z.shiftl_spec by assumption. rewrite Z.land_spec, Z.shiftr_spec by lia.
    replace (k - a + a) with k by ring. reflexivity.
Qed.

Lemma land16 x : Z.land x 65535 = x mod 65536.
Proof. change 65535 with (Z.ones 16). now rewrite Z.land_ones by lia. Qed.
Lemma land_hi x : Z.land x 4294901760 = (x / 65536 mod 65536) * 65536.
Proof.
  change 4294901760 with (Z.shiftl (Z.ones 16) 16). rewrite land_field by lia.
  rewrite Z.shiftl_mul_pow2, Z.land_ones, Z.shiftr_div_pow2 by lia. reflexivity.
Qed.
Lemma land_mid x : Z.land x 281470681743360 = (x / 4294967296 mod 65536) * 4294967296.
Proof.
  change 281470681743360 with (Z.shiftl (Z.ones 16) 32). rewrite land_field by lia.
  rewrite Z.shiftl_mul_pow2, Z.land_ones, Z.shiftr_div_pow2 by lia. reflexivity.
Qed.

Ltac arith := unfold u64, u32, two64, two32 in *; Z.div_mod_to_equations; lia.

Lemma raw_encode_eq ts : 0 <= ts < two64 ->
  raw_encode ts = ((ts mod 65536) * 65536 + ts / 65536 mod 65536, (ts / 4294967296 mod 65536) * 65536 + ts / 281474976710656).
Proof.
  intros H. unfold raw_encode. rewrite !land16, land_hi, land_mid.
  rewrite !Z.shiftl_mul_pow2, !Z.shiftr_div_pow2 by lia.
  change (2 ^ 16) with 65536. change (2 ^ 48) with 281474976710656.
  f_equal; unfold u32, two32, two64 in *.
  - rewrite Z.div_mul by lia. rewrite (Z.mod_small (ts mod 65536 * 65536)); [|Z.div_mod_to_equations; lia].
    apply Z.mod_small. Z.div_mod_to_equations; lia.
  - replace (ts / 4294967296 mod 65536 * 4294967296) with (ts / 4294967296 mod 65536 * 65536 * 65536) by ring.
    rewrite Z.div_mul by lia. rewrite (Z.mod_small (ts / 4294967296 mod 65536 * 65536)); [|Z.div_mod_to_equations; lia].
    rewrite (Z.mod_small (ts / 281474976710656)) by (Z.div_mod_to_equations; lia).
    apply Z.mod_small. Z.div_mod_to_equations; lia.
Qed.

Lemma raw_decode_eq w1 w2 : 0 <= w1 < two32 -> 0 <= w2 < two32 ->
  raw_decode w1 w2 = w1 / 65536 + (w1 mod 65536) * 65536 + (w2 / 65536) * 4294967296 + (w2 mod 65536) * 281474976710656.
Proof.
  intros H1 H2. unfold raw_decode. rewrite !land16, !land_hi.
  rewrite !Z.shiftl_mul_pow2, !Z.shiftr_div_pow2 by lia.
  change (2 ^ 16) with 65536. change (2 ^ 48) with 281474976710656. rewrite Z.div_mul by lia.
  unfold two32 in *. rewrite !(Z.mod_small (_ / 65536) 65536) by (Z.div_mod_to_equations; lia).
  set (a := w1 / 65536). set (b := w1 mod 65536). set (c := w2 / 65536). set (d := w2 mod 65536).
  assert (Ha : 0 <= a < 65536) by (subst a; Z.div_mod_to_equations; lia).
  assert (Hb : 0 <= b < 65536) by (subst b; Z.div_mod_to_equations; lia).
  assert (Hc : 0 <= c < 65536) by (subst c; Z.div_mod_to_equations; lia).
  assert (Hd : 0 <= d < 65536) by (subst d; Z.div_mod_to_equations; lia).
  unfold u64, two64. rewrite (Z.mod_small (a + b * 65536)) by lia. rewrite (Z.mod_small (a + _ + _)) by lia.
  rewrite Z.mod_small by lia. lia.
Qed.

Lemma raw_words ts : 0 <= ts < two64 -> let '(w1, w2) := raw_encode ts in
  0 <= w1 < two32 /\ 0 <= w2 < two32 /\ raw_decode w1 w2 = ts.
Proof.
  intros H. rewrite raw_encode_eq by assumption.
  assert (B1 : 0 <= (ts mod 65536) * 65536 + ts / 65536 mod 65536 < two32) by (unfold two32, two64 in *; Z.div_mod_to_equations; lia).
  assert (B2 : 0 <= (ts / 4294967296 mod 65536) * 65536 + ts / 281474976710656 < two32) by (unfold two32, two64 in *; Z.div_mod_to_equations; lia).
  split; [exact B1|split; [exact B2|]]. rewrite raw_decode_eq by assumption. clear B1 B2.
  unfold two32, two64 in *.
  set (a := ts mod 65536). set (b := ts / 65536 mod 65536). set (c := ts / 4294967296 mod 65536). set (d := ts / 281474976710656).
  assert (Ha : 0 <= a < 65536) by (subst a; Z.div_mod_to_equations; lia).
  assert (Hb : 0 <= b < 65536) by (subst b; Z.div_mod_to_equations; lia).
  assert (Hc : 0 <= c < 65536) by (subst c; Z.div_mod_to_equations; lia).
  assert (Hd : 0 <= d < 65536) by (subst d; Z.div_mod_to_equations; lia).
  assert (Ht : ts = a + b * 65536 + c * 4294967296 + d * 281474976710656) by (subst a b c d; Z.div_mod_to_equations; lia).
  rewrite !Z.div_add_l, !Z.div_small by lia. rewrite !(Z.add_comm (_ * 65536)), !Z_mod_plus_full, !Z.mod_small by lia. lia.
Qed.

Lemma words_raw w1 w2 : 0 <= w1 < two32 -> 0 <= w2 < two32 -> raw_encode (raw_decode w1 w2) = (w1, w2).
Proof.
  intros H1 H2. rewrite raw_decode_eq by assumption. unfold two32 in *.
  set (a := w1 / 65536). set (b := w1 mod 65536). set (c := w2 / 65536). set (d := w2 mod 65536).
  assert (Ha : 0 <= a < 65536) by (subst a; Z.div_mod_to_equations; lia).
  assert (Hb : 0 <= b < 65536) by (subst b; Z.div_mod_to_equations; lia).
  assert (Hc : 0 <= c < 65536) by (subst c; Z.div_mod_to_equations; lia).
  assert (Hd : 0 <= d < 65536) by (subst d; Z.div_mod_to_equations; lia).
  assert (E1 : w1 = a * 65536 + b) by (subst a b; Z.div_mod_to_equations; lia).
  assert (E2 : w2 = c * 65536 + d) by (subst c d; Z.div_mod_to_equations; lia).
  rewrite raw_encode_eq by (unfold two64; lia). rewrite E1, E2. f_equal; Z.div_mod_to_equations; lia.
Qed.

Lemma pow4 : 256 ^ Z.of_nat 4 = two32. Proof. reflexivity. Qed.
Lemma pow2 : 256 ^ Z.of_nat 2 = 65536. Proof. reflexivity. Qed.

Lemma wr_total off bs m : (off + length bs <= length m)%nat -> exists m', wr off bs m = Ok m' /\ length m' = length m /\
  (forall i, ~ within off (length bs) i -> nth_error m' i = nth_error m i).
Proof.
  intros H. pose proof (wr_ok _ _ _ H) as W. exists (firstn off m ++ bs ++ skipn (off + length bs) m). split; [exact W|].
  split; [now apply wr_length in W|]. intros i Hi. rewrite (nth_wr _ _ _ _ _ W). unfold within in Hi.
  destruct (Nat.leb_spec off i); cbn [andb]; auto. destruct (Nat.ltb_spec i (off + length bs)); auto. lia.
Qed.

Lemma c32_raw m ts : (12 <= length m)%nat -> 0 <= ts < two64 ->
  exists m', raw_set ts m = Ok m' /\ raw_get m' = Ok ts /\ changes_only (within 4 8) m m'.
Proof.
  intros Hl Ht. unfold raw_set. pose proof (raw_words ts Ht) as R. destruct (raw_encode ts) as [w1 w2]. destruct R as (R1 & R2 & R3).
  destruct (wr_total 4 (le 4 w1) m) as (m1 & W1 & L1 & N1); [rewrite le_length; lia|].
  destruct (wr_total 8 (le 4 w2) m1) as (m2 & W2 & L2 & N2); [rewrite le_length; lia|].
  rewrite W1. cbn [bind]. rewrite W2. exists m2. split; [reflexivity|]. split; [|split; [lia|]].
  - unfold raw_get. rewrite (rd_wr_other _ _ _ _ 4 4 W2) by lia.
    pose proof (rd_wr_same _ _ _ _ W1) as S1. pose proof (rd_wr_same _ _ _ _ W2) as S2. rewrite le_length in S1, S2.
    rewrite S1, S2. cbn [bind]. rewrite !unle_le, pow4, !Z.mod_small by assumption. now rewrite R3.
  - intros i Hi. rewrite le_length in N1, N2. unfold within in *. rewrite N2, N1; auto; lia.
Qed.

Lemma nth_bytes m off n bs : bytes m -> rd off n m = Ok bs -> Forall is_byte bs /\ length bs = n.
Proof.
  intros Hm H. destruct (rd_nth _ _ _ _ H) as [L N]. split; auto. apply Forall_forall. intros b Hb.
  apply In_nth_error in Hb as [i Hi]. assert (i < n)%nat by (rewrite <- L; apply nth_error_Some; congruence).
  rewrite N in Hi by assumption. unfold bytes in Hm. rewrite Forall_forall in Hm. apply Hm. now apply nth_error_In in Hi.
Qed.

Lemma wr_id off n m bs : rd off n m = Ok bs -> wr off bs m = Ok m.
Proof.
  intros H. destruct (rd_nth _ _ _ _ H) as [L N].
  assert (B : (off + n <= length m)%nat) by (unfold rd in H; destruct (Nat.leb_spec (off + n) (length m)); [lia|discriminate]).
  pose proof (wr_ok off bs m ltac:(lia)) as W. rewrite W. f_equal. apply list_ext.
  - now apply wr_length in W.
  - intros i Hi. rewrite (nth_wr _ _ _ _ _ W). destruct (Nat.leb_spec off i); cbn [andb]; auto.
    destruct (Nat.ltb_spec i (off + length bs)); auto. rewrite N by lia. f_equal. lia.
Qed.

Lemma c32_raw_unique m ts : bytes m -> raw_get m = Ok ts -> 0 <= ts < two64 /\ raw_set ts m = Ok m.
Proof.
  intros Hm H. unfold raw_get in H. destruct (rd 4 4 m) as [b1|] eqn:E1; [|discriminate]. cbn [bind] in H.
  destruct (rd 8 4 m) as [b2|] eqn:E2; [|discriminate]. cbn [bind] in H. injection H as <-.
  destruct (nth_bytes _ _ _ _ Hm E1) as [F1 L1]. destruct (nth_bytes _ _ _ _ Hm E2) as [F2 L2].
  pose proof (unle_bound _ F1) as U1. pose proof (unle_bound _ F2) as U2. rewrite L1, pow4 in U1. rewrite L2, pow4 in U2.
  split.
  - unfold raw_decode, u64. apply Z.mod_pos_bound. reflexivity.
  - unfold raw_set. rewrite words_raw by assumption.
    pose proof (le_unle _ F1) as V1. pose proof (le_unle _ F2) as V2. rewrite L1 in V1. rewrite L2 in V2.
    rewrite V1, V2. rewrite (wr_id _ _ _ _ E1). cbn [bind]. now apply wr_id in E2.
Qed.

(** WIB2 / DAPHNE fields. *)
Lemma split_set_ok p1 p2 off m ts : (off + p1 + 4 <= length m)%nat -> (off + p2 + 4 <= length m)%nat ->
  (p1 + 4 <= p2 \/ p2 + 4 <= p1)%nat -> 0 <= ts < two64 ->
  exists m', split_set p1 p2 off ts m = Ok m' /\ split_get p1 p2 off m' = Ok ts /\
             changes_only (fun i => within (off + p1) 4 i \/ within (off + p2) 4 i) m m'.
Proof.
  intros H1 H2 D Ht. unfold split_set.
  destruct (wr_total (off + p1) (le 4 ts) m) as (m1 & W1 & L1 & N1); [rewrite le_length; lia|].
  destruct (wr_total (off + p2) (le 4 (Z.shiftr ts 32)) m1) as (m2 & W2 & L2 & N2); [rewrite le_length; lia|].
  rewrite W1. cbn [bind]. rewrite W2. exists m2. split; [reflexivity|]. split; [|split; [lia|]].
  - unfold split_get. rewrite (rd_wr_other _ _ _ _ (off + p1) 4 W2) by (rewrite le_length; lia).
    pose proof (rd_wr_same _ _ _ _ W1) as S1. pose proof (rd_wr_same _ _ _ _ W2) as S2. rewrite le_length in S1, S2.
    rewrite S1, S2. cbn [bind]. f_equal. rewrite !unle_le, pow4. rewrite Z.shiftl_mul_pow2, Z.shiftr_div_pow2 by lia.
    change (2 ^ 32) with two32. unfold two32, two64 in *. Z.div_mod_to_equations; lia.
  - intros i Hi. rewrite le_length in N1, N2. rewrite N2, N1; auto.
Qed.

Lemma split_get_other p1 p2 off m m' : (forall i, (within (off + p1) 4 i \/ within (off + p2) 4 i) -> nth_error m' i = nth_error m i) ->
  length m' = length m -> split_get p1 p2 off m' = split_get p1 p2 off m.
Proof.
  intros H L.
  assert (R : forall o, (forall i, within o 4 i -> nth_error m' i = nth_error m i) -> rd o 4 m' = rd o 4 m).
  { intros o Ho. unfold within in Ho. destruct (Nat.le_gt_cases (o + 4) (length m)) as [Hle|Hgt]; [|rewrite !rd_crash by lia; reflexivity].
    pose proof (rd_ok o 4 m' ltac:(lia)) as R'. pose proof (rd_ok o 4 m ltac:(lia)) as R. rewrite R', R. f_equal.
    destruct (rd_nth _ _ _ _ R') as [A1 A2]. destruct (rd_nth _ _ _ _ R) as [B1 B2].
    apply list_ext; [congruence|]. rewrite A1. intros i Hi. rewrite A2, B2 by assumption. apply Ho. lia. }
  unfold split_get. rewrite (R (off + p1)%nat), (R (off + p2)%nat); auto.
Qed.

Lemma fake_loop_ok p1 p2 stride k : fields_ok p1 p2 stride -> forall i ts offset m, ((i + k) * stride <= length m)%nat ->
  0 <= ts < two64 ->
  exists m', fake_loop p1 p2 stride k i ts offset m = Ok m' /\
    (forall j, (i <= j < i + k)%nat -> split_get p1 p2 (j * stride) m' = Ok ((ts + Z.of_nat (j - i) * offset) mod two64)) /\
    changes_only (fun x => exists j, (i <= j < i + k)%nat /\ (within (j * stride + p1) 4 x \/ within (j * stride + p2) 4 x)) m m'.
Proof.
  intros (F1 & F2 & F3). induction k as [|k IH]; intros i ts offset m Hl Ht; cbn [fake_loop].
  - exists m. split; [reflexivity|]. split; [intros j Hj; lia|]. split; auto.
  - assert (Hi : (i * stride + stride <= length m)%nat) by nia.
    destruct (split_set_ok p1 p2 (i * stride) m ts) as (m1 & S1 & G1 & L1 & N1); [lia|lia|assumption|assumption|].
    rewrite S1. cbn [bind].
    destruct (IH (S i) (u64 (ts + offset)) offset m1) as (m2 & S2 & G2 & L2 & N2).
    { rewrite L1. nia. }
    { apply Z.mod_pos_bound. reflexivity. }
    exists m2. split; [exact S2|]. split; [|split; [lia|]].
    + intros j Hj. destruct (Nat.eq_dec j i) as [->|Hne].
      * rewrite (split_get_other _ _ _ m1 m2).
        -- rewrite G1. f_equal. rewrite Nat.sub_diag. cbn [Z.of_nat]. rewrite Z.mul_0_l, Z.add_0_r. symmetry. now apply Z.mod_small.
        -- intros x Hx. apply N2. intros (j & Hj1 & Hj2). unfold within in *. nia.
        -- assumption.
      * rewrite G2 by lia. f_equal. unfold u64. rewrite Zplus_mod_idemp_l. f_equal.
        replace (Z.of_nat (j - i)) with (Z.of_nat (j - S i) + 1) by lia. ring.
    + intros x Hx. rewrite N2, N1; auto.
      * intros Hw. apply Hx. exists i. split; [lia|exact Hw].
      * intros (j & Hj1 & Hj2). apply Hx. exists j. split; [lia|exact Hj2].
Qed.

(** SSP. *)
Lemma ssp_set_eq o ts m : (o + 8 <= length m)%nat -> 0 <= ts < two64 ->
  exists m', ssp_set o ts m = Ok m' /\ changes_only (within o 8) m m' /\
    (forall i, (i < 4)%nat -> rd (o + 2 * i) 2 m' = Ok (le 2 (ts / 65536 ^ Z.of_nat i))).
Proof.
  intros H Ht. unfold ssp_set. cbn [ssp_set_loop]. rewrite !land16, !Z.shiftr_div_pow2 by lia. change (2 ^ 16) with 65536.
  destruct (wr_total (o + 2 * 0) (le 2 (ts mod 65536)) m) as (m1 & W1 & L1 & N1); [rewrite le_length; lia|]. rewrite W1. cbn [bind].
  destruct (wr_total (o + 2 * 1) (le 2 ((ts / 65536) mod 65536)) m1) as (m2 & W2 & L2 & N2); [rewrite le_length; lia|]. rewrite W2. cbn [bind].
  destruct (wr_total (o + 2 * 2) (le 2 ((ts / 65536 / 65536) mod 65536)) m2) as (m3 & W3 & L3 & N3); [rewrite le_length; lia|]. rewrite W3. cbn [bind].
  destruct (wr_total (o + 2 * 3) (le 2 ((ts / 65536 / 65536 / 65536) mod 65536)) m3) as (m4 & W4 & L4 & N4); [rewrite le_length; lia|]. rewrite W4. cbn [bind].
  rewrite le_length in *. exists m4. split; [reflexivity|]. split; [split; [lia|]|].
  - intros i Hi. unfold within in *. rewrite N4, N3, N2, N1; auto; lia.
  - pose proof (rd_wr_same _ _ _ _ W1) as S1. pose proof (rd_wr_same _ _ _ _ W2) as S2.
    pose proof (rd_wr_same _ _ _ _ W3) as S3. pose proof (rd_wr_same _ _ _ _ W4) as S4.
    rewrite le_length in *.
    intros i Hi. rewrite <- (le_mod 2 (ts / 65536 ^ Z.of_nat i)), pow2.
    destruct i as [|[|[|[|i]]]]; [| | | |lia].
    + rewrite (rd_wr_other _ _ _ _ _ _ W4), (rd_wr_other _ _ _ _ _ _ W3), (rd_wr_other _ _ _ _ _ _ W2) by (rewrite ?le_length; lia).
      rewrite S1. now rewrite Z.div_1_r.
    + rewrite (rd_wr_other _ _ _ _ _ _ W4), (rd_wr_other _ _ _ _ _ _ W3) by (rewrite ?le_length; lia). exact S2.
    + rewrite (rd_wr_other _ _ _ _ _ _ W4) by (rewrite ?le_length; lia). rewrite S3. rewrite !Z.div_div by lia. reflexivity.
    + rewrite S4. rewrite !Z.div_div by lia. reflexivity.
Qed.

Lemma c32_ssp o ts m : (o + 8 <= length m)%nat -> 0 <= ts < two64 ->
  exists m', ssp_set o ts m = Ok m' /\ ssp_get o m' = Ok ts /\ changes_only (within o 8) m m'.
Proof.
  intros H Ht. destruct (ssp_set_eq o ts m H Ht) as (m' & S & C & R). exists m'. split; [exact S|]. split; [|exact C].
  unfold ssp_get. cbn [ssp_get_loop]. rewrite !R by lia. cbn [bind]. f_equal. rewrite !unle_le, pow2.
  change (65536 ^ Z.of_nat 0) with 1. change (65536 ^ Z.of_nat 1) with 65536.
  change (65536 ^ Z.of_nat 2) with 4294967296. change (65536 ^ Z.of_nat 3) with 281474976710656.
  rewrite Z.div_1_r, !Z.shiftl_mul_pow2 by lia.
  change (2 ^ (16 * Z.of_nat 0)) with 1. change (2 ^ (16 * Z.of_nat 1)) with 65536.
  change (2 ^ (16 * Z.of_nat 2)) with 4294967296. change (2 ^ (16 * Z.of_nat 3)) with 281474976710656.
  unfold two64 in *.
  set (a := ts mod 65536). set (b := ts / 65536 mod 65536). set (c := ts / 4294967296 mod 65536). set (d := ts / 281474976710656 mod 65536).
  assert (Ha : 0 <= a < 65536) by (subst a; Z.div_mod_to_equations; lia).
  assert (Hb : 0 <= b < 65536) by (subst b; Z.div_mod_to_equations; lia).
  assert (Hc : 0 <= c < 65536) by (subst c; Z.div_mod_to_equations; lia).
  assert (Hd : 0 <= d < 65536) by (subst d; Z.div_mod_to_equations; lia).
  assert (Et : ts = a + b * 65536 + c * 4294967296 + d * 281474976710656) by (subst a b c d; Z.div_mod_to_equations; lia).
  unfold u64, two64. rewrite !(Z.mod_small (_ * _)) by lia. rewrite !Z.add_0_l, Z.mul_1_r.
  rewrite !(Z.mod_small a) by lia. rewrite (Z.mod_small (a + _)) by lia. rewrite (Z.mod_small (a + _ + _)) by lia.
  rewrite Z.mod_small by lia. lia.
Qed.
