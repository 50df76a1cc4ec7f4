From Coq Require Import ZArith List Bool Lia ZifyBool.
From Verif Require Import Base_model Bytes_model.
Import ListNotations.
Open Scope Z_scope.

Definition is_byte (b : Z) : Prop := 0 <= b < 256.

Lemma le_length n z : length (le n z) = n.
Proof. revert z. induction n as [|n IH]; intros z; cbn [le length]; auto. Qed.

Lemma le_bytes n z : Forall is_byte (le n z).
Proof. revert z. induction n as [|n IH]; intros z; cbn [le]; constructor; auto. apply Z.mod_pos_bound. lia. Qed.

Lemma pow256_succ n : 256 ^ Z.of_nat (S n) = 256 * 256 ^ Z.of_nat n.
Proof. rewrite Nat2Z.inj_succ, Z.pow_succ_r; lia. Qed.

Lemma unle_le n z : unle (le n z) = z mod 256 ^ Z.of_nat n.
Proof.
  revert z. induction n as [|n IH]; intros z; cbn [le unle].
  - rewrite Z.mod_1_r. reflexivity.
  - rewrite IH, pow256_succ.
    rewrite Z.rem_mul_r; [reflexivity|lia|]. apply Z.pow_pos_nonneg; lia.
Qed.

Lemma unle_bound bs : Forall is_byte bs -> 0 <= unle bs < 256 ^ Z.of_nat (length bs).
Proof.
  induction 1 as [|b bs H1 H2 IH]; cbn [unle length].
  - cbn. lia.
  - rewrite pow256_succ. unfold is_byte in H1. lia.
Qed.

Lemma le_unle bs : Forall is_byte bs -> le (length bs) (unle bs) = bs.
Proof.
  induction 1 as [|b bs H1 H2 IH]; cbn [unle length le]; auto. unfold is_byte in H1.
  rewrite (Z.mul_comm 256), Z_mod_plus_full, Z.mod_small by lia. f_equal.
  rewrite Z.div_add, Z.div_small by lia. now rewrite Z.add_0_l.
Qed.

Lemma le_mod n z : le n (z mod 256 ^ Z.of_nat n) = le n z.
Proof.
  rewrite <- unle_le, <- (le_length n z) at 1. apply le_unle. apply le_bytes.
Qed.

Lemma rd_ok off n m : (off + n <= length m)%nat -> rd off n m = Ok (firstn n (skipn off m)).
Proof. intros H. unfold rd. destruct (Nat.leb_spec (off + n) (length m)); [auto|lia]. Qed.
Lemma rd_crash off n m : (length m < off + n)%nat -> rd off n m = Crash.
Proof. intros H. unfold rd. destruct (Nat.leb_spec (off + n) (length m)); [lia|auto]. Qed.
Lemma wr_ok off bs m : (off + length bs <= length m)%nat ->
  wr off bs m = Ok (firstn off m ++ bs ++ skipn (off + length bs) m).
Proof. intros H. unfold wr. destruct (Nat.leb_spec (off + length bs) (length m)); [auto|lia]. Qed.
Lemma wr_crash off bs m : (length m < off + length bs)%nat -> wr off bs m = Crash.
Proof. intros H. unfold wr. destruct (Nat.leb_spec (off + length bs) (length m)); [lia|auto]. Qed.

Lemma wr_inv off bs m m' : wr off bs m = Ok m' ->
  (off + length bs <= length m)%nat /\ m' = firstn off m ++ bs ++ skipn (off + length bs) m.
Proof. unfold wr. destruct (Nat.leb_spec (off + length bs) (length m)); [|discriminate]. intros E. injection E as <-. auto. Qed.

Lemma wr_length off bs m m' : wr off bs m = Ok m' -> length m' = length m.
Proof.
  intros H. apply wr_inv in H as [H ->]. rewrite !app_length, firstn_length, skipn_length. lia.
Qed.

(** A write seen byte by byte. *)
Lemma nth_wr off bs m m' i : wr off bs m = Ok m' ->
  nth_error m' i = if (off <=? i)%nat && (i <? off + length bs)%nat then nth_error bs (i - off) else nth_error m i.
Proof.
  intros H. apply wr_inv in H as [H ->].
  assert (Hf : length (firstn off m) = off) by (rewrite firstn_length; lia).
  destruct (Nat.leb_spec off i); cbn [andb].
  - rewrite nth_error_app2 by lia. rewrite Hf. destruct (Nat.ltb_spec i (off + length bs)).
    + rewrite nth_error_app1 by lia. reflexivity.
    + rewrite nth_error_app2 by lia.
      rewrite <- (firstn_skipn (off + length bs) m) at 2. rewrite nth_error_app2; rewrite firstn_length; [|lia].
      f_equal. lia.
  - rewrite nth_error_app1 by lia. rewrite <- (firstn_skipn off m) at 2. rewrite nth_error_app1; [reflexivity|lia].
Qed.

Lemma rd_nth off n m bs : rd off n m = Ok bs -> length bs = n /\ forall i, (i < n)%nat -> nth_error bs i = nth_error m (off + i).
Proof.
  unfold rd. destruct (Nat.leb_spec (off + n) (length m)) as [Hb|]; [|discriminate]. intros E. injection E as <-. split.
  - rewrite firstn_length, skipn_length. lia.
  - intros i Hi.
    assert (Hl : forall (k : nat) (l : list Z), (i < k)%nat -> nth_error (firstn k l) i = nth_error l i).
    { clear. intros k l Hk. destruct (Nat.lt_ge_cases i (length l)).
      - rewrite <- (firstn_skipn k l) at 2. rewrite nth_error_app1; auto. rewrite firstn_length. lia.
      - rewrite !(proj2 (nth_error_None _ _)); auto. rewrite firstn_length. lia. }
    rewrite Hl by assumption. rewrite <- (firstn_skipn off m) at 2. rewrite nth_error_app2; rewrite firstn_length; [|lia].
    f_equal. lia.
Qed.

Lemma list_ext {A} (l l' : list A) : length l = length l' -> (forall i, (i < length l)%nat -> nth_error l i = nth_error l' i) -> l = l'.
Proof.
  revert l'. induction l as [|a l IH]; intros [|b l']; cbn; intros Hl H; auto; try lia.
  pose proof (H 0%nat ltac:(lia)) as H0. cbn in H0. injection H0 as <-. f_equal. apply IH; [lia|].
  intros i Hi. apply (H (S i)). lia.
Qed.

Lemma rd_wr_same off bs m m' : wr off bs m = Ok m' -> rd off (length bs) m' = Ok bs.
Proof.
  intros H. pose proof (wr_length _ _ _ _ H) as L. pose proof (wr_inv _ _ _ _ H) as [B _].
  rewrite rd_ok by lia. f_equal.
  pose proof (rd_ok off (length bs) m' ltac:(lia)) as R. destruct (rd_nth _ _ _ _ R) as [R1 R2].
  apply list_ext; [exact R1|]. rewrite R1. intros i Hi. rewrite R2 by assumption. rewrite (nth_wr _ _ _ _ _ H).
  replace ((off <=? off + i)%nat && (off + i <? off + length bs)%nat) with true by (symmetry; apply andb_true_intro; split; [apply Nat.leb_le|apply Nat.ltb_lt]; lia).
  f_equal. lia.
Qed.

Lemma rd_wr_other off bs m m' o n : wr off bs m = Ok m' -> (o + n <= off \/ off + length bs <= o)%nat -> rd o n m' = rd o n m.
Proof.
  intros H D. pose proof (wr_length _ _ _ _ H) as L. pose proof (wr_inv _ _ _ _ H) as [B _].
  destruct (Nat.le_gt_cases (o + n) (length m)) as [Hle|Hgt]; [|rewrite !rd_crash by lia; reflexivity].
  pose proof (rd_ok o n m' ltac:(lia)) as R'. pose proof (rd_ok o n m ltac:(lia)) as R. rewrite R', R. f_equal.
  destruct (rd_nth _ _ _ _ R') as [A1 A2]. destruct (rd_nth _ _ _ _ R) as [B1 B2].
  apply list_ext; [congruence|]. rewrite A1. intros i Hi. rewrite A2, B2 by assumption. rewrite (nth_wr _ _ _ _ _ H).
  destruct (Nat.leb_spec off (o + i)); cbn [andb]; [|reflexivity].
  destruct (Nat.ltb_spec (o + i) (off + length bs)); [lia|reflexivity].
Qed.

Lemma rd_app_l off n a b : (off + n <= length a)%nat -> rd off n (a ++ b) = rd off n a.
Proof.
  intros H. rewrite !rd_ok by (rewrite ?app_length; lia). f_equal.
  rewrite skipn_app, firstn_app, skipn_length.
  replace (n - (length a - off))%nat with 0%nat by lia. cbn. now rewrite app_nil_r.
Qed.

Lemma rd_app_r off n a b : rd (length a + off) n (a ++ b) = rd off n b.
Proof.
  unfold rd. rewrite app_length.
  replace (length a + off + n <=? length a + length b)%nat with (off + n <=? length b)%nat.
  2:{ destruct (Nat.leb_spec (off + n) (length b)); destruct (Nat.leb_spec (length a + off + n) (length a + length b)); auto; lia. }
  destruct (_ <=? _)%nat; auto. f_equal. f_equal. rewrite skipn_app.
  rewrite skipn_all2 by lia. cbn. f_equal. lia.
Qed.

Lemma rd_all m : rd 0 (length m) m = Ok m.
Proof. rewrite rd_ok by lia. cbn. now rewrite firstn_all. Qed.

Lemma wr_all bs m : length m = length bs -> wr 0 bs m = Ok bs.
Proof. intros H. rewrite wr_ok by lia. cbn. rewrite skipn_all2 by lia. now rewrite app_nil_r. Qed.
