From Coq Require Import ZArith List Bool Lia ZifyBool.
From Verif Require Import Base_model Float_model Float_proofs Cleanup_spec Keep_model Keep_spec.
Open Scope Z_scope.

Lemma depth_lemma : forall a p n K, proper_share a -> proper_share p -> 0 <= n < 2 ^ 24 -> 0 <= K ->
  K * (2 ^ 48 * 2 ^ (- snd a) * 2 ^ (- snd p)) <= (2 ^ 24 - 1) * (fst a * n) * (2 ^ 24 * 2 ^ (- snd p) - (2 ^ 24 + 1) * fst p) ->
  keeps (share a n) (share p) n K.
Proof.
  intros a p n K Ha Hp Hn HK H o Ho. pose proof (share_bound a n Ha Hn) as Ba. pose proof (share_bound p o Hp ltac:(lia)) as Bp. split; [lia|].
  destruct (share_accuracy a n Ha Hn) as [_ A]. destruct (share_accuracy p o Hp ltac:(lia)) as [P _].
  assert (0 < 2 ^ (- snd a)) as Da by (apply Z.pow_pos_nonneg; destruct Ha; lia). assert (0 < 2 ^ (- snd p)) as Dp by (apply Z.pow_pos_nonneg; destruct Hp; lia).
  assert (0 <= fst a * n) as Fa by (destruct Ha; nia).
  set (da := 2 ^ (- snd a)) in *. set (dp := 2 ^ (- snd p)) in *. set (X := 2 ^ 24 * dp - (2 ^ 24 + 1) * fst p) in *. set (ma := fst a * n) in *.
  change (2 ^ 24) with 16777216 in *. change (2 ^ 48) with 281474976710656 in *.
  destruct (Z.le_gt_cases X 0) as [L|L].
  - assert (K * (281474976710656 * da * dp) <= 0) by nia. assert (K <= 0) by nia. lia.
  - assert (A' : (16777216 - 1) * ma <= 16777216 * (o * da)) by nia.
    assert (B : (16777216 - 1) * ma * X <= 16777216 * (o * da) * X) by (apply Z.mul_le_mono_nonneg_r; lia).
    assert (C : (16777216 * da) * (K * (16777216 * dp)) <= (16777216 * da) * (o * X)) by nia.
    apply Z.mul_le_mono_pos_l in C; [|nia]. assert (D : 16777216 * dp * K <= 16777216 * dp * (o - share p o)) by (unfold X in C; nia).
    apply Z.mul_le_mono_pos_l in D; lia.
Qed.

Lemma proper08 : proper_share f08. Proof. vm_compute. intuition congruence. Qed.
Lemma proper01 : proper_share f01. Proof. vm_compute. intuition congruence. Qed.
Lemma proper05 : proper_share f05. Proof. vm_compute. intuition congruence. Qed.

Lemma depth_generated : forall n, 2 <= n < 2 ^ 24 -> keeps (share f08 n) (share f01) n (72 * n / 100 - 1).
Proof.
  intros n Hn. destruct (Z.le_gt_cases 0 (72 * n / 100 - 1)) as [L|L].
  - apply depth_lemma; auto using proper08, proper01; [lia|]. pose proof (Z.mul_div_le (72 * n) 100 ltac:(lia)) as D.
    cbn [fst snd f08 f01]. change (- -24) with 24. change (- -27) with 27. change (2 ^ 24) with 16777216 in *. change (2 ^ 27) with 134217728. change (2 ^ 48) with 281474976710656. lia.
  - intros o Ho. pose proof (share_bound f08 n proper08 ltac:(lia)). pose proof (share_bound f01 o proper01 ltac:(lia)). lia.
Qed.

Lemma depth_default : forall n, 2 <= n < 2 ^ 24 -> keeps (share f05 n) (share f08) n (n / 10 - 1).
Proof.
  intros n Hn. destruct (Z.le_gt_cases 0 (n / 10 - 1)) as [L|L].
  - apply depth_lemma; auto using proper08, proper05; [lia|]. pose proof (Z.mul_div_le n 10 ltac:(lia)) as D.
    cbn [fst snd f08 f05]. change (- -24) with 24. change (- -1) with 1. change (2 ^ 24) with 16777216 in *. change (2 ^ 1) with 2. change (2 ^ 48) with 281474976710656. lia.
  - intros o Ho. pose proof (share_bound f05 n proper05 ltac:(lia)). pose proof (share_bound f08 o proper08 ltac:(lia)). lia.
Qed.

Lemma share_one : forall n, 0 <= n < 2 ^ 24 -> share (1, 0) n = n.
Proof. intros n Hn. apply share_full; [vm_compute; intuition congruence|reflexivity|exact Hn]. Qed.
