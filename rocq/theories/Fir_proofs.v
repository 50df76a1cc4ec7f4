(** Proofs about the filter design: bounds that survive rounding, and the exact design. *)
From Coq Require Import ZArith List Bool Reals Lra Lia.
From Verif Require Import Base_model Fir_model Fir_spec.
Import ListNotations.
Open Scope R_scope.

Lemma PI_bounds : 314 / 100 <= PI <= 315 / 100.
Proof.
  destruct (Machin.PI_2_3_7_ineq 2) as [L U]. destruct (Machin.PI_2_3_7_ineq 2) as [_ U'].
  unfold tg_alt, Machin.PI_2_3_7_tg, Ratan.Ratan_seq in *. simpl in *. split; lra.
Qed.

Lemma cos_lip : forall x y, Rabs (cos x - cos y) <= Rabs (x - y).
Proof.
  assert (forall x y, x < y -> Rabs (cos y - cos x) <= Rabs (y - x)) as G.
  { intros x y L. destruct (MVT_cor2 cos (fun c => - sin c) x y L) as (c & E & _).
    { intros c _. apply derivable_pt_lim_cos. }
    rewrite E, Rabs_mult. rewrite <- (Rmult_1_l (Rabs (y - x))) at 2. apply Rmult_le_compat_r; [apply Rabs_pos|].
    pose proof (SIN_bound c). unfold Rabs. destruct (Rcase_abs _); lra. }
  intros x y. destruct (Rtotal_order x y) as [L|[E|L]].
  - rewrite <- Rabs_Ropp. replace (- (cos x - cos y)) with (cos y - cos x) by ring. rewrite <- (Rabs_Ropp (x - y)).
    replace (- (x - y)) with (y - x) by ring. apply G, L.
  - subst. unfold Rminus. rewrite !Rplus_opp_r. lra.
  - apply G, L.
Qed.

Lemma sin_small : forall x, 0 <= x -> x <= PI -> x - x ^ 3 / 6 <= sin x <= x - x ^ 3 / 6 + x ^ 5 / 120.
Proof.
  intros x P L. destruct (sin_bound x 0 P L) as [A B]. unfold sin_approx, sin_term in A, B. simpl in A, B. split; simpl; lra.
Qed.

(** * Rounding *)
Section Accurate.
Variable A : arith.
Hypothesis AC : accurate (1 / 1000000) A.
Notation eps := (1 / 1000000).

Lemma fl_pos : forall x a b, 0 <= a -> a <= x <= b -> a * (1 - eps) <= fl A x <= b * (1 + eps).
Proof.
  intros x a b P L. destruct AC as (F & _). specialize (F x). rewrite (Rabs_pos_eq x) in F by lra.
  pose proof (Rle_abs (fl A x - x)). pose proof (Rle_abs (- (fl A x - x))) as Q. rewrite Rabs_Ropp in Q. lra.
Qed.
Lemma fl_0 : fl A 0 = 0.
Proof.
  destruct AC as (F & _). specialize (F 0). rewrite Rabs_R0, Rmult_0_r, Rminus_0_r in F.
  pose proof (Rabs_pos (fl A 0)). destruct (Req_EM_T (fl A 0) 0) as [E|E]; [exact E|]. apply Rabs_pos_lt in E. lra.
Qed.
Lemma mul_pos : forall x y a b c d, 0 <= a -> a <= x <= b -> 0 <= c -> c <= y <= d ->
  a * c * (1 - eps) <= mul A x y <= b * d * (1 + eps).
Proof.
  intros x y a b c d Pa Hx Pc Hy. apply fl_pos; [apply Rmult_le_pos; lra|].
  split; apply Rmult_le_compat; lra.
Qed.
Lemma div_pos : forall x y a b c d, 0 <= a -> a <= x <= b -> 0 < c -> c <= y <= d ->
  a / d * (1 - eps) <= div A x y <= b / c * (1 + eps).
Proof.
  intros x y a b c d Pa Hx Pc Hy. apply fl_pos.
  - unfold Rdiv. apply Rmult_le_pos; [lra|]. left. apply Rinv_0_lt_compat. lra.
  - unfold Rdiv. split; apply Rmult_le_compat; try lra; try (left; apply Rinv_0_lt_compat; lra); apply Rinv_le_contravar; lra.
Qed.
Lemma add_pos : forall x y a b c d, 0 <= a -> a <= x <= b -> 0 <= c -> c <= y <= d ->
  (a + c) * (1 - eps) <= add A x y <= (b + d) * (1 + eps).
Proof. intros x y a b c d Pa Hx Pc Hy. apply fl_pos; lra. Qed.

Lemma fpi_bounds : 313999 / 100000 <= fpi A <= 315001 / 100000.
Proof.
  destruct AC as (_ & _ & _ & P). pose proof PI_bounds. pose proof (Rle_abs (fpi A - PI)).
  pose proof (Rle_abs (- (fpi A - PI))) as Q. rewrite Rabs_Ropp in Q. lra.
Qed.

(** ** The window *)
Lemma near_cos : forall x y d, Rabs (x - y) <= d -> Rabs (fcos A x - cos y) <= d + eps.
Proof.
  intros x y d H. destruct AC as (_ & _ & C & _). specialize (C x). pose proof (cos_lip x y).
  replace (fcos A x - cos y) with ((fcos A x - cos x) + (cos x - cos y)) by ring. pose proof (Rabs_triang (fcos A x - cos x) (cos x - cos y)). lra.
Qed.
Lemma angle : forall n, (n <= 6)%nat ->
  Rabs (div A (mul A (mul A 2 (fpi A)) (INR n)) (INR 6) - 2 * PI * INR n / 6) <= 1 / 10000.
Proof.
  intros n L. destruct AC as (F & _ & _ & P). unfold div, mul. replace (INR 6) with 6 by (simpl; ring).
  assert (0 <= INR n <= 6) as B by (split; [apply pos_INR|replace 6 with (INR 6) by (simpl; ring); apply le_INR; exact L]).
  pose proof PI_bounds. pose proof fpi_bounds.
  assert (forall x y d, Rabs (x - y) <= d -> - d <= x - y <= d) as AB.
  { intros x y d H1. pose proof (Rle_abs (x - y)). pose proof (Rle_abs (- (x - y))) as Q. rewrite Rabs_Ropp in Q. lra. }
  apply AB in P. set (p := fpi A) in *. clearbody p.
  pose proof (AB _ _ _ (F (2 * p))) as F1. rewrite (Rabs_pos_eq (2 * p)) in F1 by lra. set (q := fl A (2 * p)) in *.
  assert (6 <= q <= 7) by lra.
  pose proof (AB _ _ _ (F (q * INR n))) as F2. assert (0 <= q * INR n <= 42) as B2 by (split; [apply Rmult_le_pos; lra|replace 42 with (7 * 6) by ring; apply Rmult_le_compat; lra]).
  rewrite (Rabs_pos_eq (q * INR n)) in F2 by lra. set (r := fl A (q * INR n)) in *.
  pose proof (AB _ _ _ (F (r / 6))) as F3. assert (0 <= r <= 43) by lra. rewrite (Rabs_pos_eq (r / 6)) in F3 by lra.
  assert (Rabs ((q - 2 * PI) * INR n) <= 1 / 100000 * 6) as B3.
  { rewrite Rabs_mult. rewrite (Rabs_pos_eq (INR n)) by lra. apply Rmult_le_compat; try lra; [apply Rabs_pos|]. apply Rabs_le. lra. }
  pose proof (Rle_abs ((q - 2 * PI) * INR n)). pose proof (Rle_abs (- ((q - 2 * PI) * INR n))) as Q. rewrite Rabs_Ropp in Q.
  apply Rabs_le. lra.
Qed.

Lemma hamming_near : forall n c, (n <= 6)%nat -> cos (2 * PI * INR n / 6) = c ->
  54 / 100 - 46 / 100 * c - 1 / 10000 <= hamming_at A 7 n <= 54 / 100 - 46 / 100 * c + 1 / 10000.
Proof.
  intros n c L <-. pose proof (near_cos _ _ _ (angle n L)) as N. unfold hamming_at. change (INR (7 - 1)) with (INR 6).
  set (k := fcos A _) in *. pose proof (COS_bound (2 * PI * INR n / 6)) as CB. set (c := cos _) in *. clearbody k c.
  destruct AC as (F & _).
  assert (forall x y d, Rabs (x - y) <= d -> - d <= x - y <= d) as AB.
  { intros x y d H1. pose proof (Rle_abs (x - y)). pose proof (Rle_abs (- (x - y))) as Q. rewrite Rabs_Ropp in Q. lra. }
  apply AB in N. pose proof (AB _ _ _ (F (54 / 100))) as F1. rewrite Rabs_pos_eq in F1 by lra.
  pose proof (AB _ _ _ (F (46 / 100))) as F2. rewrite Rabs_pos_eq in F2 by lra. set (u := fl A (54 / 100)) in *. set (v := fl A (46 / 100)) in *. clearbody u v.
  assert (Rabs (v * k - 46 / 100 * c) <= 1 / 20000) as B.
  { replace (v * k - 46 / 100 * c) with ((v - 46 / 100) * k + 46 / 100 * (k - c)) by ring.
    eapply Rle_trans; [apply Rabs_triang|]. rewrite !Rabs_mult.
    assert (Rabs (v - 46 / 100) * Rabs k <= 1 / 1000000 * 2) by (apply Rmult_le_compat; try apply Rabs_pos; apply Rabs_le; lra).
    assert (Rabs (46 / 100) * Rabs (k - c) <= 46 / 100 * (102 / 1000000)) by (apply Rmult_le_compat; try apply Rabs_pos; apply Rabs_le; lra). lra. }
  apply AB in B. unfold sub, mul. pose proof (F (v * k)) as F3.
  assert (Rabs (v * k) <= 1) by (apply Rabs_le; lra). assert (Rabs (fl A (v * k) - v * k) <= 1 / 1000000) as F3' by lra. apply AB in F3'. clear F3.
  set (w := fl A (v * k)) in *. pose proof (F (u - w)) as F4. assert (Rabs (u - w) <= 2) by (apply Rabs_le; lra).
  assert (Rabs (fl A (u - w) - (u - w)) <= 2 / 1000000) as F4' by lra. apply AB in F4'. lra.
Qed.

Lemma window_bounds : forall n, (n <= 6)%nat ->
  let h := nth n [8/100; 31/100; 77/100; 1; 77/100; 31/100; 8/100] 0 in h - 2 / 10000 <= hamming_at A 7 n <= h + 2 / 10000.
Proof.
  intros n L.
  assert (cos (2 * PI * INR n / 6) = nth n [1; 1/2; -1/2; -1; -1/2; 1/2; 1] 0) as C.
  { destruct n as [|[|[|[|[|[|[|n]]]]]]]; [..|lia]; simpl.
    - replace (2 * PI * 0 / 6) with 0 by field. apply cos_0.
    - replace (2 * PI * 1 / 6) with (PI / 3) by field. apply cos_PI3.
    - replace (2 * PI * (1 + 1) / 6) with (2 * (PI / 3)) by field. apply cos_2PI3.
    - replace (2 * PI * (1 + 1 + 1) / 6) with PI by field. apply cos_PI.
    - replace (2 * PI * (1 + 1 + 1 + 1) / 6) with (2 * PI - 2 * (PI / 3)) by field. rewrite cos_minus, cos_2PI, sin_2PI, cos_2PI3. lra.
    - replace (2 * PI * (1 + 1 + 1 + 1 + 1) / 6) with (2 * PI - PI / 3) by field. rewrite cos_minus, cos_2PI, sin_2PI, cos_PI3. lra.
    - replace (2 * PI * (1 + 1 + 1 + 1 + 1 + 1) / 6) with (2 * PI) by field. apply cos_2PI. }
  pose proof (hamming_near n _ L C) as H. do 7 (destruct n as [|n]; [cbn [nth] in *; lra|]); lia.
Qed.

(** ** The sinc function *)
Lemma fl_abs : forall x a b, 0 <= a -> a <= Rabs x <= b -> a * (1 - eps) <= Rabs (fl A x) <= b * (1 + eps).
Proof.
  intros x a b P L. destruct AC as (F & _). specialize (F x).
  pose proof (Rabs_triang_inv2 (fl A x) x) as T. pose proof (Rle_abs (Rabs (fl A x) - Rabs x)).
  pose proof (Rle_abs (- (Rabs (fl A x) - Rabs x))) as Q. rewrite Rabs_Ropp in Q. lra.
Qed.
Lemma sinc_even : forall x, x <> 0 -> sin x / x = sin (Rabs x) / Rabs x.
Proof. intros x N. unfold Rabs. destruct (Rcase_abs x); [|reflexivity]. rewrite sin_neg. field. exact N. Qed.
Lemma sinc_small : forall t, 0 < t -> t <= PI -> 1 - t ^ 2 / 6 <= sin t / t <= 1 - t ^ 2 / 6 + t ^ 4 / 120.
Proof.
  intros t P L. destruct (sin_small t ltac:(lra) L) as [S1 S2].
  split; apply Rmult_le_reg_r with t; try exact P; replace (sin t / t * t) with (sin t) by (field; lra).
  - replace ((1 - t ^ 2 / 6) * t) with (t - t ^ 3 / 6) by field. exact S1.
  - replace ((1 - t ^ 2 / 6 + t ^ 4 / 120) * t) with (t - t ^ 3 / 6 + t ^ 5 / 120) by field. exact S2.
Qed.

Lemma sinc_bounds : forall x lo hi, 1 / 100 <= lo -> lo <= Rabs x <= hi -> hi <= 4 / 10 ->
  forall tlo thi, 1 / 100 <= tlo -> tlo <= lo * (3139 / 1000) -> hi * (3151 / 1000) <= thi -> thi <= 2 ->
  (1 - thi ^ 2 / 6 - 1 / 10000) * (1 - eps) <= sinc A x <= (1 - tlo ^ 2 / 6 + thi ^ 4 / 120 + 1 / 10000) * (1 + eps).
Proof.
  intros x lo hi P L H tlo thi PT HL HH HT. unfold sinc. destruct (Req_EM_T x 0) as [E|NE]; [rewrite E, Rabs_R0 in L; lra|].
  assert (tlo <= Rabs (mul A (fpi A) x) <= 4 / 10 * (3151 / 1000) /\ Rabs (mul A (fpi A) x) <= thi) as (T1 & T2).
  { pose proof fpi_bounds as FP.
    assert (313999 / 100000 * lo <= Rabs (fpi A * x) <= 315001 / 100000 * hi) as B.
    { rewrite Rabs_mult, (Rabs_pos_eq (fpi A)) by lra. split; apply Rmult_le_compat; lra. }
    apply fl_abs in B; [|lra]. unfold mul. lra. }
  set (th := mul A (fpi A) x) in *. clearbody th. pose proof PI_bounds.
  assert (th <> 0) as N0 by (intros E; rewrite E, Rabs_R0 in T1; lra).
  destruct (sinc_small (Rabs th)) as [S1 S2]; [lra|lra|]. rewrite <- sinc_even in S1, S2 by exact N0.
  destruct AC as (_ & SN & _). specialize (SN th).
  assert (Rabs (fsin A th / th - sin th / th) <= eps / tlo) as D.
  { replace (fsin A th / th - sin th / th) with ((fsin A th - sin th) / th) by (field; exact N0).
    unfold Rdiv at 1. rewrite Rabs_mult, Rabs_inv. unfold Rdiv. apply Rmult_le_compat; [apply Rabs_pos|left; apply Rinv_0_lt_compat; lra|lra|].
    apply Rinv_le_contravar; lra. }
  pose proof (Rle_abs (fsin A th / th - sin th / th)). pose proof (Rle_abs (- (fsin A th / th - sin th / th))) as Q. rewrite Rabs_Ropp in Q.
  assert (tlo ^ 2 <= Rabs th ^ 2 <= thi ^ 2) by (split; apply pow_incr; lra).
  assert (Rabs th ^ 4 <= thi ^ 4) by (apply pow_incr; lra). clear SN.
  assert (thi ^ 2 <= 2 ^ 2) by (apply pow_incr; lra).
  assert (eps / tlo <= 1 / 10000) by (apply Rmult_le_reg_r with tlo; [lra|]; unfold Rdiv; rewrite (Rmult_assoc _ (/ tlo)), Rinv_l by lra; lra).
  unfold div. apply fl_pos; lra.
Qed.

Lemma cutoff_bounds : forall k, (1 <= Z.abs k <= 3)%Z ->
  IZR (Z.abs k) * (99999 / 1000000) <= Rabs (mul A (fl A (1 / 10)) (IZR k)) <= IZR (Z.abs k) * (100001 / 1000000).
Proof.
  intros k L. pose proof (fl_pos (1 / 10) (1 / 10) (1 / 10) ltac:(lra) ltac:(lra)) as C. set (c := fl A (1 / 10)) in *. clearbody c.
  assert (1 <= IZR (Z.abs k) <= 3) as B by (split; apply IZR_le; lia).
  assert (99999 / 1000000 * (1 + 2 * eps) * IZR (Z.abs k) <= Rabs (c * IZR k) <= 100001 / 1000000 * (1 - 2 * eps) * IZR (Z.abs k)) as D.
  { rewrite Rabs_mult, <- abs_IZR, (Rabs_pos_eq c) by lra. split; apply Rmult_le_compat_r; lra. }
  apply fl_abs in D; [|lra]. unfold mul. lra.
Qed.

Lemma sinc_link : forall k, (Z.abs k <= 3)%Z ->
  let b := nth (Z.to_nat (Z.abs k)) [(1, 1); (983/1000, 984/1000); (933/1000, 936/1000); (8505/10000, 8595/10000)] (0, 0) in
  fst b <= sinc A (mul A (fl A (1 / 10)) (IZR k)) <= snd b.
Proof.
  intros k L. destruct (Z.eq_dec k 0) as [->|N].
  { cbn [Z.abs Z.to_nat nth fst snd]. unfold mul. rewrite Rmult_0_r, fl_0. unfold sinc. destruct (Req_EM_T 0 0); lra. }
  pose proof (cutoff_bounds k ltac:(lia)) as C.
  assert (Z.abs k = 1 \/ Z.abs k = 2 \/ Z.abs k = 3)%Z as [E|[E|E]] by lia; rewrite E in C |- *;
    [change (Z.to_nat 1) with 1%nat|change (Z.to_nat 2) with 2%nat|change (Z.to_nat 3) with 3%nat]; cbn [nth fst snd].
  - pose proof (fun P Q => sinc_bounds _ _ _ P C Q (313/1000) (316/1000)) as S. do 6 (specialize (S ltac:(lra))). lra.
  - pose proof (fun P Q => sinc_bounds _ _ _ P C Q (627/1000) (631/1000)) as S. do 6 (specialize (S ltac:(lra))). lra.
  - pose proof (fun P Q => sinc_bounds _ _ _ P C Q (941/1000) (946/1000)) as S. do 6 (specialize (S ltac:(lra))). lra.
Qed.

Lemma round_to : forall x k, (0 <= k)%Z -> 0 <= x -> IZR k - / 2 < x < IZR k + / 2 -> round_away x = k.
Proof.
  intros x k K P [L U]. unfold round_away. destruct (Rle_dec 0 x); [|lra]. unfold Int_part. rewrite <- (up_tech (x + / 2) k); [lia|lra|].
  rewrite plus_IZR. lra.
Qed.

Lemma link_taps_ok : link_taps A = Ok [1; 6; 15; 20; 15; 6; 1; 0]%Z.
Proof.
  set (V := fun m => mul A (hamming_at A 7 m) (sinc A (mul A (fl A (1 / 10)) (IZR (Z.of_nat m - 3))))).
  set (lo := [678/10000; 2890/10000; 7567/10000; 9997/10000; 7567/10000; 2890/10000; 678/10000]).
  set (hi := [690/10000; 2906/10000; 7580/10000; 10003/10000; 7580/10000; 2906/10000; 690/10000]).
  assert (forall m, (m <= 6)%nat -> nth m lo 0 <= V m <= nth m hi 0) as B.
  { intros m L. pose proof (window_bounds m L) as W. pose proof (sinc_link (Z.of_nat m - 3) ltac:(lia)) as S. unfold V, lo, hi.
    assert (Z.to_nat (Z.abs (Z.of_nat m - 3)) = nth m [3; 2; 1; 0; 1; 2; 3] 0)%nat as EI by (do 7 (destruct m as [|m]; [reflexivity|]); lia).
    rewrite EI in S. clear EI. set (z := (Z.of_nat m - 3)%Z) in *. clearbody z.
    destruct m as [|[|[|[|[|[|[|m]]]]]]]; [..|lia]; cbn [nth fst snd] in *;
    match type of W with ?a <= ?x <= ?b => match type of S with ?c <= ?y <= ?d =>
      pose proof (mul_pos x y a b c d ltac:(lra) W ltac:(lra) S) end end; lra. }
  assert (forall m, (m <= 6)%nat -> firwin_val A 7 (fl A (1 / 10)) (map (hamming_at A 7) (seq 0 7)) m = V m) as FV.
  { intros m L. unfold firwin_val, V. f_equal. do 7 (destruct m as [|m]; [reflexivity|]). lia. }
  set (s := fold_left (add A) (map V (seq 0 7)) 0).
  assert (3225 / 1000 <= s <= 3237 / 1000) as SB.
  { unfold s. cbn [seq map fold_left].
    pose proof (B 0%nat ltac:(lia)) as B0. pose proof (B 1%nat ltac:(lia)) as B1. pose proof (B 2%nat ltac:(lia)) as B2. pose proof (B 3%nat ltac:(lia)) as B3.
    pose proof (B 4%nat ltac:(lia)) as B4. pose proof (B 5%nat ltac:(lia)) as B5. pose proof (B 6%nat ltac:(lia)) as B6. cbn [nth lo hi] in *.
    set (v0 := V 0%nat) in *. set (v1 := V 1%nat) in *. set (v2 := V 2%nat) in *. set (v3 := V 3%nat) in *. set (v4 := V 4%nat) in *. set (v5 := V 5%nat) in *. set (v6 := V 6%nat) in *.
    clearbody v0 v1 v2 v3 v4 v5 v6.
    pose proof (fun P Q R => add_pos 0 v0 0 0 _ _ P Q R B0) as S0. do 3 (specialize (S0 ltac:(lra))). set (s0 := add A 0 v0) in *. clearbody s0.
    pose proof (fun P Q => add_pos s0 v1 _ _ _ _ P S0 Q B1) as S1. do 2 (specialize (S1 ltac:(lra))). set (s1 := add A s0 v1) in *. clearbody s1.
    pose proof (fun P Q => add_pos s1 v2 _ _ _ _ P S1 Q B2) as S2. do 2 (specialize (S2 ltac:(lra))). set (s2 := add A s1 v2) in *. clearbody s2.
    pose proof (fun P Q => add_pos s2 v3 _ _ _ _ P S2 Q B3) as S3. do 2 (specialize (S3 ltac:(lra))). set (s3 := add A s2 v3) in *. clearbody s3.
    pose proof (fun P Q => add_pos s3 v4 _ _ _ _ P S3 Q B4) as S4. do 2 (specialize (S4 ltac:(lra))). set (s4 := add A s3 v4) in *. clearbody s4.
    pose proof (fun P Q => add_pos s4 v5 _ _ _ _ P S4 Q B5) as S5. do 2 (specialize (S5 ltac:(lra))). set (s5 := add A s4 v5) in *. clearbody s5.
    pose proof (fun P Q => add_pos s5 v6 _ _ _ _ P S5 Q B6) as S6. do 2 (specialize (S6 ltac:(lra))). lra. }
  assert (forall m, (m <= 6)%nat -> round_away (mul A 64 (div A (V m) s)) = nth m [1; 6; 15; 20; 15; 6; 1]%Z 0%Z) as RD.
  { intros m L. pose proof (B m L) as Bm.
    assert (1/1000 <= nth m lo 0) by (unfold lo; do 7 (destruct m as [|m]; [cbn [nth]; lra|]); lia).
    pose proof (fun P Q => div_pos (V m) s _ _ _ _ P Bm Q SB) as D. do 2 (specialize (D ltac:(lra))).
    pose proof (mul_pos 64 (div A (V m) s) 64 64 (nth m lo 0 / (3237 / 1000) * (1 - eps)) (nth m hi 0 / (3225 / 1000) * (1 + eps)) ltac:(lra) ltac:(lra)) as M.
    assert (0 <= nth m lo 0 / (3237 / 1000) * (1 - eps)) as P0.
    { apply Rmult_le_pos; [|lra]. unfold Rdiv. apply Rmult_le_pos; [lra|]. left. apply Rinv_0_lt_compat. lra. }
    specialize (M P0 D). replace (nth m lo 0 / (3237 / 1000)) with (nth m lo 0 * (1000 / 3237)) in * by (field; lra).
    replace (nth m hi 0 / (3225 / 1000)) with (nth m hi 0 * (1000 / 3225)) in * by (field; lra).
    apply round_to; unfold lo, hi in M; do 7 (destruct m as [|m]; [cbn [nth] in *; try lia; lra|]); lia. }
  unfold link_taps, firwin_int, firwin, hamming. cbn [Nat.eqb bind].
  rewrite (map_ext_in (firwin_val A 7 (fl A (1 / 10)) (map (hamming_at A 7) (seq 0 7))) V) by (intros m I; apply in_seq in I; apply FV; lia).
  fold s. destruct (Req_EM_T s 0) as [E|_]; [lra|]. cbn [bind]. rewrite !map_map.
  rewrite (map_ext_in _ (fun m => nth m [1; 6; 15; 20; 15; 6; 1]%Z 0%Z)); [reflexivity|].
  intros m I. apply in_seq in I. apply RD. lia.
Qed.
End Accurate.
