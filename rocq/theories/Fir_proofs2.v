(** The design without rounding, for every number of taps and every cutoff. *)
From Coq Require Import ZArith List Bool Reals Lra Lia.
From Verif Require Import Base_model Fir_model Fir_spec Fir_proofs.
Import ListNotations.
Open Scope R_scope.

Notation E := exact_arith.
Lemma fold_gain : forall l a, fold_left (add E) l a = a + gain l.
Proof. induction l as [|x l IH]; intros a; cbn [fold_left gain fold_right]; [lra|]. rewrite IH. cbn [add fl E]. unfold gain. lra. Qed.
Lemma gain_map_div : forall l s, gain (map (fun v => div E v s) l) = gain l / s.
Proof. induction l as [|x l IH]; intros s; cbn [map gain fold_right]; [unfold Rdiv; ring|]. unfold gain in IH. rewrite IH. cbn [div fl E]. unfold Rdiv. ring. Qed.

Lemma firwin_shape : forall N c v, firwin E N c = Ok v ->
  (N = 0%nat /\ v = []) \/
  ((2 <= N)%nat /\ exists vals, vals = map (firwin_val E N c (map (hamming_at E N) (seq 0 N))) (seq 0 N) /\ gain vals <> 0 /\
                   v = map (fun x => div E x (gain vals)) vals).
Proof.
  intros N c v H. unfold firwin, hamming in H. destruct (Nat.eqb N 1) eqn:E1; [discriminate|]. cbn [bind] in H.
  apply Nat.eqb_neq in E1. set (vals := map _ (seq 0 N)) in *. rewrite fold_gain, Rplus_0_l in H.
  destruct (Req_EM_T (gain vals) 0) as [G|G].
  - destruct (Nat.eqb N 0) eqn:E0; [|discriminate]. apply Nat.eqb_eq in E0. left. split; [exact E0|congruence].
  - destruct N as [|N]; [exfalso; apply G; reflexivity|]. right. split; [lia|]. exists vals. repeat split; congruence.
Qed.

Lemma exact_gain : forall N c v, firwin E N c = Ok v -> N <> 0%nat -> gain v = 1.
Proof.
  intros N c v H N0. destruct (firwin_shape N c v H) as [[Z _]|(_ & vals & _ & G & ->)]; [contradiction|].
  rewrite gain_map_div. field. exact G.
Qed.

(** Entries. *)
Definition win (N n : nat) : R := 54 / 100 - 46 / 100 * cos (2 * PI * INR n / INR (N - 1)).
Lemma hamming_exact : forall N n, hamming_at E N n = win N n.
Proof. reflexivity. Qed.
Lemma win_pos : forall N n, 8 / 100 <= win N n.
Proof. intros N n. unfold win. pose proof (COS_bound (2 * PI * INR n / INR (N - 1))). lra. Qed.
Lemma win_sym : forall N n, (2 <= N)%nat -> (n < N)%nat -> win N (N - 1 - n) = win N n.
Proof.
  intros N n L Ln. unfold win. do 2 f_equal. rewrite minus_INR by lia.
  assert (INR (N - 1) <> 0) by (apply not_0_INR; lia).
  replace (2 * PI * (INR (N - 1) - INR n) / INR (N - 1)) with (2 * PI - 2 * PI * INR n / INR (N - 1)) by (field; assumption).
  rewrite cos_minus, cos_2PI, sin_2PI. ring.
Qed.
Lemma sinc_sym : forall x, sinc E (- x) = sinc E x.
Proof.
  intros x. unfold sinc. destruct (Req_EM_T (- x) 0), (Req_EM_T x 0); try lra. cbn [div mul fl fsin fpi E].
  unfold div, mul. cbn. rewrite Ropp_mult_distr_r_reverse, sin_neg. field. split; [assumption|apply PI_neq0].
Qed.
Lemma sinc_range : forall x, Rabs x <= 1 -> 0 <= sinc E x <= 1.
Proof.
  assert (forall x, 0 <= x <= 1 -> 0 <= sinc E x <= 1) as G.
  { intros x [L U]. unfold sinc. destruct (Req_EM_T x 0); [lra|]. unfold div, mul. cbn. pose proof PI_RGT_0 as P.
    assert (0 < PI * x) as Q by (apply Rmult_lt_0_compat; lra).
    assert (0 <= sin (PI * x)) as S by (apply sin_ge_0; [lra|]; rewrite <- (Rmult_1_r PI) at 2; apply Rmult_le_compat_l; lra).
    split.
    - unfold Rdiv. apply Rmult_le_pos; [exact S|]. left. apply Rinv_0_lt_compat, Q.
    - apply Rmult_le_reg_r with (PI * x); [exact Q|]. unfold Rdiv. rewrite Rmult_assoc, Rinv_l, Rmult_1_r, Rmult_1_l by lra.
      left. apply sin_lt_x. exact Q. }
  intros x L. destruct (Rle_dec 0 x) as [P|P].
  - rewrite Rabs_pos_eq in L by exact P. apply G. lra.
  - rewrite <- sinc_sym. apply G. rewrite Rabs_left in L by lra. lra.
Qed.
Lemma val_exact : forall N c m, (m < N)%nat ->
  firwin_val E N c (map (hamming_at E N) (seq 0 N)) m = win N m * sinc E (c * IZR (Z.of_nat m - Z.of_nat (N / 2))).
Proof.
  intros N c m L. unfold firwin_val, mul. cbn [fl E].
  rewrite (nth_indep _ 0 (hamming_at E N 0%nat)) by (rewrite map_length, seq_length; exact L).
  rewrite map_nth, seq_nth by exact L. reflexivity.
Qed.

(** ** Symmetry *)
Lemma nth_eq_ext : forall {X} (l k : list X) d, length l = length k -> (forall i, (i < length l)%nat -> nth i l d = nth i k d) -> l = k.
Proof.
  induction l as [|x l IH]; intros [|y k] d L H; try discriminate; [reflexivity|]. f_equal; [exact (H 0%nat ltac:(cbn; lia))|].
  apply (IH k d); [cbn in L; lia|]. intros i Li. exact (H (S i) ltac:(cbn; lia)).
Qed.
Lemma map_seq_sym : forall {X} (f : nat -> X) N, (forall i, (i < N)%nat -> f (N - 1 - i)%nat = f i) -> symmetric (map f (seq 0 N)).
Proof.
  intros X f N H. unfold symmetric. destruct N as [|N]; [reflexivity|].
  apply (nth_eq_ext _ _ (f 0%nat)); [rewrite rev_length; reflexivity|]. rewrite map_length, seq_length. intros i L.
  rewrite rev_nth by (rewrite map_length, seq_length; exact L). rewrite map_length, seq_length, !map_nth, !seq_nth by lia.
  etransitivity; [symmetry; apply (H i L)|]. f_equal. lia.
Qed.
Lemma map_sym : forall {X Y} (f : X -> Y) l, symmetric l -> symmetric (map f l).
Proof. intros X Y f l H. unfold symmetric in *. rewrite <- map_rev, <- H. reflexivity. Qed.
Lemma exact_symmetric : forall N c v, Nat.Odd N -> firwin E N c = Ok v -> symmetric v.
Proof.
  intros N c v [k O] H. destruct (firwin_shape N c v H) as [[_ ->]|(L & vals & EV & _ & ->)]; [reflexivity|].
  apply map_sym. rewrite EV. apply map_seq_sym. intros i Li. rewrite !val_exact by lia. rewrite win_sym by lia. f_equal.
  replace (Z.of_nat (N - 1 - i) - Z.of_nat (N / 2))%Z with (- (Z.of_nat i - Z.of_nat (N / 2)))%Z.
  - rewrite opp_IZR, Ropp_mult_distr_r_reverse. apply sinc_sym.
  - assert (N / 2 = k)%nat as ->; [|lia]. symmetry. apply Nat.div_unique with 1%nat; lia.
Qed.

(** ** Non-negative *)
Lemma gain_nonneg : forall l, Forall (fun x => 0 <= x) l -> 0 <= gain l.
Proof. induction 1 as [|x l P _ IH]; cbn [gain fold_right]; [lra|]. unfold gain in IH. lra. Qed.
Lemma in_le_gain : forall l x, Forall (fun x => 0 <= x) l -> In x l -> x <= gain l.
Proof.
  induction l as [|y l IH]; intros x F I; [destruct I|]. inversion F; subst. cbn [gain fold_right]. destruct I as [->|I].
  - pose proof (gain_nonneg l H2) as G. unfold gain in G. lra.
  - specialize (IH x H2 I). unfold gain in IH. lra.
Qed.
Lemma exact_total : forall N c, (2 <= N)%nat -> 0 <= c -> c * INR (N / 2) <= 1 ->
  exists v, firwin E N c = Ok v /\ length v = N /\ Forall (fun x => 0 <= x <= 1) v.
Proof.
  intros N c L P C. unfold firwin, hamming. replace (Nat.eqb N 1) with false by (symmetry; apply Nat.eqb_neq; lia). cbn [bind].
  set (vals := map _ (seq 0 N)). rewrite fold_gain, Rplus_0_l.
  assert (N / 2 < N)%nat as HN by (apply Nat.div_lt; lia).
  assert (forall m, (m < N)%nat -> 0 <= sinc E (c * IZR (Z.of_nat m - Z.of_nat (N / 2)))) as SP.
  { intros m Lm. apply sinc_range. rewrite Rabs_mult, (Rabs_pos_eq c), <- abs_IZR by exact P.
    eapply Rle_trans; [|exact C]. apply Rmult_le_compat_l; [exact P|]. rewrite INR_IZR_INZ. apply IZR_le.
    pose proof (Nat.div_mod N 2). pose proof (Nat.mod_upper_bound N 2). lia. }
  assert (Forall (fun x => 0 <= x) vals) as F.
  { unfold vals. apply Forall_forall. intros x I. apply in_map_iff in I as (m & <- & I). apply in_seq in I. rewrite val_exact by lia.
    apply Rmult_le_pos; [pose proof (win_pos N m); lra|]. apply SP. lia. }
  assert (0 < gain vals) as G.
  { assert (In (win N (N / 2)) vals) as I.
    { unfold vals. apply in_map_iff. exists (N / 2)%nat. split; [|apply in_seq; lia]. rewrite val_exact by lia. rewrite Z.sub_diag, Rmult_0_r.
      unfold sinc. destruct (Req_EM_T 0 0); [ring|lra]. }
    pose proof (in_le_gain _ _ F I). pose proof (win_pos N (N / 2)). lra. }
  destruct (Req_EM_T (gain vals) 0); [lra|]. eexists. split; [reflexivity|]. split; [unfold vals; rewrite !map_length, seq_length; reflexivity|].
  apply Forall_forall. intros x I. apply in_map_iff in I as (y & <- & I). pose proof (in_le_gain _ _ F I). rewrite Forall_forall in F. specialize (F y I).
  unfold div. cbn [fl E]. split.
  - unfold Rdiv. apply Rmult_le_pos; [exact F|]. left. apply Rinv_0_lt_compat, G.
  - apply Rmult_le_reg_r with (gain vals); [exact G|]. unfold Rdiv. rewrite Rmult_assoc, Rinv_l by lra. lra.
Qed.

(** ** Integers *)
Lemma round_near : forall x, - / 2 <= IZR (round_away x) - x <= / 2.
Proof.
  intros x. unfold round_away. destruct (Rle_dec 0 x).
  - pose proof (base_Int_part (x + / 2)). lra.
  - rewrite opp_IZR. pose proof (base_Int_part (- x + / 2)). lra.
Qed.
Lemma round_range : forall x k, (0 <= k)%Z -> 0 <= x <= IZR k -> (0 <= round_away x <= k)%Z.
Proof.
  intros x k K [P U]. unfold round_away. destruct (Rle_dec 0 x); [|lra]. pose proof (base_Int_part (x + / 2)) as [B1 B2].
  assert (-1 < Int_part (x + / 2))%Z by (apply lt_IZR; lra).
  assert (Int_part (x + / 2) < k + 1)%Z by (apply lt_IZR; rewrite plus_IZR; lra). lia.
Qed.
Lemma all_i16_ok : forall l, Forall (fun x => -32768 <= x <= 32767)%Z l -> all_i16 l = Ok l.
Proof.
  induction 1 as [|x l H _ IH]; [reflexivity|]. cbn [all_i16]. unfold to_i16. rewrite IH.
  replace ((-32768 <=? x)%Z && (x <=? 32767)%Z)%bool with true by (symmetry; apply andb_true_intro; split; apply Z.leb_le; lia). reflexivity.
Qed.
Lemma all_i16_same : forall l k, all_i16 l = Ok k -> k = l.
Proof.
  induction l as [|x l IH]; intros k H; cbn [all_i16] in H; [congruence|]. unfold to_i16 in H. destruct (_ && _)%bool; [|discriminate]. cbn [bind] in H.
  destruct (all_i16 l) as [ys|] eqn:EA; [|discriminate]. cbn [bind] in H. rewrite (IH ys eq_refl) in H. congruence.
Qed.
Lemma round_gain : forall (l : list R) f, (forall x, - / 2 <= IZR (round_away (f x)) - f x <= / 2) ->
  Rabs (IZR (gain_int (map (fun x => round_away (f x)) l)) - gain (map f l)) <= INR (length l) / 2.
Proof.
  intros l f H. induction l as [|x l IH].
  - cbn. rewrite Rminus_0_r, Rabs_R0. lra.
  - cbn [map gain_int gain fold_right length]. unfold gain_int, gain in IH. rewrite plus_IZR, S_INR.
    set (a := IZR (fold_right Z.add 0%Z _)) in *. set (b := fold_right Rplus 0 _) in *. specialize (H x).
    replace (IZR (round_away (f x)) + a - (f x + b)) with ((IZR (round_away (f x)) - f x) + (a - b)) by ring.
    eapply Rle_trans; [apply Rabs_triang|]. assert (Rabs (IZR (round_away (f x)) - f x) <= / 2) by (apply Rabs_le; exact H). lra.
Qed.
Lemma gain_scale : forall k l, gain (map (fun c => mul E (IZR k) c) l) = IZR k * gain l.
Proof. intros k l. induction l as [|x l IH]; cbn [map gain fold_right]; [ring|]. unfold gain in IH. rewrite IH. unfold mul. cbn. ring. Qed.
