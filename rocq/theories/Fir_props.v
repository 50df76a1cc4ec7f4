(** C66: the low pass filter of the hit finding. *)
From Coq Require Import ZArith List Bool Reals Lra Lia.
From Verif Require Import Base_model Fir_model Fir_spec Fir_proofs Fir_proofs2 Frugal_model Frugal_spec Hits_model Hits_spec Hits_proofs Hits_props.
Import ListNotations.
Open Scope R_scope.

(** The coefficients a link computes at start do not depend on the rounding of the machine: any arithmetic good to one part in a
    million (single precision is) gives the binomial filter of order six. *)
Theorem C66_link_taps : forall A, accurate (1 / 1000000) A -> link_taps A = Ok [1; 6; 15; 20; 15; 6; 1; 0]%Z.
Proof. exact link_taps_ok. Qed.
Print Assumptions C66_link_taps.

(** Response of these coefficients to a sinusoid of angular frequency w per tick: 64 at zero, falling, zero at the Nyquist frequency. *)
Theorem C66_link_response : forall A tp, accurate (1 / 1000000) A -> link_taps A = Ok tp -> forall w,
  fold_right Rplus 0 (map (fun j => IZR (nth j tp 0%Z) * cos (w * (INR j - 3))) (seq 0 7)) = 64 * cos (w / 2) ^ 6.
Proof.
  intros A tp AC H w. rewrite (link_taps_ok A AC) in H. injection H as <-. cbn [seq map fold_right nth].
  set (c := cos (w / 2)).
  assert (cos w = 2 * c * c - 1) as C1 by (replace w with (2 * (w / 2)) by field; apply cos_2a_cos).
  assert (cos (2 * w) = 2 * cos w * cos w - 1) as C2 by apply cos_2a_cos.
  assert (cos (3 * w) = 4 * cos w ^ 3 - 3 * cos w) as C3.
  { replace (3 * w) with (2 * w + w) by ring. rewrite cos_plus, sin_2a, C2. pose proof (sin2_cos2 w) as Q. unfold Rsqr in Q.
    replace ((2 * cos w * cos w - 1) * cos w - 2 * sin w * cos w * sin w) with ((2 * cos w * cos w - 1) * cos w - 2 * cos w * (sin w * sin w)) by ring.
    replace (sin w * sin w) with (1 - cos w * cos w) by lra. ring. }
  replace (w * (INR 0 - 3)) with (- (3 * w)) by (simpl; ring). replace (w * (INR 1 - 3)) with (- (2 * w)) by (simpl; ring).
  replace (w * (INR 2 - 3)) with (- w) by (simpl; ring). replace (w * (INR 3 - 3)) with 0 by (simpl; ring).
  replace (w * (INR 4 - 3)) with w by (simpl; ring). replace (w * (INR 5 - 3)) with (2 * w) by (simpl; ring).
  replace (w * (INR 6 - 3)) with (3 * w) by (simpl; ring). rewrite !cos_neg, cos_0, C3, C2, C1. ring.
Qed.
Print Assumptions C66_link_response.

(** Every filter designed without rounding error has gain one, and is linear in phase when the number of taps is odd. *)
Theorem C66_unit_gain : forall N c v, firwin exact_arith N c = Ok v -> N <> 0%nat -> gain v = 1 /\ (Nat.Odd N -> symmetric v).
Proof. intros N c v H N0. split; [exact (exact_gain N c v H N0)|]. intros O. exact (exact_symmetric N c v O H). Qed.
Print Assumptions C66_unit_gain.

(** With a cutoff whose main lobe covers the taps the integer coefficients exist, are not negative, and their gain is the
    multiplier up to half a unit for each tap. *)
Theorem C66_integer_taps : forall N c k, (2 <= N)%nat -> 0 <= c -> c * INR (N / 2) <= 1 -> (0 <= k <= 32767)%Z ->
  exists tp, firwin_int exact_arith N c k = Ok tp /\ length tp = N /\ Forall (fun x => 0 <= x <= k)%Z tp /\
    Rabs (IZR (gain_int tp) - IZR k) <= INR N / 2 /\ (Nat.Odd N -> symmetric tp).
Proof.
  intros N c k L P C K. destruct (exact_total N c L P C) as (v & EV & LV & F). unfold firwin_int. rewrite EV. cbn [bind].
  set (tp := map _ v).
  assert (Forall (fun x => 0 <= x <= k)%Z tp) as R.
  { unfold tp. apply Forall_forall. intros x I. apply in_map_iff in I as (y & <- & I). rewrite Forall_forall in F. specialize (F y I).
    apply round_range; [lia|]. unfold mul. cbn [fl exact_arith]. assert (0 <= IZR k) by (apply IZR_le; lia). split.
    - apply Rmult_le_pos; lra.
    - rewrite <- (Rmult_1_r (IZR k)) at 2. apply Rmult_le_compat_l; lra. }
  exists tp. split; [|split; [|split; [exact R|split]]].
  - apply all_i16_ok. eapply Forall_impl; [|exact R]. intros x H. cbn beta in H. lia.
  - unfold tp. rewrite map_length. exact LV.
  - pose proof (round_gain v (fun y => mul exact_arith (IZR k) y) (fun x => round_near _)) as G. rewrite gain_scale, (exact_gain N c v EV ltac:(lia)), Rmult_1_r, LV in G.
    exact G.
  - intros O. unfold tp. apply map_sym. exact (exact_symmetric N c v O EV).
Qed.
Print Assumptions C66_integer_taps.

(** An even number of taps is not linear in phase: the window is centred between two taps, the sinc is not. *)
Theorem C66_even_taps_asymmetric : forall c v, 0 < c < 1 -> firwin exact_arith 2 c = Ok v -> ~ symmetric v.
Proof.
  intros c v C H S. destruct (firwin_shape 2 c v H) as [[Z _]|(_ & vals & EV & G & ->)]; [discriminate|].
  assert (vals = [win 2 0 * sinc exact_arith (- c); win 2 1 * 1]) as EV2.
  { rewrite EV. cbn [seq map]. change [0%nat; 1%nat] with (seq 0 2). f_equal; [|f_equal].
    - pose proof (val_exact 2 c 0 ltac:(lia)) as V. cbn [seq map] in V. rewrite V. do 2 f_equal. change (Z.of_nat 0 - Z.of_nat (2 / 2))%Z with (-1)%Z. ring.
    - pose proof (val_exact 2 c 1 ltac:(lia)) as V. cbn [seq map] in V. rewrite V. f_equal. change (Z.of_nat 1 - Z.of_nat (2 / 2))%Z with 0%Z.
      rewrite Rmult_0_r. unfold sinc. destruct (Req_EM_T 0 0); [reflexivity|lra]. }
  pose proof (win_sym 2 0 ltac:(lia) ltac:(lia)) as W. change (2 - 1 - 0)%nat with 1%nat in W. rewrite W in EV2.
  set (g := gain vals) in *. clearbody g. rewrite EV2 in S. unfold symmetric in S. cbn [map rev app] in S. injection S as S1 _.
  unfold div in S1. cbn [fl exact_arith] in S1. rewrite sinc_sym in S1.
  assert (win 2 0 * sinc exact_arith c = win 2 0 * 1) as S2.
  { apply (f_equal (fun x => x * g)) in S1. unfold Rdiv in S1. rewrite !Rmult_assoc, !Rinv_l in S1 by exact G. lra. }
  apply Rmult_eq_reg_l in S2; [|pose proof (win_pos 2 0); lra]. unfold sinc in S2. destruct (Req_EM_T c 0); [lra|]. unfold div, mul in S2. cbn [fl fsin fpi exact_arith] in S2.
  assert (0 < PI * c) as Q by (apply Rmult_lt_0_compat; [apply PI_RGT_0|lra]). pose proof (sin_lt_x _ Q) as SX.
  apply (f_equal (fun x => x * (PI * c))) in S2. unfold Rdiv in S2. rewrite Rmult_assoc, Rinv_l, Rmult_1_r, Rmult_1_l in S2 by lra. lra.
Qed.
Print Assumptions C66_even_taps_asymmetric.

(** A single tap cannot be designed: its window divides zero by zero. *)
Example C66_one_tap_undefined : forall A c k, firwin_int A 1 c k = Crash.
Proof. reflexivity. Qed.

(** ** What this means for the hit finding *)
(** The parameters of the hit finder of a link are those the properties of the hit finding need. *)
Theorem C66_hit_finder_parameters : forall A tp, accurate (1 / 1000000) A -> link_taps A = Ok tp -> params_ok (mkParams tp 6 5).
Proof. intros A tp AC H. rewrite (link_taps_ok A AC) in H. injection H as <-. exact coll_params_ok. Qed.
Print Assumptions C66_hit_finder_parameters.

(** The filtered signal lies between 64 times the smallest and 64 times the largest of the seven samples: the filter neither
    overshoots nor inverts, and a flat signal comes out as 64 times itself. *)
Theorem C66_between_samples : forall A tp, accurate (1 / 1000000) A -> link_taps A = Ok tp -> forall ped0 s t lo hi, (8 <= t)%nat ->
  (forall k, (t - 8 <= k < t - 1)%nat -> (lo <= signal 6 ped0 s k <= hi)%Z) ->
  (64 * lo <= filtered tp 6 ped0 s t <= 64 * hi)%Z.
Proof.
  intros A tp AC H ped0 s t lo hi L B. rewrite (link_taps_ok A AC) in H. injection H as <-.
  unfold filtered. cbn [seq map fold_right nth].
  assert (forall j, (j <= 6)%nat -> (lo <= (if (8 <=? t + j)%nat then signal 6 ped0 s (t + j - 8) else 0) <= hi)%Z) as G.
  { intros j Lj. replace (8 <=? t + j)%nat with true by (symmetry; apply Nat.leb_le; lia). apply B. lia. }
  pose proof (G 0%nat ltac:(lia)). pose proof (G 1%nat ltac:(lia)). pose proof (G 2%nat ltac:(lia)). pose proof (G 3%nat ltac:(lia)).
  pose proof (G 4%nat ltac:(lia)). pose proof (G 5%nat ltac:(lia)). pose proof (G 6%nat ltac:(lia)). lia.
Qed.
Print Assumptions C66_between_samples.

(** The filter output of a link fits 16 bits as long as no sample is more than 512 below the pedestal. *)
Theorem C66_no_wrap : forall A tp, accurate (1 / 1000000) A -> link_taps A = Ok tp -> forall ped0 s t,
  (forall k, (k < t)%nat -> (-512 <= signal 6 ped0 s k)%Z) -> is_i16 (filtered tp 6 ped0 s t).
Proof.
  intros A tp AC H ped0 s t B. rewrite (link_taps_ok A AC) in H. injection H as <-.
  apply C61_filter_in_range; [lia| |cbn; lia|exact B]. intros j. do 8 (destruct j as [|j]; [cbn; lia|]). destruct j; cbn; lia.
Qed.
Print Assumptions C66_no_wrap.

(** ** Examples *)
(** A machine that rounds up everything by one part in ten million. *)
Definition sloppy : arith := mkArith (fun x => x + x / 10000000) sin (fun x => cos x + / 10000000) (PI + / 10000000).
Lemma sloppy_accurate : accurate (1 / 1000000) sloppy.
Proof.
  repeat split; cbn.
  - intros x. replace (x + x / 10000000 - x) with (x * (1 / 10000000)) by field. rewrite Rabs_mult, (Rabs_pos_eq (1 / 10000000)) by lra.
    pose proof (Rabs_pos x). lra.
  - intros x. rewrite Rminus_diag_eq by reflexivity. rewrite Rabs_R0. lra.
  - intros x. replace (cos x + / 10000000 - cos x) with (/ 10000000) by ring. rewrite Rabs_pos_eq; lra.
  - replace (PI + / 10000000 - PI) with (/ 10000000) by ring. rewrite Rabs_pos_eq; lra.
Qed.
Example C66_example : link_taps sloppy = Ok (taps coll_params) /\
  (exists tp, firwin_int exact_arith 5 (1 / 2) 64 = Ok tp /\ length tp = 5%nat /\ symmetric tp) /\
  (exists v, firwin exact_arith 2 (1 / 2) = Ok v /\ gain v = 1 /\ ~ symmetric v).
Proof.
  split; [exact (C66_link_taps sloppy sloppy_accurate)|split].
  - destruct (C66_integer_taps 5 (1 / 2) 64) as (tp & E & L & _ & _ & S); [lia|lra|cbn; lra|lia|]. exists tp. repeat split; try assumption.
    apply S. exists 2%nat. reflexivity.
  - destruct (exact_total 2 (1 / 2)) as (v & E & _); [lia|lra|cbn; lra|]. exists v. split; [exact E|]. split.
    + exact (proj1 (C66_unit_gain 2 (1 / 2) v E ltac:(lia))).
    + exact (C66_even_taps_asymmetric (1 / 2) v ltac:(lra) E).
Qed.
(** The pulse of C48 through the filter of this machine: seven samples of height 0 to 273, filter output between. *)
Example C66_filter_example : exists tp, link_taps sloppy = Ok tp /\
  map (fun t => filtered tp 6 819 (fun t => nth t [819; 819; 1092; 1092; 1092; 819; 819; 819; 819; 819; 819; 819] 819)%Z t) (seq 8 6)
  = [13650; 11193; 6006; 1911; 273; 0]%Z.
Proof. exists [1; 6; 15; 20; 15; 6; 1; 0]%Z. split; [exact (C66_link_taps sloppy sloppy_accurate)|]. vm_compute. reflexivity. Qed.
