(** Proofs about the emulated source and the link behind it. *)
From Coq Require Import String ZArith List Bool Lia.
From Verif Require Import Base_model Bytes_model Bytes_proofs Codec_model Codec_spec Codec_proofs Ebg_model Ebg_spec Ebg_proofs Emu_model
  Emu_spec Emu_proofs Ring_model Ring_spec Ring_proofs Elem_model Lb_model Float_model Registry_model Request_model Request_spec
  Request_proofs Cleanup_spec Check_model Check_spec Link_model Link_spec Link_proofs Chain_model Chain_spec.
Import ListNotations.
Open Scope Z_scope.

(** ** The bytes of a stamped element *)
Lemma nth_le n z k : (k < n)%nat -> nth_error (le n z) k = Some (z / 256 ^ Z.of_nat k mod 256).
Proof.
  revert z k. induction n as [|n IH]; intros z k H; [lia|]. destruct k as [|k]; cbn [le nth_error].
  - rewrite Z.pow_0_r, Z.div_1_r. reflexivity.
  - rewrite IH by lia. rewrite Z.div_div by (try apply Z.pow_pos_nonneg; lia). rewrite <- pow256_succ. reflexivity.
Qed.

Lemma split_set_nth p1 p2 off ts m : (off + p1 + 4 <= length m)%nat -> (off + p2 + 4 <= length m)%nat ->
  (p1 + 4 <= p2 \/ p2 + 4 <= p1)%nat ->
  exists m', split_set p1 p2 off ts m = Ok m' /\ length m' = length m /\
    (forall x, (x < off)%nat -> nth_error m' x = nth_error m x) /\
    (forall r, nth_error m' (off + r) = option_map (stamped_byte p1 p2 ts r) (nth_error m (off + r))).
Proof.
  intros H1 H2 D. unfold split_set.
  pose proof (wr_ok (off + p1) (le 4 ts) m ltac:(rewrite le_length; lia)) as W1. set (m1 := firstn _ _ ++ _) in W1. clearbody m1.
  pose proof (wr_length _ _ _ _ W1) as L1. rewrite W1. cbn [bind].
  pose proof (wr_ok (off + p2) (le 4 (Z.shiftr ts 32)) m1 ltac:(rewrite le_length; lia)) as W2. set (m2 := firstn _ _ ++ _) in W2. clearbody m2.
  pose proof (wr_length _ _ _ _ W2) as L2. rewrite W2. exists m2. split; [reflexivity|]. split; [lia|].
  assert (N : forall x, nth_error m2 x =
     if (off + p2 <=? x)%nat && (x <? off + p2 + 4)%nat then nth_error (le 4 (Z.shiftr ts 32)) (x - (off + p2))
     else if (off + p1 <=? x)%nat && (x <? off + p1 + 4)%nat then nth_error (le 4 ts) (x - (off + p1)) else nth_error m x).
  { intro x. rewrite (nth_wr _ _ _ _ _ W2), (nth_wr _ _ _ _ _ W1), !le_length. reflexivity. }
  split.
  - intros x Hx. rewrite N. destruct (Nat.leb_spec (off + p2) x); [lia|]. destruct (Nat.leb_spec (off + p1) x); [lia|]. reflexivity.
  - intro r. rewrite N. unfold stamped_byte.
    replace (off + p2 <=? off + r)%nat with (p2 <=? r)%nat by (destruct (Nat.leb_spec p2 r); destruct (Nat.leb_spec (off + p2) (off + r)); auto; lia).
    replace (off + p1 <=? off + r)%nat with (p1 <=? r)%nat by (destruct (Nat.leb_spec p1 r); destruct (Nat.leb_spec (off + p1) (off + r)); auto; lia).
    replace (off + r <? off + p2 + 4)%nat with (r <? p2 + 4)%nat by (destruct (Nat.ltb_spec r (p2 + 4)); destruct (Nat.ltb_spec (off + r) (off + p2 + 4)); auto; lia).
    replace (off + r <? off + p1 + 4)%nat with (r <? p1 + 4)%nat by (destruct (Nat.ltb_spec r (p1 + 4)); destruct (Nat.ltb_spec (off + r) (off + p1 + 4)); auto; lia).
    assert (P : forall p, (off + p + 4 <= length m)%nat -> (p <= r)%nat -> (r < p + 4)%nat -> exists b, nth_error m (off + r) = Some b).
    { intros p Hp Ha Hb. destruct (nth_error m (off + r)) eqn:E; [eauto|]. apply nth_error_None in E. lia. }
    destruct (Nat.leb_spec p2 r); destruct (Nat.ltb_spec r (p2 + 4)); cbn [andb].
    + destruct (Nat.leb_spec p1 r); destruct (Nat.ltb_spec r (p1 + 4)); cbn [andb]; try lia;
        destruct (P p2 H2 ltac:(lia) ltac:(lia)) as (b & ->); cbn [option_map]; rewrite nth_le by lia;
        replace (off + r - (off + p2))%nat with (r - p2)%nat by lia; rewrite Z.shiftr_div_pow2 by lia;
        rewrite Z.div_div by (try apply Z.pow_pos_nonneg; lia); change (2 ^ 32) with (256 ^ Z.of_nat 4);
        rewrite <- Z.pow_add_r, <- Nat2Z.inj_add by lia; reflexivity.
    + destruct (Nat.leb_spec p1 r); destruct (Nat.ltb_spec r (p1 + 4)); cbn [andb]; try (destruct (nth_error m (off + r)); reflexivity).
      destruct (P p1 H1 ltac:(lia) ltac:(lia)) as (b & ->). cbn [option_map]. rewrite nth_le by lia.
      replace (off + r - (off + p1))%nat with (r - p1)%nat by lia. reflexivity.
    + destruct (Nat.leb_spec p1 r); destruct (Nat.ltb_spec r (p1 + 4)); cbn [andb]; try (destruct (nth_error m (off + r)); reflexivity).
      destruct (P p1 H1 ltac:(lia) ltac:(lia)) as (b & ->). cbn [option_map]. rewrite nth_le by lia.
      replace (off + r - (off + p1))%nat with (r - p1)%nat by lia. reflexivity.
    + destruct (Nat.leb_spec p1 r); destruct (Nat.ltb_spec r (p1 + 4)); cbn [andb]; try (destruct (nth_error m (off + r)); reflexivity).
      destruct (P p1 H1 ltac:(lia) ltac:(lia)) as (b & ->). cbn [option_map]. rewrite nth_le by lia.
      replace (off + r - (off + p1))%nat with (r - p1)%nat by lia. reflexivity.
Qed.

Lemma fake_loop_nth p1 p2 stride offset : fields_ok p1 p2 stride -> forall k i ts m, ((i + k) * stride <= length m)%nat ->
  0 <= ts -> 0 <= offset -> ts + Z.of_nat k * offset < two64 ->
  exists m', fake_loop p1 p2 stride k i ts offset m = Ok m' /\ length m' = length m /\
    (forall x, (x < i * stride)%nat -> nth_error m' x = nth_error m x) /\
    (forall j r, (j < k)%nat -> (r < stride)%nat -> nth_error m' ((i + j) * stride + r) =
       option_map (stamped_byte p1 p2 (ts + Z.of_nat j * offset) r) (nth_error m ((i + j) * stride + r))).
Proof.
  intros (F1 & F2 & F3). induction k as [|k IH]; intros i ts m Hl Ht Ho Hb; cbn [fake_loop].
  - exists m. repeat split; auto. intros j r Hj. lia.
  - destruct (split_set_nth p1 p2 (i * stride) ts m) as (m1 & S1 & L1 & B1 & N1); [nia|nia|exact F3|]. rewrite S1. cbn [bind].
    unfold u64. rewrite Z.mod_small by (unfold two64 in *; nia).
    destruct (IH (S i) (ts + offset) m1) as (m' & S2 & L2 & B2 & N2); [nia|lia|lia|lia|]. rewrite S2. exists m'.
    split; [reflexivity|]. split; [lia|]. split.
    + intros x Hx. rewrite B2 by nia. apply B1. exact Hx.
    + intros j r Hj Hr. destruct j as [|j].
      * rewrite Nat.add_0_r. rewrite B2 by nia. rewrite N1. rewrite Z.mul_0_l, Z.add_0_r. reflexivity.
      * replace (i + S j)%nat with (S i + j)%nat by lia. rewrite N2 by lia.
        assert (E : nth_error m1 ((S i + j) * stride + r) = nth_error m ((S i + j) * stride + r)).
        { replace ((S i + j) * stride + r)%nat with (i * stride + (stride + j * stride + r))%nat by nia. rewrite N1.
          destruct (nth_error m (i * stride + (stride + j * stride + r))); [|reflexivity]. cbn [option_map]. unfold stamped_byte.
          destruct (Nat.leb_spec p1 (stride + j * stride + r)); destruct (Nat.ltb_spec (stride + j * stride + r) (p1 + 4)); cbn [andb]; try lia;
          destruct (Nat.leb_spec p2 (stride + j * stride + r)); destruct (Nat.ltb_spec (stride + j * stride + r) (p2 + 4)); cbn [andb]; try lia;
          reflexivity. }
        rewrite E. do 2 f_equal. lia.
Qed.

Lemma rd_map off n m (g : nat -> Z) : (off + n <= length m)%nat -> (forall r, (r < n)%nat -> nth_error m (off + r) = Some (g r)) ->
  rd off n m = Ok (map g (seq 0 n)).
Proof.
  intros H N. pose proof (rd_ok off n m H) as R. rewrite R. f_equal. destruct (rd_nth _ _ _ _ R) as [L E].
  apply list_ext; [rewrite map_length, seq_length; exact L|]. intros i Hi. rewrite L in Hi. rewrite E, N by exact Hi.
  symmetry. apply map_nth_error. rewrite nth_error_nth' with (d := 0%nat) by (rewrite seq_length; exact Hi). rewrite seq_nth by exact Hi. reflexivity.
Qed.

Lemma bytes_sum ts : 0 <= ts < two64 ->
  unle (map (fun r => ts / 256 ^ Z.of_nat r mod 256) (seq 0 4)) +
  Z.shiftl (unle (map (fun r => ts / 256 ^ Z.of_nat (4 + r) mod 256) (seq 0 4))) 32 = ts.
Proof.
  intro H.
  assert (L : forall z, map (fun r => z / 256 ^ Z.of_nat r mod 256) (seq 0 4) = le 4 z).
  { intro z. apply list_ext; [rewrite map_length, seq_length, le_length; reflexivity|]. intros i Hi. rewrite map_length, seq_length in Hi.
    rewrite nth_le by exact Hi. rewrite nth_error_map, (nth_error_nth' _ 0%nat) by (rewrite seq_length; exact Hi).
    rewrite seq_nth by exact Hi. reflexivity. }
  rewrite L.
  replace (map (fun r => ts / 256 ^ Z.of_nat (4 + r) mod 256) (seq 0 4)) with (le 4 (ts / two32)).
  2:{ rewrite <- L. apply map_ext. intro r. rewrite Z.div_div by (try apply Z.pow_pos_nonneg; unfold two32; lia).
      rewrite Nat2Z.inj_add, Z.pow_add_r by lia. reflexivity. }
  rewrite !unle_le, pow4, Z.shiftl_mul_pow2 by lia. change (2 ^ 32) with two32. unfold two64, two32 in *. Z.div_mod_to_equations. lia.
Qed.

Fixpoint increasing (l : list nat) : Prop :=
  match l with [] => True | i :: l' => Forall (fun j => (i < j)%nat) l' /\ increasing l' end.

Lemma increasing_app a b : increasing (a ++ b) <-> increasing a /\ increasing b /\ Forall (fun i => Forall (fun j => (i < j)%nat) b) a.
Proof.
  induction a as [|x a IH]; cbn [app increasing]; [intuition constructor|]. rewrite Forall_app, IH. split.
  - intros ((A1 & A2) & A3 & A4 & A5). repeat split; auto.
  - intros ((A1 & A2) & A3 & A4). inversion A4; subst. repeat split; auto.
Qed.

Lemma increasing_nth l : increasing l -> forall i j x y, (i < j)%nat -> nth_error l i = Some x -> nth_error l j = Some y -> (x < y)%nat.
Proof.
  induction l as [|z l IH]; intros I i j x y Hij Hx Hy; [destruct i; discriminate|]. cbn [increasing] in I. destruct I as [I1 I2].
  destruct j as [|j]; [lia|]. cbn [nth_error] in Hy. destruct i as [|i].
  - cbn in Hx. injection Hx as <-. rewrite Forall_forall in I1. apply I1. eapply nth_error_In. exact Hy.
  - cbn [nth_error] in Hx. apply (IH I2 i j); auto. lia.
Qed.

Section View.
Variable p1 p2 stride : nat.
Hypothesis F : fields_ok p1 p2 stride.

Lemma frame_at_stamped m i ts file : 0 <= ts < two64 -> (i * stride + stride <= length m)%nat ->
  (forall r, (r < stride)%nat -> nth_error m (i * stride + r) = Some (stamped_byte p1 p2 ts r (file r))) ->
  frame_at p1 p2 stride m i = Ok (mk_frame ts (map (fun r => stamped_byte p1 p2 ts r (file r)) (seq 0 stride))).
Proof.
  intros Ht Hl N. destruct F as (F1 & F2 & F3). unfold frame_at, split_get.
  rewrite (rd_map (i * stride + p1) 4 m (fun r => ts / 256 ^ Z.of_nat r mod 256)).
  2:{ lia. }
  2:{ intros r Hr. replace (i * stride + p1 + r)%nat with (i * stride + (p1 + r))%nat by lia. rewrite N by lia. unfold stamped_byte.
      destruct (Nat.leb_spec p1 (p1 + r)); [|lia]. destruct (Nat.ltb_spec (p1 + r) (p1 + 4)); [|lia]. cbn [andb].
      replace (p1 + r - p1)%nat with r by lia. reflexivity. }
  cbn [bind]. rewrite (rd_map (i * stride + p2) 4 m (fun r => ts / 256 ^ Z.of_nat (4 + r) mod 256)).
  2:{ lia. }
  2:{ intros r Hr. replace (i * stride + p2 + r)%nat with (i * stride + (p2 + r))%nat by lia. rewrite N by lia. unfold stamped_byte.
      destruct (Nat.leb_spec p1 (p2 + r)); destruct (Nat.ltb_spec (p2 + r) (p1 + 4)); cbn [andb]; try lia;
      destruct (Nat.leb_spec p2 (p2 + r)); try lia; destruct (Nat.ltb_spec (p2 + r) (p2 + 4)); try lia; cbn [andb];
      replace (p2 + r - p2)%nat with r by lia; reflexivity. }
  cbn [bind]. rewrite bytes_sum by exact Ht. rewrite (rd_map (i * stride) stride m (fun r => stamped_byte p1 p2 ts r (file r))) by (auto; lia).
  reflexivity.
Qed.

Variable c : emu_conf.
Variable t0 : Z.
Hypothesis Hsize : em_size c = (12 * stride)%nat.
Hypothesis Hsrc : (em_size c <= length (em_source c))%nat.
Hypothesis Ht0 : 0 <= t0.
Hypothesis Htick : 0 < em_tick c.

Lemma element_length k : length (element (em_source c) (em_size c) k) = em_size c.
Proof.
  unfold element. rewrite firstn_length, skipn_length.
  destruct F as (F1 & _ & _). assert (P : (0 < em_size c)%nat) by (rewrite Hsize; lia).
  pose proof (Nat.div_str_pos (length (em_source c)) (em_size c) ltac:(lia)) as Q.
  pose proof (Nat.mod_upper_bound k (length (em_source c) / em_size c) ltac:(lia)) as B.
  pose proof (Nat.mul_div_le (length (em_source c)) (em_size c) ltac:(lia)) as M. nia.
Qed.

Lemma frames_stamped m i : length m = (12 * stride)%nat ->
  (forall j r, (j < 12)%nat -> (r < stride)%nat -> nth_error m (j * stride + r) =
     nth_error (f_bytes (slot_frame c p1 p2 stride t0 i j)) r) ->
  slot_time c t0 i + 12 * em_tick c < two64 ->
  forall k j, (j + k <= 12)%nat -> frames_at p1 p2 stride m k j = Ok (map (slot_frame c p1 p2 stride t0 i) (seq j k)).
Proof.
  intros L N B. induction k as [|k IH]; intros j Hj; [reflexivity|]. cbn [frames_at seq map].
  rewrite (frame_at_stamped m j (f_ts (slot_frame c p1 p2 stride t0 i j))
             (fun r => nth (j * stride + r) (element (em_source c) (em_size c) (produced (em_dropouts c) i)) 0)).
  - cbn [bind]. rewrite IH by lia. reflexivity.
  - cbn [slot_frame f_ts]. unfold slot_time in B. nia.
  - nia.
  - intros r Hr. rewrite N by lia. cbn [slot_frame f_bytes f_ts].
    rewrite nth_error_map, (nth_error_nth' _ 0%nat) by (rewrite seq_length; exact Hr). rewrite seq_nth by exact Hr. reflexivity.
Qed.

(** What the producer pushes for slot [i] is seen by the link as the specified element. *)
Lemma stamp_view i : slot_time c t0 i + 12 * em_tick c < two64 ->
  exists m, fake_timestamps p1 p2 stride (slot_time c t0 i) (em_tick c)
              (element (em_source c) (em_size c) (produced (em_dropouts c) i)) = Ok m /\
            view p1 p2 stride m = Ok (slot_elem c p1 p2 stride t0 i).
Proof.
  intro B. set (file := element _ _ _). assert (L : length file = (12 * stride)%nat) by (unfold file; rewrite element_length; exact Hsize).
  unfold fake_timestamps.
  destruct (fake_loop_nth p1 p2 stride (em_tick c) F 12 0 (slot_time c t0 i) file) as (m & E & Lm & _ & N).
  - lia.
  - unfold slot_time. nia.
  - lia.
  - lia.
  - exists m. split; [exact E|]. unfold view. rewrite (frames_stamped m i).
    + reflexivity.
    + lia.
    + intros j r Hj Hr. specialize (N j r Hj Hr). rewrite Nat.add_0_l in N. rewrite N. cbn [slot_frame f_bytes].
      rewrite nth_error_map, (nth_error_nth' _ 0%nat) by (rewrite seq_length; exact Hr). rewrite seq_nth by exact Hr. cbn [option_map Nat.add].
      rewrite (nth_error_nth' _ 0) by (rewrite L; nia). cbn [option_map]. do 2 f_equal. unfold slot_time. lia.
    + exact B.
    + lia.
Qed.

Lemma slot_elem_ts i : e_ts (slot_elem c p1 p2 stride t0 i) = slot_time c t0 i.
Proof. clear. unfold slot_elem. cbn [e_ts e_frames seq map slot_frame f_ts]. unfold slot_time. cbn [Z.of_nat]. lia. Qed.

Lemma slot_elem_num i : e_num (slot_elem c p1 p2 stride t0 i) = 12.
Proof. reflexivity. Qed.

Lemma slot_elem_regular i : slot_time c t0 i + 12 * em_tick c < two64 -> regular (em_tick c) (slot_elem c p1 p2 stride t0 i).
Proof.
  clear F Hsize Hsrc. intro B. split; [discriminate|]. rewrite slot_elem_ts, slot_elem_num. split; [unfold slot_time; nia|]. split; [|lia].
  intros k f Hf. unfold slot_elem in Hf. cbn [e_frames] in Hf. rewrite nth_error_map in Hf.
  destruct (nth_error (seq 0 12) k) as [j|] eqn:Ej; [|discriminate]. cbn [option_map] in Hf. injection Hf as <-.
  assert (k < 12)%nat by (rewrite <- (seq_length 12 0); apply nth_error_Some; congruence).
  rewrite (nth_error_nth' _ 0%nat) in Ej by (rewrite seq_length; assumption). rewrite seq_nth in Ej by assumption. injection Ej as <-.
  cbn [slot_frame f_ts Nat.add]. unfold slot_time. lia.
Qed.

Lemma slots_wf l (bound : nat) : increasing l -> Forall (fun i => (i < bound)%nat) l -> t0 + Z.of_nat bound * (12 * em_tick c) < two64 ->
  wf (em_tick c) (map (slot_elem c p1 p2 stride t0) l).
Proof.
  clear F Hsize Hsrc. intros I Hb B. split.
  - apply Forall_map. eapply Forall_impl; [|exact Hb]. intros i Hi. cbn beta in Hi. apply slot_elem_regular. unfold slot_time.
    assert ((Z.of_nat i + 1) * (12 * em_tick c) <= Z.of_nat bound * (12 * em_tick c)) by (apply Z.mul_le_mono_nonneg_r; lia). rewrite Z.mul_add_distr_r in *. lia.
  - intros i j x y f Hij Hx Hy Hf. rewrite nth_error_map in Hx, Hy.
    destruct (nth_error l i) as [a|] eqn:Ea; [|discriminate]. destruct (nth_error l j) as [b|] eqn:Eb; [|discriminate].
    cbn [option_map] in Hx, Hy. injection Hx as <-. injection Hy as <-. rewrite slot_elem_ts.
    pose proof (increasing_nth l I i j a b Hij Ea Eb) as Lt. unfold slot_elem in Hf. cbn [e_frames] in Hf.
    apply in_map_iff in Hf as (k & <- & Hk). apply in_seq in Hk. cbn [slot_frame f_ts]. unfold slot_time.
    assert (Z.of_nat a * 12 + Z.of_nat k < Z.of_nat b * 12) by lia. nia.
Qed.
End View.
