(** Lemmas about the ring model. *)
From Coq Require Import ZArith List Bool Lia ZifyBool.
From Verif Require Import Base_model Ring_model Ring_spec.
Import ListNotations.
Open Scope Z_scope.

Lemma wrap_add : forall n a k, 0 <= a < n -> 0 <= k <= n ->
  (a + k) mod n = if a + k <? n then a + k else a + k - n.
Proof.
  intros n a k Ha Hk. destruct (a + k <? n) eqn:E.
  - apply Z.mod_small. lia.
  - symmetry. apply Z.mod_unique with (q := 1); lia.
Qed.

Lemma u32_small : forall z, 0 <= z < two32 -> u32 z = z.
Proof. intros. unfold u32. apply Z.mod_small. assumption. Qed.

Lemma i32_small : forall z, -2147483648 <= z < 2147483648 -> i32 z = z.
Proof. intros. unfold i32, two32. rewrite Z.mod_small; lia. Qed.

Lemma u64_small : forall z, 0 <= z < two64 -> u64 z = z.
Proof. intros. unfold u64. apply Z.mod_small. assumption. Qed.

Lemma next_index_spec : forall n i, 2 <= n <= 2147483648 -> 0 <= i < n ->
  next_index n i = if i + 1 =? n then 0 else i + 1.
Proof.
  intros n i Hn Hi. unfold next_index. rewrite u32_small; [reflexivity|unfold two32; lia].
Qed.

Section Proofs.
Context {A : Type}.

Record holds (r : ring A) (l : list A) : Prop := {
  h_size : 2 <= r_size r <= 2147483648;
  h_read : 0 <= r_read r < r_size r;
  h_len : Z.of_nat (length l) < r_size r;
  h_write : r_write r = (r_read r + Z.of_nat (length l)) mod r_size r;
  h_slots : forall k, 0 <= k < r_size r ->
            r_slots r ((r_read r + k) mod r_size r) = nth_error l (Z.to_nat k)
}.

Lemma holds_write_range : forall r l, holds r l -> 0 <= r_write r < r_size r.
Proof.
  intros r l H. destruct H. rewrite h_write0. apply Z.mod_pos_bound. lia.
Qed.

Lemma holds_write_cases : forall r l, holds r l ->
  r_write r = if r_read r + Z.of_nat (length l) <? r_size r
              then r_read r + Z.of_nat (length l)
              else r_read r + Z.of_nat (length l) - r_size r.
Proof.
  intros r l H. destruct H. rewrite h_write0. apply wrap_add; lia.
Qed.

Lemma holds_empty_iff : forall r l, holds r l -> (r_read r =? r_write r) = (Z.of_nat (length l) =? 0).
Proof.
  intros r l H. pose proof (holds_write_cases r l H) as Hw. destruct H.
  destruct (r_read r + Z.of_nat (length l) <? r_size r) eqn:E; lia.
Qed.

Lemma holds_new : forall n ov, supported_size n ->
  holds (mk_ring n (fun _ => None) 0 0 ov) [].
Proof.
  intros n ov Hn. unfold supported_size in Hn. split; cbn [r_size r_slots r_read r_write r_overflow length]; try lia.
  - rewrite Z.mod_small; lia.
  - intros k Hk. destruct (Z.to_nat k); reflexivity.
Qed.

Lemma holds_full_iff : forall r l, holds r l ->
  (next_index (r_size r) (r_write r) =? r_read r) = (Z.of_nat (length l) =? r_size r - 1).
Proof.
  intros r l H. pose proof (holds_write_cases r l H) as Hw. pose proof (holds_write_range r l H) as Hr. destruct H.
  rewrite next_index_spec by lia.
  destruct (r_write r + 1 =? r_size r) eqn:E1;
  destruct (r_read r + Z.of_nat (length l) <? r_size r) eqn:E; lia.
Qed.

Lemma write_ok : forall r l x, holds r l -> Z.of_nat (length l) < r_size r - 1 ->
  exists r', write x r = Ok (r', true) /\ holds r' (l ++ [x]) /\
             r_size r' = r_size r /\ r_overflow r' = r_overflow r.
Proof.
  intros r l x H Hlt.
  pose proof (holds_full_iff r l H) as Hf.
  pose proof (holds_write_cases r l H) as Hwc.
  pose proof (holds_write_range r l H) as Hr.
  unfold write. rewrite Hf.
  destruct (Z.of_nat (length l) =? r_size r - 1) eqn:E; [lia|]. cbn [negb].
  destruct H as [Hs Hrd Hln Hw Hsl].
  assert (r_slots r (r_write r) = None) as Hnone.
  { rewrite Hw. rewrite Hsl by lia. apply nth_error_None. lia. }
  rewrite Hnone. eexists. split; [reflexivity|]. split; [|split; reflexivity].
  split; cbn [r_size r_slots r_read r_write r_overflow]; try rewrite app_length; cbn [length]; try lia.
  - rewrite next_index_spec by lia.
    rewrite wrap_add by lia.
    destruct (r_write r + 1 =? r_size r) eqn:E1;
    destruct (r_read r + Z.of_nat (length l) <? r_size r) eqn:E2;
    destruct (r_read r + Z.of_nat (length l + 1) <? r_size r) eqn:E3; lia.
  - intros k Hk. unfold upd.
    destruct ((r_read r + k) mod r_size r =? r_write r) eqn:E1.
    + assert (k = Z.of_nat (length l)) as Hk'.
      { rewrite wrap_add in E1 by lia.
        destruct (r_read r + k <? r_size r) eqn:E2;
        destruct (r_read r + Z.of_nat (length l) <? r_size r) eqn:E3; lia. }
      subst k. rewrite Nat2Z.id. rewrite nth_error_app2 by lia.
      rewrite Nat.sub_diag. reflexivity.
    + rewrite Hsl by lia.
      assert (k <> Z.of_nat (length l)) as Hk'.
      { intros ->. rewrite <- Hw in E1. lia. }
      destruct (Z.to_nat k <? length l)%nat eqn:E2.
      * rewrite nth_error_app1 by lia. reflexivity.
      * transitivity (@None A); [apply nth_error_None; lia|symmetry; apply nth_error_None].
        rewrite app_length. cbn [length]. lia.
Qed.

Lemma write_full : forall r l x, holds r l -> Z.of_nat (length l) = r_size r - 1 ->
  exists r', write x r = Ok (r', false) /\ holds r' l /\
             r_size r' = r_size r /\ r_overflow r' = i32 (r_overflow r + 1).
Proof.
  intros r l x H Hlt.
  pose proof (holds_full_iff r l H) as Hf.
  unfold write. rewrite Hf.
  destruct (Z.of_nat (length l) =? r_size r - 1) eqn:E; [|lia]. cbn [negb].
  eexists. split; [reflexivity|]. split; [|split; reflexivity].
  destruct H; split; assumption.
Qed.

Lemma drop_front : forall r l x, holds r (x :: l) ->
  r_slots r (r_read r) = Some x /\
  holds (mk_ring (r_size r) (upd (r_slots r) (r_read r) None)
                 (next_index (r_size r) (r_read r)) (r_write r) (r_overflow r)) l.
Proof.
  intros r l x H.
  pose proof (holds_write_cases _ _ H) as Hwc.
  destruct H as [Hs Hrd Hln Hw Hsl]. cbn [length] in *.
  assert (r_slots r (r_read r) = Some x) as Hx.
  { specialize (Hsl 0 ltac:(lia)). rewrite Z.add_0_r, Z.mod_small in Hsl by lia. exact Hsl. }
  split; [exact Hx|].
  split; cbn [r_size r_slots r_read r_write r_overflow]; try lia.
  - rewrite next_index_spec by lia. destruct (r_read r + 1 =? r_size r) eqn:E; lia.
  - rewrite next_index_spec by lia.
    destruct (r_read r + 1 =? r_size r) eqn:E.
    + rewrite wrap_add by lia.
      destruct (r_read r + Z.of_nat (S (length l)) <? r_size r) eqn:E2;
      destruct (0 + Z.of_nat (length l) <? r_size r) eqn:E3; lia.
    + rewrite wrap_add by lia.
      destruct (r_read r + Z.of_nat (S (length l)) <? r_size r) eqn:E2;
      destruct (r_read r + 1 + Z.of_nat (length l) <? r_size r) eqn:E3; lia.
  - intros k Hk. rewrite next_index_spec by lia. unfold upd.
    assert (((if r_read r + 1 =? r_size r then 0 else r_read r + 1) + k) mod r_size r
            = (r_read r + (if k =? r_size r - 1 then 0 else k + 1)) mod r_size r) as Heq.
    { destruct (k =? r_size r - 1) eqn:E1; destruct (r_read r + 1 =? r_size r) eqn:E.
      - rewrite !wrap_add by lia.
        destruct (0 + k <? r_size r) eqn:E2; destruct (r_read r + 0 <? r_size r) eqn:E3; lia.
      - rewrite !wrap_add by lia.
        destruct (r_read r + 1 + k <? r_size r) eqn:E2; destruct (r_read r + 0 <? r_size r) eqn:E3; lia.
      - rewrite !wrap_add by lia.
        destruct (0 + k <? r_size r) eqn:E2; destruct (r_read r + (k + 1) <? r_size r) eqn:E3; lia.
      - rewrite !wrap_add by lia.
        destruct (r_read r + 1 + k <? r_size r) eqn:E2; destruct (r_read r + (k + 1) <? r_size r) eqn:E3; lia. }
    rewrite Heq.
    destruct (k =? r_size r - 1) eqn:E1.
    + rewrite Z.add_0_r, Z.mod_small by lia. rewrite Z.eqb_refl.
      symmetry. apply nth_error_None. lia.
    + destruct ((r_read r + (k + 1)) mod r_size r =? r_read r) eqn:E2.
      * rewrite wrap_add in E2 by lia.
        destruct (r_read r + (k + 1) <? r_size r) eqn:E3; lia.
      * rewrite Hsl by lia. replace (Z.to_nat (k + 1)) with (S (Z.to_nat k)) by lia. reflexivity.
Qed.

Lemma read_nil : forall r, holds r [] -> read r = Ok (r, None).
Proof.
  intros r H. unfold read. rewrite (holds_empty_iff _ _ H). reflexivity.
Qed.

Lemma read_cons : forall r x l, holds r (x :: l) ->
  exists r', read r = Ok (r', Some x) /\ holds r' l /\ r_size r' = r_size r /\ r_overflow r' = r_overflow r.
Proof.
  intros r x l H. destruct (drop_front _ _ _ H) as [Hx Hr].
  unfold read. rewrite (holds_empty_iff _ _ H). cbn [length].
  destruct (Z.of_nat (S (length l)) =? 0) eqn:E; [lia|]. rewrite Hx.
  eexists. split; [reflexivity|]. split; [exact Hr|]. split; reflexivity.
Qed.

Lemma popFront_nil : forall r, holds r [] -> popFront r = Crash.
Proof.
  intros r H. unfold popFront. rewrite (holds_empty_iff _ _ H). reflexivity.
Qed.

Lemma popFront_cons : forall r x l, holds r (x :: l) ->
  exists r', popFront r = Ok r' /\ holds r' l /\ r_size r' = r_size r /\ r_overflow r' = r_overflow r.
Proof.
  intros r x l H. destruct (drop_front _ _ _ H) as [Hx Hr].
  unfold popFront. rewrite (holds_empty_iff _ _ H). cbn [length].
  destruct (Z.of_nat (S (length l)) =? 0) eqn:E; [lia|]. rewrite Hx.
  eexists. split; [reflexivity|]. split; [exact Hr|]. split; reflexivity.
Qed.

Lemma pop_ok : forall n r l, holds r l -> (n <= length l)%nat ->
  exists r', pop n r = Ok r' /\ holds r' (skipn n l) /\ r_size r' = r_size r /\ r_overflow r' = r_overflow r.
Proof.
  induction n as [|n IH]; intros r l H Hn.
  - exists r. repeat split; try reflexivity; apply H.
  - destruct l as [|x l]; cbn [length] in Hn; [lia|].
    destruct (popFront_cons _ _ _ H) as (r1 & E1 & H1 & S1 & O1).
    destruct (IH r1 l H1 ltac:(lia)) as (r2 & E2 & H2 & S2 & O2).
    exists r2. cbn [pop skipn]. rewrite E1. repeat split; try assumption; try apply H2; congruence.
Qed.

Lemma pop_too_many : forall n r l, holds r l -> (length l < n)%nat -> pop n r = Crash.
Proof.
  induction n as [|n IH]; intros r l H Hn; [lia|].
  cbn [pop]. destruct l as [|x l]; cbn [length] in Hn.
  - rewrite (popFront_nil _ H). reflexivity.
  - destruct (popFront_cons _ _ _ H) as (r1 & E1 & H1 & _). rewrite E1.
    apply IH with l; [assumption|lia].
Qed.

Lemma occupancy_ok : forall r l, holds r l -> occupancy r = Z.of_nat (length l).
Proof.
  intros r l H. pose proof (holds_write_cases _ _ H) as Hwc.
  pose proof (holds_write_range _ _ H) as Hr. destruct H.
  unfold occupancy.
  rewrite (i32_small (r_write r)) by lia. rewrite (i32_small (r_read r)) by lia.
  destruct (r_read r + Z.of_nat (length l) <? r_size r) eqn:E.
  - destruct (r_write r - r_read r <? 0) eqn:E1; lia.
  - destruct (r_write r - r_read r <? 0) eqn:E1; [|lia].
    destruct (Z.eq_dec (r_size r) 2147483648) as [Es|Es].
    + rewrite Es. unfold i32, two32.
      replace ((2147483648 + 2147483648) mod 4294967296 - 2147483648) with (-2147483648) by reflexivity.
      replace (r_write r - r_read r + -2147483648 + 2147483648) with (r_write r - r_read r) by lia.
      replace (r_write r - r_read r) with (Z.of_nat (length l) + (-1) * 2147483648) by lia.
      assert ((Z.of_nat (length l) + -1 * 2147483648) mod 4294967296 = Z.of_nat (length l) + 2147483648) as ->.
      { symmetry. apply Z.mod_unique with (q := -1); lia. }
      lia.
    + rewrite (i32_small (r_size r)) by lia. rewrite i32_small by lia. lia.
Qed.

Lemma flush_ok : forall r l, holds r l ->
  exists r', flush r = Ok r' /\ holds r' [] /\ r_size r' = r_size r /\ r_overflow r' = r_overflow r.
Proof.
  intros r l H. unfold flush. rewrite (occupancy_ok _ _ H). rewrite Nat2Z.id.
  destruct (pop_ok (length l) r l H (le_n _)) as (r' & E & H' & S' & O').
  rewrite skipn_all in H'. exists r'. auto.
Qed.

Lemma front_ok : forall r l, holds r l -> deref_opt r (front r) = Ok (hd_error l).
Proof.
  intros r l H. unfold front. rewrite (holds_empty_iff _ _ H).
  destruct l as [|x l]; [reflexivity|]. cbn [length].
  destruct (Z.of_nat (S (length l)) =? 0) eqn:E; [lia|].
  cbn [deref_opt]. unfold deref. destruct (drop_front _ _ _ H) as [Hx _]. rewrite Hx. reflexivity.
Qed.

Lemma hd_rev_last : forall (l : list A), hd_error (rev l) = nth_error l (length l - 1).
Proof.
  intros l. destruct l as [|x l] using rev_ind; [reflexivity|].
  rewrite rev_app_distr. cbn [rev app hd_error]. rewrite app_length. cbn [length].
  rewrite nth_error_app2 by lia. replace (length l + 1 - 1 - length l)%nat with O by lia. reflexivity.
Qed.

Lemma back_index : forall r l, holds r l -> l <> [] ->
  back r = Some ((r_read r + (Z.of_nat (length l) - 1)) mod r_size r).
Proof.
  intros r l H Hne. pose proof (holds_empty_iff _ _ H) as He.
  pose proof (holds_write_cases _ _ H) as Hwc. pose proof (holds_write_range _ _ H) as Hr.
  assert (0 < Z.of_nat (length l)) as Hpos by (destruct l; [congruence|cbn [length]; lia]).
  unfold back. rewrite Z.eqb_sym, He.
  destruct (Z.of_nat (length l) =? 0) eqn:E; [lia|]. f_equal.
  destruct H. rewrite wrap_add by lia.
  rewrite (i32_small (r_write r)) by lia.
  destruct (r_write r =? 0) eqn:E1;
  destruct (r_read r + Z.of_nat (length l) <? r_size r) eqn:E2;
  destruct (r_read r + (Z.of_nat (length l) - 1) <? r_size r) eqn:E3; try lia.
  rewrite i32_small by lia. lia.
Qed.

Lemma back_ok : forall r l, holds r l -> deref_opt r (back r) = Ok (hd_error (rev l)).
Proof.
  intros r l H. destruct l as [|y l0] eqn:El.
  - unfold back. rewrite Z.eqb_sym, (holds_empty_iff _ _ H). reflexivity.
  - rewrite <- El in *. assert (l <> []) as Hne by congruence.
    rewrite (back_index _ _ H Hne). cbn [deref_opt]. unfold deref.
    assert (0 < Z.of_nat (length l)) as Hpos by (rewrite El; cbn [length]; lia).
    destruct H. rewrite h_slots0 by lia. rewrite hd_rev_last.
    replace (Z.to_nat (Z.of_nat (length l) - 1)) with (length l - 1)%nat by lia.
    destruct (nth_error l (length l - 1)) eqn:E; [reflexivity|].
    apply nth_error_None in E. lia.
Qed.

Lemma prealloc_ok : forall k d r l, holds r l -> Z.of_nat (length l + k) < r_size r ->
  exists r', prealloc k d r = Ok r' /\ holds r' (l ++ repeat d k) /\ r_size r' = r_size r
             /\ r_overflow r' = r_overflow r.
Proof.
  induction k as [|k IH]; intros d r l H Hk.
  - exists r. rewrite app_nil_r. auto.
  - destruct (write_ok r l d H ltac:(lia)) as (r1 & E1 & H1 & S1 & O1).
    destruct (IH d r1 (l ++ [d]) H1) as (r2 & E2 & H2 & S2 & O2).
    { rewrite app_length. cbn [length]. rewrite S1. lia. }
    exists r2. cbn [prealloc]. unfold write_. rewrite E1. rewrite E2.
    rewrite <- app_assoc in H2. cbn [app] in H2. cbn [repeat].
    repeat split; try reflexivity; try apply H2; congruence.
Qed.

Lemma conf_ok : forall n pre d r, supported_size n ->
  exists r', conf n pre d r = Ok r' /\ holds r' [] /\ r_size r' = n /\ r_overflow r' = r_overflow r.
Proof.
  intros n pre d r Hn. unfold conf, supported_size in *.
  destruct (n <? 2) eqn:E; [lia|].
  assert (u32 n = n) as Hu by (apply u32_small; unfold two32; lia). rewrite Hu.
  set (r0 := mk_ring n (fun _ : Z => @None A) 0 0 (r_overflow r)).
  assert (holds r0 []) as H0 by (apply holds_new; exact Hn).
  destruct pre.
  - destruct (prealloc_ok (Z.to_nat (r_size r0 - 1)) d r0 [] H0) as (r1 & E1 & H1 & S1 & O1).
    { unfold r0. cbn [length r_size]. lia. }
    rewrite E1. destruct (flush_ok _ _ H1) as (r2 & E2 & H2 & S2 & O2).
    exists r2. rewrite E2. repeat split; try reflexivity; try apply H2.
    + rewrite S2, S1. reflexivity.
    + rewrite O2, O1. reflexivity.
  - exists r0. repeat split; try reflexivity; apply H0.
Qed.

(** The simulation relation between ring and queue. *)
Definition sim (r : ring A) (q : queue A) : Prop := holds r (q_items q) /\ r_size r = q_size q.

Lemma step_sim : forall r q o, sim r q -> supported_op o ->
  match step r o, q_step q o with
  | Ok (r', y), Ok (q', y') => y = y' /\ sim r' q'
  | Crash, Crash => True
  | _, _ => False
  end.
Proof.
  intros r q o [H Hsz] Ho. destruct q as [n l]. cbn [q_items q_size] in *.
  destruct o; cbn [step q_step q_items q_size bind].
  - destruct (Z.of_nat (length l) <? n - 1) eqn:E.
    + destruct (write_ok r l x H ltac:(lia)) as (r' & Er & H' & S' & _). rewrite Er. cbn [bind].
      split; [reflexivity|]. split; cbn [q_items q_size]; [assumption|congruence].
    + pose proof (h_len _ _ H). destruct (write_full r l x H ltac:(lia)) as (r' & Er & H' & S' & _). rewrite Er. cbn [bind].
      split; [reflexivity|]. split; cbn [q_items q_size]; [assumption|congruence].
  - destruct l as [|x l].
    + rewrite (read_nil _ H). cbn [bind]. split; [reflexivity|]. split; assumption.
    + destruct (read_cons _ _ _ H) as (r' & Er & H' & S' & _). rewrite Er. cbn [bind].
      split; [reflexivity|]. split; cbn [q_items q_size]; [assumption|congruence].
  - destruct (n0 <=? length l)%nat eqn:E.
    + destruct (pop_ok n0 r l H ltac:(lia)) as (r' & Er & H' & S' & _). rewrite Er. cbn [bind].
      split; [reflexivity|]. split; cbn [q_items q_size]; [assumption|congruence].
    + rewrite (pop_too_many n0 r l H ltac:(lia)). exact I.
  - destruct (flush_ok _ _ H) as (r' & Er & H' & S' & _). rewrite Er. cbn [bind].
    split; [reflexivity|]. split; cbn [q_items q_size]; [assumption|congruence].
  - rewrite (front_ok _ _ H). cbn [bind]. split; [reflexivity|split; assumption].
  - rewrite (back_ok _ _ H). cbn [bind]. split; [reflexivity|split; assumption].
  - rewrite (occupancy_ok _ _ H). split; [reflexivity|split; assumption].
  - unfold isEmpty. rewrite (holds_empty_iff _ _ H). split; [reflexivity|split; assumption].
  - unfold isFull. rewrite (holds_full_iff _ _ H). rewrite Hsz.
    split; [|split; assumption]. destruct (Z.of_nat (length l) =? n - 1); reflexivity.
  - unfold capacity. rewrite Hsz. split; [reflexivity|split; assumption].
  - unfold get_size. rewrite Hsz. split; [reflexivity|split; assumption].
  - destruct (n0 <? 2) eqn:E.
    + unfold conf. rewrite E. exact I.
    + cbn [supported_op] in Ho.
      destruct (conf_ok n0 pre dflt r) as (r' & Er & H' & S' & _); [unfold supported_size; lia|].
      rewrite Er. cbn [bind]. split; [reflexivity|]. split; cbn [q_items q_size]; assumption.
Qed.

Lemma run_sim : forall ops r q, sim r q -> Forall supported_op ops ->
  fst (run r ops) = fst (q_run q ops) /\
  match snd (run r ops), snd (q_run q ops) with
  | Ok r', Ok q' => sim r' q'
  | Crash, Crash => True
  | _, _ => False
  end.
Proof.
  induction ops as [|o ops IH]; intros r q H Hf.
  - split; [reflexivity|]. exact H.
  - inversion Hf as [|? ? Ho Hops]; subst.
    pose proof (step_sim r q o H Ho) as Hs. cbn [run q_run].
    destruct (step r o) as [[r' y]|], (q_step q o) as [[q' y']|]; try contradiction.
    + destruct Hs as [-> Hs]. specialize (IH r' q' Hs Hops).
      destruct (run r' ops) as [ys rf], (q_run q' ops) as [ys' qf]. cbn [fst snd] in *.
      destruct IH as [-> IH]. split; [reflexivity|exact IH].
    + split; reflexivity.
Qed.

Lemma new_sim : forall n, supported_size n -> exists r, ring_new n = Ok r /\ sim r (q_new n) /\ r_overflow r = 0.
Proof.
  intros n Hn. unfold ring_new. unfold supported_size in Hn. destruct (n <? 2) eqn:E; [lia|].
  rewrite u32_small by (unfold two32; lia).
  eexists. split; [reflexivity|]. split; [|reflexivity]. split; [|reflexivity].
  apply holds_new. exact Hn.
Qed.

(** Overflow counter. *)
Lemma i32_add_l : forall a b, i32 (i32 a + b) = i32 (a + b).
Proof.
  intros a b. unfold i32. f_equal.
  replace ((a + 2147483648) mod two32 - 2147483648 + b + 2147483648)
    with ((a + 2147483648) mod two32 + b) by lia.
  rewrite Zplus_mod_idemp_l. f_equal. lia.
Qed.

Lemma step_overflow : forall r q o r' y, sim r q -> supported_op o -> step r o = Ok (r', y) ->
  r_overflow r' = i32 (r_overflow r + refused o (Ok y)) \/
  (r_overflow r' = r_overflow r /\ refused o (Ok y) = 0).
Proof.
  intros r q o r' y [H Hsz] Ho E. destruct q as [n l]. cbn [q_items q_size] in *.
  destruct o; cbn [step bind] in E.
  - destruct (Z.of_nat (length l) <? r_size r - 1) eqn:El.
    + destruct (write_ok r l x H ltac:(lia)) as (r1 & Er & H' & S' & O'). rewrite Er in E. cbn [bind] in E.
      injection E as <- <-. right. split; [assumption|reflexivity].
    + pose proof (h_len _ _ H). destruct (write_full r l x H ltac:(lia)) as (r1 & Er & H' & S' & O').
      rewrite Er in E. cbn [bind] in E. injection E as <- <-. left. exact O'.
  - destruct l as [|x l].
    + rewrite (read_nil _ H) in E. cbn [bind] in E. injection E as <- <-. right. split; reflexivity.
    + destruct (read_cons _ _ _ H) as (r1 & Er & H' & S' & O'). rewrite Er in E. cbn [bind] in E.
      injection E as <- <-. right. split; [assumption|reflexivity].
  - destruct (n0 <=? length l)%nat eqn:El.
    + destruct (pop_ok n0 r l H ltac:(lia)) as (r1 & Er & H' & S' & O'). rewrite Er in E. cbn [bind] in E.
      injection E as <- <-. right. split; [assumption|reflexivity].
    + rewrite (pop_too_many n0 r l H ltac:(lia)) in E. discriminate.
  - destruct (flush_ok _ _ H) as (r1 & Er & H' & S' & O'). rewrite Er in E. cbn [bind] in E.
    injection E as <- <-. right. split; [assumption|reflexivity].
  - rewrite (front_ok _ _ H) in E. cbn [bind] in E. injection E as <- <-. right. split; reflexivity.
  - rewrite (back_ok _ _ H) in E. cbn [bind] in E. injection E as <- <-. right. split; reflexivity.
  - injection E as <- <-. right. split; reflexivity.
  - injection E as <- <-. right. split; reflexivity.
  - injection E as <- <-. right. split; reflexivity.
  - injection E as <- <-. right. split; reflexivity.
  - injection E as <- <-. right. split; reflexivity.
  - cbn [supported_op] in Ho. destruct (n0 <? 2) eqn:E2.
    + unfold conf in E. rewrite E2 in E. discriminate.
    + destruct (conf_ok n0 pre dflt r) as (r1 & Er & H' & S' & O'); [unfold supported_size; lia|].
      rewrite Er in E. cbn [bind] in E. injection E as <- <-. right. split; [assumption|reflexivity].
Qed.

Lemma run_overflow : forall ops r q rf, sim r q -> Forall supported_op ops ->
  snd (run r ops) = Ok rf ->
  i32 (r_overflow r) = r_overflow r ->
  r_overflow rf = i32 (r_overflow r + count_refused ops (fst (run r ops))).
Proof.
  induction ops as [|o ops IH]; intros r q rf H Hf E Hi.
  - cbn in E. injection E as <-. cbn [run fst count_refused]. rewrite Z.add_0_r. congruence.
  - inversion Hf as [|? ? Ho Hops]; subst.
    pose proof (step_sim r q o H Ho) as Hs.
    cbn [run] in *. destruct (step r o) as [[r' y]|] eqn:Es; [|discriminate].
    destruct (q_step q o) as [[q' y']|]; [|contradiction]. destruct Hs as [_ Hs].
    pose proof (step_overflow r q o r' y H Ho Es) as Hov.
    specialize (IH r' q' rf Hs Hops).
    destruct (run r' ops) as [ys rf'] eqn:Er. cbn [fst snd] in *.
    cbn [count_refused].
    assert (i32 (r_overflow r') = r_overflow r') as Hi'.
    { destruct Hov as [->|[-> _]]; [|assumption].
      pose proof (i32_add_l (r_overflow r + refused o (Ok y)) 0) as X. rewrite !Z.add_0_r in X. exact X. }
    rewrite (IH E Hi'). destruct Hov as [->|[-> ->]].
    + rewrite i32_add_l. f_equal. lia.
    + f_equal.
Qed.

(** Iterator. *)
Lemma good_index : forall r l k, holds r l -> 0 <= k < r_size r ->
  it_good r ((r_read r + k) mod r_size r) = (k <? Z.of_nat (length l)).
Proof.
  intros r l k H Hk. pose proof (holds_write_cases _ _ H) as Hwc.
  pose proof (holds_write_range _ _ H) as Hr. destruct H.
  unfold it_good, it_end, max_u32. rewrite wrap_add by lia.
  destruct (r_read r + k <? r_size r) eqn:E1;
  destruct (r_read r + Z.of_nat (length l) <? r_size r) eqn:E2; lia.
Qed.

Lemma good_end : forall r : ring A, it_good r it_end = false.
Proof. intros r. unfold it_good. rewrite Z.eqb_refl. reflexivity. Qed.

Lemma incr_index : forall r l k, holds r l -> 0 <= k < Z.of_nat (length l) ->
  it_incr r ((r_read r + k) mod r_size r) =
  if k + 1 <? Z.of_nat (length l) then (r_read r + (k + 1)) mod r_size r else it_end.
Proof.
  intros r l k H Hk. pose proof (h_len _ _ H) as Hl.
  unfold it_incr. rewrite (good_index _ _ _ H) by lia.
  destruct (k <? Z.of_nat (length l)) eqn:E1; [|lia].
  cbv zeta.
  assert ((if u32 ((r_read r + k) mod r_size r + 1) =? r_size r then 0
           else u32 ((r_read r + k) mod r_size r + 1))
          = (r_read r + (k + 1)) mod r_size r) as Hj.
  { destruct H. rewrite !wrap_add by lia.
    destruct (r_read r + k <? r_size r) eqn:E2.
    - rewrite u32_small by (unfold two32; lia).
      destruct (r_read r + k + 1 =? r_size r) eqn:E3;
      destruct (r_read r + (k + 1) <? r_size r) eqn:E4; lia.
    - rewrite u32_small by (unfold two32; lia).
      destruct (r_read r + k - r_size r + 1 =? r_size r) eqn:E3;
      destruct (r_read r + (k + 1) <? r_size r) eqn:E4; lia. }
  rewrite Hj.
  destruct (Z.eq_dec (k + 1) (r_size r)) as [E|E].
  - lia.
  - rewrite (good_index _ _ (k + 1) H) by lia.
    destruct (k + 1 <? Z.of_nat (length l)); reflexivity.
Qed.

Lemma index_not_end : forall r l k, holds r l -> ((r_read r + k) mod r_size r =? it_end) = false.
Proof.
  intros r l k H. destruct H. pose proof (Z.mod_pos_bound (r_read r + k) (r_size r) ltac:(lia)).
  unfold it_end, max_u32. lia.
Qed.

Lemma deref_index : forall r l k x, holds r l -> nth_error l k = Some x ->
  deref r ((r_read r + Z.of_nat k) mod r_size r) = Ok x.
Proof.
  intros r l k x H Hx. assert (k < length l)%nat by (apply nth_error_Some; congruence).
  destruct H. unfold deref. rewrite h_slots0 by lia. rewrite Nat2Z.id, Hx. reflexivity.
Qed.

Lemma skipn_cons_nth : forall (l : list A) k x, nth_error l k = Some x -> skipn k l = x :: skipn (S k) l.
Proof.
  induction l as [|y l IH]; intros k x H; destruct k; cbn in *; try discriminate.
  - congruence.
  - apply IH. exact H.
Qed.

Lemma walk_from : forall fuel r l k, holds r l -> (k < length l)%nat -> (length l - k <= fuel)%nat ->
  walk fuel r ((r_read r + Z.of_nat k) mod r_size r) = Some (skipn k l).
Proof.
  induction fuel as [|f IH]; intros r l k H Hk Hf; [lia|].
  cbn [walk]. rewrite (index_not_end _ _ _ H).
  destruct (nth_error l k) as [x|] eqn:Ex; [|apply nth_error_None in Ex; lia].
  rewrite (deref_index _ _ _ _ H Ex).
  rewrite (incr_index _ _ _ H) by lia.
  rewrite (skipn_cons_nth _ _ _ Ex).
  destruct (Z.of_nat k + 1 <? Z.of_nat (length l)) eqn:E.
  - replace (Z.of_nat k + 1) with (Z.of_nat (S k)) by lia.
    rewrite (IH r l (S k) H) by lia. reflexivity.
  - destruct f; cbn [walk]; rewrite Z.eqb_refl; f_equal; f_equal; symmetry; apply skipn_all2; lia.
Qed.

Lemma begin_index : forall r l, holds r l ->
  it_begin r = if Z.of_nat (length l) =? 0 then it_end else (r_read r + 0) mod r_size r.
Proof.
  intros r l H. unfold it_begin. rewrite (holds_empty_iff _ _ H).
  destruct (Z.of_nat (length l) =? 0); [reflexivity|].
  rewrite Z.add_0_r. symmetry. apply Z.mod_small. apply H.
Qed.

Lemma walk_begin : forall r l fuel, holds r l -> (length l <= fuel)%nat ->
  walk fuel r (it_begin r) = Some l.
Proof.
  intros r l fuel H Hf. rewrite (begin_index _ _ H).
  destruct l as [|x l].
  - cbn [length]. destruct fuel; reflexivity.
  - destruct (Z.of_nat (length (x :: l)) =? 0) eqn:E; [cbn [length] in E; lia|].
    change 0 with (Z.of_nat 0). rewrite (walk_from fuel r (x :: l) 0 H); [reflexivity|cbn [length]; lia|lia].
Qed.

Lemma incr_end : forall r : ring A, it_incr r it_end = it_end.
Proof. intros r. unfold it_incr. rewrite good_end. rewrite good_end. reflexivity. Qed.

Lemma advance_from : forall n r l k, holds r l -> (k <= length l)%nat ->
  advance n r (if (k <? length l)%nat then (r_read r + Z.of_nat k) mod r_size r else it_end) =
  if (k + n <? length l)%nat then (r_read r + Z.of_nat (k + n)) mod r_size r else it_end.
Proof.
  induction n as [|n IH]; intros r l k H Hk.
  - cbn [advance]. rewrite Nat.add_0_r. reflexivity.
  - cbn [advance]. destruct (k <? length l)%nat eqn:E.
    + rewrite (incr_index _ _ _ H) by lia.
      replace (Z.of_nat k + 1 <? Z.of_nat (length l)) with (S k <? length l)%nat by lia.
      replace (Z.of_nat k + 1) with (Z.of_nat (S k)) by lia.
      rewrite (IH r l (S k) H) by lia. replace (S k + n)%nat with (k + S n)%nat by lia. reflexivity.
    + rewrite incr_end. specialize (IH r l k H Hk). rewrite E in IH. rewrite IH.
      replace (k + n <? length l)%nat with false by lia.
      replace (k + S n <? length l)%nat with false by lia. reflexivity.
Qed.

Lemma advance_begin : forall n r l, holds r l ->
  advance n r (it_begin r) =
  if (n <? length l)%nat then (r_read r + Z.of_nat n) mod r_size r else it_end.
Proof.
  intros n r l H. pose proof (advance_from n r l 0 H ltac:(lia)) as X. cbn [Nat.add] in X.
  rewrite <- X. f_equal. rewrite (begin_index _ _ H).
  destruct l; reflexivity.
Qed.

Lemma good_sound : forall r l i, holds r l -> 0 <= i < r_size r ->
  it_good r i = true <-> exists k, (k < length l)%nat /\ i = (r_read r + Z.of_nat k) mod r_size r.
Proof.
  intros r l i H Hi. split.
  - intros Hg.
    set (k := if r_read r <=? i then i - r_read r else i - r_read r + r_size r).
    assert (0 <= k < r_size r) as Hk.
    { unfold k. destruct H. destruct (r_read r <=? i) eqn:E; lia. }
    assert (i = (r_read r + k) mod r_size r) as Hik.
    { destruct H. rewrite wrap_add by lia. unfold k in *.
      destruct (r_read r <=? i) eqn:E.
      - destruct (r_read r + (i - r_read r) <? r_size r) eqn:E2; lia.
      - destruct (r_read r + (i - r_read r + r_size r) <? r_size r) eqn:E2; lia. }
    rewrite Hik in Hg. rewrite (good_index _ _ _ H Hk) in Hg.
    exists (Z.to_nat k). split; [lia|]. rewrite Z2Nat.id by lia. exact Hik.
  - intros (k & Hk & ->). pose proof (h_len _ _ H). rewrite (good_index _ _ _ H) by lia. lia.
Qed.

Lemma reached_sim : forall n (ops : list (op A)) r q, supported_size n -> Forall supported_op ops ->
  reached n ops r q -> sim r q.
Proof.
  intros n ops r q Hn Hf (r0 & E0 & Er & Eq).
  destruct (new_sim n Hn) as (r1 & E1 & Hs & _). rewrite E0 in E1. injection E1 as <-.
  pose proof (run_sim ops r0 (q_new n) Hs Hf) as [_ X]. rewrite Er, Eq in X. exact X.
Qed.

Lemma fifo_lemma : forall n (ops : list (op A)), supported_size n -> Forall supported_op ops ->
  exists r, ring_new n = Ok r /\ fst (run r ops) = fst (q_run (q_new n) ops).
Proof.
  intros n ops Hn Hf. destruct (new_sim n Hn) as (r & E & Hs & _).
  exists r. split; [exact E|]. apply (run_sim ops r (q_new n) Hs Hf).
Qed.

Lemma overflow_lemma : forall n (ops : list (op A)) r0 r, supported_size n -> Forall supported_op ops ->
  ring_new n = Ok r0 -> snd (run r0 ops) = Ok r ->
  r_overflow r = i32 (count_refused ops (fst (q_run (q_new n) ops))).
Proof.
  intros n ops r0 r Hn Hf E0 Er. destruct (new_sim n Hn) as (r1 & E1 & Hs & Ho).
  rewrite E0 in E1. injection E1 as <-.
  rewrite (run_overflow ops r0 (q_new n) r Hs Hf Er); rewrite Ho; [|reflexivity].
  destruct (run_sim ops r0 (q_new n) Hs Hf) as [-> _]. reflexivity.
Qed.

Lemma iteration_lemma : forall n (ops : list (op A)) r q, supported_size n -> Forall supported_op ops ->
  reached n ops r q ->
  walk (length (q_items q)) r (it_begin r) = Some (q_items q).
Proof.
  intros n ops r q Hn Hf Hr. destruct (reached_sim n ops r q Hn Hf Hr) as [H _].
  apply walk_begin; [exact H|lia].
Qed.

Lemma positions_lemma : forall n (ops : list (op A)) r q k, supported_size n -> Forall supported_op ops ->
  reached n ops r q ->
  match nth_error (q_items q) k with
  | Some x => it_good r (advance k r (it_begin r)) = true /\ deref r (advance k r (it_begin r)) = Ok x
  | None => advance k r (it_begin r) = it_end /\ it_good r (advance k r (it_begin r)) = false
  end.
Proof.
  intros n ops r q k Hn Hf Hr. destruct (reached_sim n ops r q Hn Hf Hr) as [H _].
  rewrite (advance_begin _ _ _ H). pose proof (h_len _ _ H).
  destruct (nth_error (q_items q) k) as [x|] eqn:E.
  - assert (k < length (q_items q))%nat by (apply nth_error_Some; congruence).
    destruct (k <? length (q_items q))%nat eqn:E2; [|lia].
    rewrite (good_index _ _ _ H) by lia. rewrite (deref_index _ _ _ _ H E). split; [lia|reflexivity].
  - apply nth_error_None in E. destruct (k <? length (q_items q))%nat eqn:E2; [lia|].
    rewrite good_end. split; reflexivity.
Qed.

Lemma good_lemma : forall n (ops : list (op A)) r q i, supported_size n -> Forall supported_op ops ->
  reached n ops r q -> 0 <= i < q_size q ->
  (it_good r i = true <-> exists k, (k < length (q_items q))%nat /\ i = advance k r (it_begin r)).
Proof.
  intros n ops r q i Hn Hf Hr Hi. destruct (reached_sim n ops r q Hn Hf Hr) as [H Hsz].
  rewrite (good_sound r (q_items q) i H) by lia.
  split; intros (k & Hk & E); exists k; (split; [exact Hk|]).
  - rewrite (advance_begin _ _ _ H). destruct (k <? length (q_items q))%nat eqn:E2; [exact E|lia].
  - rewrite (advance_begin _ _ _ H) in E. destruct (k <? length (q_items q))%nat eqn:E2; [exact E|lia].
Qed.

Lemma good_beyond_lemma : forall n (ops : list (op A)) r q i, supported_size n -> Forall supported_op ops ->
  reached n ops r q -> q_size q <= i < max_u32 ->
  it_good r i = (r_write r <? r_read r).
Proof.
  intros n ops r q i Hn Hf Hr Hi. destruct (reached_sim n ops r q Hn Hf Hr) as [H Hsz].
  pose proof (holds_write_range _ _ H). destruct H.
  unfold it_good, it_end, max_u32 in *. lia.
Qed.

End Proofs.

Section Reach.
Context {A : Type}.

Lemma run_app : forall (ops1 ops2 : list (op A)) r r1, snd (run r ops1) = Ok r1 ->
  snd (run r (ops1 ++ ops2)) = snd (run r1 ops2).
Proof.
  induction ops1 as [|o ops1 IH]; intros ops2 r r1 E.
  - cbn in E. injection E as ->. reflexivity.
  - cbn [app run] in *. destruct (step r o) as [[r' y]|]; [|discriminate].
    specialize (IH ops2 r' r1). destruct (run r' ops1) as [ys rf] eqn:E1. cbn [snd] in E.
    cbn [snd] in IH. specialize (IH E). destruct (run r' (ops1 ++ ops2)). cbn [snd] in *. exact IH.
Qed.

Lemma q_run_app : forall (ops1 ops2 : list (op A)) q q1, snd (q_run q ops1) = Ok q1 ->
  snd (q_run q (ops1 ++ ops2)) = snd (q_run q1 ops2).
Proof.
  induction ops1 as [|o ops1 IH]; intros ops2 q q1 E.
  - cbn in E. injection E as ->. reflexivity.
  - cbn [app q_run] in *. destruct (q_step q o) as [[q' y]|]; [|discriminate].
    specialize (IH ops2 q' q1). destruct (q_run q' ops1) as [ys qf] eqn:E1. cbn [snd] in E.
    cbn [snd] in IH. specialize (IH E). destruct (q_run q' (ops1 ++ ops2)). cbn [snd] in *. exact IH.
Qed.

Lemma pop_reached : forall n (ops : list (op A)) r q k, supported_size n -> Forall supported_op ops ->
  reached n ops r q -> (k <= length (q_items q))%nat ->
  exists r' q', reached n (ops ++ [OPop k]) r' q' /\ q_items q' = skipn k (q_items q).
Proof.
  intros n ops r q k Hn Hf Hr Hk. destruct (reached_sim n ops r q Hn Hf Hr) as [H Hsz].
  destruct Hr as (r0 & E0 & Er & Eq). destruct (pop_ok k r (q_items q) H Hk) as (r' & Ep & _).
  exists r', (mk_queue (q_size q) (skipn k (q_items q))). split; [|reflexivity].
  exists r0. split; [exact E0|]. split.
  - rewrite (run_app ops _ r0 r Er). cbn [run step bind]. rewrite Ep. reflexivity.
  - rewrite (q_run_app ops _ _ q Eq). cbn [q_run q_step].
    destruct (k <=? length (q_items q))%nat eqn:E; [reflexivity|].
    apply Nat.leb_gt in E. lia.
Qed.

End Reach.
