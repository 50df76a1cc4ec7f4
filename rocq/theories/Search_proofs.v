From Coq Require Import ZArith List Bool Lia ZifyBool.
From Verif Require Import Base_model Ring_model Ring_spec Ring_proofs Search_model Search_spec.
Import ListNotations.
Open Scope Z_scope.

Section Proofs.
Context {A : Type}.
Variable ts : A -> Z.
Variable nframes : A -> Z.
Variable tick : Z.

Lemma idx_cases : forall (r : ring A) l k, holds r l -> 0 <= k < r_size r ->
  (r_read r + k) mod r_size r = if r_read r + k <? r_size r then r_read r + k else r_read r + k - r_size r.
Proof. intros r l k H Hk. destruct H. apply wrap_add; lia. Qed.

Lemma bs_loop_ok : forall f r l key s e,
  holds r l -> 0 <= s <= e -> e < Z.of_nat (length l) -> e - s < 2 ^ Z.of_nat f ->
  (forall x, nth_error l (Z.to_nat s) = Some x -> ts x <= key) ->
  (forall x, nth_error l (Z.to_nat (e + 1)) = Some x -> key < ts x) ->
  exists k, bs_loop ts (S f) r key ((r_read r + s) mod r_size r) ((r_read r + e) mod r_size r)
            = SFound ((r_read r + k) mod r_size r) /\
    s <= k <= e /\
    (forall x, nth_error l (Z.to_nat k) = Some x -> ts x <= key) /\
    (forall x, nth_error l (Z.to_nat (k + 1)) = Some x -> key < ts x).
Proof.
  induction f as [|f IH]; intros r l key s e H Hse He Hf Hs Hk.
  - assert (s = e) as -> by (cbn in Hf; lia).
    exists e. split; [|split; [lia|split; assumption]].
    cbn [bs_loop]. rewrite Z.leb_refl, Z.sub_diag.
    change (u32 0) with 0. change (u32 (0 + 1) / 2) with 0. rewrite Z.eqb_refl, Z.add_0_r.
    destruct H. pose proof (Z.mod_pos_bound (r_read r + e) (r_size r) ltac:(lia)) as B.
    rewrite (u32_small ((r_read r + e) mod r_size r)) by (unfold two32; lia).
    destruct (r_size r <=? (r_read r + e) mod r_size r) eqn:E; [lia|reflexivity].
  - pose proof (h_size _ _ H) as Hsz. pose proof (h_read _ _ H) as Hrd. pose proof (h_len _ _ H) as Hln.
    remember (S f) as f1. cbn [bs_loop].
    set (si := (r_read r + s) mod r_size r). set (ei := (r_read r + e) mod r_size r).
    assert ((if si <=? ei then u32 (ei - si) else u32 (r_size r + ei - si)) = e - s) as Hd.
    { unfold si, ei. rewrite !(idx_cases r l _ H) by lia.
      destruct (r_read r + s <? r_size r) eqn:E1; destruct (r_read r + e <? r_size r) eqn:E2;
      match goal with |- context [if ?b then u32 _ else _] => destruct b eqn:E3 end;
      try lia; rewrite u32_small by (unfold two32; lia); lia. }
    rewrite Hd.
    set (d := e - s) in *. set (h := (d + 1) / 2).
    assert (0 <= h <= d /\ (0 < d -> 0 < h) /\ 2 * h <= d + 1 <= 2 * h + 1) as Hh.
    { unfold h. pose proof (Z.div_mod (d + 1) 2 ltac:(lia)). pose proof (Z.mod_pos_bound (d + 1) 2 ltac:(lia)). lia. }
    assert ((if r_size r <=? u32 (si + u32 (d + 1) / 2) then u32 (u32 (si + u32 (d + 1) / 2) - r_size r)
             else u32 (si + u32 (d + 1) / 2)) = (r_read r + (s + h)) mod r_size r) as Hm.
    { rewrite (u32_small (d + 1)) by (unfold two32; lia). fold h.
      unfold si. rewrite !(idx_cases r l _ H) by lia.
      destruct (r_read r + s <? r_size r) eqn:E1.
      - rewrite (u32_small (r_read r + s + h)) by (unfold two32; lia).
        destruct (r_size r <=? r_read r + s + h) eqn:E2;
        destruct (r_read r + (s + h) <? r_size r) eqn:E3; try lia.
        rewrite u32_small by (unfold two32; lia). lia.
      - rewrite (u32_small (r_read r + s - r_size r + h)) by (unfold two32; lia).
        destruct (r_size r <=? r_read r + s - r_size r + h) eqn:E2;
        destruct (r_read r + (s + h) <? r_size r) eqn:E3; try lia. }
    rewrite Hm. clear Hm Hd.
    destruct (d =? 0) eqn:Ed.
    + exists e. assert (s = e) by lia. assert (h = 0) by (unfold h; replace d with 0 by lia; reflexivity).
      replace (s + h) with e by lia.
      split; [reflexivity|]. split; [lia|]. split; [|exact Hk]. subst s. exact Hs.
    + destruct (nth_error l (Z.to_nat (s + h))) as [y|] eqn:Ey;
        [|apply nth_error_None in Ey; lia].
      assert (r_slots r ((r_read r + (s + h)) mod r_size r) = Some y) as Hy.
      { rewrite (h_slots _ _ H) by lia. exact Ey. }
      rewrite Hy.
      assert (d < 2 * 2 ^ Z.of_nat f) as Hd2.
      { subst f1. rewrite Nat2Z.inj_succ, Z.pow_succ_r in Hf by lia. exact Hf. }
      destruct (key <? ts y) eqn:Ek.
      * assert ((if negb ((r_read r + (s + h)) mod r_size r =? 0)
                 then u32 ((r_read r + (s + h)) mod r_size r - 1) else u32 (r_size r - 1))
                = (r_read r + (s + h - 1)) mod r_size r) as ->.
        { rewrite !(idx_cases r l _ H) by lia.
          destruct (r_read r + (s + h) <? r_size r) eqn:E1;
          destruct (r_read r + (s + h - 1) <? r_size r) eqn:E2;
          match goal with |- context [if negb ?b then _ else _] => destruct b eqn:E3 end; cbn [negb];
          try lia; rewrite u32_small by (unfold two32; lia); lia. }
        destruct (IH r l key s (s + h - 1) H) as (k & Ek1 & Hk1 & Hk2 & Hk3); try lia; try assumption.
        { intros x Hx. replace (s + h - 1 + 1) with (s + h) in Hx by lia. rewrite Ey in Hx.
          injection Hx as <-. lia. }
        exists k. subst f1. split; [exact Ek1|]. split; [lia|]. split; assumption.
      * destruct (IH r l key (s + h) e H) as (k & Ek1 & Hk1 & Hk2 & Hk3); try lia; try assumption.
        { intros x Hx. rewrite Ey in Hx. injection Hx as <-. lia. }
        exists k. subst f1. split; [exact Ek1|]. split; [lia|]. split; assumption.
Qed.

(** Raw result without sortedness. *)
Lemma bs_raw : forall r l x0 l0 key, holds r l -> l = x0 :: l0 ->
  if key <? ts x0 then bs_lower_bound ts r key = SFound it_end
  else exists k, bs_lower_bound ts r key = SFound ((r_read r + Z.of_nat k) mod r_size r) /\
    (k < length l)%nat /\
    (forall x, nth_error l k = Some x -> ts x <= key) /\
    (forall x, nth_error l (k + 1) = Some x -> key < ts x).
Proof.
  intros r l x0 l0 key H El.
  pose proof (h_size _ _ H) as Hsz. pose proof (h_read _ _ H) as Hrd. pose proof (h_len _ _ H) as Hln.
  assert (0 < Z.of_nat (length l)) as Hpos by (subst l; cbn [length]; lia).
  unfold bs_lower_bound. rewrite (holds_empty_iff _ _ H).
  destruct (Z.of_nat (length l) =? 0) eqn:E0; [lia|].
  pose proof (h_slots _ _ H 0 ltac:(lia)) as H0. rewrite Z.add_0_r, Z.mod_small in H0 by lia.
  rewrite H0. subst l. set (l := x0 :: l0) in *. cbn [Z.to_nat nth_error l].
  destruct (key <? ts x0) eqn:Ek; [reflexivity|].
  assert ((if r_write r =? 0 then u32 (r_size r - 1) else u32 (r_write r - 1))
          = (r_read r + (Z.of_nat (length l) - 1)) mod r_size r) as ->.
  { pose proof (holds_write_cases _ _ H) as Hw. pose proof (holds_write_range _ _ H) as Hwr.
    rewrite (idx_cases r l _ H) by lia.
    destruct (r_read r + Z.of_nat (length l) <? r_size r) eqn:E1;
    destruct (r_read r + (Z.of_nat (length l) - 1) <? r_size r) eqn:E2;
    destruct (r_write r =? 0) eqn:E3; try lia; rewrite u32_small by (unfold two32; lia); lia. }
  destruct (bs_loop_ok 32 r l key 0 (Z.of_nat (length l) - 1) H) as (k & Ek1 & Hk1 & Hk2 & Hk3); try lia.
  { intros x Hx. cbn in Hx. injection Hx as <-. lia. }
  { intros x Hx. assert (Z.to_nat (Z.of_nat (length l) - 1 + 1) < length l)%nat
      by (apply nth_error_Some; congruence). lia. }
  rewrite Z.add_0_r, (Z.mod_small (r_read r)) in Ek1 by lia.
  exists (Z.to_nat k). rewrite Z2Nat.id by lia.
  split; [exact Ek1|]. split; [lia|]. split; [exact Hk2|].
  intros x Hx. apply Hk3. replace (Z.to_nat (k + 1)) with (Z.to_nat k + 1)%nat by lia. exact Hx.
Qed.

Lemma bs_nil : forall r key, holds r [] -> bs_lower_bound ts r key = SFound it_end.
Proof.
  intros r key H. unfold bs_lower_bound. rewrite (holds_empty_iff _ _ H). reflexivity.
Qed.

Lemma bs_found : forall r l key, holds r l -> non_decreasing ts l ->
  (nothing_at_or_before ts l key /\ bs_lower_bound ts r key = SFound it_end) \/
  (exists k, newest_not_newer ts l key k /\
     bs_lower_bound ts r key = SFound ((r_read r + Z.of_nat k) mod r_size r)).
Proof.
  intros r l key H Hnd. destruct l as [|x0 l0] eqn:El.
  - left. split; [intros x []|]. apply bs_nil. exact H.
  - rewrite <- El in *. pose proof (bs_raw r l x0 l0 key H El) as X.
    destruct (key <? ts x0) eqn:Ek.
    + left. split; [|exact X]. intros x Hx. apply In_nth_error in Hx. destruct Hx as [j Hj].
      assert (nth_error l 0 = Some x0) as H0 by (rewrite El; reflexivity).
      pose proof (Hnd 0%nat j x0 x ltac:(lia) H0 Hj). lia.
    + right. destruct X as (k & Eq & Hk & H1 & H2). exists k. split; [|exact Eq].
      split; [exact Hk|]. split.
      * intros j x Hj Hx.
        destruct (nth_error l k) as [y|] eqn:Ey; [|apply nth_error_None in Ey; lia].
        pose proof (Hnd j k x y Hj Hx Ey). specialize (H1 y eq_refl). lia.
      * intros j x Hj Hx.
        assert (j < length l)%nat by (apply nth_error_Some; congruence).
        destruct (nth_error l (k + 1)) as [y|] eqn:Ey; [|apply nth_error_None in Ey; lia].
        pose proof (Hnd (k + 1)%nat j y x ltac:(lia) Ey Hx). specialize (H2 y eq_refl). lia.
Qed.

Lemma newest_unique : forall l key k k', newest_not_newer ts l key k -> newest_not_newer ts l key k' -> k = k'.
Proof.
  intros l key k k' (H1 & H2 & H3) (H1' & H2' & H3').
  destruct (Nat.lt_trichotomy k k') as [L|[E|L]]; [|exact E|].
  - destruct (nth_error l k') as [y|] eqn:Ey; [|apply nth_error_None in Ey; lia].
    specialize (H3 k' y L Ey). specialize (H2' k' y (le_n _) Ey). lia.
  - destruct (nth_error l k) as [y|] eqn:Ey; [|apply nth_error_None in Ey; lia].
    specialize (H3' k y L Ey). specialize (H2 k y (le_n _) Ey). lia.
Qed.

(** Fixed rate. *)
Lemma fr_spaced : forall r l x0 l0 t0 key,
  holds r l -> l = x0 :: l0 -> 0 < tick -> 0 < nframes x0 -> 0 <= t0 ->
  equally_spaced ts l t0 (tick * nframes x0) ->
  t0 + Z.of_nat (length l) * (tick * nframes x0) < two64 ->
  0 <= key < two64 ->
  let d := tick * nframes x0 in
  fr_lower_bound ts nframes tick r key false =
  if (key <? t0) || (t0 + Z.of_nat (length l) * d <? key) then SFound it_end
  else SFound ((r_read r + (key - t0) / d) mod r_size r).
Proof.
  intros r l x0 l0 t0 key H El Ht Hn Ht0 Hsp Hov Hkey d.
  pose proof (h_size _ _ H) as Hsz. pose proof (h_read _ _ H) as Hrd. pose proof (h_len _ _ H) as Hln.
  unfold fr_lower_bound. rewrite (occupancy_ok _ _ H).
  pose proof (h_slots _ _ H 0 ltac:(lia)) as H0. rewrite Z.add_0_r, Z.mod_small in H0 by lia.
  rewrite H0. rewrite El at 1. cbn [Z.to_nat nth_error].
  assert (ts x0 = t0) as Hx0.
  { specialize (Hsp 0%nat x0). rewrite El in Hsp. specialize (Hsp eq_refl). lia. }
  rewrite Hx0.
  set (L := Z.of_nat (length l)) in *.
  assert (0 < L) by (unfold L; rewrite El; cbn [length]; lia).
  assert (0 <= L * tick) by nia.
  assert (L * tick <= L * d) by (unfold d; nia).
  assert (L * tick * nframes x0 = L * d) as Hm by (unfold d; ring).
  fold d in Hov.
  rewrite (u64_small L) by (unfold two64 in *; unfold L in *; lia).
  rewrite (u64_small (L * tick)) by (unfold two64 in *; lia).
  rewrite Hm. rewrite (u64_small (L * d)) by (unfold two64 in *; lia).
  rewrite (u64_small (t0 + L * d)) by (unfold two64 in *; lia).
  destruct ((key <? t0) || (t0 + L * d <? key)) eqn:E; [reflexivity|].
  assert (t0 <= key <= t0 + L * d) as Hk by lia.
  replace ((tick =? 0) || (nframes x0 =? 0)) with false by lia.
  rewrite (u64_small (key - t0)) by (unfold two64 in *; lia).
  assert (0 < d) by (unfold d; nia).
  assert (0 <= (key - t0) / d <= L) as Hq.
  { split; [apply Z.div_pos; lia|]. apply Z.div_le_upper_bound; lia. }
  assert (0 <= (key - t0) / tick < two64) as Hqt.
  { split; [apply Z.div_pos; lia|]. apply Z.le_lt_trans with (key - t0); [|lia].
    apply Z.div_le_upper_bound; [lia|]. nia. }
  assert (u64 (i64 ((key - t0) / tick)) = (key - t0) / tick) as ->.
  { unfold u64, i64. rewrite Zminus_mod_idemp_l.
    rewrite <- (Z.mod_small ((key - t0) / tick) two64) at 2 by exact Hqt. f_equal. lia. }
  rewrite Z.div_div by lia. fold d.
  rewrite (u32_small ((key - t0) / d)) by (unfold two32, L in *; lia).
  rewrite u32_small by (unfold two32, L in *; lia).
  f_equal. rewrite wrap_add by (unfold L in *; lia).
  destruct (r_size r <=? r_read r + (key - t0) / d) eqn:E1;
  destruct (r_read r + (key - t0) / d <? r_size r) eqn:E2; try lia.
  rewrite u32_small by (unfold two32, L in *; lia). reflexivity.
Qed.

Lemma spaced_newest : forall l t0 d key, 0 < d -> equally_spaced ts l t0 d ->
  t0 <= key < t0 + Z.of_nat (length l) * d ->
  newest_not_newer ts l key (Z.to_nat ((key - t0) / d)).
Proof.
  intros l t0 d key Hd Hsp Hk.
  assert (0 <= (key - t0) / d < Z.of_nat (length l)) as Hq.
  { split; [apply Z.div_pos; lia|]. apply Z.div_lt_upper_bound; lia. }
  pose proof (Z.div_mod (key - t0) d ltac:(lia)) as Hdm.
  pose proof (Z.mod_pos_bound (key - t0) d Hd) as Hmb.
  set (q := (key - t0) / d) in *.
  split; [lia|]. split; intros j x Hj Hx; rewrite (Hsp j x Hx).
  - assert (Z.of_nat j <= q) by lia. nia.
  - assert (q + 1 <= Z.of_nat j) by lia. nia.
Qed.

Lemma spaced_non_decreasing : forall l t0 d, 0 <= d -> equally_spaced ts l t0 d -> non_decreasing ts l.
Proof.
  intros l t0 d Hd Hsp i j x y Hij Hx Hy. rewrite (Hsp _ _ Hx), (Hsp _ _ Hy). nia.
Qed.

Lemma fr_agrees : forall r l x0 l0 t0 key,
  holds r l -> l = x0 :: l0 -> 0 < tick -> 0 < nframes x0 -> 0 <= t0 ->
  equally_spaced ts l t0 (tick * nframes x0) ->
  t0 + Z.of_nat (length l) * (tick * nframes x0) < two64 ->
  0 <= key < two64 -> key <> t0 + Z.of_nat (length l) * (tick * nframes x0) ->
  fr_lower_bound ts nframes tick r key false =
  if t0 + Z.of_nat (length l) * (tick * nframes x0) <? key then SFound it_end
  else bs_lower_bound ts r key.
Proof.
  intros r l x0 l0 t0 key H El Ht Hn Ht0 Hsp Hov Hkey Hne.
  rewrite (fr_spaced r l x0 l0 t0 key H El Ht Hn Ht0 Hsp Hov Hkey).
  assert (0 < tick * nframes x0) by nia.
  pose proof (spaced_non_decreasing l t0 (tick * nframes x0) ltac:(lia) Hsp) as Hnd.
  destruct (t0 + Z.of_nat (length l) * (tick * nframes x0) <? key) eqn:E.
  - rewrite orb_true_r. reflexivity.
  - rewrite orb_false_r. destruct (key <? t0) eqn:E1.
    + pose proof (bs_raw r l x0 l0 key H El) as X.
      replace (key <? ts x0) with true in X; [symmetry; exact X|].
      rewrite (Hsp 0%nat x0); [lia|rewrite El; reflexivity].
    + pose proof (spaced_newest l t0 (tick * nframes x0) key ltac:(lia) Hsp ltac:(lia)) as Hnn.
      destruct (bs_found r l key H Hnd) as [[Hno _]|(k & Hk & Eq)].
      * exfalso. specialize (Hno x0). rewrite El in Hno. specialize (Hno (or_introl eq_refl)).
        rewrite (Hsp 0%nat x0) in Hno; [lia|rewrite El; reflexivity].
      * rewrite Eq. rewrite (newest_unique _ _ _ _ Hk Hnn).
        rewrite Z2Nat.id; [reflexivity|]. apply Z.div_pos; lia.
Qed.

Lemma fr_boundary : forall r l x0 l0 t0,
  holds r l -> l = x0 :: l0 -> 0 < tick -> 0 < nframes x0 -> 0 <= t0 ->
  equally_spaced ts l t0 (tick * nframes x0) ->
  t0 + Z.of_nat (length l) * (tick * nframes x0) < two64 ->
  exists i, fr_lower_bound ts nframes tick r (t0 + Z.of_nat (length l) * (tick * nframes x0)) false = SFound i /\
    i <> it_end /\ it_good r i = false /\ r_slots r i = None.
Proof.
  intros r l x0 l0 t0 H El Ht Hn Ht0 Hsp Hov.
  assert (0 < tick * nframes x0) as Hd by nia.
  assert (0 <= Z.of_nat (length l) * (tick * nframes x0)) as Hnn by (apply Z.mul_nonneg_nonneg; lia).
  rewrite (fr_spaced r l x0 l0 t0 _ H El Ht Hn Ht0 Hsp Hov) by lia.
  rewrite Z.ltb_irrefl, orb_false_r.
  match goal with |- context [?b <? ?c] => destruct (b <? c) eqn:E end; [lia|].
  replace (t0 + Z.of_nat (length l) * (tick * nframes x0) - t0)
    with (Z.of_nat (length l) * (tick * nframes x0)) by ring.
  rewrite Z.div_mul by lia. pose proof (h_len _ _ H).
  eexists. split; [reflexivity|]. split.
  - pose proof (index_not_end r l (Z.of_nat (length l)) H). lia.
  - split.
    + rewrite (good_index _ _ _ H) by lia. lia.
    + rewrite (h_slots _ _ H) by lia. rewrite Nat2Z.id. apply nth_error_None. lia.
Qed.

Lemma fr_empty : forall r key, holds r [] -> fr_lower_bound ts nframes tick r key false = SCrash.
Proof.
  intros r key H. unfold fr_lower_bound.
  pose proof (h_size _ _ H) as Hsz. pose proof (h_read _ _ H) as Hrd.
  pose proof (h_slots _ _ H 0 ltac:(lia)) as H0. rewrite Z.add_0_r, Z.mod_small in H0 by lia.
  rewrite H0. reflexivity.
Qed.

(** Statements over reachable buffers, for the property file. *)
Lemma bs_lemma : forall n (ops : list (op A)) r q key,
  supported_size n -> Forall supported_op ops -> reached n ops r q ->
  non_decreasing ts (q_items q) ->
  (nothing_at_or_before ts (q_items q) key /\ bs_lower_bound ts r key = SFound it_end) \/
  (exists k, newest_not_newer ts (q_items q) key k /\
     bs_lower_bound ts r key = SFound (advance k r (it_begin r))).
Proof.
  intros n ops r q key Hn Hf Hr Hnd. destruct (reached_sim n ops r q Hn Hf Hr) as [H _].
  destruct (bs_found r _ key H Hnd) as [X|(k & Hk & Eq)]; [left; exact X|].
  right. exists k. split; [exact Hk|]. rewrite Eq. rewrite (advance_begin _ _ _ H).
  destruct Hk as [Hk _]. destruct (k <? length (q_items q))%nat eqn:E; [reflexivity|lia].
Qed.

Lemma fr_errors : forall r key, fr_lower_bound ts nframes tick r key true = bs_lower_bound ts r key.
Proof. reflexivity. Qed.

Lemma fr_agrees_lemma : forall n (ops : list (op A)) r q x0 l0 t0 key,
  supported_size n -> Forall supported_op ops -> reached n ops r q ->
  q_items q = x0 :: l0 -> 0 < tick -> 0 < nframes x0 -> 0 <= t0 ->
  equally_spaced ts (q_items q) t0 (tick * nframes x0) ->
  t0 + Z.of_nat (length (q_items q)) * (tick * nframes x0) < two64 ->
  0 <= key < two64 ->
  (key < t0 + Z.of_nat (length (q_items q)) * (tick * nframes x0) ->
     fr_lower_bound ts nframes tick r key false = bs_lower_bound ts r key) /\
  (t0 + Z.of_nat (length (q_items q)) * (tick * nframes x0) < key ->
     fr_lower_bound ts nframes tick r key false = SFound it_end).
Proof.
  intros n ops r q x0 l0 t0 key Hn Hf Hr El Ht Hnf Ht0 Hsp Hov Hkey.
  destruct (reached_sim n ops r q Hn Hf Hr) as [H _].
  pose proof (fr_agrees r (q_items q) x0 l0 t0 key H El Ht Hnf Ht0 Hsp Hov Hkey) as X.
  split; intros Hc; rewrite X by lia;
  match goal with |- context [?b <? ?c] => destruct (b <? c) eqn:E end; try lia; reflexivity.
Qed.

Lemma fr_boundary_lemma : forall n (ops : list (op A)) r q x0 l0 t0,
  supported_size n -> Forall supported_op ops -> reached n ops r q ->
  q_items q = x0 :: l0 -> 0 < tick -> 0 < nframes x0 -> 0 <= t0 ->
  equally_spaced ts (q_items q) t0 (tick * nframes x0) ->
  t0 + Z.of_nat (length (q_items q)) * (tick * nframes x0) < two64 ->
  exists i, fr_lower_bound ts nframes tick r
              (t0 + Z.of_nat (length (q_items q)) * (tick * nframes x0)) false = SFound i /\
    i <> it_end /\ it_good r i = false /\ r_slots r i = None.
Proof.
  intros n ops r q x0 l0 t0 Hn Hf Hr El Ht Hnf Ht0 Hsp Hov.
  destruct (reached_sim n ops r q Hn Hf Hr) as [H _].
  exact (fr_boundary r (q_items q) x0 l0 t0 H El Ht Hnf Ht0 Hsp Hov).
Qed.

Lemma fr_empty_lemma : forall n (ops : list (op A)) r q key,
  supported_size n -> Forall supported_op ops -> reached n ops r q -> q_items q = [] ->
  fr_lower_bound ts nframes tick r key false = SCrash.
Proof.
  intros n ops r q key Hn Hf Hr El. destruct (reached_sim n ops r q Hn Hf Hr) as [H _].
  rewrite El in H. apply fr_empty. exact H.
Qed.

End Proofs.
