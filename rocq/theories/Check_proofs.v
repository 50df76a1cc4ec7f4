(** Proofs about the arrival checks. *)
From Coq Require Import String FinFun ZArith List Bool Lia.
From Verif Require Import Base_model Elem_model Registry_model Check_model Check_spec.
Import ListNotations.
Open Scope Z_scope.

Lemma two64_pow : two64 = 2 ^ 64. Proof. reflexivity. Qed.

Lemma jump_eq : forall dur a b, 0 <= dur < two64 -> is_u64 b ->
  negb (u64 (b - a) =? dur) = jumps dur a b.
Proof.
  intros dur a b Hd Hb. unfold jumps, is_u64, u64 in *. rewrite <- two64_pow. f_equal.
  assert (two64 > 0) by (unfold two64; lia).
  apply Bool.eq_true_iff_eq. rewrite !Z.eqb_eq. split; intro H1.
  - rewrite <- H1, Zplus_mod_idemp_r, Z.mod_small; lia.
  - rewrite H1, Zminus_mod_idemp_l. replace (a + dur - a) with dur by lia. apply Z.mod_small; lia.
Qed.

Lemma count_cons : forall p prev x l,
  count_neighbours p prev (x :: l) = (if p prev x then 1 else 0) + count_neighbours p x l.
Proof.
  intros. unfold count_neighbours. cbn [combine filter fst snd]. destruct (p prev x); cbn [List.length]; lia.
Qed.

Lemma count_nonneg : forall p prev l, 0 <= count_neighbours p prev l.
Proof. intros. unfold count_neighbours. lia. Qed.

Lemma i32_succ : forall n, i32 (i32 n + 1) = i32 (n + 1).
Proof.
  intros. unfold i32. replace ((n + 2147483648) mod two32 - 2147483648 + 1 + 2147483648)
    with ((n + 2147483648) mod two32 + 1) by lia.
  rewrite Zplus_mod_idemp_l. do 2 f_equal. lia.
Qed.

Lemma i32_id : forall n, -2147483648 <= n < 2147483648 -> i32 n = n.
Proof. intros. unfold i32, two32. rewrite Z.mod_small; lia. Qed.

Lemma report_step : forall n, 0 <= n ->
  (1000 <? i32 (n + 1)) && negb (1000 <? n) = (1000 <? n + 1) && negb (1000 <? n).
Proof.
  intros n H. destruct (Z.ltb_spec 1000 n).
  - rewrite !andb_false_r. reflexivity.
  - rewrite i32_id by lia. reflexivity.
Qed.


Lemma last_cons_any : forall (l : list Z) x d, last (x :: l) d = last l x.
Proof. induction l as [|y l IH]; intros; [reflexivity|]. change (last (y :: l) d = last (y :: l) x). rewrite !IH. reflexivity. Qed.

Ltac split_ltb := repeat match goal with |- context [?a <? ?b] => destruct (Z.ltb_spec a b) end; cbn [andb orb negb]; try lia.

Lemma check_step_real : forall dur tick n c e,
  0 <= dur < two64 -> is_u64 (e_ts e) -> consistent n c ->
  let r := timestamp_check dur tick false e c in
  let n' := n + if jumps dur (ck_prev c) (e_ts e) then 1 else 0 in
  fst r = e /\ consistent n' (snd r) /\ ck_prev (snd r) = e_ts e /\ ck_daq (snd r) = e_ts e /\
  ck_reports (snd r) = ck_reports c + ((if 1000 <? n' then 1 else 0) - (if 1000 <? n then 1 else 0)) /\
  ck_reg (snd r) = if jumps dur (ck_prev c) (e_ts e)
                   then add_error "MISSING_FRAMES" (mk_interval (u64 (ck_prev c + dur)) (e_ts e)) (ck_reg c) else ck_reg c.
Proof.
  intros dur tick n c e Hd He (H1 & H2 & H3) r n'. unfold r, n', timestamp_check. cbn [fst snd].
  rewrite (jump_eq dur _ _ Hd He). unfold consistent. cbn [ck_ctr ck_reported ck_prev ck_daq ck_reports ck_reg].
  destruct (jumps dur (ck_prev c) (e_ts e)).
  - rewrite H1, i32_succ, H3, report_step by lia.
    repeat split; try lia; split_ltb; reflexivity.
  - rewrite Z.add_0_r, H1, H3.
    assert ((1000 <? i32 n) && negb (1000 <? n) = false) as E.
    { destruct (Z.ltb_spec 1000 n). apply andb_false_r. rewrite i32_id by lia. lia. }
    rewrite E, orb_false_r. repeat split; try lia.
Qed.

Lemma check_all_real : forall dur tick l n c,
  0 <= dur < two64 -> Forall (fun e => is_u64 (e_ts e)) l -> consistent n c ->
  let r := check_all dur tick false l c in
  let n' := n + count_neighbours (jumps dur) (ck_prev c) (map e_ts l) in
  fst r = l /\ consistent n' (snd r) /\ ck_prev (snd r) = last_of (ck_prev c) (map e_ts l) /\
  (l <> [] -> ck_daq (snd r) = last_of 0 (map e_ts l)) /\
  ck_reports (snd r) = ck_reports c + ((if 1000 <? n' then 1 else 0) - (if 1000 <? n then 1 else 0)).
Proof.
  induction l as [|e l IH]; intros n c Hd Hl Hc; cbn zeta.
  - cbn. rewrite Z.add_0_r. repeat split; try apply Hc; try lia. intros []; reflexivity.
  - inversion Hl as [|? ? He Hl']; subst.
    destruct (check_step_real dur tick n c e Hd He Hc) as (A1 & A2 & A3 & A4 & A5 & _). cbn zeta in *.
    cbn [check_all]. destruct (timestamp_check dur tick false e c) as [e' c1]. cbn [fst snd] in *.
    specialize (IH _ c1 Hd Hl' A2). cbn zeta in IH.
    assert (l = [] -> snd (check_all dur tick false l c1) = c1) as Hnil by (intros ->; reflexivity).
    destruct (check_all dur tick false l c1) as [r c2].
    cbn [fst snd] in *. cbn [map]. rewrite count_cons. destruct IH as (B1 & B2 & B3 & B4 & B5).
    rewrite A3 in *. subst. rewrite Z.add_assoc. unfold last_of in *. rewrite !last_cons_any. repeat split; try apply B2.
    + exact B3.
    + intros _. destruct l as [|e2 l2].
      * rewrite (Hnil eq_refl). exact A4.
      * rewrite B4 by discriminate. cbn [map]. rewrite !last_cons_any. reflexivity.
    + rewrite B5, A5. lia.
Qed.

Lemma consistent_zero : forall c, ck_ctr c = 0 -> ck_reported c = false -> consistent 0 c.
Proof. intros c H1 H2. unfold consistent. rewrite H1, H2. repeat split; lia. Qed.

(** ** WIB: every run starts afresh *)
Lemma c22_wib : forall tick c l,
  Forall (fun e => is_u64 (e_ts e)) l ->
  let n := count_neighbours (jumps 300) 0 (map e_ts l) in
  let c' := snd (check_all 300 tick false l (wib_start c)) in
  fst (check_all 300 tick false l (wib_start c)) = l /\
  ck_ctr c' = i32 n /\ ck_reported c' = (1000 <? n) /\
  ck_reports c' = ck_reports c + (if 1000 <? n then 1 else 0) /\
  (l <> [] -> ck_daq c' = last_of 0 (map e_ts l)).
Proof.
  intros tick c l Hl n c'.
  destruct (check_all_real 300 tick l 0 (wib_start c)) as (A & (B1 & _ & B2) & C & D & E);
    [unfold two64; lia | assumption | apply consistent_zero; reflexivity|].
  cbn [wib_start ck_prev ck_reports] in *. subst n c'. rewrite Z.add_0_l in *. repeat split; try assumption.
  rewrite E. cbn [wib_start ck_reports]. change (1000 <? 0) with false. cbv iota. lia.
Qed.

(** ** WIB2: nothing is reset between runs *)
Lemma check_all_app : forall dur tick emu l1 l2 c,
  snd (check_all dur tick emu (l1 ++ l2) c) = snd (check_all dur tick emu l2 (snd (check_all dur tick emu l1 c))).
Proof.
  induction l1 as [|e l1 IH]; intros l2 c; [reflexivity|]. cbn [app check_all].
  destruct (timestamp_check dur tick emu e c) as [e' c1]. specialize (IH l2 c1).
  destruct (check_all dur tick emu (l1 ++ l2) c1), (check_all dur tick emu l1 c1). exact IH.
Qed.

Lemma c22_wib2 : forall tick reg (runs : list (list elem)),
  Forall (fun e => is_u64 (e_ts e)) (concat runs) ->
  let n := count_neighbours (jumps 384) 0 (map e_ts (concat runs)) in
  let c' := fold_left (fun c l => snd (check_all 384 tick false l c)) runs (check_new reg) in
  ck_ctr c' = i32 n /\ ck_reported c' = (1000 <? n) /\
  ck_reports c' = (if 1000 <? n then 1 else 0) /\
  (concat runs <> [] -> ck_daq c' = last_of 0 (map e_ts (concat runs))).
Proof.
  intros tick reg runs Hl n c'.
  assert (forall c, fold_left (fun c l => snd (check_all 384 tick false l c)) runs c
                    = snd (check_all 384 tick false (concat runs) c)) as Hf.
  { clear. induction runs as [|l runs IH]; intro c; [reflexivity|]. cbn [fold_left concat]. rewrite check_all_app. apply IH. }
  subst c'. rewrite Hf.
  destruct (check_all_real 384 tick (concat runs) 0 (check_new reg)) as (A & (B1 & _ & B2) & C & D & E);
    [unfold two64; lia | assumption | apply consistent_zero; reflexivity|].
  cbn [check_new ck_prev ck_reports] in *. subst n. rewrite Z.add_0_l in *. repeat split; try assumption.
  rewrite E. rewrite ?Z.add_0_l. change (1000 <? 0) with false. cbv iota. apply Z.sub_0_r.
Qed.

(** ** What the registry then holds *)
Lemma erase_none : forall name reg, has_error name (erase name reg) = false.
Proof.
  intros. unfold has_error, erase. induction reg as [|[k v] reg IH]; [reflexivity|]. cbn.
  destruct (String.eqb k name) eqn:E; cbn; [exact IH|]. rewrite E. exact IH.
Qed.

Lemma c22_registry : forall dur tick l1 e l2 c n,
  0 <= dur < two64 -> Forall (fun e => is_u64 (e_ts e)) (l1 ++ e :: l2) -> consistent n c ->
  jumps dur (last_of (ck_prev c) (map e_ts l1)) (e_ts e) = true ->
  count_neighbours (jumps dur) (e_ts e) (map e_ts l2) = 0 ->
  let reg := ck_reg (snd (check_all dur tick false (l1 ++ e :: l2) c)) in
  hd_error reg = Some ("MISSING_FRAMES"%string,
                       mk_interval ((last_of (ck_prev c) (map e_ts l1) + dur) mod 2 ^ 64) (e_ts e)) /\
  has_error "MISSING_FRAMES" reg = true /\ has_error "MISSING_FRAMES" (tl reg) = false.
Proof.
  intros dur tick l1 e l2 c n Hd Hl Hc Hj Hz reg. subst reg. rewrite check_all_app.
  apply Forall_app in Hl as [Hl1 Hl2]. inversion Hl2 as [|? ? He Hl2']; subst.
  destruct (check_all_real dur tick l1 n c Hd Hl1 Hc) as (_ & Hc1 & Hp & _).
  set (c1 := snd (check_all dur tick false l1 c)) in *. cbn [check_all].
  destruct (check_step_real dur tick _ c1 e Hd He Hc1) as (_ & Hc2 & Hp2 & _ & _ & Hr).
  cbn zeta in *. destruct (timestamp_check dur tick false e c1) as [e' c2]. cbn [fst snd] in *.
  assert (forall l c0 m, Forall (fun e => is_u64 (e_ts e)) l -> consistent m c0 ->
            count_neighbours (jumps dur) (ck_prev c0) (map e_ts l) = 0 ->
            ck_reg (snd (check_all dur tick false l c0)) = ck_reg c0) as Hk.
  { clear - Hd. induction l as [|x l IH]; intros c0 m Hl Hc Hz; [reflexivity|].
    inversion Hl; subst. cbn [map] in Hz. rewrite count_cons in Hz.
    pose proof (count_nonneg (jumps dur) (e_ts x) (map e_ts l)).
    destruct (check_step_real dur tick m c0 x Hd H1 Hc) as (_ & Hc2 & Hp2 & _ & _ & Hr). cbn zeta in *. cbn [check_all].
    destruct (timestamp_check dur tick false x c0) as [e' c2]. cbn [fst snd] in *.
    destruct (jumps dur (ck_prev c0) (e_ts x)); [lia|].
    specialize (IH c2 _ H2 Hc2). rewrite Hp2 in IH. specialize (IH ltac:(lia)).
    destruct (check_all dur tick false l c2). cbn [snd] in *. congruence. }
  specialize (Hk l2 c2 _ Hl2' Hc2). rewrite Hp2 in Hk. specialize (Hk Hz).
  destruct (check_all dur tick false l2 c2) as [r c3]. cbn [snd] in *. rewrite Hk, Hr, Hp, Hj.
  unfold add_error. cbn [hd_error tl]. rewrite erase_none. unfold u64. rewrite two64_pow. repeat split.
Qed.

(** ** Emulator mode *)
Lemma restamp_nth : forall tick l next i f, 0 <= next < two64 -> nth_error (restamp tick next l) i = Some f ->
  f_ts f = u64 (next + Z.of_nat i * tick).
Proof.
  induction l as [|g l IH]; intros next i f Hn H; destruct i; try discriminate.
  - cbn in H. inversion H. cbn [f_ts]. unfold u64. rewrite Z.mod_small; lia.
  - cbn [restamp nth_error] in H. apply IH in H; [|unfold u64; apply Z.mod_pos_bound; unfold two64; lia].
    rewrite H. unfold u64. rewrite Zplus_mod_idemp_l. f_equal. lia.
Qed.

Lemma restamp_length : forall tick l next, List.length (restamp tick next l) = List.length l.
Proof. induction l; intros; cbn; auto. Qed.

Lemma restamp_bytes : forall tick l next, map f_bytes (restamp tick next l) = map f_bytes l.
Proof. induction l; intros; cbn; f_equal; auto. Qed.

Lemma restamp_ts : forall tick l next, l <> [] -> e_ts (mk_elem (restamp tick next l)) = next.
Proof. intros tick [|f l] next H; [congruence|reflexivity]. Qed.

Lemma u64_bound : forall z, 0 <= u64 z < two64.
Proof. intros. apply Z.mod_pos_bound. unfold two64; lia. Qed.

Lemma check_step_emu : forall dur tick n c e, 0 <= dur < two64 -> consistent n c -> e_frames e <> [] ->
  let r := timestamp_check dur tick true e c in
  fst r = mk_elem (restamp tick (u64 (ck_prev c + dur)) (e_frames e)) /\
  consistent n (snd r) /\ ck_prev (snd r) = u64 (ck_prev c + dur) /\ ck_daq (snd r) = u64 (ck_prev c + dur) /\
  ck_reg (snd r) = ck_reg c /\ ck_ctr (snd r) = ck_ctr c /\ ck_reports (snd r) = ck_reports c.
Proof.
  intros dur tick n c e Hd (H1 & H2 & H3) He r. subst r. unfold timestamp_check. cbn [fst snd].
  rewrite restamp_ts by assumption.
  assert (u64 (u64 (ck_prev c + dur) - ck_prev c) =? dur = true) as E.
  { apply Z.eqb_eq. unfold u64. rewrite Zminus_mod_idemp_l. replace (ck_prev c + dur - ck_prev c) with dur by lia.
    apply Z.mod_small; lia. }
  rewrite E. cbn [negb]. unfold consistent. cbn [ck_ctr ck_reported ck_prev ck_daq ck_reports ck_reg].
  assert ((1000 <? i32 n) && negb (1000 <? n) = false) as E2.
  { destruct (Z.ltb_spec 1000 n). apply andb_false_r. rewrite i32_id by lia. lia. }
  rewrite H1, H3, E2, orb_false_r. repeat split; try lia.
Qed.

Lemma c22_emulator : forall dur tick l n c,
  0 <= dur < two64 -> consistent n c -> Forall (fun e => e_frames e <> []) l ->
  let r := check_all dur tick true l c in
  List.length (fst r) = List.length l /\
  (forall k e', nth_error (fst r) k = Some e' ->
     stamped (ck_prev c + (Z.of_nat k + 1) * dur) tick e' /\
     exists e, nth_error l k = Some e /\ map f_bytes (e_frames e') = map f_bytes (e_frames e)) /\
  ck_ctr (snd r) = ck_ctr c /\ ck_reports (snd r) = ck_reports c /\ ck_reg (snd r) = ck_reg c.
Proof.
  induction l as [|e l IH]; intros n c Hd Hc Hl r; subst r.
  - cbn. repeat split; try reflexivity; destruct k; discriminate.
  - inversion Hl as [|? ? He Hl']; subst.
    destruct (check_step_emu dur tick n c e Hd Hc He) as (A1 & A2 & A3 & A4 & A5 & A6 & A7). cbn zeta in *.
    cbn [check_all]. destruct (timestamp_check dur tick true e c) as [e1 c1]. cbn [fst snd] in *.
    specialize (IH n c1 Hd A2 Hl'). cbn zeta in IH. destruct (check_all dur tick true l c1) as [r c2].
    cbn [fst snd] in *. destruct IH as (B1 & B2 & B3 & B4 & B5).
    split; [cbn [List.length]; congruence|]. split; [|repeat split; congruence].
    intros [|k] e' H; cbn [nth_error] in H.
    + inversion H; subst. split.
      * intros i f Hf. apply (restamp_nth tick) in Hf; [|apply u64_bound]. rewrite Hf. unfold u64.
        rewrite Zplus_mod_idemp_l, two64_pow. f_equal. lia.
      * exists e. split; [reflexivity|]. apply restamp_bytes.
    + destruct (B2 k e' H) as (C1 & C2). split; [|exact C2].
      intros i f Hf. rewrite (C1 i f Hf), A3. unfold u64. rewrite two64_pow.
      rewrite <- Z.add_assoc, Zplus_mod_idemp_l. f_equal. lia.
Qed.

Lemma c22_daphne_emulator : forall dur tick l first c,
  0 <= dur < two64 -> is_u64 (ck_prev c) -> Forall (fun e => e_frames e <> []) l ->
  let r := daphne_all dur tick true first l c in
  List.length (fst r) = List.length l /\
  forall k e', nth_error (fst r) k = Some e' ->
    stamped (ck_prev c + (Z.of_nat k + if first then 0 else 1) * dur) tick e' /\
    exists e, nth_error l k = Some e /\ map f_bytes (e_frames e') = map f_bytes (e_frames e).
Proof.
  induction l as [|e l IH]; intros first c Hd Hp Hl r; subst r.
  - cbn. split; [reflexivity|]. destruct k; discriminate.
  - inversion Hl as [|? ? He Hl']; subst. cbn [daphne_all daphne_check].
    set (next := if first then ck_prev c else u64 (ck_prev c + dur)).
    assert (0 <= next < two64) as Hn by (unfold next; destruct first; [exact Hp|apply u64_bound]).
    rewrite (restamp_ts tick (e_frames e) next He).
    match goal with |- context [daphne_all dur tick true false l ?c1] => specialize (IH false c1 Hd Hn Hl'); destruct (daphne_all dur tick true false l c1) as [r c2] end.
    cbn [fst snd ck_prev] in *. destruct IH as [B1 B2]. split; [cbn [List.length]; congruence|].
    assert (next mod 2 ^ 64 = (ck_prev c + (if first then 0 else 1) * dur) mod 2 ^ 64) as En.
    { unfold next. destruct first; [f_equal; lia|]. unfold u64. rewrite <- two64_pow, Z.mod_mod by (unfold two64; lia). f_equal. lia. }
    intros [|k] e' H; cbn [nth_error] in H.
    + inversion H; subst. split.
      * intros i f Hf. apply (restamp_nth tick) in Hf; [|exact Hn]. rewrite Hf. unfold u64. rewrite two64_pow, <- Zplus_mod_idemp_l, En, Zplus_mod_idemp_l.
        f_equal; lia.
      * exists e. split; [reflexivity|]. apply restamp_bytes.
    + destruct (B2 k e' H) as (C1 & C2). split; [|exact C2].
      intros i f Hf. rewrite (C1 i f Hf), <- Z.add_assoc, <- Zplus_mod_idemp_l, En, Zplus_mod_idemp_l. f_equal. lia.
Qed.

(** ** DAPHNE, SSP *)
Lemma c22_daphne : forall dur tick emu l first c,
  ck_ctr c = 0 ->
  let r := daphne_all dur tick emu first l c in
  ck_ctr (snd r) = 0 /\ ck_reports (snd r) = ck_reports c /\ ck_reg (snd r) = ck_reg c /\
  (emu = false -> fst r = l) /\ (fst r <> [] -> ck_daq (snd r) = last_of 0 (map e_ts (fst r))).
Proof.
  induction l as [|e l IH]; intros first c Hc r; subst r.
  - cbn. repeat split; auto. intros []; reflexivity.
  - cbn [daphne_all]. destruct (daphne_check dur tick emu first e c) as [[e' f'] c1] eqn:E.
    unfold daphne_check in E. injection E as E1 E2 E3.
    specialize (IH f' c1). rewrite E1 in E3.
    assert (ck_ctr c1 = 0) as H1 by (rewrite <- E3; exact Hc).
    assert (ck_reports c1 = ck_reports c) as H2 by (rewrite <- E3; cbn; rewrite Hc; cbn; lia).
    assert (ck_reg c1 = ck_reg c) as H3 by (rewrite <- E3; reflexivity).
    assert (ck_daq c1 = e_ts e') as H4 by (rewrite <- E3; reflexivity).
    specialize (IH H1). cbn zeta in IH.
    assert (fst (daphne_all dur tick emu f' l c1) = [] -> snd (daphne_all dur tick emu f' l c1) = c1) as Hnil.
    { destruct l; [reflexivity|]. cbn [daphne_all]. destruct (daphne_check dur tick emu f' e0 c1) as [[? ?] ?].
      destruct (daphne_all dur tick emu b l c0). discriminate. }
    destruct (daphne_all dur tick emu f' l c1) as [r c2]. cbn [fst snd] in *.
    destruct IH as (B1 & B2 & B3 & B4 & B5). repeat split; try congruence.
    + intros ->. cbn in E1. rewrite <- E1, B4; reflexivity.
    + intros _. destruct r as [|x r].
      * rewrite (Hnil eq_refl), H4. reflexivity.
      * rewrite B5 by discriminate. cbn [map]. unfold last_of. rewrite !last_cons_any. reflexivity.
Qed.

(** ** PACMAN *)
Lemma repeat_eq : forall a b, is_u64 a -> is_u64 b -> (u64 (b - a) <=? 0) = repeats a b.
Proof.
  intros a b Ha Hb. unfold repeats, is_u64 in *. pose proof (u64_bound (b - a)).
  apply Bool.eq_true_iff_eq. rewrite Z.leb_le, Z.eqb_eq. split; intro H1.
  - assert (u64 (b - a) = 0) as H2 by lia. unfold u64 in H2. apply Z.mod_divide in H2; [|unfold two64; lia].
    destruct H2 as [k Hk]. assert (k = 0) by (unfold two64 in *; nia). subst. lia.
  - subst. rewrite Z.sub_diag. unfold u64. rewrite Z.mod_0_l; unfold two64; lia.
Qed.

Lemma c24_all : forall l n c,
  is_u64 (ck_prev c) -> Forall is_u64 l -> consistent n c ->
  let n' := n + count_neighbours repeats (ck_prev c) l in
  let r := pacman_all l c in
  snd r = map (fun ab => repeats (fst ab) (snd ab)) (combine (ck_prev c :: l) l) /\
  consistent n' (fst r) /\
  ck_reports (fst r) = ck_reports c + ((if 1000 <? n' then 1 else 0) - (if 1000 <? n then 1 else 0)).
Proof.
  induction l as [|t l IH]; intros n c Hp Hl Hc n' r; subst n' r.
  - cbn. rewrite Z.add_0_r. repeat split; try apply Hc; lia.
  - inversion Hl as [|? ? Ht Hl']; subst. cbn [pacman_all]. unfold pacman_check.
    rewrite (repeat_eq _ _ Hp Ht). rewrite count_cons.
    match goal with |- context [pacman_all l ?x] => set (c1 := x) in * end.
    assert (consistent (n + if repeats (ck_prev c) t then 1 else 0) c1 /\
            ck_reports c1 = ck_reports c + ((if 1000 <? n + (if repeats (ck_prev c) t then 1 else 0) then 1 else 0)
                                            - (if 1000 <? n then 1 else 0))) as [A1 A2].
    { subst c1. unfold consistent. cbn [ck_ctr ck_reported ck_reports]. destruct Hc as (H1 & H2 & H3).
      destruct (repeats (ck_prev c) t).
      - rewrite H1, i32_succ, H3, report_step by lia. repeat split; try lia; split_ltb; reflexivity.
      - rewrite Z.add_0_r, H1, H3.
        assert ((1000 <? i32 n) && negb (1000 <? n) = false) as E.
        { destruct (Z.ltb_spec 1000 n). apply andb_false_r. rewrite i32_id by lia. lia. }
        rewrite E, orb_false_r. repeat split; try lia. }
    specialize (IH _ c1 Ht Hl' A1). cbn zeta in IH. change (ck_prev c1) with t in IH.
    destruct (pacman_all l c1) as [c2 bs]. cbn [fst snd combine map] in *.
    destruct IH as (B1 & B2 & B3). rewrite Z.add_assoc. repeat split; try apply B2.
    + f_equal. exact B1.
    + rewrite B3, A2. lia.
Qed.

(** ** Frame errors *)
Section Errors.
Context {F : Type}.
Variable errors : F -> Z.
Variable threshold : Z.
Variable push_ok : nat -> bool.

Notation loop := (bits_loop threshold push_ok).
Notation step := (frame_error_step errors threshold push_ok).

(** Credit left in the bits of [S], for counters starting at bit j. *)
Fixpoint credit (S : list Z) (j : Z) (cs : list Z) : Z :=
  match cs with
  | [] => 0
  | c :: cs' => (if existsb (Z.eqb j) S then Z.max 0 (threshold - c) else 0) + credit S (j + 1) cs'
  end.

Fixpoint members (S : list Z) (j : Z) (n : nat) : Z :=
  match n with O => 0 | Datatypes.S n' => (if existsb (Z.eqb j) S then 1 else 0) + members S (j + 1) n' end.

Lemma credit_nonneg : forall S cs j, 0 <= credit S j cs.
Proof. induction cs as [|c cs IH]; intro j; cbn [credit]; [lia|]. specialize (IH (j + 1)). destruct existsb; lia. Qed.

Lemma members_nonneg : forall S n j, 0 <= members S j n.
Proof. induction n as [|n IH]; intro j; cbn [members]; [lia|]. specialize (IH (j + 1)). destruct existsb; lia. Qed.

Lemma decay_credit : forall S processed cs j, Forall (fun c => 0 <= c) cs ->
  credit S j (decay processed cs) <= credit S j cs + (if processed mod 10000 =? 0 then members S j (length cs) else 0)
  /\ Forall (fun c => 0 <= c) (decay processed cs) /\ length (decay processed cs) = length cs.
Proof.
  intros S processed cs j H. unfold decay. destruct (processed mod 10000 =? 0); [|repeat split; auto; lia].
  split; [|split; [|apply map_length]].
  - revert j. induction H as [|c cs Hc H IH]; intro j; cbn [map credit length members]; [lia|].
    specialize (IH (j + 1)). destruct existsb; destruct (Z.eqb_spec c 0); lia.
  - induction H as [|c cs Hc H IH]; constructor; auto. destruct (Z.eqb_spec c 0); lia.
Qed.

Definition within (S : list Z) (w j : Z) (n : nat) : bool :=
  forallb (fun i => negb (Z.testbit w i) || existsb (Z.eqb i) S) (map (fun k => j + Z.of_nat k) (seq 0 n)).

Lemma within_cons : forall S w j n, within S w j (Datatypes.S n) =
  (negb (Z.testbit w j) || existsb (Z.eqb j) S) && within S w (j + 1) n.
Proof.
  intros. unfold within. cbn [seq map forallb]. rewrite Z.add_0_r. f_equal.
  rewrite <- seq_shift, map_map. f_equal. apply map_ext. intro. lia.
Qed.

Lemma loop_spec : forall w cs j tries pushed cs' tries' pushed',
  loop w j cs tries pushed = (cs', tries', pushed') -> Forall (fun c => 0 <= c) cs ->
  length cs' = length cs /\ Forall (fun c => 0 <= c) cs' /\
  (forall S, credit S j cs' <= credit S j cs) /\
  (forall S, within S w j (length cs) = true -> pushed = false -> pushed' = true -> credit S j cs' + 1 <= credit S j cs) /\
  (pushed = true -> pushed' = true).
Proof.
  induction cs as [|c cs IH]; intros j tries pushed cs' tries' pushed' H Hp; cbn [bits_loop] in H.
  - inversion H; subst. repeat split; auto; intros; try lia; try congruence.
  - inversion Hp as [|? ? Hc Hp']; subst.
    destruct (Z.testbit w j && (c <? threshold)) eqn:E.
    + apply andb_true_iff in E as [E1 E2]. apply Z.ltb_lt in E2.
      destruct (if pushed then (tries, pushed) else (S tries, push_ok tries)) as [tries1 pushed1] eqn:Ep.
      destruct (loop w (j + 1) cs tries1 pushed1) as [[r t] p] eqn:El. inversion H; subst.
      destruct (IH _ _ _ _ _ _ El Hp') as (A1 & A2 & A3 & A4 & A5).
      split; [cbn; congruence|]. split; [constructor; auto; lia|].
      split; [|split].
      * intro S0. cbn [credit]. specialize (A3 S0). destruct existsb; lia.
      * intros S0 Hw Hf Ht. cbn [length] in Hw. rewrite within_cons, E1 in Hw. cbn [negb orb] in Hw.
        apply andb_true_iff in Hw as [Hw _]. cbn [credit]. rewrite Hw. specialize (A3 S0). lia.
      * intros ->. inversion Ep; subst. auto.
    + destruct (loop w (j + 1) cs tries pushed) as [[r t] p] eqn:El. inversion H; subst.
      destruct (IH _ _ _ _ _ _ El Hp') as (A1 & A2 & A3 & A4 & A5).
      split; [cbn; congruence|]. split; [constructor; auto|]. split; [|split; [|auto]].
      * intro S0. cbn [credit]. specialize (A3 S0). lia.
      * intros S0 Hw Hf Ht. cbn [length] in Hw. rewrite within_cons in Hw.
        apply andb_true_iff in Hw as [_ Hw]. cbn [credit]. specialize (A4 S0 Hw Hf Ht). lia.
Qed.

Lemma only_within : forall S w, only_bits S w = within S w 0 16.
Proof. reflexivity. Qed.

Lemma forwarded_app : forall S a b, forwarded errors S (a ++ b) = forwarded errors S a + forwarded errors S b.
Proof. intros. unfold forwarded. rewrite filter_app, app_length. lia. Qed.

Lemma step_spec : forall s f, good_state s ->
  good_state (step s f) /\
  es_processed (step s f) = u64 (es_processed s + 1) /\
  exists b : bool, es_sent (step s f) = es_sent s ++ (if b then [f] else []) /\
  (forall S, credit S 0 (es_counters (step s f)) + forwarded errors S (if b then [f] else []) <=
             credit S 0 (es_counters s) + (if es_processed s mod 10000 =? 0 then members S 0 16 else 0)).
Proof.
  intros s f (H1 & H2 & H3). unfold frame_error_step.
  destruct (loop (errors f) 0 (decay (es_processed s) (es_counters s)) (es_tries s) false) as [[cs' t] p] eqn:El.
  pose proof (fun S => decay_credit S (es_processed s) (es_counters s) 0 H2) as Hd.
  assert (Forall (fun c => 0 <= c) (decay (es_processed s) (es_counters s))) as Hnn by apply (Hd []).
  assert (length (decay (es_processed s) (es_counters s)) = 16%nat) as Hlen by (rewrite <- H1; apply (Hd [])).
  destruct (loop_spec _ _ _ _ _ _ _ _ El Hnn) as (A1 & A2 & A3 & A4 & _).
  unfold good_state. cbn [es_counters es_processed es_sent].
  split; [repeat split; [congruence|assumption|apply u64_bound..]|]. split; [reflexivity|].
  exists p. split; [reflexivity|]. intro S0. destruct (Hd S0) as (D & _ & _). rewrite H1 in D.
  specialize (A3 S0). specialize (A4 S0). rewrite Hlen in A4. destruct p.
  - unfold forwarded. cbn [filter]. rewrite only_within. destruct (within S0 (errors f) 0 16) eqn:E.
    + specialize (A4 eq_refl eq_refl eq_refl). cbn [length]. lia.
    + cbn [length]. lia.
  - change (forwarded errors S0 []) with 0. lia.
Qed.

(** Blocks started by n frames from frame number p on. *)
Fixpoint blocks (p : Z) (n : nat) : Z :=
  match n with O => 0 | S n' => (if p mod 10000 =? 0 then 1 else 0) + blocks (u64 (p + 1)) n' end.

Lemma all_spec : forall l s, good_state s ->
  good_state (frame_errors errors threshold push_ok s l) /\
  exists sent, es_sent (frame_errors errors threshold push_ok s l) = es_sent s ++ sent /\
  (forall S, credit S 0 (es_counters (frame_errors errors threshold push_ok s l)) + forwarded errors S sent <=
             credit S 0 (es_counters s) + blocks (es_processed s) (length l) * members S 0 16).
Proof.
  induction l as [|f l IH]; intros s Hs; cbn [frame_errors fold_left].
  - split; [assumption|]. exists []. split; [symmetry; apply app_nil_r|]. intro S. cbn. lia.
  - destruct (step_spec s f Hs) as (A1 & A2 & b & A3 & A4).
    destruct (IH _ A1) as (B1 & sent & B2 & B3). split; [exact B1|].
    exists ((if b then [f] else []) ++ sent). split; [unfold frame_errors in *; rewrite B2, A3, app_assoc; reflexivity|].
    intro S0. specialize (A4 S0). specialize (B3 S0). rewrite forwarded_app. cbn [length blocks]. rewrite A2 in B3.
    unfold frame_errors in *. pose proof (members_nonneg S0 16 0).
    destruct (es_processed s mod 10000 =? 0); lia.
Qed.

Lemma blocks_ceil : forall n p, 0 <= p -> p + Z.of_nat n <= two64 ->
  blocks p n = started_blocks (p + Z.of_nat n) - started_blocks p.
Proof.
  induction n as [|n IH]; intros p Hp Hb; cbn [blocks].
  - rewrite Z.add_0_r. lia.
  - destruct n as [|n].
    + cbn [blocks]. unfold started_blocks. change (Z.of_nat 1) with 1.
      destruct (Z.eqb_spec (p mod 10000) 0).
      * Z.to_euclidean_division_equations; lia.
      * Z.to_euclidean_division_equations; lia.
    + assert (u64 (p + 1) = p + 1) as -> by (unfold u64; apply Z.mod_small; lia).
      rewrite IH by lia. replace (p + 1 + Z.of_nat (S n)) with (p + Z.of_nat (S (S n))) by lia.
      assert ((if p mod 10000 =? 0 then 1 else 0) = started_blocks (p + 1) - started_blocks p); [|lia].
      unfold started_blocks. destruct (Z.eqb_spec (p mod 10000) 0); Z.to_euclidean_division_equations; lia.
Qed.

Lemma credit_start : forall S cs j, Forall (fun c => 0 <= c) cs -> 0 <= threshold ->
  credit S j cs <= threshold * members S j (length cs).
Proof.
  intros S cs j H Ht. revert j. induction H as [|c cs Hc H IH]; intro j; cbn [credit length members]; [lia|].
  specialize (IH (j + 1)). destruct existsb; lia.
Qed.

Lemma members_le : forall S, NoDup S -> members S 0 16 <= Z.of_nat (length S).
Proof.
  intros S Hnd.
  assert (forall n j, members S j n = Z.of_nat (length (filter (fun i => existsb (Z.eqb i) S) (map (fun k => j + Z.of_nat k) (seq 0 n))))) as Hm.
  { induction n as [|n IH]; intro j; [reflexivity|]. cbn [members seq map filter]. rewrite Z.add_0_r, IH, <- seq_shift, map_map.
    rewrite (map_ext (fun x => j + Z.of_nat (Datatypes.S x)) (fun k => j + 1 + Z.of_nat k)) by (intro; lia).
    destruct (existsb (Z.eqb j) S); cbn [length]; lia. }
  rewrite Hm. apply inj_le. apply NoDup_incl_length.
  - apply NoDup_filter. apply FinFun.Injective_map_NoDup; [|apply seq_NoDup]. intros a b H. lia.
  - intros x Hx. apply filter_In in Hx as [_ Hx]. apply existsb_exists in Hx as (y & Hy & E). apply Z.eqb_eq in E. congruence.
Qed.

Lemma c23_rate : forall s l S, good_state s -> es_processed s = 0 -> es_sent s = [] -> 0 <= threshold -> NoDup S ->
  Z.of_nat (length l) < 2 ^ 64 ->
  forwarded errors S (es_sent (frame_errors errors threshold push_ok s l)) <=
  Z.of_nat (length S) * (threshold + started_blocks (Z.of_nat (length l))).
Proof.
  intros s l S Hs Hp Hsent Ht Hnd Hl. destruct (all_spec l s Hs) as (_ & sent & E & H). rewrite E, Hsent. cbn [app].
  specialize (H S). rewrite Hp, blocks_ceil in H by (rewrite ?two64_pow; lia).
  pose proof (credit_nonneg S (es_counters (frame_errors errors threshold push_ok s l)) 0).
  destruct Hs as (L & N & _). pose proof (credit_start S _ 0 N Ht) as Hc. rewrite L in Hc.
  pose proof (members_le S Hnd). pose proof (members_nonneg S 16 0).
  change (started_blocks 0) with 0 in H. rewrite Z.add_0_l in H.
  assert (0 <= started_blocks (Z.of_nat (length l))) by (unfold started_blocks; apply Z.div_pos; lia).
  nia.
Qed.

Lemma loop_push : forall w cs j tries cs' tries' pushed',
  loop w j cs tries false = (cs', tries', pushed') ->
  (pushed' = true -> exists k c, nth_error cs k = Some c /\ Z.testbit w (j + Z.of_nat k) = true /\ c < threshold) /\
  ((exists k c, nth_error cs k = Some c /\ Z.testbit w (j + Z.of_nat k) = true /\ c < threshold) ->
   (forall n, push_ok n = true) -> pushed' = true).
Proof.
  induction cs as [|c cs IH]; intros j tries cs' tries' pushed' H; cbn [bits_loop] in H.
  - inversion H; subst. split; [discriminate|]. intros (k & c & Hk & _). destruct k; discriminate.
  - destruct (Z.testbit w j && (c <? threshold)) eqn:E.
    + apply andb_true_iff in E as [E1 E2]. apply Z.ltb_lt in E2.
      split.
      * intros _. exists 0%nat, c. rewrite Z.add_0_r. auto.
      * intros _ Hok. rewrite Hok in H. destruct (loop w (j + 1) cs (S tries) true) as [[r t] p] eqn:El. inversion H; subst.
        clear - El. revert El. generalize (S tries) (j + 1) r tries' pushed'. induction cs as [|c cs IH]; intros n i r0 t0 p0 El; cbn [bits_loop] in El.
        { congruence. }
        { destruct (Z.testbit w i && (c <? threshold)).
          - destruct (loop w (i + 1) cs n true) as [[a b] d] eqn:E. inversion El; subst. eapply IH; eassumption.
          - destruct (loop w (i + 1) cs n true) as [[a b] d] eqn:E. inversion El; subst. eapply IH; eassumption. }
    + destruct (loop w (j + 1) cs tries false) as [[r t] p] eqn:El. inversion H; subst.
      destruct (IH _ _ _ _ _ El) as (A & B). split.
      * intro Hp. destruct (A Hp) as (k & c0 & K1 & K2 & K3). exists (S k), c0.
        replace (j + Z.of_nat (S k)) with (j + 1 + Z.of_nat k) by lia. auto.
      * intros (k & c0 & K1 & K2 & K3) Hok. destruct k.
        { cbn in K1. inversion K1; subst. rewrite Z.add_0_r in K2. rewrite K2 in E. apply Z.ltb_lt in K3. rewrite K3 in E. discriminate. }
        { apply B; [|exact Hok]. exists k, c0. replace (j + 1 + Z.of_nat k) with (j + Z.of_nat (S k)) by lia. auto. }
Qed.

Lemma credit_iff : forall (s : errst F) w, good_state s -> (has_credit threshold s w <->
  exists k c, nth_error (decay (es_processed s) (es_counters s)) k = Some c /\ Z.testbit w (0 + Z.of_nat k) = true /\ c < threshold).
Proof.
  intros s w (_ & Hn & _). unfold has_credit, decay. destruct (es_processed s mod 10000 =? 0).
  - split.
    + intros (j & c & H1 & H2 & H3). exists j, (if c =? 0 then c else c - 1). split; [|split; [exact H2|]].
      * rewrite nth_error_map, H1. reflexivity.
      * rewrite Forall_forall in Hn. specialize (Hn c (nth_error_In _ _ H1)). cbn beta in Hn. destruct (Z.eqb_spec c 0); lia.
    + intros (j & c & H1 & H2 & H3). rewrite nth_error_map in H1. destruct (nth_error (es_counters s) j) as [c0|] eqn:E; [|discriminate].
      exists j, c0. split; [exact E|]. split; [exact H2|]. cbn in H1. injection H1 as <-.
      rewrite Forall_forall in Hn. specialize (Hn c0 (nth_error_In _ _ E)). cbn beta in Hn. destruct (Z.eqb_spec c0 0); lia.
  - reflexivity.
Qed.

Lemma c23_frame : forall s f, good_state s ->
  exists b : bool, es_sent (step s f) = es_sent s ++ (if b then [f] else []) /\
  (b = true -> errors f <> 0 /\ has_credit threshold s (errors f)) /\
  (has_credit threshold s (errors f) -> (forall n, push_ok n = true) -> b = true).
Proof.
  intros s f Hs. pose proof (credit_iff s (errors f) Hs) as HC. unfold frame_error_step.
  destruct (loop (errors f) 0 (decay (es_processed s) (es_counters s)) (es_tries s) false) as [[cs' t] p] eqn:El.
  destruct (loop_push _ _ _ _ _ _ _ El) as (A & B). exists p. cbn [es_sent]. split; [reflexivity|]. split.
  - intro Hp. specialize (A Hp). split; [|apply HC; exact A]. destruct A as (k & c & K1 & K2 & K3).
    intro E. rewrite E, Z.testbit_0_l in K2. discriminate.
  - intros Hc Hok. apply B; [apply HC; exact Hc|exact Hok].
Qed.

Lemma popcount_sum : forall w n j, popcount w j n = Z.of_nat (length (filter (Z.testbit w) (map (fun k => j + Z.of_nat k) (seq 0 n)))).
Proof.
  induction n as [|n IH]; intro j; [reflexivity|]. cbn [popcount seq map filter]. rewrite Z.add_0_r, IH, <- seq_shift, map_map.
  rewrite (map_ext (fun x => j + Z.of_nat (Datatypes.S x)) (fun k => j + 1 + Z.of_nat k)) by (intro; lia).
  destruct (Z.testbit w j); cbn [length]; lia.
Qed.

Lemma popcount_16 : forall w, popcount w 0 16 = set_bits w.
Proof. intro w. rewrite popcount_sum. reflexivity. Qed.

Lemma c23_count : forall l s, is_u64 (es_count s) ->
  es_count (frame_errors errors threshold push_ok s l) = (es_count s + sum (map (fun f => set_bits (errors f)) l)) mod 2 ^ 64.
Proof.
  induction l as [|f l IH]; intros s Hs; cbn [frame_errors fold_left map sum].
  - rewrite Z.add_0_r, Z.mod_small; [reflexivity|exact Hs].
  - assert (es_count (step s f) = u64 (es_count s + set_bits (errors f))) as E.
    { unfold frame_error_step. destruct (loop _ _ _ _ _) as [[? ?] ?]. cbn [es_count]. destruct (Z.eqb_spec (errors f) 0) as [E|E]; cbn [negb].
      - rewrite E. change (set_bits 0) with 0. rewrite Z.add_0_r. symmetry. apply Z.mod_small. exact Hs.
      - rewrite popcount_16. reflexivity. }
    change (fold_left (frame_error_step errors threshold push_ok) l (step s f)) with (frame_errors errors threshold push_ok (step s f) l).
    rewrite IH; [|rewrite E; apply u64_bound]. rewrite E. unfold u64. rewrite two64_pow, Zplus_mod_idemp_l. f_equal. lia.
Qed.

Lemma c23_sublist : forall l s, good_state s -> exists sent, es_sent (frame_errors errors threshold push_ok s l) = es_sent s ++ sent /\
  sublist sent l /\ Forall (fun f => errors f <> 0) sent.
Proof.
  induction l as [|f l IH]; intros s Hs; cbn [frame_errors fold_left].
  - exists []. split; [symmetry; apply app_nil_r|]. split; constructor.
  - destruct (IH (step s f) (proj1 (step_spec s f Hs))) as (sent & E & H1 & H2). destruct (c23_frame s f Hs) as (b & E2 & H3 & _).
    unfold frame_errors in *. rewrite E, E2, <- app_assoc. exists ((if b then [f] else []) ++ sent). split; [reflexivity|].
    destruct b; cbn [app]; split; try constructor; auto. apply H3. reflexivity.
Qed.

End Errors.
