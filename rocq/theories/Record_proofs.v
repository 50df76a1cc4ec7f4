From Coq Require Import ZArith List Bool Lia ZifyBool Sorted.
From Verif Require Import Base_model Ring_model Ring_spec Ring_proofs Search_model Search_spec Search_proofs
  Record_model Record_spec.
Import ListNotations.
Open Scope Z_scope.

Section Proofs.
Context {E : Type}.
Variable ts dur : E -> Z.
Variable limit : Z.
Variable quota : Z -> Z.

Notation astep := (astep ts dur limit quota).
Notation arun := (arun ts dur limit quota).
Notation rec_step := (rec_step ts dur).
Notation clean_step := (clean_step ts limit quota).
Notation between := (between ts).
Notation proper_data := (proper_data ts dur).

(* the history only grows *)
Lemma astep_all : forall s a s', astep s a = Some s' -> exists l, s_all s' = s_all s ++ l.
Proof.
  intros s a s' H. unfold Record_model.astep in H. destruct (s_crashed s); [discriminate|].
  destruct a as [x| | |ex].
  - destruct (write x (s_ring s)) as [[r [|]]|]; injection H as <-; cbn.
    + exists [x]. reflexivity.
    + exists []. rewrite app_nil_r. reflexivity.
    + exists []. rewrite app_nil_r. reflexivity.
  - exists []. rewrite app_nil_r. unfold Record_model.clean_step in H.
    destruct (s_cpc s) as [| |[|k]|k|].
    + destruct (limit <? occupancy (s_ring s)); injection H as <-; reflexivity.
    + destruct (s_running s =? 0); [|discriminate].
      destruct (limit <? occupancy (s_ring s)); injection H as <-; reflexivity.
    + injection H as <-; reflexivity.
    + destruct (deref_opt (s_ring s) (front (s_ring s))) as [[y|]|]; try destruct (ts y <? s_next s);
        injection H as <-; reflexivity.
    + destruct (pop 1 (s_ring s)); injection H as <-; reflexivity.
    + destruct (deref_opt (s_ring s) (front (s_ring s))) as [[y|]|]; injection H as <-; reflexivity.
  - exists []. rewrite app_nil_r. destruct (s_rpc s); try discriminate. injection H as <-. reflexivity.
  - exists []. rewrite app_nil_r. unfold Record_model.rec_step in H.
    destruct (s_rpc s); try discriminate.
    + destruct ex; [injection H as <-; reflexivity|].
      destruct (s_next s =? 0); [injection H as <-; reflexivity|].
      destruct (s_requested s); injection H as <-; reflexivity.
    + destruct (deref_opt (s_ring s) (front (s_ring s))) as [[y|]|]; injection H as <-; reflexivity.
    + injection H as <-; reflexivity.
    + destruct (mutex_free s && negb (s_requested s)); [|discriminate]. injection H as <-; reflexivity.
    + destruct (bs_lower_bound ts (s_ring s) (s_next s)); injection H as <-; reflexivity.
    + destruct (mutex_free s); [|discriminate]. injection H as <-; reflexivity.
    + destruct (negb (i =? it_end) && it_good (s_ring s) i && (k <? 1000)%nat); injection H as <-; reflexivity.
    + destruct (s_mem s i) as [e|]; [destruct (s_next s <=? ts e)|]; injection H as <-; reflexivity.
    + injection H as <-; reflexivity.
    + injection H as <-; reflexivity.
Qed.

Lemma arun_all : forall acts s s', arun s acts = Some s' -> exists l, s_all s' = s_all s ++ l.
Proof.
  induction acts as [|a acts IH]; intros s s' H; cbn in H.
  - injection H as <-. exists []. rewrite app_nil_r. reflexivity.
  - destruct (astep s a) as [s1|] eqn:E1; [|discriminate].
    destruct (astep_all _ _ _ E1) as [l1 H1]. destruct (IH _ _ H) as [l2 H2].
    exists (l1 ++ l2). rewrite H2, H1, app_assoc. reflexivity.
Qed.

Lemma proper_prefix : forall l l', proper_data (l ++ l') -> proper_data l.
Proof.
  intros l l' [H1 H2]. split.
  - intros x Hx. apply H1. apply in_or_app. left. exact Hx.
  - intros i j x y Hij Hx Hy. apply (H2 i j x y Hij).
    + rewrite nth_error_app1; [exact Hx|]. apply nth_error_Some. congruence.
    + rewrite nth_error_app1; [exact Hy|]. apply nth_error_Some. congruence.
Qed.

Lemma proper_last : forall l x y, proper_data (l ++ [x]) -> In y l -> ts y + dur y <= ts x.
Proof.
  intros l x y [_ H] Hy. apply In_nth_error in Hy. destruct Hy as [i Hi].
  assert (i < length l)%nat by (apply nth_error_Some; congruence).
  apply (H i (length l)); [assumption| |].
  - rewrite nth_error_app1 by assumption. exact Hi.
  - rewrite nth_error_app2 by lia. rewrite Nat.sub_diag. reflexivity.
Qed.

(* the structural part of the invariant *)
Record base (n : Z) (s : rstate E) : Prop := {
  b_holds : holds (s_ring s) (skipn (s_popped s) (s_all s));
  b_size : r_size (s_ring s) = n;
  b_read : r_read (s_ring s) = Z.of_nat (s_popped s) mod n;
  b_le : (s_popped s <= length (s_all s))%nat;
  b_mem : forall a, (a < length (s_all s))%nat -> Z.of_nat (length (s_all s)) <= Z.of_nat a + n ->
          s_mem s (Z.of_nat a mod n) = nth_error (s_all s) a
}.

Lemma base_n : forall n s, base n s -> 2 <= n <= 2147483648.
Proof. intros n s H. rewrite <- (b_size _ _ H). apply (h_size _ _ (b_holds _ _ H)). Qed.

Lemma base_write : forall n s, base n s -> r_write (s_ring s) = Z.of_nat (length (s_all s)) mod n.
Proof.
  intros n s H. pose proof (base_n _ _ H) as Hn. rewrite (h_write _ _ (b_holds _ _ H)).
  rewrite (b_size _ _ H), (b_read _ _ H), Zplus_mod_idemp_l, skipn_length.
  f_equal. pose proof (b_le _ _ H). lia.
Qed.

Lemma base_same : forall n s s', base n s -> s_ring s' = s_ring s -> s_mem s' = s_mem s ->
  s_all s' = s_all s -> s_popped s' = s_popped s -> base n s'.
Proof. intros n s s' [] E1 E2 E3 E4. split; rewrite ?E1, ?E2, ?E3, ?E4; assumption. Qed.

Lemma mod_neq : forall n a b, 2 <= n -> a < b < a + n -> a mod n <> b mod n.
Proof.
  intros n a b Hn Hab E1.
  pose proof (Z.div_mod a n ltac:(lia)). pose proof (Z.div_mod b n ltac:(lia)).
  set (qa := a / n) in *. set (qb := b / n) in *. rewrite E1 in *.
  assert (n * (qb - qa) = b - a) as Hq by (rewrite Z.mul_sub_distr_l; lia).
  destruct (Z_le_gt_dec (qb - qa) 0); [nia|]. assert (n * 1 <= n * (qb - qa)) by (apply Z.mul_le_mono_nonneg_l; lia). lia.
Qed.

Lemma base_awrite : forall n s x r, base n s -> write x (s_ring s) = Ok (r, true) ->
  base n (mk_rstate r (upd (s_mem s) (r_write (s_ring s)) (Some x)) (s_next s) (s_requested s)
                    (s_running s) (s_cpc s) (s_rpc s) (s_file s) (s_crashed s)
                    (s_all s ++ [x]) (s_popped s) (s_first s) (s_upto s)).
Proof.
  intros n s x r H Hw. pose proof (base_n _ _ H) as Hn. pose proof (base_write _ _ H) as Hwr.
  destruct H as [Hh Hs Hr Hl Hm].
  assert (Z.of_nat (length (skipn (s_popped s) (s_all s))) < r_size (s_ring s) - 1) as Hlt.
  { pose proof (h_len _ _ Hh).
    destruct (Z.eq_dec (Z.of_nat (length (skipn (s_popped s) (s_all s)))) (r_size (s_ring s) - 1)) as [Ef|]; [|lia].
    destruct (write_full _ _ x Hh Ef) as (r' & E1 & _). rewrite E1 in Hw. discriminate. }
  destruct (write_ok _ _ x Hh Hlt) as (r' & E1 & H1 & H2 & _). rewrite E1 in Hw. injection Hw as ->.
  assert (r_read r = r_read (s_ring s)) as Hrr.
  { unfold write in E1. destruct (negb (next_index (r_size (s_ring s)) (r_write (s_ring s)) =? r_read (s_ring s))).
    - destruct (r_slots (s_ring s) (r_write (s_ring s))); [discriminate|]. injection E1 as <-. reflexivity.
    - discriminate. }
  split; cbn [s_ring s_mem s_all s_popped].
  - rewrite skipn_app. replace (s_popped s - length (s_all s))%nat with O by lia. exact H1.
  - congruence.
  - congruence.
  - rewrite app_length. cbn [length]. lia.
  - intros a Ha Hb. rewrite app_length in Ha, Hb. cbn [length] in Ha, Hb. unfold upd. rewrite Hwr.
    destruct (Nat.eq_dec a (length (s_all s))) as [->|Hne].
    + rewrite Z.eqb_refl. rewrite nth_error_app2 by lia. rewrite Nat.sub_diag. reflexivity.
    + pose proof (mod_neq n (Z.of_nat a) (Z.of_nat (length (s_all s))) ltac:(lia) ltac:(lia)) as Hd.
      destruct (Z.of_nat a mod n =? Z.of_nat (length (s_all s)) mod n) eqn:Eq; [lia|].
      rewrite nth_error_app1 by lia. apply Hm; lia.
Qed.

Lemma base_arefuse : forall n s x r, base n s -> write x (s_ring s) = Ok (r, false) ->
  base n (mk_rstate r (s_mem s) (s_next s) (s_requested s)
                    (s_running s) (s_cpc s) (s_rpc s) (s_file s) (s_crashed s)
                    (s_all s) (s_popped s) (s_first s) (s_upto s)).
Proof.
  intros n s x r H Hw. destruct H as [Hh Hs Hr Hl Hm].
  assert (Z.of_nat (length (skipn (s_popped s) (s_all s))) = r_size (s_ring s) - 1) as Hfull.
  { pose proof (h_len _ _ Hh).
    destruct (Z.eq_dec (Z.of_nat (length (skipn (s_popped s) (s_all s)))) (r_size (s_ring s) - 1)) as [Ef|Ef]; [exact Ef|].
    destruct (write_ok _ _ x Hh ltac:(lia)) as (r' & E1 & _). rewrite E1 in Hw. discriminate. }
  destruct (write_full _ _ x Hh Hfull) as (r' & E1 & H1 & H2 & _). rewrite E1 in Hw. injection Hw as ->.
  assert (r_read r = r_read (s_ring s)) as Hrr.
  { unfold write in E1. destruct (negb (next_index (r_size (s_ring s)) (r_write (s_ring s)) =? r_read (s_ring s))).
    - destruct (r_slots (s_ring s) (r_write (s_ring s))); discriminate.
    - injection E1 as <-. reflexivity. }
  split; cbn [s_ring s_mem s_all s_popped]; try assumption; congruence.
Qed.

Lemma write_not_crash : forall n s x, base n s -> write x (s_ring s) <> Crash.
Proof.
  intros n s x [Hh _ _ _ _] Hc. pose proof (h_len _ _ Hh).
  destruct (Z.eq_dec (Z.of_nat (length (skipn (s_popped s) (s_all s)))) (r_size (s_ring s) - 1)) as [Ef|Ef].
  - destruct (write_full _ _ x Hh Ef) as (r' & E1 & _). congruence.
  - destruct (write_ok _ _ x Hh ltac:(lia)) as (r' & E1 & _). congruence.
Qed.

Lemma skipn_hd : forall (l : list E) p, hd_error (skipn p l) = nth_error l p.
Proof. induction l as [|y l IH]; intros [|p]; cbn; auto. Qed.

Lemma base_front : forall n s, base n s ->
  deref_opt (s_ring s) (front (s_ring s)) = Ok (nth_error (s_all s) (s_popped s)).
Proof. intros n s H. rewrite (front_ok _ _ (b_holds _ _ H)), skipn_hd. reflexivity. Qed.

Lemma base_apop : forall n s k r, base n s -> pop 1 (s_ring s) = Ok r ->
  (s_popped s < length (s_all s))%nat /\
  base n (mk_rstate r (s_mem s) (s_next s) (s_requested s) (s_running s) (CLoop k) (s_rpc s) (s_file s)
                    (s_crashed s) (s_all s) (S (s_popped s)) (s_first s) (s_upto s)).
Proof.
  intros n s k r H Hp. pose proof (base_n _ _ H) as Hn. destruct H as [Hh Hs Hr Hl Hm].
  destruct (Nat.eq_dec (s_popped s) (length (s_all s))) as [Ee|Hne].
  - rewrite (pop_too_many 1 _ _ Hh) in Hp; [discriminate|]. rewrite skipn_length. lia.
  - split; [lia|].
    destruct (pop_ok 1 _ _ Hh) as (r' & E1 & H1 & H2 & _); [rewrite skipn_length; lia|].
    rewrite E1 in Hp. injection Hp as ->.
    assert (r_read r = (Z.of_nat (s_popped s) + 1) mod n) as Hrr.
    { cbn [pop] in E1. unfold popFront in E1. destruct (r_read (s_ring s) =? r_write (s_ring s)); [discriminate|].
      destruct (r_slots (s_ring s) (r_read (s_ring s))); [|discriminate]. injection E1 as <-. cbn [r_read].
      rewrite next_index_spec by (rewrite ?Hs; try lia; rewrite Hr; apply Z.mod_pos_bound; lia).
      rewrite Hs, Hr. rewrite <- (Zplus_mod_idemp_l _ 1).
      pose proof (Z.mod_pos_bound (Z.of_nat (s_popped s)) n ltac:(lia)).
      destruct (Z.of_nat (s_popped s) mod n + 1 =? n) eqn:E2.
      - replace (Z.of_nat (s_popped s) mod n + 1) with n by lia. rewrite Z.mod_same; lia.
      - rewrite (Z.mod_small (_ + 1)); lia. }
    split; cbn [s_ring s_mem s_all s_popped]; try assumption.
    + assert (forall l p, skipn 1 (skipn p l) = @skipn E (S p) l) as X.
      { clear. induction l as [|y l IH]; intros p; [destruct p; reflexivity|].
        destruct p; [reflexivity|]. cbn [skipn]. apply IH. }
      rewrite <- X. exact H1.
    + congruence.
    + rewrite Hrr. f_equal. lia.
    + lia.
Qed.

Lemma base_init : forall n, supported_size n -> base n (init n).
Proof.
  intros n Hn. split; cbn.
  - apply holds_new. exact Hn.
  - reflexivity.
  - destruct n; reflexivity.
  - lia.
  - intros a Ha. lia.
Qed.

(* base is preserved by everything *)
Lemma base_step : forall n s a s', base n s -> astep s a = Some s' -> base n s'.
Proof.
  intros n s a s' Hb H. unfold Record_model.astep in H. destruct (s_crashed s) eqn:Ecr; [discriminate|].
  destruct a as [x| | |ex].
  - destruct (write x (s_ring s)) as [[r [|]]|] eqn:Ew; injection H as <-.
    + rewrite <- Ecr. apply base_awrite; assumption.
    + rewrite <- Ecr. apply base_arefuse with x; assumption.
    + apply (base_same n s); auto.
  - unfold Record_model.clean_step in H.
    destruct (s_cpc s) as [| |[|k]|k|].
    + destruct (limit <? occupancy (s_ring s)); injection H as <-; apply (base_same n s); auto.
    + destruct (s_running s =? 0); [|discriminate].
      destruct (limit <? occupancy (s_ring s)); injection H as <-; apply (base_same n s); auto.
    + injection H as <-; apply (base_same n s); auto.
    + destruct (deref_opt (s_ring s) (front (s_ring s))) as [[y|]|]; try destruct (ts y <? s_next s);
        injection H as <-; apply (base_same n s); auto.
    + destruct (pop 1 (s_ring s)) as [r|] eqn:Ep; injection H as <-.
      * apply (base_apop n s k r Hb Ep).
      * apply (base_same n s); auto.
    + destruct (deref_opt (s_ring s) (front (s_ring s))) as [[y|]|]; injection H as <-; apply (base_same n s); auto.
  - destruct (s_rpc s); try discriminate. injection H as <-. apply (base_same n s); auto.
  - unfold Record_model.rec_step in H.
    destruct (s_rpc s); try discriminate.
    + destruct ex; [injection H as <-; apply (base_same n s); auto|].
      destruct (s_next s =? 0); [injection H as <-; apply (base_same n s); auto|].
      destruct (s_requested s); injection H as <-; apply (base_same n s); auto.
    + destruct (deref_opt (s_ring s) (front (s_ring s))) as [[y|]|]; injection H as <-; apply (base_same n s); auto.
    + injection H as <-; apply (base_same n s); auto.
    + destruct (mutex_free s && negb (s_requested s)); [|discriminate]. injection H as <-; apply (base_same n s); auto.
    + destruct (bs_lower_bound ts (s_ring s) (s_next s)); injection H as <-; apply (base_same n s); auto.
    + destruct (mutex_free s); [|discriminate]. injection H as <-; apply (base_same n s); auto.
    + destruct (negb (i =? it_end) && it_good (s_ring s) i && (k <? 1000)%nat); injection H as <-; apply (base_same n s); auto.
    + destruct (s_mem s i) as [e|]; [destruct (s_next s <=? ts e)|]; injection H as <-; apply (base_same n s); auto.
    + injection H as <-; apply (base_same n s); auto.
    + injection H as <-; apply (base_same n s); auto.
Qed.

(* iterator arithmetic by element number *)
Lemma base_incr : forall n s a, base n s -> (a < length (s_all s))%nat ->
  Z.of_nat (length (s_all s)) <= Z.of_nat a + n ->
  it_incr (s_ring s) (Z.of_nat a mod n) = it_end \/
  ((S a < length (s_all s))%nat /\ it_incr (s_ring s) (Z.of_nat a mod n) = Z.of_nat (S a) mod n).
Proof.
  intros n s a H Ha Hb. pose proof (base_n _ _ H) as Hn.
  pose proof (Z.mod_pos_bound (Z.of_nat a) n ltac:(lia)) as Hp.
  destruct (it_good (s_ring s) (Z.of_nat a mod n)) eqn:Eg.
  - pose proof (b_holds _ _ H) as Hh.
    apply (good_sound _ _ _ Hh) in Eg; [|rewrite (b_size _ _ H); lia].
    destruct Eg as (k & Hk & Ek). rewrite skipn_length in Hk.
    assert (a = s_popped s + k)%nat as Ha'.
    { rewrite (b_size _ _ H), (b_read _ _ H), Zplus_mod_idemp_l in Ek.
      destruct (Nat.lt_trichotomy a (s_popped s + k)) as [L|[Eq|L]]; [|exact Eq|].
      - exfalso. apply (mod_neq n (Z.of_nat a) (Z.of_nat (s_popped s) + Z.of_nat k)); lia.
      - exfalso. pose proof (h_len _ _ Hh) as HL. rewrite skipn_length, (b_size _ _ H) in HL.
        apply (mod_neq n (Z.of_nat (s_popped s) + Z.of_nat k) (Z.of_nat a)); lia. }
    rewrite Ek. rewrite (incr_index _ _ (Z.of_nat k) Hh) by (rewrite skipn_length; lia).
    rewrite skipn_length.
    destruct (Z.of_nat k + 1 <? Z.of_nat (length (s_all s) - s_popped s)) eqn:El; [|left; reflexivity].
    right. split; [lia|]. rewrite (b_size _ _ H), (b_read _ _ H), Zplus_mod_idemp_l. f_equal. lia.
  - left. unfold it_incr. rewrite Eg. rewrite Eg. reflexivity.
Qed.

(* filter lemmas for between *)
Lemma between_app : forall f u l l', between f u (l ++ l') = between f u l ++ between f u l'.
Proof. intros. apply filter_app. Qed.

Lemma between_none : forall f u l, (forall x, In x l -> u <= ts x \/ ts x < f) -> between f u l = [].
Proof.
  intros f u l. induction l as [|x l IH]; intros H; [reflexivity|].
  cbn [Record_spec.between filter]. destruct ((f <=? ts x) && (ts x <? u)) eqn:Eb.
  - specialize (H x (or_introl eq_refl)). lia.
  - apply IH. intros y Hy. apply H. right. exact Hy.
Qed.

Lemma between_ext : forall f u u' l, (forall x, In x l -> (ts x <? u) = (ts x <? u')) -> between f u l = between f u' l.
Proof.
  intros f u u' l. induction l as [|x l IH]; intros H; [reflexivity|].
  unfold Record_spec.between in *. cbn [filter].
  rewrite (H x (or_introl eq_refl)). rewrite IH; [reflexivity|]. intros y Hy. apply H. right. exact Hy.
Qed.

Lemma between_extend : forall l f u a e, proper_data l -> nth_error l a = Some e ->
  (forall b x, (b < a)%nat -> nth_error l b = Some x -> ts x < u) -> f <= u <= ts e ->
  between f (ts e + dur e) l = between f u l ++ [e].
Proof.
  intros l f u a e [Hp1 Hp2] He Hb Hf.
  assert (l = firstn a l ++ e :: skipn (S a) l) as El.
  { rewrite <- (skipn_cons_nth _ _ _ He). symmetry. apply firstn_skipn. }
  assert (0 < dur e) as Hd by (apply (Hp1 e); eapply nth_error_In; eassumption).
  assert (a < length l)%nat as Hal by (apply nth_error_Some; congruence).
  assert (forall x, In x (firstn a l) -> ts x < u) as H1.
  { intros x Hx. apply In_nth_error in Hx. destruct Hx as [b Hx].
    assert (b < a)%nat as Hba. { assert (b < length (firstn a l))%nat by (apply nth_error_Some; congruence).
      rewrite firstn_length in *. lia. }
    apply (Hb b); [exact Hba|]. rewrite El, nth_error_app1; [exact Hx|]. rewrite firstn_length. lia. }
  assert (forall x, In x (skipn (S a) l) -> ts e + dur e <= ts x) as H2.
  { intros x Hx. apply In_nth_error in Hx. destruct Hx as [b Hx].
    apply (Hp2 a (S a + b)%nat); [lia|exact He|].
    rewrite <- Hx. clear. revert a. induction l as [|y l IH]; intros a.
    - rewrite skipn_nil. destruct b, (S a + _)%nat; reflexivity.
    - destruct a; [reflexivity|]. exact (IH a). }
  assert (forall v, between f v l = between f v (firstn a l) ++ between f v [e] ++ between f v (skipn (S a) l)) as Hsplit.
  { intros v. rewrite <- !between_app. cbn [app]. rewrite <- El. reflexivity. }
  rewrite (Hsplit u), (Hsplit (ts e + dur e)).
  rewrite (between_none f (ts e + dur e) (skipn (S a) l)) by (intros x Hx; left; apply H2; exact Hx).
  rewrite (between_none f u (skipn (S a) l)) by (intros x Hx; specialize (H2 x Hx); lia).
  rewrite (between_none f u [e]) by (intros x [<-|[]]; lia).
  rewrite !app_nil_r.
  rewrite (between_ext f (ts e + dur e) u) by (intros x Hx; specialize (H1 x Hx); lia).
  f_equal. unfold Record_spec.between. cbn [filter].
  destruct ((f <=? ts e) && (ts e <? ts e + dur e)) eqn:Eq; [reflexivity|lia].
Qed.

Definition bound (s : rstate E) : Z := match s_rpc s with RUpd e _ _ => ts e + dur e | _ => s_upto s end.

(* where the iterator is, up to where everything lies below the bound *)
Definition iter_at (n : Z) (s : rstate E) (i : Z) (incl : bool) (u : Z) : Prop :=
  i = it_end \/
  exists a, i = Z.of_nat a mod n /\ (a < length (s_all s))%nat /\ (s_popped s <= S a)%nat /\
    s_first s <> None /\
    (forall b x, (if incl then b <= a else b < a)%nat -> nth_error (s_all s) b = Some x -> ts x < u) /\
    (forall b x, (a < b)%nat -> nth_error (s_all s) b = Some x -> u <= ts x).

Definition rpc_ok (n : Z) (s : rstate E) : Prop :=
  match s_rpc s with
  | RIdle => s_next s = max_u64
  | RTop | RWait | RSearch => s_next s = s_upto s
  | RFront => s_next s = 0 /\ s_upto s = 0
  | RSet v => s_next s = 0 /\ s_upto s = 0 /\ (forall k, s_cpc s <> CPop k) /\
              (v = 0 \/ exists x, nth_error (s_all s) (s_popped s) = Some x /\ v = ts x)
  | RDec i | RLoop i _ => s_next s = s_upto s /\ iter_at n s i false (s_upto s)
  | RDeref i _ => s_next s = s_upto s /\ i <> it_end /\ iter_at n s i false (s_upto s)
  | RUpd e i _ => s_next s = s_upto s /\ i <> it_end /\ iter_at n s i true (ts e + dur e) /\
                  s_upto s <= ts e /\ In e (s_all s)
  | RIncr i _ => s_next s = s_upto s /\ i <> it_end /\ iter_at n s i true (s_upto s)
  end.

Definition active (s : rstate E) : Prop := s_rpc s <> RIdle.

Record inv (n : Z) (s : rstate E) : Prop := {
  v_base : base n s;
  v_rpc : rpc_ok n s;
  v_cpop : forall k, s_cpc s = CPop k -> (s_popped s < length (s_all s))%nat;
  v_none : s_first s = None -> s_upto s = 0 /\ s_file s = [];
  v_some : forall t, s_first s = Some t ->
           1 <= t <= s_upto s /\ s_file s = between t (bound s) (s_all s) /\
           (exists e, In e (s_all s) /\ bound s <= ts e + dur e) /\
           (active s -> forall b x, (b < s_popped s)%nat -> nth_error (s_all s) b = Some x -> ts x < s_upto s) /\
           (active s -> forall k, s_cpc s = CPop k ->
              forall x, nth_error (s_all s) (s_popped s) = Some x -> ts x < s_upto s)
}.

Lemma inv_init : forall n, supported_size n -> inv n (init n).
Proof.
  intros n Hn. split.
  - apply base_init. exact Hn.
  - reflexivity.
  - intros k H. discriminate.
  - intros _. split; reflexivity.
  - intros t H. discriminate.
Qed.

Lemma nth_app_old : forall (l : list E) x b y, (b < length l)%nat -> nth_error (l ++ [x]) b = Some y -> nth_error l b = Some y.
Proof. intros l x b y Hb H. rewrite nth_error_app1 in H; assumption. Qed.

Lemma inv_write : forall n s x r, inv n s -> s_crashed s = false -> write x (s_ring s) = Ok (r, true) ->
  proper_data (s_all s ++ [x]) ->
  inv n (mk_rstate r (upd (s_mem s) (r_write (s_ring s)) (Some x)) (s_next s) (s_requested s)
                    (s_running s) (s_cpc s) (s_rpc s) (s_file s) (s_crashed s)
                    (s_all s ++ [x]) (s_popped s) (s_first s) (s_upto s)).
Proof.
  intros n s x r [Hb Hr Hcp Hno Hso] Hc Hw Hpr.
  pose proof (base_write _ _ Hb) as Hwr. pose proof (base_n _ _ Hb) as Hn.
  assert (forall i incl, iter_at n s i incl (bound s) ->
    iter_at n (mk_rstate r (upd (s_mem s) (r_write (s_ring s)) (Some x)) (s_next s) (s_requested s)
                    (s_running s) (s_cpc s) (s_rpc s) (s_file s) (s_crashed s)
                    (s_all s ++ [x]) (s_popped s) (s_first s) (s_upto s)) i incl (bound s)) as Hit.
  { intros i incl [->|(a & Ea & Ha & Hl & Hf & Hlow & Hhigh)]; [left; reflexivity|].
    right. exists a. cbn [s_all s_first s_popped]. split; [exact Ea|]. rewrite app_length. cbn [length].
    split; [lia|]. split; [exact Hl|]. split; [exact Hf|]. split.
    - intros b y Hba Hy. apply (Hlow b y Hba). apply nth_app_old with x; [|exact Hy]. destruct incl; lia.
    - intros b y Hba Hy. destruct (Nat.lt_ge_cases b (length (s_all s))) as [L|L].
      + apply (Hhigh b y Hba). apply nth_app_old with x; assumption.
      + rewrite nth_error_app2 in Hy by exact L. destruct (b - length (s_all s))%nat as [|d]; [|destruct d; discriminate].
        injection Hy as <-. destruct (s_first s) as [t|] eqn:Ef; [|congruence].
        destruct (Hso t eq_refl) as (_ & _ & (e & He & Heb) & _).
        pose proof (proper_last (s_all s) x e Hpr He). lia. }
  split.
  - apply base_awrite; assumption.
  - unfold rpc_ok in *. cbn [s_rpc s_next s_upto s_cpc s_all s_popped].
    unfold bound in Hit. destruct (s_rpc s) eqn:Ep; try exact Hr.
    + destruct Hr as (H1 & H2 & H3 & H4). repeat split; try assumption.
      destruct H4 as [->|(y & Hy & ->)]; [left; reflexivity|]. right. exists y. split; [|reflexivity].
      rewrite nth_error_app1; [exact Hy|]. apply nth_error_Some. congruence.
    + destruct Hr as (H1 & H2). split; [exact H1|]. apply Hit. exact H2.
    + destruct Hr as (H1 & H2). split; [exact H1|]. apply Hit. exact H2.
    + destruct Hr as (H1 & H2 & H3). split; [exact H1|]. split; [exact H2|]. apply Hit. exact H3.
    + destruct Hr as (H1 & H2 & H3 & H4 & H5). split; [exact H1|]. split; [exact H2|]. split; [|split].
      * apply Hit. exact H3.
      * exact H4.
      * apply in_or_app. left. exact H5.
    + destruct Hr as (H1 & H2 & H3). split; [exact H1|]. split; [exact H2|]. apply Hit. exact H3.
  - intros k Hk. cbn [s_popped s_all]. rewrite app_length. specialize (Hcp k Hk). lia.
  - exact Hno.
  - intros t Ht. cbn [s_first] in Ht. destruct (Hso t Ht) as (H1 & H2 & (e & He & Heb) & H4 & H5).
    assert (ts e + dur e <= ts x) as Hex by (apply proper_last with (s_all s); assumption).
    unfold bound, active in *. cbn [s_rpc s_upto s_file s_all s_popped s_cpc].
    split; [exact H1|]. split; [|split; [|split]].
    + rewrite between_app. rewrite (between_none _ _ [x]) by (intros y [<-|[]]; left; lia).
      rewrite app_nil_r. exact H2.
    + exists e. split; [apply in_or_app; left; exact He|exact Heb].
    + intros Ha b y Hbp Hy. apply (H4 Ha b y Hbp). apply nth_app_old with x; [|exact Hy].
      pose proof (b_le _ _ Hb). lia.
    + intros Ha k Hk y Hy. apply (H5 Ha k Hk). apply nth_app_old with x; [|exact Hy]. exact (Hcp k Hk).
Qed.

(* states that differ only in ways the invariant does not see *)
Lemma inv_same : forall n s s', inv n s -> s_ring s' = s_ring s -> s_mem s' = s_mem s -> s_next s' = s_next s ->
  s_rpc s' = s_rpc s -> s_file s' = s_file s -> s_all s' = s_all s -> s_popped s' = s_popped s ->
  s_first s' = s_first s -> s_upto s' = s_upto s ->
  (forall k, s_cpc s' = CPop k -> s_cpc s = CPop k) -> inv n s'.
Proof.
  intros n s s' [Hb Hr Hcp Hno Hso] E1 E2 E3 E4 E5 E6 E7 E8 E9 Ec.
  split.
  - apply (base_same n s); assumption.
  - unfold rpc_ok, iter_at in *. rewrite E3, E4, E6, E7, E8, E9. destruct (s_rpc s); try assumption.
    destruct Hr as (H1 & H2 & H3 & H4). repeat split; try assumption.
    intros k Hk. apply (H3 k). apply Ec. exact Hk.
  - intros k Hk. rewrite E6, E7. apply (Hcp k). apply Ec. exact Hk.
  - rewrite E5, E8, E9. exact Hno.
  - unfold bound, active in *. rewrite E4, E5, E6, E7, E8, E9. intros t Ht.
    destruct (Hso t Ht) as (H1 & H2 & H3 & H4 & H5). repeat split; try assumption; try apply H1.
    intros Ha k Hk. apply (H5 Ha k). apply Ec. exact Hk.
Qed.

Lemma proper_sorted : forall l, proper_data l -> non_decreasing ts l.
Proof.
  intros l [H1 H2] i j x y Hij Hx Hy. destruct (Nat.eq_dec i j) as [->|Hne]; [rewrite Hx in Hy; injection Hy as ->; lia|].
  specialize (H2 i j x y ltac:(lia) Hx Hy). destruct (H1 x (nth_error_In _ _ Hx)). lia.
Qed.

Lemma nth_skipn : forall (l : list E) p k, nth_error (skipn p l) k = nth_error l (p + k).
Proof.
  induction l as [|y l IH]; intros p k; [rewrite skipn_nil; destruct k, (p + _)%nat; reflexivity|].
  destruct p; [reflexivity|]. exact (IH p k).
Qed.

Lemma non_decreasing_skipn : forall l p, non_decreasing ts l -> non_decreasing ts (skipn p l).
Proof.
  intros l p H i j x y Hij Hx Hy. rewrite nth_skipn in Hx, Hy. apply (H (p + i)%nat (p + j)%nat); [lia|assumption|assumption].
Qed.

Lemma inv_clean : forall n s s', inv n s -> proper_data (s_all s) -> clean_step s = Some s' -> inv n s'.
Proof.
  intros n s s' Hi Hpr H. pose proof Hi as [Hb Hr Hcp Hno Hso].
  unfold Record_model.clean_step in H. destruct (s_cpc s) as [| |[|k]|k|] eqn:Ec.
  - destruct (limit <? occupancy (s_ring s)); injection H as <-; [|exact Hi].
    apply (inv_same n s); try reflexivity; [exact Hi|]. intros k Hk. cbn in Hk. discriminate.
  - destruct (s_running s =? 0); [|discriminate].
    destruct (limit <? occupancy (s_ring s)); injection H as <-;
    (apply (inv_same n s); try reflexivity; [exact Hi|]; intros k Hk; cbn in Hk; discriminate).
  - injection H as <-. apply (inv_same n s); try reflexivity; [exact Hi|]. intros k Hk. cbn in Hk. discriminate.
  - rewrite (base_front _ _ Hb) in H. destruct (nth_error (s_all s) (s_popped s)) as [y|] eqn:Ey.
    2:{ injection H as <-. apply (inv_same n s); try reflexivity; [exact Hi|]. intros j Hj. exact Hj. }
    destruct (ts y <? s_next s) eqn:Et; injection H as <-.
    + assert (s_popped s < length (s_all s))%nat as Hlt by (apply nth_error_Some; congruence).
      assert (1 <= ts y) as Hy1 by (apply Hpr; eapply nth_error_In; eassumption).
      split.
      * apply (base_same n s); auto.
      * unfold rpc_ok in *. cbn. destruct (s_rpc s); try assumption.
        destruct Hr as (H1 & _). lia.
      * intros j Hj. exact Hlt.
      * exact Hno.
      * intros t Ht. destruct (Hso t Ht) as (H1 & H2 & H3 & H4 & H5). repeat split; try assumption; try apply H1.
        intros Ha j Hj z Hz. cbn in Hz, Ha |- *. rewrite Ey in Hz. injection Hz as <-.
        assert (s_next s = s_upto s) as Hnu.
        { unfold rpc_ok, active in *. cbn in Ha. destruct (s_rpc s); try exact Hr; try exact (proj1 Hr); try congruence.
          - destruct Hr as (X1 & X2). lia.
          - destruct Hr as (X1 & X2 & _). lia. }
        lia.
    + apply (inv_same n s); try reflexivity; [exact Hi|]. intros j Hj. cbn in Hj. discriminate.
  - specialize (Hcp k eq_refl).
    destruct (pop 1 (s_ring s)) as [r|] eqn:Ep; injection H as <-.
    2:{ apply (inv_same n s); try reflexivity; [exact Hi|]. intros j Hj. exact Hj. }
    destruct (base_apop n s k r Hb Ep) as [Hlt Hb'].
    split.
    + exact Hb'.
    + assert (forall i incl u, active s -> s_upto s <= u -> iter_at n s i incl u ->
        iter_at n (mk_rstate r (s_mem s) (s_next s) (s_requested s) (s_running s) (CLoop k) (s_rpc s) (s_file s)
                    (s_crashed s) (s_all s) (S (s_popped s)) (s_first s) (s_upto s)) i incl u) as Hit.
      { intros i incl u Hact Hu [->|(a & Ea & Ha & Hl & Hf & Hlow & Hhigh)]; [left; reflexivity|].
        right. exists a. cbn [s_all s_first s_popped]. repeat split; try assumption.
        destruct (Nat.eq_dec (s_popped s) (S a)) as [Eq|]; [|lia]. exfalso.
        destruct (s_first s) as [t|] eqn:Ef; [|congruence].
        destruct (Hso t eq_refl) as (_ & _ & _ & _ & H5).
        destruct (nth_error (s_all s) (s_popped s)) as [x|] eqn:Ex; [|apply nth_error_None in Ex; lia].
        specialize (H5 Hact k eq_refl x eq_refl). specialize (Hhigh (s_popped s) x ltac:(lia) Ex). lia. }
      unfold rpc_ok, active in *. cbn [s_rpc s_next s_upto s_cpc s_all s_popped].
      destruct (s_rpc s); try assumption.
      * destruct Hr as (_ & _ & X & _). exfalso. exact (X k Ec).
      * destruct Hr as (H1 & H2). split; [exact H1|]. apply Hit; [discriminate|lia|exact H2].
      * destruct Hr as (H1 & H2). split; [exact H1|]. apply Hit; [discriminate|lia|exact H2].
      * destruct Hr as (H1 & H2 & H3). split; [exact H1|]. split; [exact H2|]. apply Hit; [discriminate|lia|exact H3].
      * destruct Hr as (H1 & H2 & H3 & H4 & H5). split; [exact H1|]. split; [exact H2|]. split; [|split; assumption].
        apply Hit; [discriminate| |exact H3]. destruct (proj1 Hpr e H5). lia.
      * destruct Hr as (H1 & H2 & H3). split; [exact H1|]. split; [exact H2|]. apply Hit; [discriminate|lia|exact H3].
    + intros j Hj. cbn in Hj. discriminate.
    + exact Hno.
    + intros t Ht. destruct (Hso t Ht) as (H1 & H2 & H3 & H4 & H5). repeat split; try assumption; try apply H1.
      * intros Ha b x Hbp Hx. cbn in Hbp, Hx, Ha |- *.
        destruct (Nat.eq_dec b (s_popped s)) as [->|Hne].
        -- apply (H5 Ha k eq_refl). exact Hx.
        -- apply (H4 Ha b); [lia|exact Hx].
      * intros Ha j Hj. cbn in Hj. discriminate.
  - rewrite (base_front _ _ Hb) in H. destruct (nth_error (s_all s) (s_popped s)) as [y|] eqn:Ey; injection H as <-;
      (apply (inv_same n s); try reflexivity; [exact Hi|]; intros j Hj; try exact Hj; cbn in Hj; discriminate).
Qed.

Lemma inv_rec : forall n s s' ex, inv n s -> proper_data (s_all s) ->
  calm_step s (ARec ex) -> rec_step ex s = Some s' -> inv n s'.
Proof.
  intros n s s' ex Hi Hpr Hcalm H. pose proof Hi as [Hb Hr Hcp Hno Hso].
  pose proof (base_n _ _ Hb) as Hn.
  unfold Record_model.rec_step in H. unfold rpc_ok in Hr.
  destruct (s_rpc s) as [| | |v| | |i|i k|i k|e i k|i k] eqn:Ep.
  - discriminate.
  - (* RTop *)
    destruct ex.
    + injection H as <-. split.
      * apply (base_same n s); auto.
      * reflexivity.
      * exact Hcp.
      * exact Hno.
      * intros t Ht. destruct (Hso t Ht) as (H1 & H2 & H3 & H4 & H5).
        unfold bound, active in *. cbn in *. rewrite Ep in *.
        repeat split; try assumption; try apply H1; intros Ha; exfalso; apply Ha; reflexivity.
    + destruct (s_next s =? 0) eqn:E0.
      * injection H as <-. split.
        -- apply (base_same n s); auto.
        -- unfold rpc_ok. cbn. lia.
        -- exact Hcp.
        -- exact Hno.
        -- intros t Ht. destruct (Hso t Ht) as (H1 & H2 & H3 & H4 & H5).
           unfold bound, active in *. cbn in *. rewrite Ep in *. lia.
      * destruct (s_requested s); injection H as <-; [exact Hi|].
        split.
        -- apply (base_same n s); auto.
        -- unfold rpc_ok. cbn. exact Hr.
        -- exact Hcp.
        -- exact Hno.
        -- intros t Ht. destruct (Hso t Ht) as (H1 & H2 & H3 & H4 & H5).
           unfold bound, active in *. cbn in *. rewrite Ep in *.
           repeat split; try assumption; try apply H1;
           (intros _; first [apply H4; discriminate | apply H5; discriminate]).
  - (* RFront *)
    rewrite (base_front _ _ Hb) in H. cbn [calm_step] in Hcalm. specialize (Hcalm Ep).
    assert (s_first s = None) as Hfn.
    { destruct (s_first s) as [t|] eqn:Ef; [|reflexivity]. destruct (Hso t eq_refl) as (H1 & _). lia. }
    destruct (nth_error (s_all s) (s_popped s)) as [y|] eqn:Ey; injection H as <-.
    + split; cbn.
      * apply (base_same n s); auto.
      * unfold rpc_ok. cbn. destruct Hr as [H1 H2]. repeat split; try assumption. right. exists y. auto.
      * exact Hcp.
      * exact Hno.
      * intros t Ht. cbn in Ht. congruence.
    + split; cbn.
      * apply (base_same n s); auto.
      * unfold rpc_ok. cbn. destruct Hr as [H1 H2]. repeat split; try assumption. left. reflexivity.
      * exact Hcp.
      * exact Hno.
      * intros t Ht. cbn in Ht. congruence.
  - (* RSet v *)
    injection H as <-. destruct Hr as (H1 & H2 & H3 & H4).
    assert (s_first s = None) as Hfn.
    { destruct (s_first s) as [t|] eqn:Ef; [|reflexivity]. destruct (Hso t eq_refl) as (X1 & _). lia. }
    destruct (Hno Hfn) as [_ Hfile].
    split.
    + apply (base_same n s); auto.
    + reflexivity.
    + exact Hcp.
    + cbn. destruct (v =? 0) eqn:Ev; [|discriminate]. intros _. split; [lia|exact Hfile].
    + intros t Ht. cbn in Ht. destruct (v =? 0) eqn:Ev; [discriminate|]. injection Ht as <-.
      destruct H4 as [->|(x & Hx & ->)]; [lia|].
      pose proof (nth_error_In _ _ Hx) as Hin. destruct Hpr as [Hp1 Hp2]. destruct (Hp1 x Hin) as (X1 & X2 & X3).
      unfold bound, active. cbn. repeat split.
      * exact X1.
      * lia.
      * rewrite Hfile. symmetry. apply between_none. intros y Hy. lia.
      * exists x. split; [exact Hin|lia].
      * intros _ b y Hby Hy. specialize (Hp2 b (s_popped s) y x Hby Hy Hx).
        destruct (Hp1 y (nth_error_In _ _ Hy)). lia.
      * intros _ k Hk. exfalso. exact (H3 k Hk).
  - (* RWait *)
    destruct (mutex_free s && negb (s_requested s)); [|discriminate]. injection H as <-.
    split.
    + apply (base_same n s); auto.
    + exact Hr.
    + exact Hcp.
    + exact Hno.
    + intros t Ht. destruct (Hso t Ht) as (H1 & H2 & H3 & H4 & H5).
      unfold bound, active in *. cbn in *. rewrite Ep in *.
      repeat split; try assumption; try apply H1;
      (intros _; first [apply H4; discriminate | apply H5; discriminate]).
  - (* RSearch *)
    assert (exists i, bs_lower_bound ts (s_ring s) (s_next s) = SFound i /\ iter_at n s i false (s_upto s)) as (i & Ei & Hit).
    { destruct (bs_found ts _ _ (s_next s) (b_holds _ _ Hb) (non_decreasing_skipn _ _ (proper_sorted _ Hpr)))
        as [[Hnone ->]|(k & (Hk & Hle & Hgt) & ->)].
      - exists it_end. split; [reflexivity|left; reflexivity].
      - eexists. split; [reflexivity|]. right. rewrite skipn_length in Hk. exists (s_popped s + k)%nat.
        pose proof (h_len _ _ (b_holds _ _ Hb)) as HL. rewrite skipn_length, (b_size _ _ Hb) in HL.
        split; [|split; [|split; [|split; [|split]]]].
        + rewrite (b_size _ _ Hb), (b_read _ _ Hb), Zplus_mod_idemp_l. f_equal. lia.
        + lia.
        + lia.
        + intros Hf. destruct (Hno Hf) as [Hu _].
          destruct (nth_error (s_all s) (s_popped s + k)) as [x|] eqn:Ex; [|apply nth_error_None in Ex; lia].
          specialize (Hle k x (le_n _)). rewrite nth_skipn in Hle. specialize (Hle Ex).
          destruct Hpr as [Hp1 _]. destruct (Hp1 x (nth_error_In _ _ Ex)). lia.
        + intros b x Hbk Hx.
          destruct (nth_error (s_all s) (s_popped s + k)) as [z|] eqn:Ez; [|apply nth_error_None in Ez; lia].
          specialize (Hle k z (le_n _)). rewrite nth_skipn in Hle. specialize (Hle Ez).
          destruct Hpr as [Hp1 Hp2]. specialize (Hp2 _ _ _ _ Hbk Hx Ez).
          destruct (Hp1 x (nth_error_In _ _ Hx)). lia.
        + intros b x Hbk Hx. specialize (Hgt (b - s_popped s)%nat x ltac:(lia)). rewrite nth_skipn in Hgt.
          replace (s_popped s + (b - s_popped s))%nat with b in Hgt by lia. specialize (Hgt Hx). lia. }
    rewrite Ei in H. injection H as <-.
    split.
    + apply (base_same n s); auto.
    + split; [exact Hr|exact Hit].
    + exact Hcp.
    + exact Hno.
    + intros t Ht. destruct (Hso t Ht) as (H1 & H2 & H3 & H4 & H5).
      unfold bound, active in *. cbn in *. rewrite Ep in *.
      repeat split; try assumption; try apply H1;
      (intros _; first [apply H4; discriminate | apply H5; discriminate]).
  - (* RDec *)
    destruct (mutex_free s); [|discriminate]. injection H as <-.
    split.
    + apply (base_same n s); auto.
    + exact Hr.
    + exact Hcp.
    + exact Hno.
    + intros t Ht. destruct (Hso t Ht) as (H1 & H2 & H3 & H4 & H5).
      unfold bound, active in *. cbn in *. rewrite Ep in *.
      repeat split; try assumption; try apply H1;
      (intros _; first [apply H4; discriminate | apply H5; discriminate]).
  - (* RLoop *)
    destruct (negb (i =? it_end) && it_good (s_ring s) i && (k <? 1000)%nat) eqn:Eg; injection H as <-.
    + split.
      * apply (base_same n s); auto.
      * unfold rpc_ok. cbn. destruct Hr as [X1 X2]. split; [exact X1|]. split; [lia|exact X2].
      * exact Hcp.
      * exact Hno.
      * intros t Ht. destruct (Hso t Ht) as (H1 & H2 & H3 & H4 & H5).
        unfold bound, active in *. cbn in *. rewrite Ep in *.
        repeat split; try assumption; try apply H1;
        (intros _; first [apply H4; discriminate | apply H5; discriminate]).
    + split.
      * apply (base_same n s); auto.
      * exact (proj1 Hr).
      * exact Hcp.
      * exact Hno.
      * intros t Ht. destruct (Hso t Ht) as (H1 & H2 & H3 & H4 & H5).
        unfold bound, active in *. cbn in *. rewrite Ep in *.
        repeat split; try assumption; try apply H1;
        (intros _; first [apply H4; discriminate | apply H5; discriminate]).
  - (* RDeref *)
    destruct Hr as (X1 & X2 & [X3|(a & Ea & Ha & Hl0 & Hf & Hlow & Hhigh)]); [congruence|].
    assert (Z.of_nat (length (s_all s)) <= Z.of_nat a + n) as Hl.
    { pose proof (h_len _ _ (b_holds _ _ Hb)) as HL. rewrite skipn_length, (b_size _ _ Hb) in HL. lia. }
    rewrite Ea, (b_mem _ _ Hb a Ha Hl) in H.
    destruct (nth_error (s_all s) a) as [e|] eqn:Ee; [|apply nth_error_None in Ee; lia].
    pose proof (nth_error_In _ _ Ee) as Hin. pose proof (proj1 Hpr e Hin) as (Y1 & Y2 & Y3).
    assert (exists t, s_first s = Some t) as [t Ef].
    { destruct (s_first s) as [t|]; [exists t; reflexivity|congruence]. }
    destruct (Hso t Ef) as (H1 & H2 & H3 & H4 & H5).
    destruct (s_next s <=? ts e) eqn:Et; injection H as <-.
    + split.
      * apply (base_same n s); auto.
      * unfold rpc_ok. cbn. split; [exact X1|]. split; [congruence|]. split; [|split; [lia|exact Hin]].
        right. exists a. cbn. split; [reflexivity|]. split; [exact Ha|]. split; [exact Hl0|]. split; [congruence|].
        split.
        -- intros b x Hba Hx. destruct (Nat.eq_dec b a) as [->|Hne].
           ++ rewrite Ee in Hx. injection Hx as <-. lia.
           ++ specialize (Hlow b x ltac:(lia) Hx). lia.
        -- intros b x Hba Hx. destruct Hpr as [_ Hp2]. apply (Hp2 a b e x Hba Ee Hx).
      * exact Hcp.
      * cbn. congruence.
      * intros t' Ht'. cbn in Ht'. rewrite Ef in Ht'. injection Ht' as <-.
        unfold bound, active in *. cbn. rewrite Ep in *. repeat split; try apply H1.
        -- rewrite H2. symmetry. apply between_extend with a; [exact Hpr|exact Ee|exact Hlow|lia].
        -- exists e. split; [exact Hin|lia].
        -- intros _. apply H4. discriminate.
        -- intros _. apply H5. discriminate.
    + split.
      * apply (base_same n s); auto.
      * unfold rpc_ok. cbn. split; [exact X1|]. split; [congruence|].
        right. exists a. cbn. split; [reflexivity|]. split; [exact Ha|]. split; [exact Hl0|]. split; [congruence|].
        split; [|exact Hhigh].
        intros b x Hba Hx. destruct (Nat.eq_dec b a) as [->|Hne].
        -- rewrite Ee in Hx. injection Hx as <-. lia.
        -- apply (Hlow b x ltac:(lia) Hx).
      * exact Hcp.
      * cbn. congruence.
      * intros t' Ht'. cbn in Ht'. rewrite Ef in Ht'. injection Ht' as <-.
        unfold bound, active in *. cbn. rewrite Ep in *. repeat split; try apply H1; try assumption.
        -- intros _. apply H4. discriminate.
        -- intros _. apply H5. discriminate.
  - (* RUpd *)
    injection H as <-. destruct Hr as (X1 & X2 & X3 & X4 & X5).
    pose proof (proj1 Hpr e X5) as (Y1 & Y2 & Y3).
    assert (u64 (ts e + dur e) = ts e + dur e) as Hu.
    { apply u64_small. unfold two64, max_u64 in *. lia. }
    assert (exists t, s_first s = Some t) as [t Ef].
    { destruct X3 as [X3|(a & _ & _ & _ & Hf & _)]; [congruence|]. destruct (s_first s) as [t|]; [exists t; reflexivity|congruence]. }
    destruct (Hso t Ef) as (H1 & H2 & H3 & H4 & H5).
    split.
    + apply (base_same n s); auto.
    + unfold rpc_ok, iter_at in *. cbn. rewrite Hu. split; [reflexivity|]. split; [exact X2|]. exact X3.
    + exact Hcp.
    + cbn. rewrite Ef. discriminate.
    + intros t' Ht'. cbn in Ht'. rewrite Ef in Ht'. injection Ht' as <-.
      unfold bound, active in *. cbn. rewrite Ep in *. rewrite Hu. repeat split; try apply H1; try assumption; try lia.
      * intros _ b x Hbp Hx. specialize (H4 ltac:(discriminate) b x Hbp Hx). lia.
      * intros _ j Hj x Hx. specialize (H5 ltac:(discriminate) j Hj x Hx). lia.
  - (* RIncr *)
    injection H as <-. destruct Hr as (X1 & X2 & [X3|(a & Ea & Ha & Hl0 & Hf & Hlow & Hhigh)]); [congruence|].
    assert (Z.of_nat (length (s_all s)) <= Z.of_nat a + n) as Hl.
    { pose proof (h_len _ _ (b_holds _ _ Hb)) as HL. rewrite skipn_length, (b_size _ _ Hb) in HL. lia. }
    split.
    + apply (base_same n s); auto.
    + unfold rpc_ok. cbn. split; [exact X1|]. rewrite Ea.
      destruct (base_incr n s a Hb Ha Hl) as [Hx|[Hlt Hx]]; rewrite Hx; [left; reflexivity|].
      right. exists (S a). cbn [s_all s_first s_popped set_rpc]. split; [reflexivity|]. split; [exact Hlt|].
      split; [lia|]. split; [exact Hf|]. split.
      * intros b x Hba Hx'. apply (Hlow b x); [lia|exact Hx'].
      * intros b x Hba Hx'. apply (Hhigh b x); [lia|exact Hx'].
    + exact Hcp.
    + exact Hno.
    + intros t Ht. destruct (Hso t Ht) as (H1 & H2 & H3 & H4 & H5).
      unfold bound, active in *. cbn in *. rewrite Ep in *.
      repeat split; try assumption; try apply H1;
      (intros _; first [apply H4; discriminate | apply H5; discriminate]).
Qed.

Lemma inv_step : forall n s a s', inv n s -> proper_data (s_all s') -> calm_step s a ->
  astep s a = Some s' -> inv n s'.
Proof.
  intros n s a s' Hi Hpr Hcalm H. destruct (astep_all _ _ _ H) as [l Hl].
  assert (proper_data (s_all s)) as Hpr0 by (rewrite Hl in Hpr; exact (proper_prefix _ _ Hpr)).
  unfold Record_model.astep in H. destruct (s_crashed s) eqn:Ecr; [discriminate|].
  destruct a as [x| | |ex].
  - destruct (write x (s_ring s)) as [[r [|]]|] eqn:Ew; injection H as <-.
    + rewrite <- Ecr. apply inv_write; assumption.
    + rewrite <- Ecr. pose proof Hi as [Hb Hr Hcp Hno Hso]. split.
      * apply base_arefuse with x; assumption.
      * unfold rpc_ok, iter_at in *. cbn. exact Hr.
      * exact Hcp.
      * exact Hno.
      * exact Hso.
    + apply (inv_same n s); try reflexivity; [exact Hi|]. auto.
  - apply inv_clean with s; assumption.
  - destruct (s_rpc s) eqn:Ep; try discriminate. injection H as <-.
    pose proof Hi as [Hb Hr Hcp Hno Hso]. split.
    + apply (base_same n s); auto.
    + reflexivity.
    + exact Hcp.
    + intros _. split; reflexivity.
    + intros t Ht. discriminate.
  - apply inv_rec with s ex; assumption.
Qed.

Lemma inv_run : forall acts n s s', inv n s -> arun s acts = Some s' -> proper_data (s_all s') ->
  calm ts dur limit quota s acts -> inv n s'.
Proof.
  induction acts as [|a acts IH]; intros n s s' Hi H Hpr Hc; cbn in H.
  - injection H as <-. exact Hi.
  - destruct (astep s a) as [s1|] eqn:E1; [|discriminate]. cbn in Hc. rewrite E1 in Hc. destruct Hc as [Hc1 Hc2].
    apply IH with s1; try assumption. apply inv_step with s a; try assumption.
    destruct (arun_all _ _ _ H) as [l Hl]. rewrite Hl in Hpr. exact (proper_prefix _ _ Hpr).
Qed.

Lemma recorded_lemma : forall n acts s, supported_size n -> arun (init n) acts = Some s ->
  proper_data (s_all s) -> calm ts dur limit quota (init n) acts ->
  match s_first s with
  | None => s_file s = []
  | Some t =>
      exists u, s_upto s <= u /\ (s_rpc s = RIdle -> u = s_upto s) /\
        s_file s = between t u (s_all s) /\
        (s_rpc s <> RIdle -> forall x, In x (removed s) -> t <= ts x -> In x (s_file s))
  end.
Proof.
  intros n acts s Hn H Hpr Hc. pose proof (inv_run _ _ _ _ (inv_init n Hn) H Hpr Hc) as [Hb Hr Hcp Hno Hso].
  destruct (s_first s) as [t|] eqn:Ef; [|apply Hno; reflexivity].
  destruct (Hso t eq_refl) as (H1 & H2 & H3 & H4 & H5).
  assert (s_upto s <= bound s) as Hle.
  { unfold bound, rpc_ok in *. destruct (s_rpc s); try lia. destruct Hr as (_ & _ & _ & X4 & X5).
    destruct (proj1 Hpr e X5). lia. }
  exists (bound s). split; [exact Hle|]. split; [|split].
  - intros Hi. unfold bound. rewrite Hi. reflexivity.
  - exact H2.
  - intros Ha x Hx Hxt. rewrite H2. unfold Record_spec.between. apply filter_In.
    unfold removed in Hx. apply In_nth_error in Hx. destruct Hx as [b Hx].
    assert (b < length (firstn (s_popped s) (s_all s)))%nat as Hlt by (apply nth_error_Some; congruence).
    rewrite firstn_length in Hlt.
    assert (nth_error (s_all s) b = Some x) as Hx'.
    { rewrite <- (firstn_skipn (s_popped s) (s_all s)), nth_error_app1; [exact Hx|]. rewrite firstn_length. lia. }
    split; [eapply nth_error_In; exact Hx'|].
    specialize (H4 Ha b x ltac:(lia) Hx'). lia.
Qed.

End Proofs.
