(** Proofs about the source emulator's production loop. *)
From Coq Require Import ZArith List Bool Lia.
From Verif Require Import Base_model Bytes_model Bytes_proofs Ebg_model Ebg_spec Ebg_proofs Emu_model Emu_spec.
Import ListNotations.
Open Scope Z_scope.

(** Continuing the error words after the first [j]. *)
Lemma words_from t (T : tables_ok t) j n g0 : (exists ws, gen_words t j gen_new = Ok (ws, g0)) ->
  exists g1, gen_words t n g0 = Ok (error_words t j n, g1) /\ (exists ws, gen_words t (j + n) gen_new = Ok (ws, g1)).
Proof.
  intros [ws W]. destruct (c34_words t T (j + n)) as (g1 & E). pose proof (words_app t j n gen_new) as A.
  rewrite W, E in A. cbn [bind fst snd] in A. destruct (gen_words t n g0) as [[q g2]|] eqn:Q; [|discriminate].
  cbn [bind fst snd] in A. injection A as A1 A2. subst g2. exists g1. split.
  - unfold error_words. rewrite A1. f_equal. f_equal. rewrite skipn_app. pose proof (words_length t j _ _ W) as L. cbn [fst] in L.
    rewrite skipn_all2 by lia. replace (j - length ws)%nat with O by lia. reflexivity.
  - eexists. exact E.
Qed.

Lemma mod_succ i m : (0 < m)%nat -> (S (i mod m) mod m = S i mod m)%nat.
Proof. intros H. rewrite <- (Nat.add_1_r (i mod m)), <- (Nat.add_1_r i). apply Nat.add_mod_idemp_l. lia. Qed.

Section Run.
Variable c : emu_conf.
Let n := num_elem c.
Let src := em_source c.
Let size := em_size c.
Let drops := em_dropouts c.
Hypothesis S0 : (0 < size)%nat.
Hypothesis N0 : (size <= length src)%nat.
Hypothesis NB : Z.of_nat n < two32.
Hypothesis D0 : drops <> [].
Hypothesis T : tables_ok (em_tables c).

Lemma n_pos : (0 < n)%nat.
Proof. unfold n, num_elem. apply Nat.div_str_pos. fold size src. lia. Qed.

Lemma n_fits k : (k < n)%nat -> (k * size + size <= length src)%nat.
Proof.
  intros H. assert (n * size <= length src)%nat. { unfold n, num_elem. fold size src. rewrite Nat.mul_comm. apply Nat.mul_div_le. lia. }
  nia.
Qed.

Lemma n_over : (length src < n * size + size)%nat.
Proof. unfold n, num_elem. fold size src. pose proof (Nat.mod_upper_bound (length src) size). pose proof (Nat.div_mod_eq (length src) size). nia. Qed.

(** The offset after the wrap test. *)
Lemma wrap_offset off : 0 <= off <= Z.of_nat n ->
  (if (off =? Z.of_nat n * Z.of_nat size) || ((off + 1) * Z.of_nat size >? Z.of_nat (length src)) then 0 else off) =
  off mod Z.of_nat n.
Proof.
  intros H. pose proof n_pos as P. pose proof n_over as O. destruct (Z.eq_dec off (Z.of_nat n)) as [->|Hne].
  - rewrite Z.mod_same by lia. destruct (Z.gtb_spec ((Z.of_nat n + 1) * Z.of_nat size) (Z.of_nat (length src))); [|nia].
    now rewrite orb_true_r.
  - rewrite Z.mod_small by lia. pose proof (n_fits (Z.to_nat off) ltac:(lia)) as F.
    destruct (Z.eqb_spec off (Z.of_nat n * Z.of_nat size)); [nia|].
    destruct (Z.gtb_spec ((off + 1) * Z.of_nat size) (Z.of_nat (length src))); [nia|]. reflexivity.
Qed.

Record inv (t0 : Z) (used i : nat) (s : emu_st) : Prop := mk_inv {
  i_off : 0 <= es_offset s <= Z.of_nat n;
  i_mod : es_offset s mod Z.of_nat n = Z.of_nat (produced drops i mod n);
  i_ts : es_ts s = (t0 + Z.of_nat i * (12 * em_tick c)) mod two64;
  i_drop : es_drop s = (i mod length drops)%nat;
  i_gen : exists ws, gen_words (em_tables c) (used + produced drops i * em_frames c) gen_new = Ok (ws, es_gen s);
  i_count : es_count s = i32 (Z.of_nat (produced drops i))
}.

Lemma produced_succ i : produced drops (S i) = (produced drops i + if creates drops i then 1 else 0)%nat.
Proof.
  unfold produced. rewrite seq_S, filter_app, app_length. cbn [filter Nat.add]. destruct (creates drops i); reflexivity.
Qed.

Lemma i32_succ z : i32 (i32 z + 1) = i32 (z + 1).
Proof.
  unfold i32. replace ((z + 2147483648) mod two32 - 2147483648 + 1 + 2147483648) with ((z + 2147483648) mod two32 + 1) by lia.
  rewrite Zplus_mod_idemp_l. replace (z + 2147483648 + 1) with (z + 1 + 2147483648) by lia. reflexivity.
Qed.

Lemma one_slot t0 used i s q : inv t0 used i s ->
  exists s', emu_slot c q s = Ok (slot c t0 used i q, s') /\ inv t0 used (S i) s'.
Proof.
  intros [I1 I2 I3 I4 I5 I6]. pose proof n_pos as P.
  assert (L : (0 < length drops)%nat) by (destruct drops; [congruence|cbn; lia]).
  assert (Hd : nth_error drops (es_drop s) = Some (creates drops i)).
  { rewrite I4. unfold creates. apply nth_error_nth'. apply Nat.mod_upper_bound. lia. }
  assert (Hts : u64 (es_ts s + em_tick c * 12) = (t0 + Z.of_nat (S i) * (12 * em_tick c)) mod two64).
  { rewrite I3. unfold u64. rewrite Zplus_mod_idemp_l. f_equal. lia. }
  assert (Hdr : (S (es_drop s) mod length drops = S i mod length drops)%nat) by (rewrite I4; now apply mod_succ).
  unfold emu_slot. fold n src size drops. rewrite Hd. rewrite wrap_offset by exact I1. rewrite I2.
  set (k := produced drops i) in *. pose proof (Nat.mod_upper_bound k n ltac:(lia)) as KB.
  unfold slot. fold drops src size. fold k. destruct (creates drops i) eqn:C.
  - rewrite rd_ok.
    2:{ rewrite <- Nat2Z.inj_mul, Nat2Z.id. now apply n_fits. }
    cbn [bind]. destruct (words_from _ T _ (em_frames c) _ I5) as (g1 & G1 & G2). rewrite G1. cbn [bind fst snd].
    eexists. split.
    + unfold element. change (length src / size)%nat with n. rewrite <- Nat2Z.inj_mul, Nat2Z.id, I3. reflexivity.
    + constructor; cbn [es_offset es_ts es_drop es_gen es_count]; auto.
      * unfold u32. rewrite Z.mod_small by lia. lia.
      * unfold u32. rewrite (Z.mod_small _ two32) by lia. rewrite produced_succ, C. fold k.
        replace (Z.of_nat (k mod n) + 1) with (Z.of_nat (S (k mod n))) by lia. rewrite <- Nat2Z.inj_mod, mod_succ by lia.
        do 2 f_equal. lia.
      * rewrite <- Hts, I3. reflexivity.
      * rewrite produced_succ, C. fold k. destruct G2 as [ws G2]. exists ws. rewrite <- G2. f_equal. lia.
      * rewrite I6, i32_succ, produced_succ, C. f_equal. fold k. lia.
  - eexists. split; [reflexivity|]. constructor; cbn [es_offset es_ts es_drop es_gen es_count]; auto; rewrite ?produced_succ, ?C, ?Nat.add_0_r; fold k; auto.
    + lia.
    + rewrite Z.mod_small by lia. reflexivity.
Qed.

Lemma many_slots t0 used queue : forall i s, inv t0 used i s ->
  exists s', emu_loop c queue s = Ok (map (fun x => slot c t0 used (fst x) (snd x)) (combine (seq i (length queue)) queue), s') /\
    inv t0 used (i + length queue) s'.
Proof.
  induction queue as [|q queue IH]; intros i s I; cbn [emu_loop length seq combine map fst snd].
  - exists s. rewrite Nat.add_0_r. auto.
  - destruct (one_slot t0 used i s q I) as (s1 & E1 & I1). rewrite E1. cbn [bind fst snd].
    destruct (IH (S i) s1 I1) as (s2 & E2 & I2). rewrite E2. cbn [bind fst snd]. exists s2. split; [reflexivity|].
    replace (i + S (length queue))%nat with (S i + length queue)%nat by lia. exact I2.
Qed.

Definition first_ts : Z := if em_t0 c >=? 0 then em_t0 c else em_get_ts c (firstn size src).

Lemma begin_inv used g : (exists ws, gen_words (em_tables c) used gen_new = Ok (ws, g)) ->
  exists s, emu_begin c g = Ok s /\ inv first_ts used 0 s.
Proof.
  intros W. pose proof n_pos as P. unfold emu_begin, first_ts. fold size src.
  assert (E : (if em_t0 c >=? 0 then Ok (em_t0 c) else do e <- rd 0 size src; Ok (em_get_ts c e)) =
    Ok (if em_t0 c >=? 0 then em_t0 c else em_get_ts c (firstn size src))).
  { destruct (em_t0 c >=? 0); auto. rewrite rd_ok by (cbn; lia). reflexivity. }
  rewrite E. cbn [bind]. eexists. split; [reflexivity|]. constructor; cbn [es_offset es_ts es_drop es_gen es_count]; auto.
  - lia.
  - change (produced drops 0) with O. rewrite Nat.mod_0_l, Z.mod_0_l by lia. reflexivity.
  - rewrite Z.mul_0_l, Z.add_0_r. reflexivity.
  - rewrite Nat.mod_0_l; [reflexivity|]. destruct drops; [congruence|cbn; lia].
  - unfold produced. cbn. rewrite Nat.add_0_r. exact W.
Qed.
End Run.
