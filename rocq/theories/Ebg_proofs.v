From Coq Require Import ZArith List Bool Lia ZifyBool.
From Verif Require Import Base_model Ebg_model Ebg_spec.
Import ListNotations.
Open Scope Z_scope.

Section with_tables.
Variable t : tables.
Hypothesis T : tables_ok t.

Definition idx (k : nat) : Z := Z.of_nat k mod eb_size t.

Lemma at_entry l k : Z.of_nat (length l) = eb_size t -> at_ l (idx k) = Ok (entry l k).
Proof.
  intros L. destruct T as (T0 & _). unfold at_, idx, entry. pose proof (Z.mod_pos_bound (Z.of_nat k) _ T0) as B.
  destruct (Z.ltb_spec (Z.of_nat k mod eb_size t) 0); [lia|].
  assert (E : Z.to_nat (Z.of_nat k mod eb_size t) = (k mod length l)%nat).
  { rewrite <- L. rewrite <- Nat2Z.inj_mod. apply Nat2Z.id. }
  rewrite E. rewrite (nth_error_nth' l 0); [reflexivity|]. apply Nat.mod_upper_bound. lia.
Qed.

Lemma idx_succ k : Z.rem (idx k + 1) (eb_size t) = idx (S k).
Proof.
  destruct T as (T0 & _). unfold idx. pose proof (Z.mod_pos_bound (Z.of_nat k) _ T0). rewrite Z.rem_mod_nonneg by lia.
  rewrite Nat2Z.inj_succ. unfold Z.succ. rewrite Zplus_mod_idemp_l. reflexivity.
Qed.

Lemma words_app a : forall b g, gen_words t (a + b) g =
  do r <- gen_words t a g; do q <- gen_words t b (snd r); Ok (fst r ++ fst q, snd q).
Proof.
  induction a as [|a IH]; intros b g; cbn [Nat.add gen_words bind fst snd app].
  - destruct (gen_words t b g) as [[x y]|]; reflexivity.
  - destruct (gen_next t g) as [[w g1]|]; [|reflexivity]. cbn [bind fst snd]. rewrite IH.
    destruct (gen_words t a g1) as [[x y]|]; [|reflexivity]. cbn [bind fst snd].
    destruct (gen_words t b y) as [[x2 y2]|]; reflexivity.
Qed.

(** Inside a phase. *)
Lemma stay n : forall bi ei ni cur count b v,
  (if b && negb (cur =? 0) then at_ (eb_bits t) bi else Ok 0) = Ok v -> count + Z.of_nat n <= cur ->
  gen_words t n (mk_gen bi ei ni cur count b) = Ok (repeat v n, mk_gen bi ei ni cur (count + Z.of_nat n) b).
Proof.
  induction n as [|n IH]; intros bi ei ni cur count b v V H; cbn [gen_words repeat].
  - change (Z.of_nat 0) with 0. now rewrite Z.add_0_r.
  - unfold gen_next. cbn [g_count g_cur g_set g_bits g_errs g_noerrs]. destruct (Z.geb_spec count cur); [lia|]. cbn [bind g_count g_cur g_set g_bits g_errs g_noerrs].
    rewrite V. cbn [bind snd fst]. rewrite (IH _ _ _ _ _ _ v V) by lia. cbn [bind snd fst]. do 3 f_equal. lia.
Qed.

Lemma phase_rest n : phase_length n = S (phase_length n - 1). Proof. unfold phase_length. lia. Qed.

Definition exhausted (g : gen) : Prop := g_count g >= g_cur g.

Lemma one_round k g : exhausted g -> g_set g = true -> g_bits g = idx k -> g_errs g = idx k -> g_noerrs g = idx k ->
  exists g', gen_words t (length (round (eb_bits t) (eb_errs t) (eb_noerrs t) k)) g = Ok (round (eb_bits t) (eb_errs t) (eb_noerrs t) k, g') /\
    exhausted g' /\ g_set g' = true /\ g_bits g' = idx (S k) /\ g_errs g' = idx (S k) /\ g_noerrs g' = idx (S k).
Proof.
  destruct T as (T0 & T1 & T2 & T3). destruct g as [bi ei ni cur count b]. unfold exhausted. cbn [g_count g_cur g_set g_bits g_errs g_noerrs].
  intros Ex -> -> -> ->. unfold round. rewrite app_length, !repeat_length.
  set (q := entry (eb_noerrs t) k). set (e := entry (eb_errs t) (S k)).
  set (v := if e =? 0 then 0 else entry (eb_bits t) (S k)).
  rewrite words_app.
  (* quiet phase *)
  assert (Q : gen_words t (phase_length q) (mk_gen (idx k) (idx k) (idx k) cur count true) =
              Ok (repeat 0 (phase_length q), mk_gen (idx (S k)) (idx (S k)) (idx k) q (1 + Z.of_nat (phase_length q - 1)) false)).
  { rewrite (phase_rest q) at 1 2. cbn [gen_words repeat]. unfold gen_next at 1. cbn [g_count g_cur g_set g_bits g_errs g_noerrs].
    destruct (Z.geb_spec count cur); [|lia]. rewrite !idx_succ, at_entry by assumption. cbn [bind g_count g_cur g_set g_bits g_errs g_noerrs andb fst snd].
    fold q. destruct (Z.eq_dec (Z.of_nat (phase_length q - 1)) 0) as [Hz|Hz].
    - replace (phase_length q - 1)%nat with O by lia. reflexivity.
    - rewrite (stay _ _ _ _ q (0 + 1) false 0); [|reflexivity|unfold phase_length in *; lia]. reflexivity. }
  rewrite Q. cbn [bind fst snd].
  (* error phase *)
  assert (V : (if true && negb (e =? 0) then at_ (eb_bits t) (idx (S k)) else Ok 0) = Ok v).
  { unfold v. destruct (e =? 0); cbn [andb negb]; [reflexivity|]. now apply at_entry. }
  assert (E : gen_words t (phase_length e) (mk_gen (idx (S k)) (idx (S k)) (idx k) q (1 + Z.of_nat (phase_length q - 1)) false) =
              Ok (repeat v (phase_length e), mk_gen (idx (S k)) (idx (S k)) (idx (S k)) e (1 + Z.of_nat (phase_length e - 1)) true)).
  { rewrite (phase_rest e) at 1 2. cbn [gen_words repeat]. unfold gen_next at 1. cbn [g_count g_cur g_set g_bits g_errs g_noerrs].
    destruct (Z.geb_spec (1 + Z.of_nat (phase_length q - 1)) q); [|unfold phase_length in *; lia].
    rewrite !idx_succ, at_entry by assumption. cbn [bind g_count g_cur g_set g_bits g_errs g_noerrs fst snd].
    fold e. rewrite V. cbn [bind fst snd]. destruct (Z.eq_dec (Z.of_nat (phase_length e - 1)) 0) as [Hz|Hz].
    - replace (phase_length e - 1)%nat with O by lia. reflexivity.
    - rewrite (stay _ _ _ _ e (0 + 1) true v); [|exact V|unfold phase_length in *; lia]. reflexivity. }
  rewrite E. cbn [bind fst snd]. eexists. split; [reflexivity|]. cbn [g_count g_cur g_set g_bits g_errs g_noerrs]. split; [unfold phase_length; lia|]. repeat split.
Qed.

Lemma all_rounds n : forall k g, exhausted g -> g_set g = true -> g_bits g = idx k -> g_errs g = idx k -> g_noerrs g = idx k ->
  let out := concat (map (round (eb_bits t) (eb_errs t) (eb_noerrs t)) (seq k n)) in
  exists g', gen_words t (length out) g = Ok (out, g').
Proof.
  induction n as [|n IH]; intros k g H1 H2 H3 H4 H5; cbn [seq map concat].
  - exists g. reflexivity.
  - destruct (one_round k g H1 H2 H3 H4 H5) as (g1 & E1 & I1 & I2 & I3 & I4 & I5).
    destruct (IH (S k) g1 I1 I2 I3 I4 I5) as (g2 & E2). exists g2. cbn zeta. rewrite app_length, words_app, E1. cbn [bind fst snd]. rewrite E2. reflexivity.
Qed.

Lemma words_length n : forall g r, gen_words t n g = Ok r -> length (fst r) = n.
Proof.
  induction n as [|n IH]; intros g r; cbn [gen_words].
  - intros E. injection E as <-. reflexivity.
  - destruct (gen_next t g) as [[w g1]|]; [|discriminate]. cbn [bind fst snd]. destruct (gen_words t n g1) as [q|] eqn:Q; [|discriminate].
    intros E. injection E as <-. cbn [fst length]. f_equal. eauto.
Qed.

Lemma rounds_long n k : (2 * n <= length (concat (map (round (eb_bits t) (eb_errs t) (eb_noerrs t)) (seq k n))))%nat.
Proof.
  revert k. induction n as [|n IH]; intros k; cbn [seq map concat]; [lia|]. rewrite app_length. specialize (IH (S k)).
  unfold round at 1. rewrite app_length, !repeat_length. unfold phase_length. lia.
Qed.

Lemma c34_words n : exists g, gen_words t n gen_new = Ok (firstn n (rounds (eb_bits t) (eb_errs t) (eb_noerrs t) n), g).
Proof.
  destruct (all_rounds n 0 gen_new) as (g' & E); try reflexivity.
  { unfold exhausted, gen_new. cbn. lia. }
  cbn zeta in E. fold (rounds (eb_bits t) (eb_errs t) (eb_noerrs t) n) in E.
  pose proof (rounds_long n 0) as L. fold (rounds (eb_bits t) (eb_errs t) (eb_noerrs t) n) in L.
  set (out := rounds _ _ _ n) in *. replace (length out) with (n + (length out - n))%nat in E by lia. rewrite words_app in E.
  destruct (gen_words t n gen_new) as [r|] eqn:R; [|discriminate]. cbn [bind] in E.
  destruct (gen_words t (length out - n) (snd r)) as [q|]; [|discriminate]. cbn [bind] in E. exists (snd r).
  assert (Eo : fst r ++ fst q = out) by congruence. pose proof (words_length _ _ _ R) as Lr.
  rewrite <- Eo, firstn_app, Lr, Nat.sub_diag. cbn [firstn]. rewrite app_nil_r, <- Lr, firstn_all. now destruct r.
Qed.
End with_tables.
