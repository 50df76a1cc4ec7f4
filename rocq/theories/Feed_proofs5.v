(** Proofs about Feed_model.v: the counters; commands out of order. *)
From Coq Require Import ZArith List Bool Arith Lia.
From Verif Require Import Base_model Feed_model Feed_spec Feed_proofs Feed_proofs2 Feed_proofs3 Feed_proofs4.
Import ListNotations.
Open Scope nat_scope.

Section Proofs.
Context {Conf St Out : Type}.
Variable begin : Conf -> option St -> res St.
Variable turn : Conf -> bool -> St -> res (option Out * St).
Notation action := (action Conf). Notation event := (event Conf Out). Notation cmd := (cmd Conf). Notation mop := (mop Conf).
Notation card := (card Conf St). Notation emul := (emul Conf St). Notation producer := (producer St).
Notation run := (card_run begin turn).
Notation step := (card_step begin turn).
Notation sound := (sound begin turn).
Notation orderly := (orderly begin turn).
Notation allowed := (allowed begin turn).
Notation cstep := (@command_step Conf St Out).
Notation inv := (inv begin turn). Notation mode := (mode begin turn). Notation link_inv := (link_inv begin turn).
Implicit Types (s : card) (log ev : list event) (acts more : list action).

(** ** The new packets, for any order of commands *)
Definition lag1 (p : producer) : Z := match p with Pushed _ _ => 1%Z | _ => 0%Z end.
Definition lag2 (p : producer) : Z := match p with Pushed _ _ | Counted _ _ => 1%Z | _ => 0%Z end.
Lemma reported_app : forall i a b, reported i (a ++ b) = (reported i a + reported i (b : list event))%Z.
Proof. induction a as [|x a IH]; intros b; simpl; [reflexivity|]. destruct x; rewrite ?IH; lia. Qed.

Definition news s log i : Prop := ((reported i log + e_new (k_emu s i)) mod two32 = (Z.of_nat (offered i log) - lag1 (e_thread (k_emu s i))) mod two32)%Z.

Lemma command_new : forall s i, e_new (k_emu (fst (cstep s)) i) = e_new (k_emu s i) /\ lag1 (e_thread (k_emu (fst (cstep s)) i)) = lag1 (e_thread (k_emu s i)) /\
  reported i (snd (cstep s)) = 0%Z /\ offered i (snd (cstep s)) = 0.
Proof.
  intros s i. unfold command_step. destruct (k_todo s) as [[c [|x m]]|]; simpl; auto.
  destruct x as [j o| |j| |b|j|j|j|j]; simpl; auto.
  - destruct ((j <? k_n s) && negb (e_set (k_emu s j))); simpl; auto. destruct o; simpl; destruct (Nat.eqb_spec i j) as [->|]; auto.
  - destruct (forallb _ _); simpl; auto.
  - destruct (Nat.eqb_spec i j) as [->|]; auto.
  - destruct (Nat.eqb_spec i j) as [->|]; simpl; destruct (e_thread (k_emu s j)) eqn:T; simpl; auto.
  - destruct (ready _); simpl; auto.
  - destruct (Nat.eqb_spec i j) as [->|]; auto.
  - destruct (e_thread (k_emu s j)); simpl; auto.
Qed.

Lemma news_step : forall s log a s' ev i, step s a = Ok (s', ev) -> news s log i -> news s' (log ++ ev) i.
Proof.
  intros s log a s' ev i E N. unfold news in *. rewrite reported_app, offered_app. destruct a as [c| |j q|j|j].
  - simpl in E. destruct (k_todo s) as [[]|]; injection E as <- <-; simpl; rewrite ?Z.add_0_r, ?Nat.add_0_r; exact N.
  - simpl in E. injection E as E. destruct (command_new s i) as (A & B & C & D). rewrite E in A, B, C, D. simpl in A, B, C, D. rewrite A, B, C, D, Z.add_0_r, Nat.add_0_r. exact N.
  - simpl in E. destruct (Nat.eq_dec i j) as [->|NE].
    + unfold thread_step in E. destruct (e_thread (k_emu s j)) eqn:T.
      * injection E as <- <-. simpl. rewrite T, Z.add_0_r, Nat.add_0_r. exact N.
      * destruct (e_file (k_emu s j)) as [[f [c|]]|]; try discriminate E. destruct (begin c _); [|discriminate E]. simpl in E. injection E as <- <-. simpl. rewrite Nat.eqb_refl, Z.add_0_r, Nat.add_0_r. exact N.
      * injection E as <- <-. simpl. rewrite Nat.eqb_refl, Z.add_0_r, Nat.add_0_r. exact N.
      * destruct (k_marker s); [|injection E as <- <-; simpl; rewrite Nat.eqb_refl, Z.add_0_r, Nat.add_0_r; exact N].
        destruct (e_file (k_emu s j)) as [[g [c|]]|]; try discriminate E. destruct (_ && _); [|discriminate E].
        destruct (turn c q s0) as [[[p|] x]|]; simpl in E; try discriminate E; injection E as <- <-; unfold offered in *; simpl in *; rewrite !Nat.eqb_refl; simpl.
        -- rewrite Z.add_0_r. rewrite N. f_equal. lia.
        -- rewrite Z.add_0_r, Nat.add_0_r. exact N.
      * injection E as <- <-. simpl. rewrite Nat.eqb_refl. simpl in *. rewrite Z.add_0_r, Nat.add_0_r, Z.sub_0_r.
        rewrite Z.add_mod, i32_mod, <- Z.add_mod by (unfold two32; lia). rewrite Z.add_assoc, Z.add_mod, N, <- Z.add_mod by (unfold two32; lia). f_equal. lia.
      * injection E as <- <-. simpl. rewrite Nat.eqb_refl, Z.add_0_r, Nat.add_0_r. exact N.
      * destruct (e_lim _); [|discriminate E]. injection E as <- <-. simpl. rewrite Nat.eqb_refl, Z.add_0_r, Nat.add_0_r. exact N.
      * destruct (e_lim _); [|discriminate E]. destruct (_ =? _); [|discriminate E]. injection E as <- <-. simpl. rewrite Nat.eqb_refl, Z.add_0_r, Nat.add_0_r. exact N.
    + assert (X : k_emu s' i = k_emu s i /\ reported i ev = 0%Z).
      { assert (NB : i =? j = false) by (apply Nat.eqb_neq; auto). unfold thread_step in E. destruct (e_thread (k_emu s j)).
        - injection E as <- <-. auto.
        - destruct (e_file (k_emu s j)) as [[f [c|]]|]; try discriminate E. destruct (begin c _); [|discriminate E]. simpl in E. injection E as <- <-. simpl. rewrite NB. auto.
        - injection E as <- <-. simpl. rewrite NB. auto.
        - destruct (k_marker s); [|injection E as <- <-; simpl; rewrite NB; auto]. destruct (e_file (k_emu s j)) as [[g [c|]]|]; try discriminate E. destruct (_ && _); [|discriminate E].
          destruct (turn c q s0) as [[[p|] x]|]; simpl in E; try discriminate E; injection E as <- <-; simpl; rewrite NB; auto.
        - injection E as <- <-. simpl. rewrite NB. auto.
        - injection E as <- <-. simpl. rewrite NB. auto.
        - destruct (e_lim _); [|discriminate E]. injection E as <- <-. simpl. rewrite NB. auto.
        - destruct (e_lim _); [|discriminate E]. destruct (_ =? _); [|discriminate E]. injection E as <- <-. simpl. rewrite NB. auto. }
      destruct X as [X Y]. rewrite X, Y, (dist_other begin turn _ i _ _ _ _ (not_eq_sym NE) E), Z.add_0_r, Nat.add_0_r. exact N.
  - injection E as <- <-. simpl. rewrite Z.add_0_r, Nat.add_0_r. exact N.
  - simpl in E. injection E as <- <-. simpl. unfold offered at 2. simpl. rewrite (Nat.eqb_sym j i). destruct (Nat.eqb_spec i j) as [->|NE]; simpl; rewrite ?Z.add_0_r, ?Nat.add_0_r; [rewrite <- N; f_equal; lia|exact N].
Qed.

Lemma run_news : forall n acts s log i, run (card_new n) acts = Ok (s, log) -> news s log i.
Proof.
  intros n acts. induction acts as [|a acts IH] using rev_ind; intros s log i R.
  - injection R as <- <-. reflexivity.
  - apply run_snoc in R. destruct R as (s1 & l1 & ev & R & E & ->). eapply news_step; eauto.
Qed.

(** ** The total of a run *)
Definition tots s log : Prop := forall i, i < k_n s -> match k_todo s with Some (CStart, m) => ~ In (MStart i) m | _ => True end ->
  forall r rs, runs i log = r :: rs -> e_tot (k_emu s i) = i32 (Z.of_nat (length r) - lag2 (e_thread (k_emu s i))).

Lemma tots_turn : forall i q s s' ev o rs, link_inv (k_emu s i) o rs -> thread_step begin turn s i q = Ok (s', ev) ->
  (forall r rs', rs = r :: rs' -> e_tot (k_emu s i) = i32 (Z.of_nat (length r) - lag2 (e_thread (k_emu s i)))) ->
  forall r rs', runs_from i rs ev = r :: rs' -> e_tot (k_emu s' i) = i32 (Z.of_nat (length r) - lag2 (e_thread (k_emu s' i))).
Proof.
  intros i q s s' ev o rs [LS LF LW LG LR LL LA] E N r rs' X. unfold thread_step in E. destruct (e_thread (k_emu s i)) eqn:T.
  - injection E as <- <-. rewrite T. eapply N; eauto.
  - destruct (e_file (k_emu s i)) as [[f [c|]]|]; try discriminate E. destruct (begin c _); [|discriminate E]. simpl in E. injection E as <- <-. simpl. rewrite Nat.eqb_refl. eapply N; eauto.
  - injection E as <- <-. simpl. rewrite Nat.eqb_refl. eapply N; eauto.
  - destruct (k_marker s); [|injection E as <- <-; simpl; rewrite Nat.eqb_refl; eapply N; eauto].
    destruct (e_file (k_emu s i)) as [[g [c|]]|] eqn:F; try discriminate E. destruct (_ && _); [|discriminate E].
    destruct (turn c q s0) as [[[p|] x]|]; simpl in E; try discriminate E; injection E as <- <-; simpl; rewrite Nat.eqb_refl; [|eapply N; eauto].
    destruct (LW _ _ eq_refl) as (c' & r0 & rs0 & queue & _ & -> & _). simpl in X. rewrite Nat.eqb_refl in X. simpl in X. injection X as <- <-. simpl. rewrite (N _ _ eq_refl). simpl. rewrite app_length. simpl. f_equal. lia.
  - injection E as <- <-. simpl. rewrite Nat.eqb_refl. eapply N; eauto.
  - injection E as <- <-. simpl. rewrite Nat.eqb_refl. simpl in *. rewrite (N _ _ X). rewrite i32_add. f_equal. lia.
  - destruct (e_lim _); [|discriminate E]. injection E as <- <-. simpl. rewrite Nat.eqb_refl. eapply N; eauto.
  - destruct (e_lim _); [|discriminate E]. destruct (_ =? _); [|discriminate E]. injection E as <- <-. simpl. rewrite Nat.eqb_refl. eapply N; eauto.
Qed.

(** A step of a command, as it concerns the total of a link. *)
Lemma command_tot : forall s log c x m i, inv s log -> k_todo s = Some (c, x :: m) -> (c = CStart -> x <> MStart i) ->
  e_tot (k_emu (fst (cstep s)) i) = e_tot (k_emu s i) /\ lag2 (e_thread (k_emu (fst (cstep s)) i)) = lag2 (e_thread (k_emu s i)) /\
  (runs_from i (runs i log) (snd (cstep s)) = runs i log \/ runs_from i (runs i log) (snd (cstep s)) = []).
Proof.
  intros s log c x m i I T H. pose proof (v_mode _ _ _ _ I) as MD. unfold Feed_proofs.mode in MD. rewrite T in MD. unfold command_step. rewrite T.
  destruct x as [j o| |j| |b|j|j|j|j]; simpl; auto.
  - destruct ((j <? k_n s) && negb (e_set (k_emu s j))); simpl; auto. destruct o; simpl; rewrite (Nat.eqb_sym j i) || idtac; destruct (Nat.eqb_spec i j) as [->|]; auto.
  - destruct (forallb _ _); simpl; auto.
  - destruct (Nat.eqb_spec i j) as [->|]; auto.
  - destruct c as [l| | | |].
    + destruct MD as [(E & _)|(_ & _ & _ & l' & E & _)]; [discriminate E|]. destruct l'; discriminate E.
    + destruct MD as (_ & _ & _ & [(k & E)|(E & _)]); [|discriminate E]. destruct (seq k (k_n s - k)); discriminate E.
    + assert (i <> j) by (intros ->; apply (H eq_refl); reflexivity). apply Nat.eqb_neq in H0. rewrite H0. simpl. destruct (e_thread (k_emu s j)); auto.
    + destruct MD as [(E & _)|(_ & k & _ & E & _)]; [discriminate E|]. destruct (seq k (k_n s - k)); discriminate E.
    + destruct MD as (_ & _ & P). destruct (P _ (or_introl eq_refl)) as (k & [E|E]); discriminate E.
  - destruct (ready _); simpl; auto.
  - destruct (Nat.eqb_spec i j) as [->|]; auto.
  - destruct (e_thread (k_emu s j)); simpl; auto.
Qed.

Lemma tots_step : forall s log a s' ev, inv s log -> (forall c, a = ACommand c -> current log = None /\ allowed log c) -> step s a = Ok (s', ev) -> tots s log -> tots s' (log ++ ev).
Proof.
  intros s log a s' ev I C E N. unfold tots in *. intros i J P r rs.
  assert (KN : k_n s' = k_n s). { apply (run_n begin turn [a] s s' ev). simpl. rewrite E. simpl. rewrite app_nil_r. reflexivity. }
  rewrite KN in J. rewrite runs_app. destruct a as [c| |j q|j|j].
  - destruct (C c eq_refl) as [CU _]. rewrite (v_current _ _ _ _ I) in CU. simpl in E. destruct (k_todo s) as [[]|] eqn:T; [discriminate|]. injection E as <- <-. simpl in *.
    assert (c = CStart -> False). { intros ->. apply P. right. apply in_map. apply in_seq. lia. }
    destruct c; simpl; try contradiction; try (apply N; auto; fail).
  - simpl in E. injection E as E. destruct (k_todo s) as [[c [|x m]]|] eqn:T.
    + unfold command_step in E. rewrite T in E. injection E as <- <-. simpl. apply N; auto. destruct c; auto.
    + assert (CT : (c = CStart /\ x = MStart i) \/ (c = CStart -> x <> MStart i)).
      { destruct c; try (right; discriminate). destruct x; try (right; discriminate). destruct (Nat.eq_dec i0 i) as [->|NE]; [auto|right; congruence]. }
      destruct CT as [[-> ->]|NS].
      * pose proof (v_mode _ _ _ _ I) as MD. unfold Feed_proofs.mode in MD. rewrite T in MD. destruct MD as (_ & _ & _ & [(EM & _)|(_ & j & HJ & EM & PD)]); [discriminate EM|].
        assert (i = j). { destruct (Nat.eq_dec j (k_n s)) as [->|NE]; [rewrite Nat.sub_diag in EM; discriminate EM|]. rewrite seq_cons in EM by lia. simpl in EM. congruence. }
        subst j. destruct (PD i) as [R (rs' & RS & _)]; [lia|]. unfold command_step in E. rewrite T in E. simpl in E. injection E as <- <-. simpl. rewrite Nat.eqb_refl. simpl.
        destruct (e_thread (k_emu s i)); try discriminate R; simpl; rewrite RS; intros X; injection X as <- <-; reflexivity.
      * destruct (command_tot s log c x m i I T NS) as (A & B & D). rewrite E in A, B, D. simpl in A, B, D. rewrite A, B. destruct D as [-> | ->]; [|discriminate]. apply N; auto.
        destruct c; auto. intros [X|X]; [apply NS; auto|]. revert P. pose proof (f_equal fst E) as E'. simpl in E'. rewrite <- E'.
        pose proof (command_threw begin turn s log CStart I) as TH. clear - T X TH. unfold command_step in *. rewrite T in *.
        destruct (mop_step s x) eqn:MS; simpl; [rewrite T; intros P; apply P; right; exact X| |intros P; exact (P X)].
        destruct (TH (or_introl eq_refl)) as (l & L). discriminate L.
    + unfold command_step in E. rewrite T in E. injection E as <- <-. simpl. rewrite T in P. apply N; auto.
  - simpl in E. destruct (thread_inv begin turn s log j q I) as (s1 & e1 & E1 & _ & X). simpl in E1. rewrite E in E1. injection E1 as <- <-. rewrite (t_todo _ _ _ _ X) in P.
    destruct (Nat.eq_dec i j) as [->|NE].
    + intros R. eapply tots_turn; [apply (v_link _ _ _ _ I)|exact E| |exact R]. intros r0 rs0 R0. eapply N; eauto.
    + rewrite (t_runs _ _ _ _ X) by auto. rewrite (t_other _ _ _ _ X) by auto. apply N; auto.
  - injection E as <- <-. simpl. apply N; auto.
  - simpl in E. injection E as <- <-. simpl in *. destruct (Nat.eqb_spec i j) as [->|]; simpl; apply N; auto.
Qed.

Lemma orderly_tots : forall n acts s log, orderly (card_new n) acts -> run (card_new n) acts = Ok (s, log) -> tots s log.
Proof.
  intros n acts. induction acts as [|a acts IH] using rev_ind; intros s log O R.
  - injection R as <- <-. intros i _ _ r rs H. discriminate H.
  - apply run_snoc in R. destruct R as (s1 & l1 & ev & R & E & ->). eapply tots_step; [eapply orderly_inv; [eapply orderly_app; eauto|exact R]| |exact E|apply IH; [eapply orderly_app; eauto|exact R]].
    intros c ->. apply (O acts c [] s1 l1); auto.
Qed.

(** ** Identities are used once *)
Definition ids s : Prop := forall i, (forall l, e_lim (k_emu s i) = Some l -> l < k_next s) /\ (forall f o, e_file (k_emu s i) = Some (f, o) -> f < k_next s).
Lemma ids_emu : forall s s' i, ids s -> k_next s <= k_next s' -> (forall j, j <> i -> k_emu s' j = k_emu s j) ->
  (forall l, e_lim (k_emu s' i) = Some l -> l < k_next s') -> (forall f o, e_file (k_emu s' i) = Some (f, o) -> f < k_next s') -> ids s'.
Proof.
  intros s s' i H N O A B j. destruct (Nat.eq_dec j i) as [->|NE]; [auto|]. rewrite O by auto. destruct (H j) as [X Y]. split; intros; [apply X in H0|apply Y in H0]; lia.
Qed.
Lemma ids_step : forall s a s' ev, step s a = Ok (s', ev) -> ids s -> ids s'.
Proof.
  intros s a s' ev E H.
  assert (SE : forall i e, e_lim e = e_lim (k_emu s i) -> e_file e = e_file (k_emu s i) -> ids (set_emu s i e)).
  { intros i e L F. eapply (ids_emu s _ i); auto; simpl; rewrite ?Nat.eqb_refl, ?L, ?F; try apply H. intros j NE. apply Nat.eqb_neq in NE. rewrite NE. reflexivity. }
  destruct a as [c| |j q|j|j].
  - simpl in E. destruct (k_todo s) as [[]|]; injection E as <- <-; exact H.
  - simpl in E. injection E as E. unfold command_step in E. destruct (k_todo s) as [[c [|x m]]|]; try (injection E as <- <-; exact H).
    assert (FR : forall e : emul, (forall l, e_lim e = Some l -> l < S (k_next s)) -> (forall f o, e_file e = Some (f, o) -> f < S (k_next s)) -> forall i, ids (fresh (set_emu s i e))).
    { intros e L F i. eapply (ids_emu s _ i); auto; simpl; rewrite ?Nat.eqb_refl; auto. intros j NE. apply Nat.eqb_neq in NE. rewrite NE. reflexivity. }
    destruct x as [j o| |j| |b|j|j|j|j]; simpl in E.
    + destruct ((j <? k_n s) && negb (e_set (k_emu s j))); [|injection E as <- <-; exact H].
      destruct o; injection E as <- <-; apply FR; simpl; try (intros ? ? X; injection X as <- <-; lia); intros l X; apply (proj1 (H j)) in X; lia.
    + destruct (forallb _ _); injection E as <- <-; exact H.
    + injection E as <- <-. apply SE; reflexivity.
    + injection E as <- <-. exact H.
    + injection E as <- <-. exact H.
    + injection E as <- <-. apply FR; simpl; [intros l X; injection X as <-; lia|]. intros f o X. apply (proj2 (H j)) in X. lia.
    + destruct (ready _); injection E as <- <-; exact H.
    + injection E as <- <-. apply SE; reflexivity.
    + destruct (e_thread (k_emu s j)); injection E as <- <-; exact H.
  - simpl in E. unfold thread_step in E. destruct (e_thread (k_emu s j)).
    + injection E as <- <-. exact H.
    + destruct (e_file (k_emu s j)) as [[f [c|]]|] eqn:F; try discriminate E. destruct (begin c _); [|discriminate E]. simpl in E. injection E as <- <-. apply SE; reflexivity.
    + injection E as <- <-. apply SE; reflexivity.
    + destruct (k_marker s); [|injection E as <- <-; apply SE; reflexivity]. destruct (e_file (k_emu s j)) as [[g [c|]]|] eqn:F; try discriminate E. destruct (_ && _); [|discriminate E].
      destruct (turn c q s0) as [[[p|] x]|]; simpl in E; try discriminate E; injection E as <- <-; apply SE; reflexivity.
    + injection E as <- <-. apply SE; reflexivity.
    + injection E as <- <-. apply SE; reflexivity.
    + destruct (e_lim _) eqn:L; [|discriminate E]. injection E as <- <-. apply SE; reflexivity.
    + destruct (e_lim _) eqn:L; [|discriminate E]. destruct (_ =? _); [|discriminate E]. injection E as <- <-. apply SE; reflexivity.
  - injection E as <- <-. exact H.
  - simpl in E. injection E as <- <-. apply SE; reflexivity.
Qed.
Lemma run_ids : forall n acts s log, run (card_new n) acts = Ok (s, log) -> ids s.
Proof.
  intros n acts. induction acts as [|a acts IH] using rev_ind; intros s log R.
  - injection R as <- <-. intros i. split; discriminate.
  - apply run_snoc in R. destruct R as (s1 & l1 & ev & R & E & ->). eapply ids_step; eauto.
Qed.

(** ** A producer at work comes everywhere in its loop *)
Lemma go : forall k s log i q, inv s log -> k_todo s = None -> k_marker s = true -> ready (e_thread (k_emu s i)) = false ->
  exists s' ev, run s (repeat (AThread i q) k) = Ok (s', ev) /\ inv s' (log ++ ev) /\ k_todo s' = None /\ k_marker s' = true /\ ready (e_thread (k_emu s' i)) = false /\ k_n s' = k_n s.
Proof.
  induction k as [|k IH]; intros s log i q I T M R.
  - exists s, []. rewrite app_nil_r. split; [reflexivity|]. split; [exact I|]. auto.
  - destruct (thread_inv begin turn s log i q I) as (s1 & e1 & E1 & I1 & X).
    destruct (IH s1 (log ++ e1) i q I1) as (s2 & e2 & E2 & I2 & T2 & M2 & R2 & N2); [rewrite (t_todo _ _ _ _ X); exact T|rewrite (t_marker _ _ _ _ X); exact M|eapply stay; eauto|].
    exists s2, (e1 ++ e2). simpl repeat. simpl card_run. simpl in E1. rewrite E1. simpl. rewrite E2. simpl. rewrite app_assoc. split; [reflexivity|]. split; [exact I2|]. rewrite N2, (t_n _ _ _ _ X). auto.
Qed.

Definition to_limit (p : producer) : nat := match p with Limit _ _ _ => 0 | Rate _ _ => 1 | Counted _ _ => 2 | Pushed _ _ => 3 | Head _ _ => 4 | _ => 5 end.
Lemma closer : forall s i q s' ev, k_marker s = true -> ready (e_thread (k_emu s i)) = false -> 0 < to_limit (e_thread (k_emu s i)) ->
  thread_step begin turn s i q = Ok (s', ev) -> to_limit (e_thread (k_emu s' i)) < to_limit (e_thread (k_emu s i)).
Proof.
  intros s i q s' ev M R L E. unfold thread_step in E. rewrite M in E. destruct (e_thread (k_emu s i)) eqn:T; try discriminate R.
  - destruct (e_file (k_emu s i)) as [[f [c|]]|]; try discriminate E. destruct (begin c _); [|discriminate E]. simpl in E. injection E as <- <-. simpl. rewrite Nat.eqb_refl. simpl. lia.
  - destruct (e_file (k_emu s i)) as [[g [c|]]|]; try discriminate E. destruct (_ && _); [|discriminate E].
    destruct (turn c q s0) as [[[p|] x]|]; simpl in E; try discriminate E; injection E as <- <-; simpl; rewrite Nat.eqb_refl; simpl; lia.
  - injection E as <- <-. simpl. rewrite Nat.eqb_refl. simpl. lia.
  - injection E as <- <-. simpl. rewrite Nat.eqb_refl. simpl. lia.
  - destruct (e_lim _); [|discriminate E]. injection E as <- <-. simpl. rewrite Nat.eqb_refl. simpl. lia.
  - simpl in L. lia.
Qed.
Lemma reach_limit : forall m s log i q, inv s log -> k_todo s = None -> k_marker s = true -> ready (e_thread (k_emu s i)) = false -> to_limit (e_thread (k_emu s i)) <= m ->
  exists k s' ev f x l, run s (repeat (AThread i q) k) = Ok (s', ev) /\ inv s' (log ++ ev) /\ k_todo s' = None /\ k_marker s' = true /\ k_n s' = k_n s /\ e_thread (k_emu s' i) = Limit f x l.
Proof.
  induction m as [|m IH]; intros s log i q I T M R L.
  - destruct (e_thread (k_emu s i)) eqn:H; simpl in *; try lia. exists 0, s, [], f, s0, l. rewrite app_nil_r. split; [reflexivity|]. split; [exact I|]. auto.
  - destruct (to_limit (e_thread (k_emu s i))) eqn:TL; [apply (IH s log i q); auto; lia|].
    destruct (thread_inv begin turn s log i q I) as (s1 & e1 & E1 & I1 & X). assert (C := closer s i q s1 e1 M R ltac:(lia) E1).
    destruct (IH s1 (log ++ e1) i q I1) as (k & s2 & e2 & f & x & l & E2 & I2 & T2 & M2 & N2 & H); [rewrite (t_todo _ _ _ _ X); exact T|rewrite (t_marker _ _ _ _ X); exact M|eapply stay; eauto|lia|].
    exists (S k), s2, (e1 ++ e2), f, x, l. simpl repeat. simpl card_run. simpl in E1. rewrite E1. simpl. rewrite E2. simpl. rewrite app_assoc. split; [reflexivity|]. split; [exact I2|]. rewrite N2, (t_n _ _ _ _ X). auto.
Qed.
Lemma reach_head : forall s log i q, inv s log -> k_todo s = None -> k_marker s = true -> ready (e_thread (k_emu s i)) = false ->
  exists k s' ev f x, run s (repeat (AThread i q) k) = Ok (s', ev) /\ inv s' (log ++ ev) /\ k_todo s' = None /\ k_marker s' = true /\ k_n s' = k_n s /\ e_thread (k_emu s' i) = Head f x.
Proof.
  intros s log i q I T M R. destruct (reach_limit 5 s log i q I T M R) as (k & s1 & e1 & f & x & l & E1 & I1 & T1 & M1 & N1 & H1); [destruct (e_thread (k_emu s i)); simpl; lia|].
  destruct (thread_inv begin turn s1 (log ++ e1) i q I1) as (s2 & e2 & E2 & I2 & X).
  exists (k + 1), s2, (e1 ++ e2), f, x. rewrite repeat_app, run_app, E1.
  assert (E3 : run s1 (repeat (AThread i q) 1) = Ok (s2, e2)) by (simpl; simpl in E2; rewrite E2; simpl; rewrite app_nil_r; reflexivity).
  cbn [bind fst snd]. rewrite E3. cbn [bind fst snd]. rewrite app_assoc. split; [reflexivity|]. split; [exact I2|].
  split; [rewrite (t_todo _ _ _ _ X); exact T1|]. split; [rewrite (t_marker _ _ _ _ X); exact M1|]. split; [rewrite (t_n _ _ _ _ X); exact N1|].
  simpl in E2. unfold thread_step in E2. rewrite H1 in E2. destruct (e_lim (k_emu s1 i)); [|discriminate E2]. destruct (_ =? _); [|discriminate E2]. injection E2 as <- <-. simpl. rewrite Nat.eqb_refl. reflexivity.
Qed.
End Proofs.
