(** Proofs about Feed_model.v: the commands keep the invariant. *)
From Coq Require Import ZArith List Bool Arith Lia.
From Verif Require Import Base_model Feed_model Feed_spec Feed_proofs.
Import ListNotations.
Open Scope nat_scope.

Section Proofs.
Context {Conf St Out : Type}.
Variable begin : Conf -> option St -> res St.
Variable turn : Conf -> bool -> St -> res (option Out * St).
Notation action := (action Conf). Notation event := (event Conf Out). Notation cmd := (cmd Conf). Notation mop := (mop Conf).
Notation card := (card Conf St). Notation emul := (emul Conf St). Notation producer := (producer St).
Notation run := (card_run begin turn).
Notation step := (card_step begin turn).
Notation alone := (alone begin turn).
Notation fed := (fed begin turn).
Notation sound := (sound begin turn).
Notation orderly := (orderly begin turn).
Notation allowed := (allowed begin turn).
Notation cstep := (@command_step Conf St Out).
Notation inv := (inv begin turn). Notation mode := (mode begin turn). Notation link_inv := (link_inv begin turn).
Notation pending := (pending begin turn). Notation conf_prog := (conf_prog begin turn).
Implicit Types (s : card) (e : emul) (log ev : list event) (acts more : list action).

(** Returning. *)
Lemma return_inv : forall s log c, inv s log -> k_todo s = Some (c, []) -> inv (set_todo s None) (log ++ [EReturned c]).
Proof.
  intros s log c I T. pose proof I as [VC VL VO VF VH VI VA VM]. unfold Feed_proofs.mode in VM. rewrite T in VM.
  constructor; simpl; auto.
  - rewrite current_app. reflexivity.
  - intros i. rewrite settings_app, runs_app. apply VL.
  - rewrite configured_app. destruct c; simpl; auto. intros _. destruct VM as [(_ & K & _)|(_ & _ & _ & l' & E & _)]; [exact K|]. destruct l'; discriminate E.
  - intros _. rewrite configured_app. rewrite T in VI. destruct c; simpl in *; auto.
    + destruct VM as [(_ & K & _)|(_ & _ & _ & l' & E & _)]; [exact K|]. destruct l'; discriminate E.
    + destruct VM as (_ & _ & CF & [(j & E)|[_ K]]); [destruct (map MScrap (seq j (k_n s - j))); discriminate E|congruence].
  - intros H. apply not_in_app in H. auto.
  - unfold Feed_proofs.mode, on. simpl. rewrite running_app. destruct c; simpl.
    + destruct VM as [(_ & _ & O)|(_ & _ & _ & l' & E & _)]; [exact O|]. destruct l'; discriminate E.
    + destruct VM as (R & RS & _). rewrite R. exact RS.
    + destruct VM as (_ & _ & _ & [(E & _)|(M & _)]); [discriminate E|exact M].
    + destruct VM as [(E & _)|(M & j & J & E & R)]; [discriminate E|]. split; [exact M|]. intros i. destruct (le_lt_dec (k_n s) i) as [H|H].
      * simpl. rewrite VO by auto. reflexivity.
      * apply R. destruct (k_n s - j) eqn:D; [lia|discriminate E].
    + destruct VM as (R & RS & _). rewrite R. exact RS.
Qed.

(** A step that changes neither threads nor marker, and says nothing. *)
Lemma same_link : forall e e' o rs, e_set e' = e_set e \/ e_set e' = false -> e_file e' = e_file e -> e_thread e' = e_thread e -> e_last e' = e_last e -> e_lim e' = e_lim e ->
  e_alive e' = e_alive e \/ ready (e_thread e) = true -> link_inv e o rs -> link_inv e' o rs.
Proof.
  intros e e' o rs S F T L M A []. constructor; rewrite ?F, ?T, ?L, ?M; auto.
  - destruct S as [S|S]; rewrite S; [auto|discriminate].
  - intros H. destruct A as [A|A]; [rewrite A; auto|congruence].
Qed.

Ltac emu i j := destruct (Nat.eq_dec j i) as [->|?NE]; [rewrite ?Nat.eqb_refl in *|match goal with H : j <> i |- _ => pose proof (proj2 (Nat.eqb_neq j i) H) as ?NB; rewrite ?NB in * end].

Lemma conf_inv : forall s log l m i o, inv s log -> k_todo s = Some (CConf l, MConf i o :: m) ->
  inv (fst (cstep s)) (log ++ snd (cstep s)).
Proof.
  intros s log l m i o I T. pose proof I as [VC VL VO VF VH VI VA VM]. unfold Feed_proofs.mode in VM. rewrite T in *. simpl in VC.
  destruct VM as [(E & _)|(RU & RS & K & l' & E & SO)]; [discriminate E|]. destruct l' as [|[i0 o0] l']; [discriminate E|]. simpl in E. injection E as -> -> E.
  assert (CF : configured log = false) by (destruct (configured log); [rewrite VH in K by auto; discriminate|reflexivity]).
  unfold command_step. rewrite T. simpl. destruct ((i0 <? k_n s) && negb (e_set (k_emu s i0))) eqn:G.
  - apply andb_true_iff in G. destruct G as [G1 G2]. apply Nat.ltb_lt in G1. apply negb_true_iff in G2. destruct RS as [MK RS]. destruct o0 as [c|]; simpl.
    + constructor; simpl; auto.
      * rewrite current_app. exact VC.
      * intros j. rewrite settings_app, runs_app. simpl. emu i0 j.
        -- pose proof (RS i0) as RI. constructor; simpl; auto.
           ++ intros _. eauto.
           ++ intros f k E2. injection E2 as <- <-. split; [reflexivity|]. apply (SO i0). left. reflexivity.
           ++ intros f x E2. destruct (e_thread (k_emu s i0)); discriminate.
           ++ intros E2. rewrite E2 in RI. discriminate.
           ++ intros _ k E2. constructor.
           ++ intros E2. rewrite RI in E2. discriminate.
           ++ intros E2. rewrite RI in E2. discriminate.
        -- rewrite (proj2 (Nat.eqb_neq i0 j)) by auto. apply VL.
      * intros j J. emu i0 j; simpl; auto.
      * rewrite K. discriminate.
      * rewrite configured_app. simpl. congruence.
      * intros [].
      * intros H j. apply not_in_app in H. emu i0 j; simpl; auto.
      * unfold Feed_proofs.mode. simpl. right. rewrite running_app. split; [exact RU|]. split; [|split; [exact K|exists l'; split; [exact E|intros; eapply SO; right; eauto]]].
        split; [exact MK|]. intros j. simpl. emu i0 j; simpl; auto.
    + constructor; simpl; auto.
      * rewrite current_app. reflexivity.
      * intros j. rewrite settings_app, runs_app. simpl. emu i0 j; [|apply VL]. pose proof (RS i0) as RI. destruct (VL i0) as [LS LF LW LG LR LL LA].
        constructor; simpl; auto; try discriminate.
        -- intros f x E2. destruct (e_thread (k_emu s i0)); discriminate.
        -- intros E2. rewrite E2 in RI. discriminate.
      * intros j J. emu i0 j; simpl; auto.
      * rewrite K. discriminate.
      * rewrite configured_app. simpl. congruence.
      * intros _. rewrite configured_app. simpl. congruence.
      * intros H j. apply not_in_app in H. emu i0 j; simpl; auto.
      * unfold Feed_proofs.mode, on. simpl. rewrite running_app. simpl. rewrite RU. split; [exact MK|]. intros j. simpl. emu i0 j; simpl; auto.
  - constructor; simpl; auto.
    + rewrite current_app. reflexivity.
    + intros j. rewrite settings_app, runs_app. apply VL.
    + rewrite configured_app. simpl. congruence.
    + intros _. rewrite configured_app. simpl. congruence.
    + intros H j. apply not_in_app in H. auto.
    + unfold Feed_proofs.mode, on. simpl. rewrite running_app. simpl. rewrite RU. exact RS.
Qed.

Lemma check_inv : forall s log l m, inv s log -> k_todo s = Some (CConf l, MCheck :: m) ->
  inv (fst (cstep s)) (log ++ snd (cstep s)).
Proof.
  intros s log l m I T. pose proof I as [VC VL VO VF VH VI VA VM]. unfold Feed_proofs.mode in VM. rewrite T in *. simpl in VC.
  destruct VM as [(E & _)|(RU & RS & K & l' & E & SO)]; [discriminate E|]. destruct l' as [|[i0 o0] l']; [|discriminate E]. simpl in E. injection E as ->.
  assert (CF : configured log = false) by (destruct (configured log); [rewrite VH in K by auto; discriminate|reflexivity]).
  unfold command_step. rewrite T. simpl. destruct (forallb _ _) eqn:G.
  - rewrite app_nil_r. constructor; simpl; auto.
    + intros _ i L. rewrite forallb_forall in G. specialize (G i). apply (l_set _ _ _ _ _ (VL i)). apply G. apply in_seq. lia.
    + intros [].
    + unfold Feed_proofs.mode, on. simpl. left. rewrite RU. auto.
  - constructor; simpl; auto.
    + rewrite current_app. reflexivity.
    + intros j. rewrite settings_app, runs_app. apply VL.
    + rewrite configured_app. simpl. congruence.
    + intros _. rewrite configured_app. simpl. congruence.
    + intros H j. apply not_in_app in H. auto.
    + unfold Feed_proofs.mode, on. simpl. rewrite running_app. simpl. rewrite RU. exact RS.
Qed.

Lemma scrap_inv : forall s log x m, inv s log -> k_todo s = Some (CScrap, x :: m) ->
  inv (fst (cstep s)) (log ++ snd (cstep s)).
Proof.
  intros s log x m I T. pose proof I as [VC VL VO VF VH VI VA VM]. unfold Feed_proofs.mode in VM. rewrite T in *. simpl in VC.
  destruct VM as (RU & RS & CF & [(j & E)|[E _]]); [|discriminate E]. unfold command_step. rewrite T.
  destruct (le_lt_dec (k_n s) j) as [J|J].
  - replace (k_n s - j) with 0 in E by lia. simpl in E. injection E as -> ->. simpl. rewrite app_nil_r. constructor; simpl; auto; try discriminate; try (intros; congruence); try (intros []).
    unfold Feed_proofs.mode. simpl. split; [exact RU|]. split; [exact RS|]. auto.
  - rewrite seq_cons in E by auto. simpl in E. injection E as -> ->. simpl. rewrite app_nil_r. destruct RS as [MK RS]. constructor; simpl; auto.
    + intros i. emu j i; [|exact (VL i)]. apply (same_link (k_emu s j)); simpl; auto.
    + intros i L. emu j i; simpl; auto.
    + intros H i L. emu j i; simpl; auto.
    + intros H i. emu j i; simpl; auto.
    + unfold Feed_proofs.mode. simpl. split; [exact RU|]. split; [|split; [exact CF|left; exists (S j); reflexivity]].
      split; [exact MK|]. intros i. simpl. emu j i; simpl; auto.
Qed.

Lemma start_inv : forall s log x m, inv s log -> k_todo s = Some (CStart, x :: m) ->
  inv (fst (cstep s)) (log ++ snd (cstep s)).
Proof.
  intros s log x m I T. pose proof I as [VC VL VO VF VH VI VA VM]. unfold Feed_proofs.mode in VM. rewrite T in *. simpl in VC.
  destruct VM as (RU & CF & ND & [(E & RS & PE)|(MK & j & J & E & PE)]); unfold command_step; rewrite T.
  - injection E as -> ->. simpl. rewrite app_nil_r. constructor; simpl; auto.
    unfold Feed_proofs.mode. simpl. split; [exact RU|]. split; [exact CF|]. split; [exact ND|]. right. split; [reflexivity|].
    exists 0. split; [lia|]. rewrite Nat.sub_0_r. split; [reflexivity|]. intros i _. split; [apply RS|apply PE].
  - destruct (Nat.eq_dec j (k_n s)) as [->|NJ]; [rewrite Nat.sub_diag in E; discriminate E|]. rewrite seq_cons in E by lia. simpl in E. injection E as -> ->. simpl.
    destruct (PE j) as [RJ (rs & RE & FE)]; [lia|]. set (ev := match e_thread (k_emu s j) with Off => [] | _ => [EIgnored j] end : list event).
    assert (EV : ev = [] \/ ev = [EIgnored j]) by (unfold ev; destruct (e_thread (k_emu s j)); auto).
    assert (NE : forall y, In y ev -> y = EIgnored j) by (intros y Y; destruct EV as [EV|EV]; rewrite EV in Y; [contradiction|]; destruct Y as [Y|[]]; auto).
    assert (H1 : current (log ++ ev) = current log) by (rewrite current_app; destruct EV as [-> | ->]; reflexivity).
    assert (H2 : forall i, settings i (log ++ ev) = settings i log) by (intros i; rewrite settings_app; destruct EV as [-> | ->]; reflexivity).
    assert (H3 : forall i, runs i (log ++ ev) = runs i log) by (intros i; rewrite runs_app; destruct EV as [-> | ->]; reflexivity).
    assert (H4 : configured (log ++ ev) = configured log) by (rewrite configured_app; destruct EV as [-> | ->]; reflexivity).
    assert (H5 : running (log ++ ev) = running log) by (rewrite running_app; destruct EV as [-> | ->]; reflexivity).
    assert (H6 : ~ In (ECommand CDestroy) (log ++ ev)).
    { intros H. apply in_app_or in H. destruct H as [H|H]; [auto|]. apply NE in H. discriminate. }
    constructor; simpl; auto.
    + rewrite H1. exact VC.
    + intros i. rewrite H2, H3. emu j i; [|apply VL].
      destruct (VF (VH CF) j) as (f & c & F); [lia|]. destruct (VL j) as [LS LF LW LG LR LL LA]. destruct (LF _ _ F) as [SJ _].
      destruct (e_thread (k_emu s j)) eqn:TJ; try discriminate RJ; constructor; simpl; auto; try discriminate.
      * intros _. exists f, c, rs. auto.
      * intros _. exists (k_next s). split; [reflexivity|]. discriminate.
    + intros i L. emu j i; simpl; auto. lia.
    + intros H i L. emu j i; simpl; auto.
    + rewrite H4. auto.
    + intros _ i. emu j i; simpl; auto.
    + unfold Feed_proofs.mode. simpl. rewrite H4, H5. split; [exact RU|]. split; [exact CF|]. split; [exact H6|].
      right. split; [exact MK|]. exists (S j). split; [lia|]. split; [reflexivity|]. intros i L. destruct (PE i) as [RI PI]; [lia|].
      assert (NI : i =? j = false) by (apply Nat.eqb_neq; lia). rewrite NI. split; [exact RI|]. unfold Feed_proofs.pending. simpl. rewrite NI, H2, H3. exact PI.
Qed.

Lemma stop_inv : forall s log x m, inv s log -> k_todo s = Some (CStop, x :: m) ->
  inv (fst (cstep s)) (log ++ snd (cstep s)).
Proof.
  intros s log x m I T. pose proof I as [VC VL VO VF VH VI VA VM]. unfold Feed_proofs.mode in VM. rewrite T in *. simpl in VC.
  unfold command_step; rewrite T. destruct VM as [(E & RS)|(MK & j & J & E & PE)].
  - injection E as -> ->. simpl. rewrite app_nil_r. constructor; simpl; auto. unfold Feed_proofs.mode. simpl. right. split; [reflexivity|].
    exists 0. split; [lia|]. rewrite Nat.sub_0_r. split; [reflexivity|]. intros i H. lia.
  - destruct (Nat.eq_dec j (k_n s)) as [->|NJ]; [rewrite Nat.sub_diag in E; discriminate E|]. rewrite seq_cons in E by lia. simpl in E. injection E as -> ->. simpl.
    destruct (ready (e_thread (k_emu s j))) eqn:R; simpl; rewrite app_nil_r; [|exact I]. constructor; simpl; auto.
    unfold Feed_proofs.mode. simpl. right. split; [exact MK|]. exists (S j). split; [lia|]. split; [reflexivity|].
    intros i H. destruct (Nat.eq_dec i j) as [->|N]; [exact R|]. apply PE. lia.
Qed.

Lemma destroy_inv : forall s log x m, inv s log -> k_todo s = Some (CDestroy, x :: m) -> In (ECommand CDestroy) log ->
  inv (fst (cstep s)) (log ++ snd (cstep s)).
Proof.
  intros s log x m I T DE. pose proof I as [VC VL VO VF VH VI VA VM]. unfold Feed_proofs.mode in VM. rewrite T in *. simpl in VC.
  unfold command_step; rewrite T. destruct VM as (RU & RS & PE). destruct (PE x (or_introl eq_refl)) as (j & [-> | ->]); simpl.
  - rewrite app_nil_r. destruct RS as [MK RS]. constructor; simpl; auto.
    + intros i. emu j i; [|exact (VL i)]. apply (same_link (k_emu s j)); simpl; auto.
    + intros i L. emu j i; simpl; auto.
    + intros H i L. emu j i; simpl; auto.
    + unfold Feed_proofs.mode. simpl. split; [exact RU|]. split; [|intros; apply PE; right; auto].
      split; [exact MK|]. intros i. simpl. emu j i; simpl; auto.
  - destruct (e_thread (k_emu s j)); simpl; rewrite app_nil_r; try exact I. constructor; simpl; auto.
    unfold Feed_proofs.mode. simpl. split; [exact RU|]. split; [exact RS|]. intros; apply PE; right; auto.
Qed.

Lemma current_in : forall log c, current log = Some c -> In (ECommand c : event) log.
Proof.
  intros log c. induction log as [|x log IH] using rev_ind; [discriminate|]. rewrite current_app. intros H. apply in_or_app.
  destruct x; simpl in H; auto; try discriminate. injection H as ->. right. left. reflexivity.
Qed.

Lemma command_inv : forall s log, inv s log -> inv (fst (cstep s)) (log ++ snd (cstep s)).
Proof.
  intros s log I. destruct (k_todo s) as [[c [|x m]]|] eqn:T.
  - unfold command_step. rewrite T. simpl. apply return_inv; auto.
  - destruct c as [l| | | |].
    + pose proof (v_mode _ _ _ _ I) as VM. unfold Feed_proofs.mode in VM. rewrite T in VM. destruct VM as [(E & _)|(_ & _ & _ & l' & E & _)]; [discriminate E|].
      destruct l' as [|y l']; injection E as -> ->; [eapply check_inv|eapply conf_inv]; eauto.
    + eapply scrap_inv; eauto.
    + eapply start_inv; eauto.
    + eapply stop_inv; eauto.
    + eapply destroy_inv; eauto. apply current_in. rewrite (v_current _ _ _ _ I), T. reflexivity.
  - unfold command_step. rewrite T. simpl. rewrite app_nil_r. exact I.
Qed.

(** Only a conf throws. *)
Lemma command_threw : forall s log c, inv s log -> In (EThrew c) (snd (cstep s)) -> exists l, c = CConf l.
Proof.
  intros s log c I. pose proof (v_mode _ _ _ _ I) as VM. unfold command_step. unfold Feed_proofs.mode in VM. destruct (k_todo s) as [[k [|x m]]|]; simpl; try (intros [H|[]]; discriminate H); [|intros []].
  intros H. assert (NT : (forall s', mop_step s x <> (Threw s' : outcome Conf St Out)) -> False).
  { intros N. destruct (mop_step s x) as [|s'|s' ev] eqn:E; simpl in H; [contradiction|eapply N; eauto|].
    destruct x; simpl in E.
    - destruct (_ && _); [|discriminate]. destruct o; [|discriminate]. injection E as <- <-. destruct H as [H|[]]. discriminate H.
    - destruct (forallb _ _); [|discriminate]. injection E as <- <-. contradiction.
    - injection E as <- <-. contradiction.
    - injection E as <- <-. contradiction.
    - injection E as <- <-. contradiction.
    - injection E as <- <-. destruct (e_thread (k_emu s i)); try contradiction; destruct H as [H|[]]; discriminate H.
    - destruct (ready _); [|discriminate]. injection E as <- <-. contradiction.
    - injection E as <- <-. contradiction.
    - destruct (e_thread _); try discriminate. injection E as <- <-. contradiction. }
  destruct k as [l| | | |].
  - destruct (mop_step s x) as [|s'|s' ev] eqn:E; simpl in H; [contradiction|destruct H as [H|[]]; injection H as <-; eauto|]. exfalso. apply NT. discriminate.
  - exfalso. apply NT. intros s'. destruct VM as (_ & _ & _ & [(j & E)|[E _]]); [|discriminate]. destruct (seq j (k_n s - j)); simpl in E; injection E as -> _; discriminate.
  - exfalso. apply NT. intros s'. destruct VM as (_ & _ & _ & [(E & _)|(_ & j & _ & E & _)]); [injection E as -> _; discriminate|].
    destruct (seq j (k_n s - j)); simpl in E; [discriminate|injection E as -> _; discriminate].
  - exfalso. apply NT. intros s'. destruct VM as [(E & _)|(_ & j & _ & E & _)]; [injection E as -> _; discriminate|].
    destruct (seq j (k_n s - j)); simpl in E; [discriminate|injection E as -> _; simpl; destruct (ready _); discriminate].
  - exfalso. apply NT. intros s'. destruct VM as (_ & _ & E). destruct (E x (or_introl eq_refl)) as (i & [-> | ->]); simpl; [discriminate|]. destruct (e_thread _); discriminate.
Qed.

(** ** Orderly schedules *)
Lemma new_card_inv : forall n, inv (card_new n) [].
Proof.
  intros n. constructor; simpl; auto; try discriminate.
  - intros i. constructor; simpl; discriminate.
  - unfold Feed_proofs.mode, on. simpl. split; [reflexivity|]. intros i. reflexivity.
Qed.

Lemma orderly_app : forall s a b, orderly s (a ++ b) -> orderly s a.
Proof. intros s a b O before c after s' log E. apply (O before c (after ++ b)). rewrite E, <- app_assoc. reflexivity. Qed.

Lemma step_inv : forall s log a, inv s log -> (forall c, a = ACommand c -> current log = None /\ allowed log c) ->
  exists s' ev, step s a = Ok (s', ev) /\ inv s' (log ++ ev) /\ forall c, In (EThrew c) ev -> exists l, c = CConf l.
Proof.
  intros s log a I C. destruct a as [c| |i q|i|i].
  - destruct (C c eq_refl) as [CU AL]. pose proof CU as CU'. rewrite (v_current _ _ _ _ I) in CU. simpl. destruct (k_todo s) as [[]|] eqn:T; [discriminate|].
    eexists _, _. split; [reflexivity|]. split; [apply issue_inv; auto|]. intros c' [H|[]]. discriminate H.
  - simpl. destruct (cstep s) as [s' ev] eqn:E. exists s', ev. split; [reflexivity|]. pose proof (command_inv s log I) as H. pose proof (fun c => command_threw s log c I) as J.
    rewrite E in H, J. simpl in H, J. auto.
  - destruct (thread_inv begin turn s log i q I) as (s' & ev & E & I' & T). exists s', ev. split; [exact E|]. split; [exact I'|]. intros c H. apply (t_quiet _ _ _ _ T) in H. contradiction.
  - simpl. eexists _, _. split; [reflexivity|]. split; [apply total_inv; auto|]. intros c [H|[]]. discriminate H.
  - destruct (step s (ANew i)) as [[s' ev]|] eqn:E; [|discriminate E]. destruct (new_inv begin turn s log i s' ev I E) as [I' T]. exists s', ev. split; [reflexivity|].
    split; [exact I'|]. intros c H. apply (t_quiet _ _ _ _ T) in H. contradiction.
Qed.

Lemma orderly_run : forall n acts, orderly (card_new n) acts ->
  exists s log, run (card_new n) acts = Ok (s, log) /\ inv s log /\ forall c, In (EThrew c) log -> exists l, c = CConf l.
Proof.
  intros n acts. induction acts as [|a acts IH] using rev_ind; intros O.
  - exists (card_new n), []. split; [reflexivity|]. split; [apply new_card_inv|]. intros c [].
  - destruct (IH (orderly_app _ _ _ O)) as (s & log & R & I & F).
    destruct (step_inv s log a I) as (s' & ev & E & I' & F').
    { intros c ->. apply (O acts c [] s log); auto. }
    exists s', (log ++ ev). split; [rewrite run_app, R; simpl; rewrite E; simpl; rewrite app_nil_r; reflexivity|]. split; [exact I'|].
    intros c H. apply in_app_or in H. destruct H; auto.
Qed.

Lemma orderly_inv : forall n acts s log, orderly (card_new n) acts -> run (card_new n) acts = Ok (s, log) -> inv s log.
Proof. intros n acts s log O R. destruct (orderly_run n acts O) as (s' & log' & R' & I & _). congruence. Qed.

(** From any state of the invariant, without further commands. *)
Lemma quiet_run : forall more s log, inv s log -> no_command more -> exists s' ev, run s more = Ok (s', ev) /\ inv s' (log ++ ev).
Proof.
  induction more as [|a more IH]; intros s log I N.
  - exists s, []. rewrite app_nil_r. auto.
  - destruct (step_inv s log a I) as (s1 & e1 & E1 & I1 & _).
    { intros c ->. exfalso. apply (N c). left. reflexivity. }
    destruct (IH s1 (log ++ e1) I1) as (s2 & e2 & E2 & I2).
    { intros c H. apply (N c). right. exact H. }
    exists s2, (e1 ++ e2). simpl. rewrite E1. simpl. rewrite E2. simpl. rewrite app_assoc. auto.
Qed.
Lemma run_n : forall acts s s' log, run s acts = Ok (s', log) -> k_n s' = k_n s.
Proof.
  induction acts as [|a acts IH]; intros s s' log H; simpl in H; [injection H as <- <-; reflexivity|].
  destruct (step s a) as [[s1 e1]|] eqn:E; simpl in H; [|discriminate]. destruct (run s1 acts) as [[s2 e2]|] eqn:R; simpl in H; [|discriminate]. injection H as <- _.
  rewrite (IH _ _ _ R). clear - E. destruct a; simpl in E.
  - destruct (k_todo s); injection E as <- <-; reflexivity.
  - unfold command_step in E. injection E as E. destruct (k_todo s) as [[c [|x m]]|]; try (injection E as <- <-; reflexivity).
    destruct (mop_step s x) as [|s'|s' ev] eqn:M; injection E as <- <-; [reflexivity| |]; destruct x; simpl in M;
      repeat match type of M with (if ?b then _ else _) = _ => destruct b | match ?b with _ => _ end = _ => destruct b end; try discriminate; injection M as <-; auto.
  - unfold thread_step in E. destruct (e_thread (k_emu s i)); simpl in E;
      repeat match type of E with
             | (if ?b then _ else _) = _ => destruct b
             | match ?b with _ => _ end = _ => destruct b; simpl in E
             | bind ?b _ = _ => destruct b; simpl in E
             end; try discriminate; try (injection E as <- <-; reflexivity).
  - injection E as <- <-. reflexivity.
  - injection E as <- <-. reflexivity.
Qed.
End Proofs.
