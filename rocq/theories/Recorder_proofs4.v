(** Proofs about the life of a recorder: progress. *)
From Coq Require Import String ZArith List Bool Arith Lia.
From Verif Require Import Base_model File_model File_spec File_proofs Recorder_model Recorder_spec Recorder_proofs Recorder_proofs2.
Import ListNotations.
Open Scope nat_scope.

Lemma warned_run_from_app : forall a b l, warned_run_from l (a ++ b) = warned_run_from (warned_run_from l a) b.
Proof. induction a as [|e a IH]; intros b l; cbn [app warned_run_from]; auto. Qed.

Section Proofs.
Variable enc : codec -> list Z -> list Z.
Variable d : device.
Notation run := (rec_run enc d).
Notation step := (rec_step enc d).
Notation inv := (inv enc d).

(** ** Waiting workers *)
Definition rank (w : worker) : nat := match w with Late => 3 | Awake => 2 | Doze => 1 | _ => 0 end.
Definition gives (t : option (cmd * list mop)) : Prop := match t with Some (_, rest) => In MGive rest | None => False end.

(** A worker without work, and no command that gives it any. *)
Definition resting (s : rec) : Prop := ready (y_thread s) = true /\ ~ gives (y_todo s).
Lemma resting_step : forall s a s' ev, resting s -> a <> ASpurious -> a <> ACommand CStart -> step s a = Ok (s', ev) ->
  resting s' /\ rank (y_thread s') + (match a with AThread => 1 | _ => 0 end) <= Nat.max (rank (y_thread s)) (match a with AThread => 1 | _ => 0 end).
Proof.
  intros s a s' ev [R G] N1 N2 E. destruct a as [c| | | |e|]; cbn [rec_step] in E.
  - destruct (y_todo s) as [t|] eqn:T; injection E as <- <-; (split; [|cbn; lia]); (split; [exact R|]).
    + now rewrite T.
    + cbn. destruct c; cbn; [intuition discriminate|congruence|intuition discriminate|intuition discriminate].
  - unfold command_step in E. destruct (y_todo s) as [[c [|m rest]]|] eqn:T.
    + injection E as <- <-. split; [|cbn; lia]. split; cbn; auto.
    + destruct (mop_step enc d s m) as [|s1|s1 ev1|] eqn:M; try discriminate E; injection E as <- <-.
      * split; [|lia]. split; [auto|]. now rewrite T.
      * assert (TH : y_thread s1 = y_thread s). { revert M. unfold mop_step. destruct m; try discriminate; try (destruct (y_thread s); discriminate). destruct (ready _); [|discriminate]. destruct (fst _); [discriminate|]. intros X; injection X as <-. reflexivity. }
        cbn. rewrite TH. split; [|lia]. split; cbn; [now rewrite TH|auto].
      * assert (m <> MGive) by (intros ->; apply G; cbn; auto).
        assert (TH : y_thread s1 = y_thread s). { revert M. unfold mop_step. destruct m; try (intros X; injection X as <- <-; reflexivity).
          - destruct (ready _); [|discriminate]. destruct (fst _); [|discriminate]. intros X; injection X as <- <-. reflexivity.
          - congruence.
          - destruct (ready _); [|discriminate]. intros X; injection X as <- <-. reflexivity.
          - destruct (y_thread s) eqn:TH; try discriminate; intros X; injection X as <- <-; exact TH. }
        cbn. rewrite TH. split; [|lia]. split; cbn; [now rewrite TH|]. intros X. apply G. cbn. auto.
    + injection E as <- <-. split; [|lia]. split; [auto|]. now rewrite T.
  - unfold thread_step in E. destruct (y_thread s) eqn:T; try discriminate R; injection E as <- <-; cbn [set_thread y_thread rank]; rewrite ?T; (split; [split; cbn [set_thread y_thread ready y_todo]; rewrite ?T; auto|cbn; lia]).
  - congruence.
  - injection E as <- <-. split; [split; auto|cbn; lia].
  - unfold monitor_step in E. destruct (y_mon s); injection E as <- <-; (split; [split; auto|cbn; lia]).
Qed.
Lemma resting_run : forall acts s s' ev, resting s -> ~ In ASpurious acts -> ~ In (ACommand CStart) acts -> run s acts = Ok (s', ev) ->
  resting s' /\ rank (y_thread s') <= rank (y_thread s) - turns acts.
Proof.
  induction acts as [|a acts IH]; intros s s' ev R N1 N2 E; cbn [rec_run] in E.
  - injection E as <- <-. cbn. split; [exact R|lia].
  - destruct (step s a) as [[s1 e1]|] eqn:S; [|discriminate]. cbn [bind fst snd] in E. destruct (run s1 acts) as [[s2 e2]|] eqn:X; [|discriminate].
    cbn [bind fst snd] in E. injection E as <- <-.
    destruct (resting_step s a s1 e1 R ltac:(intros ->; apply N1; cbn; auto) ltac:(intros ->; apply N2; cbn; auto) S) as [R1 K1].
    destruct (IH s1 s2 e2 R1 ltac:(intros Y; apply N1; cbn; auto) ltac:(intros Y; apply N2; cbn; auto) X) as [R2 K2]. split; [exact R2|].
    unfold turns in *. cbn [filter length]. destruct a; cbn [length] in *; lia.
Qed.

(** ** In a settled history the worker gets its work and goes on *)
Definition working (w : worker) : bool := match w with Given | Test | Pop | Popped _ | Counted _ | Writing _ => true | _ => false end.
Record live (s : rec) (log : list event) : Prop := mk_live {
  l_missed : y_thread s <> Missed;
  l_off : gives (y_todo s) -> y_thread s = Off;
  l_ignored : ignored log = false;
  l_working : match y_todo s with
              | Some (CStart, [MGive]) => y_marker s = true /\ warned_run log = false
              | Some (CStart, _ :: _) => warned_run log = false
              | Some (CStart, []) => y_marker s = true /\ (warned_run log = true \/ working (y_thread s) = true)
              | Some (CStop, [_; _]) | None => running log = true -> y_marker s = true /\ (warned_run log = true \/ working (y_thread s) = true)
              | _ => True
              end
}.

Lemma thread_working : forall s s' ev, thread_step d s = Ok (s', ev) -> y_marker s = true -> working (y_thread s) = true ->
  working (y_thread s') = true \/ ev = [EWarn].
Proof.
  intros s s' ev E M W. unfold thread_step in E. destruct (y_thread s) eqn:T; try discriminate W.
  - injection E as <- <-. auto.
  - rewrite M in E. injection E as <- <-. auto.
  - destruct (y_queue s); injection E as <- <-; auto.
  - injection E as <- <-. auto.
  - injection E as <- <-. auto.
  - destruct (fst (writes _ _ _)); injection E as <- <-; auto.
Qed.
Lemma thread_frame : forall s s' ev, thread_step d s = Ok (s', ev) -> y_todo s' = y_todo s /\ y_marker s' = y_marker s /\ y_mon s' = y_mon s /\ y_fd s' = y_fd s /\
  (ev = [] \/ ev = [EWarn] \/ exists e, ev = [ETake e]) /\ (y_thread s' = Missed -> y_thread s = Missed) /\ (y_thread s = Off -> y_thread s' = Off) /\
  (ready (y_thread s) = true -> ev = []).
Proof.
  intros s s' ev E. unfold thread_step in E. destruct (y_thread s) eqn:T; try (injection E as <- <-; cbn; rewrite ?T; splits; auto; congruence).
  - injection E as <- <-. cbn. splits; auto; try discriminate. destruct (y_marker s); discriminate.
  - destruct (y_queue s); injection E as <- <-; cbn; splits; eauto; discriminate.
  - destruct (fst (writes _ _ _)); injection E as <- <-; cbn; splits; eauto; discriminate.
  - destruct (y_fd s) eqn:FD; [|discriminate]. injection E as <- <-. cbn. splits; auto; discriminate.
Qed.

Lemma live_step : forall s log a s' ev, inv s log -> live s log -> a <> ASpurious -> (forall c, a = ACommand c -> current log = None /\ allowed log c) ->
  (a = ACommand CStart -> y_thread s = Off) -> step s a = Ok (s', ev) -> live s' (log ++ ev).
Proof.
  intros s log a s' ev I L NS A ST E. pose proof I as [C TD F B Q]. pose proof L as [L1 L2 L3 L4].
  assert (AP : forall ev, ignored (log ++ ev) = ignored_from (ignored log) ev /\ warned_run (log ++ ev) = warned_run_from (warned_run log) ev /\ running (log ++ ev) = running_from (running log) ev)
    by (intros; unfold ignored, warned_run, running; now rewrite ignored_from_app, warned_run_from_app, running_from_app).
  assert (SAME : live s (log ++ [])) by (rewrite app_nil_r; exact L).
  destruct a as [c| | | |e|]; cbn [rec_step] in E.
  - destruct (A c eq_refl) as [A1 A2]. rewrite A1 in C. destruct (y_todo s) as [t|] eqn:T; [discriminate|]. injection E as <- <-.
    destruct (AP [ECommand c]) as (P1 & P2 & P3). constructor; cbn [set_todo y_todo y_thread y_marker].
    + exact L1.
    + intros G. destruct c; cbn in G; try (exfalso; intuition discriminate). now apply ST.
    + rewrite P1. destruct c; cbn; auto.
    + rewrite P2, P3. destruct c; cbn; auto.
  - unfold command_step in E. unfold todo_ok in TD. destruct (y_todo s) as [[c rest]|] eqn:T; [|injection E as <- <-; exact SAME].
    destruct rest as [|m rest].
    + injection E as <- <-. destruct (AP [EReturned c]) as (P1 & P2 & P3). constructor; cbn [set_todo y_todo y_thread y_marker].
      * exact L1.
      * intros [].
      * rewrite P1. cbn. destruct c; auto.
      * rewrite P2, P3. destruct c; cbn; try discriminate.
        -- destruct TD as (_ & X & _). congruence.
        -- auto.
        -- destruct TD as (_ & X & _). congruence.
    + assert (NT : forall s1, y_thread s1 = y_thread s -> y_marker s1 = y_marker s -> (match c with CStart => False | CStop => False | _ => True end) ->
          live (set_todo s1 (Some (c, rest))) (log ++ [])).
      { intros s1 E1 E2 NC. destruct (AP []) as (P1 & P2 & P3). constructor; cbn [set_todo y_todo y_thread y_marker]; rewrite ?E1.
        - exact L1.
        - intros G. apply L2. cbn in *. auto.
        - now rewrite app_nil_r.
        - destruct c; try contradiction; exact Logic.I. }
      destruct c as [g b1 b2| | |].
      * destruct TD as (X1 & X2 & [(X3 & _)|[(X3 & _)|(X3 & _)]]); try discriminate X3; cbn in X3; injection X3 as -> ->; cbn [mop_step] in E.
        -- injection E as <- <-. now apply NT.
        -- rewrite X1 in E. destruct (fst (opened _ _ _ _ _)); injection E as <- <-.
           ++ now apply NT.
           ++ destruct (AP [EThrew (CConf g b1 b2)]) as (P1 & P2 & P3). constructor; cbn [set_todo set_fd set_disk y_todo y_thread y_marker]; auto.
              ** intros [].
              ** now rewrite P1.
              ** rewrite P3. cbn. congruence.
      * destruct TD as (X1 & X2 & [(j & X3 & J & X4 & _)|(X3 & _)]); [|discriminate X3].
        assert (J3 : j = 0 \/ j = 1 \/ j = 2) by lia. destruct (AP []) as (P1 & P2 & P3).
        assert (TO : y_thread s = Off). { apply L2. rewrite X3. destruct J3 as [-> |[-> | ->]]; cbn; auto. }
        destruct J3 as [-> |[-> | ->]]; cbn [skipn program] in X3; injection X3 as -> ->; cbn [mop_step] in E.
        -- injection E as <- <-. constructor; cbn [set_todo set_total y_todo y_thread y_marker]; rewrite ?app_nil_r; auto.
        -- injection E as <- <-. constructor; cbn [set_todo set_marker y_todo y_thread y_marker]; rewrite ?app_nil_r; auto.
        -- rewrite TO in E. injection E as <- <-. constructor; cbn [set_todo set_thread y_todo y_thread y_marker]; rewrite ?app_nil_r; auto; try discriminate.
           ++ intros [].
           ++ destruct L4. auto.
      * destruct TD as (X1 & [X3|[X3|(X3 & _)]] & X4); try discriminate X3; cbn in X3; injection X3 as -> ->; cbn [mop_step] in E.
        -- injection E as <- <-. constructor; cbn [set_todo set_marker y_todo y_thread y_marker]; rewrite ?app_nil_r; auto. intros [X|[]]. discriminate.
        -- destruct (ready (y_thread s)); injection E as <- <-; [|exact SAME]. constructor; cbn [set_todo y_todo y_thread y_marker]; rewrite ?app_nil_r; auto.
           intros [].
      * destruct TD as (X1 & X2 & [(j & X3 & J & _)|(X3 & _)]); [|discriminate X3].
        assert (J3 : j = 0 \/ j = 1) by lia. destruct J3 as [-> | ->]; cbn [skipn program] in X3; injection X3 as -> ->; cbn [mop_step] in E.
        -- destruct (y_thread s) eqn:TH; injection E as <- <-; try exact SAME; apply NT; auto.
        -- injection E as <- <-. now apply NT.
  - destruct (thread_frame s s' ev E) as (F1 & F2 & _ & _ & F5 & F6 & F7 & F8). destruct (AP ev) as (P1 & P2 & P3).
    assert (RUN : running (log ++ ev) = running log) by (rewrite P3; destruct F5 as [-> |[-> |(e & ->)]]; reflexivity).
    assert (WR : warned_run (log ++ ev) = warned_run log \/ warned_run (log ++ ev) = true) by (rewrite P2; destruct F5 as [-> |[-> |(e & ->)]]; auto).
    assert (WE : ev = [EWarn] -> warned_run (log ++ ev) = true) by (intros ->; now rewrite P2).
    assert (GO : y_marker s = true /\ (warned_run log = true \/ working (y_thread s) = true) -> y_marker s' = true /\ (warned_run (log ++ ev) = true \/ working (y_thread s') = true)).
    { intros [M W]. rewrite F2. split; [exact M|]. destruct W as [W|W].
      - left. rewrite P2, W. destruct F5 as [-> |[-> |(e & ->)]]; reflexivity.
      - destruct (thread_working s s' ev E M W); auto. }
    assert (OFF : gives (y_todo s) -> warned_run (log ++ ev) = warned_run log).
    { intros G. rewrite F8; [now rewrite app_nil_r|]. now rewrite (L2 G). }
    constructor; rewrite ?F1, ?RUN.
    + auto.
    + auto.
    + rewrite P1, L3. destruct F5 as [-> |[-> |(e & ->)]]; reflexivity.
    + unfold todo_ok in TD. destruct (y_todo s) as [[[g b1 b2| | |] rest]|] eqn:T; auto.
      * destruct TD as (X1 & X2 & [(j & X3 & J & X4 & _)|(X3 & _)]); [|subst rest; auto].
        assert (J3 : j = 0 \/ j = 1 \/ j = 2) by lia. destruct J3 as [-> |[-> | ->]]; cbn [skipn program] in X3; subst rest; rewrite ?F2, OFF; auto; cbn; auto.
      * destruct rest as [|m1 [|m2 [|m3 rest]]]; auto.
  - congruence.
  - injection E as <- <-. destruct (AP [EOffer e]) as (P1 & P2 & P3). cbn in P1, P2, P3. constructor; cbn [set_queue y_todo y_thread y_marker]; rewrite ?P1, ?P2, ?P3; auto.
  - unfold monitor_step in E. destruct (y_mon s); injection E as <- <-.
    + destruct (AP [ETotal (y_total s)]) as (P1 & P2 & P3). cbn in P1, P2, P3. constructor; cbn [set_mon y_todo y_thread y_marker]; rewrite ?P1, ?P2, ?P3; auto.
    + destruct (AP [ESince (y_since s)]) as (P1 & P2 & P3). cbn in P1, P2, P3. constructor; cbn [set_mon y_todo y_thread y_marker]; rewrite ?P1, ?P2, ?P3; auto.
    + rewrite app_nil_r. constructor; cbn [set_mon set_since y_todo y_thread y_marker]; auto.
Qed.

Lemma settled_prefix : forall s0 a b, settled enc d s0 (a ++ b) -> settled enc d s0 a.
Proof.
  intros s0 a b [N S]. split.
  - intros X. apply N, in_or_app. auto.
  - intros before after ->. apply (S before (after ++ b)). now rewrite <- app_assoc.
Qed.
Theorem settled_live : forall fs b acts s log, orderly enc d (rec_new fs b) acts -> settled enc d (rec_new fs b) acts -> run (rec_new fs b) acts = Ok (s, log) -> live s log.
Proof.
  intros fs b acts. induction acts as [|a acts IH] using rev_ind; intros s log O S R.
  - cbn in R. injection R as <- <-. constructor; cbn; auto; try discriminate. tauto.
  - destruct (run_snoc _ _ _ _ _ _ _ R) as (s1 & l1 & l2 & R1 & E & ->). pose proof (orderly_prefix enc d _ _ _ O) as O1. pose proof (settled_prefix _ _ _ S) as S1.
    destruct (run_inv enc d fs b acts O1) as (s1' & l1' & R1' & I & _). rewrite R1 in R1'. injection R1' as <- <-.
    apply (live_step s1 l1 a s l2); auto.
    + intros ->. apply (proj1 S), in_or_app. cbn. auto.
    + intros c ->. apply (O acts c [] s1 l1); auto.
    + intros ->. destruct (proj2 S acts [] eq_refl) as (b1 & b2 & sb & lb & -> & RB & C & RN & NB & TB).
      assert (IB : inv sb lb).
      { destruct (run_inv enc d fs b b1) as (sb' & lb' & RB' & IB & _); [now apply (orderly_prefix enc d _ b1 b2)|]. rewrite RB in RB'. injection RB' as <- <-. exact IB. }
      destruct IB as [IC IT _ _ _]. rewrite C in IC. assert (TN : y_todo sb = None) by (destruct (y_todo sb); [discriminate|reflexivity]). unfold todo_ok in IT. rewrite TN in IT.
      destruct IT as [_ IT]. specialize (IT RN). rewrite run_app, RB in R1. cbn [bind fst snd] in R1. destruct (run sb b2) as [[s2 e2]|] eqn:X; [|discriminate].
      cbn [bind fst snd] in R1. injection R1 as <- <-.
      destruct (resting_run b2 sb s2 e2) as [[RS _] RK]; auto.
      * split; [exact IT|]. rewrite TN. cbn. auto.
      * intros Y. apply (proj1 S1), in_or_app. auto.
      * assert (rank (y_thread sb) <= 3) by (destruct (y_thread sb); cbn; lia). unfold turns in RK. destruct (y_thread s2); cbn in RK, RS; try discriminate RS; try lia. reflexivity.
Qed.

(** ** A run records *)
Definition cost (w : worker) : nat := match w with Given => 3 | Test => 2 | Pop => 1 | Popped _ => 5 | Counted _ => 4 | _ => 3 end.
Lemma records : forall acts s s' ev n, run s acts = Ok (s', ev) -> no_command acts -> y_todo s = None -> y_marker s = true -> working (y_thread s) = true ->
  n <= length (y_queue s) -> (0 < n -> cost (y_thread s) + 5 * (n - 1) <= turns acts) -> In EWarn ev \/ n <= length (taken ev).
Proof.
  induction acts as [|a acts IH]; intros s s' ev n R NC T M W Q K.
  - right. destruct n; [lia|]. specialize (K ltac:(lia)). cbn in K. destruct (y_thread s); cbn in K; lia.
  - cbn [rec_run] in R. destruct (step s a) as [[s1 e1]|] eqn:S; [|discriminate]. cbn [bind fst snd] in R. destruct (run s1 acts) as [[s2 e2]|] eqn:X; [|discriminate].
    cbn [bind fst snd] in R. injection R as <- <-. assert (NC1 : no_command acts) by (intros c H; apply (NC c); cbn; auto).
    assert (SAME : y_todo s1 = None -> y_marker s1 = true -> y_thread s1 = y_thread s -> length (y_queue s) <= length (y_queue s1) -> turns (a :: acts) = turns acts -> In EWarn (e1 ++ e2) \/ n <= length (taken (e1 ++ e2))).
    { intros T1 M1 TH QL TR. destruct (IH s1 s2 e2 n) as [H|H]; auto; try (rewrite ?TH; auto; lia).
      - left. apply in_or_app. auto.
      - right. rewrite taken_app, app_length. lia. }
    destruct a as [c| | | |e|].
    + exfalso. apply (NC c). cbn. auto.
    + cbn [rec_step] in S. unfold command_step in S. rewrite T in S. injection S as <- <-. now apply SAME.
    + cbn [rec_step] in S. destruct (thread_frame s s1 e1 S) as (F1 & F2 & _ & _ & F5 & _).
      assert (TN : forall k, turns (AThread :: acts) = k -> turns acts = k - 1) by (intros k <-; unfold turns; cbn; lia).
      assert (NXT : e1 = [] -> y_queue s1 = y_queue s -> working (y_thread s1) = true -> cost (y_thread s1) + 1 <= cost (y_thread s) -> In EWarn (e1 ++ e2) \/ n <= length (taken (e1 ++ e2))).
      { intros -> QE W1 CO. cbn [app]. apply (IH s1 s2 e2 n); auto; try congruence.
        intros P. specialize (K P). rewrite (TN _ eq_refl). lia. }
      unfold thread_step in S. destruct (y_thread s) eqn:TH; try discriminate W.
      * injection S as <- <-. apply NXT; cbn; auto; lia.
      * rewrite M in S. injection S as <- <-. apply NXT; cbn; auto; lia.
      * destruct (y_queue s) as [|e q] eqn:QU; injection S as <- <-.
        -- assert (n = 0) by (cbn in Q; lia). subst n. right. lia.
        -- destruct n as [|n]; [right; lia|]. assert (H : In EWarn e2 \/ n <= length (taken e2)).
           { apply (IH _ _ _ n X); auto; [cbn in *; lia|]. cbn [cost set_queue set_thread y_thread]. intros P. specialize (K ltac:(lia)). rewrite (TN _ eq_refl). cbn [cost] in K. lia. }
           destruct H as [H|H]; [left; cbn; auto|right; change (taken ([ETake e] ++ e2)) with (e :: taken e2); cbn [length]; lia].
      * injection S as <- <-. apply NXT; cbn; auto; lia.
      * injection S as <- <-. apply NXT; cbn; auto; lia.
      * destruct (fst (writes _ _ _)); injection S as <- <-.
        -- apply NXT; cbn; auto; lia.
        -- left. cbn. auto.
    + cbn [rec_step] in S. injection S as <- <-. apply SAME; auto; destruct (y_thread s) eqn:TH; auto; discriminate.
    + cbn [rec_step] in S. injection S as <- <-. apply SAME; cbn; auto. rewrite app_length. lia.
    + cbn [rec_step] in S. unfold monitor_step in S. destruct (y_mon s); injection S as <- <-; apply SAME; auto.
Qed.

(** ** A stop returns *)
(** The stop has returned, or it is still there, with no more to do than before. *)
Definition stopping (s : rec) (k : nat) : Prop :=
  (k = 2 /\ y_todo s = Some (CStop, program CStop)) \/ (k = 1 /\ y_todo s = Some (CStop, [MWait]) /\ y_marker s = false) \/
  (k = 0 /\ y_todo s = Some (CStop, []) /\ y_marker s = false).
Definition far (w : worker) : nat :=
  match w with Given => 3 | Test => 2 | Flushing => 1 | Pop => 6 | Popped _ => 5 | Counted _ => 4 | Writing _ => 3 | _ => 0 end.
Lemma stopping_step : forall s a s' ev k, stopping s k -> y_thread s <> Missed -> step s a = Ok (s', ev) ->
  In (EReturned CStop) ev \/ (exists k', stopping s' k' /\ k' <= k /\ (a = AStep -> k = 2 -> k' = 1) /\
    (a = AStep -> k = 1 -> ready (y_thread s) = true -> k' = 0) /\ (a = AStep -> k <> 0)) /\
    y_thread s' <> Missed /\ (ready (y_thread s) = true -> ready (y_thread s') = true) /\
    (k <= 1 -> far (y_thread s') <= far (y_thread s) - (match a with AThread => 1 | _ => 0 end)).
Proof.
  intros s a s' ev k K NM E.
  assert (CP : forall s1, y_todo s1 = y_todo s -> y_marker s1 = y_marker s -> stopping s1 k) by (intros s1 E1 E2; unfold stopping; rewrite E1, E2; exact K).
  assert (TS : y_todo s <> None) by (destruct K as [[_ ->]|[(_ & -> & _)|(_ & -> & _)]]; discriminate).
  destruct a as [c| | | |e|]; cbn [rec_step] in E.
  - destruct (y_todo s); [|congruence]. injection E as <- <-. right. split; [exists k; splits; auto; discriminate|]. splits; auto. lia.
  - unfold command_step in E. destruct K as [[-> T]|[(-> & T & M)|(-> & T & M)]]; rewrite T in E; cbn [program mop_step] in E.
    + injection E as <- <-. right. cbn. split; [|splits; auto; lia]. exists 1. splits; auto; try discriminate. right. left. auto.
    + destruct (ready (y_thread s)) eqn:RD; injection E as <- <-; right.
      * cbn. split; [|splits; auto; lia]. exists 0. splits; auto; try discriminate. right. right. auto.
      * split; [|splits; auto; lia]. exists 1. splits; auto; try discriminate.
    + injection E as <- <-. left. cbn. auto.
  - destruct (thread_frame s s' ev E) as (F1 & F2 & _ & _ & _ & F6 & _). right. split; [exists k; splits; auto; discriminate|].
    split; [auto|]. assert (MK : k <= 1 -> y_marker s = false) by (destruct K as [[-> _]|[(_ & _ & M)|(_ & _ & M)]]; auto; lia).
    unfold thread_step in E. destruct (y_thread s) eqn:T; try (injection E as <- <-; cbn; rewrite ?T; split; [auto; discriminate|cbn; lia]).
    + injection E as <- <-. cbn. split; [discriminate|]. intros KL. rewrite (MK KL). cbn. lia.
    + destruct (y_queue s); injection E as <- <-; cbn; (split; [discriminate|lia]).
    + destruct (fst (writes _ _ _)); injection E as <- <-; cbn; (split; [discriminate|lia]).
    + destruct (y_fd s); [|discriminate]. injection E as <- <-. cbn. split; [auto|lia].
  - injection E as <- <-. right. split.
    + exists k. splits; auto; try discriminate. apply CP; destruct (y_thread s); auto.
    + destruct (y_thread s) eqn:T; cbn; rewrite ?T; splits; auto; try discriminate; try congruence; lia.
  - injection E as <- <-. right. cbn. split; [exists k; splits; auto; discriminate|]. splits; auto; lia.
  - unfold monitor_step in E. destruct (y_mon s); injection E as <- <-; right; cbn; (split; [exists k; splits; auto; discriminate|]); splits; auto; lia.
Qed.
(** What every schedule makes of it. *)
Lemma stopping_run : forall acts s s' ev k, stopping s k -> y_thread s <> Missed -> run s acts = Ok (s', ev) ->
  In (EReturned CStop) ev \/ (exists k', stopping s' k' /\ k' <= k /\ (0 < steps acts -> k' <= 1) /\
    (ready (y_thread s) = true -> k <= 1 -> k' + steps acts <= k)) /\
    y_thread s' <> Missed /\ (ready (y_thread s) = true -> ready (y_thread s') = true) /\ (k <= 1 -> far (y_thread s') <= far (y_thread s) - turns acts).
Proof.
  induction acts as [|a acts IH]; intros s s' ev k K NM R; cbn [rec_run] in R.
  - injection R as <- <-. right. unfold turns, steps. cbn. split; [|splits; auto; lia]. exists k. splits; auto; lia.
  - destruct (step s a) as [[s1 e1]|] eqn:S; [|discriminate]. cbn [bind fst snd] in R. destruct (run s1 acts) as [[s2 e2]|] eqn:X; [|discriminate].
    cbn [bind fst snd] in R. injection R as <- <-.
    destruct (stopping_step s a s1 e1 k K NM S) as [H|((k1 & K1 & KL & S1 & S2 & S3) & NM1 & RD1 & F1)]; [left; apply in_or_app; auto|].
    destruct (IH s1 s2 e2 k1 K1 NM1 X) as [H|((k2 & K2 & KL2 & S4 & S5) & NM2 & RD2 & F2)]; [left; apply in_or_app; auto|]. right.
    assert (KB : k = 0 \/ k = 1 \/ k = 2) by (destruct K as [[-> _]|[(-> & _)|(-> & _)]]; auto).
    split; [exists k2; splits; auto; try lia|splits; auto; try lia].
    + unfold steps in *. cbn [filter]. intros P. destruct a; cbn in P; auto. destruct KB as [-> |[-> | ->]]; try lia. rewrite (S1 eq_refl eq_refl) in *. lia.
    + intros RD KL1. specialize (RD1 RD). unfold steps in *. cbn [filter length]. specialize (S5 RD1 ltac:(lia)).
      destruct a; cbn [length]; try lia. destruct KB as [-> |[-> | ->]]; try lia; [now destruct (S3 eq_refl)|]. rewrite (S2 eq_refl eq_refl RD) in *. lia.
    + intros KL1. specialize (F1 KL1). specialize (F2 ltac:(lia)). unfold turns in *. cbn [filter length]. destruct a; cbn [length]; lia.
Qed.
Lemma far_ready : forall w, w <> Missed -> far w = 0 -> ready w = true.
Proof. destruct w; cbn; congruence. Qed.
Lemma stop_returns : forall a b c s s' ev k, stopping s k -> y_thread s <> Missed -> run s (a ++ b ++ c) = Ok (s', ev) -> 1 <= steps a -> 6 <= turns b -> 2 <= steps c ->
  In (EReturned CStop) ev.
Proof.
  intros a b c s s' ev k K NM R A B C. rewrite run_app in R. destruct (run s a) as [[s1 e1]|] eqn:R1; [|discriminate]. cbn [bind fst snd] in R.
  rewrite run_app in R. destruct (run s1 b) as [[s2 e2]|] eqn:R2; [|discriminate]. cbn [bind fst snd] in R. destruct (run s2 c) as [[s3 e3]|] eqn:R3; [|discriminate].
  cbn [bind fst snd] in R. injection R as <- <-.
  destruct (stopping_run a s s1 e1 k K NM R1) as [H|((k1 & K1 & _ & L1 & _) & NM1 & _)]; [apply in_or_app; auto|]. specialize (L1 ltac:(lia)).
  destruct (stopping_run b s1 s2 e2 k1 K1 NM1 R2) as [H|((k2 & K2 & L2 & _) & NM2 & _ & F2)]; [apply in_or_app; right; apply in_or_app; auto|]. specialize (F2 L1).
  assert (far (y_thread s1) <= 6) by (destruct (y_thread s1); cbn; lia). pose proof (far_ready _ NM2 ltac:(lia)) as RD.
  destruct (stopping_run c s2 s3 e3 k2 K2 NM2 R3) as [H'|((k3 & K3 & _ & _ & L3) & _)]; [apply in_or_app; right; apply in_or_app; auto|].
  specialize (L3 RD ltac:(lia)). lia.
Qed.

(** What is left of a stop. *)
Definition halting (s : rec) : Prop := forall rest, y_todo s = Some (CStop, rest) -> exists k, stopping s k.
Lemma halting_step : forall s a s' ev, halting s -> step s a = Ok (s', ev) ->
  halting s' /\ (forall rest, y_todo s = Some (CStop, rest) -> In (EReturned CStop) ev \/ exists rest', y_todo s' = Some (CStop, rest')).
Proof.
  intros s a s' ev H E.
  assert (KEEP : forall s1, y_todo s1 = y_todo s -> y_marker s1 = y_marker s -> halting s1 /\ (forall rest, y_todo s = Some (CStop, rest) -> In (EReturned CStop) ev \/ exists rest', y_todo s1 = Some (CStop, rest'))).
  { intros s1 E1 E2. split; [|intros rest T; right; exists rest; congruence]. intros rest T. rewrite E1 in T. destruct (H rest T) as [k K]. exists k. unfold stopping. rewrite E1, E2. exact K. }
  destruct a as [c| | | |e|]; cbn [rec_step] in E.
  - destruct (y_todo s) as [t|] eqn:T; injection E as <- <-; [apply KEEP; auto|]. split; [|discriminate]. intros rest X. cbn in X. injection X as -> <-. exists 2. left. auto.
  - unfold command_step in E. destruct (y_todo s) as [[c rest]|] eqn:T; [|injection E as <- <-; apply KEEP; auto].
    destruct c as [g x y| | |]; try (split; [|discriminate]; destruct rest as [|m rest]; [injection E as <- <-; intros r X; discriminate X|];
      destruct (mop_step enc d s m); try discriminate E; injection E as <- <-; intros r X; try discriminate X; rewrite T in X; discriminate X).
    destruct (H rest T) as [k [[_ K]|[(_ & K & M)|(_ & K & M)]]]; rewrite T in K; injection K as ->; cbn [program mop_step] in E.
    + injection E as <- <-. cbn. split; [|eauto]. intros rest X. cbn in X. injection X as <-. exists 1. right. left. auto.
    + destruct (ready (y_thread s)); injection E as <- <-; [|apply KEEP; auto]. cbn. split; [|eauto]. intros rest X. cbn in X. injection X as <-. exists 0. right. right. auto.
    + injection E as <- <-. split; [|cbn; auto]. intros rest X. discriminate X.
  - destruct (thread_frame s s' ev E) as (F1 & F2 & _). apply KEEP; auto.
  - injection E as <- <-. apply KEEP; destruct (y_thread s); auto.
  - injection E as <- <-. apply KEEP; auto.
  - unfold monitor_step in E. destruct (y_mon s); injection E as <- <-; apply KEEP; auto.
Qed.
Lemma halting_run : forall acts s s' ev, halting s -> run s acts = Ok (s', ev) ->
  halting s' /\ (forall rest, y_todo s = Some (CStop, rest) -> In (EReturned CStop) ev \/ exists rest', y_todo s' = Some (CStop, rest')).
Proof.
  induction acts as [|a acts IH]; intros s s' ev H R; cbn [rec_run] in R.
  - injection R as <- <-. eauto.
  - destruct (step s a) as [[s1 e1]|] eqn:S; [|discriminate]. cbn [bind fst snd] in R. destruct (run s1 acts) as [[s2 e2]|] eqn:X; [|discriminate].
    cbn [bind fst snd] in R. injection R as <- <-. destruct (halting_step s a s1 e1 H S) as [H1 K1]. destruct (IH s1 s2 e2 H1 X) as [H2 K2]. split; [exact H2|].
    intros rest T. destruct (K1 rest T) as [Y|[r Y]]; [left; apply in_or_app; auto|]. destruct (K2 r Y); [left; apply in_or_app; auto|auto].
Qed.
Lemma woken_returns : forall pre a b c s s' ev rest, halting s -> y_todo s = Some (CStop, rest) -> run s (pre ++ ASpurious :: a ++ b ++ c) = Ok (s', ev) ->
  1 <= steps a -> 6 <= turns b -> 2 <= steps c -> In (EReturned CStop) ev.
Proof.
  intros pre a b c s s' ev rest H T R A B C. rewrite run_app in R. destruct (run s pre) as [[s1 e1]|] eqn:R1; [|discriminate]. cbn [bind fst snd] in R.
  destruct (run s1 (ASpurious :: a ++ b ++ c)) as [[s2 e2]|] eqn:R2; [|discriminate]. cbn [bind fst snd] in R. injection R as <- <-.
  destruct (halting_run pre s s1 e1 H R1) as [H1 K1]. destruct (K1 rest T) as [Y|[r Y]]; [apply in_or_app; auto|]. cbn [rec_run rec_step bind fst snd] in R2.
  set (w := match y_thread s1 with Off => set_thread s1 Awake | Missed => set_thread s1 Given | _ => s1 end) in *.
  destruct (run w (a ++ b ++ c)) as [[s3 e3]|] eqn:R3; [|discriminate]. cbn [bind fst snd] in R2. injection R2 as <- <-.
  destruct (halting_step s1 ASpurious w [] H1 eq_refl) as [H2 K2]. destruct (K2 r Y) as [[]|[r' Y']]. destruct (H2 r' Y') as [k K].
  apply in_or_app. right. apply (stop_returns a b c w s3 e3 k); auto. unfold w. destruct (y_thread s1) eqn:TH; cbn; congruence.
Qed.
Lemma new_halting : forall fs b acts s log, run (rec_new fs b) acts = Ok (s, log) -> halting s.
Proof. intros fs b acts s log R. apply (halting_run acts (rec_new fs b) s log); [|exact R]. intros rest T. discriminate T. Qed.
End Proofs.
