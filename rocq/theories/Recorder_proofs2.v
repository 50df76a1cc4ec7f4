(** Proofs about the life of a recorder: the invariant holds in every history in order. *)
From Coq Require Import String ZArith List Bool Arith Lia.
From Verif Require Import Base_model File_model File_spec File_proofs Recorder_model Recorder_spec Recorder_proofs.
Import ListNotations.
Open Scope nat_scope.

Section Proofs.
Variable enc : codec -> list Z -> list Z.
Variable d : device.
Notation run := (rec_run enc d).
Notation step := (rec_step enc d).
Notation inv := (inv enc d).
Notation files_ok := (files_ok enc d).
Notation todo_ok := (todo_ok enc d).

Ltac app := rewrite ?current_app, ?running_app, ?configured_app, ?view_app, ?offered_app, ?taken_app, ?app_nil_r, ?orb_false_r.

(** Reports, offers and refused work. *)
Definition quiet (e : event) : Prop := match e with EIgnored | EOffer _ | ETotal _ | ESince _ => True | _ => False end.
Lemma quiet_app : forall ev log, Forall quiet ev -> current (log ++ ev) = current log /\ running (log ++ ev) = running log /\ configured (log ++ ev) = configured log /\
  view_of (log ++ ev) = view_of log /\ taken (log ++ ev) = taken log.
Proof.
  induction ev as [|e ev IH]; intros log Q.
  - rewrite app_nil_r. auto.
  - inversion Q as [|? ? Q1 Q2]; subst. destruct (IH (log ++ [e]) Q2) as (E1 & E2 & E3 & E4 & E5). rewrite <- app_assoc in *. cbn [List.app] in *.
    rewrite E1, E2, E3, E4, E5. app. destruct e; try contradiction; cbn; rewrite ?app_nil_r, ?orb_false_r; auto.
Qed.
Lemma todo_same : forall s s' log log', todo_ok s log -> y_todo s' = y_todo s -> y_disk s' = y_disk s -> y_fd s' = y_fd s -> y_thread s' = y_thread s ->
  running log' = running log -> configured log' = configured log -> view_of log' = view_of log -> todo_ok s' log'.
Proof. intros s s' log log' T E1 E2 E3 E4 E5 E6 E7. unfold Recorder_proofs.todo_ok in *. rewrite E1, E2, E3, E4, E5, E6, E7. exact T. Qed.

Lemma offer_inv : forall s log e, inv s log -> inv (set_queue s (y_queue s ++ [e])) (log ++ [EOffer e]).
Proof.
  intros s log e [C T F B Q]. destruct (quiet_app [EOffer e] log) as (E1 & E2 & E3 & E4 & E5); [repeat constructor|]. constructor.
  - now rewrite E1.
  - now apply (todo_same s _ log).
  - now rewrite E3.
  - now rewrite E3.
  - rewrite offered_app, E5, Q. cbn. now rewrite app_assoc.
Qed.
Lemma monitor_inv : forall s log, inv s log -> inv (fst (monitor_step s)) (log ++ snd (monitor_step s)).
Proof.
  intros s log [C T F B Q].
  assert (K : y_todo (fst (monitor_step s)) = y_todo s /\ y_disk (fst (monitor_step s)) = y_disk s /\ y_fd (fst (monitor_step s)) = y_fd s /\
    y_thread (fst (monitor_step s)) = y_thread s /\ y_queue (fst (monitor_step s)) = y_queue s /\ Forall quiet (snd (monitor_step s)) /\ offered (snd (monitor_step s)) = []).
  { unfold monitor_step. destruct (y_mon s); cbn; splits; auto; repeat constructor. }
  destruct K as (K1 & K2 & K3 & K4 & K5 & K6 & K7). destruct (quiet_app _ log K6) as (E1 & E2 & E3 & E4 & E5). constructor.
  - now rewrite E1, K1.
  - now apply (todo_same s _ log).
  - now rewrite E3, K3.
  - now rewrite E3, K4.
  - now rewrite offered_app, E5, K5, K7, app_nil_r.
Qed.
Lemma spurious_inv : forall s log, inv s log -> inv (match y_thread s with Off => set_thread s Awake | Missed => set_thread s Given | _ => s end) log.
Proof.
  intros s log I. destruct (y_thread s) eqn:T; try exact I; destruct I as [C TD F B Q]; (constructor; try assumption);
    try (unfold Recorder_proofs.todo_ok in *; cbn [set_thread y_todo y_disk y_fd y_thread]; rewrite T in TD; exact TD);
    cbn [set_thread y_thread]; rewrite T in B; exact B.
Qed.

Lemma thread_inv : forall s log, inv s log -> exists s' ev, thread_step d s = Ok (s', ev) /\ inv s' (log ++ ev).
Proof.
  intros s log I. pose proof I as [C T F B Q].
  assert (FD : ready (y_thread s) = false -> y_fd s = true) by auto.
  assert (R : ready (y_thread s) = true \/ files_ok (view_of log) (y_disk s) (mode_of (y_thread s))).
  { unfold Recorder_proofs.todo_ok in T. destruct (y_todo s) as [[[g a b| | |] rest]|]; try (left; tauto); try (right; tauto).
    destruct T as (_ & _ & [(j & _ & _ & R & _)|[_ T]]); auto. }
  destruct (ready (y_thread s)) eqn:RD.
  - (* nothing to do for the writer *)
    assert (exists s', thread_step d s = Ok (s', []) /\ y_todo s' = y_todo s /\ y_fd s' = y_fd s /\ y_disk s' = y_disk s /\ y_queue s' = y_queue s /\ ready (y_thread s') = true).
    { unfold thread_step. destruct (y_thread s) eqn:TH; try discriminate RD; eexists; (split; [reflexivity|]); cbn; rewrite ?TH; auto. }
    destruct H as (s' & E & E1 & E2 & E3 & E4 & E5). exists s', []. split; [exact E|]. rewrite app_nil_r. constructor; try congruence; try (intros X; rewrite E2; now apply F).
    + unfold Recorder_proofs.todo_ok in *. rewrite E1, E2, E3, ?(mode_ready _ E5), E5. rewrite ?(mode_ready _ RD), RD in T. exact T.
  - destruct R as [R|R]; [discriminate|]. destruct (thread_files enc d s (view_of log) R ltac:(auto)) as (s' & ev & E & E1 & E2 & _ & _ & E3 & _ & E4).
    exists s', ev. split; [exact E|].
    assert (K : current (log ++ ev) = current log /\ running (log ++ ev) = running log /\ configured (log ++ ev) = configured log /\ offered (log ++ ev) = taken (log ++ ev) ++ y_queue s').
    { app. rewrite Q. destruct E4 as [[-> EQ]|[[-> EQ]|(e & -> & EQ)]]; cbn; rewrite ?app_nil_r, ?EQ; splits; auto using orb_false_r. now rewrite <- app_assoc. }
    destruct K as (K1 & K2 & K3 & K4). constructor; auto.
    + now rewrite K1, E1.
    + specialize (B eq_refl). unfold Recorder_proofs.todo_ok in *. rewrite K2, E1, E2, view_app. destruct (y_todo s) as [[[g a b| | |] rest]|].
      * destruct T; congruence.
      * rewrite K3. destruct T as (T1 & T2 & T3). split; [exact T1|]. split; [exact T2|]. destruct T3 as [(j & _ & _ & X & _)|[X _]]; [congruence|]. right. auto.
      * destruct T as (T1 & T2 & T3). split; [exact E3|]. split; [|intros X; apply T3 in X; congruence]. destruct T2 as [X|[X|[_ X]]]; auto. congruence.
      * destruct T; congruence.
      * destruct T as (T1 & T2). split; [exact E3|]. intros X; apply T2 in X; congruence.
    + rewrite K3, E2. exact F.
    + rewrite K3. auto.
Qed.

Lemma issue_inv : forall s log c, inv s log -> current log = None -> allowed log c -> inv (set_todo s (Some (c, program c))) (log ++ [ECommand c]).
Proof.
  intros s log c [C T F B Q] N A.
  assert (TN : y_todo s = None) by (rewrite N in C; destruct (y_todo s); [discriminate|reflexivity]). unfold Recorder_proofs.todo_ok in T. rewrite TN in T.
  destruct T as [T1 T2]. constructor.
  - app. reflexivity.
  - unfold Recorder_proofs.todo_ok. cbn [set_todo y_todo y_thread y_disk y_fd]. app. destruct A as [_ A]. destruct c as [g a b| | |]; cbn [running_from fold_left].
    + specialize (T2 A). rewrite (mode_ready _ T2) in T1. splits; auto.
    + destruct A as [A1 A2]. specialize (T2 A1). rewrite (mode_ready _ T2) in T1. split; [exact A1|]. split; [now rewrite A2|]. left. exists 0. splits; auto.
      now apply files_begin_run.
    + splits; auto.
    + specialize (T2 A). rewrite (mode_ready _ T2) in T1. splits; auto. left. exists 0. splits; auto.
  - app. intros X. apply F. now destruct c.
  - app. intros X. rewrite (B X). reflexivity.
  - app. cbn. rewrite ?app_nil_r. exact Q.
Qed.

Lemma command_inv : forall s log, inv s log -> exists s' ev, command_step enc d s = Ok (s', ev) /\ inv s' (log ++ ev) /\
  (forall c, In (EThrew c) ev -> exists g a b, c = CConf g a b).
Proof.
  intros s log I. pose proof I as [C T F B Q]. unfold command_step. unfold Recorder_proofs.todo_ok in T. destruct (y_todo s) as [[c rest]|] eqn:TD.
  2:{ exists s, []. rewrite app_nil_r. split; [reflexivity|]. split; [exact I|]. intros c []. }
  assert (SAME : exists s' ev, Ok (s, []) = Ok (s', ev) /\ inv s' (log ++ ev) /\ (forall c, In (EThrew c) ev -> exists g a b, c = CConf g a b)).
  { exists s, []. rewrite app_nil_r. split; [reflexivity|]. split; [exact I|]. intros c' []. }
  assert (NT : forall s0, exists s' ev, Ok (s0, @nil event) = Ok (s', ev) /\ s' = s0 /\ ev = []) by (intros; eauto).
  destruct c as [g a b| | |].
  - destruct T as (T1 & T2 & [(-> & T3)|[(-> & k0 & T3 & T4)|(-> & T3 & T4)]]).
    + cbn [program mop_step]. eexists _, _. split; [reflexivity|]. split; [|intros c []]. constructor; cbn [set_todo set_disk y_todo y_disk y_fd y_thread y_queue]; app; auto; try (intros X; congruence); try (cbn; rewrite ?T2, ?app_nil_r, ?orb_false_r; solve [auto|discriminate]).
      unfold Recorder_proofs.todo_ok. cbn [set_todo set_disk set_fd set_total set_marker set_thread y_todo y_disk y_thread y_fd]. splits; auto. right. left. split; [reflexivity|]. eauto.
    + cbn [mop_step]. rewrite T1. pose proof (files_conf enc d (view_of log) k0 g a b T3) as FC. cbn zeta in FC. rewrite <- T4 in FC.
      destruct (fst (opened enc d g b (y_disk s))) eqn:O.
      * eexists _, _. split; [reflexivity|]. split; [|intros c []]. constructor; cbn [set_todo set_disk set_fd y_todo y_disk y_fd y_thread y_queue]; app; auto; try (intros X; congruence); try (cbn; rewrite ?T2, ?app_nil_r, ?orb_false_r; solve [auto|discriminate]).
        unfold Recorder_proofs.todo_ok. cbn [set_todo set_disk set_fd set_total set_marker set_thread y_todo y_disk y_thread y_fd]. splits; auto.
      * eexists _, _. split; [reflexivity|]. split; [|intros c [E|[]]; injection E as <-; eauto]. constructor; cbn [set_todo set_disk set_fd y_todo y_disk y_fd y_thread y_queue]; app; auto; try (intros X; congruence); try (cbn; rewrite ?T2, ?app_nil_r, ?orb_false_r; solve [auto|discriminate]).
        unfold Recorder_proofs.todo_ok. cbn [set_todo set_disk set_fd set_total set_marker set_thread y_todo y_disk y_thread y_fd]. app. cbn [fold_left]. rewrite (mode_ready _ T1). split; auto.
    + eexists _, _. split; [reflexivity|]. split; [|intros c [E|[]]; discriminate]. constructor; cbn [set_todo y_todo y_disk y_fd y_thread y_queue]; app; auto; try (intros X; congruence); try (cbn; rewrite ?T2, ?app_nil_r, ?orb_false_r; solve [auto|discriminate]).
      unfold Recorder_proofs.todo_ok. cbn [set_todo set_disk set_fd set_total set_marker set_thread y_todo y_disk y_thread y_fd]. app. cbn [fold_left]. rewrite (mode_ready _ T1). split; auto.
  - destruct T as (T1 & T2 & [(j & E & J & T3 & T4)|(-> & T3)]).
    + assert (J3 : j = 0 \/ j = 1 \/ j = 2) by lia. destruct J3 as [-> |[-> | ->]]; cbn [skipn program] in E; subst rest; cbn [mop_step].
      * eexists _, _. split; [reflexivity|]. split; [|intros c []]. constructor; cbn [set_todo set_total y_todo y_disk y_fd y_thread y_queue]; app; auto; try (intros X; congruence); try (cbn; rewrite ?T2, ?app_nil_r, ?orb_false_r; solve [auto|discriminate]).
        unfold Recorder_proofs.todo_ok. cbn [set_todo set_disk set_fd set_total set_marker set_thread y_todo y_disk y_thread y_fd]. splits; auto. left. exists 1. auto.
      * eexists _, _. split; [reflexivity|]. split; [|intros c []]. constructor; cbn [set_todo set_marker y_todo y_disk y_fd y_thread y_queue]; app; auto; try (intros X; congruence); try (cbn; rewrite ?T2, ?app_nil_r, ?orb_false_r; solve [auto|discriminate]).
        unfold Recorder_proofs.todo_ok. cbn [set_todo set_disk set_fd set_total set_marker set_thread y_todo y_disk y_thread y_fd]. splits; auto. left. exists 2. auto.
      * assert (G : forall w, mode_of w = Fresh -> inv (set_todo (set_thread s w) (Some (CStart, []))) (log ++ [])).
        { intros w W. constructor; cbn [set_todo set_thread y_todo y_disk y_fd y_thread y_queue]; app; auto; try (intros X; congruence); try (cbn; rewrite ?T2, ?app_nil_r, ?orb_false_r; solve [auto|discriminate]).
          unfold Recorder_proofs.todo_ok. cbn [set_todo set_disk set_fd set_total set_marker set_thread y_todo y_disk y_thread y_fd]. splits; auto. right. split; [reflexivity|]. now rewrite W. }
        destruct (y_thread s) eqn:TH; try discriminate T3; try (eexists _, _; (split; [reflexivity|]); split; [now apply G|intros c []]).
        eexists _, _. split; [reflexivity|]. split; [|intros c [E|[]]; discriminate].
        destruct (quiet_app [EIgnored] log) as (E1 & E2 & E3 & E4 & E5); [repeat constructor|]. constructor.
        -- now rewrite E1.
        -- unfold Recorder_proofs.todo_ok. cbn [set_todo y_todo y_disk y_thread y_fd]. rewrite E2, E3, E4, TH. splits; auto. right. split; [reflexivity|].
           apply (files_mode _ _ _ _ _ _ T4), fresh_idle.
        -- now rewrite E3.
        -- now rewrite E3.
        -- app. cbn. rewrite ?app_nil_r. exact Q.
    + eexists _, _. split; [reflexivity|]. split; [|intros c [E|[]]; discriminate]. constructor; cbn [set_todo y_todo y_disk y_fd y_thread y_queue]; app; auto; try (intros X; congruence); try (cbn; rewrite ?T2, ?app_nil_r, ?orb_false_r; solve [auto|discriminate]).
      unfold Recorder_proofs.todo_ok. cbn [set_todo set_disk set_fd set_total set_marker set_thread y_todo y_disk y_thread y_fd]. app. cbn [fold_left running_from view_step]. split; [exact T3|discriminate].
  - destruct T as (T1 & [-> |[-> |[-> T2]]] & T3).
    + cbn [program mop_step]. eexists _, _. split; [reflexivity|]. split; [|intros c []]. constructor; cbn [set_todo set_marker y_todo y_disk y_fd y_thread y_queue]; app; auto; try (intros X; congruence); try (cbn; rewrite ?T2, ?app_nil_r, ?orb_false_r; solve [auto|discriminate]).
    + cbn [mop_step]. destruct (ready (y_thread s)) eqn:R; [|exact SAME]. eexists _, _. split; [reflexivity|]. split; [|intros c []].
      constructor; cbn [set_todo y_todo y_disk y_fd y_thread y_queue]; app; auto; try (intros X; congruence); try (cbn; rewrite ?T2, ?app_nil_r, ?orb_false_r; solve [auto|discriminate]).
      unfold Recorder_proofs.todo_ok. cbn [set_todo set_disk set_fd set_total set_marker set_thread y_todo y_disk y_thread y_fd]. splits; auto.
    + eexists _, _. split; [reflexivity|]. split; [|intros c [E|[]]; discriminate]. constructor; cbn [set_todo y_todo y_disk y_fd y_thread y_queue]; app; auto; try (intros X; congruence); try (cbn; rewrite ?T2, ?app_nil_r, ?orb_false_r; solve [auto|discriminate]).
      unfold Recorder_proofs.todo_ok. cbn [set_todo set_disk set_fd set_total set_marker set_thread y_todo y_disk y_thread y_fd]. app. cbn [fold_left running_from view_step]. auto.
  - destruct T as (T1 & T2 & [(j & E & J & T3)|(-> & T3)]).
    + assert (J3 : j = 0 \/ j = 1) by lia. destruct J3 as [-> | ->]; cbn [skipn program] in E; subst rest; cbn [mop_step].
      * assert (G : exists s' ev, Ok (set_todo s (Some (CDestroy, [MClose])), []) = Ok (s', ev) /\ inv s' (log ++ ev) /\ (forall c, In (EThrew c) ev -> exists g a b, c = CConf g a b)).
        { eexists _, _. split; [reflexivity|]. split; [|intros c []]. constructor; cbn [set_todo y_todo y_disk y_fd y_thread y_queue]; app; auto; try (intros X; congruence); try (cbn; rewrite ?T2, ?app_nil_r, ?orb_false_r; solve [auto|discriminate]).
          unfold Recorder_proofs.todo_ok. cbn [set_todo set_disk set_fd set_total set_marker set_thread y_todo y_disk y_thread y_fd]. splits; auto. left. exists 1. auto. }
        destruct (y_thread s) eqn:TH; try exact SAME; exact G.
      * eexists _, _. split; [reflexivity|]. split; [|intros c []]. constructor; cbn [set_todo set_disk y_todo y_disk y_fd y_thread y_queue]; app; auto; try (intros X; congruence); try (cbn; rewrite ?T2, ?app_nil_r, ?orb_false_r; solve [auto|discriminate]).
        unfold Recorder_proofs.todo_ok. cbn [set_todo set_disk set_fd set_total set_marker set_thread y_todo y_disk y_thread y_fd]. splits; auto. right. split; [reflexivity|]. now apply files_destroyed.
    + eexists _, _. split; [reflexivity|]. split; [|intros c [E|[]]; discriminate]. constructor; cbn [set_todo y_todo y_disk y_fd y_thread y_queue]; app; auto; try (intros X; congruence); try (cbn; rewrite ?T2, ?app_nil_r, ?orb_false_r; solve [auto|discriminate]).
      unfold Recorder_proofs.todo_ok. cbn [set_todo set_disk set_fd set_total set_marker set_thread y_todo y_disk y_thread y_fd]. app. cbn [fold_left]. rewrite (mode_ready _ T1). split; auto.
Qed.

Lemma step_inv : forall s log a, inv s log -> (forall c, a = ACommand c -> current log = None /\ allowed log c) ->
  exists s' ev, step s a = Ok (s', ev) /\ inv s' (log ++ ev) /\ (forall c, In (EThrew c) ev -> exists g a b, c = CConf g a b).
Proof.
  intros s log a I A. destruct a as [c| | | |e|]; cbn [rec_step].
  - destruct (A c eq_refl) as [A1 A2]. pose proof I as [C _ _ _ _]. rewrite A1 in C. destruct (y_todo s) eqn:T; [discriminate|]. eexists _, _. split; [reflexivity|].
    split; [now apply issue_inv|]. intros c' [E|[]]. discriminate.
  - apply command_inv, I.
  - destruct (thread_inv s log I) as (s' & ev & E & I'). exists s', ev. split; [exact E|]. split; [exact I'|]. intros c H. exfalso. revert E H. clear. unfold thread_step.
    destruct (y_thread s); try (intros E; injection E as <- <-; intros []).
    + destruct (y_queue s); intros E; injection E as <- <-; [intros []|intros [H|[]]; discriminate].
    + destruct (fst (writes _ _ _)); intros E; injection E as <- <-; [intros []|intros [H|[]]; discriminate].
    + destruct (y_fd s); [|discriminate]. intros E; injection E as <- <-; intros [].
  - eexists _, _. split; [reflexivity|]. rewrite app_nil_r. split; [now apply spurious_inv|]. intros c [].
  - eexists _, _. split; [reflexivity|]. split; [now apply offer_inv|]. intros c [E|[]]. discriminate.
  - exists (fst (monitor_step s)), (snd (monitor_step s)). split; [now destruct (monitor_step s)|]. split; [now apply monitor_inv|]. intros c H. exfalso. revert H. unfold monitor_step.
    destruct (y_mon s); cbn; intuition discriminate.
Qed.

Lemma new_inv : forall fs b, inv (rec_new fs b) [].
Proof.
  intros fs b. constructor; cbn; auto; try discriminate. unfold Recorder_proofs.todo_ok. cbn. split; [|auto]. split; [cbn; auto|]. intros p q E. discriminate.
Qed.

Lemma orderly_prefix : forall s0 a b, orderly enc d s0 (a ++ b) -> orderly enc d s0 a.
Proof. intros s0 a b O before c after s log E R. apply (O before c (after ++ b) s log); [|exact R]. subst a. now rewrite <- app_assoc. Qed.

Theorem run_inv : forall fs b acts, orderly enc d (rec_new fs b) acts -> exists s log, run (rec_new fs b) acts = Ok (s, log) /\ inv s log /\
  (forall c, In (EThrew c) log -> exists g a b, c = CConf g a b).
Proof.
  intros fs b acts. induction acts as [|a acts IH] using rev_ind; intros O.
  - exists (rec_new fs b), []. split; [reflexivity|]. split; [apply new_inv|]. intros c [].
  - destruct (IH (orderly_prefix _ _ _ O)) as (s & log & R & I & N). destruct (step_inv s log a I) as (s' & ev & E & I' & N').
    + intros c ->. apply (O acts c [] s log); auto.
    + exists s', (log ++ ev). rewrite run_app, R. cbn [bind fst snd rec_run]. rewrite E. cbn [bind fst snd]. rewrite app_nil_r. split; [reflexivity|]. split; [exact I'|].
      intros c H. apply in_app_or in H as [H|H]; auto.
Qed.
End Proofs.
