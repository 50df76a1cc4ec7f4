(** Property C35: the reusable thread, under every interleaving of one controlling thread and the worker. *)
From Coq Require Import List Bool Arith Lia.
From Verif Require Import Base_model Thread_model Thread_spec Thread_proofs.
Import ListNotations.

(** C35. The history is one task at a time: a task is accepted only when the previous one finished, then started once,
    then finished; so each task is started at most as often as it was accepted. *)
Theorem C35_one_task_at_a_time : forall l, exists p, phase (t_log (t_run l)) = Some p /\
  forall id, started id (t_log (t_run l)) <= accepted id (t_log (t_run l)) /\ finished id (t_log (t_run l)) <= started id (t_log (t_run l)).
Proof.
  intros l. destruct (run_inv_t l) as [p I]. exists p. split; [exact (i_log _ _ I)|]. intros id.
  destruct (phase_counts _ _ (i_log _ _ I) id). lia.
Qed.
Print Assumptions C35_one_task_at_a_time.
Notation set_now id := ([Begin (OpSet id)] ++ repeat Control 4).
Example C35_one_task_ex :
  t_log (t_run (set_now 7 ++ repeat Worker 7 ++ [Begin OpReady] ++ set_now 8 ++ [Worker])) =
  [EAccept 7; EReturn 7 true; EStart 7; EFinish 7; EReady true; EAccept 8; EReturn 8 true].
Proof. vm_compute. reflexivity. Qed.

(** C35. When get_readiness returns true, every task accepted so far has finished. *)
Theorem C35_ready_means_finished : forall l pre post, t_log (t_run l) = pre ++ EReady true :: post -> phase pre = Some Free.
Proof. exact c35_ready. Qed.
Print Assumptions C35_ready_means_finished.
Example C35_ready_ex : t_log (t_run ([Begin OpReady] ++ set_now 3 ++ [Begin OpReady] ++ repeat Worker 6 ++ [Begin OpReady])) =
  [EReady true; EAccept 3; EReturn 3 true; EReady false; EStart 3; EFinish 3; EReady true].
Proof. vm_compute. reflexivity. Qed.

(** C35. The worker never reads the task object while the controlling thread may write it, and never calls an empty
    one: an accepted task is not overwritten before it ran. *)
Theorem C35_no_task_race : forall l, t_w (t_run l) <> WBad /\
  forall id, ~ (t_c (t_run l) = CBind id /\ (t_w (t_run l) = WTask \/ exists x, t_w (t_run l) = WRunning x)).
Proof.
  intros l. destruct (run_inv_t l) as [p I]. split; [exact (i_bad _ _ I)|]. intros id [H [W|[x W]]].
  - destruct (i_wtask _ _ I W) as [_ A]. destruct (i_set _ _ I id (or_introl H)) as [_ B]. congruence.
  - destruct (i_run2 _ _ I x W) as [_ A]. destruct (i_set _ _ I id (or_introl H)) as [_ B]. congruence.
Qed.
Print Assumptions C35_no_task_race.
Example C35_no_task_race_ex : t_w (t_run (set_now 7 ++ repeat Worker 3)) = WTask /\ t_c (t_run ([Begin (OpSet 7)] ++ repeat Control 1)) = CBind 7.
Proof. split; vm_compute; reflexivity. Qed.

(** C35. An accepted task is started by the worker's next steps unless the worker is waiting or was about to wait. *)
Theorem C35_accepted_task_runs : forall l id, t_c (t_run l) = CIdle -> phase (t_log (t_run l)) = Some (Pending id) ->
  t_w (t_run l) <> WWait -> t_w (t_run l) <> WPreWait ->
  exists n, n <= 4 /\ t_log (t_run (l ++ repeat Worker n)) = t_log (t_run l) ++ [EStart id].
Proof. exact c35_runs. Qed.
Print Assumptions C35_accepted_task_runs.
(** In particular after the worker was waiting when set_work notified it. *)
Example C35_accepted_task_runs_ex : let l := repeat Worker 3 ++ set_now 5 in
  t_w (t_run (repeat Worker 3)) = WWait /\ t_w (t_run l) = WQuit /\ phase (t_log (t_run l)) = Some (Pending 5).
Proof. vm_compute. auto. Qed.

(** C35. Lost wake-up: there is an execution in which set_work returned true and from then on, whatever the threads do,
    the task is not started, readiness is never reported, every further task is refused and the destructor never
    gets past its first loop - unless the condition variable wakes up spuriously. *)
Theorem C35_lost_wakeup_refuted : exists l id log, t_log (t_run l) = log /\ In (EReturn id true) log /\ phase log = Some (Pending id) /\
  forall l', ~ In Spurious l' -> stuck log (t_run (l ++ l')).
Proof.
  exists ([Worker; Worker] ++ set_now 1 ++ [Worker]), 1, [EAccept 1; EReturn 1 true].
  split; [vm_compute; reflexivity|]. split; [cbn; auto|]. split; [reflexivity|]. intros l' N. unfold t_run. rewrite fold_left_app.
  apply stuck_run; auto. unfold stuck. vm_compute. repeat split; auto. exists []. auto.
Qed.
Print Assumptions C35_lost_wakeup_refuted.

(** C35. Readiness does not mean that the next set_work is accepted: between the two flag updates of the worker a new
    task is refused (callers in the code ignore the result). *)
Theorem C35_refused_although_ready_refuted : exists l id, t_log (t_run l) =
  [EAccept 0; EReturn 0 true; EStart 0; EFinish 0; EReady true; EReturn id false].
Proof. exists (set_now 0 ++ repeat Worker 6 ++ [Begin OpReady; Begin (OpSet 1)]), 1. vm_compute. reflexivity. Qed.
Print Assumptions C35_refused_although_ready_refuted.

(** C35. Once the worker has reset both flags a new task is accepted. *)
Theorem C35_idle_accepts : forall l id, t_c (t_run l) = CIdle -> t_assigned (t_run l) = false ->
  t_log (t_run (l ++ set_now id)) = t_log (t_run l) ++ [EAccept id; EReturn id true].
Proof.
  intros l id Hc Ha. destruct (run_inv_t l) as [p I]. unfold t_run. rewrite fold_left_app. fold (t_run l).
  assert (E : t_executed (t_run l) = true).
  { destruct p as [|x|x].
    - destruct (i_free _ _ I eq_refl) as [[E _]|(_ & _ & B)]; [exact E|congruence].
    - destruct (i_pending _ _ I x eq_refl) as (_ & B & _). rewrite Hc in B. specialize (B eq_refl). congruence.
    - destruct (i_run2 _ _ I x); [now apply (i_running _ _ I)|congruence]. }
  destruct (t_run l) as [ex asg q dn task w c lg]. cbn [t_c t_assigned t_executed] in *. subst.
  destruct w; cbn; rewrite <- app_assoc; reflexivity.
Qed.
Print Assumptions C35_idle_accepts.
Example C35_idle_accepts_ex : t_assigned (t_run (set_now 0 ++ repeat Worker 7)) = false /\ t_c (t_run (set_now 0 ++ repeat Worker 7)) = CIdle.
Proof. split; vm_compute; reflexivity. Qed.

(** C35. When the destructor has returned, the worker has ended and every accepted task has finished. *)
Theorem C35_destroyed_means_finished : forall l, t_c (t_run l) = CGone ->
  t_w (t_run l) = WDone /\ phase (t_log (t_run l)) = Some Free.
Proof.
  intros l H. destruct (run_inv_t l) as [p I]. pose proof (i_gone _ _ I H) as W. split; [exact W|]. rewrite (i_log _ _ I). f_equal.
  assert (A : t_assigned (t_run l) = false) by (apply (i_dying _ _ I); now rewrite H).
  destruct p as [|x|x]; auto.
  - destruct (i_pending _ _ I x eq_refl) as (_ & B & _). rewrite H in B. specialize (B eq_refl). congruence.
  - pose proof (proj1 (i_running _ _ I x) eq_refl). congruence.
Qed.
Print Assumptions C35_destroyed_means_finished.
Example C35_destroyed_ex : t_c (t_run (set_now 0 ++ repeat Worker 7 ++ [Begin OpDestroy; Control; Control] ++ repeat Worker 2 ++ [Control; Control])) = CGone.
Proof. vm_compute. reflexivity. Qed.
