From Coq Require Import List Bool Arith Lia.
From Verif Require Import Base_model Thread_model Thread_spec.
Import ListNotations.

Definition setting (c : cpc) : bool := match c with CBind _ | CAssign _ => true | _ => false end.
Definition dying (c : cpc) : bool := match c with DQuit | DLoop | DNotify | CGone => true | _ => false end.

(** Invariant, for the phase [p] the log is in. *)
Record tinv (s : tst) (p : tphase) : Prop := {
  i_log : phase (t_log s) = Some p;
  i_bad : t_w s <> WBad;
  i_exch : forall x, t_c s = CExch x -> t_assigned s = false;
  i_dying : dying (t_c s) = true -> t_assigned s = false;
  i_quit : t_quit s = true -> t_c s = DLoop \/ t_c s = DNotify \/ t_c s = CGone;
  i_set : forall x, t_c s = CBind x \/ t_c s = CAssign x -> p = Pending x /\ t_assigned s = false;
  i_assign : forall x, t_c s = CAssign x -> t_task s = Some x;
  i_we : t_w s = WEnd \/ t_w s = WDone -> t_quit s = true;
  i_done : t_done s = true <-> t_w s = WDone;
  i_gone : t_c s = CGone -> t_w s = WDone;
  i_free : p = Free -> (t_executed s = true /\ (t_assigned s = true -> t_w s = WSetAssigned)) \/
                       (t_w s = WSetExec /\ t_executed s = false /\ t_assigned s = true);
  i_pending : forall x, p = Pending x -> t_executed s = false /\
                (setting (t_c s) = false -> t_assigned s = true) /\ (t_assigned s = true -> t_task s = Some x);
  i_running : forall x, p = Running x <-> t_w s = WRunning x;
  i_run2 : forall x, t_w s = WRunning x -> t_executed s = false /\ t_assigned s = true;
  i_setexec : t_w s = WSetExec -> p = Free /\ t_executed s = false /\ t_assigned s = true;
  i_setass : t_w s = WSetAssigned -> p = Free /\ t_executed s = true /\ t_assigned s = true;
  i_wass : t_w s = WAssigned -> t_executed s = false;
  i_wtask : t_w s = WTask -> t_executed s = false /\ t_assigned s = true
}.

Lemma phase_snoc log e : phase (log ++ [e]) = phase_step (phase log) e.
Proof. unfold phase. now rewrite fold_left_app. Qed.

Lemma tinv_new : tinv t_new Free.
Proof.
  constructor; cbn; try tauto; try (intros; discriminate).
  - intros x [H|H]; discriminate.
  - intros [H|H]; discriminate.
  - split; discriminate.
  - left. split; [reflexivity|discriminate].
  - intros x; split; discriminate.
Qed.

Ltac unf := unfold set_w, set_c, put, set_executed, set_assigned, set_quit, set_done, set_task, notify in *;
            cbn [t_executed t_assigned t_quit t_done t_task t_w t_c t_log] in *.


Ltac fin := solve [assumption | discriminate | congruence | reflexivity | tauto | intuition congruence
                  | intros; intuition congruence | let x := fresh in intros x; repeat match goal with H : forall _ : nat, _ |- _ => specialize (H x) end; intuition congruence].

Lemma worker_inv s p : tinv s p -> exists p', tinv (worker_step s) p'.
Proof.
  intros [I1 I2 I3 I4 I5 I6 I7 I8 I9 I10 I11 I12 I13 I14 I15 I16 I17 I18].
  destruct s as [ex asg q dn task w c log]. unfold worker_step. unf.
  destruct w as [| | | |id| | | | | | |]; try congruence.
  - destruct q; exists p; constructor; unf; try fin.
  - destruct ex; exists p; constructor; unf; try fin.
  - destruct asg; exists p; constructor; unf; try fin.
  - assert (P : exists x, p = Pending x).
    { destruct I18 as [A B]; auto. destruct p as [|x|x]; [|eauto|].
      - destruct (I11 eq_refl) as [[X Y]|[X Y]]; congruence.
      - pose proof (proj1 (I13 x) eq_refl). congruence. }
    destruct P as [x ->]. destruct (I12 x eq_refl) as (A1 & A2 & A3). destruct I18 as [B1 B2]; auto. rewrite (A3 B2).
    exists (Running x). constructor; unf; try fin.
    + rewrite phase_snoc, I1. cbn. now rewrite Nat.eqb_refl.
  - assert (P : p = Running id) by now apply I13. subst p. exists Free. destruct (I14 id eq_refl) as [A B]. constructor; unf; try fin.
    + rewrite phase_snoc, I1. cbn. now rewrite Nat.eqb_refl.
  - destruct I15 as (-> & A & B); auto. exists Free. constructor; unf; try fin.
  - destruct I16 as (-> & A & B); auto. exists Free. constructor; unf; try fin.
  - exists p; constructor; unf; try fin.
  - exists p; constructor; unf; try fin.
  - exists p; constructor; unf; try fin.
  - exists p; constructor; unf; try fin.
Qed.

Lemma notify_inv s p : tinv s p -> tinv (notify s) p.
Proof.
  intros [I1 I2 I3 I4 I5 I6 I7 I8 I9 I10 I11 I12 I13 I14 I15 I16 I17 I18].
  destruct s as [ex asg q dn task w c log]. unf. destruct w as [| | | |id| | | | | | |]; constructor; unf; try fin.
Qed.

Lemma spurious_eq s : t_step s Spurious = notify s. Proof. reflexivity. Qed.

Lemma control_inv s p : tinv s p -> exists p', tinv (control_step s) p'.
Proof.
  intros I. unfold control_step. destruct (t_c s) as [|id|id|id|id| | | | |] eqn:Ec.
  - eauto.
  - destruct I as [I1 I2 I3 I4 I5 I6 I7 I8 I9 I10 I11 I12 I13 I14 I15 I16 I17 I18].
    destruct s as [ex asg q dn task w c log]. unf. subst c. pose proof (I3 id eq_refl) as Ha. subst asg. destruct ex.
    + assert (p = Free). { destruct p as [|x|x]; auto; [destruct (I12 x eq_refl); congruence|]. destruct (I14 x) as [F _]; [now apply I13|discriminate]. }
      subst p. exists (Pending id). constructor; unf; try fin.
      * rewrite phase_snoc, I1. reflexivity.
      * intros x H. injection H as ->. split; [reflexivity|]. split; [discriminate|discriminate].
    + exists p. constructor; unf; try fin. now rewrite phase_snoc, I1.
  - destruct I as [I1 I2 I3 I4 I5 I6 I7 I8 I9 I10 I11 I12 I13 I14 I15 I16 I17 I18].
    destruct s as [ex asg q dn task w c log]. unf. subst c. destruct (I6 id) as [-> ->]; auto.
    exists (Pending id). constructor; unf; try fin.
  - destruct I as [I1 I2 I3 I4 I5 I6 I7 I8 I9 I10 I11 I12 I13 I14 I15 I16 I17 I18].
    destruct s as [ex asg q dn task w c log]. unf. subst c. destruct (I6 id) as [-> ->]; auto. pose proof (I7 id eq_refl) as Ht.
    destruct (I12 id eq_refl) as (A & B & C). subst. exists (Pending id). constructor; unf; try fin.
  - apply notify_inv in I. exists p. assert (En : t_c (notify s) = CNotify id) by (unfold notify; destruct (t_w s); exact Ec).
    destruct (notify s) as [ex asg q dn task w c log].
    destruct I as [I1 I2 I3 I4 I5 I6 I7 I8 I9 I10 I11 I12 I13 I14 I15 I16 I17 I18]. unf. subst c. constructor; unf; try fin.
    now rewrite phase_snoc, I1.
  - destruct (t_assigned s) eqn:Ea; [eauto|]. exists p.
    destruct I as [I1 I2 I3 I4 I5 I6 I7 I8 I9 I10 I11 I12 I13 I14 I15 I16 I17 I18].
    destruct s as [ex asg q dn task w c log]. unf. subst c asg. constructor; unf; try fin.
  - exists p. destruct I as [I1 I2 I3 I4 I5 I6 I7 I8 I9 I10 I11 I12 I13 I14 I15 I16 I17 I18].
    destruct s as [ex asg q dn task w c log]. unf. subst c. constructor; unf; try fin.
  - exists p. destruct I as [I1 I2 I3 I4 I5 I6 I7 I8 I9 I10 I11 I12 I13 I14 I15 I16 I17 I18].
    destruct s as [ex asg q dn task w c log]. unf. subst c. destruct dn; constructor; unf; try fin.
  - exists p. apply notify_inv in I. assert (En : t_c (notify s) = DNotify) by (unfold notify; destruct (t_w s); exact Ec).
    destruct (notify s) as [ex asg q dn task w c log].
    destruct I as [I1 I2 I3 I4 I5 I6 I7 I8 I9 I10 I11 I12 I13 I14 I15 I16 I17 I18]. unf. subst c. constructor; unf; try fin.
  - eauto.
Qed.

Lemma begin_inv o s p : tinv s p -> exists p', tinv (begin_step o s) p'.
Proof.
  intros I. exists p. unfold begin_step. destruct (t_c s) eqn:Ec; try exact I.
  destruct I as [I1 I2 I3 I4 I5 I6 I7 I8 I9 I10 I11 I12 I13 I14 I15 I16 I17 I18].
  destruct s as [ex asg q dn task w c log]. unf. subst c. destruct o as [id| |].
  - destruct asg; constructor; unf; try fin. now rewrite phase_snoc, I1.
  - constructor; unf; try fin. now rewrite phase_snoc, I1.
  - constructor; unf; try fin.
Qed.

Lemma step_inv s p a : tinv s p -> exists p', tinv (t_step s a) p'.
Proof.
  destruct a as [| | |o]; cbn [t_step]; intros I.
  - now apply worker_inv in I.
  - exists p. now apply notify_inv in I.
  - now apply control_inv in I.
  - now apply begin_inv with (o := o) in I.
Qed.

Lemma run_inv_t l : exists p, tinv (t_run l) p.
Proof.
  unfold t_run. induction l as [|a l IH] using rev_ind; [exists Free; exact tinv_new|].
  destruct IH as [p I]. rewrite fold_left_app. cbn [fold_left]. now apply step_inv with (a := a) in I.
Qed.

Lemma count_snoc {A} (f : A -> bool) l e : length (filter f (l ++ [e])) = length (filter f l) + (if f e then 1 else 0).
Proof. rewrite filter_app, app_length. cbn. now destruct (f e). Qed.

Lemma phase_counts log : forall p, phase log = Some p -> forall id,
  accepted id log = started id log + (match p with Pending x => if x =? id then 1 else 0 | _ => 0 end) /\
  started id log = finished id log + (match p with Running x => if x =? id then 1 else 0 | _ => 0 end).
Proof.
  induction log as [|e log IH] using rev_ind; intros p H id.
  - injection H as <-. split; reflexivity.
  - rewrite phase_snoc in H. unfold accepted, started, finished. rewrite !count_snoc. fold (accepted id log) (started id log) (finished id log).
    destruct (phase log) as [q|] eqn:Q; [|destruct e; discriminate]. destruct (IH q eq_refl id) as [I1 I2].
    destruct e as [x|x b|x|x|b]; cbn [phase_step] in H; cbn match.
    + destruct q; try discriminate. injection H as <-. destruct (x =? id) eqn:E; lia.
    + injection H as <-. lia.
    + destruct q as [|y|y]; try discriminate. destruct (Nat.eqb_spec x y); [|discriminate]. injection H as <-. subst y. destruct (x =? id); lia.
    + destruct q as [|y|y]; try discriminate. destruct (Nat.eqb_spec x y); [|discriminate]. injection H as <-. subst y. destruct (x =? id); lia.
    + injection H as <-. lia.
Qed.

Lemma executed_free s p : tinv s p -> t_executed s = true -> p = Free.
Proof.
  intros I E. destruct p as [|x|x]; auto.
  - destruct (i_pending _ _ I x eq_refl). congruence.
  - destruct (i_run2 _ _ I x); [now apply (i_running _ _ I)|congruence].
Qed.

(** What a step appends to the log. *)
Lemma step_log s a : t_log (t_step s a) = t_log s \/ exists e, t_log (t_step s a) = t_log s ++ [e] /\ (e = EReady true -> t_executed s = true).
Proof.
  assert (N : t_log (notify s) = t_log s) by (unfold notify; now destruct (t_w s)).
  destruct a as [| | |o]; cbn [t_step].
  - unfold worker_step. destruct (t_w s) eqn:Ew; unf; try (left; reflexivity).
    + destruct (t_quit s); left; reflexivity.
    + destruct (t_executed s); left; reflexivity.
    + destruct (t_assigned s); left; reflexivity.
    + destruct (t_task s); [right; eexists; split; [reflexivity|discriminate]|left; reflexivity].
    + right. eexists; split; [reflexivity|discriminate].
  - left. destruct (t_w s); reflexivity.
  - unfold control_step. destruct (t_c s) eqn:Ec; try (left; reflexivity).
    + destruct (t_executed s); right; eexists; split; try reflexivity; discriminate.
    + right. exists (EReturn id true). split; [|discriminate]. unfold put, set_c. cbn [t_log]. now rewrite N.
    + left. destruct (t_assigned s); reflexivity.
    + left. destruct (t_done s); reflexivity.
    + left. unfold set_c. cbn [t_log]. exact N.
  - unfold begin_step. destruct (t_c s); try (left; reflexivity). destruct o.
    + destruct (t_assigned s); [right; eexists; split; [reflexivity|discriminate]|left; reflexivity].
    + right. eexists. split; [reflexivity|]. intros E. injection E as ->. reflexivity.
    + left. reflexivity.
Qed.

Lemma c35_ready l pre post : t_log (t_run l) = pre ++ EReady true :: post -> phase pre = Some Free.
Proof.
  revert post. induction l as [|a l IH] using rev_ind; intros post H.
  - destruct pre; discriminate.
  - unfold t_run in H. rewrite fold_left_app in H. cbn [fold_left] in H. fold (t_run l) in H.
    destruct (step_log (t_run l) a) as [E|(e & E & X)]; rewrite E in H; [now apply IH in H|].
    destruct post as [|z post] using rev_ind.
    + apply app_inj_tail in H as [H1 ->]. destruct (run_inv_t l) as [p I]. rewrite <- H1, (i_log _ _ I). f_equal. eapply executed_free; eauto.
    + clear IHpost. rewrite app_comm_cons, app_assoc in H. apply app_inj_tail in H as [H1 _]. now apply IH in H1.
Qed.

Lemma stuck_step log s a : a <> Spurious -> stuck log s -> stuck log (t_step s a).
Proof.
  intros Ha (H1 & H2 & H3 & H4 & more & H5 & H6). destruct s as [ex asg q dn task w c lg]. unf. subst.
  destruct a as [| | |o]; cbn [t_step]; [| congruence | |].
  - unfold stuck, worker_step. unf. eauto 10.
  - unfold control_step. unf. destruct H4 as [->| ->]; unfold stuck; unf; eauto 10.
  - unfold begin_step. unf. destruct H4 as [->| ->]; [|unfold stuck; unf; eauto 10].
    destruct o as [x| |]; unfold stuck; unf.
    + repeat split; auto. exists (more ++ [EReturn x false]). rewrite app_assoc. split; [reflexivity|]. apply Forall_app. split; auto. repeat constructor. eauto.
    + repeat split; auto. exists (more ++ [EReady false]). rewrite app_assoc. split; [reflexivity|]. apply Forall_app. split; auto.
    + repeat split; eauto.
Qed.

Lemma stuck_run log l : ~ In Spurious l -> forall s, stuck log s -> stuck log (fold_left t_step l s).
Proof.
  induction l as [|a l IH]; intros N s H; cbn [fold_left]; auto. apply IH; [intros X; apply N; now right|].
  apply stuck_step; auto. intros ->. apply N. now left.
Qed.

Lemma c35_runs l id : t_c (t_run l) = CIdle -> phase (t_log (t_run l)) = Some (Pending id) ->
  t_w (t_run l) <> WWait -> t_w (t_run l) <> WPreWait ->
  exists n, n <= 4 /\ t_log (t_run (l ++ repeat Worker n)) = t_log (t_run l) ++ [EStart id].
Proof.
  intros Hc Hp Hw Hw2. destruct (run_inv_t l) as [p I]. rewrite (i_log _ _ I) in Hp. injection Hp as ->.
  unfold t_run. setoid_rewrite fold_left_app. fold (t_run l). destruct (i_pending _ _ I id eq_refl) as (E1 & E2 & E3).
  pose proof (E2 ltac:(now rewrite Hc)) as Ea. pose proof (E3 Ea) as Et.
  assert (Hq : t_quit (t_run l) = false).
  { destruct (t_quit (t_run l)) eqn:Q; auto. pose proof (i_quit _ _ I Q). rewrite Hc in *. intuition discriminate. }
  pose proof (i_bad _ _ I) as Hb. pose proof (i_running _ _ I) as Hr. pose proof (i_setexec _ _ I) as Hse. pose proof (i_setass _ _ I) as Hsa.
  pose proof (i_we _ _ I) as Hwe.
  destruct (t_run l) as [ex asg q dn task w c lg]. unf. subst.
  destruct w as [| | | |x| | | | | | |]; try congruence.
  - exists 4. split; [lia|reflexivity].
  - exists 3. split; [lia|reflexivity].
  - exists 2. split; [lia|reflexivity].
  - exists 1. split; [lia|reflexivity].
  - pose proof (proj2 (Hr x) eq_refl). discriminate.
  - destruct (Hse eq_refl). discriminate.
  - destruct (Hsa eq_refl). discriminate.
  - discriminate Hwe. now left.
  - discriminate Hwe. now right.
Qed.
