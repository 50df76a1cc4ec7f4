(** Proofs about Life_model.v: the steps of the command thread keep the invariant; orderly schedules never crash. *)
From Coq Require Import List Bool Arith Lia.
From Verif Require Import Base_model Life_model Life_spec Life_proofs.
Import ListNotations.
Open Scope nat_scope.

Lemma program_tasks : forall s s' c, f_tasks s' = f_tasks s -> program s' c = program s c.
Proof. intros s s' [] E; unfold program, posts; rewrite ?E; reflexivity. Qed.

Lemma start_ops : forall s ok m, In m (program s (CStart ok)) ->
  m = MMarker true \/ m = MPMarker true \/ (exists t, m = MWork t /\ t <> Recording /\ valid s t) \/ m = MPool \/ m = MHMarker true \/ m = MSpawn \/ m = MParse ok.
Proof.
  intros s ok m H. pose proof H as H0. unfold program in H. rewrite !in_app_iff in H. destruct H as [H|[H|H]].
  - simpl in H. intuition.
  - apply in_map_iff in H. destruct H as (t & <- & H). do 2 right. left. exists t. split; [reflexivity|]. eapply start_in_work. exact H0.
  - simpl in H. repeat destruct H as [<-|H]; try tauto; do 2 right; left; eexists; (split; [reflexivity|]); eapply start_in_work; exact H0.
Qed.
Lemma stop_ops : forall s m, In m (program s CStop) ->
  m = MMarker false \/ m = MHMarker false \/ (exists t, m = MWait t /\ valid s t) \/ m = MJoinWaiting \/ m = MJoinPool \/ m = MFlush \/ m = MPMarker false.
Proof.
  intros s m H. pose proof H as H0. unfold program in H. rewrite in_app_iff in H. destruct H as [H|H].
  - simpl in H. repeat destruct H as [<-|H]; try tauto; do 2 right; left; eexists; (split; [reflexivity|]); apply stop_in_wait; exact H0.
  - apply in_map_iff in H. destruct H as (t & <- & H). do 2 right. left. exists t. split; [reflexivity|]. apply stop_in_wait. exact H0.
Qed.

Lemma destroy_ops : forall s m, In m (program s CDestroy) -> (exists t, m = MGone t) \/ m = MDropWaiting.
Proof.
  intros s m H. unfold program in H. rewrite !in_app_iff in H. destruct H as [H|[H|H]].
  - simpl in H. repeat destruct H as [<-|H]; eauto. contradiction.
  - apply in_map_iff in H. destruct H as (t & <- & _). eauto.
  - simpl in H. destruct H as [<-|[]]. eauto.
Qed.

(** Events that leave the reading of the log alone. *)
Definition silent (ev : list event) : Prop := forall e, In e ev -> match e with EError => True | EIgnored _ => True | _ => False end.
Lemma silent_log : forall log ev, silent ev -> running (log ++ ev) = running log /\ busy (log ++ ev) = busy log /\ buffer (log ++ ev) = buffer log /\ recording (log ++ ev) = recording log.
Proof.
  intros log ev H. rewrite running_app, busy_app, buffer_app, recording_app.
  generalize (running log) (busy log) (buffer log) (recording log). induction ev as [|e ev IH]; intros a b c d; [auto|].
  assert (silent ev) as HS by (intros x Hx; apply H; right; exact Hx). pose proof (H e ltac:(left; reflexivity)) as E.
  destruct e; try contradiction; simpl; apply IH; exact HS.
Qed.

(** A step of start. *)
Lemma start_inv : forall s log ok m rest s' ev, inv s log -> f_todo s = Some (CStart ok, m :: rest) -> mop_step s m = Done s' ev ->
  inv (set_todo s' (Some (CStart ok, rest))) (log ++ ev).
Proof.
  intros s log ok m rest s' ev I T M. pose proof I as I0. destruct I.
  destruct (v_prog _ _ T) as [S|(c' & X & _)]; [|discriminate X].
  assert (NoDup (m :: rest)) as ND by (eapply suffix_nodup; [exact S|apply program_nodup]). apply NoDup_cons_iff in ND. destruct ND as [NI _].
  pose proof (suffix_in m _ _ S ltac:(left; reflexivity)) as IM.
  assert (f_mem s = true) as FM by (apply v_mem; unfold in_run; rewrite T; exact Logic.I).
  assert (f_conf s = true) as FC by (apply v_conf; unfold in_run; rewrite T; exact Logic.I).
  assert (silent ev /\ f_tasks s' = f_tasks s /\ f_mem s' = f_mem s /\ f_conf s' = f_conf s) as (SE & ET & EM & EC).
  { destruct (start_ops _ _ _ IM) as [->|[->|[(t & -> & _)|[->|[->|[->| ->]]]]]]; simpl in M.
    - rewrite FC in M. injection M as <- <-; split; [intros e []|repeat split].
    - injection M as <- <-; split; [intros e []|repeat split].
    - destruct (f_thread s t); injection M as <- <-; (split; [intros e He; simpl in He; intuition (subst; auto)|repeat split]).
    - injection M as <- <-; split; [intros e []|repeat split].
    - injection M as <- <-; split; [intros e []|repeat split].
    - destruct (f_wait s); [discriminate|]. injection M as <- <-; split; [intros e []|repeat split].
    - destruct ok; [|discriminate]. injection M as <- <-; split; [intros e []|repeat split]. }
  destruct (silent_log log ev SE) as (R & B & F & C).
  assert (forall p q, live (set_todo s' (Some (CStart ok, rest))) (log ++ ev) p q <-> p = m \/ live s log p q) as LV.
  { intros p q. unfold live. simpl. rewrite T. split.
    - intros H. destruct (in_dec (fun a b : mop => ltac:(repeat decide equality) : {a = b} + {a <> b}) p (m :: rest)) as [D|D]; [|right; exact D].
      destruct D as [D|D]; [left; auto|contradiction].
    - intros [->|H]; [exact NI|]. intros D. apply H. right. exact D. }
  assert (match f_todo s with Some (CStart _, l) => ~ In MPool l | Some (CStop, _) => True | _ => running log = true end <-> ~ In MPool (m :: rest)) as PE by (rewrite T; tauto).
  assert (recording log = recording (log ++ ev)) as C' by auto.
  assert (forall p q, p <> m -> live s log p q <-> (p = m \/ live s log p q)) as NE by (intros; tauto).
  assert (live s log m m -> False) as NL by (unfold live; rewrite T; intros X; apply X; left; reflexivity).
  assert (busy (log ++ ev) = true) as BT by (rewrite B, v_busy, T; reflexivity).
  assert (running (log ++ ev) = false) as RF by (rewrite R; apply (v_mode _ _ T)).
  assert (suffix rest (program s' (CStart ok))) as SF by (rewrite (program_tasks s s') by exact ET; eapply suffix_cons; exact S).
  assert (forall t, ~ valid s' t <-> ~ valid s t) as VE by (intros t; unfold valid; rewrite ET; tauto).
  assert (buffer log = true) as BU by (rewrite T in v_buffer2; auto).
  assert (~ In MPool rest -> MPool = m \/ ~ In MPool (m :: rest)) as PD.
  { intros H. destruct (in_dec (fun a b : mop => ltac:(repeat decide equality) : {a = b} + {a <> b}) MPool (m :: rest)) as [D|D]; [|right; exact D].
    destruct D as [D|D]; [left; auto|contradiction]. }
  clear B R SE v_busy v_prog v_mem v_conf v_buffer v_buffer2 v_mode.
  constructor; simpl; unfold in_run; simpl; try (rewrite LV); auto; try congruence.
  - intros c l E. injection E as <- <-. left. rewrite (program_tasks s' (set_todo s' (Some (CStart ok, rest)))) by reflexivity. exact SF.
  - intros c l E. injection E as <- <-. exact RF.
  - destruct (start_ops _ _ _ IM) as [->|[->|[(t & -> & _)|[->|[->|[->| ->]]]]]]; simpl in M; try (rewrite FC in M); try (destruct ok; [|discriminate]); try (destruct (f_wait s); [discriminate|]); try (destruct (f_thread s t)); injection M as <- <-; simpl; try rewrite v_marker; clear; intuition discriminate.
  - destruct (start_ops _ _ _ IM) as [->|[->|[(t & -> & _)|[->|[->|[->| ->]]]]]]; simpl in M; try (rewrite FC in M); try (destruct ok; [|discriminate]); try (destruct (f_wait s); [discriminate|]); try (destruct (f_thread s t)); injection M as <- <-; simpl; try rewrite v_hmarker; clear; intuition discriminate.
  - destruct (start_ops _ _ _ IM) as [->|[->|[(t & -> & _)|[->|[->|[->| ->]]]]]]; simpl in M; try (rewrite FC in M); try (destruct ok; [|discriminate]); try (destruct (f_wait s); [discriminate|]); try (destruct (f_thread s t)); injection M as <- <-; simpl; try rewrite v_pmarker; clear; intuition discriminate.
  - assert (m = MSpawn /\ f_wait s' <> None \/ m <> MSpawn /\ f_wait s' = f_wait s) as [[-> W]|[W ->]]; [|tauto|rewrite v_wait; clear - W; intuition congruence].
    destruct (start_ops _ _ _ IM) as [->|[->|[(t & -> & _)|[->|[->|[->| ->]]]]]]; simpl in M; try (rewrite FC in M); try (destruct ok; [|discriminate]); try (destruct (f_wait s); [discriminate|]); try (destruct (f_thread s t)); injection M as <- <-; simpl; try (right; split; [discriminate|reflexivity]). left. split; [reflexivity|discriminate].
  - intros t NR H. rewrite LV. 
    assert (m = MWork t \/ ready (f_thread s t) = false) as [->|Y]; [|left; reflexivity|right; apply v_thread; assumption].
    destruct (start_ops _ _ _ IM) as [->|[->|[(t' & -> & _)|[->|[->|[->| ->]]]]]]; simpl in M; try (rewrite FC in M); try (destruct ok; [|discriminate]); try (destruct (f_wait s); [discriminate|]); try (destruct (f_thread s t')); injection M as <- <-; auto.
    simpl in H. destruct (tid_eq t t') eqn:E; [apply tid_eq_spec in E; subst; auto|auto].
  - intros t NV. apply VE in NV. destruct (start_ops _ _ _ IM) as [->|[->|[(t' & -> & _ & V)|[->|[->|[->| ->]]]]]]; simpl in M; try (rewrite FC in M); try (destruct ok; [|discriminate]); try (destruct (f_wait s); [discriminate|]); try (destruct (f_thread s t')); injection M as <- <-; simpl; auto.
    destruct (tid_eq t t') eqn:E; [apply tid_eq_spec in E; subst; contradiction|auto].
  - intros H. destruct (PD H) as [<-|H2]; [simpl in M; injection M as <- <-; simpl; discriminate|]. apply PE in H2. apply v_pool in H2.
    destruct (start_ops _ _ _ IM) as [->|[->|[(t & -> & _)|[->|[->|[->| ->]]]]]]; simpl in M; try (rewrite FC in M); try (destruct ok; [|discriminate]); try (destruct (f_wait s); [discriminate|]); try (destruct (f_thread s t)); injection M as <- <-; simpl; auto; discriminate.
  - intros p Hp J. rewrite LV. 
    destruct (start_ops _ _ _ IM) as [->|[->|[(t & -> & _)|[->|[->|[->| ->]]]]]]; simpl in M; try (rewrite FC in M); try (destruct ok; [|discriminate]); try (destruct (f_wait s); [discriminate|]); try (destruct (f_thread s t)); injection M as <- <-; simpl in *; try (right; exact (v_joined p Hp J)). left. reflexivity.
  - intros H. right. apply v_ring. intros Z. apply H. 
    destruct (start_ops _ _ _ IM) as [->|[->|[(t & -> & _)|[->|[->|[->| ->]]]]]]; simpl in M; try (rewrite FC in M); try (destruct ok; [|discriminate]); try (destruct (f_wait s); [discriminate|]); try (destruct (f_thread s t)); injection M as <- <-; exact Z.
  - rewrite C. rewrite <- v_rec. destruct (start_ops _ _ _ IM) as [->|[->|[(t & -> & NR & _)|[->|[->|[->| ->]]]]]]; simpl in M; try (rewrite FC in M); try (destruct ok; [|discriminate]); try (destruct (f_wait s); [discriminate|]); try (destruct (f_thread s t)); injection M as <- <-; try reflexivity.
    un. destruct t; try reflexivity. contradiction.
  - intros _. split; congruence.
Qed.

(** A step of stop. *)
Lemma stop_inv : forall s log m rest s' ev, inv s log -> f_todo s = Some (CStop, m :: rest) -> mop_step s m = Done s' ev ->
  ev = [] /\ inv (set_todo s' (Some (CStop, rest))) log.
Proof.
  intros s log m rest s' ev I T M. pose proof I as I0. destruct I.
  destruct (v_prog _ _ T) as [S|(c' & X & _)]; [|discriminate X].
  assert (NoDup (m :: rest)) as ND by (eapply suffix_nodup; [exact S|apply program_nodup]). apply NoDup_cons_iff in ND. destruct ND as [NI _].
  pose proof (suffix_in m _ _ S ltac:(left; reflexivity)) as IM.
  assert (f_mem s = true) as FM by (apply v_mem; unfold in_run; rewrite T; exact Logic.I).
  assert (f_conf s = true) as FC by (apply v_conf; unfold in_run; rewrite T; exact Logic.I).
  assert (f_pool s <> None) as FP by (apply v_pool; rewrite T; exact Logic.I).
  Ltac stop_cases s IM M FC t V :=
    destruct (stop_ops _ _ IM) as [->|[->|[(t & -> & V)|[->|[->|[->| ->]]]]]]; simpl in M;
    [rewrite FC in M; injection M as <- <-
    |injection M as <- <-
    |destruct (ready (f_thread s t)) eqn:?; [injection M as <- <-|discriminate]
    |destruct (f_wait s) as [[|]|] eqn:?; try discriminate; injection M as <- <-
    |destruct (f_pool s) as [pp|] eqn:?; [|discriminate]; destruct (o_pending pp + o_retry pp =? 0) eqn:?; [|destruct (o_joined pp) eqn:?; [|discriminate]]; injection M as <- <-
    |injection M as <- <-
    |injection M as <- <-].
  assert (ev = [] /\ f_tasks s' = f_tasks s /\ f_mem s' = f_mem s /\ f_conf s' = f_conf s /\ f_thread s' = f_thread s) as (SE & ET & EM & EC & EH).
  { stop_cases s IM M FC t V; repeat split. }
  split; [exact SE|]. clear SE.
  assert (forall p q, live (set_todo s' (Some (CStop, rest))) log p q <-> live s log p q /\ q <> m) as LV.
  { intros p q. unfold live. simpl. rewrite T. split.
    - intros H. split; [right; exact H|]. intros ->. contradiction.
    - intros [[H|H] N]; [subst; contradiction|exact H]. }
  assert (forall t, ~ valid s' t <-> ~ valid s t) as VE by (intros t; unfold valid; rewrite ET; tauto).
  assert (live s log MSpawn m -> True) as LT by auto.
  assert (forall p, live s log p m) as LM by (intros p; unfold live; rewrite T; left; reflexivity).
  constructor; simpl; unfold in_run; simpl; try (rewrite LV); auto; try congruence.
  - rewrite v_busy, T. reflexivity.
  - intros c l E. injection E as <- <-. left. rewrite (program_tasks s (set_todo s' _)) by exact ET. eapply suffix_cons. exact S.
  - intros c l E. injection E as <- <-. apply (v_mode _ _ T).
  - stop_cases s IM M FC t V; simpl; try rewrite v_marker; clear; intuition discriminate.
  - stop_cases s IM M FC t V; simpl; try rewrite v_hmarker; clear; intuition discriminate.
  - stop_cases s IM M FC t V; simpl; try rewrite v_pmarker; clear; intuition discriminate.
  - assert (m = MJoinWaiting /\ f_wait s' = None \/ m <> MJoinWaiting /\ f_wait s' = f_wait s) as [[-> W]|[W ->]].
    { stop_cases s IM M FC t V; simpl; auto; try (right; split; [discriminate|auto; fail]). }
    + rewrite W. clear. intuition.
    + rewrite v_wait. clear - W. intuition congruence.
  - intros t NR H. rewrite EH in H. rewrite LV. split; [auto|]. intros E. subst m. simpl in M. rewrite H in M. discriminate.
  - intros t NV. rewrite EH. apply VE in NV. auto.
  - intros _. stop_cases s IM M FC t V; simpl; congruence.
  - intros p Hp J. rewrite LV. assert (m <> MJoinPool /\ f_pool s' = f_pool s \/ o_joined p = true) as [[N E]|N]; [|split; [apply (v_joined p); congruence|congruence]|congruence].
    stop_cases s IM M FC t V; simpl in *; try (left; split; [discriminate|congruence]).
    + right. injection Hp as <-. reflexivity.
    + right. congruence.
  - intros H. assert (m <> MFlush /\ f_ring s' = f_ring s) as [N E]; [|split; [apply v_ring; congruence|congruence]].
    stop_cases s IM M FC t V; simpl in *; try (split; [discriminate|reflexivity]). congruence.
  - intros _. split; congruence.
  - rewrite T in v_buffer2. rewrite EM. exact v_buffer2.
Qed.

(** The end of a command. *)
Lemma return_inv : forall s log c, inv s log -> f_todo s = Some (c, []) -> inv (set_todo s None) (log ++ [EReturned c]).
Proof.
  intros s log c [] T.
  assert (forall p q, live (set_todo s None) (log ++ [EReturned c]) p q <-> live s log p q) as LV.
  { intros p q. unfold live. simpl. rewrite T, running_app. specialize (v_mode _ _ T). destruct c; simpl in *; try tauto. split; [discriminate|contradiction]. }
  assert (recording (log ++ [EReturned c]) = recording log) as C by (rewrite recording_app; reflexivity).
  assert (in_run (set_todo s None) (log ++ [EReturned c]) -> in_run s log) as IR.
  { unfold in_run. simpl. rewrite T, running_app. destruct c; simpl; auto; discriminate. }
  constructor; simpl.
  - rewrite busy_app. reflexivity.
  - intros c0 l E. discriminate.
  - intros c0 l E. discriminate.
  - rewrite LV. exact v_marker.
  - rewrite LV. exact v_hmarker.
  - rewrite LV. exact v_pmarker.
  - rewrite LV. exact v_wait.
  - intros t NR H. apply LV. auto.
  - exact v_valid.
  - rewrite running_app. intros H. apply v_pool. rewrite T. specialize (v_mode _ _ T). destruct c; simpl in *; auto.
  - intros p Hp J. apply LV. eauto.
  - rewrite LV. exact v_ring.
  - rewrite C. exact v_rec.
  - auto.
  - auto.
  - rewrite buffer_app. rewrite T in v_buffer. destruct c; simpl; try exact v_buffer. destruct v_buffer as [-> ->]. auto.
  - rewrite buffer_app. rewrite T in v_buffer, v_buffer2. destruct c; simpl; try exact v_buffer2. destruct v_buffer as [-> _]. auto.
Qed.

Lemma start_last : forall s ok ok' rest, suffix (MParse ok' :: rest) (program s (CStart ok)) -> rest = [] /\ ok' = ok.
Proof.
  intros s ok ok' rest S. pose proof (suffix_in (MParse ok') _ _ S ltac:(left; reflexivity)) as IM. assert (ok' = ok) as ->.
  { destruct (start_ops _ _ _ IM) as [E|[E|[(t & E & _)|[E|[E|[E|E]]]]]]; try discriminate E. injection E; auto. }
  split; [|reflexivity]. destruct S as (u & E). pose proof (program_nodup s (CStart ok)) as ND. rewrite E in ND.
  destruct rest as [|x rest]; [reflexivity|]. exfalso.
  assert (exists v, program s (CStart ok) = v ++ [MParse ok]) as (v & EV).
  { unfold program. exists ([MMarker true; MPMarker true] ++ map MWork (posts s) ++ [MPool; MHMarker true; MWork Cleanup; MSpawn; MWork Consumer; MWork Requester; MWork Timesync]).
    rewrite <- !app_assoc. reflexivity. }
  rewrite E in EV. destruct (exists_last (l := x :: rest) ltac:(discriminate)) as (r & y & EY). rewrite EY in EV, ND.
  change (MParse ok :: r ++ [y]) with ((MParse ok :: r) ++ [y]) in EV. rewrite app_assoc in EV. apply app_inj_tail in EV. destruct EV as [_ ->].
  apply NoDup_remove_2 in ND. apply ND. apply in_or_app. right. apply in_or_app. right. left. reflexivity.
Qed.

(** start ends with an exception about its arguments. *)
Lemma threw_inv : forall s log ok, inv s log -> f_todo s = Some (CStart ok, [MParse ok]) -> inv (set_todo s None) (log ++ [EThrew (CStart ok)]).
Proof.
  intros s log ok [] T.
  assert (forall p q, p <> MParse ok -> live (set_todo s None) (log ++ [EThrew (CStart ok)]) p q <-> live s log p q) as LV.
  { intros p q N. unfold live. simpl. rewrite T, running_app. simpl. intuition. }
  assert (recording (log ++ [EThrew (CStart ok)]) = recording log) as C by (rewrite recording_app; reflexivity).
  assert (in_run s log) as IR by (unfold in_run; rewrite T; exact Logic.I).
  constructor; simpl.
  - rewrite busy_app. reflexivity.
  - intros c0 l E. discriminate.
  - intros c0 l E. discriminate.
  - rewrite LV by discriminate. exact v_marker.
  - rewrite LV by discriminate. exact v_hmarker.
  - rewrite LV by discriminate. exact v_pmarker.
  - rewrite LV by discriminate. exact v_wait.
  - intros t NR H. apply LV; [discriminate|auto].
  - exact v_valid.
  - intros _. apply v_pool. rewrite T. simpl. intuition discriminate.
  - intros p Hp J. apply LV; [discriminate|eauto].
  - rewrite LV by discriminate. exact v_ring.
  - rewrite C. exact v_rec.
  - auto.
  - auto.
  - rewrite buffer_app. rewrite T in v_buffer. exact v_buffer.
  - rewrite buffer_app. rewrite T in v_buffer2. exact v_buffer2.
Qed.

(** A step of the other commands. *)
Lemma other_inv : forall s log c m rest s' ev, inv s log -> f_todo s = Some (c, m :: rest) -> mop_step s m = Done s' ev ->
  (forall ok, c <> CStart ok) -> c <> CStop -> inv (set_todo s' (Some (c, rest))) (log ++ ev).
Proof.
  intros s log c m rest s' ev I T M N1 N2. pose proof I as I0. destruct I.
  destruct (v_prog _ _ T) as [S|(c' & _ & X)]; [|discriminate X].
  pose proof (suffix_in m _ _ S ltac:(left; reflexivity)) as IM.
  assert (forall p q (s1 : life) l1 l, f_todo s1 = Some (c, l) -> running l1 = running log -> live s1 l1 p q <-> live s log p q) as LV.
  { intros p q s1 l1 l E R. unfold live. rewrite E, T, R. destruct c; try tauto; exfalso; try (eapply N1; reflexivity); apply N2; reflexivity. }
  destruct c; try (exfalso; eapply N1; reflexivity); try (exfalso; apply N2; reflexivity); simpl in IM.
  - destruct IM as [<-|[]]. assert (rest = []) as ->.
    { destruct S as (u & E). destruct u as [|x u]; [injection E as E; auto|]. injection E as _ E. destruct u; discriminate E. }
    simpl in M. destruct (uses_buffer s) eqn:U; [discriminate|]. injection M as <- <-.
    assert (silent (if c_alloc c then [] else [EError])) as SE by (destruct (c_alloc c); intros e He; simpl in He; intuition (subst; auto)).
    destruct (silent_log log _ SE) as (R & B & F & C). set (ev := if c_alloc c then [] else [EError]) in *.
    destruct (v_mode _ _ T) as [RF CF].
    constructor; simpl.
    + rewrite B, v_busy, T. reflexivity.
    + intros c0 l E. injection E as <- <-. right. eauto.
    + intros c0 l E. injection E as <- <-. rewrite R, C. auto.
    + erewrite LV; [exact v_marker|reflexivity|exact R].
    + erewrite LV; [exact v_hmarker|reflexivity|exact R].
    + erewrite LV; [exact v_pmarker|reflexivity|exact R].
    + erewrite LV; [exact v_wait|reflexivity|exact R].
    + intros t NR H. erewrite LV; [apply v_thread; [exact NR|exact H]|reflexivity|exact R].
    + intros t NV. apply v_valid. intros V. apply NV. intros i E. simpl. specialize (V i E). clear - V. lia.
    + rewrite R, RF. discriminate.
    + intros p Hp J. erewrite LV; [apply (v_joined p Hp J)|reflexivity|exact R].
    + intros H. contradiction.
    + rewrite C. exact v_rec.
    + unfold in_run. simpl. rewrite R, RF. discriminate.
    + unfold in_run. simpl. rewrite R, RF. discriminate.
    + auto.
    + exact Logic.I.
  - destruct IM as [<-|[]]. assert (rest = []) as ->.
    { destruct S as (u & E). destruct u as [|x u]; [injection E as E; auto|]. injection E as _ E. destruct u; discriminate E. }
    simpl in M.
    assert ((s' = s /\ silent ev) \/ (s' = set_worker s Recording Given /\ ev = [ERecord] /\ f_thread s Recording = Off)) as [[-> SE]|(-> & -> & O)].
    { destruct (f_isrec s || negb (f_open s)); [left; injection M as <- <-; split; [reflexivity|intros e He; simpl in He; intuition (subst; auto)]|].
      destruct (f_thread s Recording); [right; injection M as <- <-; auto|..]; left; injection M as <- <-; (split; [reflexivity|intros e He; simpl in He; intuition (subst; auto)]). }
    + destruct (silent_log log _ SE) as (R & B & F & C). constructor; simpl.
      * rewrite B, v_busy, T. reflexivity.
      * intros c0 l E. injection E as <- <-. left. exists [MRecord]. reflexivity.
      * intros c0 l E. injection E as <- <-. exact Logic.I.
      * erewrite LV; [exact v_marker|reflexivity|exact R].
      * erewrite LV; [exact v_hmarker|reflexivity|exact R].
      * erewrite LV; [exact v_pmarker|reflexivity|exact R].
      * erewrite LV; [exact v_wait|reflexivity|exact R].
      * intros t NR H. erewrite LV; [apply v_thread; [exact NR|exact H]|reflexivity|exact R].
      * exact v_valid.
      * rewrite R. rewrite T in v_pool. exact v_pool.
      * intros p Hp J. erewrite LV; [apply (v_joined p Hp J)|reflexivity|exact R].
      * intros H. erewrite LV; [apply v_ring; exact H|reflexivity|exact R].
      * rewrite C. exact v_rec.
      * unfold in_run in *. simpl. rewrite T in v_mem. rewrite R. exact v_mem.
      * unfold in_run in *. simpl. rewrite T in v_conf. rewrite R. exact v_conf.
      * rewrite F. rewrite T in v_buffer. exact v_buffer.
      * rewrite F. rewrite T in v_buffer2. exact v_buffer2.
    + assert (running (log ++ [ERecord]) = running log) as R by (rewrite running_app; reflexivity). constructor; simpl.
      * rewrite busy_app. simpl. rewrite v_busy, T. reflexivity.
      * intros c0 l E. injection E as <- <-. left. exists [MRecord]. reflexivity.
      * intros c0 l E. injection E as <- <-. exact Logic.I.
      * erewrite LV; [exact v_marker|reflexivity|exact R].
      * erewrite LV; [exact v_hmarker|reflexivity|exact R].
      * erewrite LV; [exact v_pmarker|reflexivity|exact R].
      * erewrite LV; [exact v_wait|reflexivity|exact R].
      * intros t NR H. erewrite LV; [apply v_thread; [exact NR|]|reflexivity|exact R]. destruct t; try exact H. contradiction.
      * intros t NV. destruct t; try exact (v_valid _ NV). exfalso. apply NV. intros i E. discriminate E.
      * rewrite R. rewrite T in v_pool. exact v_pool.
      * intros p Hp J. erewrite LV; [apply (v_joined p Hp J)|reflexivity|exact R].
      * intros H. erewrite LV; [apply v_ring; exact H|reflexivity|exact R].
      * rewrite recording_app. reflexivity.
      * unfold in_run in *. simpl. rewrite T in v_mem. rewrite R. exact v_mem.
      * unfold in_run in *. simpl. rewrite T in v_conf. rewrite R. exact v_conf.
      * rewrite buffer_app. rewrite T in v_buffer. exact v_buffer.
      * rewrite buffer_app. rewrite T in v_buffer2. exact v_buffer2.
  - contradiction.
  - assert (s' = s /\ ev = []) as [-> ->].
    { assert ((exists t, m = MGone t) \/ m = MDropWaiting) as [(t & ->)| ->].
      { exact (destroy_ops _ _ IM). }
      - simpl in M. destruct (f_thread s t); try discriminate; injection M as <- <-; auto.
      - simpl in M. destruct (f_wait s); try discriminate; injection M as <- <-; auto. }
    rewrite app_nil_r. constructor; simpl.
    + rewrite v_busy, T. reflexivity.
    + intros c0 l E. injection E as <- <-. left. eapply suffix_cons. exact S.
    + intros c0 l E. injection E as <- <-. apply (v_mode _ _ T).
    + erewrite LV; [exact v_marker|reflexivity|reflexivity].
    + erewrite LV; [exact v_hmarker|reflexivity|reflexivity].
    + erewrite LV; [exact v_pmarker|reflexivity|reflexivity].
    + erewrite LV; [exact v_wait|reflexivity|reflexivity].
    + intros t NR H. erewrite LV; [apply v_thread; [exact NR|exact H]|reflexivity|reflexivity].
    + exact v_valid.
    + rewrite T in v_pool. exact v_pool.
    + intros p Hp J. erewrite LV; [apply (v_joined p Hp J)|reflexivity|reflexivity].
    + intros H. erewrite LV; [apply v_ring; exact H|reflexivity|reflexivity].
    + exact v_rec.
    + unfold in_run in *. simpl. rewrite T in v_mem. exact v_mem.
    + unfold in_run in *. simpl. rewrite T in v_conf. exact v_conf.
    + rewrite T in v_buffer. exact v_buffer.
    + rewrite T in v_buffer2. exact v_buffer2.
Qed.

Lemma not_live_ready : forall s log t, inv s log -> t <> Recording -> ~ live s log (MWork t) (MWait t) -> ready (f_thread s t) = true.
Proof. intros s log t I NR L. destruct (ready (f_thread s t)) eqn:E; [reflexivity|]. exfalso. apply L. apply (v_thread _ _ I); assumption. Qed.

(** No step of a command in order aborts, and only a start with bad arguments throws. *)
Lemma mop_fine : forall s log c m rest, inv s log -> f_todo s = Some (c, m :: rest) ->
  mop_step s m <> Abort /\ (forall s', mop_step s m = Threw s' -> c = CStart false /\ m = MParse false /\ s' = s).
Proof.
  intros s log c m rest I T. destruct (v_prog _ _ I _ _ T) as [S|(c' & _ & X)]; [|discriminate X].
  pose proof (suffix_in m _ _ S ltac:(left; reflexivity)) as IM. pose proof (v_mode _ _ I _ _ T) as MD.
  assert ((forall ok, c <> CStart ok) -> c <> CStop -> running log = false -> forall p q, ~ live s log p q) as NL.
  { intros N1 N2 R p q. unfold live. rewrite T, R. destruct c; try discriminate; exfalso; [eapply N1|apply N2]; reflexivity. }
  destruct c.
  - destruct IM as [<-|[]]. simpl. destruct MD as [RF CF]. assert (uses_buffer s = false) as ->; [|split; [discriminate|intros; discriminate]].
    specialize (NL ltac:(discriminate) ltac:(discriminate) RF). unfold uses_buffer.
    assert (existsb (fun t => negb (ready (f_thread s t))) (Consumer :: Cleanup :: Recording :: posts s) = false) as ->.
    { apply not_true_is_false. intros E. apply existsb_exists in E. destruct E as (t & Ht & E). apply negb_true_iff in E.
      assert (t = Recording \/ t <> Recording) as [->|NR] by (destruct t; auto; right; discriminate).
      - rewrite (v_rec _ _ I), CF in E. discriminate E.
      - rewrite (not_live_ready _ _ _ I NR (NL _ _)) in E. discriminate E. }
    assert (f_wait s = None) as ->.
    { destruct (f_wait s) eqn:W; [|reflexivity]. exfalso. apply (NL MSpawn MJoinWaiting). apply (v_wait _ _ I). rewrite W. discriminate. }
    simpl. destruct (f_pool s) as [[[|] n r]|] eqn:P; try reflexivity. exfalso. apply (NL MPool MJoinPool). apply (v_joined _ _ I _ P). reflexivity.
  - destruct (start_ops _ _ _ IM) as [->|[->|[(t & -> & _)|[->|[->|[->| ->]]]]]]; simpl.
    + rewrite (v_conf _ _ I) by (unfold in_run; rewrite T; exact Logic.I). split; [discriminate|intros; discriminate].
    + split; [discriminate|intros; discriminate].
    + destruct (f_thread s t); split; try discriminate; intros; discriminate.
    + split; [discriminate|intros; discriminate].
    + split; [discriminate|intros; discriminate].
    + destruct (f_wait s) eqn:W; [|split; [discriminate|intros; discriminate]]. exfalso.
      assert (live s log MSpawn MJoinWaiting) as L by (apply (v_wait _ _ I); rewrite W; discriminate). unfold live in L. rewrite T in L. apply L. left. reflexivity.
    + destruct args_ok; split; try discriminate. intros s' E. injection E as <-. auto.
  - destruct (stop_ops _ _ IM) as [->|[->|[(t & -> & _)|[->|[->|[->| ->]]]]]]; simpl.
    + destruct (f_conf s); split; try discriminate; intros; discriminate.
    + split; [discriminate|intros; discriminate].
    + destruct (ready (f_thread s t)); split; try discriminate; intros; discriminate.
    + destruct (f_wait s) as [[|]|] eqn:W; try (split; [discriminate|intros; discriminate]). exfalso.
      apply (v_wait _ _ I); [|exact W]. unfold live. rewrite T. left. reflexivity.
    + destruct (f_pool s) as [p|] eqn:P; [|exfalso; apply (v_pool _ _ I); [rewrite T; exact Logic.I|exact P]].
      destruct (o_pending p + o_retry p =? 0); [split; [discriminate|intros; discriminate]|]. destruct (o_joined p); (split; [discriminate|intros; discriminate]).
    + split; [discriminate|intros; discriminate].
    + split; [discriminate|intros; discriminate].
  - destruct IM as [<-|[]]. simpl. destruct (f_isrec s || negb (f_open s)); [split; [discriminate|intros; discriminate]|].
    destruct (f_thread s Recording); (split; [discriminate|intros; discriminate]).
  - contradiction.
  - specialize (NL ltac:(discriminate) ltac:(discriminate) MD).
    assert ((exists t, m = MGone t) \/ m = MDropWaiting) as [(t & ->)| ->].
    { exact (destroy_ops _ _ IM). }
    + simpl. destruct (f_thread s t); (split; [discriminate|intros; discriminate]).
    + simpl. destruct (f_wait s) eqn:W; [|split; [discriminate|intros; discriminate]]. exfalso. apply (NL MSpawn MJoinWaiting). apply (v_wait _ _ I). rewrite W. discriminate.
Qed.

Definition fine (ev : list event) : Prop := forall c, In (EThrew c) ev -> c = CStart false.

Lemma mop_events : forall s m s' ev c, mop_step s m = Done s' ev -> In (EThrew c) ev -> False.
Proof.
  intros s m s' ev c M H. destruct m; unfold mop_step in M.
  - destruct (uses_buffer s); [discriminate|]. injection M as _ <-. destruct (c_alloc c0); simpl in H; intuition discriminate.
  - destruct (f_isrec s || negb (f_open s)); [|destruct (f_thread s Recording)]; injection M as _ <-; simpl in H; intuition discriminate.
  - destruct (f_conf s); [|destruct b; [discriminate|]]; injection M as _ <-; exact H.
  - injection M as _ <-; exact H.
  - injection M as _ <-; exact H.
  - destruct (f_thread s t); injection M as _ <-; simpl in H; intuition discriminate.
  - destruct (ready (f_thread s t)); [injection M as _ <-; exact H|discriminate].
  - injection M as _ <-; exact H.
  - destruct (f_wait s); [discriminate|]. injection M as _ <-; exact H.
  - destruct (f_wait s) as [[|]|]; try discriminate. injection M as _ <-; exact H.
  - destruct (f_pool s) as [p|]; [|discriminate]. destruct (o_pending p + o_retry p =? 0); [|destruct (o_joined p); [|discriminate]]; injection M as _ <-; exact H.
  - injection M as _ <-; exact H.
  - destruct ok; [|discriminate]. injection M as _ <-; exact H.
  - destruct (f_thread s t); try discriminate. injection M as _ <-; exact H.
  - destruct (f_wait s); [discriminate|]. injection M as _ <-; exact H.
Qed.

Lemma command_step_inv : forall s log, inv s log -> exists s' ev, command_step s = Ok (s', ev) /\ inv s' (log ++ ev) /\ fine ev.
Proof.
  intros s log I. unfold command_step. destruct (f_todo s) as [[c [|m rest]]|] eqn:T.
  - exists (set_todo s None), [EReturned c]. split; [reflexivity|]. split; [apply return_inv; assumption|]. intros c0 [H|[]]. discriminate H.
  - destruct (mop_fine _ _ _ _ _ I T) as [NA NT]. destruct (mop_step s m) as [|s'|s' ev|] eqn:M.
    + exists s, []. split; [reflexivity|]. rewrite app_nil_r. split; [exact I|intros c0 []].
    + destruct (NT s' eq_refl) as (-> & -> & ->). exists (set_todo s None), [EThrew (CStart false)]. split; [reflexivity|]. split.
      * apply threw_inv; [exact I|]. destruct (v_prog _ _ I _ _ T) as [S|(c' & X & _)]; [|discriminate X]. apply start_last in S. destruct S as [-> _]. exact T.
      * intros c0 [H|[]]. injection H; auto.
    + exists (set_todo s' (Some (c, rest))), ev. split; [reflexivity|].
      assert (fine ev) as FE.
      { intros c0 H. exfalso. eapply mop_events; eauto. }
      destruct c.
      * split; [eapply other_inv; eauto; discriminate|exact FE].
      * split; [eapply start_inv; eauto|exact FE].
      * destruct (stop_inv _ _ _ _ _ _ I T M) as [-> I']. rewrite app_nil_r. auto.
      * split; [eapply other_inv; eauto; discriminate|exact FE].
      * split; [eapply other_inv; eauto; discriminate|exact FE].
      * split; [eapply other_inv; eauto; discriminate|exact FE].
    + contradiction.
  - exists s, []. split; [reflexivity|]. rewrite app_nil_r. split; [exact I|intros c0 []].
Qed.

Lemma quiet_fine : forall s s' ev, quiet s s' ev -> fine ev.
Proof. intros s s' ev Q c H. destruct (q_ev _ _ _ Q) as [[-> _]|[-> _]]; simpl in H; intuition discriminate. Qed.

Lemma life_step_inv : forall s log a, inv s log -> (forall c, a = ACommand c -> busy log = false /\ allowed log c) ->
  exists s' ev, life_step s a = Ok (s', ev) /\ inv s' (log ++ ev) /\ fine ev.
Proof.
  intros s log a I A. pose proof (consumer_flush _ _ I) as CF.
  assert (forall s' ev, quiet s s' ev -> inv s' (log ++ ev) /\ fine ev) as Q by (intros s' ev H; split; [eapply quiet_inv; eauto|eapply quiet_fine; eauto]).
  destruct a; simpl.
  - eexists _, _. split; [reflexivity|]. apply Q. apply arrive_quiet.
  - eexists _, _. split; [reflexivity|]. apply Q. apply request_quiet.
  - destruct (A c eq_refl) as [B AL]. rewrite (v_busy _ _ I) in B. destruct (f_todo s) eqn:T; [discriminate B|].
    eexists _, _. split; [reflexivity|]. split; [apply command_inv; assumption|]. intros c0 [H|[]]. discriminate H.
  - apply command_step_inv. exact I.
  - destruct (thread_quiet s log t k I) as (s' & ev & E & QQ). exists s', ev. split; [exact E|auto].
  - destruct (waiting_quiet s log k I) as (s' & ev & E & QQ). exists s', ev. split; [exact E|auto].
  - eexists _, _. split; [reflexivity|]. apply Q. apply pool_quiet.
  - eexists _, _. split; [reflexivity|]. apply Q. apply put_quiet.
Qed.

Lemma orderly_prefix : forall s0 a b, orderly s0 (a ++ b) -> orderly s0 a.
Proof. intros s0 a b H before c after s log E R. apply (H before c (after ++ b) s log); [rewrite E, <- app_assoc; reflexivity|exact R]. Qed.

Theorem orderly_run : forall links acts, orderly (life_new links) acts ->
  exists s log, life_run (life_new links) acts = Ok (s, log) /\ inv s log /\ fine log.
Proof.
  intros links acts. induction acts as [|a acts IH] using rev_ind; intros O.
  - exists (life_new links), []. split; [reflexivity|]. split; [apply inv_new|intros c []].
  - destruct (IH (orderly_prefix _ _ _ O)) as (s & log & R & I & F).
    destruct (life_step_inv s log a I) as (s' & ev & E & I' & F').
    { intros c ->. eapply O; [reflexivity|exact R]. }
    exists s', (log ++ ev). split; [|split; [exact I'|]].
    + rewrite run_app, R. simpl. rewrite E. simpl. rewrite app_nil_r. reflexivity.
    + intros c H. apply in_app_or in H. destruct H; auto.
Qed.

Lemma orderly_inv : forall links acts s log, orderly (life_new links) acts -> life_run (life_new links) acts = Ok (s, log) -> inv s log.
Proof.
  intros links acts s log O R. destruct (orderly_run links acts O) as (s1 & l1 & R1 & I & _). rewrite R in R1. injection R1 as -> ->. exact I.
Qed.
