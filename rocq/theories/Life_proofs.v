(** Proofs about Life_model.v: the invariant of orderly schedules. *)
From Coq Require Import List Bool Arith Lia FinFun.
From Verif Require Import Base_model Life_model Life_spec.
Import ListNotations.
Open Scope nat_scope.

Ltac un := unfold set_worker, set_conf, set_mem, set_open, set_retries, set_tasks, set_queues, set_marker, set_hmarker, set_pmarker,
  set_thread, set_isrec, set_wait, set_list, set_pool, set_ring, set_input, set_reqs, set_todo in *; simpl in *.

Lemma run_app : forall a b s, life_run s (a ++ b) =
  do r <- life_run s a; do q <- life_run (fst r) b; Ok (fst q, snd r ++ snd q).
Proof.
  induction a as [|x a IH]; intros b s; simpl.
  - destruct (life_run s b) as [[]|]; reflexivity.
  - destruct (life_step s x) as [[s1 e1]|]; simpl; [|reflexivity]. rewrite IH. destruct (life_run s1 a) as [[s2 e2]|]; simpl; [|reflexivity].
    destruct (life_run s2 b) as [[s3 e3]|]; simpl; [|reflexivity]. rewrite app_assoc. reflexivity.
Qed.

Lemma run_snoc : forall a x s s' log, life_run s (a ++ [x]) = Ok (s', log) ->
  exists s1 l1 ev, life_run s a = Ok (s1, l1) /\ life_step s1 x = Ok (s', ev) /\ log = l1 ++ ev.
Proof.
  intros a x s s' log H. rewrite run_app in H. destruct (life_run s a) as [[s1 l1]|]; simpl in H; [|discriminate].
  destruct (life_step s1 x) as [[s2 e2]|] eqn:E; simpl in H; [|discriminate]. injection H as <- <-. rewrite app_nil_r.
  exists s1, l1, e2. auto.
Qed.

Lemma running_app : forall a b, running (a ++ b) = running_from (running a) b.
Proof. unfold running. intros a. generalize false. induction a; intros; simpl; auto. Qed.
Lemma buffer_app : forall a b, buffer (a ++ b) = buffer_from (buffer a) b.
Proof. unfold buffer. intros a. generalize false. induction a; intros; simpl; auto. Qed.
Lemma recording_app : forall a b, recording (a ++ b) = recording_from (recording a) b.
Proof. unfold recording. intros a. generalize false. induction a; intros; simpl; auto. Qed.
Lemma busy_app : forall a b, busy (a ++ b) = busy_from (busy a) b.
Proof. unfold busy. intros a. generalize false. induction a; intros; simpl; auto. Qed.

Lemma tid_eq_spec : forall a b, tid_eq a b = true <-> a = b.
Proof.
  intros [] []; simpl; split; intros H; try discriminate; try reflexivity; try congruence.
  - apply Nat.eqb_eq in H. congruence.
  - injection H as ->. apply Nat.eqb_refl.
Qed.
Lemma tid_eq_refl : forall a, tid_eq a a = true.
Proof. intros a. apply tid_eq_spec. reflexivity. Qed.

(** ** Programs and their rests *)
Definition suffix (l p : list mop) : Prop := exists u, p = u ++ l.
Lemma suffix_cons : forall m l p, suffix (m :: l) p -> suffix l p.
Proof. intros m l p (u & ->). exists (u ++ [m]). rewrite <- app_assoc. reflexivity. Qed.
Lemma suffix_in : forall m l p, suffix l p -> In m l -> In m p.
Proof. intros m l p (u & ->) H. apply in_or_app. auto. Qed.
Lemma suffix_nodup : forall l p, suffix l p -> NoDup p -> NoDup l.
Proof.
  intros l p (u & ->). induction u as [|x u IH]; simpl; intros H; [exact H|]. inversion H. auto.
Qed.
Lemma suffix_after : forall p x y u v l, p = u ++ x :: v -> NoDup p -> In y v -> suffix l p -> In x l -> In y l.
Proof.
  intros p x y u v l -> ND Y (w & E) X. apply in_split in X. destruct X as (l1 & l2 & ->).
  apply in_or_app. right. rewrite (app_assoc w) in E. revert v E ND Y. revert u. generalize (w ++ l1) as z. clear w l1. induction z as [|a z IH]; intros u v E ND Y.
  - right. destruct u as [|b u]; simpl in E; [injection E as <-; exact Y|]. injection E as -> E. exfalso.
    simpl in ND. apply NoDup_cons_iff in ND. destruct ND as [ND _]. apply ND. apply in_or_app. right. left. reflexivity.
  - destruct u as [|b u]; simpl in E.
    + injection E as <- E. exfalso. simpl in ND. apply NoDup_cons_iff in ND. destruct ND as [ND _]. apply ND. rewrite E. apply in_or_app. right. left. reflexivity.
    + injection E as -> E. simpl in ND. apply NoDup_cons_iff in ND. destruct ND as [_ ND]. exact (IH u v E ND Y).
Qed.

Lemma posts_in : forall s t, In t (posts s) <-> exists i, t = Post i /\ i < f_tasks s.
Proof.
  intros s t. unfold posts. rewrite in_map_iff. split.
  - intros (i & <- & H). apply in_seq in H. exists i. split; [reflexivity|lia].
  - intros (i & -> & H). exists i. split; [reflexivity|]. apply in_seq. lia.
Qed.
Lemma posts_nodup : forall s, NoDup (posts s).
Proof.
  intros s. unfold posts. apply Injective_map_NoDup; [intros a b E; injection E; auto|apply seq_NoDup].
Qed.
Lemma nodup_app : forall {A} (a b : list A), NoDup a -> NoDup b -> (forall x, In x a -> In x b -> False) -> NoDup (a ++ b).
Proof.
  intros A a b Ha Hb D. induction a as [|x a IH]; simpl; [exact Hb|]. inversion Ha; subst. constructor.
  - intros H. apply in_app_or in H. destruct H; [contradiction|]. apply (D x); simpl; auto.
  - apply IH; [assumption|]. intros y Hy. apply D. right. exact Hy.
Qed.
Lemma map_mop_nodup : forall (f : tid -> mop) l, (forall a b, f a = f b -> a = b) -> NoDup l -> NoDup (map f l).
Proof. intros f l I H. apply Injective_map_NoDup; [exact I|exact H]. Qed.

Ltac nodup_list := repeat (apply NoDup_cons; [simpl; intuition discriminate|]); apply NoDup_nil.

Lemma program_nodup : forall s c, NoDup (program s c).
Proof.
  intros s c. destruct c; unfold program.
  - nodup_list.
  - apply nodup_app; [nodup_list| |].
    + apply nodup_app; [apply map_mop_nodup; [intros a b E; injection E; auto|apply posts_nodup]|nodup_list|].
      intros x H1 H2. apply in_map_iff in H1. destruct H1 as (t & <- & Ht). apply posts_in in Ht. destruct Ht as (i & -> & _).
      simpl in H2. intuition discriminate.
    + intros x H1 H2. apply in_app_or in H2. destruct H2 as [H2|H2].
      * apply in_map_iff in H2. destruct H2 as (t & <- & Ht). simpl in H1. intuition discriminate.
      * simpl in H1, H2. destruct H1 as [<-|[<-|[]]]; intuition discriminate.
  - apply nodup_app; [nodup_list|apply map_mop_nodup; [intros a b E; injection E; auto|apply posts_nodup]|].
    intros x H1 H2. apply in_map_iff in H2. destruct H2 as (t & <- & Ht). apply posts_in in Ht. destruct Ht as (i & -> & _).
    simpl in H1. intuition discriminate.
  - nodup_list.
  - nodup_list.
  - apply nodup_app; [nodup_list| |].
    + apply nodup_app; [apply map_mop_nodup; [intros a b E; injection E; auto|apply posts_nodup]|nodup_list|].
      intros x H1 H2. apply in_map_iff in H1. destruct H1 as (t & <- & Ht). apply posts_in in Ht. destruct Ht as (i & -> & _).
      simpl in H2. intuition discriminate.
    + intros x H1 H2. apply in_app_or in H2. destruct H2 as [H2|H2].
      * apply in_map_iff in H2. destruct H2 as (t & <- & Ht). apply posts_in in Ht. destruct Ht as (i & -> & _). simpl in H1. intuition discriminate.
      * simpl in H1, H2. intuition (subst; discriminate).
Qed.

(** ** The invariant *)
Definition valid (s : life) (t : tid) : Prop := forall i, t = Post i -> i < f_tasks s.

(** The last start is past [p] and the stop of its run not yet past [q]. *)
Definition live (s : life) (log : list event) (p q : mop) : Prop :=
  match f_todo s with
  | Some (CStart _, l) => ~ In p l
  | Some (CStop, l) => In q l
  | _ => running log = true
  end.
Definition in_run (s : life) (log : list event) : Prop :=
  match f_todo s with Some (CStart _, _) | Some (CStop, _) => True | _ => running log = true end.

Record inv (s : life) (log : list event) : Prop := mkInv {
  v_busy : busy log = match f_todo s with Some _ => true | None => false end;
  v_prog : forall c l, f_todo s = Some (c, l) -> suffix l (program s c) \/ (exists c', c = CConf c' /\ l = []);
  v_mode : forall c l, f_todo s = Some (c, l) ->
    match c with
    | CConf _ => running log = false /\ recording log = false
    | CStart _ => running log = false
    | CStop => running log = true
    | CDestroy => running log = false
    | _ => True
    end;
  v_marker : f_marker s = true <-> live s log (MMarker true) (MMarker false);
  v_hmarker : f_hmarker s = true <-> live s log (MHMarker true) (MHMarker false);
  v_pmarker : f_pmarker s = true <-> live s log (MPMarker true) (MPMarker false);
  v_wait : f_wait s <> None <-> live s log MSpawn MJoinWaiting;
  v_thread : forall t, t <> Recording -> ready (f_thread s t) = false -> live s log (MWork t) (MWait t);
  v_valid : forall t, ~ valid s t -> f_thread s t = Off;
  v_pool : match f_todo s with Some (CStart _, l) => ~ In MPool l | Some (CStop, _) => True | _ => running log = true end -> f_pool s <> None;
  v_joined : forall p, f_pool s = Some p -> o_joined p = false -> live s log MPool MJoinPool;
  v_ring : f_ring s <> 0 -> live s log (MWork Consumer) MFlush;
  v_rec : ready (f_thread s Recording) = negb (recording log);
  v_mem : in_run s log -> f_mem s = true;
  v_conf : in_run s log -> f_conf s = true;
  v_buffer : match f_todo s with Some (CConf c, []) => f_mem s = c_alloc c /\ f_conf s = true | _ => buffer log = true -> f_mem s = true /\ f_conf s = true end;
  v_buffer2 : match f_todo s with Some (CConf c, []) => True | _ => f_mem s = true -> buffer log = true end
}.

Lemma inv_new : forall links, inv (life_new links) [].
Proof.
  intros links. constructor; simpl; unfold live; simpl; try (split; intros; try discriminate; congruence); try discriminate; auto; try congruence.
Qed.

(** Nothing of the control state or of the log that matters changes. *)
Lemma live_ext : forall s log s' log' p q, f_todo s' = f_todo s -> running log' = running log -> live s' log' p q <-> live s log p q.
Proof. intros s log s' log' p q E R. unfold live. rewrite E, R. tauto. Qed.
Lemma in_run_ext : forall s log s' log', f_todo s' = f_todo s -> running log' = running log -> in_run s' log' <-> in_run s log.
Proof. intros s log s' log' E R. unfold in_run. rewrite E, R. tauto. Qed.

(** Preservation by everything that is not a step of the command thread. *)
Record quiet (s s' : life) (ev : list event) : Prop := mkQuiet {
  q_todo : f_todo s' = f_todo s; q_tasks : f_tasks s' = f_tasks s;
  q_marker : f_marker s' = f_marker s; q_hmarker : f_hmarker s' = f_hmarker s; q_pmarker : f_pmarker s' = f_pmarker s;
  q_mem : f_mem s' = f_mem s; q_conf : f_conf s' = f_conf s;
  q_wait : f_wait s' = None <-> f_wait s = None;
  q_thread : forall t, t <> Recording -> ready (f_thread s' t) = false -> ready (f_thread s t) = false;
  q_valid : forall t, f_thread s t = Off -> f_thread s' t = Off;
  q_pool : f_pool s' = None <-> f_pool s = None;
  q_joined : forall p', f_pool s' = Some p' -> exists p, f_pool s = Some p /\ o_joined p = o_joined p';
  q_ring : f_ring s' <= f_ring s \/ ready (f_thread s Consumer) = false;
  q_ev : (ev = [] /\ ready (f_thread s' Recording) = ready (f_thread s Recording)) \/
         (ev = [ERecorded] /\ ready (f_thread s' Recording) = true)
}.

Lemma quiet_inv : forall s log s' ev, inv s log -> quiet s s' ev -> (live s log (MWork Consumer) (MWait Consumer) -> live s log (MWork Consumer) MFlush) ->
  inv s' (log ++ ev).
Proof.
  intros s log s' ev [] [] CF.
  assert (running (log ++ ev) = running log) as R by (rewrite running_app; destruct q_ev0 as [[-> _]|[-> _]]; reflexivity).
  assert (busy (log ++ ev) = busy log) as B by (rewrite busy_app; destruct q_ev0 as [[-> _]|[-> _]]; reflexivity).
  assert (buffer (log ++ ev) = buffer log) as F by (rewrite buffer_app; destruct q_ev0 as [[-> _]|[-> _]]; reflexivity).
  assert (recording (log ++ ev) = negb (ready (f_thread s' Recording))) as C.
  { rewrite recording_app. destruct q_ev0 as [[-> E]|[-> E]]; simpl; rewrite E; [rewrite v_rec0, negb_involutive; reflexivity|reflexivity]. }
  assert (forall c, program s' c = program s c) as P by (intros []; unfold program, posts; rewrite ?q_tasks0; reflexivity).
  constructor.
  - rewrite B, q_todo0. exact v_busy0.
  - intros c l H. rewrite q_todo0 in H. rewrite P. auto.
  - intros c l H. rewrite q_todo0 in H. specialize (v_mode0 c l H). rewrite R. destruct c; auto. destruct v_mode0 as [V1 V2]. split; [exact V1|].
    rewrite recording_app, V2. destruct q_ev0 as [[-> _]|[-> _]]; reflexivity.
  - rewrite (live_ext s log) by assumption. rewrite q_marker0. assumption.
  - rewrite (live_ext s log) by assumption. rewrite q_hmarker0. assumption.
  - rewrite (live_ext s log) by assumption. rewrite q_pmarker0. assumption.
  - rewrite (live_ext s log) by assumption. rewrite q_wait0. assumption.
  - intros t Ht Hr. rewrite (live_ext s log) by assumption. auto.
  - intros t Ht. apply q_valid0. apply v_valid0. unfold valid in *. rewrite q_tasks0 in Ht. exact Ht.
  - rewrite q_todo0, R. intros H E. apply (v_pool0 H). apply q_pool0. exact E.
  - intros p Hp J. destruct (q_joined0 p Hp) as (p0 & E & J0). rewrite (live_ext s log) by assumption. apply (v_joined0 p0 E). congruence.
  - rewrite (live_ext s log) by assumption. intros H. destruct q_ring0 as [L|L]; [apply v_ring0; lia|]. apply CF. apply v_thread0; [discriminate|exact L].
  - rewrite C, negb_involutive. reflexivity.
  - rewrite (in_run_ext s log) by assumption. rewrite q_mem0. assumption.
  - rewrite (in_run_ext s log) by assumption. rewrite q_conf0. assumption.
  - rewrite q_todo0, q_mem0, q_conf0, F. exact v_buffer0.
  - rewrite q_todo0, q_mem0, F. exact v_buffer3.
Qed.

(** Order within the programs. *)
Lemma start_order : forall s ok l x y u v, suffix l (program s (CStart ok)) -> program s (CStart ok) = u ++ x :: v -> In y v -> In x l -> In y l.
Proof. intros s ok l x y u v S E Y X. eapply suffix_after; eauto. apply program_nodup. Qed.
Lemma stop_order : forall s l x y u v, suffix l (program s CStop) -> program s CStop = u ++ x :: v -> In y v -> In x l -> In y l.
Proof. intros s l x y u v S E Y X. eapply suffix_after; eauto. apply program_nodup. Qed.

Lemma consumer_flush : forall s log, inv s log -> live s log (MWork Consumer) (MWait Consumer) -> live s log (MWork Consumer) MFlush.
Proof.
  intros s log I. unfold live. destruct (f_todo s) as [[[] l]|] eqn:T; auto. intros H.
  destruct (v_prog _ _ I _ _ T) as [S|(c' & X & _)]; [|discriminate X].
  refine (stop_order s l (MWait Consumer) MFlush _ _ S _ _ H).
  - unfold program. change ([MMarker false; MHMarker false; MWait Recording; MWait Cleanup; MJoinWaiting; MJoinPool; MWait Timesync; MWait Consumer; MWait Requester; MFlush; MPMarker false] ++ map MWait (posts s)) with
      ([MMarker false; MHMarker false; MWait Recording; MWait Cleanup; MJoinWaiting; MJoinPool; MWait Timesync] ++ MWait Consumer :: ([MWait Requester; MFlush; MPMarker false] ++ map MWait (posts s))). reflexivity.
  - right. left. reflexivity.
Qed.

Lemma quiet_refl : forall s, quiet s s [].
Proof. intros s. constructor; auto; try tauto. intros p' H. eauto. Qed.

(** Changes of one thread's state. *)
Lemma quiet_worker : forall s t w ev, f_thread s t <> Off -> (ready w = false -> ready (f_thread s t) = false) ->
  (t <> Recording -> ev = []) -> (t = Recording -> (ev = [] /\ ready w = ready (f_thread s t)) \/ (ev = [ERecorded] /\ ready w = true)) ->
  quiet s (set_worker s t w) ev.
Proof.
  intros s t w ev NO W E1 E2. constructor; un; auto; try tauto.
  - intros t' Ht'. destruct (tid_eq t' t) eqn:E; [apply tid_eq_spec in E; subst; exact W|auto].
  - intros t' O. destruct (tid_eq t' t) eqn:E; [apply tid_eq_spec in E; subst; contradiction|exact O].
  - intros p' H. eauto.
  - destruct (tid_eq Recording t) eqn:E.
    + apply tid_eq_spec in E. subst t. exact (E2 eq_refl).
    + left. split; [apply E1; intros ->; discriminate E|]. destruct t; try reflexivity. discriminate E.
Qed.

Lemma quiet_trans : forall s s1 s2 ev, quiet s s1 [] -> (f_ring s2 <= f_ring s1) -> quiet s1 s2 ev -> quiet s s2 ev.
Proof.
  intros s s1 s2 ev [] R []. constructor; try congruence; auto.
  - rewrite q_wait1. exact q_wait0.
  - rewrite q_pool1. exact q_pool0.
  - intros p' H. destruct (q_joined1 p' H) as (p & E & J). destruct (q_joined0 p E) as (p0 & E0 & J0). exists p0. split; [exact E0|congruence].
  - destruct q_ring0 as [L|L]; [left; lia|right; exact L].
  - destruct q_ev1 as [[-> E]|[-> E]]; [left|right; auto]. split; [reflexivity|]. destruct q_ev0 as [[_ E0]|[X _]]; [congruence|discriminate X].
Qed.

Lemma quiet_post : forall s n s', post s n = Ok s' -> quiet s s' [].
Proof.
  intros s n s' H. unfold post in H. destruct n; [injection H as <-; apply quiet_refl|].
  destruct (f_pool s) as [p|] eqn:P; [|discriminate]. injection H as <-. constructor; un; auto; try tauto.
  - rewrite P. split; discriminate.
  - intros p' H. injection H as <-. exists p. rewrite P. auto.
Qed.
Lemma post_thread : forall s n s', post s n = Ok s' -> f_thread s' = f_thread s.
Proof.
  intros s n s' H. unfold post in H. destruct n; [injection H as <-; reflexivity|]. destruct (f_pool s); [|discriminate]. injection H as <-. reflexivity.
Qed.
Lemma post_ok : forall s n, f_pool s <> None -> exists s', post s n = Ok s'.
Proof. intros s n H. unfold post. destruct n; [eauto|]. destruct (f_pool s); [eauto|contradiction]. Qed.

(** A live thread that posts has a pool. *)
Lemma start_split : forall s ok, program s (CStart ok) =
  ([MMarker true; MPMarker true] ++ map MWork (posts s)) ++ MPool :: [MHMarker true; MWork Cleanup; MSpawn; MWork Consumer; MWork Requester; MWork Timesync; MParse ok].
Proof. intros. unfold program. rewrite <- app_assoc. reflexivity. Qed.

Lemma live_pool : forall s log p q, inv s log -> In p [MHMarker true; MWork Cleanup; MSpawn; MWork Consumer; MWork Requester; MWork Timesync] -> live s log p q -> f_pool s <> None.
Proof.
  intros s log p q I Hp L. apply (v_pool _ _ I). unfold live in L. destruct (f_todo s) as [[[] l]|] eqn:T; auto.
  intros H. apply L. destruct (v_prog _ _ I _ _ T) as [S|(c' & X & _)]; [|discriminate X].
  eapply start_order; [exact S|apply start_split| |exact H]. simpl in *. intuition.
Qed.

Lemma iterate_quiet : forall s log t k, inv s log -> f_thread s t = Head -> exists s' ev, iterate s t k = Ok (s', ev) /\ quiet s s' ev.
Proof.
  intros s log t k I H. assert (f_thread s t <> Off) as NO by congruence.
  assert (ready (f_thread s t) = false) as NR by (rewrite H; reflexivity). destruct t; simpl.
  - destruct (f_input s) as [|n] eqn:EI.
    + destruct (f_marker s); eexists _, _; (split; [reflexivity|]); [apply quiet_refl|apply quiet_worker; auto; discriminate].
    + assert (f_mem s = true) as M.
      { apply (v_mem _ _ I). pose proof (v_thread _ _ I Consumer ltac:(discriminate) NR) as L. unfold live, in_run in *. destruct (f_todo s) as [[[] l]|]; auto. }
      rewrite M. eexists _, _. split; [reflexivity|]. constructor; un; auto; try tauto. intros p' Hp. eauto.
  - destruct (f_marker s); [eexists _, _; split; [reflexivity|apply quiet_worker; auto; discriminate]|].
    destruct (f_reqs s); eexists _, _; (split; [reflexivity|]); [apply quiet_worker; auto; discriminate|].
    constructor; un; auto; try tauto. intros p' Hp. eauto.
  - destruct (f_marker s); eexists _, _; (split; [reflexivity|apply quiet_worker; auto; discriminate]).
  - destruct (f_hmarker s); eexists _, _; (split; [reflexivity|]); [|apply quiet_worker; auto; discriminate].
    constructor; un; auto; try tauto; [intros p' Hp; eauto|left; lia].
  - destruct (f_isrec s).
    + destruct k; eexists _, _; (split; [reflexivity|]); [apply quiet_refl|]. constructor; un; auto; try tauto. intros p' Hp. eauto.
    + eexists _, _. split; [reflexivity|]. apply quiet_worker; auto; try discriminate; intros X; contradiction.
  - destruct (nth i (f_queues s) 0); [destruct (f_pmarker s)|]; eexists _, _; (split; [reflexivity|]);
      [apply quiet_refl|apply quiet_worker; auto; discriminate|]. constructor; un; auto; try tauto. intros p' Hp. eauto.
Qed.

Lemma set_worker_ring : forall s t w, f_ring (set_worker s t w) = f_ring s.
Proof. reflexivity. Qed.

Lemma thread_quiet : forall s log t k, inv s log -> exists s' ev, thread_step s t k = Ok (s', ev) /\ quiet s s' ev.
Proof.
  intros s log t k I. unfold thread_step. destruct (f_thread s t) eqn:H.
  - eexists _, _. split; [reflexivity|apply quiet_refl].
  - eexists _, _. split; [reflexivity|]. assert (f_thread s t <> Off) as NO by congruence.
    assert (quiet s (set_worker s t Head) []) as Q.
    { apply quiet_worker; auto; rewrite H; auto. }
    destruct t; try exact Q. destruct Q. constructor; un; auto.
  - eapply iterate_quiet; eassumption.
  - assert (f_thread s t <> Off) as NO by congruence.
    assert (forall s1 : life, f_thread s1 t = Body -> quiet s1 (set_worker s1 t Head) []) as Q.
    { intros s1 H1. apply quiet_worker; try rewrite H1; auto; try discriminate. }
    assert (ready (f_thread s t) = false) as NR by (rewrite H; reflexivity).
    destruct t; try (eexists _, _; split; [reflexivity|apply Q; exact H]).
    + destruct (f_reqs s) as [|n]; [eexists _, _; split; [reflexivity|apply Q; exact H]|].
      pose proof (v_thread _ _ I Requester ltac:(discriminate) NR) as L. apply live_pool in L; [|exact I|simpl; tauto].
      destruct (post_ok (set_reqs s n) 1 L) as (s1 & E). rewrite E. simpl. eexists _, _. split; [reflexivity|].
      pose proof E as E0. apply quiet_post in E. assert (quiet s s1 []) as E1.
      { destruct E. constructor; un; auto. }
      eapply quiet_trans; [exact E1|reflexivity|apply Q]. rewrite (post_thread _ _ _ E0). exact H.
    + pose proof (v_thread _ _ I Timesync ltac:(discriminate) NR) as L. apply live_pool in L; [|exact I|simpl; tauto].
      destruct (post_ok s (if Nat.odd k then f_links s else 0) L) as (s1 & E). rewrite E. simpl. eexists _, _. split; [reflexivity|].
      pose proof E as E0. apply quiet_post in E. eapply quiet_trans; [exact E|reflexivity|apply Q]. rewrite (post_thread _ _ _ E0). exact H.
  - eexists _, _. split; [reflexivity|]. apply quiet_worker; try congruence; try (intros X; discriminate X).
    intros _. rewrite H. left. auto.
Qed.

Lemma waiting_quiet : forall s log k, inv s log -> exists s' ev, waiting_step s k = Ok (s', ev) /\ quiet s s' ev.
Proof.
  intros s log k I. unfold waiting_step. destruct (f_wait s) as [[|]|] eqn:W; try (eexists _, _; split; [reflexivity|apply quiet_refl]).
  destruct (f_list s) as [|r l] eqn:FL.
  - destruct (f_hmarker s); eexists _, _; (split; [reflexivity|]); [apply quiet_refl|]. constructor; un; auto; try tauto.
    + rewrite W. split; discriminate.
    + intros p' Hp. eauto.
  - destruct (pass (r :: l) k) as [keep n]. assert (f_pool s <> None) as P.
    { eapply live_pool; [exact I| |apply (v_wait _ _ I); rewrite W; discriminate]. simpl. tauto. }
    destruct (post_ok (set_list s keep) n P) as (s1 & E). rewrite E. simpl. eexists _, _. split; [reflexivity|].
    apply quiet_post in E. destruct E. constructor; un; auto.
Qed.
Lemma pool_quiet : forall s b, quiet s (pool_step s b) [].
Proof.
  intros s b. unfold pool_step. destruct (f_pool s) as [[[|] [|n] r]|] eqn:P; try apply quiet_refl. constructor; un; auto; try tauto.
  - rewrite P. split; discriminate.
  - intros p' Hp. injection Hp as <-. rewrite P. eauto.
Qed.
Lemma put_quiet : forall s, quiet s (pool_put s) [].
Proof.
  intros s. unfold pool_put. destruct (f_pool s) as [[[|] n [|r]]|] eqn:P; try apply quiet_refl. constructor; un; auto; try tauto.
  - rewrite P. split; discriminate.
  - intros p' Hp. injection Hp as <-. rewrite P. eauto.
Qed.
Lemma arrive_quiet : forall s n, quiet s (set_input s n) [].
Proof. intros s n. constructor; un; auto; try tauto. intros p' Hp. eauto. Qed.
Lemma request_quiet : forall s n, quiet s (set_reqs s n) [].
Proof. intros s n. constructor; un; auto; try tauto. intros p' Hp. eauto. Qed.

(** ** The commands *)
Lemma start_in_work : forall s ok t, In (MWork t) (program s (CStart ok)) <-> t <> Recording /\ valid s t.
Proof.
  intros s ok t. unfold program. rewrite !in_app_iff. split.
  - intros [H|[H|H]].
    + simpl in H. intuition discriminate.
    + apply in_map_iff in H. destruct H as (t' & E & H). injection E as ->. apply posts_in in H. destruct H as (i & -> & L).
      split; [discriminate|]. intros j E. injection E as <-. exact L.
    + simpl in H. intuition (try discriminate);
        match goal with E : MWork _ = MWork _ |- _ => injection E as <- end; try discriminate; intros ? X; discriminate X.
  - intros [NR V]. destruct t; simpl; try tauto. right. left. apply in_map. apply posts_in. exists i. split; [reflexivity|]. apply V. reflexivity.
Qed.
Lemma stop_in_wait : forall s t, In (MWait t) (program s CStop) <-> valid s t.
Proof.
  intros s t. unfold program. rewrite in_app_iff. split.
  - intros [H|H].
    + simpl in H. intuition (try discriminate); match goal with E : MWait _ = MWait _ |- _ => injection E as <- end; intros ? X; discriminate X.
    + apply in_map_iff in H. destruct H as (t' & E & H). injection E as ->. apply posts_in in H. destruct H as (i & -> & L).
      intros j E. injection E as <-. exact L.
  - intros V. destruct t; simpl; try tauto. right. apply in_map. apply posts_in. exists i. split; [reflexivity|]. apply V. reflexivity.
Qed.

Lemma command_inv : forall s log c, inv s log -> f_todo s = None -> allowed log c -> inv (set_todo s (Some (c, program s c))) (log ++ [ECommand c]).
Proof.
  intros s log c [] T [_ A].
  assert (running (log ++ [ECommand c]) = running log) as R by (rewrite running_app; reflexivity).
  assert (recording (log ++ [ECommand c]) = recording log) as RC by (rewrite recording_app; reflexivity).
  assert (buffer (log ++ [ECommand c]) = buffer log) as BF by (rewrite buffer_app; reflexivity).
  assert (forall p q, In p (program s c) \/ (forall ok, c <> CStart ok) -> In q (program s c) \/ c <> CStop ->
    live (set_todo s (Some (c, program s c))) (log ++ [ECommand c]) p q <-> live s log p q) as LV.
  { intros p q HP HQ. unfold live in *. simpl. rewrite T, R. destruct c; try tauto.
    - destruct A as [A _]. destruct HP as [HP|HP]; [|exfalso; eapply HP; reflexivity]. rewrite A. split; [tauto|discriminate].
  }
  assert (forall t, t <> Recording -> valid s t -> live (set_todo s (Some (c, program s c))) (log ++ [ECommand c]) (MWork t) (MWait t) <-> live s log (MWork t) (MWait t)) as LT.
  { intros t NR V. apply LV.
    - destruct c; try (right; discriminate). left. apply start_in_work. auto.
    - destruct c; try (right; discriminate). left. apply stop_in_wait. auto. }
  Ltac lv := match goal with HLV : forall p q, _ -> _ -> _ <-> _ |- _ => rewrite HLV;
    [assumption|match goal with |- In _ (program _ ?c) \/ _ => destruct c; try (right; discriminate); left; unfold program; rewrite ?in_app_iff; simpl; clear; tauto end
    |match goal with |- In _ (program _ ?c) \/ _ => destruct c; try (right; discriminate); left; unfold program; rewrite ?in_app_iff; simpl; clear; tauto end] end.
  constructor; try (simpl; lv).
  - rewrite busy_app. reflexivity.
  - simpl. intros c0 l E. injection E as <- <-. left. exists []. destruct c; reflexivity.
  - simpl. intros c0 l E. injection E as <- <-. rewrite R, RC. destruct c; tauto.
  - intros t NR H. simpl in H. assert (valid s t) as V.
    { destruct t; try (intros ? X; discriminate X). intros j E. injection E as <-. destruct (Nat.lt_ge_cases i (f_tasks s)); [assumption|].
      rewrite v_valid0 in H; [discriminate H|]. intros X. specialize (X i eq_refl). lia. }
    apply LT; auto.
  - exact v_valid0.
  - simpl. rewrite R. intros H. apply v_pool0. rewrite T. destruct c; try exact H.
    + exfalso. apply H. unfold program. rewrite !in_app_iff. simpl. tauto.
    + exact A.
  - intros p Hp J. simpl in Hp. apply LV; [| |apply (v_joined0 p Hp J)]; destruct c; try (right; discriminate); left; unfold program; rewrite ?in_app_iff; simpl; clear; tauto.
  - simpl. rewrite RC. exact v_rec0.
  - unfold in_run. simpl. rewrite R. unfold in_run in v_mem0. rewrite T in v_mem0, v_buffer0. destruct c; auto. destruct A as [_ A]. intros _. apply v_buffer0. exact A.
  - unfold in_run. simpl. rewrite R. unfold in_run in v_conf0. rewrite T in v_conf0, v_buffer0. destruct c; auto. destruct A as [_ A]. intros _. apply v_buffer0. exact A.
  - simpl. rewrite BF, T in *. destruct c; try exact v_buffer0.
  - simpl. rewrite BF, T in *. destruct c; try exact v_buffer3.
Qed.
