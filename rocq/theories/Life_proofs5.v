(** Proofs about Life_model.v: who works during a run; commands out of order. *)
From Coq Require Import List Bool Arith Lia.
From Verif Require Import Base_model Life_model Life_spec Life_proofs Life_proofs2 Life_proofs3 Life_proofs4.
Import ListNotations.
Open Scope nat_scope.

(** ** Between runs *)
Lemma rest_between : forall s log, inv s log -> running log = false -> busy log = false -> at_rest s.
Proof.
  intros s log I R B. rewrite (v_busy _ _ I) in B. destruct (f_todo s) eqn:T; [discriminate B|].
  assert (forall p q, ~ live s log p q) as NL by (intros p q; unfold live; rewrite T, R; discriminate).
  split; [intros t NR; apply (not_live_ready _ _ _ I NR); apply NL|]. split.
  { destruct (f_wait s) eqn:W; [|reflexivity]. exfalso. eapply NL. apply (v_wait _ _ I). rewrite W. discriminate. }
  split. { destruct (f_pool s) as [p|] eqn:P; [|exact Logic.I]. destruct (o_joined p) eqn:J; [reflexivity|]. exfalso. eapply NL. apply (v_joined _ _ I p P J). }
  split. { apply not_true_is_false. intros X. eapply NL. apply (v_marker _ _ I). exact X. }
  split. { apply not_true_is_false. intros X. eapply NL. apply (v_hmarker _ _ I). exact X. }
  split. { apply not_true_is_false. intros X. eapply NL. apply (v_pmarker _ _ I). exact X. }
  destruct (Nat.eq_dec (f_ring s) 0) as [E|E]; [exact E|]. exfalso. eapply NL. apply (v_ring _ _ I). exact E.
Qed.

(** ** During a run *)
Definition off (t : tid) : mop := match t with Cleanup => MHMarker false | Post _ => MPMarker false | _ => MMarker false end.
Definition on (t : tid) : mop := match t with Cleanup => MHMarker true | Post _ => MPMarker true | _ => MMarker true end.

Lemma ignored_app : forall a b, ignored (a ++ b) = ignored_from (ignored a) b.
Proof. unfold ignored. intros a. generalize (@nil tid). induction a; intros; simpl; auto. Qed.

Record work (s : life) (log : list event) : Prop := mkWork {
  w_thread : forall t, t <> Recording -> valid s t -> live s log (MWork t) (off t) -> ready (f_thread s t) = false \/ In t (ignored log);
  w_wait : f_wait s = Some false -> f_hmarker s = false
}.

Lemma on_before_work : forall s log t, inv s log -> t <> Recording -> valid s t -> live s log (MWork t) (off t) -> live s log (on t) (off t).
Proof.
  intros s log t I NR V L. unfold live in *. destruct (f_todo s) as [[[] l]|] eqn:T; auto. intros H. apply L.
  destruct (v_prog _ _ I _ _ T) as [S|(c' & X & _)]; [|discriminate X].
  destruct t; simpl in H; try contradiction.
  - refine (start_order s args_ok l (MMarker true) _ [] _ S _ _ H); [reflexivity|]. unfold posts. simpl. right. apply in_or_app. right. simpl. tauto.
  - refine (start_order s args_ok l (MMarker true) _ [] _ S _ _ H); [reflexivity|]. unfold posts. simpl. right. apply in_or_app. right. simpl. tauto.
  - refine (start_order s args_ok l (MMarker true) _ [] _ S _ _ H); [reflexivity|]. unfold posts. simpl. right. apply in_or_app. right. simpl. tauto.
  - refine (start_order s args_ok l (MHMarker true) _ ([MMarker true; MPMarker true] ++ map MWork (posts s) ++ [MPool]) _ S _ _ H).
    + unfold program. rewrite <- !app_assoc. reflexivity.
    + simpl. tauto.
  - refine (start_order s args_ok l (MPMarker true) _ [MMarker true] _ S _ _ H); [reflexivity|]. apply in_or_app. left. apply in_map. apply posts_in.
    exists i. split; [reflexivity|]. apply V. reflexivity.
Qed.

Lemma marker_of : forall s log t, inv s log -> live s log (on t) (off t) ->
  match t with Cleanup => f_hmarker s = true | Post _ => f_pmarker s = true | Recording => True | _ => f_marker s = true end.
Proof. intros s log t I L. destruct t; simpl in L; try exact Logic.I; try (apply (v_marker _ _ I); exact L); [apply (v_hmarker _ _ I); exact L|apply (v_pmarker _ _ I); exact L]. Qed.

(** A thread whose marker is on does not end its work. *)
Lemma stays_busy : forall s t k s' ev, t <> Recording -> thread_step s t k = Ok (s', ev) -> ready (f_thread s t) = false ->
  match t with Cleanup => f_hmarker s = true | Post _ => f_pmarker s = true | Recording => True | _ => f_marker s = true end -> ready (f_thread s' t) = false.
Proof.
  intros s t k s' ev NR E R M. unfold thread_step in E. destruct (f_thread s t) eqn:H; try discriminate R.
  - injection E as <- _. destruct t; simpl; rewrite ?Nat.eqb_refl; try reflexivity.
  - destruct t; simpl in E.
    + destruct (f_input s); [rewrite M in E; injection E as <- _; rewrite H; reflexivity|]. destruct (f_mem s); [|discriminate]. injection E as <- _. simpl. rewrite H. reflexivity.
    + rewrite M in E. injection E as <- _. reflexivity.
    + rewrite M in E. injection E as <- _. reflexivity.
    + rewrite M in E. injection E as <- _. simpl. rewrite H. reflexivity.
    + contradiction.
    + destruct (nth i (f_queues s) 0); [rewrite M in E|]; injection E as <- _; simpl; rewrite H; reflexivity.
  - destruct t; try (injection E as <- _; simpl; rewrite ?Nat.eqb_refl; reflexivity).
    + destruct (f_reqs s); [injection E as <- _; reflexivity|]. destruct (post (set_reqs s n) 1); simpl in E; [|discriminate]. injection E as <- _. reflexivity.
    + destruct (post s (if Nat.odd k then f_links s else 0)); simpl in E; [|discriminate]. injection E as <- _. reflexivity.
Qed.
Lemma other_thread : forall s t k s' ev t', thread_step s t k = Ok (s', ev) -> t' <> t -> f_thread s' t' = f_thread s t'.
Proof.
  intros s t k s' ev t' E N.
  assert (forall w, f_thread (set_worker s t w) t' = f_thread s t') as W.
  { intros w. simpl. destruct (tid_eq t' t) eqn:X; [apply tid_eq_spec in X; contradiction|reflexivity]. }
  assert (forall s1 w, f_thread s1 = f_thread s -> f_thread (set_worker s1 t w) t' = f_thread s t') as W1.
  { intros s1 w Q. simpl. destruct (tid_eq t' t) eqn:X; [apply tid_eq_spec in X; contradiction|rewrite Q; reflexivity]. }
  unfold thread_step in E. destruct (f_thread s t) eqn:H.
  - injection E as <- _. reflexivity.
  - injection E as <- _. destruct t; apply W.
  - destruct t; simpl in E.
    + destruct (f_input s); [destruct (f_marker s)|destruct (f_mem s); [|discriminate]]; injection E as <- _; auto; apply W.
    + destruct (f_marker s); [|destruct (f_reqs s)]; injection E as <- _; auto; apply W.
    + destruct (f_marker s); injection E as <- _; apply W.
    + destruct (f_hmarker s); injection E as <- _; auto; apply W.
    + destruct (f_isrec s); [destruct k|]; injection E as <- _; auto; apply W.
    + destruct (nth i (f_queues s) 0); [destruct (f_pmarker s)|]; injection E as <- _; auto; apply W.
  - destruct t; try (injection E as <- _; apply W).
    + destruct (f_reqs s); [injection E as <- _; apply W|]. destruct (post (set_reqs s n) 1) eqn:P; simpl in E; [|discriminate]. injection E as <- _. apply W1. apply post_thread in P. exact P.
    + destruct (post s (if Nat.odd k then f_links s else 0)) eqn:P; simpl in E; [|discriminate]. injection E as <- _. apply W1. apply post_thread in P. exact P.
  - injection E as <- _. apply W.
Qed.
Lemma same_wait : forall s t k s' ev, thread_step s t k = Ok (s', ev) -> f_wait s' = f_wait s.
Proof.
  intros s t k s' ev E. unfold thread_step in E. assert (forall s n s', post s n = Ok s' -> f_wait s' = f_wait s) as P.
  { intros a n b H. unfold post in H. destruct n; [injection H as <-; reflexivity|]. destruct (f_pool a); [|discriminate]. injection H as <-. reflexivity. }
  destruct (f_thread s t).
  - injection E as <- _. reflexivity.
  - injection E as <- _. destruct t; reflexivity.
  - destruct t; simpl in E.
    + destruct (f_input s); [destruct (f_marker s)|destruct (f_mem s); [|discriminate]]; injection E as <- _; reflexivity.
    + destruct (f_marker s); [|destruct (f_reqs s)]; injection E as <- _; reflexivity.
    + destruct (f_marker s); injection E as <- _; reflexivity.
    + destruct (f_hmarker s); injection E as <- _; reflexivity.
    + destruct (f_isrec s); [destruct k|]; injection E as <- _; reflexivity.
    + destruct (nth i (f_queues s) 0); [destruct (f_pmarker s)|]; injection E as <- _; reflexivity.
  - destruct t; try (injection E as <- _; reflexivity).
    + destruct (f_reqs s); [injection E as <- _; reflexivity|]. destruct (post (set_reqs s n) 1) eqn:Q; simpl in E; [|discriminate]. injection E as <- _. apply P in Q. exact Q.
    + destruct (post s (if Nat.odd k then f_links s else 0)) eqn:Q; simpl in E; [|discriminate]. injection E as <- _. apply P in Q. exact Q.
  - injection E as <- _. reflexivity.
Qed.

Lemma ignored_silent : forall log ev, (forall e, In e ev -> e = ERecorded) -> ignored (log ++ ev) = ignored log.
Proof.
  intros log ev H. rewrite ignored_app. generalize (ignored log). induction ev as [|e ev IH]; intros l; [reflexivity|].
  rewrite (H e ltac:(left; reflexivity)). simpl. apply IH. intros x Hx. apply H. right. exact Hx.
Qed.
Lemma running_silent : forall log ev, (forall e, In e ev -> e = ERecorded) -> running (log ++ ev) = running log.
Proof.
  intros log ev H. rewrite running_app. generalize (running log). induction ev as [|e ev IH]; intros l; [reflexivity|].
  rewrite (H e ltac:(left; reflexivity)). simpl. apply IH. intros x Hx. apply H. right. exact Hx.
Qed.

Lemma outside_work : forall s log a s' ev, inv s log -> work s log -> life_step s a = Ok (s', ev) ->
  match a with ACommand _ | AStep => False | _ => True end -> work s' (log ++ ev).
Proof.
  intros s log a s' ev I W E A. pose proof (life_step_outside _ _ _ _ E ltac:(destruct a; auto; contradiction)) as O. destruct O.
  pose proof (running_silent log ev u_calm) as RS. pose proof (ignored_silent log ev u_calm) as IS.
  destruct W. constructor.
  - intros t NR V L. rewrite IS. rewrite (live_ext s log) in L by assumption.
    assert (valid s t) as V0 by (unfold valid in *; rewrite u_tasks in V; exact V).
    destruct (w_thread0 t NR V0 L) as [R|X]; [left|right; exact X].
    pose proof (marker_of _ _ _ I (on_before_work _ _ _ I NR V0 L)) as MK.
    destruct a; try contradiction; simpl in E.
    + injection E as <- <-. exact R.
    + injection E as <- <-. exact R.
    + assert (t0 = t \/ t <> t0) as [->|N] by (destruct (tid_eq t t0) eqn:X; [left; symmetry; apply tid_eq_spec; exact X|right; intros ->; rewrite tid_eq_refl in X; discriminate]).
      * eapply stays_busy; eauto.
      * rewrite (other_thread _ _ _ _ _ _ E N). exact R.
    + unfold waiting_step in E. destruct (f_wait s) as [[|]|]; try (injection E as <- <-; exact R). destruct (f_list s) as [|r l].
      * destruct (f_hmarker s); injection E as <- <-; exact R.
      * destruct (pass (r :: l) k) as [keep n]. destruct (post (set_list s keep) n) as [s1|] eqn:P; simpl in E; [|discriminate]. injection E as <- <-. rewrite (post_thread _ _ _ P). exact R.
    + injection E as <- <-. unfold pool_step. destruct (f_pool s) as [[[|] [|n] r]|]; exact R.
    + injection E as <- <-. unfold pool_put. destruct (f_pool s) as [[[|] n [|r]]|]; exact R.
  - destruct a; try contradiction; simpl in E.
    + injection E as <- <-. exact w_wait0.
    + injection E as <- <-. exact w_wait0.
    + rewrite (same_wait _ _ _ _ _ E). intros X. destruct (thread_quiet s log t k I) as (s2 & e2 & E2 & Q). rewrite E in E2. injection E2 as <- <-. rewrite (q_hmarker _ _ _ Q). auto.
    + destruct (waiting_quiet s log k I) as (s2 & e2 & E2 & Q). rewrite E in E2. injection E2 as <- <-. rewrite (q_hmarker _ _ _ Q).
      unfold waiting_step in E. destruct (f_wait s) as [[|]|] eqn:WT; try (injection E as <- <-; rewrite WT; exact w_wait0). destruct (f_list s) as [|r l].
      * destruct (f_hmarker s) eqn:HM; [injection E as <- <-; rewrite WT; discriminate|reflexivity].
      * destruct (pass (r :: l) k) as [keep n]. destruct (post (set_list s keep) n) as [s1|] eqn:P; simpl in E; [|discriminate]. injection E as <- <-.
        unfold post in P. destruct n; [injection P as <-; simpl; rewrite WT; discriminate|]. destruct (f_pool (set_list s keep)); [|discriminate]. injection P as <-. simpl. rewrite WT. discriminate.
    + injection E as <- <-. unfold pool_step. destruct (f_pool s) as [[[|] [|n] r]|]; exact w_wait0.
    + injection E as <- <-. unfold pool_put. destruct (f_pool s) as [[[|] n [|r]]|]; exact w_wait0.
Qed.

Lemma mop_threads : forall s m s' ev t, mop_step s m = Done s' ev -> t <> Recording -> m <> MWork t -> f_thread s' t = f_thread s t.
Proof.
  intros s m s' ev t M NR NW. destruct m; unfold mop_step in M.
  - destruct (uses_buffer s); [discriminate|]. injection M as <- _. reflexivity.
  - destruct (f_isrec s || negb (f_open s)); [|destruct (f_thread s Recording)]; injection M as <- _; try reflexivity.
    simpl. destruct (tid_eq t Recording) eqn:X; [apply tid_eq_spec in X; contradiction|reflexivity].
  - destruct (f_conf s); [|destruct b; [discriminate|]]; injection M as <- _; reflexivity.
  - injection M as <- _; reflexivity.
  - injection M as <- _; reflexivity.
  - destruct (f_thread s t0) eqn:H; injection M as <- _; try reflexivity. simpl. destruct (tid_eq t t0) eqn:X; [apply tid_eq_spec in X; subst; contradiction|reflexivity].
  - destruct (ready (f_thread s t0)); [|discriminate]; injection M as <- _; reflexivity.
  - injection M as <- _; reflexivity.
  - destruct (f_wait s); [discriminate|]. injection M as <- _; reflexivity.
  - destruct (f_wait s) as [[|]|]; try discriminate. injection M as <- _; reflexivity.
  - destruct (f_pool s) as [p|]; [|discriminate]. destruct (o_pending p + o_retry p =? 0); [|destruct (o_joined p); [|discriminate]]; injection M as <- _; reflexivity.
  - injection M as <- _; reflexivity.
  - destruct ok; [|discriminate]. injection M as <- _; reflexivity.
  - destruct (f_thread s t0); try discriminate. injection M as <- _; reflexivity.
  - destruct (f_wait s); [discriminate|]. injection M as <- _; reflexivity.
Qed.
Lemma mop_tasks : forall s m s' ev, mop_step s m = Done s' ev -> (forall c, m <> MConf c) -> f_tasks s' = f_tasks s.
Proof.
  intros s m s' ev M NC. destruct m; unfold mop_step in M.
  - contradiction (NC c eq_refl).
  - destruct (f_isrec s || negb (f_open s)); [|destruct (f_thread s Recording)]; injection M as <- _; reflexivity.
  - destruct (f_conf s); [|destruct b; [discriminate|]]; injection M as <- _; reflexivity.
  - injection M as <- _; reflexivity.
  - injection M as <- _; reflexivity.
  - destruct (f_thread s t) eqn:H; injection M as <- _; reflexivity.
  - destruct (ready (f_thread s t)); [|discriminate]; injection M as <- _; reflexivity.
  - injection M as <- _; reflexivity.
  - destruct (f_wait s); [discriminate|]. injection M as <- _; reflexivity.
  - destruct (f_wait s) as [[|]|]; try discriminate. injection M as <- _; reflexivity.
  - destruct (f_pool s) as [p|]; [|discriminate]. destruct (o_pending p + o_retry p =? 0); [|destruct (o_joined p); [|discriminate]]; injection M as <- _; reflexivity.
  - injection M as <- _; reflexivity.
  - destruct ok; [|discriminate]. injection M as <- _; reflexivity.
  - destruct (f_thread s t); try discriminate. injection M as <- _; reflexivity.
  - destruct (f_wait s); [discriminate|]. injection M as <- _; reflexivity.
Qed.
Lemma mop_hmarker : forall s m s' ev, mop_step s m = Done s' ev -> f_hmarker s' = match m with MHMarker b => b | _ => f_hmarker s end.
Proof.
  intros s m s' ev M. destruct m; unfold mop_step in M.
  - destruct (uses_buffer s); [discriminate|]. injection M as <- _. reflexivity.
  - destruct (f_isrec s || negb (f_open s)); [|destruct (f_thread s Recording)]; injection M as <- _; reflexivity.
  - destruct (f_conf s); [|destruct b; [discriminate|]]; injection M as <- _; reflexivity.
  - injection M as <- _; reflexivity.
  - injection M as <- _; reflexivity.
  - destruct (f_thread s t) eqn:H; injection M as <- _; reflexivity.
  - destruct (ready (f_thread s t)); [|discriminate]; injection M as <- _; reflexivity.
  - injection M as <- _; reflexivity.
  - destruct (f_wait s); [discriminate|]. injection M as <- _; reflexivity.
  - destruct (f_wait s) as [[|]|]; try discriminate. injection M as <- _; reflexivity.
  - destruct (f_pool s) as [p|]; [|discriminate]. destruct (o_pending p + o_retry p =? 0); [|destruct (o_joined p); [|discriminate]]; injection M as <- _; reflexivity.
  - injection M as <- _; reflexivity.
  - destruct ok; [|discriminate]. injection M as <- _; reflexivity.
  - destruct (f_thread s t); try discriminate. injection M as <- _; reflexivity.
  - destruct (f_wait s); [discriminate|]. injection M as <- _; reflexivity.
Qed.
Lemma mop_wait : forall s m s' ev, mop_step s m = Done s' ev -> f_wait s' = match m with MSpawn => Some true | MJoinWaiting => None | _ => f_wait s end.
Proof.
  intros s m s' ev M. destruct m; unfold mop_step in M.
  - destruct (uses_buffer s); [discriminate|]. injection M as <- _. reflexivity.
  - destruct (f_isrec s || negb (f_open s)); [|destruct (f_thread s Recording)]; injection M as <- _; reflexivity.
  - destruct (f_conf s); [|destruct b; [discriminate|]]; injection M as <- _; reflexivity.
  - injection M as <- _; reflexivity.
  - injection M as <- _; reflexivity.
  - destruct (f_thread s t) eqn:H; injection M as <- _; reflexivity.
  - destruct (ready (f_thread s t)); [|discriminate]; injection M as <- _; reflexivity.
  - injection M as <- _; reflexivity.
  - destruct (f_wait s); [discriminate|]. injection M as <- _; reflexivity.
  - destruct (f_wait s) as [[|]|]; try discriminate. injection M as <- _; reflexivity.
  - destruct (f_pool s) as [p|]; [|discriminate]. destruct (o_pending p + o_retry p =? 0); [|destruct (o_joined p); [|discriminate]]; injection M as <- _; reflexivity.
  - injection M as <- _; reflexivity.
  - destruct ok; [|discriminate]. injection M as <- _; reflexivity.
  - destruct (f_thread s t); try discriminate. injection M as <- _; reflexivity.
  - destruct (f_wait s) eqn:W; [discriminate|]. injection M as <- _; exact W.
Qed.

Lemma calm_ignored : forall ev l t, calm ev -> In t l -> In t (ignored_from l ev).
Proof.
  induction ev as [|e ev IH]; intros l t C H; [exact H|]. simpl. pose proof (C e ltac:(left; reflexivity)) as X.
  assert (calm ev) as C' by (intros x Hx; apply C; right; exact Hx). destruct e; try contradiction; apply IH; auto. right. exact H.
Qed.
Lemma calm_running : forall ev b, calm ev -> running_from b ev = b.
Proof.
  induction ev as [|e ev IH]; intros b H; [reflexivity|]. simpl. pose proof (H e ltac:(left; reflexivity)) as X.
  destruct e; try contradiction; apply IH; intros x Hx; apply H; right; exact Hx.
Qed.

Lemma program_work : forall s ok t, t <> Recording -> valid s t -> In (MWork t) (program s (CStart ok)).
Proof.
  intros s ok t NR V. unfold program. rewrite !in_app_iff. destruct t; try (right; right; simpl; tauto).
  right. left. apply in_map. apply posts_in. exists i. split; [reflexivity|]. apply V. reflexivity.
Qed.
Lemma program_off : forall s t, t <> Recording -> In (off t) (program s CStop).
Proof. intros s t NR. unfold program. rewrite in_app_iff. left. destruct t; simpl; tauto. Qed.

Lemma command_work : forall s log s' ev, inv s log -> work s log -> command_step s = Ok (s', ev) -> work s' (log ++ ev).
Proof.
  intros s log s' ev I W E. unfold command_step in E. destruct (f_todo s) as [[c [|m rest]]|] eqn:T.
  - injection E as <- <-. destruct W. constructor; [|exact w_wait0]. intros t NR V L. rewrite ignored_app. simpl. apply w_thread0; [exact NR|exact V|].
    unfold live in *. simpl in L. rewrite T. rewrite running_app in L. pose proof (v_mode _ _ I _ _ T) as MD. destruct c; simpl in L; auto. discriminate L.
  - destruct (mop_fine _ _ _ _ _ I T) as [_ NT]. destruct (v_prog _ _ I _ _ T) as [S|(c' & _ & X)]; [|discriminate X].
    pose proof (suffix_in m _ _ S ltac:(left; reflexivity)) as IM. destruct (mop_step s m) as [|s1|s1 ev1|] eqn:M; try discriminate.
    + injection E as <- <-. rewrite app_nil_r. exact W.
    + injection E as <- <-. destruct (NT _ eq_refl) as (-> & -> & ->). apply start_last in S. destruct S as [-> _]. destruct W. constructor; [|exact w_wait0].
      intros t NR V L. rewrite ignored_app. simpl. apply w_thread0; [exact NR|exact V|]. unfold live. rewrite T. intros [X|[]]. discriminate X.
    + injection E as <- <-. pose proof (mop_calm _ _ _ _ M) as C. destruct W. constructor.
      * intros t NR V L. rewrite ignored_app.
        assert (m = MWork t \/ m <> MWork t) as [->|NM].
        { destruct m; try (right; discriminate). destruct (tid_eq t t0) eqn:X; [apply tid_eq_spec in X; subst; auto|right; intros Y; injection Y as ->; rewrite tid_eq_refl in X; discriminate]. }
        { unfold mop_step in M. destruct (f_thread s t) eqn:H; injection M as <- <-; simpl; try (right; left; reflexivity). left. rewrite tid_eq_refl. reflexivity. }
        change (f_thread (set_todo s1 (Some (c, rest))) t) with (f_thread s1 t). rewrite (mop_threads _ _ _ _ _ M NR NM).
        assert (valid s t /\ live s log (MWork t) (off t)) as [V0 L0].
        { unfold live in *. simpl in L. rewrite T. rewrite running_app, (calm_running _ _ C) in L. pose proof (v_mode _ _ I _ _ T) as MD.
          assert (forall c, m = MConf c -> False) as NC.
          { intros c0 ->. destruct c; simpl in MD.
            - rewrite (proj1 MD) in L. discriminate L.
            - destruct (start_ops _ _ _ IM) as [X|[X|[(x & X & _)|[X|[X|[X|X]]]]]]; discriminate X.
            - destruct (stop_ops _ _ IM) as [X|[X|[(x & X & _)|[X|[X|[X|X]]]]]]; discriminate X.
            - destruct IM as [X|[]]; discriminate X.
            - destruct IM.
            - destruct (destroy_ops _ _ IM) as [[x X]|X]; discriminate X. }
          split; [unfold valid in *; change (f_tasks (set_todo s1 (Some (c, rest)))) with (f_tasks s1) in V; rewrite (mop_tasks _ _ _ _ M) in V; [exact V|intros c0 X; exact (NC c0 X)]|].
          destruct c; auto.
          - intros [X|X]; [contradiction|contradiction].
          - right. exact L. }
        destruct (w_thread0 t NR V0 L0) as [R|X]; [left; exact R|right; apply calm_ignored; assumption].
      * change (f_wait (set_todo s1 (Some (c, rest)))) with (f_wait s1). change (f_hmarker (set_todo s1 (Some (c, rest)))) with (f_hmarker s1).
        rewrite (mop_wait _ _ _ _ M), (mop_hmarker _ _ _ _ M). destruct m; auto; try discriminate. destruct b; [|reflexivity]. intros X. exfalso.
        assert (f_wait s <> None) as Y by (rewrite X; discriminate). apply (v_wait _ _ I) in Y. unfold live in Y. rewrite T in Y.
        destruct c; try (destruct (destroy_ops _ _ IM) as [[x Z]|Z]; discriminate Z).
        -- destruct IM as [Z|[]]; discriminate Z.
        -- apply Y. refine (start_order s args_ok _ (MHMarker true) _ ([MMarker true; MPMarker true] ++ map MWork (posts s) ++ [MPool]) _ S _ _ ltac:(left; reflexivity)).
           ++ unfold program. rewrite <- !app_assoc. reflexivity.
           ++ simpl. tauto.
        -- destruct (stop_ops _ _ IM) as [Z|[Z|[(x & Z & _)|[Z|[Z|[Z|Z]]]]]]; discriminate Z.
        -- destruct IM as [Z|[]]; discriminate Z.
        -- destruct IM.
  - injection E as <- <-. rewrite app_nil_r. exact W.
Qed.

Lemma issue_work : forall s log c s' ev, inv s log -> work s log -> allowed log c -> life_step s (ACommand c) = Ok (s', ev) -> work s' (log ++ ev).
Proof.
  intros s log c s' ev I W A E. simpl in E. destruct (f_todo s) eqn:T; injection E as <- <-; [rewrite app_nil_r; exact W|].
  destruct W. constructor; [|exact w_wait0]. intros t NR V L. unfold valid in V. simpl in V. change (valid s t) in V.
  unfold live in L. simpl in L. rewrite running_app in L. simpl in L. rewrite ignored_app. simpl. unfold live in w_thread0. rewrite T in w_thread0.
  destruct c; simpl in L |- *; auto.
  - exfalso. apply L. apply program_work; assumption.
  - destruct A as [_ A]. auto.
Qed.

Theorem orderly_work : forall links acts s log, orderly (life_new links) acts -> life_run (life_new links) acts = Ok (s, log) -> work s log.
Proof.
  intros links acts. induction acts as [|a acts IH] using rev_ind; intros s log O R.
  - injection R as <- <-. constructor; [|discriminate]. intros t NR V L. discriminate L.
  - apply run_snoc in R. destruct R as (s1 & l1 & ev & R & E & ->). pose proof (IH _ _ (orderly_prefix _ _ _ O) R) as W.
    pose proof (orderly_inv _ _ _ _ (orderly_prefix _ _ _ O) R) as I.
    destruct a; try (eapply outside_work; eauto; exact Logic.I).
    + eapply issue_work; eauto. apply (O acts c [] s1 l1); auto.
    + simpl in E. eapply command_work; eauto.
Qed.
