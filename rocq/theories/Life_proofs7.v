(** Proofs about Life_model.v: payloads during and between runs, work handed over by start, recordings. *)
From Coq Require Import List Bool Arith Lia.
From Verif Require Import Base_model Life_model Life_spec Life_proofs Life_proofs2 Life_proofs3 Life_proofs4 Life_proofs5 Life_proofs6.
Import ListNotations.
Open Scope nat_scope.

(** ** What happens to the input *)
Definition arriving (a : action) : nat := match a with AArrive => 1 | _ => 0 end.
Definition turning (a : action) : nat := match a with AThread Consumer _ => 1 | _ => 0 end.
Lemma arrivals_cons : forall a acts, arrivals (a :: acts) = arriving a + arrivals acts.
Proof. intros a acts. unfold arrivals. destruct a; reflexivity. Qed.
Lemma turns_cons : forall a acts, turns (a :: acts) = turning a + turns acts.
Proof. intros a acts. unfold turns. destruct a; try reflexivity. destruct t; reflexivity. Qed.

Lemma post_input : forall s n s', post s n = Ok s' -> f_input s' = f_input s.
Proof. intros s n s' H. unfold post in H. destruct n; [injection H as <-; reflexivity|]. destruct (f_pool s); [|discriminate]. injection H as <-. reflexivity. Qed.
Lemma mop_input : forall s m s' ev, mop_step s m = Done s' ev -> f_input s' = f_input s.
Proof.
  intros s m s' ev M. destruct m; unfold mop_step in M.
  - destruct (uses_buffer s); [discriminate|]. injection M as <- _. reflexivity.
  - destruct (f_isrec s || negb (f_open s)); [|destruct (f_thread s Recording)]; injection M as <- _; reflexivity.
  - destruct (f_conf s); [|destruct b; [discriminate|]]; injection M as <- _; reflexivity.
  - injection M as <- _; reflexivity.
  - injection M as <- _; reflexivity.
  - destruct (f_thread s t) eqn:H; injection M as <- _; reflexivity.
  - destruct (ready (f_thread s t)); [|discriminate]; injection M as <- _; reflexivity.
  - injection M as <- _; reflexivity.
  - destruct (f_wait s); [discriminate|]. injection M as <- _; reflexivity.
  - destruct (f_wait s) as [[|]|]; try discriminate. injection M as <- _; reflexivity.
  - destruct (f_pool s) as [p|]; [|discriminate]. destruct (o_pending p + o_retry p =? 0); [|destruct (o_joined p); [|discriminate]]; injection M as <- _; reflexivity.
  - injection M as <- _; reflexivity.
  - destruct ok; [|discriminate]. injection M as <- _; reflexivity.
  - destruct (f_thread s t); try discriminate. injection M as <- _; reflexivity.
  - destruct (f_wait s) eqn:W; [discriminate|]. injection M as <- _; reflexivity.
Qed.
Lemma command_input : forall s s' ev, command_step s = Ok (s', ev) -> f_input s' = f_input s.
Proof.
  intros s s' ev E. unfold command_step in E. destruct (f_todo s) as [[c [|m rest]]|]; try (injection E as <- _; reflexivity).
  destruct (mop_step s m) as [|s1|s1 e1|] eqn:M; try discriminate; injection E as <- _; try reflexivity.
  - destruct m; unfold mop_step in M; try discriminate; repeat (match type of M with context [match ?x with _ => _ end] => destruct x end; try discriminate); injection M as <-; reflexivity.
  - apply (mop_input _ _ _ _ M).
Qed.
Lemma step_input : forall s a s' ev, life_step s a = Ok (s', ev) ->
  f_input s' = f_input s + arriving a \/
  (exists k n, a = AThread Consumer k /\ f_thread s Consumer = Head /\ f_input s = S n /\ f_mem s = true /\ f_input s' = n /\ f_thread s' = f_thread s).
Proof.
  intros s a s' ev E. destruct a; simpl in E.
  - left. injection E as <- _. simpl. lia.
  - left. injection E as <- _. simpl. lia.
  - left. destruct (f_todo s); injection E as <- _; simpl; lia.
  - left. rewrite (command_input _ _ _ E). simpl. lia.
  - unfold thread_step in E. destruct (f_thread s t) eqn:H.
    + left. injection E as <- _. simpl. lia.
    + left. injection E as <- _. destruct t; simpl; lia.
    + destruct t; simpl in E.
      * destruct (f_input s) eqn:F; [left; destruct (f_marker s); injection E as <- _; simpl; lia|]. destruct (f_mem s) eqn:MM; [|discriminate]. injection E as <- _.
        right. exists k, n. repeat split; auto.
      * left. destruct (f_marker s); [|destruct (f_reqs s)]; injection E as <- _; simpl; lia.
      * left. destruct (f_marker s); injection E as <- _; simpl; lia.
      * left. destruct (f_hmarker s); injection E as <- _; simpl; lia.
      * left. destruct (f_isrec s); [destruct k|]; injection E as <- _; simpl; lia.
      * left. destruct (nth i (f_queues s) 0); [destruct (f_pmarker s)|]; injection E as <- _; simpl; lia.
    + left. destruct t; try (injection E as <- _; simpl; lia).
      * destruct (f_reqs s); [injection E as <- _; simpl; lia|]. destruct (post (set_reqs s n) 1) eqn:Q; simpl in E; [|discriminate]. injection E as <- _. apply post_input in Q. simpl in *. lia.
      * destruct (post s (if Nat.odd k then f_links s else 0)) eqn:Q; simpl in E; [|discriminate]. injection E as <- _. apply post_input in Q. simpl in *. lia.
    + left. injection E as <- _. simpl. lia.
  - left. unfold waiting_step in E. destruct (f_wait s) as [[|]|]; try (injection E as <- _; simpl; lia). destruct (f_list s) as [|r l].
    + destruct (f_hmarker s); injection E as <- _; simpl; lia.
    + destruct (pass (r :: l) k) as [keep n]. destruct (post (set_list s keep) n) eqn:Q; simpl in E; [|discriminate]. injection E as <- _. apply post_input in Q. simpl in *. lia.
  - left. injection E as <- _. unfold pool_step. destruct (f_pool s) as [[[|] [|n] r]|]; simpl; lia.
  - left. injection E as <- _. unfold pool_put. destruct (f_pool s) as [[[|] n [|r]]|]; simpl; lia.
Qed.

(** A thread with no work gets none without a start. *)
Lemma ready_stays : forall s a s' ev t, life_step s a = Ok (s', ev) -> f_todo s = None -> (forall c, a <> ACommand c) -> ready (f_thread s t) = true -> ready (f_thread s' t) = true /\ f_todo s' = None.
Proof.
  intros s a s' ev t E T NC R. destruct (step_or_other a NC) as [->|O].
  - simpl in E. unfold command_step in E. rewrite T in E. injection E as <- _. auto.
  - destruct (other_outside _ _ _ _ E O). split; [apply u_ready; exact R|rewrite u_todo; exact T].
Qed.
Lemma unconsumed : forall acts s s' log, f_todo s = None -> ready (f_thread s Consumer) = true -> no_command acts -> life_run s acts = Ok (s', log) ->
  f_input s' = f_input s + arrivals acts.
Proof.
  induction acts as [|a acts IH]; intros s s' log T R N RN; [injection RN as <- _; unfold arrivals; simpl; lia|]. apply no_command_cons in N. destruct N as [N NC].
  simpl in RN. destruct (life_step s a) as [[s1 e1]|] eqn:E; simpl in RN; [|discriminate]. destruct (life_run s1 acts) as [[s2 e2]|] eqn:R2; simpl in RN; [|discriminate]. injection RN as <- _.
  destruct (ready_stays _ _ _ _ _ E T NC R) as [R1 T1]. rewrite (IH s1 s2 e2 T1 R1 N R2), arrivals_cons.
  destruct (step_input _ _ _ _ E) as [X|(k & n & _ & X & _)]; [lia|]. rewrite X in R. discriminate R.
Qed.

Lemma run_step : forall s log a, inv s log -> (forall c, a <> ACommand c) -> exists s' ev, life_step s a = Ok (s', ev) /\ inv s' (log ++ ev).
Proof.
  intros s log a I NC. destruct (life_step_inv s log a I) as (s1 & e1 & E & I1 & _); [intros c X; contradiction (NC c X)|]. eauto.
Qed.

Lemma input_waits : forall s log acts, inv s log -> busy log = false -> running log = false -> no_command acts ->
  exists s' log', life_run s acts = Ok (s', log') /\ f_input s' = f_input s + arrivals acts /\ at_rest s'.
Proof.
  intros s log acts I B R N. pose proof (rest_between _ _ I R B) as (RD & _). pose proof B as B0. rewrite (v_busy _ _ I) in B0. destruct (f_todo s) eqn:T; [discriminate|].
  assert (exists s' log', life_run s acts = Ok (s', log') /\ inv s' (log ++ log')) as (s' & log' & RN & I').
  { clear RD T B R B0. revert s log I. induction acts as [|a acts IH]; intros s log I; [eexists _, _; split; [reflexivity|rewrite app_nil_r; exact I]|].
    apply no_command_cons in N. destruct N as [N NC]. destruct (run_step _ _ _ I NC) as (s1 & e1 & E & I1). destruct (IH N _ _ I1) as (s2 & e2 & R2 & I2).
    simpl. rewrite E. simpl. rewrite R2. simpl. eexists _, _. split; [reflexivity|]. rewrite app_assoc. exact I2. }
  exists s', log'. split; [exact RN|]. split; [eapply unconsumed; eauto; apply RD; discriminate|].
  destruct (idle_silent _ _ _ _ T N RN) as [T' C]. apply (rest_between s' (log ++ log') I').
  - rewrite running_silent by exact C. exact R.
  - rewrite (v_busy _ _ I'), T'. reflexivity.
Qed.

(** During a run the consumer empties its input. *)
Lemma consumer_turn : forall s k s' ev, thread_step s Consumer k = Ok (s', ev) -> f_marker s = true -> f_thread s Consumer = Head -> f_input s' = f_input s - 1 /\ f_thread s' Consumer = Head.
Proof.
  intros s k s' ev E M H. unfold thread_step in E. rewrite H in E. simpl in E. destruct (f_input s) eqn:F.
  - rewrite M in E. injection E as <- _. auto.
  - destruct (f_mem s); [|discriminate]. injection E as <- _. simpl. split; [lia|exact H].
Qed.
Lemma other_consumer : forall s a s' ev, life_step s a = Ok (s', ev) -> other a -> turning a = 0 -> f_thread s' Consumer = f_thread s Consumer.
Proof.
  intros s a s' ev E O Z. destruct a; try contradiction; simpl in E.
  - injection E as <- _. reflexivity.
  - injection E as <- _. reflexivity.
  - apply (other_thread _ _ _ _ _ Consumer E). intros <-. discriminate Z.
  - unfold waiting_step in E. destruct (f_wait s) as [[|]|]; try (injection E as <- _; reflexivity). destruct (f_list s) as [|r l].
    + destruct (f_hmarker s); injection E as <- _; reflexivity.
    + destruct (pass (r :: l) k) as [keep n]. destruct (post (set_list s keep) n) eqn:Q; simpl in E; [|discriminate]. injection E as <- _. rewrite (post_thread _ _ _ Q). reflexivity.
  - injection E as <- _. unfold pool_step. destruct (f_pool s) as [[[|] [|n] r]|]; reflexivity.
  - injection E as <- _. unfold pool_put. destruct (f_pool s) as [[[|] n [|r]]|]; reflexivity.
Qed.
Lemma consumed : forall acts s log, inv s log -> f_todo s = None -> running log = true -> ready (f_thread s Consumer) = false -> no_command acts ->
  exists s' log', life_run s acts = Ok (s', log') /\
  f_input s' <= (f_input s - (turns acts - match f_thread s Consumer with Head => 0 | _ => 1 end)) + arrivals acts.
Proof.
  induction acts as [|a acts IH]; intros s log I T R H N.
  { exists s, []. split; [reflexivity|]. unfold arrivals, turns. simpl. lia. }
  apply no_command_cons in N. destruct N as [N NC]. destruct (run_step _ _ _ I NC) as (s1 & e1 & E & I1).
  assert (f_marker s = true) as M by (apply (v_marker _ _ I); unfold live; rewrite T; exact R).
  assert (f_todo s1 = None /\ running (log ++ e1) = true) as [T1 R1].
  { destruct (step_or_other a NC) as [->|O].
    - simpl in E. unfold command_step in E. rewrite T in E. injection E as <- <-. rewrite app_nil_r. auto.
    - destruct (other_outside _ _ _ _ E O). rewrite u_todo, running_silent by exact u_calm. auto. }
  assert (ready (f_thread s1 Consumer) = false /\
    f_input s1 <= f_input s + arriving a /\
    (turning a = 1 -> f_thread s1 Consumer = Head /\ (f_thread s Consumer = Head -> f_input s1 <= f_input s - 1)) /\
    (turning a = 0 -> f_thread s1 Consumer = f_thread s Consumer)) as (H1 & F1 & F2 & F3).
  { destruct (step_or_other a NC) as [->|O].
    - simpl in E. unfold command_step in E. rewrite T in E. injection E as <- <-. repeat split; auto; simpl in *; try lia; discriminate.
    - destruct (step_input _ _ _ _ E) as [X|(k & n & -> & X1 & X2 & _ & X3 & X4)].
      + destruct (turning a) eqn:TA.
        * rewrite (other_consumer _ _ _ _ E O TA). repeat split; auto; try lia; discriminate.
        * destruct a; try discriminate TA. destruct t; try discriminate TA. simpl in E, X.
          assert (f_thread s Consumer = Head \/ f_thread s Consumer <> Head) as [H0|H0] by (destruct (f_thread s Consumer); auto; right; discriminate).
          -- destruct (consumer_turn _ _ _ _ E M H0) as [Y1 Y2]. rewrite Y2. repeat split; auto; simpl; lia || discriminate.
          -- unfold thread_step in E. destruct (f_thread s Consumer); try discriminate H; try contradiction; injection E as <- _; simpl; repeat split; auto; try lia; discriminate.
      + rewrite X4, X1. simpl. repeat split; auto; try lia. }
  destruct (IH s1 (log ++ e1) I1 T1 R1 H1 N) as (s2 & e2 & R2 & L). simpl. rewrite E. simpl. rewrite R2. simpl. eexists _, _. split; [reflexivity|]. simpl.
  rewrite turns_cons, arrivals_cons.
  assert (turning a = 0 \/ (turning a = 1 /\ arriving a = 0)) as [Z|[Z Z2]] by (destruct a; simpl; auto; destruct t; auto).
  - rewrite Z. rewrite (F3 Z) in L. destruct (f_thread s Consumer); lia.
  - destruct (F2 Z) as [X Y]. rewrite X in L. rewrite Z. destruct (f_thread s Consumer); try discriminate H; try (specialize (Y eq_refl)); lia.
Qed.

(** ** A start without a buffer *)
Lemma mop_mem : forall s m s' ev, mop_step s m = Done s' ev -> (forall c, m <> MConf c) -> f_mem s' = f_mem s.
Proof.
  intros s m s' ev M NC. destruct m; unfold mop_step in M.
  - contradiction (NC c eq_refl).
  - destruct (f_isrec s || negb (f_open s)); [|destruct (f_thread s Recording)]; injection M as <- _; reflexivity.
  - destruct (f_conf s); [|destruct b; [discriminate|]]; injection M as <- _; reflexivity.
  - injection M as <- _; reflexivity.
  - injection M as <- _; reflexivity.
  - destruct (f_thread s t) eqn:H; injection M as <- _; reflexivity.
  - destruct (ready (f_thread s t)); [|discriminate]; injection M as <- _; reflexivity.
  - injection M as <- _; reflexivity.
  - destruct (f_wait s); [discriminate|]. injection M as <- _; reflexivity.
  - destruct (f_wait s) as [[|]|]; try discriminate. injection M as <- _; reflexivity.
  - destruct (f_pool s) as [p|]; [|discriminate]. destruct (o_pending p + o_retry p =? 0); [|destruct (o_joined p); [|discriminate]]; injection M as <- _; reflexivity.
  - injection M as <- _; reflexivity.
  - destruct ok; [|discriminate]. injection M as <- _; reflexivity.
  - destruct (f_thread s t); try discriminate. injection M as <- _; reflexivity.
  - destruct (f_wait s) eqn:W; [discriminate|]. injection M as <- _; reflexivity.
Qed.
Lemma post_mem : forall s n s', post s n = Ok s' -> f_mem s' = f_mem s.
Proof. intros s n s' H. unfold post in H. destruct n; [injection H as <-; reflexivity|]. destruct (f_pool s); [|discriminate]. injection H as <-. reflexivity. Qed.
Lemma other_mem : forall s a s' ev, life_step s a = Ok (s', ev) -> other a -> f_mem s' = f_mem s.
Proof.
  intros s a s' ev E O. destruct a; try contradiction; simpl in E.
  - injection E as <- _. reflexivity.
  - injection E as <- _. reflexivity.
  - unfold thread_step in E. destruct (f_thread s t) eqn:H.
    + injection E as <- _. reflexivity.
    + injection E as <- _. destruct t; reflexivity.
    + destruct t; simpl in E.
      * destruct (f_input s); [destruct (f_marker s)|destruct (f_mem s) eqn:MM; [|discriminate]]; injection E as <- _; auto.
      * destruct (f_marker s); [|destruct (f_reqs s)]; injection E as <- _; reflexivity.
      * destruct (f_marker s); injection E as <- _; reflexivity.
      * destruct (f_hmarker s); injection E as <- _; reflexivity.
      * destruct (f_isrec s); [destruct k|]; injection E as <- _; reflexivity.
      * destruct (nth i (f_queues s) 0); [destruct (f_pmarker s)|]; injection E as <- _; reflexivity.
    + destruct t; try (injection E as <- _; reflexivity).
      * destruct (f_reqs s); [injection E as <- _; reflexivity|]. destruct (post (set_reqs s n) 1) eqn:Q; simpl in E; [|discriminate]. injection E as <- _. apply post_mem in Q. exact Q.
      * destruct (post s (if Nat.odd k then f_links s else 0)) eqn:Q; simpl in E; [|discriminate]. injection E as <- _. apply post_mem in Q. exact Q.
    + injection E as <- _. reflexivity.
  - unfold waiting_step in E. destruct (f_wait s) as [[|]|]; try (injection E as <- _; reflexivity). destruct (f_list s) as [|r l].
    + destruct (f_hmarker s); injection E as <- _; reflexivity.
    + destruct (pass (r :: l) k) as [keep n]. destruct (post (set_list s keep) n) eqn:Q; simpl in E; [|discriminate]. injection E as <- _. apply (post_mem _ _ _ Q).
  - injection E as <- _. unfold pool_step. destruct (f_pool s) as [[[|] [|n] r]|]; reflexivity.
  - injection E as <- _. unfold pool_put. destruct (f_pool s) as [[[|] n [|r]]|]; reflexivity.
Qed.
Definition no_conf (s : life) : Prop := match f_todo s with Some (_, l) => forall c, ~ In (MConf c) l | None => True end.
Lemma no_memory : forall acts s s' log, f_mem s = false -> no_conf s -> no_command acts -> life_run s acts = Ok (s', log) -> f_input s' = f_input s + arrivals acts.
Proof.
  induction acts as [|a acts IH]; intros s s' log M C N RN; [injection RN as <- _; unfold arrivals; simpl; lia|]. apply no_command_cons in N. destruct N as [N NC].
  simpl in RN. destruct (life_step s a) as [[s1 e1]|] eqn:E; simpl in RN; [|discriminate]. destruct (life_run s1 acts) as [[s2 e2]|] eqn:R2; simpl in RN; [|discriminate]. injection RN as <- _.
  assert (f_mem s1 = false /\ no_conf s1) as [M1 C1].
  { destruct (step_or_other a NC) as [->|O].
    - simpl in E. unfold command_step in E. unfold no_conf in *. destruct (f_todo s) as [[c [|m rest]]|] eqn:T; try (injection E as <- _; simpl; rewrite ?T; auto; fail).
      destruct (mop_step s m) as [|sx|sx ex|] eqn:MO; try discriminate; injection E as <- _.
      + rewrite T. auto.
      + split; [|exact Logic.I]. change (f_mem sx = false). destruct m; unfold mop_step in MO; try discriminate; repeat (match type of MO with context [match ?x with _ => _ end] => destruct x end; try discriminate); injection MO as <-; exact M.
      + split; [change (f_mem sx = false); rewrite (mop_mem _ _ _ _ MO); [exact M|]|].
        * intros c0 ->. apply (C c0). left. reflexivity.
        * simpl. intros c0 X. apply (C c0). right. exact X.
    - split; [rewrite (other_mem _ _ _ _ E O); exact M|]. destruct (other_outside _ _ _ _ E O). unfold no_conf in *. rewrite u_todo. exact C. }
  rewrite (IH s1 s2 e2 M1 C1 N R2), arrivals_cons. destruct (step_input _ _ _ _ E) as [X|(k & n & _ & _ & _ & X & _)]; [lia|]. congruence.
Qed.
Lemma start_without_buffer : forall s log ok acts s' log', inv s log -> busy log = false -> buffer log = false -> no_command acts ->
  life_run s (ACommand (CStart ok) :: acts) = Ok (s', log') -> f_input s' = f_input s + arrivals acts.
Proof.
  intros s log ok acts s' log' I B F N RN. rewrite (v_busy _ _ I) in B. destruct (f_todo s) eqn:T; [discriminate|].
  pose proof (v_buffer2 _ _ I) as V. rewrite T in V. assert (f_mem s = false) as M by (apply not_true_is_false; intros X; rewrite (V X) in F; discriminate F).
  change (life_run s (ACommand (CStart ok) :: acts)) with (do r <- life_step s (ACommand (CStart ok)); do q <- life_run (fst r) acts; Ok (fst q, snd r ++ snd q)) in RN.
  simpl life_step in RN. rewrite T in RN. cbv beta iota in RN. simpl fst in RN. simpl snd in RN. unfold bind in RN.
  destruct (life_run (set_todo s (Some (CStart ok, program s (CStart ok)))) acts) as [[s2 e2]|] eqn:R2; simpl in RN; cbn [program app] in R2; simpl in R2; rewrite R2 in RN; [|discriminate]. injection RN as <- _.
  apply (no_memory acts (set_todo s (Some (CStart ok, program s (CStart ok)))) s2 e2); auto. unfold no_conf. simpl f_todo. cbv iota beta.
  intros c X. change (In (MConf c) (program s (CStart ok))) in X. destruct (start_ops _ _ _ X) as [Z|[Z|[(t & Z & _)|[Z|[Z|[Z|Z]]]]]]; discriminate Z.
Qed.

(** ** stop while payloads keep arriving *)
Lemma stop_blocked : forall acts s log l, inv s log -> f_todo s = Some (CStop, l) -> ready (f_thread s Consumer) = false -> no_command acts -> never_short (f_input s) acts ->
  exists s' log' l', life_run s acts = Ok (s', log') /\ inv s' (log ++ log') /\ f_todo s' = Some (CStop, l') /\ ~ In (EReturned CStop) log'.
Proof.
  induction acts as [|a acts IH]; intros s log l I T R N NS.
  { exists s, [], l. rewrite app_nil_r. split; [reflexivity|]. split; [exact I|]. split; [exact T|intros []]. }
  apply no_command_cons in N. destruct N as [N NC]. destruct (run_step _ _ _ I NC) as (s1 & e1 & E & I1).
  assert (live s log (MWork Consumer) (MWait Consumer)) as L by (apply (v_thread _ _ I); [discriminate|exact R]). unfold live in L. rewrite T in L.
  assert (exists l1, f_todo s1 = Some (CStop, l1) /\ ready (f_thread s1 Consumer) = false /\ ~ In (EReturned CStop) e1) as (l1 & T1 & R1 & Z).
  { destruct (step_or_other a NC) as [->|O].
    - simpl in E. unfold command_step in E. rewrite T in E. destruct l as [|m rest]; [contradiction|].
      destruct (mop_fine _ _ _ _ _ I T) as [_ NT]. destruct (mop_step s m) as [|sx|sx ex|] eqn:M; try discriminate.
      + injection E as <- <-. exists (m :: rest). auto.
      + destruct (NT _ eq_refl) as (X & _). discriminate X.
      + injection E as <- <-. exists rest. split; [reflexivity|]. split; [|apply calm_not; exact (mop_calm _ _ _ _ M)].
        change (ready (f_thread sx Consumer) = false). rewrite (mop_threads _ _ _ _ _ M); [exact R|discriminate|]. intros ->.
        destruct (v_prog _ _ I _ _ T) as [S|(c' & X & _)]; [|discriminate X]. pose proof (suffix_in (MWork Consumer) _ _ S ltac:(left; reflexivity)) as IM.
        destruct (stop_ops _ _ IM) as [X|[X|[(x & X & _)|[X|[X|[X|X]]]]]]; discriminate X.
    - destruct (other_outside _ _ _ _ E O). exists l. split; [rewrite u_todo; exact T|]. split; [|intros X; specialize (u_calm _ X); discriminate].
      destruct (turning a) eqn:TA; [rewrite (other_consumer _ _ _ _ E O TA); exact R|]. destruct a; try discriminate TA. destruct t; try discriminate TA.
      specialize (NS [] k acts eq_refl). change (0 < f_input s + 0) in NS. simpl in E. unfold thread_step in E. destruct (f_thread s Consumer) eqn:H; try discriminate R.
      + injection E as <- _. reflexivity.
      + simpl in E. destruct (f_input s); [lia|]. destruct (f_mem s); [|discriminate]. injection E as <- _. simpl. rewrite H. reflexivity.
      + injection E as <- _. reflexivity. }
  destruct (IH s1 (log ++ e1) l1 I1 T1 R1 N) as (s2 & e2 & l2 & R2 & I2 & T2 & Z2).
  { intros p k q ->. specialize (NS (a :: p) k q eq_refl). rewrite turns_cons, arrivals_cons in NS.
    destruct (step_input _ _ _ _ E) as [X|(k' & n & -> & _ & X2 & _ & X3 & _)]; simpl in *; lia. }
  exists s2, (e1 ++ e2), l2. simpl. rewrite E. simpl. rewrite R2. simpl. split; [reflexivity|]. split; [rewrite app_assoc; exact I2|]. split; [exact T2|].
  intros X. apply in_app_or in X. tauto.
Qed.

(** ** Work handed over *)
Lemma handed_over : forall acts s ok l s' log, f_todo s = Some (CStart ok, l) -> NoDup l -> (forall m, In m l -> m <> MRecord) -> (forall t, In (MWork t) l -> f_thread s t = Off) -> no_command acts ->
  life_run s acts = Ok (s', log) -> forall t, ~ In (EIgnored t) log.
Proof.
  induction acts as [|a acts IH]; intros s ok l s' log T ND NM W N RN t; [injection RN as _ <-; intros []|]. apply no_command_cons in N. destruct N as [N NC].
  simpl in RN. destruct (life_step s a) as [[s1 e1]|] eqn:E; simpl in RN; [|discriminate]. destruct (life_run s1 acts) as [[s2 e2]|] eqn:R2; simpl in RN; [|discriminate]. injection RN as _ <-.
  destruct (step_or_other a NC) as [->|O].
  - simpl in E. unfold command_step in E. rewrite T in E. destruct l as [|m rest].
    + injection E as <- <-. intros [X|X]; [discriminate X|]. destruct (idle_silent acts (set_todo s None) _ _ eq_refl N R2) as [_ Y]. specialize (Y _ X). discriminate Y.
    + destruct (mop_step s m) as [|sx|sx ex|] eqn:M; try discriminate; injection E as <- <-.
      * apply (IH s ok (m :: rest) s2 e2); auto.
      * intros [X|X]; [discriminate X|]. destruct (idle_silent acts (set_todo sx None) _ _ eq_refl N R2) as [_ Y]. specialize (Y _ X). discriminate Y.
      * apply NoDup_cons_iff in ND. destruct ND as [NI ND]. intros X. apply in_app_or in X. destruct X as [X|X].
        -- destruct m; unfold mop_step in M; try (injection M as _ <-; destruct X; fail).
           ++ destruct (uses_buffer s); [discriminate|]. injection M as _ <-. destruct (c_alloc c); [destruct X|destruct X as [X|[]]; discriminate X].
           ++ apply (NM MRecord); [left; reflexivity|reflexivity].
           ++ destruct (f_conf s); [|destruct b; [discriminate|]]; injection M as _ <-; destruct X.
           ++ rewrite (W t0) in M by (left; reflexivity). injection M as _ <-. destruct X.
           ++ destruct (ready (f_thread s t0)); [|discriminate]; injection M as _ <-; destruct X.
           ++ destruct (f_wait s); [discriminate|]. injection M as _ <-; destruct X.
           ++ destruct (f_wait s) as [[|]|]; try discriminate. injection M as _ <-; destruct X.
           ++ destruct (f_pool s) as [p|]; [|discriminate]. destruct (o_pending p + o_retry p =? 0); [|destruct (o_joined p); [|discriminate]]; injection M as _ <-; destruct X.
           ++ destruct ok0; [|discriminate]. injection M as _ <-; destruct X.
           ++ destruct (f_thread s t0); try discriminate. injection M as _ <-; destruct X.
           ++ destruct (f_wait s); [discriminate|]. injection M as _ <-; destruct X.
        -- revert X. apply (IH (set_todo sx (Some (CStart ok, rest))) ok rest s2 e2); auto; [intros x Hx; apply NM; right; exact Hx|].
           intros t' Ht'. change (f_thread sx t' = Off).
           assert (f_thread s t' = Off) as OF by (apply W; right; exact Ht'). assert (m <> MWork t') as NW by (intros ->; contradiction).
           assert (m <> MRecord) as NR by (apply NM; left; reflexivity).
           assert (t' = Recording \/ t' <> Recording) as [->|D] by (destruct t'; auto; right; discriminate).
           ++ destruct m; unfold mop_step in M; try contradiction; try (injection M as <- _; exact OF).
              ** destruct (uses_buffer s); [discriminate|]. injection M as <- _. exact OF.
              ** destruct (f_conf s); [|destruct b; [discriminate|]]; injection M as <- _; exact OF.
              ** destruct (f_thread s t0) eqn:H; injection M as <- _; try exact OF. simpl. destruct t0; try exact OF. contradiction NW. reflexivity.
              ** destruct (ready (f_thread s t0)); [|discriminate]; injection M as <- _; exact OF.
              ** destruct (f_wait s); [discriminate|]. injection M as <- _; exact OF.
              ** destruct (f_wait s) as [[|]|]; try discriminate. injection M as <- _; exact OF.
              ** destruct (f_pool s) as [p|]; [|discriminate]. destruct (o_pending p + o_retry p =? 0); [|destruct (o_joined p); [|discriminate]]; injection M as <- _; exact OF.
              ** destruct ok0; [|discriminate]. injection M as <- _; exact OF.
              ** destruct (f_thread s t0); try discriminate. injection M as <- _; exact OF.
              ** destruct (f_wait s); [discriminate|]. injection M as <- _; exact OF.
           ++ rewrite (mop_threads _ _ _ _ _ M D NW). exact OF.
  - destruct (other_outside _ _ _ _ E O). intros X. apply in_app_or in X. destruct X as [X|X]; [specialize (u_calm _ X); discriminate|]. revert X.
    apply (IH s1 ok l s2 e2); auto. rewrite u_todo. exact T.
Qed.
Lemma start_hands_over : forall s log ok acts s' log', inv s log -> busy log = false -> (forall t, t <> Recording -> f_thread s t = Off) -> no_command acts ->
  life_run s (ACommand (CStart ok) :: acts) = Ok (s', log') -> forall t, ~ In (EIgnored t) log'.
Proof.
  intros s log ok acts s' log' I B OF N RN. rewrite (v_busy _ _ I) in B. destruct (f_todo s) eqn:T; [discriminate|].
  change (life_run s (ACommand (CStart ok) :: acts)) with (do r <- life_step s (ACommand (CStart ok)); do q <- life_run (fst r) acts; Ok (fst q, snd r ++ snd q)) in RN.
  assert (life_step s (ACommand (CStart ok)) = Ok (set_todo s (Some (CStart ok, program s (CStart ok))), [ECommand (CStart ok)])) as E by (simpl; rewrite T; reflexivity).
  rewrite E in RN. unfold bind in RN. unfold fst at 1, snd at 1 in RN.
  destruct (life_run (set_todo s (Some (CStart ok, program s (CStart ok)))) acts) as [[s2 e2]|] eqn:R2; [|discriminate]. injection RN as _ <-. intros t [X|X]; [discriminate X|]. revert X.
  apply (handed_over acts (set_todo s (Some (CStart ok, program s (CStart ok)))) ok (program s (CStart ok)) s2 e2); auto.
  - apply program_nodup.
  - intros m X ->. destruct (start_ops _ _ _ X) as [Z|[Z|[(x & Z & _)|[Z|[Z|[Z|Z]]]]]]; discriminate Z.
  - intros t0 X. apply OF. destruct (start_ops _ _ _ X) as [Z|[Z|[(x & Z & NR & _)|[Z|[Z|[Z|Z]]]]]]; try discriminate Z. injection Z as ->. exact NR.
Qed.

(** ** Recordings *)
Lemma mop_record : forall s m s' ev, mop_step s m = Done s' ev -> In ERecord ev -> f_thread s Recording = Off /\ ev = [ERecord].
Proof.
  intros s m s' ev M X. destruct m; unfold mop_step in M; try (injection M as _ <-; destruct X; fail).
  - destruct (uses_buffer s); [discriminate|]. injection M as _ <-. destruct (c_alloc c); [destruct X|destruct X as [X|[]]; discriminate X].
  - destruct (f_isrec s || negb (f_open s)); [injection M as _ <-; destruct X as [X|[]]; discriminate X|]. destruct (f_thread s Recording); injection M as _ <-; try (destruct X as [X|[]]; discriminate X). auto.
  - destruct (f_conf s); [|destruct b; [discriminate|]]; injection M as _ <-; destruct X.
  - destruct (f_thread s t); injection M as _ <-; try destruct X as [X|[]]; try discriminate X. destruct X.
  - destruct (ready (f_thread s t)); [|discriminate]; injection M as _ <-; destruct X.
  - destruct (f_wait s); [discriminate|]. injection M as _ <-; destruct X.
  - destruct (f_wait s) as [[|]|]; try discriminate. injection M as _ <-; destruct X.
  - destruct (f_pool s) as [p|]; [|discriminate]. destruct (o_pending p + o_retry p =? 0); [|destruct (o_joined p); [|discriminate]]; injection M as _ <-; destruct X.
  - destruct ok; [|discriminate]. injection M as _ <-; destruct X.
  - destruct (f_thread s t); try discriminate. injection M as _ <-; destruct X.
  - destruct (f_wait s); [discriminate|]. injection M as _ <-; destruct X.
Qed.
Lemma step_record : forall s a s' ev, life_step s a = Ok (s', ev) -> In ERecord ev -> f_thread s Recording = Off /\ ev = [ERecord].
Proof.
  intros s a s' ev E X. assert (other a -> False) as NO by (intros O; destruct (other_outside _ _ _ _ E O); specialize (u_calm _ X); discriminate).
  destruct a; try (contradiction NO; exact Logic.I); simpl in E.
  - destruct (f_todo s); injection E as _ <-; [destruct X|destruct X as [X|[]]; discriminate X].
  - unfold command_step in E. destruct (f_todo s) as [[c [|m rest]]|]; try (injection E as _ <-; destruct X as [X|[]]; discriminate X); [|injection E as _ <-; destruct X].
    destruct (mop_step s m) as [|sx|sx ex|] eqn:M; try discriminate; injection E as _ <-; [destruct X|destruct X as [X|[]]; discriminate X|]. eapply mop_record; eauto.
Qed.
(** Which step an event of the log comes from. *)
Lemma list_split : forall {A} (a b c : list A) x d, a ++ b = c ++ x :: d -> (exists d', a = c ++ x :: d') \/ (exists u, c = a ++ u /\ b = u ++ x :: d).
Proof.
  induction a as [|y a IH]; intros b c x d E; [right; exists c; auto|]. destruct c as [|z c]; simpl in E; injection E as -> E.
  - left. exists a. reflexivity.
  - destruct (IH _ _ _ _ E) as [(d' & ->)|(u & -> & ->)]; [left; exists d'; reflexivity|right; exists u; split; reflexivity].
Qed.
Lemma event_split : forall acts s0 s log before e after, life_run s0 acts = Ok (s, log) -> log = before ++ e :: after ->
  exists p a q s1 l1 s2 u v, acts = p ++ a :: q /\ life_run s0 p = Ok (s1, l1) /\ life_step s1 a = Ok (s2, u ++ e :: v) /\ before = l1 ++ u.
Proof.
  intros acts s0. induction acts as [|a acts IH] using rev_ind; intros s log before e after R EQ.
  - injection R as _ <-. destruct before; discriminate EQ.
  - apply run_snoc in R. destruct R as (s1 & l1 & ev & R & E & ->). destruct (list_split _ _ _ _ _ EQ) as [(d' & Z)|(u & Z1 & Z2)].
    + destruct (IH s1 l1 before e d' R Z) as (p & x & q & A1 & A2 & A3 & A4 & A5 & -> & A). exists p, x, (q ++ [a]), A1, A2, A3, A4, A5. rewrite <- app_assoc. auto.
    + exists acts, a, [], s1, l1, s, u, after. subst ev. auto.
Qed.
Lemma one_recording : forall links acts s log before after, orderly (life_new links) acts -> life_run (life_new links) acts = Ok (s, log) ->
  log = before ++ ERecord :: after -> recording before = false.
Proof.
  intros links acts s log before after O R EQ. destruct (event_split _ _ _ _ _ _ _ R EQ) as (p & a & q & s1 & l1 & s2 & u & v & -> & R1 & E & ->).
  pose proof (orderly_inv _ _ _ _ (orderly_prefix _ _ _ O) R1) as I. destruct (step_record _ _ _ _ E) as [OF X]; [apply in_or_app; right; left; reflexivity|].
  destruct u as [|x u]; [|destruct u; discriminate X]. rewrite app_nil_r. pose proof (v_rec _ _ I) as V. rewrite OF in V. simpl in V. destruct (recording l1); [discriminate V|reflexivity].
Qed.

(** A stop waits for the recording. *)
Lemma stop_recording : forall links acts s log l, orderly (life_new links) acts -> life_run (life_new links) acts = Ok (s, log) ->
  f_todo s = Some (CStop, l) -> ~ In (MWait Recording) l -> recording log = false.
Proof.
  intros links acts. induction acts as [|a acts IH] using rev_ind; intros s log l O R T NI.
  - injection R as <- _. discriminate T.
  - apply run_snoc in R. destruct R as (s1 & l1 & ev & R & E & ->). pose proof (orderly_prefix _ _ _ O) as O1. pose proof (orderly_inv _ _ _ _ O1 R) as I1.
    assert (life_run (life_new links) (acts ++ [a]) = Ok (s, l1 ++ ev)) as RN by (rewrite run_app, R; simpl; rewrite E; simpl; rewrite app_nil_r; reflexivity).
    pose proof (orderly_inv _ _ _ _ O RN) as I. pose proof (v_rec _ _ I) as V.
    assert (ready (f_thread s Recording) = true) as RD; [|rewrite RD in V; destruct (recording (l1 ++ ev)); [discriminate V|reflexivity]].
    assert (forall l0, f_todo s1 = Some (CStop, l0) -> ~ In (MWait Recording) l0 -> ready (f_thread s1 Recording) = true) as P.
    { intros l0 T0 N0. rewrite (v_rec _ _ I1), (IH _ _ _ O1 R T0 N0). reflexivity. }
    destruct a as [| |c| |t k|k|b|]; try (destruct (other_outside _ _ _ _ E Logic.I); apply u_ready; rewrite u_todo in T; eapply P; eauto; fail).
    + simpl in E. destruct (f_todo s1) eqn:T1; injection E as <- <-; [eapply P; eauto; congruence|]. simpl in T. injection T as -> <-. exfalso. apply NI. unfold program. simpl. tauto.
    + simpl in E. unfold command_step in E. destruct (f_todo s1) as [[c [|m rest]]|] eqn:T1; try (injection E as <- _; simpl in T; congruence).
      destruct (mop_fine _ _ _ _ _ I1 T1) as [_ NT]. destruct (mop_step s1 m) as [|sx|sx ex|] eqn:M; try discriminate; injection E as <- <-.
      * rewrite T1 in T. injection T as -> <-. eapply P; eauto.
      * discriminate T.
      * simpl in T. injection T as -> ->. change (ready (f_thread sx Recording) = true).
        destruct (v_prog _ _ I1 _ _ T1) as [S|(c' & X & _)]; [|discriminate X]. pose proof (suffix_in m _ _ S ltac:(left; reflexivity)) as IM.
        destruct (stop_ops _ _ IM) as [->|[->|[(x & -> & _)|[->|[->|[->| ->]]]]]]; simpl in M.
        -- assert (ready (f_thread s1 Recording) = true) as Y by (apply (P _ eq_refl); intros [Z|Z]; [discriminate Z|contradiction]). destruct (f_conf s1); injection M as <- _; exact Y.
        -- assert (ready (f_thread s1 Recording) = true) as Y by (apply (P _ eq_refl); intros [Z|Z]; [discriminate Z|contradiction]). injection M as <- _; exact Y.
        -- destruct (ready (f_thread s1 x)) eqn:Y; [|discriminate]. injection M as <- _.
           assert (x = Recording \/ x <> Recording) as [->|D] by (destruct x; auto; right; discriminate); [exact Y|]. apply (P _ eq_refl). intros [Z|Z]; [injection Z as ->; contradiction|contradiction].
        -- assert (ready (f_thread s1 Recording) = true) as Y by (apply (P _ eq_refl); intros [Z|Z]; [discriminate Z|contradiction]). destruct (f_wait s1) as [[|]|]; try discriminate. injection M as <- _; exact Y.
        -- assert (ready (f_thread s1 Recording) = true) as Y by (apply (P _ eq_refl); intros [Z|Z]; [discriminate Z|contradiction]).
           destruct (f_pool s1) as [p|]; [|discriminate]. destruct (o_pending p + o_retry p =? 0); [|destruct (o_joined p); [|discriminate]]; injection M as <- _; exact Y.
        -- assert (ready (f_thread s1 Recording) = true) as Y by (apply (P _ eq_refl); intros [Z|Z]; [discriminate Z|contradiction]). injection M as <- _; exact Y.
        -- assert (ready (f_thread s1 Recording) = true) as Y by (apply (P _ eq_refl); intros [Z|Z]; [discriminate Z|contradiction]). injection M as <- _; exact Y.
Qed.
Lemma step_returned : forall s a s' u c v, life_step s a = Ok (s', u ++ EReturned c :: v) -> u = [] /\ a = AStep /\ f_todo s = Some (c, []).
Proof.
  intros s a s' u c v E. assert (other a -> False) as NO.
  { intros O. destruct (other_outside _ _ _ _ E O). specialize (u_calm (EReturned c) ltac:(apply in_or_app; right; left; reflexivity)). discriminate. }
  destruct a; try (contradiction NO; exact Logic.I); simpl in E.
  - destruct (f_todo s); injection E as _ E; destruct u; try discriminate E; destruct u; discriminate E.
  - unfold command_step in E. destruct (f_todo s) as [[c0 [|m rest]]|].
    + injection E as _ E. destruct u as [|x u]; [injection E as -> _; auto|]. destruct u; discriminate E.
    + exfalso. destruct (mop_step s m) as [|sx|sx ex|] eqn:M; try discriminate; injection E as _ E.
      * destruct u; discriminate E.
      * destruct u as [|x u]; [discriminate E|]. destruct u; discriminate E.
      * pose proof (mop_calm _ _ _ _ M) as C. rewrite E in C. apply (proj1 (calm_not _ c C)). apply in_or_app. right. left. reflexivity.
    + injection E as _ E. destruct u; discriminate E.
Qed.
Lemma stop_ends_recording : forall links acts s log before after, orderly (life_new links) acts -> life_run (life_new links) acts = Ok (s, log) ->
  log = before ++ EReturned CStop :: after -> recording before = false.
Proof.
  intros links acts s log before after O R EQ. destruct (event_split _ _ _ _ _ _ _ R EQ) as (p & a & q & s1 & l1 & s2 & u & v & -> & R1 & E & ->).
  destruct (step_returned _ _ _ _ _ _ E) as (-> & -> & T). rewrite app_nil_r. eapply stop_recording; [exact (orderly_prefix _ _ _ O)|exact R1|exact T|]. intros [].
Qed.

(** ** Checking a concrete schedule *)
Definition allowedb (log : list event) (c : cmd) : bool :=
  negb (existsb (fun e => match e with ECommand CDestroy => true | _ => false end) log) &&
  match c with
  | CConf _ => negb (running log) && negb (recording log)
  | CStart _ => negb (running log) && buffer log
  | CStop => running log
  | CRecord | CScrap => true
  | CDestroy => negb (running log)
  end.
Fixpoint check (s : life) (log : list event) (acts : list action) : bool :=
  match acts with
  | [] => true
  | a :: rest =>
      match a with ACommand c => negb (busy log) && allowedb log c | _ => true end &&
      match life_step s a with Ok (s', ev) => check s' (log ++ ev) rest | Crash => true end
  end.
Lemma allowedb_allowed : forall log c, allowedb log c = true -> allowed log c.
Proof.
  intros log c H. unfold allowedb in H. apply andb_prop in H. destruct H as [H1 H2]. split.
  - intros X. apply negb_true_iff in H1. apply not_true_iff_false in H1. apply H1. apply existsb_exists. exists (ECommand CDestroy). auto.
  - destruct c; auto; try (apply andb_prop in H2; destruct H2 as [A B]; apply negb_true_iff in A); try (apply negb_true_iff in B); try (apply negb_true_iff in H2); auto.
Qed.
Lemma check_orderly_from : forall acts s0 log0 before c after s log, check s0 log0 acts = true -> acts = before ++ ACommand c :: after -> life_run s0 before = Ok (s, log) ->
  busy (log0 ++ log) = false /\ allowed (log0 ++ log) c.
Proof.
  induction acts as [|a acts IH]; intros s0 log0 before c after s log C EQ R; [destruct before; discriminate EQ|].
  simpl in C. apply andb_prop in C. destruct C as [C1 C2]. destruct before as [|b before]; simpl in EQ; injection EQ as -> EQ.
  - injection R as <- <-. rewrite app_nil_r. apply andb_prop in C1. destruct C1 as [A B]. apply negb_true_iff in A. split; [exact A|apply allowedb_allowed; exact B].
  - simpl in R. destruct (life_step s0 b) as [[s1 e1]|]; simpl in R; [|discriminate]. destruct (life_run s1 before) as [[s2 e2]|] eqn:R2; simpl in R; [|discriminate].
    injection R as <- <-. rewrite app_assoc. eapply IH; eauto.
Qed.
Lemma check_orderly : forall s0 acts, check s0 [] acts = true -> orderly s0 acts.
Proof. intros s0 acts H before c after s log E R. exact (check_orderly_from acts s0 [] before c after s log H E R). Qed.
