(** Proofs about Life_model.v: commands out of order, payloads during and between runs, recordings. *)
From Coq Require Import List Bool Arith Lia.
From Verif Require Import Base_model Life_model Life_spec Life_proofs Life_proofs2 Life_proofs3 Life_proofs4 Life_proofs5.
Import ListNotations.
Open Scope nat_scope.

Lemma no_command_cons : forall a acts, no_command (a :: acts) -> no_command acts /\ (forall c, a <> ACommand c).
Proof. intros a acts H. split; [intros c X; apply (H c); right; exact X|intros c ->; apply (H c); left; reflexivity]. Qed.

(** The steps besides those of the command thread, when no command is issued. *)
Definition other (a : action) : Prop := match a with ACommand _ | AStep => False | _ => True end.
Lemma step_or_other : forall a, (forall c, a <> ACommand c) -> a = AStep \/ other a.
Proof. intros a H. destruct a; simpl; auto. right. exact (H c eq_refl). Qed.
Lemma other_outside : forall s a s' ev, life_step s a = Ok (s', ev) -> other a -> outside s s' ev.
Proof. intros s a s' ev E O. apply (life_step_outside s a); [exact E|]. destruct a; auto; contradiction. Qed.
Lemma other_steps : forall a acts, other a -> steps (a :: acts) = steps acts.
Proof. intros a acts O. destruct a; try reflexivity. contradiction. Qed.

(** ** start in a run *)
Definition easy (m : mop) : Prop := match m with MMarker _ | MPMarker _ | MHMarker _ | MWork _ | MPool => True | _ => False end.
Lemma easy_done : forall s m, easy m -> f_conf s = true -> exists s' ev, mop_step s m = Done s' ev /\ f_conf s' = true /\ f_wait s' = f_wait s.
Proof.
  intros s m E C. destruct m; try contradiction; simpl; rewrite ?C; try (eexists _, _; split; [reflexivity|]; simpl; auto).
  destruct (f_thread s t); eexists _, _; (split; [reflexivity|]); simpl; auto.
Qed.
Lemma spawn_aborts : forall acts s ok l rest, f_todo s = Some (CStart ok, l ++ MSpawn :: rest) -> (forall m, In m l -> easy m) ->
  f_conf s = true -> f_wait s <> None -> no_command acts -> S (length l) <= steps acts -> life_run s acts = Crash.
Proof.
  induction acts as [|a acts IH]; intros s ok l rest T EZ C W N L; [change (steps []) with 0 in L; lia|]. apply no_command_cons in N. destruct N as [N NC].
  simpl. destruct (life_step s a) as [[s' ev]|] eqn:E; [|reflexivity]. simpl. destruct (step_or_other a NC) as [->|O].
  - simpl in E. unfold command_step in E. rewrite T in E. destruct l as [|m l]; simpl in E.
    + destruct (f_wait s); [discriminate|contradiction].
    + destruct (easy_done s m (EZ m ltac:(left; reflexivity)) C) as (s1 & e1 & M & C1 & W1). rewrite M in E. injection E as <- <-.
      erewrite (IH _ ok l rest); [reflexivity|reflexivity| | | |exact N|].
      * intros x Hx. apply EZ. right. exact Hx.
      * exact C1.
      * change (f_wait s1 <> None). rewrite W1. exact W.
      * change (steps (AStep :: acts)) with (S (steps acts)) in L. simpl in L. lia.
  - pose proof (other_outside _ _ _ _ E O) as []. erewrite (IH s' ok l rest); [reflexivity| |exact EZ| | |exact N|].
    + rewrite u_todo. exact T.
    + rewrite u_conf. exact C.
    + intros X. apply u_wait in X. contradiction.
    + rewrite other_steps in L by exact O. exact L.
Qed.
Lemma start_in_a_run : forall s log ok acts, inv s log -> busy log = false -> running log = true -> no_command acts -> f_tasks s + 6 <= steps acts ->
  life_run s (ACommand (CStart ok) :: acts) = Crash.
Proof.
  intros s log ok acts I B R N L. rewrite (v_busy _ _ I) in B. destruct (f_todo s) eqn:T; [discriminate|]. simpl. rewrite T. simpl.
  rewrite (spawn_aborts acts _ ok ([MMarker true; MPMarker true] ++ map MWork (posts s) ++ [MPool; MHMarker true; MWork Cleanup]) [MWork Consumer; MWork Requester; MWork Timesync; MParse ok]); auto.
  - simpl. rewrite <- !app_assoc. reflexivity.
  - intros m H. rewrite !in_app_iff in H. destruct H as [H|[H|H]].
    + simpl in H. destruct H as [<-|[<-|[]]]; exact Logic.I.
    + apply in_map_iff in H. destruct H as (t & <- & _). exact Logic.I.
    + simpl in H. destruct H as [<-|[<-|[<-|[]]]]; exact Logic.I.
  - apply (v_conf _ _ I). unfold in_run. rewrite T. exact R.
  - apply (v_wait _ _ I). unfold live. rewrite T. exact R.
  - rewrite !app_length, map_length. unfold posts. rewrite map_length, seq_length. simpl. lia.
Qed.

(** ** conf while the buffer is in use *)
Lemma conf_in_use : forall s log c, inv s log -> work s log -> busy log = false -> running log = true \/ recording log = true ->
  life_run s [ACommand (CConf c); AStep] = Crash.
Proof.
  intros s log c I W B R. rewrite (v_busy _ _ I) in B. destruct (f_todo s) eqn:T; [discriminate|].
  assert (uses_buffer (set_todo s (Some (CConf c, [MConf c]))) = true) as U.
  { unfold uses_buffer. destruct R as [R|R].
    - assert (f_wait s <> None) as X by (apply (v_wait _ _ I); unfold live; rewrite T; exact R).
      assert (f_hmarker s = true) as Y by (apply (v_hmarker _ _ I); unfold live; rewrite T; exact R).
      simpl. destruct (f_wait s) as [[|]|] eqn:Z; [rewrite !orb_true_r; reflexivity| |contradiction]. rewrite (w_wait _ _ W Z) in Y. discriminate Y.
    - pose proof (v_rec _ _ I) as X. rewrite R in X. simpl in X |- *. rewrite X. simpl. rewrite !orb_true_r. reflexivity. }
  simpl. rewrite T. simpl. unfold command_step. simpl f_todo. cbv beta iota. unfold mop_step. rewrite U. reflexivity.
Qed.

(** ** Commands that do not return *)
Definition asked (acts : list action) (ev : list event) : Prop := forall c, ~ In (EReturned c) ev.

Lemma idle_silent : forall acts s s' log, f_todo s = None -> no_command acts -> life_run s acts = Ok (s', log) -> f_todo s' = None /\ (forall e, In e log -> e = ERecorded).
Proof.
  induction acts as [|a acts IH]; intros s s' log T N R; [injection R as <- <-; split; [exact T|intros e []]|]. apply no_command_cons in N. destruct N as [N NC].
  simpl in R. destruct (life_step s a) as [[s1 e1]|] eqn:E; simpl in R; [|discriminate]. destruct (life_run s1 acts) as [[s2 e2]|] eqn:R2; simpl in R; [|discriminate]. injection R as <- <-.
  destruct (step_or_other a NC) as [->|O].
  - simpl in E. unfold command_step in E. rewrite T in E. injection E as <- <-. exact (IH _ _ _ T N R2).
  - destruct (other_outside _ _ _ _ E O). destruct (IH s1 s2 e2) as [X Y]; [rewrite u_todo; exact T|exact N|exact R2|].
    split; [exact X|]. intros e He. apply in_app_or in He. destruct He; auto.
Qed.

Lemma calm_not : forall ev c, calm ev -> ~ In (EReturned c) ev /\ ~ In (EThrew c) ev.
Proof. intros ev c C. split; intros H; specialize (C _ H); exact C. Qed.
Lemma recorded_calm : forall ev, (forall e, In e ev -> e = ERecorded) -> calm ev.
Proof. intros ev H e He. rewrite (H e He). exact Logic.I. Qed.

Lemma stop_throws : forall acts s l rest s' log, f_todo s = Some (CStop, l ++ MJoinWaiting :: rest) ->
  (forall m, In m l -> (exists b, m = MMarker b) \/ (exists b, m = MHMarker b) \/ exists t, m = MWait t) ->
  f_wait s = None -> no_command acts -> life_run s acts = Ok (s', log) ->
  (forall c, ~ In (EReturned c) log) /\
  ((forall t, In (MWait t) l -> ready (f_thread s t) = true) -> (forall b, In (MMarker b) l -> b = false) -> S (length l) <= steps acts -> In (EThrew CStop) log /\ f_todo s' = None).
Proof.
  induction acts as [|a acts IH]; intros s l rest s' log T EZ W N R.
  { injection R as <- <-. split; [intros c []|]. intros _ _ L. change (steps []) with 0 in L. lia. }
  apply no_command_cons in N. destruct N as [N NC].
  simpl in R. destruct (life_step s a) as [[s1 e1]|] eqn:E; simpl in R; [|discriminate]. destruct (life_run s1 acts) as [[s2 e2]|] eqn:R2; simpl in R; [|discriminate]. injection R as <- <-.
  destruct (step_or_other a NC) as [->|O].
  - simpl in E. unfold command_step in E. rewrite T in E. destruct l as [|m l]; simpl in E.
    + rewrite W in E. injection E as <- <-. destruct (idle_silent acts (set_todo s None) s2 e2 eq_refl N R2) as [X Y]. split.
      * intros c H. apply in_app_or in H. destruct H as [[H|[]]|H]; [discriminate H|]. specialize (Y _ H). discriminate Y.
      * intros _ _ _. split; [left; reflexivity|exact X].
    + pose proof (EZ m ltac:(left; reflexivity)) as K. destruct (mop_step s m) as [|sx|sx ex|] eqn:M.
      * injection E as <- <-. destruct (IH s (m :: l) rest s2 e2 T EZ W N R2) as [X Y]. split; [exact X|].
        intros A B L. exfalso. destruct K as [[b ->]|[[b ->]|[t ->]]]; simpl in M; try discriminate.
        -- destruct (f_conf s); [discriminate|]. destruct b; discriminate.
        -- rewrite (A t) in M by (left; reflexivity). discriminate.
      * exfalso. destruct K as [[b ->]|[[b ->]|[t ->]]]; simpl in M; try discriminate; [destruct (f_conf s); [discriminate|]; destruct b; discriminate|]. destruct (ready (f_thread s t)); discriminate.
      * injection E as <- <-. pose proof (mop_wait _ _ _ _ M) as WX. pose proof (fun t A => mop_threads _ _ _ _ t M A) as TX.
        destruct (IH (set_todo sx (Some (CStop, l ++ MJoinWaiting :: rest))) l rest s2 e2 eq_refl) as [X Y]; [intros x Hx; apply EZ; right; exact Hx| |exact N|exact R2|].
        { change (f_wait sx = None). rewrite WX. destruct K as [[b ->]|[[b ->]|[t ->]]]; exact W. }
        pose proof (mop_calm _ _ _ _ M) as C. split.
        -- intros c H. apply in_app_or in H. destruct H as [H|H]; [exact (proj1 (calm_not _ c C) H)|exact (X c H)].
        -- intros A B L. change (steps (AStep :: acts)) with (S (steps acts)) in L. simpl in L. destruct Y as [Y1 Y2]; [| |lia|].
           ++ intros t Ht. change (ready (f_thread sx t) = true).
              assert (f_thread sx t = f_thread s t) as ->; [|apply A; right; exact Ht].
              destruct K as [[b ->]|[[b ->]|[t0 ->]]]; simpl in M.
              ** destruct (f_conf s); [|destruct b; [discriminate|]]; injection M as <- _; reflexivity.
              ** injection M as <- _; reflexivity.
              ** destruct (ready (f_thread s t0)); [|discriminate]; injection M as <- _; reflexivity.
           ++ intros b Hb. apply B. right. exact Hb.
           ++ split; [apply in_or_app; right; exact Y1|exact Y2].
      * discriminate.
  - destruct (other_outside _ _ _ _ E O). destruct (IH s1 l rest s2 e2) as [X Y]; [rewrite u_todo; exact T|exact EZ|apply u_wait; exact W|exact N|exact R2|].
    split.
    + intros c H. apply in_app_or in H. destruct H as [H|H]; [specialize (u_calm _ H); discriminate|exact (X c H)].
    + intros A B L. rewrite other_steps in L by exact O. destruct Y as [Y1 Y2]; [|exact B|exact L|split; [apply in_or_app; right; exact Y1|exact Y2]].
      intros t Ht. apply u_ready. apply A. exact Ht.
Qed.

Lemma stop_between_runs : forall s log acts s' log', inv s log -> busy log = false -> running log = false -> no_command acts ->
  life_run s (ACommand CStop :: acts) = Ok (s', log') ->
  ~ In (EReturned CStop) log' /\ (recording log = false -> 5 <= steps acts -> In (EThrew CStop) log' /\ f_todo s' = None).
Proof.
  intros s log acts s' log' I B R N RN. pose proof (rest_between _ _ I R B) as (RD & W & _). rewrite (v_busy _ _ I) in B. destruct (f_todo s) eqn:T; [discriminate|].
  simpl in RN. rewrite T in RN. simpl in RN.
  destruct (life_run (set_todo s (Some (CStop, program s CStop))) acts) as [[s2 e2]|] eqn:R2; unfold program in R2; simpl in R2, RN; rewrite R2 in RN; simpl in RN; [|discriminate]. injection RN as <- <-.
  destruct (stop_throws acts (set_todo s (Some (CStop, program s CStop))) [MMarker false; MHMarker false; MWait Recording; MWait Cleanup]
    ([MJoinPool; MWait Timesync; MWait Consumer; MWait Requester; MFlush; MPMarker false] ++ map MWait (posts s)) s2 e2 eq_refl) with (4 := R2) as [X Y].
  - intros m [<-|[<-|[<-|[<-|[]]]]]; eauto.
  - exact W.
  - exact N.
  - split.
    + intros [H|H]; [discriminate H|exact (X _ H)].
    + intros RC L. destruct Y as [Y1 Y2].
      * intros t [H|[H|[H|[H|[]]]]]; try discriminate H; injection H as <-; change (ready (f_thread s Recording) = true) || change (ready (f_thread s Cleanup) = true).
        -- rewrite (v_rec _ _ I), RC. reflexivity.
        -- apply RD. discriminate.
      * intros b [H|[H|[H|[H|[]]]]]; try discriminate H. injection H as <-. reflexivity.
      * simpl. lia.
      * split; [right; exact Y1|exact Y2].
Qed.

Lemma drop_never : forall acts s l rest s' log, f_todo s = Some (CDestroy, l ++ MDropWaiting :: rest) -> (forall m, In m l -> exists t, m = MGone t) ->
  f_wait s <> None -> no_command acts -> life_run s acts = Ok (s', log) -> (forall c, ~ In (EReturned c) log /\ ~ In (EThrew c) log) /\ exists l', f_todo s' = Some (CDestroy, l' ++ MDropWaiting :: rest).
Proof.
  induction acts as [|a acts IH]; intros s l rest s' log T EZ W N R.
  { injection R as <- <-. split; [intros c; split; intros []|eauto]. }
  apply no_command_cons in N. destruct N as [N NC].
  simpl in R. destruct (life_step s a) as [[s1 e1]|] eqn:E; simpl in R; [|discriminate]. destruct (life_run s1 acts) as [[s2 e2]|] eqn:R2; simpl in R; [|discriminate]. injection R as <- <-.
  assert (forall l', calm e1 -> f_todo s1 = Some (CDestroy, l' ++ MDropWaiting :: rest) -> (forall m, In m l' -> exists t, m = MGone t) -> f_wait s1 <> None ->
    (forall c, ~ In (EReturned c) (e1 ++ e2) /\ ~ In (EThrew c) (e1 ++ e2)) /\ exists l', f_todo s2 = Some (CDestroy, l' ++ MDropWaiting :: rest)) as K.
  { intros l' C T1 E1 W1. destruct (IH s1 l' rest s2 e2 T1 E1 W1 N R2) as [X Y]. split; [|exact Y].
    intros c. specialize (X c). rewrite !in_app_iff. pose proof (calm_not _ c C). tauto. }
  destruct (step_or_other a NC) as [->|O].
  - simpl in E. unfold command_step in E. rewrite T in E. destruct l as [|m l]; simpl in E.
    + destruct (f_wait s); [discriminate|contradiction].
    + destruct (EZ m ltac:(left; reflexivity)) as [t ->]. simpl in E.
      destruct (f_thread s t); injection E as <- <-; try (apply (K (MGone t :: l)); auto; intros e []).
      apply (K l); auto; [intros e []|]. intros x Hx. apply EZ. right. exact Hx.
  - destruct (other_outside _ _ _ _ E O). apply (K l); auto; [apply recorded_calm; exact u_calm|rewrite u_todo; exact T|]. intros X. apply u_wait in X. contradiction.
Qed.
Lemma destroy_in_a_run : forall s log acts s' log', inv s log -> busy log = false -> running log = true -> no_command acts ->
  life_run s (ACommand CDestroy :: acts) = Ok (s', log') -> ~ In (EReturned CDestroy) log' /\ ~ In (EThrew CDestroy) log'.
Proof.
  intros s log acts s' log' I B R N RN. rewrite (v_busy _ _ I) in B. destruct (f_todo s) eqn:T; [discriminate|].
  assert (f_wait s <> None) as W by (apply (v_wait _ _ I); unfold live; rewrite T; exact R).
  change (life_run s (ACommand CDestroy :: acts)) with (do r <- life_step s (ACommand CDestroy); do q <- life_run (fst r) acts; Ok (fst q, snd r ++ snd q)) in RN.
  simpl life_step in RN. rewrite T in RN. cbv beta iota in RN. simpl fst in RN. simpl snd in RN.
  destruct (life_run (set_todo s (Some (CDestroy, program s CDestroy))) acts) as [[s2 e2]|] eqn:R2; unfold program in R2; simpl in R2, RN; rewrite R2 in RN; simpl in RN; [|discriminate]. injection RN as <- <-.
  destruct (drop_never acts (set_todo s (Some (CDestroy, program s CDestroy))) [MGone Timesync; MGone Requester]
    ([MGone Cleanup; MGone Recording] ++ map MGone (posts s) ++ [MGone Consumer]) s2 e2 eq_refl) with (4 := R2) as [X _].
  - intros m [<-|[<-|[]]]; eauto.
  - exact W.
  - exact N.
  - specialize (X CDestroy). simpl. split; intros [H|H]; try discriminate H; tauto.
Qed.
