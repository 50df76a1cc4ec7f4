(** C68: the life of a data link handler under its commands. *)
From Coq Require Import List Bool Arith Lia.
From Verif Require Import Base_model Life_model Life_spec Life_proofs Life_proofs2 Life_proofs3 Life_proofs4 Life_proofs5 Life_proofs6 Life_proofs7.
Import ListNotations.
Open Scope nat_scope.

(** Commands in the supported order never bring the process down, whatever the threads do, and the only one that throws is a start whose
    arguments are bad. *)
Theorem C68_commands_in_order : forall links acts, orderly (life_new links) acts ->
  exists s log, life_run (life_new links) acts = Ok (s, log) /\ forall c, In (EThrew c) log -> c = CStart false.
Proof. intros links acts O. destruct (orderly_run links acts O) as (s & log & R & _ & F). exists s, log. auto. Qed.
Print Assumptions C68_commands_in_order.

(** Between runs no thread is at work besides a recording, the latency buffer is empty, and the payloads that arrive stay for the next run. *)
Theorem C68_between_runs : forall links acts s log, orderly (life_new links) acts -> life_run (life_new links) acts = Ok (s, log) ->
  running log = false -> busy log = false ->
  at_rest s /\ forall more, no_command more -> exists s' log', life_run s more = Ok (s', log') /\ f_input s' = f_input s + arrivals more /\ at_rest s'.
Proof.
  intros links acts s log O R RU B. pose proof (orderly_inv _ _ _ _ O R) as I. split; [eapply rest_between; eauto|].
  intros more N. eapply input_waits; eauto.
Qed.
Print Assumptions C68_between_runs.

(** During a run every thread is at its work, unless the start could not hand it over. *)
Theorem C68_run_has_its_threads : forall links acts s log, orderly (life_new links) acts -> life_run (life_new links) acts = Ok (s, log) ->
  running log = true -> current log <> Some CStop ->
  forall t, t <> Recording -> (forall i, t = Post i -> i < f_tasks s) -> ready (f_thread s t) = false \/ In t (ignored log).
Proof.
  intros links acts s log O R RU C t NR V. pose proof (orderly_work _ _ _ _ O R) as W. apply (w_thread _ _ W t NR V).
  pose proof (orderly_inv _ _ _ _ O R) as I. unfold live. rewrite (run_current _ _ _ _ R) in C. destruct (f_todo s) as [[c l]|] eqn:T; [|exact RU].
  pose proof (v_mode _ _ I _ _ T) as MD. destruct c; auto.
  - rewrite RU in MD. discriminate MD.
  - contradiction C. reflexivity.
Qed.
Print Assumptions C68_run_has_its_threads.

(** So during a run the payloads queued are consumed: one per turn of the consumer after its first. *)
Theorem C68_run_consumes : forall links acts s log, orderly (life_new links) acts -> life_run (life_new links) acts = Ok (s, log) ->
  running log = true -> busy log = false -> ~ In Consumer (ignored log) ->
  forall more, no_command more -> f_input s + 1 <= turns more ->
  exists s' log', life_run s more = Ok (s', log') /\ f_input s' <= arrivals more.
Proof.
  intros links acts s log O R RU B IG more N L. pose proof (orderly_inv _ _ _ _ O R) as I. pose proof B as B0. rewrite (v_busy _ _ I) in B0.
  destruct (f_todo s) eqn:T; [discriminate|]. assert (ready (f_thread s Consumer) = false) as H.
  { destruct (C68_run_has_its_threads links acts s log O R RU) with (t := Consumer) as [H|H]; auto; try discriminate; [|contradiction].
    rewrite (run_current _ _ _ _ R), T. discriminate. }
  destruct (consumed more s log I T RU H N) as (s' & log' & RN & X). exists s', log'. split; [exact RN|]. destruct (f_thread s Consumer); lia.
Qed.
Print Assumptions C68_run_consumes.

(** A start hands its work to every thread if the threads have gone to sleep since the last run. *)
Theorem C68_start_hands_over : forall links acts s log ok, orderly (life_new links) acts -> life_run (life_new links) acts = Ok (s, log) -> busy log = false ->
  (forall t, t <> Recording -> f_thread s t = Off) ->
  forall more s' log', no_command more -> life_run s (ACommand (CStart ok) :: more) = Ok (s', log') -> forall t, ~ In (EIgnored t) log'.
Proof. intros links acts s log ok O R B OF more s' log' N RN. eapply start_hands_over; eauto. eapply orderly_inv; eauto. Qed.
Print Assumptions C68_start_hands_over.

(** A stop returns once nothing arrives any more, whatever the schedule, if every thread keeps getting its turn (and a recording ends). *)
Theorem C68_stop_returns : forall links acts s log, orderly (life_new links) acts -> life_run (life_new links) acts = Ok (s, log) -> current log = Some CStop ->
  forall rounds, (forall i, round (f_tasks s) (rounds i)) -> exists n s' log', life_run s (first_rounds rounds n) = Ok (s', log') /\ In (EReturned CStop) log'.
Proof.
  intros links acts s log O R C rounds RD. pose proof (orderly_inv _ _ _ _ O R) as I. rewrite (run_current _ _ _ _ R) in C.
  destruct (f_todo s) as [[c l]|] eqn:T; [|discriminate C]. injection C as ->. apply (stopping_stops (length l) s log l rounds); auto. split; assumption.
Qed.
Print Assumptions C68_stop_returns.

(** While there is a payload whenever the consumer looks, it does not. *)
Theorem C68_stop_waits_for_input : forall links acts s log, orderly (life_new links) acts -> life_run (life_new links) acts = Ok (s, log) -> current log = Some CStop ->
  ready (f_thread s Consumer) = false ->
  forall more, no_command more -> never_short (f_input s) more -> exists s' log', life_run s more = Ok (s', log') /\ current (log ++ log') = Some CStop /\ ~ In (EReturned CStop) log'.
Proof.
  intros links acts s log O R C H more N NS. pose proof (orderly_inv _ _ _ _ O R) as I. pose proof C as C0. rewrite (run_current _ _ _ _ R) in C0.
  destruct (f_todo s) as [[c l]|] eqn:T; [|discriminate C0]. injection C0 as ->.
  destruct (stop_blocked more s log l I T H N NS) as (s' & log' & l' & RN & _ & T' & Z). exists s', log'. split; [exact RN|]. split; [|exact Z].
  assert (life_run (life_new links) (acts ++ more) = Ok (s', log ++ log')) as RA by (rewrite run_app, R; simpl; rewrite RN; reflexivity).
  rewrite (run_current _ _ _ _ RA), T'. reflexivity.
Qed.
Print Assumptions C68_stop_waits_for_input.

(** Out of order. A start in a run ends the process. *)
Theorem C68_start_in_a_run : forall links acts s log ok, orderly (life_new links) acts -> life_run (life_new links) acts = Ok (s, log) ->
  running log = true -> busy log = false ->
  forall more, no_command more -> f_tasks s + 6 <= steps more -> life_run s (ACommand (CStart ok) :: more) = Crash.
Proof. intros links acts s log ok O R RU B more N L. eapply start_in_a_run; eauto. eapply orderly_inv; eauto. Qed.
Print Assumptions C68_start_in_a_run.

(** A conf in a run or during a recording frees the buffer under a thread that may be using it. *)
Theorem C68_conf_in_use : forall links acts s log c, orderly (life_new links) acts -> life_run (life_new links) acts = Ok (s, log) ->
  running log = true \/ recording log = true -> busy log = false -> life_run s [ACommand (CConf c); AStep] = Crash.
Proof.
  intros links acts s log c O R X B. eapply conf_in_use; eauto; [eapply orderly_inv; eauto|eapply orderly_work; eauto].
Qed.
Print Assumptions C68_conf_in_use.

(** The destruction of a running module never comes to its end. *)
Theorem C68_destroy_in_a_run : forall links acts s log, orderly (life_new links) acts -> life_run (life_new links) acts = Ok (s, log) ->
  running log = true -> busy log = false ->
  forall more s' log', no_command more -> life_run s (ACommand CDestroy :: more) = Ok (s', log') -> ~ In (EReturned CDestroy) log' /\ ~ In (EThrew CDestroy) log'.
Proof. intros links acts s log O R RU B more s' log' N RN. eapply destroy_in_a_run; eauto. eapply orderly_inv; eauto. Qed.
Print Assumptions C68_destroy_in_a_run.

(** A stop between runs never returns: it throws, unless a recording is on, which it waits for first. *)
Theorem C68_stop_between_runs : forall links acts s log, orderly (life_new links) acts -> life_run (life_new links) acts = Ok (s, log) ->
  running log = false -> busy log = false ->
  forall more s' log', no_command more -> life_run s (ACommand CStop :: more) = Ok (s', log') ->
  ~ In (EReturned CStop) log' /\ (recording log = false -> 5 <= steps more -> In (EThrew CStop) log').
Proof.
  intros links acts s log O R RU B more s' log' N RN. destruct (stop_between_runs s log more s' log' (orderly_inv _ _ _ _ O R) B RU N RN) as [X Y].
  split; [exact X|]. intros A L. apply (Y A L).
Qed.
Print Assumptions C68_stop_between_runs.

(** A start after a conf that could not allocate its buffer, or after none: as long as the process lives no payload is taken. *)
Theorem C68_start_without_buffer : forall links acts s log ok, orderly (life_new links) acts -> life_run (life_new links) acts = Ok (s, log) ->
  buffer log = false -> busy log = false ->
  forall more s' log', no_command more -> life_run s (ACommand (CStart ok) :: more) = Ok (s', log') -> f_input s' = f_input s + arrivals more.
Proof. intros links acts s log ok O R F B more s' log' N RN. eapply start_without_buffer; eauto. eapply orderly_inv; eauto. Qed.
Print Assumptions C68_start_without_buffer.

(** There is one recording at a time, and none when a stop returns. *)
Theorem C68_recordings : forall links acts s log before after, orderly (life_new links) acts -> life_run (life_new links) acts = Ok (s, log) ->
  log = before ++ ERecord :: after \/ log = before ++ EReturned CStop :: after -> recording before = false.
Proof.
  intros links acts s log before after O R [E|E]; [eapply one_recording; eauto|eapply stop_ends_recording; eauto].
Qed.
Print Assumptions C68_recordings.

(** ** Concrete schedules *)
Definition go (n : nat) : list action := repeat AStep n.
Definition all (k : nat) : list action := map (fun t => AThread t k) [Consumer; Requester; Timesync; Cleanup; Recording; Post 0].
Definition conf1 : list action := ACommand (CConf (mkSetup 1 true true 2)) :: go 2.
Definition start1 : list action := ACommand (CStart true) :: go 12.
Definition a_round : list action := AStep :: all 1 ++ [AWaiting 1; APool true; APoolPut].

(** A run that takes two payloads and a request, with a recording; then a stop; then all threads go to sleep. *)
Definition a_run : list action :=
  conf1 ++ start1 ++ all 0 ++ [AArrive; AArrive; ARequest; AThread Consumer 3; AThread Consumer 3; AThread Requester 0; AThread Requester 0; AThread (Post 0) 0] ++
  [ACommand CRecord] ++ go 2 ++ all 0.
Definition until_stopped : list action := ACommand CStop :: concat (repeat a_round 20).

Example C68_commands_in_order_example : orderly (life_new 2) (a_run ++ until_stopped) /\
  exists s log, life_run (life_new 2) (a_run ++ until_stopped) = Ok (s, log) /\ In ERecorded log /\ In (EReturned CStop) log /\ running log = false /\ busy log = false.
Proof.
  split; [apply check_orderly; vm_compute; reflexivity|]. eexists _, _. split; [vm_compute; reflexivity|]. vm_compute. repeat split; tauto.
Qed.

(** In the middle of the run: every thread works; six more tasks and steps and a start ends the process; conf too. *)
Example C68_run_example : orderly (life_new 2) a_run /\
  exists s log, life_run (life_new 2) a_run = Ok (s, log) /\ running log = true /\ recording log = true /\ busy log = false /\ ignored log = [] /\ buffer log = true /\ f_input s = 0 /\
  life_run s (ACommand (CStart true) :: go 7) = Crash /\ life_run s [ACommand (CConf (mkSetup 0 true true 0)); AStep] = Crash.
Proof. split; [apply check_orderly; vm_compute; reflexivity|]. eexists _, _. split; [vm_compute; reflexivity|]. vm_compute. repeat split. Qed.

(** A destruction of the running module: stuck at its first step for ever. *)
Example C68_destroy_example : exists s log s' log', life_run (life_new 2) (a_run) = Ok (s, log) /\ life_run s (ACommand CDestroy :: concat (repeat a_round 5)) = Ok (s', log') /\
  current log' = Some CDestroy.
Proof. eexists _, _, _, _. split; [vm_compute; reflexivity|]. split; vm_compute; reflexivity. Qed.

(** The module right after a conf: the stop throws. *)
Example C68_stop_example : orderly (life_new 1) conf1 /\
  exists s log s' log', life_run (life_new 1) conf1 = Ok (s, log) /\ running log = false /\ recording log = false /\ life_run s (ACommand CStop :: go 5) = Ok (s', log') /\ log' = [ECommand CStop; EThrew CStop].
Proof. split; [apply check_orderly; vm_compute; reflexivity|]. eexists _, _, _, _. split; [vm_compute; reflexivity|]. vm_compute. repeat split. Qed.

(** The allocation failed, which is reported and swallowed; the start returns; the first payload ends the process. *)
Example C68_no_buffer_example : exists s log, life_run (life_new 1) (ACommand (CConf (mkSetup 0 false false 0)) :: go 2) = Ok (s, log) /\
  orderly (life_new 1) (ACommand (CConf (mkSetup 0 false false 0)) :: go 2) /\
  log = [ECommand (CConf (mkSetup 0 false false 0)); EError; EReturned (CConf (mkSetup 0 false false 0))] /\ buffer log = false /\
  (exists s' log', life_run s (ACommand (CStart true) :: go 11) = Ok (s', log') /\ In (EReturned (CStart true)) log' /\
     life_run s' [AThread Consumer 0; AArrive; AThread Consumer 1] = Crash) /\
  life_run (life_new 1) (ACommand (CStart true) :: go 1) = Crash.
Proof.
  eexists _, _. split; [vm_compute; reflexivity|]. split; [apply check_orderly; vm_compute; reflexivity|]. split; [reflexivity|]. split; [reflexivity|].
  split; [|reflexivity]. eexists _, _. split; [vm_compute; reflexivity|]. split; [vm_compute; tauto|vm_compute; reflexivity].
Qed.

(** A stop waits while payloads arrive: the consumer never finds its input empty. *)
Definition a_busy_round : list action := [AArrive; AThread Consumer 1; AStep].
Example C68_stop_waits_example : exists s log, life_run (life_new 2) (a_run ++ [ACommand CStop]) = Ok (s, log) /\ orderly (life_new 2) (a_run ++ [ACommand CStop]) /\
  current log = Some CStop /\ ready (f_thread s Consumer) = false /\
  forall n, never_short (f_input s) (concat (repeat a_busy_round n)) /\ no_command (concat (repeat a_busy_round n)).
Proof.
  eexists _, _. split; [vm_compute; reflexivity|]. split; [apply check_orderly; vm_compute; reflexivity|]. split; [vm_compute; reflexivity|]. split; [reflexivity|]. intros n. split.
  - intros p k q E. change (turns p < 0 + arrivals p). revert p E. induction n as [|n IH]; intros p E; [destruct p; discriminate E|].
    destruct p as [|a1 [|a2 [|a3 p]]]; simpl in E; try discriminate E.
    + injection E as <- _ _. unfold turns, arrivals. simpl. lia.
    + injection E as <- <- <- E. rewrite !turns_cons, !arrivals_cons. simpl. specialize (IH p E). lia.
  - intros c H. apply in_concat in H. destruct H as (x & H1 & H2). apply repeat_spec in H1. subst x. simpl in H2. intuition discriminate.
Qed.

(** A stop followed at once by a start: the threads have not gone to sleep, the new run has no consumer, and no payload is ever taken. *)
Theorem C68_restart_without_consumer : exists acts s log, orderly (life_new 2) acts /\ life_run (life_new 2) acts = Ok (s, log) /\
  running log = true /\ busy log = false /\ In Consumer (ignored log) /\
  forall more s' log', no_command more -> life_run s more = Ok (s', log') -> f_input s' = f_input s + arrivals more.
Proof.
  exists (conf1 ++ start1 ++ all 0 ++ ACommand CStop :: go 2 ++ [AThread Cleanup 0; AWaiting 0; AThread Timesync 0; AThread Consumer 0; AThread Requester 0] ++ go 9 ++ [AThread (Post 0) 0] ++ go 2 ++ start1).
  eexists _, _. split; [apply check_orderly; vm_compute; reflexivity|]. split; [vm_compute; reflexivity|]. split; [vm_compute; reflexivity|]. split; [vm_compute; reflexivity|].
  split; [vm_compute; tauto|]. intros more s' log' N R. eapply unconsumed; [| |exact N|exact R]; reflexivity.
Qed.
Print Assumptions C68_restart_without_consumer.

(** A record command can come to nothing without any report: the thread of the last recording has not gone to sleep. *)
Theorem C68_record_ignored : exists acts s log, orderly (life_new 2) acts /\ life_run (life_new 2) acts = Ok (s, log) /\
  log = [ECommand (CConf (mkSetup 1 true true 2)); EReturned (CConf (mkSetup 1 true true 2)); ECommand CRecord; ERecord; EReturned CRecord; ERecorded; ECommand CRecord; EIgnored Recording; EReturned CRecord].
Proof.
  exists (conf1 ++ ACommand CRecord :: go 2 ++ [AThread Recording 0; AThread Recording 1; AThread Recording 0] ++ ACommand CRecord :: go 2).
  eexists _, _. split; [apply check_orderly; vm_compute; reflexivity|]. split; vm_compute; reflexivity.
Qed.
Print Assumptions C68_record_ignored.

(** The hypotheses of [C68_start_hands_over]: once all have gone to sleep. *)
Example C68_start_hands_over_example : exists s log, life_run (life_new 2) (a_run ++ until_stopped ++ all 0) = Ok (s, log) /\ orderly (life_new 2) (a_run ++ until_stopped ++ all 0) /\
  busy log = false /\ running log = false /\ (forall t, In t [Consumer; Requester; Timesync; Cleanup; Post 0] -> f_thread s t = Off).
Proof.
  eexists _, _. split; [vm_compute; reflexivity|]. split; [apply check_orderly; vm_compute; reflexivity|]. split; [vm_compute; reflexivity|]. split; [vm_compute; reflexivity|].
  intros t [<-|[<-|[<-|[<-|[<-|[]]]]]]; reflexivity.
Qed.

(** A start with bad arguments throws, and yet the run is on. *)
Example C68_bad_start_example : exists s log, life_run (life_new 1) (conf1 ++ ACommand (CStart false) :: go 12) = Ok (s, log) /\ In (EThrew (CStart false)) log /\ running log = true /\ f_marker s = true.
Proof. eexists _, _. split; [vm_compute; reflexivity|]. vm_compute. tauto. Qed.

Example C68_round_example : round 1 a_round.
Proof.
  split; [left; reflexivity|]. split.
  { intros t V. exists 1. split; [discriminate|]. destruct t; try (simpl; tauto). specialize (V i eq_refl). destruct i; [simpl; tauto|lia]. }
  split; [exists 1; simpl; tauto|]. split; [exists true; simpl; tauto|]. split; [simpl; tauto|]. intros a H. simpl in H.
  repeat destruct H as [<-|H]; try exact Logic.I. contradiction.
Qed.
