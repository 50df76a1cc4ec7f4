(** C71: the life of a recorder under its commands. *)
From Coq Require Import String ZArith List Bool Arith Lia.
From Verif Require Import Base_model File_model File_spec Recorder_model Recorder_spec
  Recorder_proofs Recorder_proofs2 Recorder_proofs3 Recorder_proofs4 Recorder_proofs5 Recorder_proofs6 Recorder_proofs7.
Import ListNotations.
Open Scope nat_scope.

Section Props.
Variable enc : codec -> list Z -> list Z.
Variable d : device.
Notation run := (rec_run enc d).

(** ** Commands in order *)
(** No order of commands the recorder supports leads to undefined behaviour; conf alone throws. *)
Theorem C71_commands_in_order : forall fs marker acts, orderly enc d (rec_new fs marker) acts ->
  exists s log, run (rec_new fs marker) acts = Ok (s, log) /\ (forall c, In (EThrew c) log -> exists g a b, c = CConf g a b).
Proof. intros fs m acts O. destruct (run_inv enc d fs m acts O) as (s & log & R & _ & T). eauto. Qed.

(** Payloads are taken in the order in which they were offered; none is skipped. *)
Theorem C71_order : forall fs marker acts s log, orderly enc d (rec_new fs marker) acts -> run (rec_new fs marker) acts = Ok (s, log) ->
  exists rest, offered log = taken log ++ rest.
Proof. intros fs m acts s log O R. destruct (run_inv enc d fs m acts O) as (s' & log' & R' & I & _). rewrite R in R'. injection R' as <- <-. exists (y_queue s). apply (i_queue _ _ _ _ I). Qed.

(** What was recorded without a warning is in the file once the recording is over, or, uncompressed, once the run is over. *)
Theorem C71_recording : forall fs marker acts s log p q, orderly enc d (rec_new fs marker) acts -> run (rec_new fs marker) acts = Ok (s, log) ->
  (forall g a b, current log <> Some (CConf g a b)) -> current log <> Some CDestroy ->
  v_files (view_of log) p = Some q -> q_warned q = false -> 0 < cf_size (q_conf q) -> length (image enc q) <= d_room d ->
  (q_over q = true \/ (cf_alg (q_conf q) = "None"%string /\ current log = None /\ running log = false)) ->
  exists old, (q_removed q = true -> old = []) /\ k_fs (y_disk s) p = Some (over (image enc q) old).
Proof.
  intros fs m acts s log p q O R N1 N2. destruct (run_inv enc d fs m acts O) as (s' & log' & R' & I & _). rewrite R in R'. injection R' as <- <-.
  apply recording_ok; [exact I|]. unfold settled_log. destruct (current log) as [[]|]; try exact Logic.I; [eapply N1|apply N2]; reflexivity.
Qed.

(** Uncompressed, the file never has anything but a prefix of what was taken, whatever fails and wherever the worker is. *)
Theorem C71_prefix : forall fs marker acts s log p q, orderly enc d (rec_new fs marker) acts -> run (rec_new fs marker) acts = Ok (s, log) ->
  (forall g a b, current log <> Some (CConf g a b)) -> current log <> Some CDestroy ->
  v_files (view_of log) p = Some q -> cf_alg (q_conf q) = "None"%string ->
  exists old n, (q_removed q = true -> old = []) /\ k_fs (y_disk s) p = Some (over (firstn n (concat (everything q))) old).
Proof.
  intros fs m acts s log p q O R N1 N2. destruct (run_inv enc d fs m acts O) as (s' & log' & R' & I & _). rewrite R in R'. injection R' as <- <-.
  apply (prefix_ok enc d s log p q I). unfold settled_log. destruct (current log) as [[]|]; try exact Logic.I; [eapply N1|apply N2]; reflexivity.
Qed.

(** No warning is given if the device has room and, under O_DIRECT, only whole blocks are flushed between runs. *)
Theorem C71_no_warning : forall fs marker acts s log p q, orderly enc d (rec_new fs marker) acts -> run (rec_new fs marker) acts = Ok (s, log) ->
  (forall g a b, current log <> Some (CConf g a b)) -> current log <> Some CDestroy -> v_files (view_of log) p = Some q -> served d q -> q_warned q = false.
Proof.
  intros fs m acts s log p q O R N1 N2. destruct (run_inv enc d fs m acts O) as (s' & log' & R' & I & _). rewrite R in R'. injection R' as <- <-.
  apply (no_warning_ok enc d s log p q I). unfold settled_log. destruct (current log) as [[]|]; try exact Logic.I; [eapply N1|apply N2]; reflexivity.
Qed.

(** A file no conf names is left alone, whatever the commands and schedules. *)
Theorem C71_other_files : forall fs marker acts s log p, run (rec_new fs marker) acts = Ok (s, log) ->
  (forall g a b, In (ACommand (CConf g a b)) acts -> cf_path g <> p) -> k_fs (y_disk s) p = fs p.
Proof.
  intros fs m acts s log p R N. destruct (apart_run enc d p (fs p) acts (rec_new fs m) s log) as [K _]; auto. repeat split; cbn; discriminate.
Qed.

(** ** Runs *)
(** If the worker waits for work when a start is issued, no start is ignored, and what is offered in a run is taken until a write fails. *)
Theorem C71_run_records : forall fs marker acts s log more s' ev n, orderly enc d (rec_new fs marker) acts -> settled enc d (rec_new fs marker) acts ->
  run (rec_new fs marker) acts = Ok (s, log) -> current log = None -> running log = true -> warned_run log = false ->
  run s more = Ok (s', ev) -> no_command more -> n + length (taken log) <= length (offered log) -> 5 * n <= turns more -> In EWarn ev \/ n <= length (taken ev).
Proof.
  intros fs m acts s log more s' ev n O ST R C RN W RM NC LE TU. destruct (run_inv enc d fs m acts O) as (s0 & log0 & R' & I & _). rewrite R in R'. injection R' as <- <-.
  pose proof (settled_live enc d fs m acts s log O ST R) as [L1 L2 L3 L4]. destruct I as [IC _ _ _ IQ]. rewrite C in IC.
  assert (TN : y_todo s = None) by (destruct (y_todo s); [discriminate|reflexivity]). rewrite TN in L4. destruct (L4 RN) as [M [Y|WK]]; [congruence|].
  apply (records enc d more s s' ev n); auto.
  - rewrite IQ, app_length in LE. lia.
  - intros P. assert (cost (y_thread s) <= 5) by (destruct (y_thread s); cbn; lia). lia.
Qed.
Theorem C71_start_hands_over : forall fs marker acts s log, orderly enc d (rec_new fs marker) acts -> settled enc d (rec_new fs marker) acts ->
  run (rec_new fs marker) acts = Ok (s, log) -> ignored log = false.
Proof. intros fs m acts s log O ST R. apply (settled_live enc d fs m acts s log O ST R). Qed.

(** Under the same condition a stop returns: it takes one step of its own, six of the worker, two of its own, whatever happens in between. *)
Theorem C71_stop_returns : forall fs marker acts s log a b c s' ev, orderly enc d (rec_new fs marker) acts -> settled enc d (rec_new fs marker) acts ->
  run (rec_new fs marker) acts = Ok (s, log) -> current log = Some CStop -> run s (a ++ b ++ c) = Ok (s', ev) ->
  1 <= steps a -> 6 <= turns b -> 2 <= steps c -> In (EReturned CStop) ev.
Proof.
  intros fs m acts s log a b c s' ev O ST R C RM A B CC. destruct (run_inv enc d fs m acts O) as (s0 & log0 & R' & I & _). rewrite R in R'. injection R' as <- <-.
  pose proof (i_current _ _ _ _ I) as IC. rewrite C in IC. destruct (y_todo s) as [[x rest]|] eqn:T; [|discriminate]. injection IC as <-.
  destruct (new_halting enc d fs m acts s log R rest T) as [k K]. apply (stop_returns enc d a b c s s' ev k); auto. apply (settled_live enc d fs m acts s log O ST R).
Qed.
(** Without that condition it does once the worker has woken up by itself. *)
Theorem C71_stop_returns_woken : forall fs marker acts s log pre a b c s' ev, orderly enc d (rec_new fs marker) acts ->
  run (rec_new fs marker) acts = Ok (s, log) -> current log = Some CStop -> run s (pre ++ ASpurious :: a ++ b ++ c) = Ok (s', ev) ->
  1 <= steps a -> 6 <= turns b -> 2 <= steps c -> In (EReturned CStop) ev.
Proof.
  intros fs m acts s log pre a b c s' ev O R C RM A B CC. destruct (run_inv enc d fs m acts O) as (s0 & log0 & R' & I & _). rewrite R in R'. injection R' as <- <-.
  pose proof (i_current _ _ _ _ I) as IC. rewrite C in IC. destruct (y_todo s) as [[x rest]|] eqn:T; [|discriminate]. injection IC as <-.
  apply (woken_returns enc d pre a b c s s' ev rest); auto. apply (new_halting enc d fs m acts s log R).
Qed.

(** Without a recording, or once a write has failed, every further run takes, and loses, at most one payload, until a conf. *)
Theorem C71_after_failure : forall fs marker acts s log more s' ev, orderly enc d (rec_new fs marker) acts -> run (rec_new fs marker) acts = Ok (s, log) ->
  current log = None -> running log = false ->
  (v_active (view_of log) = None \/ exists p q, v_active (view_of log) = Some p /\ v_files (view_of log) p = Some q /\ q_warned q = true) ->
  no_conf more -> run s more = Ok (s', ev) -> length (taken ev) <= starts ev.
Proof.
  intros fs m acts s log more s' ev O R C RN H NC RM. destruct (run_inv enc d fs m acts O) as (s0 & log0 & R' & I & _). rewrite R in R'. injection R' as <- <-.
  pose proof (warned_broken enc d s log I C RN H) as B. destruct (rest_owes enc d s log I C RN) as [E1 E2].
  pose proof (lost_run enc d more s s' ev B ltac:(rewrite E2; exact Logic.I) NC RM) as K. rewrite E1, E2 in K. cbn [left_] in K. lia.
Qed.

(** ** Monitoring *)
(** The total reported is the number of payloads taken in this run, or the last one is missing. *)
Theorem C71_total : forall fs marker acts s log s' v, orderly enc d (rec_new fs marker) acts -> run (rec_new fs marker) acts = Ok (s, log) ->
  current log <> Some CStart -> rec_step enc d s AMonitor = Ok (s', [ETotal v]) ->
  exists n, (length (taken_run log) = n \/ length (taken_run log) = S n) /\ v = i32 (Z.of_nat n).
Proof.
  intros fs m acts s log s' v O R C E. destruct (total_run enc d fs m acts s log O R) as [K _]. destruct (run_inv enc d fs m acts O) as (s0 & log0 & R' & I & _). rewrite R in R'. injection R' as <- <-.
  cbn [rec_step] in E. unfold monitor_step in E. destruct (y_mon s); [|discriminate E|discriminate E]. injection E as _ <-.
  assert (P : match y_todo s with Some (CStart, MZero :: _) => False | _ => True end).
  { pose proof (i_current _ _ _ _ I) as IC. destruct (y_todo s) as [[[] [|[] rest]]|]; try exact Logic.I. apply C. exact IC. }
  specialize (K P). destruct (y_thread s); try (eexists; split; [left; reflexivity|exact K]). destruct K as (n & K1 & K2). exists n. auto.
Qed.
(** The packets reported call by call never add up to more than was taken; to exactly that, or one less, if the worker never gets in between reading and resetting. *)
Theorem C71_since : forall fs marker acts s log, run (rec_new fs marker) acts = Ok (s, log) -> (Z.of_nat (length (taken log)) < 2 ^ 31)%Z ->
  (0 <= reported log <= Z.of_nat (length (taken log)))%Z /\
  (calm acts -> calls acts mod 3 = 2 -> (Z.of_nat (length (taken log)) - 1 <= reported log)%Z).
Proof.
  intros fs m acts s log R SM. destruct (since_run enc d fs m acts s log R SM) as ((B0 & B1 & B2 & B3) & K & M).
  assert (P : (0 <= pending (y_thread s) <= 1)%Z) by (destruct (y_thread s); cbn; lia).
  assert (U : (0 <= unreported s)%Z) by (unfold unreported; destruct (y_mon s); lia). split; [lia|].
  intros CA CM. specialize (K CA). rewrite CM in M. unfold unreported in *. rewrite M in K. lia.
Qed.

(** ** Commands out of order *)
(** A start before any conf: no stop ever returns. *)
Theorem C71_start_before_conf : forall fs marker acts s log l1 l2, no_conf acts -> run (rec_new fs marker) acts = Ok (s, log) ->
  log = l1 ++ EReturned CStart :: l2 -> ~ In (EReturned CStop) l2.
Proof. intros fs m acts s log l1 l2 N R. now apply (raw_run enc d acts fs m s log N R). Qed.
(** A conf in a run, before a write has failed: the writer is used by two threads at once. *)
Theorem C71_conf_in_a_run : forall fs marker acts s log g a b, orderly enc d (rec_new fs marker) acts -> settled enc d (rec_new fs marker) acts ->
  run (rec_new fs marker) acts = Ok (s, log) -> current log = None -> running log = true -> warned_run log = false ->
  run s [ACommand (CConf g a b); AStep; AStep] = Crash.
Proof.
  intros fs m acts s log g a b O ST R C RN W. destruct (run_inv enc d fs m acts O) as (s0 & log0 & R' & I & _). rewrite R in R'. injection R' as <- <-.
  pose proof (settled_live enc d fs m acts s log O ST R) as [L1 L2 L3 L4]. destruct I as [IC _ _ _ _]. rewrite C in IC.
  assert (TN : y_todo s = None) by (destruct (y_todo s); [discriminate|reflexivity]). rewrite TN in L4. destruct (L4 RN) as [M [Y|WK]]; [congruence|].
  cbn [rec_run rec_step bind fst snd]. rewrite TN. unfold command_step. cbn [bind fst snd set_todo y_todo program mop_step set_disk y_thread]. destruct (y_thread s); try discriminate WK; reflexivity.
Qed.
(** A destruction in a run ends only if a write fails. *)
Theorem C71_destroy_in_a_run : forall fs marker acts s log more s' ev l1 l2, orderly enc d (rec_new fs marker) acts -> settled enc d (rec_new fs marker) acts ->
  run (rec_new fs marker) acts = Ok (s, log) -> current log = None -> running log = true -> warned_run log = false ->
  run s (ACommand CDestroy :: more) = Ok (s', ev) -> ev = l1 ++ EReturned CDestroy :: l2 -> In EWarn l1.
Proof.
  intros fs m acts s log more s' ev l1 l2 O ST R C RN W RM E. destruct (run_inv enc d fs m acts O) as (s0 & log0 & R' & I & _). rewrite R in R'. injection R' as <- <-.
  pose proof (settled_live enc d fs m acts s log O ST R) as [L1 L2 L3 L4]. destruct I as [IC _ _ _ _]. rewrite C in IC.
  assert (TN : y_todo s = None) by (destruct (y_todo s); [discriminate|reflexivity]). rewrite TN in L4. destruct (L4 RN) as [M [Y|WK]]; [congruence|].
  cbn [rec_run rec_step] in RM. rewrite TN in RM. cbn [bind fst snd] in RM. destruct (run _ more) as [[s1 e1]|] eqn:X; [|discriminate]. cbn [bind fst snd] in RM. injection RM as <- <-.
  destruct l1 as [|y l1]; [discriminate E|]. injection E as <- E. right. apply (destroy_run enc d more _ s1 e1 l1 l2 X); auto.
Qed.
End Props.

(** ** A history *)
Definition enc0 (c : codec) (l : list Z) : list Z := 99%Z :: l.
Definition dev0 : device := mk_dev 2 12.
Definition files0 (p : nat) : option (list Z) := match p with 7 => Some [7%Z] | 1 => Some [6; 6; 6]%Z | _ => None end.
Definition new0 : rec := rec_new files0 true.
Definition g1 : conf := mkConf 1 4 "None" true.
Definition g2 : conf := mkConf 2 3 "zstd" false.
Definition ready3 : list action := [AThread; AThread; AThread].
Definition command (c : cmd) : list action := [ACommand c; AStep; AStep; AStep; AStep].
(** Conf, a run with two payloads and part of a third, its stop under way. *)
Definition run1 : list action := command (CConf g1 true true) ++ ready3 ++ command CStart ++ [AOffer [1; 2]%Z; AOffer [3; 4; 5; 6]%Z; AThread; AThread; AThread; AThread; AMonitor; AThread; AMonitor; AMonitor; AThread].
Definition run1b : list action := run1 ++ repeat AThread 5.
Definition halt1 : list action := run1b ++ [ACommand CStop].
Definition between : list action := halt1 ++ [AStep] ++ repeat AThread 8 ++ [AStep; AStep].
(** A compressed recording after it. *)
Definition life2 : list action := between ++ command (CConf g2 true true) ++ ready3 ++ command CStart ++ [AOffer [8; 9]%Z] ++ repeat AThread 8 ++ [ACommand CStop; AStep] ++ repeat AThread 6 ++ [AStep; AStep]
  ++ command (CConf (mkConf 3 4 "None" false) true true) ++ ready3 ++ [AMonitor].
Definition is (r : res (rec * list event)) (f : rec -> list event -> bool) : bool := match r with Ok (s, log) => f s log | Crash => false end.
Notation run0 := (rec_run enc0 dev0).
Definition sameb (a b : list Z) : bool := if list_eq_dec Z.eq_dec a b then true else false.

Example ex_orderly : orderly enc0 dev0 new0 life2 /\ settled enc0 dev0 new0 life2.
Proof. split; [apply is_orderly|apply is_settled]; vm_compute; reflexivity. Qed.
Example ex_run_is_on : orderly enc0 dev0 new0 run1 /\ settled enc0 dev0 new0 run1 /\
  is (run0 new0 run1) (fun s log => idle log && running log && negb (warned_run log) && (length (offered log) =? 2) && (length (taken log) =? 1)) = true.
Proof. split; [apply is_orderly|split; [apply is_settled|]]; vm_compute; reflexivity. Qed.
(** The file of the first recording after its run; it had been removed. Then that of the second. *)
Example ex_recorded : is (run0 new0 between) (fun s log => idle log && negb (running log) &&
  match v_files (view_of log) 1 with Some q => negb (q_warned q) && negb (q_over q) && sameb (image enc0 q) [1; 2; 3; 4; 5; 6]%Z && (length (image enc0 q) <=? d_room dev0) | None => false end &&
  sameb (content (k_fs (y_disk s) 1)) [1; 2; 3; 4; 5; 6]%Z && sameb (content (k_fs (y_disk s) 7)) [7%Z]) = true.
Proof. vm_compute. reflexivity. Qed.
Example ex_recorded_too : is (run0 new0 life2) (fun s log => 
  match v_files (view_of log) 2 with Some q => negb (q_warned q) && q_over q && sameb (image enc0 q) [99; 8; 9]%Z && (length (image enc0 q) <=? d_room dev0) | None => false end &&
  sameb (content (k_fs (y_disk s) 2)) [99; 8; 9]%Z && sameb (content (k_fs (y_disk s) 1)) [1; 2; 3; 4; 5; 6]%Z) = true.
Proof. vm_compute. reflexivity. Qed.
Example ex_served : exists s log q, run0 new0 between = Ok (s, log) /\ v_files (view_of log) 1 = Some q /\ served dev0 q /\ concat (everything q) <> [].
Proof. eexists. eexists. eexists. split; [vm_compute; reflexivity|]. split; [vm_compute; reflexivity|]. split; [|discriminate]. repeat split; cbn; try lia. constructor. Qed.
(** A stop under way: after one more step of its own, six of the worker and two of its own it has returned. *)
Example ex_stop_returns : orderly enc0 dev0 new0 halt1 /\ settled enc0 dev0 new0 halt1 /\
  is (run0 new0 halt1) (fun s log => match current log with Some CStop => true | _ => false end &&
    is (run0 s ([AStep] ++ repeat AThread 6 ++ [AStep; AStep])) (fun _ ev => existsb (fun e => match e with EReturned CStop => true | _ => false end) ev)) = true.
Proof. split; [apply is_orderly|split; [apply is_settled|]]; vm_compute; reflexivity. Qed.
(** O_DIRECT and a first run of three bytes: the second one fails, and so does every run after it. *)
Definition odd_runs : list action := command (CConf g1 true true) ++ ready3 ++
  command CStart ++ [AOffer [1; 2; 3]%Z] ++ repeat AThread 7 ++ [ACommand CStop; AStep] ++ repeat AThread 7 ++ [AStep; AStep] ++
  command CStart ++ [AOffer [4; 5; 6; 7; 8]%Z] ++ repeat AThread 11 ++ [ACommand CStop; AStep] ++ repeat AThread 7 ++ [AStep; AStep].
Definition third_run : list action := [AOffer [1; 2]%Z; AOffer [3]%Z] ++ command CStart ++ repeat AThread 30 ++ [ACommand CStop; AStep] ++ repeat AThread 7 ++ [AStep; AStep].
Example ex_after_failure : orderly enc0 dev0 new0 odd_runs /\ is (run0 new0 odd_runs) (fun s log => idle log && negb (running log) && (length (taken log) =? 2) &&
  match v_active (view_of log) with Some p => match v_files (view_of log) p with Some q => q_warned q | None => false end | None => false end &&
  is (run0 s third_run) (fun _ ev => (starts ev =? 1) && (length (taken ev) =? 1))) = true.
Proof. split; [apply is_orderly|]; vm_compute; reflexivity. Qed.
Example ex_total : is (run0 new0 run1b) (fun s log => (length (taken_run log) =? 2) && match rec_step enc0 dev0 s AMonitor with Ok (_, [ETotal v]) => (v =? 2)%Z | _ => false end) = true.
Proof. vm_compute. reflexivity. Qed.
Definition calm_run : list action := command (CConf g1 true true) ++ ready3 ++ command CStart ++ [AOffer [1]%Z] ++ repeat AThread 6 ++ [AMonitor; AMonitor].
Example ex_since : calm calm_run /\ calls calm_run mod 3 = 2 /\ is (run0 new0 calm_run) (fun s log => (length (taken log) =? 1) && (reported log =? 1)%Z) = true.
Proof.
  split; [|split; vm_compute; reflexivity]. intros before after E. vm_compute in E.
  repeat (destruct before as [|? before]; cbn in E; [first [discriminate E|vm_compute; discriminate]|first [discriminate E|injection E as <- E]]).
Qed.

(** ** What is not so *)
(** Uncompressed or not, a start right after the return of a stop may be ignored: its run records nothing. *)
Definition too_soon : list action := command (CConf g1 true true) ++ ready3 ++ command CStart ++ [AThread; AThread; ACommand CStop; AStep; AThread; AThread; AThread; AStep; AStep] ++ command CStart.
Theorem C71_start_ignored_refuted : exists s log, orderly enc0 dev0 new0 too_soon /\ run0 new0 too_soon = Ok (s, log) /\ ignored log = true /\ running log = true /\ current log = None /\
  forall more s' ev, no_command more -> run0 s more = Ok (s', ev) -> taken ev = [].
Proof.
  eexists. eexists. split; [apply is_orderly; vm_compute; reflexivity|]. split; [vm_compute; reflexivity|]. split; [reflexivity|]. split; [reflexivity|]. split; [reflexivity|].
  intros more s' ev N R. refine (workless_run enc0 dev0 more _ s' ev _ _ N R); reflexivity.
Qed.
(** A start that meets the worker between its test and its wait is not noticed: nothing is recorded, and the stop hangs. *)
Definition lost : list action := command (CConf g1 true true) ++ [AThread] ++ command CStart ++ [AOffer [1]%Z; ACommand CStop].
Theorem C71_stop_hangs_refuted : exists s log, orderly enc0 dev0 new0 lost /\ run0 new0 lost = Ok (s, log) /\ current log = Some CStop /\ ignored log = false /\
  forall more s' ev, ~ In ASpurious more -> run0 s more = Ok (s', ev) -> ~ In (EReturned CStop) ev /\ taken ev = [].
Proof.
  eexists. eexists. split; [apply is_orderly; vm_compute; reflexivity|]. split; [vm_compute; reflexivity|]. split; [reflexivity|]. split; [reflexivity|].
  intros more s' ev N R. refine (stuck_run enc0 dev0 more _ s' ev _ N R). split; [reflexivity|left; reflexivity].
Qed.
(** A packet counted between the reading and the reset of the counter is in no report. *)
Definition racing : list action := command (CConf g1 true true) ++ ready3 ++ command CStart ++ [AOffer [1]%Z] ++ repeat AThread 4 ++ [AMonitor; AMonitor; AThread; AMonitor] ++ repeat AThread 3 ++ repeat AMonitor 6.
Theorem C71_since_refuted : exists s log, orderly enc0 dev0 new0 racing /\ run0 new0 racing = Ok (s, log) /\ length (taken log) = 1 /\ reported log = 0%Z /\ y_since s = 0%Z.
Proof. eexists. eexists. split; [apply is_orderly; vm_compute; reflexivity|]. split; [vm_compute; reflexivity|]. repeat split. Qed.
(** A start before any conf and the stop after it: the worker flushes a file descriptor that was never assigned. *)
Theorem C71_start_before_conf_refuted : run0 new0 (ready3 ++ command CStart ++ [AThread; AThread; ACommand CStop; AStep; AThread; AThread; AThread]) = Crash.
Proof. vm_compute. reflexivity. Qed.
(** The old file could not be removed and was longer: its end is still there. *)
Theorem C71_old_tail_refuted : is (run0 new0 (command (CConf g1 false true) ++ ready3 ++ command CStart ++ [AOffer [1; 2]%Z] ++ repeat AThread 7 ++ [ACommand CStop; AStep] ++ repeat AThread 7 ++ [AStep; AStep]))
  (fun s log => idle log && negb (running log) && sameb (content (k_fs (y_disk s) 1)) [1; 2; 6]%Z) = true.
Proof. vm_compute. reflexivity. Qed.

Print Assumptions C71_commands_in_order.
Print Assumptions C71_order.
Print Assumptions C71_recording.
Print Assumptions C71_prefix.
Print Assumptions C71_no_warning.
Print Assumptions C71_other_files.
Print Assumptions C71_run_records.
Print Assumptions C71_start_hands_over.
Print Assumptions C71_stop_returns.
Print Assumptions C71_stop_returns_woken.
Print Assumptions C71_after_failure.
Print Assumptions C71_total.
Print Assumptions C71_since.
Print Assumptions C71_start_before_conf.
Print Assumptions C71_conf_in_a_run.
Print Assumptions C71_destroy_in_a_run.
Print Assumptions C71_start_ignored_refuted.
Print Assumptions C71_stop_hangs_refuted.
Print Assumptions C71_since_refuted.
Print Assumptions C71_start_before_conf_refuted.
Print Assumptions C71_old_tail_refuted.
