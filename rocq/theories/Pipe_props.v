(** C67: a post-processing task reads the payload it was called for. *)
From Coq Require Import ZArith List Bool Lia ZifyBool.
From Verif Require Import Base_model Ring_model Ring_spec Pipe_model Pipe_spec Pipe_proofs Pipe_proofs2 Pipe_proofs3.
Import ListNotations.
Open Scope Z_scope.

(** For every buffer size, queue size and schedule: whenever a task reads the element it was given, that element is one of the stored
    payloads. If fewer payloads than the buffer has places were stored since the one the call is about, it is that one;
    if more, it is not that one but the newest payload a multiple of the buffer's size further on. *)
Theorem C67_what_the_task_reads :
  forall {A : Type} (n : Z) (q : nat) (s0 s : pipe A) (acts : list (action A)) (log before after : list (event A)) (v : option A),
    supported_size n -> (2 <= q)%nat -> pipe_new n q = Ok s0 ->
    pipe_run s0 acts = Ok (s, log) -> log = before ++ ELook v :: after ->
    exists k j, current (ledger_of before) = Some k /\ (k < length (stored (ledger_of before)))%nat /\
      v = nth_error (stored (ledger_of before)) (k + Z.to_nat n * j) /\ v <> None /\
      (k + Z.to_nat n * j < length (stored (ledger_of before)) <= k + Z.to_nat n * j + Z.to_nat n)%nat /\
      (Z.of_nat (since (ledger_of before) k) < n <-> j = 0%nat).
Proof.
  intros A n q s0 s acts log before after v Hn Hq N R EL. destruct (look_shows n q Hn Hq _ _ _ _ _ _ _ N R EL) as (k & C & Lk & V).
  exists k, ((len (ledger_of before) - 1 - k) / Z.to_nat n)%nat. unfold len, since in *. unfold supported_size in Hn.
  set (L := length (stored (ledger_of before))) in *. set (m := Z.to_nat n) in *. assert (2 <= m)%nat as Hm by lia.
  pose proof (Nat.div_mod (L - 1 - k) m ltac:(lia)) as DM. pose proof (Nat.mod_upper_bound (L - 1 - k) m ltac:(lia)) as MB.
  set (j := ((L - 1 - k) / m)%nat) in *. assert (m = Z.to_nat n) as Em by reflexivity. assert (L = length (stored (ledger_of before))) as EL2 by reflexivity. clearbody L m j.
  assert (k + m * j < L <= k + m * j + m)%nat as B by lia.
  split; [exact C|]. split; [exact Lk|]. split; [exact V|]. split; [|split; [exact B|]].
  - subst v. apply nth_error_Some. rewrite <- EL2. lia.
  - split; [|intros ->; lia]. intros H. destruct j; [reflexivity|]. nia.
Qed.
Print Assumptions C67_what_the_task_reads.

(** With a queue shorter than the buffer, a task reads the payload it was called for as long as no warning that post-processing does not
    keep up has been given, however the clean-up, the consumer and the task interleave. *)
Theorem C67_keeping_up :
  forall {A : Type} (n : Z) (q : nat) (s0 s : pipe A) (acts : list (action A)) (log before after : list (event A)) (v : option A),
    supported_size n -> (2 <= q)%nat -> Z.of_nat q < n -> pipe_new n q = Ok s0 ->
    pipe_run s0 acts = Ok (s, log) -> log = before ++ ELook v :: after -> ~ warned before ->
    exists k x, current (ledger_of before) = Some k /\ nth_error (stored (ledger_of before)) k = Some x /\ v = Some x.
Proof.
  intros A n q s0 s acts log before after v Hn Hq Hqn N R EL NW.
  destruct (C67_what_the_task_reads n q s0 s acts log before after v Hn Hq N R EL) as (k & j & C & Lk & V & NV & _ & J).
  destruct (look_event n q Hq _ _ _ _ _ _ _ N R EL) as (acts1 & s1 & i & R1 & W & _).
  pose proof (run_keep n q Hn Hq _ _ _ _ N R1 NW) as K. pose proof (k_current _ _ K _ _ W C) as B.
  destruct (i_places _ _ _ _ (run_inv n q Hn Hq _ _ _ _ N R1)) as [P1 P2]. rewrite (i_queue _ _ _ _ (run_inv n q Hn Hq _ _ _ _ N R1)), map_length in P2.
  assert (pend (p_consumer s1) <= 1)%nat as B1 by (destruct (p_consumer s1); cbn; lia).
  assert (j = 0%nat) as ->. { apply J. unfold since, len in *. lia. }
  rewrite Nat.mul_0_r, Nat.add_0_r in V. destruct v as [x|]; [|congruence]. exists k, x. auto.
Qed.
Print Assumptions C67_keeping_up.

(** Nothing but a clean-up that empties the buffer can make the pipeline crash or offer a null pointer. *)
Theorem C67_no_null :
  forall {A : Type} (n : Z) (q : nat) (s0 : pipe A) (acts : list (action A)),
    supported_size n -> (2 <= q)%nat -> pipe_new n q = Ok s0 ->
    (exists s log, pipe_run s0 acts = Ok (s, log) /\ (emptied log \/ forall accepted, ~ In (EOffer true accepted) log)) \/
    (exists acts1 acts2 s log, acts = acts1 ++ acts2 /\ pipe_run s0 acts1 = Ok (s, log) /\ emptied log).
Proof.
  intros A n q s0 acts Hn Hq N. destruct (run_total n q Hn Hq acts s0 N) as [(s & log & R)|H]; [left|right; exact H].
  exists s, log. split; [exact R|]. destruct (emptied_dec log) as [E|E]; [left; exact E|right].
  intros b. exact (run_no_null n q Hn Hq _ _ _ _ _ N R E).
Qed.
Print Assumptions C67_no_null.

(** When stop has returned after runs in which no payload was refused by the buffer, no warning was given and no clean-up emptied the
    buffer: every payload that had arrived when stop was called, and none out of order, has been stored, and the task has been called exactly
    once for each stored payload, in order. *)
Theorem C67_end_of_run :
  forall {A : Type} (n : Z) (q : nat) (s0 s1 s : pipe A) (acts1 acts2 : list (action A)) (log1 log : list (event A)),
    supported_size n -> (2 <= q)%nat -> pipe_new n q = Ok s0 ->
    pipe_run s0 acts1 = Ok (s1, log1) -> p_command s1 = Running ->
    pipe_run s0 (acts1 ++ AStop :: acts2) = Ok (s, log) -> ~ In AStart acts2 -> p_command s = NoRun ->
    ~ warned log -> ~ overwritten log -> ~ emptied log ->
    exists taken left, arrivals acts2 = taken ++ left /\ p_input s = left /\ stored (ledger_of log) = arrivals acts1 ++ taken /\
      waiting (ledger_of log) = [] /\ called (ledger_of log) = map Some (seq 0 (length (stored (ledger_of log)))).
Proof.
  intros A n q s0 s1 s acts1 acts2 log1 log Hn Hq N R1 M1 R NS M NW NO NE.
  pose proof (run_orderly n q Hn Hq _ _ _ _ N R NW NO NE) as [O1 O2 O3].
  pose proof (run_staffed n q Hn Hq _ _ _ _ N R) as ST. unfold staffed in ST. rewrite M in ST. destruct ST as (C & W & Q).
  rewrite C in *. cbn [hand pend app] in *.
  destruct (run_split _ _ _ _ _ R) as (s1' & l1 & l2 & E1 & E2 & ->). rewrite R1 in E1. injection E1 as <- <-.
  assert (length (p_input s) <= length (arrivals acts2))%nat as L.
  { cbn [pipe_run act] in E2. rewrite M1 in E2. cbn [bind fst snd] in E2. destruct (pipe_run (set_command s1 Waiting) acts2) as [[s2 e2]|] eqn:E3; [|discriminate].
    cbn [bind fst snd] in E2. injection E2 as <- <-.
    assert (leaving 0 (set_command s1 Waiting)) as K0.
    { split; cbn; [discriminate|]. intros H. exfalso. exact (run_consuming n q Hn Hq _ _ _ _ N R1 M1 H). }
    destruct (run_leaving q Hq acts2 0 _ _ _ K0 E3 NS) as [_ K]. exact (K C). }
  assert (waiting (ledger_of (log1 ++ l2)) = []) as WN.
  { pose proof (i_queue _ _ _ _ (run_inv n q Hn Hq _ _ _ _ N R)) as IQ. rewrite Q in IQ. destruct (waiting _); [reflexivity|discriminate]. }
  unfold arrivals in O1, L |- *. rewrite flat_map_app in O1. cbn [flat_map app] in O1. set (f := fun a : action A => match a with AArrive x => [x] | _ => [] end) in *.
  assert (skipn (length (flat_map f acts2) - length (p_input s)) (flat_map f acts2) = p_input s) as SK.
  { pose proof (f_equal (skipn (length (stored (ledger_of (log1 ++ l2))))) O1) as H. rewrite skipn_app, skipn_all, Nat.sub_diag in H. cbn [skipn app] in H.
    pose proof (f_equal (@length _) O1) as HL. rewrite !app_length in HL. rewrite skipn_app in H.
    rewrite skipn_all2 in H by lia. cbn [app] in H. etransitivity; [|symmetry; exact H]. f_equal. lia. }
  exists (firstn (length (flat_map f acts2) - length (p_input s)) (flat_map f acts2)), (p_input s).
  split; [rewrite <- (firstn_skipn (length (flat_map f acts2) - length (p_input s)) (flat_map f acts2)) at 1; rewrite SK; reflexivity|]. split; [reflexivity|]. split.
  { pose proof (f_equal (@length _) O1) as HL. rewrite !app_length in HL.
    rewrite <- (firstn_skipn (length (flat_map f acts2) - length (p_input s)) (flat_map f acts2)), SK, app_assoc in O1.
    apply app_inv_tail in O1. exact O1. }
  split; [exact WN|]. rewrite WN, app_nil_r, Nat.sub_0_r in O2. exact O2.
Qed.
Print Assumptions C67_end_of_run.

(** * Schedules *)
Definition store1 (x : Z) : list (action Z) := AArrive x :: repeat AConsumer 5.
(** Test, read, look, return. *)
Definition work1 : list (action Z) := [AWorker; AWorker; ALook; AWorker].

(** Buffer of 4, queue of 3 (two places): the second item waits while the buffer wraps and is cleaned up, and is seen unchanged. *)
Example C67_example :
  exists (s0 s : pipe Z) (before after : list (event Z)),
    pipe_new 4 3 = Ok s0 /\
    pipe_run s0 ([AStart] ++ store1 10 ++ work1 ++ store1 11 ++ store1 12 ++ [AWorker; AWorker; AClean 2] ++ store1 13 ++ [AArrive 14] ++
      repeat AConsumer 3 ++ [ALook; AConsumer; AWorker; AConsumer]) = Ok (s, before ++ ELook (Some 11) :: after) /\
    before = [EStored 10; EOffer false true; ETaken; ELook (Some 10); EDone; EStored 11; EOffer false true; EStored 12; EOffer false true; ETaken;
              ECleaned 1; EStored 13; EOffer false true; EStored 14] /\
    after = [EDone; EOffer false false] /\
    current (ledger_of before) = Some 1%nat /\ since (ledger_of before) 1 = 3%nat /\ ~ warned before.
Proof.
  eexists; eexists; eexists; eexists. split; [vm_compute; reflexivity|]. split; [|split; [reflexivity|split; [reflexivity|]]]; [vm_compute; reflexivity|].
  split; [reflexivity|]. split; [reflexivity|]. intros [b H]. cbn in H. repeat (destruct H as [H|H]; [discriminate|]). exact H.
Qed.

(** A whole run, and what arrives during stop but after the consumer has finished stays on the input queue. *)
Example C67_run_example :
  exists (s0 s1 s : pipe Z) log1 log,
    pipe_new 4 3 = Ok s0 /\
    pipe_run s0 ([AStart] ++ store1 10 ++ work1 ++ store1 11) = Ok (s1, log1) /\ p_command s1 = Running /\
    pipe_run s0 (([AStart] ++ store1 10 ++ work1 ++ store1 11) ++ AStop :: [AArrive 12] ++ repeat AConsumer 6 ++ [AConsumer; AArrive 13; AFlush] ++ work1 ++ work1 ++ [AWorker; AStopped])
      = Ok (s, log) /\
    p_command s = NoRun /\ p_input s = [13] /\ stored (ledger_of log) = [10; 11; 12] /\ called (ledger_of log) = [Some 0%nat; Some 1%nat; Some 2%nat] /\
    ~ warned log /\ ~ overwritten log /\ ~ emptied log.
Proof.
  eexists; eexists; eexists; eexists; eexists. split; [vm_compute; reflexivity|]. split; [vm_compute; reflexivity|]. split; [reflexivity|]. split; [vm_compute; reflexivity|].
  do 4 (split; [reflexivity|]).
  repeat split; [intros [b H]|intros [b H]|intros H]; cbn in H; repeat (destruct H as [H|H]; [discriminate|]); exact H.
Qed.

(** The bound on the queue is sharp: with a queue as long as the buffer or longer, whatever the sizes (from 3 on) and the payloads, there is a
    schedule in which a task reads a payload other than the one it was called for although no warning was ever given. *)
Theorem C67_queue_as_long_as_buffer :
  forall {A : Type} (f : nat -> A) (n : Z) (q : nat) (s0 : pipe A),
    supported_size n -> 3 <= n <= Z.of_nat q -> pipe_new n q = Ok s0 ->
    exists s acts before, pipe_run s0 acts = Ok (s, before ++ [ELook (Some (f (Z.to_nat n)))]) /\
      ~ warned before /\ ~ overwritten before /\ ~ emptied before /\
      current (ledger_of before) = Some 0%nat /\ nth_error (stored (ledger_of before)) 0 = Some (f 0%nat) /\
      arrivals acts = map f (seq 0 (Z.to_nat n + 1)).
Proof.
  intros A f n q s0 Hn Hq N. assert (3 <= n <= 2147483648) as Hn3 by (destruct Hn; lia).
  destruct (misled_run f n Hn3 q s0 ltac:(lia) N) as (s & i & R & W). destruct (misled_ledger f (Z.to_nat n) ltac:(lia)) as [L1 L2].
  assert (RL : pipe_run s0 (misled f (Z.to_nat n) ++ [ALook]) = Ok (s, misled_log f (Z.to_nat n) ++ [ELook (p_mem s i)])).
  { eapply run_app; [exact R|]. cbn [pipe_run act]. rewrite W. reflexivity. }
  destruct (C67_what_the_task_reads n q s0 _ _ _ _ [] _ Hn ltac:(lia) N RL eq_refl) as (k & j & C & _ & V & _ & B & _).
  unfold current in C. rewrite L2 in C. cbn [last] in C. injection C as <-. rewrite L1 in V, B. rewrite map_length, seq_length in B. cbn [Nat.add] in V, B.
  assert (j = 1%nat) as -> by nia. rewrite Nat.mul_1_r in V. rewrite nth_error_map, (nth_error_nth' _ 0%nat) in V by (rewrite seq_length; lia).
  rewrite seq_nth in V by lia. cbn [option_map Nat.add] in V.
  destruct (misled_harmless f (Z.to_nat n)) as (H1 & H2 & H3).
  exists s, (misled f (Z.to_nat n) ++ [ALook]), (misled_log f (Z.to_nat n)). rewrite <- V. split; [exact RL|]. do 3 (split; [assumption|]).
  split; [unfold current; rewrite L2; reflexivity|]. split; [rewrite L1; replace (Z.to_nat n + 1)%nat with (S (Z.to_nat n)) by lia; reflexivity|].
  unfold arrivals. rewrite flat_map_app. cbn [flat_map]. rewrite app_nil_r. apply misled_arrivals. lia.
Qed.

Example C67_queue_as_long_as_buffer_ex :
  exists s0 s before, pipe_new 4 4 = Ok s0 /\
    pipe_run s0 (misled (fun i => 10 + Z.of_nat i) 4 ++ [ALook]) = Ok (s, before ++ [ELook (Some 14)]) /\ current (ledger_of before) = Some 0%nat.
Proof. do 2 eexists. exists (misled_log (fun i => 10 + Z.of_nat i) 4). split; [vm_compute; reflexivity|]. split; [|reflexivity]. vm_compute. reflexivity. Qed.
Print Assumptions C67_queue_as_long_as_buffer.

(** A refused payload makes the task run again on the newest stored one, and never on the refused one. *)
Theorem C67_refused_payload_processed_twice :
  exists (s0 s : pipe Z) acts log,
    pipe_new 2 4 = Ok s0 /\ pipe_run s0 acts = Ok (s, log) /\ ~ warned log /\
    arrivals acts = [10; 11] /\ stored (ledger_of log) = [10] /\ called (ledger_of log) = [Some 0%nat; Some 0%nat].
Proof.
  do 2 eexists. exists ([AStart] ++ store1 10 ++ store1 11 ++ work1 ++ work1). eexists.
  split; [vm_compute; reflexivity|]. split; [vm_compute; reflexivity|].
  repeat split. intros [b H]; cbn in H; repeat (destruct H as [H|H]; [discriminate|]); exact H.
Qed.
Print Assumptions C67_refused_payload_processed_twice.

(** A clean-up that empties the buffer between the consumer's write and its look at the newest element makes the task follow a null pointer. *)
Theorem C67_emptied_buffer_crashes :
  exists (s0 s : pipe Z) acts log,
    pipe_new 4 3 = Ok s0 /\ pipe_run s0 acts = Ok (s, log) /\ In (EOffer true true) log /\ pipe_run s0 (acts ++ [ALook]) = Crash.
Proof.
  do 2 eexists. exists ([AStart; AArrive 10] ++ repeat AConsumer 3 ++ [AClean 1; AConsumer; AConsumer; AWorker; AWorker]). eexists.
  split; [vm_compute; reflexivity|]. split; [vm_compute; reflexivity|]. split; [right; right; left; reflexivity|]. vm_compute. reflexivity.
Qed.
Print Assumptions C67_emptied_buffer_crashes.
