(** C70: the life of a fake card under its commands. *)
From Coq Require Import ZArith List Bool Arith Lia.
From Verif Require Import Base_model Bytes_model Ebg_model Ebg_spec Emu_model Emu_spec Rawtp_model Rawtp_spec Rawtp_props
  Feed_model Feed_spec Feed_proofs Feed_proofs2 Feed_proofs3 Feed_proofs4 Feed_proofs5 Feed_proofs6 Feed_proofs7 Feed_proofs8.
Import ListNotations.
Open Scope nat_scope.

Notation run := (card_run kind_begin kind_turn).
Notation new := (@card_new kind_conf kind_state).
Notation orderly := (orderly kind_begin kind_turn).

(** A card of two links, a source emulator with two dropouts in five and a TP emulator with a file of two blocks, is configured, started, runs for a while,
    is stopped, and started again. *)
Definition ex_raw : kind_conf :=
  Raw (mk_emu [1; 2; 3; 4; 5; 6; 7]%Z 3 2 [true; false; true] 25 100 (fun e => nth 0 e 0%Z) (mk_tables 2 [5; 6] [1; 1] [2; 1])%Z).
Definition ex_tps : kind_conf := Tps (fun _ => 0%Z) (concat (map file_bytes [ex_new; ex_old])).
Definition ex_conf : cmd kind_conf := CConf [(0, Some ex_raw); (1, Some ex_tps)].
Definition turns_of (i k : nat) : list (action kind_conf) := repeat (AThread i true) k.
Definition ex_run1 : list (action kind_conf) :=
  ACommand ex_conf :: repeat AStep 4 ++ ACommand CStart :: repeat AStep 4 ++ turns_of 0 18 ++ [AThread 1 true; AThread 1 false] ++ turns_of 1 8 ++ [ATotal 0; ANew 0; ATotal 1].
Definition ex_stop : list (action kind_conf) := ACommand CStop :: repeat AStep 2 ++ turns_of 0 6 ++ turns_of 1 6 ++ repeat AStep 3.
Definition ex_run2 : list (action kind_conf) := ACommand CStart :: repeat AStep 4 ++ turns_of 0 9 ++ turns_of 1 9.
Definition log_of (n : nat) (acts : list (action kind_conf)) : list (event kind_conf kind_out) := match run (new n) acts with Ok (_, log) => log | Crash => [] end.

(** Settings with a file of at least one element, a dropout table and error tables, and TP files of whole blocks, never make an emulator fail. *)
Theorem C70_good_settings_are_sound :
  (forall c, good_raw c -> sound kind_begin kind_turn (Raw c)) /\
  (forall junk blocks, good_tps blocks -> sound kind_begin kind_turn (Tps junk (concat (map file_bytes blocks)))).
Proof. split; [exact raw_sound|exact tps_sound]. Qed.
Print Assumptions C70_good_settings_are_sound.
Example ex_raw_sound : sound kind_begin kind_turn ex_raw.
Proof.
  apply C70_good_settings_are_sound. unfold good_raw. cbn [em_size em_source em_dropouts em_tables length]. split; [lia|]. split; [lia|]. split; [vm_compute; reflexivity|]. split; [discriminate|].
  unfold tables_ok. cbn. repeat split; try lia; repeat constructor; lia.
Qed.
Example ex_tps_sound : sound kind_begin kind_turn ex_tps.
Proof. apply C70_good_settings_are_sound. split; [exact C30_well_formed_ex|discriminate]. Qed.
Lemma ex_orderly : forall acts, (forall l, In (ACommand (CConf l)) acts -> CConf l = ex_conf) -> orderly_b kind_begin kind_turn (new 2) [] acts = true -> orderly (new 2) acts.
Proof.
  intros acts H B. apply orderly_decide; [exact B|]. intros l i k I J. specialize (H l I). injection H as ->. destruct J as [J|[J|[]]]; injection J as <- <-; [exact ex_raw_sound|exact ex_tps_sound].
Qed.
Ltac only_ex_conf := let l := fresh in let H := fresh in intros l H; cbv in H; repeat match type of H with _ \/ _ => destruct H as [H|H] end; try discriminate H; try (injection H as <-; reflexivity); contradiction.

(** Commands in the supported order never bring the process down, whatever the threads do, and only a conf throws. *)
Theorem C70_commands_in_order : forall n acts, orderly (new n) acts ->
  exists s log, run (new n) acts = Ok (s, log) /\ forall c, In (EThrew c) log -> exists l, c = CConf l.
Proof. intros n acts O. destruct (orderly_run kind_begin kind_turn n acts O) as (s & log & R & _ & F). exists s, log. auto. Qed.
Print Assumptions C70_commands_in_order.
Example C70_commands_in_order_ex : orderly (new 2) (ex_run1 ++ ex_stop ++ ex_run2) /\
  filter (fun e => match e with EReturned _ => true | _ => false end) (log_of 2 (ex_run1 ++ ex_stop ++ ex_run2)) = [EReturned ex_conf; EReturned CStart; EReturned CStop; EReturned CStart].
Proof. split; [|vm_compute; reflexivity]. apply ex_orderly; [only_ex_conf|vm_compute; reflexivity]. Qed.

(** Between runs nothing is offered to any queue. *)
Theorem C70_between_runs : forall n acts s log, orderly (new n) acts -> run (new n) acts = Ok (s, log) -> running log = false -> current log = None ->
  forall more, no_command more -> exists s' log', run s more = Ok (s', log') /\ forall i p q, ~ In (EPush i p q) log'.
Proof.
  intros n acts s log O R RU C more N. pose proof (orderly_inv _ _ _ _ _ _ O R) as I. destruct (inv_rest _ _ s log I RU C) as [T RE].
  destruct (rest_silent _ _ more s log I T RE N) as (s' & ev & E & _ & _ & _ & P). exists s', ev. auto.
Qed.
Print Assumptions C70_between_runs.
Example C70_between_runs_ex : orderly (new 2) (ex_run1 ++ ex_stop) /\ running (log_of 2 (ex_run1 ++ ex_stop)) = false /\ current (log_of 2 (ex_run1 ++ ex_stop)) = None /\
  offered 0 (log_of 2 (ex_run1 ++ ex_stop)) = 3.
Proof. split; [apply ex_orderly; [only_ex_conf|]|]; vm_compute; auto. Qed.

(** What the links offered in each run since they took their settings. A source emulator begins every run with the first element, dropout and time
    stamp, and goes on with the error bits. *)
Theorem C70_raw_runs : forall n acts s log i c, orderly (new n) acts -> run (new n) acts = Ok (s, log) -> settings i log = Some (Raw c) -> good_raw c ->
  exists used, raw_runs c (runs i log) used.
Proof.
  intros n acts s log i c O R S0 G. destruct (inv_fed _ _ s log i _ (orderly_inv _ _ _ _ _ _ O R) S0) as (last & F). destruct (raw_fed c G _ _ F) as (used & RR & _). exists used. exact RR.
Qed.
Print Assumptions C70_raw_runs.
(** A TP emulator begins every run with the first block. *)
Theorem C70_tps_runs : forall n acts s log i junk blocks, orderly (new n) acts -> run (new n) acts = Ok (s, log) ->
  settings i log = Some (Tps junk (concat (map file_bytes blocks))) -> good_tps blocks -> Forall (fun r => exists queue, r = tps_run blocks queue) (runs i log).
Proof.
  intros n acts s log i junk blocks O R S0 G. destruct (inv_fed _ _ s log i _ (orderly_inv _ _ _ _ _ _ O R) S0) as (last & F). eapply tps_fed; eauto.
Qed.
Print Assumptions C70_tps_runs.
Example C70_raw_runs_ex :
  map (map (fun x => match fst x with RawOut p => (py_data p, py_ts p, py_errs p, snd x) | TpsOut _ => ([], 0%Z, [], false) end)) (runs 0 (log_of 2 (ex_run1 ++ ex_stop ++ ex_run2))) =
  [[([1; 2; 3], 100, [0; 6], true)]; [([1; 2; 3], 100, [0; 0], true); ([4; 5; 6], 700, [6; 0], true); ([1; 2; 3], 1000, [5; 0], true)]]%Z /\
  settings 0 (log_of 2 (ex_run1 ++ ex_stop ++ ex_run2)) = Some ex_raw.
Proof. split; vm_compute; reflexivity. Qed.
Example C70_tps_runs_ex :
  map (map (fun x => match fst x with RawOut _ => (0, snd x) | TpsOut f => (List.length f, snd x) end)) (runs 1 (log_of 2 (ex_run1 ++ ex_stop ++ ex_run2))) =
  [[(48, true); (60, true)]; [(48, false); (60, true)]] /\ settings 1 (log_of 2 (ex_run1 ++ ex_stop ++ ex_run2)) = Some ex_tps.
Proof. split; vm_compute; reflexivity. Qed.

(** A stop returns, whatever the schedule, after 6 n + 2 rounds in each of which every thread gets a turn. *)
Theorem C70_stop_returns : forall n acts s log, orderly (new n) acts -> run (new n) acts = Ok (s, log) -> current log = Some CStop ->
  forall rounds, Forall (round n) rounds -> 6 * n + 2 <= length rounds -> exists s' log', run s (concat rounds) = Ok (s', log') /\ In (EReturned CStop) log'.
Proof.
  intros n acts s log O R C rounds F L. assert (K : k_n s = n) by (rewrite (run_n _ _ _ _ _ _ R); reflexivity).
  apply (stop_returns kind_begin kind_turn rounds s log); rewrite ?K; auto. eapply orderly_inv; eauto.
Qed.
Print Assumptions C70_stop_returns.
Example C70_stop_returns_ex : orderly (new 2) (ex_run1 ++ [ACommand CStop]) /\ current (log_of 2 (ex_run1 ++ [ACommand CStop])) = Some CStop /\
  Forall (@round kind_conf 2) (repeat [AStep; AThread 1 true; AThread 0 false] 14).
Proof.
  split; [apply ex_orderly; [only_ex_conf|vm_compute; reflexivity]|]. split; [vm_compute; reflexivity|]. apply Forall_forall. intros r H. apply repeat_spec in H. subst r.
  split; [left; reflexivity|]. split; [|intros c [H|[H|[H|[]]]]; discriminate H]. intros i I. destruct i as [|[|i]]; [exists false|exists true|lia]; simpl; auto.
Qed.

(** During a run a link whose work was handed over offers a payload at least once in five turns (if its settings drop none); one whose work was
    not handed over offers nothing in the whole run. *)
Theorem C70_run_produces : forall n acts s log i, orderly (new n) acts -> run (new n) acts = Ok (s, log) -> running log = true -> current log = None -> i < n ->
  ~ In i (ignored log) -> (forall k, settings i log = Some k -> steady k) ->
  forall more, no_command more -> exists s' log', run s more = Ok (s', log') /\ turns i more <= 5 * offered i log' + 4.
Proof.
  intros n acts s log i O R RU C J IG ST more N. assert (K : k_n s = n) by (rewrite (run_n _ _ _ _ _ _ R); reflexivity). pose proof (orderly_inv _ _ _ _ _ _ O R) as I.
  destruct (running_marker _ _ s log I RU C) as [T M]. assert (W : ready (e_thread (k_emu s i)) = false). { apply (at_work kind_begin kind_turn s log i I); auto; [eapply orderly_live; eauto|lia]. }
  destruct (produces _ _ more s log i I T M W N) as (s' & ev & E & W' & D).
  { intros k q x y x' S0 TU. eapply steady_turn; eauto. }
  exists s', ev. split; [exact E|]. destruct (e_thread (k_emu s' i)); try discriminate W'; destruct (e_thread (k_emu s i)); try discriminate W; simpl in D; lia.
Qed.
Print Assumptions C70_run_produces.
Theorem C70_run_without_producer : forall n acts s log i, orderly (new n) acts -> run (new n) acts = Ok (s, log) -> running log = true -> current log = None -> i < n ->
  In i (ignored log) -> forall more, no_command more -> exists s' log', run s more = Ok (s', log') /\ offered i log' = 0.
Proof.
  intros n acts s log i O R RU C J IG more N. assert (K : k_n s = n) by (rewrite (run_n _ _ _ _ _ _ R); reflexivity). pose proof (orderly_inv _ _ _ _ _ _ O R) as I.
  destruct (running_marker _ _ s log I RU C) as [T M]. apply (silent kind_begin kind_turn more s log i I T); auto.
  destruct (ready (e_thread (k_emu s i))) eqn:W; [reflexivity|]. exfalso. revert IG. apply (at_work kind_begin kind_turn s log i I); auto; [eapply orderly_live; eauto|lia].
Qed.
Print Assumptions C70_run_without_producer.
Example C70_run_produces_ex : orderly (new 2) (ex_run1 ++ ex_stop ++ ex_run2) /\ running (log_of 2 (ex_run1 ++ ex_stop ++ ex_run2)) = true /\ current (log_of 2 (ex_run1 ++ ex_stop ++ ex_run2)) = None /\
  ignored (log_of 2 (ex_run1 ++ ex_stop ++ ex_run2)) = [] /\ steady ex_tps.
Proof. split; [apply ex_orderly; [only_ex_conf|]|]; vm_compute; auto. Qed.

(** C70 (finding). The second case occurs with any settings: a start right after a stop may come before the producer thread has given back its
    last work. The start succeeds and the link stays silent for the whole run. *)
Theorem C70_restart_without_producer_refuted : forall k, sound kind_begin kind_turn k -> exists acts s log,
  orderly (new 1) acts /\ run (new 1) acts = Ok (s, log) /\ running log = true /\ current log = None /\ ignored log = [0].
Proof. intros k S0. exists (too_soon k). destruct (too_soon_run kind_begin kind_turn k S0) as (s & R). exists s, (l18 k). split; [apply too_soon_orderly; exact S0|]. split; [exact R|]. auto. Qed.
Print Assumptions C70_restart_without_producer_refuted.

(** A start hands its work to every link if every producer thread has had a turn since the last stop returned. *)
Theorem C70_start_hands_over : forall n acts s log, orderly (new n) acts -> run (new n) acts = Ok (s, log) -> running log = false -> current log = None ->
  forall wait more s' log', no_command wait -> (forall i, i < n -> 0 < turns i wait) -> no_command more ->
  run s (wait ++ ACommand CStart :: more) = Ok (s', log') -> forall i, ~ In (EIgnored i) log'.
Proof.
  intros n acts s log O R RU C wait more s' log' N P N2 E. assert (K : k_n s = n) by (rewrite (run_n _ _ _ _ _ _ R); reflexivity). pose proof (orderly_inv _ _ _ _ _ _ O R) as I.
  destruct (inv_rest _ _ s log I RU C) as [T RE]. apply (start_after_pause _ _ s log wait more I T RE N) with (s' := s'); rewrite ?K; auto.
Qed.
Print Assumptions C70_start_hands_over.
Example C70_start_hands_over_ex : orderly (new 2) (ex_run1 ++ ex_stop) /\ running (log_of 2 (ex_run1 ++ ex_stop)) = false /\
  filter (fun e => match e with EIgnored _ => true | _ => false end) (log_of 2 (ex_run1 ++ ex_stop ++ [AThread 1 true; AThread 0 true] ++ ACommand CStart :: repeat AStep 4)) = [] /\
  log_of 2 (ex_run1 ++ ex_stop ++ [AThread 1 true; AThread 0 true] ++ ACommand CStart :: repeat AStep 4) <> [].
Proof. split; [apply ex_orderly; [only_ex_conf|]|]; vm_compute; auto. split; [reflexivity|]. split; [reflexivity|discriminate]. Qed.

(** The total a link reports is what it offered since the start of the run (modulo the wrap-around of an int); in a run or while it stops it may
    be one less, that of the payload being offered. *)
Theorem C70_total : forall n acts s log i s' v, orderly (new n) acts -> run (new n) acts = Ok (s, log) -> run s [ATotal i] = Ok (s', [ETotal i v]) -> i < n ->
  current log <> Some CStart -> forall r rs, runs i log = r :: rs ->
  v = i32 (Z.of_nat (length r)) \/ (v = i32 (Z.of_nat (length r) - 1) /\ (running log = true \/ current log = Some CStop)).
Proof.
  intros n acts s log i s' v O R E J C r rs RS. assert (K : k_n s = n) by (rewrite (run_n _ _ _ _ _ _ R); reflexivity). pose proof (orderly_inv _ _ _ _ _ _ O R) as I.
  simpl in E. injection E as _ <-. rewrite (v_current _ _ _ _ I) in C. pose proof (orderly_tots _ _ _ _ _ _ O R i) as TT. rewrite K in TT. specialize (TT J).
  assert (V : e_tot (k_emu s i) = i32 (Z.of_nat (length r) - lag2 (e_thread (k_emu s i)))). { apply (TT) with (rs := rs); [|exact RS]. destruct (k_todo s) as [[[] m]|]; auto. }
  rewrite V. destruct (ready (e_thread (k_emu s i))) eqn:RE; [left; destruct (e_thread (k_emu s i)); try discriminate RE; simpl; rewrite Z.sub_0_r; reflexivity|].
  assert (RU : running log = true \/ current log = Some CStop).
  { rewrite (v_current _ _ _ _ I). pose proof (v_mode _ _ _ _ I) as MD. unfold mode, on, rest in MD. destruct (running log); [auto|]. right. destruct (k_todo s) as [[[l| | | |] m]|]; try reflexivity; exfalso.
    - destruct MD as [(_ & _ & (_ & X))|(_ & (_ & X) & _)]; rewrite X in RE; discriminate RE.
    - destruct MD as (_ & (_ & X) & _). rewrite X in RE. discriminate RE.
    - contradiction C. reflexivity.
    - destruct MD as (_ & (_ & X) & _). rewrite X in RE. discriminate RE.
    - destruct MD as (_ & X). rewrite X in RE. discriminate RE. }
  unfold lag2. destruct (e_thread (k_emu s i)); rewrite ?Z.sub_0_r; auto.
Qed.
Print Assumptions C70_total.
Example C70_total_ex : orderly (new 2) ex_run1 /\ filter (fun e => match e with ETotal _ _ => true | _ => false end) (log_of 2 ex_run1) = [ETotal 0 3%Z; ETotal 1 2%Z] /\
  map (@length _) (runs 0 (log_of 2 ex_run1)) = [3] /\ map (@length _) (runs 1 (log_of 2 ex_run1)) = [2].
Proof. split; [apply ex_orderly; [only_ex_conf|]|]; vm_compute; auto. Qed.

(** Until a start is commanded no link offers a payload, and every count reported is zero, whatever else is commanded. *)
Theorem C70_before_the_first_start : forall n acts s log, ~ In (ACommand CStart) acts -> run (new n) acts = Ok (s, log) ->
  (forall i p q, ~ In (EPush i p q) log) /\ (forall i v, In (ETotal i v) log \/ In (ENew i v) log -> v = 0%Z).
Proof. exact (before_lemma kind_begin kind_turn). Qed.
Print Assumptions C70_before_the_first_start.
Example C70_before_the_first_start_ex :
  let acts := [ACommand CStop; ATotal 1] ++ repeat AStep 4 ++ ACommand ex_conf :: repeat AStep 4 ++ turns_of 0 3 ++ [ANew 0; ATotal 0; ACommand CScrap] in
  ~ In (ACommand CStart) acts /\ length (log_of 2 acts) = 10 /\ In (ETotal 1 0%Z) (log_of 2 acts) /\ In (ENew 0 0%Z) (log_of 2 acts).
Proof. split; [simpl; intuition discriminate|]. vm_compute. auto 20. Qed.

(** The new packets a link reports add up to what it offered, over all runs and for any order of commands (modulo 2^32); the payload being offered
    may be missing, which it is not between runs. *)
Theorem C70_new_packets : forall n acts s log i s' v, run (new n) acts = Ok (s, log) -> run s [ANew i] = Ok (s', [ENew i v]) ->
  ((reported i (log ++ [ENew i v])) mod two32 = Z.of_nat (offered i log) mod two32 \/ (reported i (log ++ [ENew i v])) mod two32 = (Z.of_nat (offered i log) - 1) mod two32)%Z /\
  (orderly (new n) acts -> running log = false -> current log = None -> ((reported i (log ++ [ENew i v])) mod two32 = Z.of_nat (offered i log) mod two32)%Z).
Proof.
  intros n acts s log i s' v R E. pose proof (run_news kind_begin kind_turn n acts s log i R) as N. unfold news in N. simpl in E. injection E as _ <-. rewrite reported_app. simpl. rewrite Nat.eqb_refl, Z.add_0_r, N.
  split.
  - unfold lag1. destruct (e_thread (k_emu s i)); rewrite ?Z.sub_0_r; auto.
  - intros O RU C. destruct (inv_rest _ _ s log (orderly_inv _ _ _ _ _ _ O R) RU C) as [_ [_ RE]]. specialize (RE i). destruct (e_thread (k_emu s i)); try discriminate RE; simpl; rewrite Z.sub_0_r; reflexivity.
Qed.
Print Assumptions C70_new_packets.
Example C70_new_packets_ex : orderly (new 2) (ex_run1 ++ ex_stop) /\ reported 0 (log_of 2 (ex_run1 ++ ex_stop ++ [ANew 0])) = 3%Z /\ offered 0 (log_of 2 (ex_run1 ++ ex_stop)) = 3 /\
  reported 1 (log_of 2 (ex_run1 ++ ex_stop ++ [ANew 1])) = 2%Z.
Proof. split; [apply ex_orderly; [only_ex_conf|]|]; vm_compute; auto. Qed.

(** ** Commands out of order (findings) *)
(** C70 (finding). A start in a run replaces the rate limiters while the producers use them: on some schedule a producer goes on with a destroyed one. *)
Theorem C70_start_in_a_run : forall n acts s log i, orderly (new n) acts -> run (new n) acts = Ok (s, log) -> running log = true -> current log = None -> i < n ->
  ~ In i (ignored log) -> exists before, no_command before /\ run s (before ++ ACommand CStart :: repeat AStep (i + 2) ++ [AThread i true]) = Crash.
Proof.
  intros n acts s log i O R RU C J IG. assert (K : k_n s = n) by (rewrite (run_n _ _ _ _ _ _ R); reflexivity). pose proof (orderly_inv _ _ _ _ _ _ O R) as I.
  destruct (running_marker _ _ s log I RU C) as [T M]. assert (W : ready (e_thread (k_emu s i)) = false). { apply (at_work kind_begin kind_turn s log i I); auto; [eapply orderly_live; eauto|lia]. }
  destruct (reach_limit _ _ 5 s log i true I T M W) as (k & s1 & e1 & f & x & l & E1 & I1 & T1 & M1 & N1 & H1); [destruct (e_thread (k_emu s i)); simpl; lia|].
  exists (repeat (AThread i true) k). split; [intros c H; apply repeat_spec in H; discriminate H|]. eapply crash_app; [exact E1|]. eapply start_in_a_run; eauto; [|lia].
  apply (run_ids kind_begin kind_turn n (acts ++ repeat (AThread i true) k) s1 (log ++ e1)). rewrite run_app, R. cbn [bind fst snd]. rewrite E1. reflexivity.
Qed.
Print Assumptions C70_start_in_a_run.
(** C70 (finding). A scrap and a conf in a run replace the file buffer that the producer reads from. *)
Theorem C70_conf_in_a_run : forall n acts s log i k, orderly (new n) acts -> run (new n) acts = Ok (s, log) -> running log = true -> current log = None -> i < n ->
  ~ In i (ignored log) -> exists before, no_command before /\
  run s (before ++ ACommand CScrap :: repeat AStep (n + 2) ++ [ACommand (CConf [(i, Some k)]); AStep; AThread i true]) = Crash.
Proof.
  intros n acts s log i c O R RU C J IG. assert (K : k_n s = n) by (rewrite (run_n _ _ _ _ _ _ R); reflexivity). pose proof (orderly_inv _ _ _ _ _ _ O R) as I.
  destruct (running_marker _ _ s log I RU C) as [T M]. assert (W : ready (e_thread (k_emu s i)) = false). { apply (at_work kind_begin kind_turn s log i I); auto; [eapply orderly_live; eauto|lia]. }
  destruct (reach_head _ _ s log i true I T M W) as (k & s1 & e1 & f & x & E1 & I1 & T1 & M1 & N1 & H1).
  exists (repeat (AThread i true) k). split; [intros d H; apply repeat_spec in H; discriminate H|]. eapply crash_app; [exact E1|]. replace n with (k_n s1) by congruence. eapply conf_in_a_run; eauto; [|lia].
  apply (run_ids kind_begin kind_turn n (acts ++ repeat (AThread i true) k) s1 (log ++ e1)). rewrite run_app, R. cbn [bind fst snd]. rewrite E1. reflexivity.
Qed.
Print Assumptions C70_conf_in_a_run.
(** C70 (finding). The destruction of a running card never ends; and the first producer goes on with destroyed members. *)
Theorem C70_destroy_in_a_run : forall n acts s log i, orderly (new n) acts -> run (new n) acts = Ok (s, log) -> running log = true -> current log = None -> i < n ->
  ~ In i (ignored log) ->
  (forall more s' log', no_command more -> run s (ACommand CDestroy :: more) = Ok (s', log') -> ~ In (EReturned CDestroy) log') /\
  (i = 0 -> exists before, no_command before /\ run s (before ++ [ACommand CDestroy; AStep; AThread 0 true]) = Crash).
Proof.
  intros n acts s log i O R RU C J IG. assert (K : k_n s = n) by (rewrite (run_n _ _ _ _ _ _ R); reflexivity). pose proof (orderly_inv _ _ _ _ _ _ O R) as I.
  destruct (running_marker _ _ s log I RU C) as [T M]. assert (W : ready (e_thread (k_emu s i)) = false). { apply (at_work kind_begin kind_turn s log i I); auto; [eapply orderly_live; eauto|lia]. }
  split.
  - intros more s' log' N E. eapply (destroy_in_a_run kind_begin kind_turn s i); eauto. lia.
  - intros ->. destruct (reach_head _ _ s log 0 true I T M W) as (k & s1 & e1 & f & x & E1 & I1 & T1 & M1 & N1 & H1).
    exists (repeat (AThread 0 true) k). split; [intros d H; apply repeat_spec in H; discriminate H|]. eapply crash_app; [exact E1|]. eapply destroy_crash; eauto. lia.
Qed.
Print Assumptions C70_destroy_in_a_run.
(** [ex_run1] leaves both links at work: all three occur with it. *)
Example C70_out_of_order_ex : orderly (new 2) ex_run1 /\ running (log_of 2 ex_run1) = true /\ current (log_of 2 ex_run1) = None /\ ignored (log_of 2 ex_run1) = [] /\
  run (new 2) (ex_run1 ++ ACommand CStart :: repeat AStep 4 ++ turns_of 1 1) = Crash.
Proof. split; [apply ex_orderly; [only_ex_conf|vm_compute; reflexivity]|]. vm_compute. auto. Qed.
