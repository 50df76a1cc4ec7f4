(** C13, C14, C15, C54, C55: the life of a data request. *)
From Coq Require Import ZArith List Bool Lia Permutation.
From Verif Require Import Base_model Ring_model Ring_spec Elem_model Search_model SkipList_model Lb_model Request_model Request_spec
  Request_proofs Flow_model Flow_spec Flow_proofs Flow_proofs2 Flow_proofs3.
Import ListNotations.
Open Scope Z_scope.

(** C13. Under every schedule every accepted request is in exactly one place: inside the handler,
    answered, or (only after a restart) destroyed with the previous pool; so it is answered at most once. *)
Theorem C13_exactly_one_place :
  forall dnf lk tick (B : Type) (L : lb elem B) retries acts missing b s,
    frun dnf lk tick L retries (finit missing b) acts = Some s ->
    Permutation (f_issued s) (inside s ++ answered s ++ f_lost s) /\
    NoDup (map t_id (inside s ++ answered s ++ f_lost s)).
Proof. exact (@one_place_lemma). Qed.
Print Assumptions C13_exactly_one_place.

(** C13. No step but a restart destroys a request. *)
Theorem C13_none_disappears_during_a_run :
  forall dnf lk tick (B : Type) (L : lb elem B) retries (s : @fstate B) a s',
    fstep dnf lk tick L retries s a = Some s' -> not_restart a -> f_lost s' = f_lost s.
Proof. exact (@lost_only_at_restart). Qed.
Print Assumptions C13_none_disappears_during_a_run.

(** C13. Every fragment sent carries the identity of the request it answers. *)
Theorem C13_answers_belong_to_their_request :
  forall dnf lk tick (B : Type) (L : lb elem B) retries acts missing b s,
    frun dnf lk tick L retries (finit missing b) acts = Some s ->
    forall a, In a (f_out s) -> mirrors lk (t_req (a_task a)) (fg_header (a_frag a)).
Proof. exact (@good_answers_run). Qed.
Print Assumptions C13_answers_belong_to_their_request.

(** C14. One pass treats every entry by itself, whatever the order of the list. *)
Theorem C14_pass_is_per_entry :
  forall retries running newest l, pass_spec retries running newest l (check_pass retries running newest l).
Proof. exact pass_correct. Qed.
Print Assumptions C14_pass_is_per_entry.

(** C14. ... and that pass is what the waiting-list thread executes once it holds the lock. *)
Theorem C14_pass_is_executed :
  forall dnf lk tick (B : Type) (L : lb elem B) retries fuel (s : @fstate B) i newest,
    f_crashed s = false -> f_loop s = LPass i newest -> (i <= length (f_waiting s))%nat -> (length (f_waiting s) - i <= fuel)%nat ->
    exists k s', frun dnf lk tick L retries s (repeat (FLoop false) k) = Some s' /\ f_loop s' = LTop /\
      let r := pass fuel retries (f_marker s) newest (f_waiting s) i in
      f_waiting s' = p_kept r /\ f_pool s' = f_pool s ++ map w_task (p_reissued r) /\
      f_work s' = f_work s /\ f_marker s' = f_marker s /\
      exists out, f_out s' = f_out s ++ out /\ Permutation (map a_task out) (map w_task (p_timed r ++ p_ended r)).
Proof. exact (@pass_executes). Qed.
Print Assumptions C14_pass_is_executed.

(** C14. While the buffer does not pass its window end, an entry with r retries stays on the list for
    exactly retries - r checks and is answered by time-out in the next one, whatever else is added. *)
Theorem C14_timeout_after_exact_number_of_checks :
  forall retries l w rounds newest more,
    In w l -> (w_retry w <= retries)%nat -> length rounds = (retries - w_retry w)%nat ->
    (forall n m, In (n, m) (rounds ++ [(newest, more)]) -> n <= rq_end (t_req (w_task w))) ->
    In (aged w rounds) (fst (checks retries l rounds)) /\
    exists out last, snd (checks retries l (rounds ++ [(newest, more)])) = out ++ [last] /\ length out = length rounds /\
      In (aged w rounds) last.
Proof. exact timeout_exact. Qed.
Print Assumptions C14_timeout_after_exact_number_of_checks.

(** C14. In every execution: an entry on the list has been checked as often as its retry count says, at
    most the configured number of times, always finding the data not there; a time-out answer is empty
    and comes after exactly retries + 1 such checks; an end-of-run answer is empty. *)
Theorem C14_time_outs_in_every_execution :
  forall dnf lk tick (B : Type) (L : lb elem B) retries acts missing b s,
    frun dnf lk tick L retries (finit missing b) acts = Some s ->
    (forall w, In w (f_waiting s) -> length (w_seen w) = w_retry w /\ (w_retry w <= retries)%nat /\
       forall n, In n (w_seen w) -> n <= rq_end (t_req (w_task w))) /\
    (forall a seen, In a (f_out s) -> a_why a = TimedOut seen ->
       length seen = S retries /\ (forall n, In n seen -> n <= rq_end (t_req (a_task a))) /\
       a_frag a = create_empty_fragment dnf lk (t_req (a_task a))) /\
    (forall a, In a (f_out s) -> a_why a = EndOfRun -> a_frag a = create_empty_fragment dnf lk (t_req (a_task a))).
Proof. exact (@waited_run). Qed.
Print Assumptions C14_time_outs_in_every_execution.

(** C15. If nothing came too late, every accepted request is answered when stop() has completed. *)
Theorem C15_all_answered_when_nothing_is_late :
  forall dnf lk tick (B : Type) (L : lb elem B) retries acts missing b s,
    frun dnf lk tick L retries (finit missing b) acts = Some s ->
    (forall pre a post s1, acts = pre ++ a :: post ->
       frun dnf lk tick L retries (finit missing b) pre = Some s1 -> ~ too_late s1 a) ->
    f_stop s = SDone -> Permutation (f_issued s) (answered s).
Proof. exact (@stop_answers_all). Qed.
Print Assumptions C15_all_answered_when_nothing_is_late.

(** C15. Only workers that had decided "retry later" before the run was stopped can be late with it. *)
Theorem C15_no_late_decisions :
  forall dnf lk tick (B : Type) (L : lb elem B) retries (s : @fstate B) a s',
    f_marker s = false -> not_restart a -> fstep dnf lk tick L retries s a = Some s' -> (deciding s' <= deciding s)%nat.
Proof. exact (@deciding_falls). Qed.
Print Assumptions C15_no_late_decisions.

(** C15. stop() completes under every schedule: the handler's own steps are bounded in number and can
    only end in a completed stop (or a crash). *)
Theorem C15_stop_completes :
  forall dnf lk tick (B : Type) (L : lb elem B) retries acts missing b s,
    frun dnf lk tick L retries (finit missing b) acts = Some s -> f_stop s <> SRun ->
    exists bound, forall acts' s', Forall own_step acts' -> frun dnf lk tick L retries s acts' = Some s' ->
      (length acts' <= bound)%nat /\
      ((forall a, own_step a -> fstep dnf lk tick L retries s' a = None) -> f_crashed s' = true \/ f_stop s' = SDone).
Proof. exact (@stop_always). Qed.
Print Assumptions C15_stop_completes.

(** * Examples: a skip-list buffer with elements at 100, 110, ..., one frame each. *)
Definition fx (t : Z) : elem := mk_elem [mk_frame t [t; t + 1]].
Definition fbuf (l : list Z) : list elem := map fx l.
Definition fr (n b e : Z) : request := mk_request n b b e 7 1.
Definition flk : link := mk_link 1 2 3 4.
Notation xrun := (frun 3 flk 10 (sl_lb e_ts) 2).
Notation xinit := (finit false (fbuf [100; 110; 120])).

(** C15. A worker decides "retry later", the waiting-list thread ends, the request is put on the list:
    stop() completes and the request is never answered unless a new run is started. *)
Definition ex_late_wait : list (@faction (list elem)) :=
  [FIssue (fr 1 110 120); FIssue (fr 2 110 150); FTake 0; FTake 0; FWork 0 false; FWork 0 false; FWork 0 false;
   FWork 0 false; FWork 0 false; FStop; FLoop false; FLoop false; FStop; FWork 0 false; FStop].
Theorem C15_late_retry_refuted :
  exists acts s t, xrun xinit acts = Some s /\ f_stop s = SDone /\ In t (f_issued s) /\
    forall acts' s', Forall not_restart acts' -> xrun s acts' = Some s' -> ~ In t (answered s').
Proof.
  exists ex_late_wait.
  assert (E : exists s, xrun xinit ex_late_wait = Some s /\ f_stop s = SDone /\
     In (mk_task 1 (fr 2 110 150)) (f_issued s) /\ ~ In (mk_task 1 (fr 2 110 150)) (answered s)).
  { eexists. split; [vm_compute; reflexivity|]. vm_compute. split; [reflexivity|]. split; [auto|].
    intros [H|[]]. discriminate. }
  destruct E as (s & E1 & E2 & E3 & E4). exists s, (mk_task 1 (fr 2 110 150)). repeat split; auto.
  intros acts' s' F H. unfold answered. rewrite (ended_run _ _ _ _ _ _ _ _ (phases_run _ _ _ _ _ _ _ _ _ E1) E2 F H). exact E4.
Qed.
Print Assumptions C15_late_retry_refuted.

(** C15. A request handed over after the pool was joined is never answered. *)
Definition ex_late_issue : list (@faction (list elem)) :=
  [FStop; FLoop false; FLoop false; FStop; FStop; FIssue (fr 1 100 110)].
Theorem C15_late_request_refuted :
  exists acts s t, xrun xinit acts = Some s /\ f_stop s = SDone /\ In t (f_issued s) /\
    forall acts' s', Forall not_restart acts' -> xrun s acts' = Some s' -> ~ In t (answered s').
Proof.
  exists ex_late_issue.
  assert (E : exists s, xrun xinit ex_late_issue = Some s /\ f_stop s = SDone /\
     In (mk_task 0 (fr 1 100 110)) (f_issued s) /\ ~ In (mk_task 0 (fr 1 100 110)) (answered s)).
  { eexists. split; [vm_compute; reflexivity|]. vm_compute. auto. }
  destruct E as (s & E1 & E2 & E3 & E4). exists s, (mk_task 0 (fr 1 100 110)). repeat split; auto.
  intros acts' s' F H. unfold answered. rewrite (ended_run _ _ _ _ _ _ _ _ (phases_run _ _ _ _ _ _ _ _ _ E1) E2 F H). exact E4.
Qed.
Print Assumptions C15_late_request_refuted.

(** One run: three requests (served, too old, too new), the last one waits, is re-issued when newer data
    has arrived and is then served; monitoring reads the counters in between; stop completes. *)
Definition ex_flow : list (@faction (list elem)) :=
  [FIssue (fr 1 110 120); FIssue (fr 2 90 110); FIssue (fr 3 110 130);
   FTake 2; FTake 0; FWork 0 false; FWork 1 false; FWork 0 false; FWork 0 false; FTake 0; FWork 0 false; FInfo NDelayed;
   FWork 0 false; FWork 0 false; FWork 0 false; FWork 0 true; FLoop false; FLoop false; FLoop false; FLoop false;
   FBuf false (fbuf [100; 110; 120; 130; 140]); FLoop false; FLoop false; FLoop false; FLoop false; FLoop false;
   FTake 0; FWork 0 false; FStop; FWork 0 false; FWork 0 false; FInfo NFound; FLoop false; FLoop false; FLoop false; FLoop false; FStop; FStop].
Example C13_ex :
  match xrun xinit ex_flow with
  | Some s => map t_id (answered s) = [0%nat; 1%nat; 2%nat] /\ f_stop s = SDone /\ map a_pushed (f_out s) = [true; false; true]
  | None => False
  end.
Proof. vm_compute. auto. Qed.

Example C15_ex_not_late : forall pre a post s1, ex_flow = pre ++ a :: post -> xrun xinit pre = Some s1 -> ~ too_late s1 a.
Proof.
  assert (H : forall n, match nth_error ex_flow n, xrun xinit (firstn n ex_flow) with
    | Some (FIssue _), Some s => f_stop s <> SDone
    | Some (FWork i _), Some s => f_loop s <> LDone
    | _, _ => True end).
  { intro n. do 40 (destruct n as [|n]; [vm_compute; try discriminate; exact I|]). vm_compute. exact I. }
  intros pre a post s1 E E1 T. specialize (H (length pre)). rewrite E in H.
  rewrite nth_error_app2, Nat.sub_diag in H by auto. cbn [nth_error] in H.
  rewrite firstn_app, Nat.sub_diag, firstn_all in H. cbn [firstn] in H. rewrite app_nil_r, E1 in H.
  destruct a; cbn in T; try contradiction. destruct T as [T _]. contradiction.
Qed.

(** The request of the second example waits three checks (retries = 2) and times out; a restart then
    finds an entry left from the previous run still on the list. *)
Definition ex_timeout : list (@faction (list elem)) :=
  [FIssue (fr 5 110 130); FTake 0; FWork 0 false; FWork 0 false; FWork 0 false] ++
  concat (repeat [FLoop false; FLoop false; FLoop false; FLoop false] 3).
Example C14_ex :
  match xrun xinit ex_timeout with
  | Some s => map a_why (f_out s) = [TimedOut [120; 120; 120]] /\ f_waiting s = []
  | None => False
  end /\
  match xrun xinit (ex_late_wait ++ [FStart]) with
  | Some s => map w_task (f_waiting s) = [mk_task 1 (fr 2 110 150)] /\ f_marker s = true
  | None => False
  end.
Proof. vm_compute. auto. Qed.

Definition ex_wl : list waiter :=
  [mk_waiter (mk_task 0 (fr 1 100 115)) 0 []; mk_waiter (mk_task 1 (fr 2 100 120)) 2 [90; 100]; mk_waiter (mk_task 2 (fr 3 110 140)) 1 [110]].
Example C14_ex_pass :
  let r := check_pass 2 true 120 ex_wl in
  map (fun w => t_id (w_task w)) (p_reissued r) = [0%nat] /\ map (fun w => t_id (w_task w)) (p_timed r) = [1%nat] /\
  map (fun w => (t_id (w_task w), w_retry w)) (p_kept r) = [(2%nat, 2%nat)].
Proof. vm_compute. auto. Qed.

(** C54. Totals published plus pending: found and bad count the fragments made without and with the
    "data not found" bit, timed-out the time-out answers, old the requests whose window begins before
    the oldest element; found + old + delayed + empty-buffer outcomes are all classifications made;
    nothing is ever uncategorised. *)
Theorem C54_statistics_add_up :
  forall dnf lk tick (B : Type) (L : lb elem B) retries, 0 <= dnf -> forall acts missing b s,
    frun dnf lk tick L retries (finit missing b) acts = Some s ->
    tot st_found s = count (fun fr => negb (not_found_bit dnf fr)) (made s) /\
    tot st_bad s = count (not_found_bit dnf) (made s) /\
    tot_timed s = count is_timeout (skipn (f_start_out s) (f_out s)) /\
    tot st_old s = count (fun x => is_old (find_class L x)) (f_reads s) /\
    tot st_uncategorized s = 0 /\
    tot st_found s + tot st_old s + tot st_delayed s + count (fun x => is_empty (find_class L x)) (f_reads s)
      = Z.of_nat (length (f_reads s)).
Proof. exact (@stats_lemma). Qed.
Print Assumptions C54_statistics_add_up.

Example C54_ex :
  match xrun xinit ex_flow with
  | Some s => tot st_found s = 2 /\ tot st_bad s = 1 /\ tot st_old s = 1 /\ tot st_delayed s = 1 /\ f_sum s = mk_stats 2 0 0 1 0 /\
              length (made s) = 3%nat /\ length (f_reads s) = 4%nat
  | None => False
  end.
Proof. vm_compute. auto 10. Qed.

(** C55. A window that ends exactly at the newest timestamp is served when requested, but an entry with
    this window on the waiting list is not re-issued, and after the configured number of checks it is
    answered with an empty fragment. *)
Theorem C55_window_end_equal_to_newest :
  forall (dnf : Z) (lk : link) (tick n : Z) (ops : list (op elem)) (r : ring elem) (q : queue elem)
         (running missing : bool) (dr : request) (s : stats),
    supported_size n -> Forall supported_op ops -> reached n ops r q ->
    0 <= tick -> wf tick (q_items q) -> q_items q <> [] ->
    oldest_ts (q_items q) <= rq_begin dr -> rq_end dr = newest_ts (q_items q) ->
    (exists s', data_request dnf lk tick (bs_lb e_ts) running missing r dr s =
      Ok (kFound, Some (mk_fragment (create_fragment_header lk dr)
                          (window_bytes (q_items q) (rq_begin dr) (rq_end dr))), s')) /\
    (forall retries l w, In w l -> t_req (w_task w) = dr ->
       ~ In w (p_reissued (check_pass retries running (newest_ts (q_items q)) l))) /\
    (forall retries l w rounds more, In w l -> t_req (w_task w) = dr -> w_retry w = 0%nat -> length rounds = retries ->
       (forall x m, In (x, m) rounds -> x = newest_ts (q_items q)) ->
       exists out last, snd (checks retries l (rounds ++ [(newest_ts (q_items q), more)])) = out ++ [last] /\
         In (aged w rounds) last).
Proof.
  intros dnf lk tick n ops r q running missing dr s Hn Ho Hr Ht Hw Hne Hb He. split; [|split].
  - apply (c09_bs dnf lk tick n ops r q running missing dr s Hn Ho Hr Ht Hw Hne Hb). lia.
  - intros retries l w Hin Hd H. destruct (pass_correct retries running (newest_ts (q_items q)) l) as (A & _).
    apply (Permutation_in _ A) in H. apply filter_In in H. destruct H as [_ H]. unfold arrived in H. rewrite Hd, He in H.
    rewrite Z.ltb_irrefl in H. discriminate.
  - intros retries l w rounds more Hin Hd H0 Hl Hx.
    destruct (timeout_exact retries l w rounds (newest_ts (q_items q)) more Hin) as (_ & out & last & E1 & _ & E2); [lia|lia| |eauto].
    intros x m H. rewrite Hd, He. apply in_app_or in H. destruct H as [H|[H|[]]]; [rewrite (Hx _ _ H); lia|injection H as <- _; lia].
Qed.
Print Assumptions C55_window_end_equal_to_newest.

(** Issued while 130 is not there yet; 130 arrives; three checks later the answer is empty, although the
    same request issued now is served. *)
Definition ex_equal : list (@faction (list elem)) :=
  [FIssue (fr 5 110 130); FTake 0; FWork 0 false; FWork 0 false; FWork 0 false; FBuf false (fbuf [100; 110; 120; 130])] ++
  concat (repeat [FLoop false; FLoop false; FLoop false; FLoop false] 3) ++
  [FIssue (fr 6 110 130); FTake 0; FWork 0 false; FWork 0 false; FWork 0 false].
Example C55_ex :
  match xrun xinit ex_equal with
  | Some s => map (fun a => (t_id (a_task a), fg_bytes (a_frag a), not_found_bit 3 (a_frag a))) (f_out s) =
              [(0%nat, [], true); (1%nat, [110; 111; 120; 121], false)]
  | None => False
  end.
Proof. vm_compute. reflexivity. Qed.
