(** Property C21: gaps in the latency buffer of a WIB-type link are always flagged. *)
From Coq Require Import String ZArith List Bool Lia.
From Verif Require Import Base_model Ring_model Ring_spec Search_model Elem_model Lb_model Float_model Registry_model
  Request_model Request_spec Cleanup_model Cleanup_spec Check_model Link_model Link_spec Link_proofs.
Import ListNotations.
Open Scope Z_scope.

(** C21. After every history of arrivals (with any gaps), clean-ups, requests and restarts in which no
    arrival was refused: the buffer holds the newest part of what was received in this run, and if two
    neighbours in it are not exactly one element apart, MISSING_FRAMES is registered. *)
Theorem C21_gaps_are_flagged :
  forall (dnf : Z) (lk : link) (tick nf n : Z) (resets running : bool),
  0 <= dnf -> 0 < tick -> 0 < nf -> tick * nf < two64 -> 2 <= n <= 2 ^ 24 ->
  forall (ops : list link_op) (s0 s : link_state) (ys : list link_out),
  link_new n = Ok s0 -> proper_history tick nf ops ->
  link_run dnf lk (tick * nf) tick resets running s0 ops = Ok (s, ys) -> ~ In (OutWrite false) ys ->
  exists iops q k, Forall supported_op iops /\ reached n iops (ls_ring s) q /\ q_items q = skipn k (received ops) /\
    (has_gap (tick * nf) (q_items q) -> has_error "MISSING_FRAMES" (ck_reg (ls_check s)) = true).
Proof. exact c21_flagged. Qed.
Print Assumptions C21_gaps_are_flagged.

(** C21. After such a history every request gets the right answer, and a served one exactly the frames of
    its window among all those received in this run. *)
Theorem C21_requests_are_served_exactly :
  forall (dnf : Z) (lk : link) (tick nf n : Z) (resets running : bool),
  0 <= dnf -> 0 < tick -> 0 < nf -> tick * nf < two64 -> 2 <= n <= 2 ^ 24 ->
  forall (ops : list link_op) (s0 s : link_state) (ys : list link_out) (iops : list (op elem)) (q : queue elem) (dr : request),
  link_new n = Ok s0 -> proper_history tick nf ops ->
  link_run dnf lk (tick * nf) tick resets running s0 ops = Ok (s, ys) -> ~ In (OutWrite false) ys ->
  Forall supported_op iops -> reached n iops (ls_ring s) q -> rq_begin dr <= rq_end dr ->
  exists s' c f, link_step dnf lk (tick * nf) tick resets running s (LRequest dr) = Ok (s', OutReply c f) /\
    right_answer dnf running (q_items q) dr (ls_stats s) (Ok (c, f, ls_stats s')) /\
    (c = kFound -> f = Some (mk_fragment (create_fragment_header lk dr)
                               (window_bytes (received ops) (rq_begin dr) (rq_end dr)))).
Proof. exact c21_served. Qed.
Print Assumptions C21_requests_are_served_exactly.

(** C21. No proper history crashes before the first refused arrival. *)
Theorem C21_no_crash_before_a_refusal :
  forall (dnf : Z) (lk : link) (tick nf n : Z) (resets running : bool),
  0 <= dnf -> 0 < tick -> 0 < nf -> tick * nf < two64 -> 2 <= n <= 2 ^ 24 ->
  forall (ops : list link_op) (s0 : link_state), link_new n = Ok s0 -> proper_history tick nf ops ->
  link_run dnf lk (tick * nf) tick resets running s0 ops = Crash ->
  exists m s ys, link_run dnf lk (tick * nf) tick resets running s0 (firstn m ops) = Ok (s, ys) /\ In (OutWrite false) ys.
Proof. exact c21_no_crash. Qed.
Print Assumptions C21_no_crash_before_a_refusal.

(** Two frames per element, tick 25. *)
Definition el (t : Z) : elem := mk_elem [mk_frame t [t]; mk_frame (t + 25) [t + 1]].
Definition ask (b e : Z) : request := mk_request 1 b b e 1 0.
Definition half : float32 := (1, -1).
Definition the_link : link := mk_link 1 2 3 4.

Definition replies (ys : list link_out) : list (list Z) :=
  flat_map (fun y => match y with OutReply kFound (Some f) => [fg_bytes f] | _ => [] end) ys.

(** A gap, a clean-up and a restart; the request before and after the gap left the buffer. *)
Definition history : list link_op :=
  [LArrive (el 50); LArrive (el 100); LArrive (el 250); LArrive (el 300); LRequest (ask 75 260); LClean 2 half max_u64;
   LArrive (el 350); LRequest (ask 300 350); LRestart; LArrive (el 50); LArrive (el 100); LRequest (ask 50 100)].

Example C21_history_runs : exists s0 s ys, link_new 8 = Ok s0 /\
  link_run 0 the_link 50 25 true true s0 history = Ok (s, ys) /\ ~ In (OutWrite false) ys /\
  replies ys = [[51; 100; 101; 250]; [300; 301]; [50; 51]].
Proof.
  eexists _, _, _. split; [reflexivity|]. split; [vm_compute; reflexivity|]. split; [|reflexivity].
  cbn. intuition discriminate.
Qed.

(** A decision procedure for [proper_history], to check the examples. *)
Definition regularb (tick : Z) (e : elem) : bool :=
  match e_frames e with [] => false | _ => true end && (0 <=? e_ts e) && (e_ts e + e_num e * tick <? two64) &&
  forallb (fun kf => f_ts (snd kf) =? e_ts e + Z.of_nat (fst kf) * tick) (combine (seq 0 (List.length (e_frames e))) (e_frames e)).

Fixpoint orderb (l : list elem) : bool :=
  match l with
  | [] => true
  | x :: l' => forallb (fun y => forallb (fun f => f_ts f <? e_ts y) (e_frames x)) l' && orderb l'
  end.

Definition wfb (tick : Z) (l : list elem) : bool := forallb (regularb tick) l && orderb l.

Lemma nth_combine_seq : forall (T : Type) (l : list T) k x a, nth_error l k = Some x ->
  In ((a + k)%nat, x) (combine (seq a (List.length l)) l).
Proof.
  induction l as [|y l IH]; intros [|k] x a H; cbn in H; try discriminate.
  - injection H as <-. left. f_equal. lia.
  - right. replace (a + S k)%nat with (S a + k)%nat by lia. apply IH. exact H.
Qed.

Lemma wfb_sound : forall tick l, wfb tick l = true -> wf tick l.
Proof.
  intros tick l H. apply andb_true_iff in H as [H1 H2]. split.
  - apply Forall_forall. intros x Hx. rewrite forallb_forall in H1. specialize (H1 x Hx). unfold regularb in H1.
    apply andb_true_iff in H1 as [H1 H4]. apply andb_true_iff in H1 as [H1 H3]. apply andb_true_iff in H1 as [H0 H1].
    apply Z.leb_le in H1. apply Z.ltb_lt in H3. repeat split; try assumption.
    + intro E. rewrite E in H0. discriminate.
    + intros k f Hf. rewrite forallb_forall in H4. specialize (H4 _ (nth_combine_seq _ _ _ _ 0%nat Hf)). cbn [fst snd Nat.add] in H4.
      apply Z.eqb_eq. exact H4.
  - clear H1. induction l as [|z l IH]; [intros [|i] j x y f _ Hx; discriminate|]. cbn [orderb] in H2. apply andb_true_iff in H2 as [A B].
    intros i j x y f Hij Hx Hy Hf. destruct j; [lia|]. cbn [nth_error] in Hy. destruct i as [|i].
    + cbn in Hx. injection Hx as <-. rewrite forallb_forall in A. specialize (A y (nth_error_In _ _ Hy)).
      rewrite forallb_forall in A. specialize (A f Hf). apply Z.ltb_lt. exact A.
    + cbn [nth_error] in Hx. apply (IH B i j x y f); auto. lia.
Qed.

Lemma prefixes_sound : forall tick ops, forallb (fun k => wfb tick (received (firstn k ops))) (seq 0 (S (List.length ops))) = true ->
  forall k, wf tick (received (firstn k ops)).
Proof.
  intros tick ops H k. rewrite forallb_forall in H. destruct (Nat.le_ge_cases k (List.length ops)).
  - apply wfb_sound, H, in_seq. lia.
  - rewrite firstn_all2 by assumption. rewrite <- (firstn_all ops). apply wfb_sound, H, in_seq. lia.
Qed.

Example C21_history_is_proper : proper_history 25 2 history.
Proof.
  split; [|apply prefixes_sound; vm_compute; reflexivity].
  unfold history, half. repeat (apply Forall_cons || apply Forall_nil); cbn [proper_op]; try reflexivity; try (vm_compute; congruence); auto.
  split; [lia|]. split; [vm_compute; intuition congruence|]. intro E. vm_compute in E. discriminate.
Qed.

(** C21. After a refused arrival it can fail: four elements fill the ring, the fifth is lost, half are
    cleaned up and two more arrive. No error is registered although 1500 is missing, and the request for
    [1800, 1825) is served with nothing instead of the frame at 1800. *)
Definition el12 (t : Z) : elem := mk_elem [mk_frame t [t]; mk_frame (t + 150) [t + 150]].
Definition drop_history : list link_op :=
  [LArrive (el12 300); LArrive (el12 600); LArrive (el12 900); LArrive (el12 1200); LArrive (el12 1500); LClean 2 half max_u64;
   LArrive (el12 1800); LArrive (el12 2100)].

Theorem C21_after_a_refused_arrival_refuted :
  exists (ops : list link_op) (s0 s s' : link_state) (ys : list link_out) (dr : request) (f : fragment) (iops : list (op elem)) (q : queue elem),
    link_new 5 = Ok s0 /\ proper_history 150 2 ops /\
    link_run 0 the_link 300 150 true true s0 ops = Ok (s, ys) /\ In (OutWrite false) ys /\
    reached 5 iops (ls_ring s) q /\ has_gap 300 (q_items q) /\ has_error "MISSING_FRAMES" (ck_reg (ls_check s)) = false /\
    link_step 0 the_link 300 150 true true s (LRequest dr) = Ok (s', OutReply kFound (Some f)) /\
    fg_bytes f = [] /\ window_bytes (q_items q) (rq_begin dr) (rq_end dr) = [1800].
Proof.
  exists drop_history. eexists _, _, _, _, (ask 1800 1825), _,
    ([OWrite (el12 300); OWrite (el12 600); OWrite (el12 900); OWrite (el12 1200); OWrite (el12 1500); OPop 2; OWrite (el12 1800); OWrite (el12 2100)]),
    (mk_queue 5 [el12 900; el12 1200; el12 1800; el12 2100]).
  split; [reflexivity|]. split.
  { split; [|apply prefixes_sound; vm_compute; reflexivity].
    unfold drop_history, half. repeat (apply Forall_cons || apply Forall_nil); cbn [proper_op]; try reflexivity.
    split; [lia|]. split; [vm_compute; intuition congruence|]. intro E. vm_compute in E. discriminate. }
  split; [vm_compute; reflexivity|]. split; [vm_compute; tauto|].
  split; [eexists; split; [reflexivity|]; split; vm_compute; reflexivity|].
  split; [exists 1%nat, (el12 1200), (el12 1800); repeat split; vm_compute; congruence|].
  split; [vm_compute; reflexivity|]. split; [vm_compute; reflexivity|]. split; vm_compute; reflexivity.
Qed.
Print Assumptions C21_after_a_refused_arrival_refuted.
