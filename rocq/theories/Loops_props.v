(** C39-C41, C50: the loops of the readout and the handler with empty answers. *)
From Coq Require Import ZArith List Bool Lia.
From Verif Require Import Base_model Ring_model Ring_spec Ring_proofs Request_model Loops_model Loops_spec Loops_proofs.
Import ListNotations.
Open Scope Z_scope.

(** C39. For every buffer state [r] with content [q_items q], every sequence of arrivals, timeouts, clean-ups and
    get_info calls in which clean-ups remove only what is there:
    - removed elements followed by the final content are the initial content followed by the accepted payloads, as they
      are after pre-processing, in order of arrival; a payload is accepted iff the buffer has a free place;
    - post-processing is called once per arrival (also refused ones) with the newest stored element, or with null if a
      clean-up emptied the buffer in between;
    - the total is the number of arrivals, and what get_info reported plus what is not reported yet is the number of
      arrivals, refused arrivals and timeouts (all modulo 2^32). *)
Theorem C39_accounting :
  forall {A P : Type} (pre : P -> A -> P * A) (n : Z) (ops : list (op A)) (r : ring A) (q : queue A) (cap : nat) (p : P) (evs : list cevent),
    supported_size n -> Forall supported_op ops -> reached n ops r q -> Z.of_nat cap = q_size q - 1 ->
    let l0 := q_items q in
    let work := prepared pre p evs in
    legal cap (length l0) evs ->
    exists s is l re,
      consume pre (consume_begin r p) evs = Ok (s, is) /\
      take_front (length l) (c_ring s) = Ok (re, l) /\ isEmpty re = true /\
      c_removed s ++ l = l0 ++ select (stored cap (length l0) work) (arrivals work) /\
      c_post s = posted cap (length l0) (hd_error (rev l0)) work /\
      n_sum (c_cnt s) = i32 (Z.of_nat (length (arrivals evs))) /\
      i32 (n_num (c_cnt s) + total i_num is) = i32 (Z.of_nat (length (arrivals evs))) /\
      i32 (n_stats (c_cnt s) + total i_stats is) = i32 (Z.of_nat (length (arrivals evs))) /\
      i32 (n_over (c_cnt s) + total i_over is) = i32 (Z.of_nat (refused_count (stored cap (length l0) work))) /\
      i32 (n_timeouts (c_cnt s) + total i_timeouts is) = i32 (Z.of_nat (timeouts evs)).
Proof.
  intros A P pre n ops r q cap p evs SN FO RE CAP l0 work LG. destruct (reached_sim n ops r q SN FO RE) as [H S].
  assert (I : cinv cap (consume_begin r p) l0 (hd_error (rev l0))). { constructor; cbn [consume_begin c_ring]; auto. lia. }
  destruct (consume_ok pre cap evs (consume_begin r p) l0 _ I) as (s & is & l & E & [F1 F2 F3 F4 F5 F6 F7 F8 F9]); auto.
  { constructor; reflexivity. }
  destruct (take_front_ok (length l) (c_ring s) l F1 ltac:(lia)) as (re & T & HE & _). rewrite firstn_all in T. rewrite skipn_all in HE.
  exists s, is, l, re. cbn [consume_begin c_pre c_cnt c_removed c_post app n_num n_sum n_stats n_over n_timeouts counters_zero] in *. rewrite ?Z.add_0_l in *.
  repeat split; auto. unfold isEmpty. now rewrite (holds_empty_iff _ _ HE).
Qed.
Print Assumptions C39_accounting.

(** Two places, payloads 7 8 9 in three arrivals with pre-processing adding 100: 9 is refused and 108 post-processed
    again; then a clean-up empties the buffer between the write of 4 and the pointer to the newest element. *)
Example C39_accounting_ex :
  match ring_new (A:=Z) 3 with
  | Crash => False
  | Ok r => exists s is, consume (fun (p : nat) x => (S p, x + 100)) (consume_begin r 0%nat) [CArrive 7 0; CArrive 8 0; CInfo; CArrive 9 0; CTimeout; CPop 1; CArrive 4 2] = Ok (s, is) /\
      c_post s = [Some 107; Some 108; Some 108; None] /\ c_removed s = [107; 108; 104] /\ n_sum (c_cnt s) = 4 /\ n_over (c_cnt s) = 1 /\
      n_timeouts (c_cnt s) = 1 /\ n_num (c_cnt s) = 2 /\ map i_num is = [2] /\ legal 2 0 [CArrive 7 0; CArrive 8 0; CInfo; CArrive 9 0; CTimeout; CPop 1; CArrive 4 2]
  end.
Proof. vm_compute. do 2 eexists. repeat split; auto using le_n, le_S. Qed.

(** C40. In every interleaving, for every queue: what was queued or sent is, in order, what was issued with the response
    queue of the same index, followed by what was discarded, followed by what is still queued. No other response queue
    is used, and nothing is discarded before stop. *)
Theorem C40_paired_and_exactly_once :
  forall {R : Type} (queues : list (list R)) (acts : list raction),
    let s := rrun (requests_begin queues) acts in
    (forall i, (i < length queues)%nat ->
       nth i queues [] ++ sends i acts = of_queue i (q_issued s) ++ of_queue i (q_discarded s) ++ nth i (q_queues s) []) /\
    Forall (fun x => (snd x < length queues)%nat) (q_issued s) /\
    (existsb is_stop acts = false -> q_discarded s = []).
Proof.
  intros R queues acts s. pose proof (rinv_run (length queues) acts _ _ (rinv_begin queues)) as [N C I D PH]. fold s in N, C, I, D, PH.
  split; [exact C|]. split; [exact I|]. intros NS. pose proof (marker_run acts (requests_begin queues) NS) as M. fold s in M. cbn in M.
  destruct (q_phase s); auto; congruence.
Qed.
Print Assumptions C40_paired_and_exactly_once.

(** After stop the thread ends, if no further requests come, within as many of its own steps as the rest of the pass
    plus the queued requests plus one step per queue plus two. *)
Theorem C40_drain_ends :
  forall {R : Type} (queues : list (list R)) (acts : list raction),
    let s := rrun (requests_begin queues) acts in
    q_phase s = RTest -> q_marker s = false ->
    q_phase (rrun s (repeat AThread (queued (q_queues s) + length queues + 2))) = RJoined.
Proof.
  intros R queues acts s PH M. pose proof (rinv_run (length queues) acts _ _ (rinv_begin queues)) as [N _ _ _ _]. fold s in N.
  replace (queued (q_queues s) + length queues + 2)%nat with (S (S (queued (q_queues s) + length queues)))%nat by lia.
  change (repeat AThread (S (S ?k))) with (@AThread R :: repeat AThread (S k)). change (rrun s (AThread :: ?x)) with (rrun (thread_step s) x).
  unfold thread_step. rewrite PH, M. apply (clear_ends _ _ 0); cbn [q_phase q_queues]; auto; lia.
Qed.
Print Assumptions C40_drain_ends.

(** If no request arrives any more once the thread has seen the stop, then when it has ended every request not issued
    has been discarded, none is left. *)
Theorem C40_rest_is_discarded :
  forall {R : Type} (queues : list (list R)) (before after : list raction),
    let m := rrun (requests_begin queues) before in
    let s := rrun m after in
    q_phase m = RTest -> existsb is_send after = false -> q_phase s = RJoined ->
    forall i, (i < length queues)%nat ->
      nth i queues [] ++ sends i (before ++ after) = of_queue i (q_issued s) ++ of_queue i (q_discarded s).
Proof.
  intros R queues before after m s PH NS J i Hi.
  assert (SE : s = rrun (requests_begin queues) (before ++ after)). { unfold s, m, rrun. now rewrite fold_left_app. }
  pose proof (C40_paired_and_exactly_once queues (before ++ after)) as [C _]. cbv zeta in C. rewrite <- SE in C. rewrite (C i Hi).
  assert (CL : cleared s). { apply cleared_run; auto. unfold cleared. now rewrite PH. }
  unfold cleared in CL. rewrite J in CL. rewrite CL, app_nil_r. reflexivity.
Qed.
Print Assumptions C40_rest_is_discarded.

Example C40_ex :
  let s := rrun (requests_begin [[]; [10]]) [AThread; ASend 0 1; AThread; AThread; AThread; ASend 1 11; ASend 0 2; AThread; AStop; AThread; AThread; AThread; AThread; AThread; AThread; AThread] in
  q_issued s = [(1, 0%nat); (10, 1%nat); (2, 0%nat); (11, 1%nat)] /\ q_discarded s = [].
Proof. vm_compute. auto. Qed.
Example C40_discard_ex :
  let s := rrun (requests_begin [[]; [10]]) [AStop; ASend 0 1; AThread; AThread; AThread; AThread; AThread; AThread] in
  q_phase s = RJoined /\ q_issued s = [] /\ q_discarded s = [(1, 0%nat); (10, 1%nat)] /\ q_sum s = 0.
Proof. vm_compute. auto. Qed.

(** The hypothesis on late requests is needed: a request that arrives after its queue has been cleared stays, and the
    next run issues it. *)
Theorem C40_late_request_survives_refuted :
  exists (queues : list (list Z)) (acts : list raction),
    let s := rrun (requests_begin queues) acts in
    q_phase s = RJoined /\ q_queues s = [[5]; []] /\
    q_issued (rrun (requests_begin (q_queues s)) [AThread; AThread]) = [(5, 0%nat)].
Proof. exists [[]; []], [AStop; AThread; AThread; ASend 0 5; AThread; AThread; AThread]. vm_compute. auto. Qed.
Print Assumptions C40_late_request_survives_refuted.

(** The request total: the number issued (fake ones included) since both threads have started, modulo 2^32. *)
Theorem C40_counter :
  forall {R : Type} (queues : list (list R)) (acts : list raction),
    existsb is_timesync_start acts = false ->
    let s := rrun (requests_begin queues) acts in
    q_sum s = i32 (Z.of_nat (length (q_issued s)) + Z.of_nat (length (filter is_fake acts))).
Proof.
  intros R queues acts NT s. destruct (counters_run acts (requests_begin queues) NT eq_refl) as (E & _). fold s in E. rewrite E. f_equal. cbn. lia.
Qed.
Print Assumptions C40_counter.
(** When the time-sync thread begins after the request thread has issued something, the count is lost. *)
Theorem C40_counter_lost_refuted :
  exists (queues : list (list Z)) (acts : list raction),
    let s := rrun (requests_begin queues) acts in
    length (filter is_timesync_start acts) = 1%nat /\ length (q_issued s) = 2%nat /\ q_sum s = 0.
Proof. exists [[1]; [2]], [AThread; AThread; AThread; ATimesyncStart]. vm_compute. auto. Qed.
Print Assumptions C40_counter_lost_refuted.

(** Setting up: the queues 0..n-1 are used where n is the first index without a request queue; an error iff one of
    these lacks its response queue. *)
Theorem C40_setup :
  forall (rq rs : nat -> bool) (n fuel : nat),
    (n < fuel)%nat -> (forall j, (j < n)%nat -> rq j = true) -> rq n = false ->
    setup fuel rq rs 0 = if forallb rs (seq 0 n) then Some n else None.
Proof.
  intros rq rs n fuel F H E. destruct (forallb rs (seq 0 n)) eqn:FB.
  - rewrite forallb_forall in FB. apply setup_ok; auto; try lia. intros j Hj. split; [auto|]. apply FB, in_seq. lia.
  - assert (X : exists k, (k < n)%nat /\ rs k = false /\ forall j, (j < k)%nat -> rs j = true).
    { clear - FB. induction n as [|n IH]; [discriminate|]. rewrite seq_S, forallb_app in FB. cbn [forallb plus] in FB.
      destruct (forallb rs (seq 0 n)) eqn:G.
      - exists n. cbn [andb] in FB. rewrite andb_true_r in FB. repeat split; auto. intros j Hj. rewrite forallb_forall in G. apply G, in_seq. lia.
      - destruct (IH eq_refl) as (k & K1 & K2 & K3). exists k. repeat split; auto. }
    destruct X as (k & K1 & K2 & K3). apply (setup_err rq rs k); auto; try lia. intros j Hj. split; auto. apply H. lia.
Qed.
Print Assumptions C40_setup.
Example C40_setup_ex : setup 10 (fun i => (i <? 3)%nat) (fun i => (i <? 5)%nat) 0 = Some 3%nat /\ setup 10 (fun i => (i <? 3)%nat) (fun i => (i <? 2)%nat) 0 = None.
Proof. vm_compute. auto. Qed.

(** C41. One turn with DAQ time [t]: no message for 0; otherwise the message is [t], and with fake triggers on, every
    response queue gets the same request, with the next trigger number and a window of 300000 ticks that begins
    500100 ticks (500 us at 1000 ticks each, and 100 ticks) before t, cut off at 0. The begin never exceeds t. *)
Theorem C41_turn :
  forall (fake : bool) (n : nat) (rn sq t id : Z), 0 <= t < two64 ->
    let o := timesync_turn fake n rn sq t id in
    let trigger := mk_request (u64 (i32 (id + 1))) (Z.max 0 (t - 500000)) (Z.max 0 (Z.max 0 (t - 500000) - 100))
                     (Z.max 0 (Z.max 0 (t - 500000) - 100) + 300000) rn sq in
    ts_message (fst o) = (if t =? 0 then None else Some t) /\
    ts_requests (fst o) = (if fake && negb (t =? 0) then map (fun i => (trigger, i)) (seq 0 n) else []) /\
    snd o = (if fake && negb (t =? 0) then i32 (id + 1) else id) /\
    (forall x, In x (ts_requests (fst o)) -> rq_begin (fst x) <= rq_trigger_timestamp (fst x) <= t /\ rq_end (fst x) = rq_begin (fst x) + 300000).
Proof.
  intros fake n rn sq t id T. cbv zeta. unfold timesync_turn, two64, us in *.
  destruct (Z.eqb_spec t 0); cbn [negb]; [rewrite andb_false_r; repeat split; cbn; intros; contradiction|].
  destruct fake; cbn [andb fst snd ts_message ts_requests]; [|repeat split; cbn; intros; contradiction].
  assert (E1 : (if t >? 500 * 1000 then u64 (t - 500 * 1000) else 0) = Z.max 0 (t - 500000)).
  { destruct (Z.gtb_spec t (500 * 1000)); [|lia]. unfold u64, two64. rewrite Z.mod_small by lia. lia. }
  rewrite E1. set (ts := Z.max 0 (t - 500000)). assert (B : 0 <= ts <= t) by lia.
  assert (E2 : (if ts >? 100 then u64 (ts - 100) else 0) = Z.max 0 (ts - 100)).
  { destruct (Z.gtb_spec ts 100); [|lia]. unfold u64, two64. rewrite Z.mod_small by lia. lia. }
  rewrite E2. assert (E3 : u64 (Z.max 0 (ts - 100) + 300000) = Z.max 0 (ts - 100) + 300000). { unfold u64, two64. apply Z.mod_small. lia. }
  rewrite E3. repeat split. all: apply in_map_iff in H; destruct H as (i & <- & _); cbn [fst rq_begin rq_end rq_trigger_timestamp]; lia.
Qed.
Print Assumptions C41_turn.

(** Over a run: the k-th turn with a non-zero DAQ time, counting from 1, carries the trigger number id + k. *)
Theorem C41_consecutive :
  forall (n : nat) (rn sq : Z) (daqs : list Z) (id : Z), (0 < n)%nat -> 0 <= id -> id + Z.of_nat (length daqs) < 2147483648 ->
    let nonzero := filter (fun t => negb (t =? 0)) daqs in
    let outs := filter (fun o => match ts_message o with Some _ => true | None => false end) (fst (timesync true n rn sq daqs id)) in
    map ts_message outs = map Some nonzero /\
    map (fun o => map (fun x => rq_trigger_number (fst x)) (ts_requests o)) outs =
      map (fun k => repeat (id + Z.of_nat k) n) (seq 1 (length nonzero)) /\
    snd (timesync true n rn sq daqs id) = id + Z.of_nat (length nonzero).
Proof.
  intros n rn sq daqs id N. revert id. induction daqs as [|t daqs IH]; intros id I B; [cbn; repeat split; lia|].
  cbn [length] in B. cbn [timesync]. destruct (timesync_turn true n rn sq t id) as [o id1] eqn:TT. unfold timesync_turn in TT.
  cbn [filter fst snd]. destruct (Z.eqb_spec t 0) as [NZ|NZ]; cbn [negb] in TT |- *.
  - injection TT as <- <-. cbn [ts_message]. apply (IH id); lia.
  - injection TT as TT1 <-. rewrite <- TT1. cbn [ts_message].
    assert (E : i32 (id + 1) = id + 1). { apply i32_small. lia. } rewrite E.
    destruct (IH (id + 1)) as (J1 & J2 & J3); [lia|lia|]. cbn [map length seq ts_requests ts_message]. repeat split.
    + f_equal. exact J1.
    + f_equal.
      * rewrite map_map. cbn [fst rq_trigger_number]. unfold u64, two64. rewrite Z.mod_small by lia. change (Z.of_nat 1) with 1.
        generalize 0%nat. clear. induction n; intros k; cbn; [reflexivity|]. f_equal. apply IHn.
      * rewrite J2. rewrite <- (seq_shift _ 1), map_map. apply map_ext. intros k. f_equal. lia.
    + rewrite J3. lia.
Qed.
Print Assumptions C41_consecutive.
Example C41_ex :
  let o := fst (timesync true 2 1 0 [0; 700000; 400] 5) in
  map ts_message o = [None; Some 700000; Some 400] /\
  map (fun x => map (fun y => (rq_trigger_number (fst y), rq_begin (fst y), rq_end (fst y), snd y)) (ts_requests x)) o =
    [[]; [(6, 199900, 499900, 0%nat); (6, 199900, 499900, 1%nat)]; [(7, 0, 300000, 0%nat); (7, 0, 300000, 1%nat)]].
Proof. vm_compute. auto. Qed.

(** C50. Each accepted request adds exactly one fragment, in order: no payload, the header of the request and link, and
    exactly the data-not-found bit. *)
Theorem C50_empty_answers :
  forall (dnf : Z) (lk : link) (queue : list fragment) (rqs : list (request * bool)), 0 <= dnf ->
    exists frs, empty_run dnf lk queue rqs = queue ++ frs /\
      Forall2 (fun f r => fg_bytes f = [] /\
        h_trigger_number (fg_header f) = rq_trigger_number r /\ h_trigger_timestamp (fg_header f) = rq_trigger_timestamp r /\
        h_begin (fg_header f) = rq_begin r /\ h_end (fg_header f) = rq_end r /\ h_run (fg_header f) = rq_run r /\ h_seq (fg_header f) = rq_seq r /\
        (h_system (fg_header f), h_region (fg_header f), h_element (fg_header f), h_type (fg_header f)) = (lk_system lk, lk_region lk, lk_element lk, lk_type lk) /\
        (forall b, Z.testbit (h_error_bits (fg_header f)) b = (b =? dnf))) frs (map fst (filter snd rqs)).
Proof.
  intros dnf lk queue rqs D. rewrite empty_run_app. eexists. split; [reflexivity|].
  induction (filter snd rqs) as [|r l IH]; constructor; auto. cbn. repeat split. intros b.
  rewrite Z.shiftl_1_l. destruct (Z.eqb_spec b dnf) as [->|NE]; [apply Z.pow2_bits_true; assumption|]. apply Z.pow2_bits_false. congruence.
Qed.
Print Assumptions C50_empty_answers.
Example C50_ex : map (fun f => (h_begin (fg_header f), h_error_bits (fg_header f), fg_bytes f))
  (empty_run 1 (mk_link 3 1 2 4) [] [(mk_request 1 5 4 6 1 0, true); (mk_request 2 8 7 9 1 0, false); (mk_request 3 11 10 12 1 0, true)]) =
  [(4, 2, []); (10, 2, [])].
Proof. vm_compute. reflexivity. Qed.
