(** C65: the software trigger primitive generation of a WIB link as a whole, from the bytes of the superchunks to the sets sent. *)
From Coq Require Import ZArith List Bool Lia ZifyBool Arith Sorting.Permutation Sorting.Sorted.
From Verif Require Import Base_model Frugal_model Frugal_spec Frugal_proofs Expand_model Expand_spec Hits_model Hits_spec Hits_proofs Hits_proofs2 Hits_proofs3 Hits_props
  Tp_model Tp_spec Tp_proofs Swtpg_model Swtpg_spec Swtpg_proofs Swtpg_proofs2 Swtpg_proofs3.
Import ListNotations.
Open Scope Z_scope.

(** In every execution - any interleaving of commands, post-processing and monitoring, any outcome of the pushes - the decisions taken in
    this run and those on the superchunk in hand are, in order, the ones the superchunks since the start call for; and what was accepted is
    in the buffer or has been sent exactly once. *)
Theorem C65_every_primitive :
  forall (heap : Type) h_empty h_push h_top h_pop (elements : heap -> list prim), pq_ok time_start h_empty h_push h_top h_pop elements ->
  forall (timeout window : Z) (p : params) (l : list act) (s : proc heap) (e : list ev),
  run heap h_empty h_push h_top h_pop timeout window p l (configured h_empty) = Go s e ->
  exists out, tpg_run p None (chunks_of l) = Ok (sp_win s, out) /\
    decisions (this_run e) ++ in_hand timeout s = expected_decisions timeout (chunks_of l) out /\
    Permutation (map fst (filter snd (decisions (this_run e)))) (elements (tp_buffer (sp_tp s)) ++ pushed (this_run e)) /\
    pushed (this_run e) = concat (map ts_objects (sets (this_run e))) ++ opened (tp_open (sp_tp s)).
Proof.
  intros heap h_empty h_push h_top h_pop elements PQ timeout window p l s e R.
  destruct (inv_run h_empty h_push h_top h_pop elements PQ timeout window p _ _ _ R) as (la & out & I).
  destruct (conserved h_empty h_push h_top h_pop elements PQ timeout window p _ _ _ R) as [C1 C2].
  exists out. split; [apply (iv_out _ _ _ _ _ _ _ _ _ _ _ _ I)|]. split; [apply (iv_dec _ _ _ _ _ _ _ _ _ _ _ _ I)|].
  rewrite C2. split; [exact C1|reflexivity].
Qed.
Print Assumptions C65_every_primitive.

(** Down to the samples: for every entry of the channel map the decisions are exactly one for each run over threshold that has ended
    and has non-zero charge, in the order of their ends; no other channel occurs. *)
Theorem C65_from_samples :
  forall (heap : Type) h_empty h_push h_top h_pop (elements : heap -> list prim), pq_ok time_start h_empty h_push h_top h_pop elements ->
  forall (timeout window : Z) (p : params) (l : list act) (s : proc heap) (e : list ev),
  run heap h_empty h_push h_top h_pop timeout window p l (configured h_empty) = Go s e ->
  params_ok p -> good_data p (chunks_of l) ->
  (forall x, In x (decisions (this_run e)) -> exists i, (i < 96)%nat /\ channel (fst x) = chan_of i) /\
  forall i, (i < 96)%nat ->
    map (fun x => (prim_tuple (fst x), snd x)) (filter (fun x => channel (fst x) =? chan_of i) (decisions (this_run e) ++ in_hand timeout s))
    = flat_map (fun k => map (fun x => (x, ts_at (chunks_of l) k <? (start_of x + timeout) mod 2 ^ 64)) (called_for p (chunks_of l) i k))
        (seq 0 (length (chunks_of l))).
Proof.
  intros heap h_empty h_push h_top h_pop elements PQ timeout window p l s e R P G.
  destruct (inv_run h_empty h_push h_top h_pop elements PQ timeout window p _ _ _ R) as (la & out & I).
  destruct (samples_decisions p (chunks_of l) _ _ timeout P G (iv_out _ _ _ _ _ _ _ _ _ _ _ _ I)) as [S1 S2].
  rewrite <- (iv_dec _ _ _ _ _ _ _ _ _ _ _ _ I) in S1, S2. split; [|exact S2].
  intros x Ix. apply S1. apply in_or_app. left. exact Ix.
Qed.
Print Assumptions C65_from_samples.

(** Consecutive superchunks from a time far enough from 2^64: the time stamps are in order and paced, and every primitive starts between
    the start of the run and the end of its superchunk, so that the conditions of the following theorems hold. *)
Theorem C65_consecutive : forall (timeout window ts0 : Z) (p : params) chunks st out, params_ok p -> good_data p chunks ->
  consecutive ts0 chunks -> 0 <= ts0 -> 0 <= window -> 0 <= timeout -> ts0 + 300 * Z.of_nat (length chunks) + window + timeout < 2 ^ 64 ->
  tpg_run p None chunks = Ok (st, out) ->
  StronglySorted Z.le (map fst chunks) /\ paced 300 (map fst chunks) /\ Forall (fits timeout window) (concat out) /\
  forall k q, (k < length chunks)%nat -> In q (nth k out []) -> ts0 <= time_start q < ts_at chunks k + 300.
Proof.
  intros timeout window ts0 p chunks st out P G C T0 W0 TO T1 R. destruct (consecutive_sorted _ _ C) as [S1 S2].
  assert (forall k q, (k < length chunks)%nat -> In q (nth k out []) -> ts0 <= time_start q < ts_at chunks k + 300) as ST.
  { eapply start_times; eauto. lia. }
  split; [exact S1|]. split; [exact S2|]. split; [|exact ST].
  apply Forall_forall. intros q Iq. apply in_concat in Iq as (o & Io & Iq). apply (In_nth _ _ []) in Io as (k & Lk & <-).
  rewrite (tpg_run_length _ _ _ _ _ R) in Lk. specialize (ST k q Lk Iq). rewrite (C k Lk) in ST. change (2 ^ 64) with two64 in T1.
  unfold fits. lia.
Qed.
Print Assumptions C65_consecutive.

(** Windows: if the time stamps do not go back and start times stay clear of 2^64, the sets sent have aligned, disjoint, increasing windows,
    are not empty, are numbered 0, 1, 2, ... and list exactly the accepted primitives of their window, past and future. *)
Theorem C65_windows :
  forall (heap : Type) h_empty h_push h_top h_pop (elements : heap -> list prim), pq_ok time_start h_empty h_push h_top h_pop elements ->
  forall (timeout window : Z) (p : params) (l : list act) (s : proc heap) (e : list ev), 0 < window -> 0 < timeout ->
  run heap h_empty h_push h_top h_pop timeout window p l (configured h_empty) = Go s e ->
  StronglySorted Z.le (map fst (chunks_of l)) ->
  (forall st out, tpg_run p None (chunks_of l) = Ok (st, out) -> Forall (fits timeout window) (concat out)) ->
  ForallOrdPairs (fun x y => ts_end x <= ts_start y) (sets (this_run e)) /\ numbered (sets (this_run e)) /\
  forall x, In x (sets (this_run e)) ->
    ts_start x mod window = 0 /\ ts_end x = ts_start x + window /\ ts_objects x <> [] /\
    Permutation (ts_objects x) (filter (in_window time_start x) (map fst (filter snd (decisions (this_run e))))).
Proof.
  intros heap h_empty h_push h_top h_pop elements PQ timeout window p l s e W0 T0 R SS F.
  destruct (inv_run h_empty h_push h_top h_pop elements PQ timeout window p _ _ _ R) as (la & out & I).
  pose proof (orderly_run h_empty h_push h_top h_pop timeout window p _ _ _ _ _ I SS (F _ _ (iv_out _ _ _ _ _ _ _ _ _ _ _ _ I))) as O.
  pose proof (iv_tp _ _ _ _ _ _ _ _ _ _ _ _ I) as T. destruct (c26_windows _ _ _ _ _ _ PQ _ _ W0 T0 _ _ _ T O) as [A B].
  rewrite <- accepted_decisions. split; [exact A|]. split; [|exact B]. apply (c28_seqno _ _ _ _ _ _ PQ _ _ _ _ _ T).
Qed.
Print Assumptions C65_windows.

(** Latency: if moreover no two successive time stamps are more than a window apart, then after each superchunk every accepted primitive
    that began more than two windows and the timeout before the superchunk has been sent in a complete set. *)
Theorem C65_latency :
  forall (heap : Type) h_empty h_push h_top h_pop (elements : heap -> list prim), pq_ok time_start h_empty h_push h_top h_pop elements ->
  forall (timeout window : Z) (p : params) (l : list act) (s : proc heap) (e : list ev), 0 < window -> 0 < timeout ->
  run heap h_empty h_push h_top h_pop timeout window p l (configured h_empty) = Go s e -> free_hands s = true ->
  paced window (map fst (chunks_of l)) ->
  (forall st out, tpg_run p None (chunks_of l) = Ok (st, out) -> Forall (fits timeout window) (concat out)) ->
  forall q, In (q, true) (decisions (this_run e)) -> time_start q + 2 * window + timeout < last (map fst (chunks_of l)) 0 ->
  exists x, In x (sets (this_run e)) /\ In q (ts_objects x).
Proof.
  intros heap h_empty h_push h_top h_pop elements PQ timeout window p l s e W0 T0 R FH PA F q Iq OLD.
  destruct (inv_run h_empty h_push h_top h_pop elements PQ timeout window p _ _ _ R) as (la & out & I).
  destruct (conserved h_empty h_push h_top h_pop elements PQ timeout window p _ _ _ R) as [C1 _].
  apply free_hands_inv in FH as [F1 F2]. rewrite F2 in C1. cbn [opened] in C1. rewrite app_nil_r in C1.
  assert (In q (map fst (filter snd (decisions (this_run e))))) as IA.
  { apply in_map_iff. exists (q, true). split; [reflexivity|]. apply filter_In. auto. }
  apply (Permutation_in _ C1) in IA. apply in_app_or in IA as [IA|IA].
  - exfalso. assert (chunks_of l <> []) as NE.
    { intros CE. pose proof (iv_dec _ _ _ _ _ _ _ _ _ _ _ _ I) as D. rewrite CE in D. unfold expected_decisions in D. cbn in D.
      apply app_eq_nil in D as [D _]. rewrite D in Iq. destruct Iq. }
    destruct (latency_run h_empty h_push h_top h_pop elements PQ timeout window p _ _ _ W0 T0 R PA F NE) as [LA _].
    specialize (LA F1 F2 q IA). unfold now_of, slot in LA.
    specialize (F _ _ (iv_out _ _ _ _ _ _ _ _ _ _ _ _ I)). rewrite Forall_forall in F.
    specialize (F q (elements_found h_empty h_push h_top h_pop elements PQ timeout window p _ _ _ _ _ I q IA)).
    destruct F as [F _]. pose proof (floor_bounds window W0 (time_start q) F). lia.
  - apply in_concat in IA as (os & Io & IA). apply in_map_iff in Io as (x & <- & Ix). eauto.
Qed.
Print Assumptions C65_latency.

(** No set is sent before its window lies more than the timeout back, so what was accepted with the last superchunk is always still in the
    buffer after it ... *)
Theorem C65_recent_not_sent :
  forall (heap : Type) h_empty h_push h_top h_pop (elements : heap -> list prim), pq_ok time_start h_empty h_push h_top h_pop elements ->
  forall (timeout window : Z) (p : params) (l : list act) (s : proc heap) (e : list ev), 0 < window -> 0 < timeout ->
  run heap h_empty h_push h_top h_pop timeout window p l (configured h_empty) = Go s e ->
  StronglySorted Z.le (map fst (chunks_of l)) ->
  (forall st out, tpg_run p None (chunks_of l) = Ok (st, out) -> Forall (fits timeout window) (concat out)) ->
  (forall x, In x (sets (this_run e)) -> ts_end x + timeout < last (map fst (chunks_of l)) 0) /\
  forall q, In (q, true) (decisions (this_run e)) -> last (map fst (chunks_of l)) 0 <= time_start q + timeout ->
    In q (elements (tp_buffer (sp_tp s))) /\ ~ In q (pushed (this_run e)).
Proof.
  intros heap h_empty h_push h_top h_pop elements PQ timeout window p l s e W0 T0 R SS F.
  pose proof (not_early h_empty h_push h_top h_pop elements PQ timeout window p _ _ _ W0 T0 R SS F) as NE. unfold now_of in NE.
  split; [intros x Ix; apply NE; auto|]. intros q Iq LA.
  assert (~ In q (pushed (this_run e))) as NP.
  { intros X. destruct (sent_below h_empty h_push h_top h_pop elements PQ timeout window p _ _ _ R q X) as (x & Ix & LT). specialize (NE x Ix). lia. }
  split; [|exact NP].
  destruct (conserved h_empty h_push h_top h_pop elements PQ timeout window p _ _ _ R) as [C1 C2]. rewrite <- C2 in C1.
  assert (In q (map fst (filter snd (decisions (this_run e))))) as IA.
  { apply in_map_iff. exists (q, true). split; [reflexivity|]. apply filter_In. auto. }
  apply (Permutation_in _ C1) in IA. apply in_app_or in IA as [IA|IA]; [exact IA|contradiction].
Qed.
Print Assumptions C65_recent_not_sent.

(** ... and if the run ends there it is discarded by the next start: stop sends nothing, start empties the buffer. *)
Theorem C65_end_of_run_discards :
  forall (heap : Type) h_empty h_push h_top h_pop (elements : heap -> list prim), pq_ok time_start h_empty h_push h_top h_pop elements ->
  forall (timeout window : Z) (p : params) (l : list act) (s s' : proc heap) (e e' : list ev),
  run heap h_empty h_push h_top h_pop timeout window p l (configured h_empty) = Go s e ->
  run heap h_empty h_push h_top h_pop timeout window p [JoinThread; Free; Start] s = Go s' e' ->
  e' = [Tp EReset] /\ elements (tp_buffer (sp_tp s')) = [] /\ tp_open (sp_tp s') = None /\ sp_win s' = None.
Proof.
  intros heap h_empty h_push h_top h_pop elements PQ timeout window p l s s' e e' _ R.
  cbn in R. destruct (sp_cmd s); try discriminate. destruct (free_hands s) eqn:F; [|discriminate]. apply free_hands_inv in F as [F1 F2].
  cbn in R. unfold on_tp in R. cbn in R. rewrite F2 in R. cbn in R. injection R as <- <-. cbn. repeat split. apply PQ.
Qed.
Print Assumptions C65_end_of_run_discards.

(** At most one set is sent for each superchunk. If everything accepted has been sent, the accepted primitives lie in no more windows than
    there were superchunks: windows shorter than a superchunk (300 clocks) can fall behind without bound. *)
Theorem C65_one_set_per_superchunk :
  forall (heap : Type) h_empty h_push h_top h_pop (elements : heap -> list prim), pq_ok time_start h_empty h_push h_top h_pop elements ->
  forall (timeout window : Z) (p : params) (l : list act) (s : proc heap) (e : list ev), 0 < window -> 0 < timeout ->
  run heap h_empty h_push h_top h_pop timeout window p l (configured h_empty) = Go s e ->
  (length (sets (this_run e)) <= length (chunks_of l))%nat /\
  (StronglySorted Z.le (map fst (chunks_of l)) ->
   (forall st out, tpg_run p None (chunks_of l) = Ok (st, out) -> Forall (fits timeout window) (concat out)) ->
   forall qs, NoDup (map (fun q => time_start q / window) qs) ->
     (forall q, In q qs -> exists x, In x (sets (this_run e)) /\ In q (ts_objects x)) -> (length qs <= length (chunks_of l))%nat).
Proof.
  intros heap h_empty h_push h_top h_pop elements PQ timeout window p l s e W0 T0 R.
  pose proof (one_set h_empty h_push h_top h_pop elements PQ timeout window p _ _ _ R) as OS. split; [lia|].
  intros SS F qs ND IN.
  destruct (C65_windows heap h_empty h_push h_top h_pop elements PQ timeout window p l s e W0 T0 R SS F) as (_ & _ & WI).
  enough (le (length (map (fun q => time_start q / window) qs)) (length (map (fun x => ts_start x / window) (sets (this_run e))))) as LE.
  { rewrite !map_length in LE. lia. }
  apply NoDup_incl_length; [exact ND|]. intros k Ik. apply in_map_iff in Ik as (q & <- & Iq). destruct (IN q Iq) as (x & Ix & Io).
  apply in_map_iff. exists x. split; [|exact Ix]. destruct (WI x Ix) as (A & B & _ & D).
  apply (Permutation_in _ D) in Io. apply filter_In in Io as [_ Io]. unfold in_window in Io.
  assert (ts_start x = window * (ts_start x / window)) as E by (pose proof (Z.div_mod (ts_start x) window ltac:(lia)); lia).
  apply Z.div_unique_pos with (r := time_start q - ts_start x); lia.
Qed.
Print Assumptions C65_one_set_per_superchunk.

(** The monitored counters: dropped primitives since the last read-out or start, modulo 2^64; hits of the superchunks finished since then,
    as a signed 32-bit number. *)
Theorem C65_counters :
  forall (heap : Type) h_empty h_push h_top h_pop (elements : heap -> list prim), pq_ok time_start h_empty h_push h_top h_pop elements ->
  forall (timeout window : Z) (p : params) (l : list act) (s : proc heap) (e : list ev),
  run heap h_empty h_push h_top h_pop timeout window p l (configured h_empty) = Go s e ->
  (forall a n b, e = a ++ Dropped n :: b -> n = u64 (dropped_unread a)) /\
  (forall a n b, e = a ++ Hits n :: b -> n = i32 (fst (hits_unread a))).
Proof.
  intros heap h_empty h_push h_top h_pop elements PQ timeout window p l s e R.
  exact (counters_read h_empty h_push h_top h_pop elements PQ timeout window p l s e R).
Qed.
Print Assumptions C65_counters.

(** Whatever the bytes and the schedule: no undefined behaviour, unless the window size is 0; and every sequence of superchunks can be
    processed to its end, whichever pushes fail. *)
Theorem C65_no_undefined_behaviour :
  forall (heap : Type) h_empty h_push h_top h_pop (elements : heap -> list prim), pq_ok time_start h_empty h_push h_top h_pop elements ->
  forall (timeout window : Z) (p : params) (l : list act), window <> 0 ->
  run heap h_empty h_push h_top h_pop timeout window p l (configured h_empty) <> Bad.
Proof.
  intros heap h_empty h_push h_top h_pop elements PQ timeout window p l W.
  exact (no_bad h_empty h_push h_top h_pop elements PQ timeout window p l W).
Qed.
Print Assumptions C65_no_undefined_behaviour.

Theorem C65_superchunk_completes :
  forall (heap : Type) h_empty h_push h_top h_pop (elements : heap -> list prim), pq_ok time_start h_empty h_push h_top h_pop elements ->
  forall (timeout window : Z) (p : params) (l : list act) (s : proc heap) (e : list ev) ts mem (oks : nat -> bool) (ok : bool), window <> 0 ->
  run heap h_empty h_push h_top h_pop timeout window p l (configured h_empty) = Go s e -> sp_thread s = true -> free_hands s = true ->
  exists l' s' e', run heap h_empty h_push h_top h_pop timeout window p (Chunk ts mem :: l') s = Go s' e' /\ free_hands s' = true /\
    Forall (fun a => a = Add \/ a = Try \/ (exists i, a = Send (oks i)) \/ a = Finish ok) l'.
Proof.
  intros heap h_empty h_push h_top h_pop elements PQ timeout window p l s e ts mem oks ok W R T F.
  exact (completes h_empty h_push h_top h_pop elements PQ timeout window p l s e ts mem oks ok W R T F).
Qed.
Print Assumptions C65_superchunk_completes.

(** The queue of induction frames is filled and never read: after 199999 superchunks since conf, over all runs, every write to it fails. *)
Theorem C65_induction_queue_fills :
  forall (heap : Type) h_empty h_push h_top h_pop (elements : heap -> list prim), pq_ok time_start h_empty h_push h_top h_pop elements ->
  forall (timeout window : Z) (p : params) (l : list act) (s : proc heap) (e : list ev),
  run heap h_empty h_push h_top h_pop timeout window p l (configured h_empty) = Go s e ->
  sp_ind s = Z.min (count_chunks l) 199999.
Proof.
  intros heap h_empty h_push h_top h_pop elements PQ timeout window p l s e R.
  exact (induction_run h_empty h_push h_top h_pop elements PQ timeout window p l s e R).
Qed.
Print Assumptions C65_induction_queue_fills.

(** * Examples *)
(** A queue that satisfies the contract: a list, searched for its first minimum. *)
Fixpoint extract (q : prim) (l : list prim) : prim * list prim :=
  match l with
  | [] => (q, [])
  | x :: r => if time_start x <? time_start q then let y := extract x r in (fst y, q :: snd y) else let y := extract q r in (fst y, x :: snd y)
  end.
Definition lh_push (q : prim) (h : list prim) : list prim := q :: h.
Definition lh_top (h : list prim) : option prim := match h with [] => None | q :: l => Some (fst (extract q l)) end.
Definition lh_pop (h : list prim) : list prim := match h with [] => [] | q :: l => snd (extract q l) end.
Lemma extract_perm l : forall q, Permutation (fst (extract q l) :: snd (extract q l)) (q :: l).
Proof.
  induction l as [|x r IH]; intros q; cbn [extract]; [reflexivity|]. destruct (time_start x <? time_start q); cbn [fst snd].
  - etransitivity; [apply perm_swap|]. rewrite IH. reflexivity.
  - etransitivity; [apply perm_swap|]. rewrite IH. apply perm_swap.
Qed.
Lemma extract_min l : forall q, Forall (fun u => time_start (fst (extract q l)) <= time_start u) (q :: l).
Proof.
  induction l as [|x r IH]; intros q; cbn [extract]; [repeat constructor; cbn; lia|]. destruct (time_start x <? time_start q) eqn:E; cbn [fst snd].
  - specialize (IH x). inversion IH; subst. repeat constructor; auto. lia.
  - specialize (IH q). inversion IH; subst. repeat constructor; auto. lia.
Qed.
Example lh_ok : pq_ok time_start [] lh_push lh_top lh_pop (fun h => h).
Proof.
  constructor; unfold lh_push, lh_top, lh_pop; cbn.
  - reflexivity.
  - reflexivity.
  - intros [|q l]; split; congruence.
  - intros [|q l] t E; [discriminate|]. injection E as <-. apply extract_min.
  - intros [|q l] t E; [discriminate|]. injection E as <-. apply extract_perm.
Qed.

(** Seven superchunks from time 7777 with a pulse on all channels in the second. *)
Definition train_levels : list Z := [3; 4; 3; 3; 3; 3; 3].
Definition train : list (Z * memory) := flat_chunks 7777 train_levels.
Definition train_sample (t : nat) : Z := 273 * nth (t / 12) train_levels 0.
Lemma train_stream : forall ch t, stream train ch t = train_sample t.
Proof. intros. apply flat_stream. repeat constructor; lia. Qed.
Lemma train_pedestal : forall i, start_pedestal train i = 819.
Proof. intros i. unfold start_pedestal. change (mem_at train 0) with (fun _ : nat => 17 * 3). apply flat_adc. lia. Qed.
Example train_good : good_data coll_params train /\ consecutive 7777 train.
Proof.
  split; [split|].
  - unfold train, flat_chunks, train_levels. cbn [length seq combine map fst snd]. repeat constructor; cbn [snd]; lia.
  - intros i t Li L. change (12 * length train)%nat with 84%nat in L. unfold tick_ok. rewrite train_pedestal.
    rewrite (filtered_ext _ _ _ _ _ (train_stream (chan_of i))), (run_length_ext _ _ _ _ _ (train_stream (chan_of i))),
      (est_ext _ _ _ (train_stream (chan_of i))).
    assert (forallb (fun t =>
       (-32768 <=? filtered (taps coll_params) 6 819 train_sample t) && (filtered (taps coll_params) 6 819 train_sample t <=? 32767) &&
       (Z.of_nat (run_length (taps coll_params) 6 819 train_sample t) <? 32767) && (width (est 819 train_sample (S t)) <=? sigma_max coll_params)) (seq 0 84) = true) as C
      by (vm_compute; reflexivity).
    rewrite forallb_forall in C. specialize (C t ltac:(apply in_seq; lia)).
    apply andb_prop in C. destruct C as [C C4]. apply andb_prop in C. destruct C as [C C3]. apply andb_prop in C. destruct C as [C1 C2].
    apply Z.leb_le in C1, C2, C4. apply Z.ltb_lt in C3. unfold is_i16. change (tap_exponent coll_params) with 6.
    split; [split; assumption|]. split; [assumption|]. left. exact C4.
  - intros k Lk. change (length train) with 7%nat in Lk. unfold ts_at. do 7 (destruct k; [reflexivity|]). lia.
Qed.
Lemma train_called i k : (i < 96)%nat -> called_for coll_params train i k =
  flat_map (fun t => if hit_ends (taps coll_params) 6 819 train_sample t && negb (run_charge (taps coll_params) 6 819 train_sample t =? 0)
      then [expected_primitive (ts_at train k) (chan_of i) (Z.of_nat t - Z.of_nat (12 * k))
              (Z.of_nat (run_length (taps coll_params) 6 819 train_sample t)) (run_charge (taps coll_params) 6 819 train_sample t)] else [])
    (seq (12 * k) 12).
Proof.
  intros Li. unfold called_for. cbv zeta. rewrite train_pedestal. apply flat_map_ext_in. intros t _. change (tap_exponent coll_params) with 6.
  rewrite (hit_ends_ext _ _ _ _ _ (train_stream (chan_of i))), (run_charge_ext _ _ _ _ _ (train_stream (chan_of i))),
    (run_length_ext _ _ _ _ _ (train_stream (chan_of i))). reflexivity.
Qed.

(** An execution with timeout 201 and windows of 300, in which the first push to each destination fails: every hypothesis above holds; on
    each channel one primitive of start time 8177, found at 8377, is accepted, and at the end it has been sent in a set. *)
Example C65_example : exists l s e out,
  run (list prim) [] lh_push lh_top lh_pop 201 300 coll_params l (configured []) = Go s e /\ chunks_of l = train /\
  sp_thread s = true /\ free_hands s = true /\ tpg_run coll_params None train = Ok (sp_win s, out) /\
  StronglySorted Z.le (map fst train) /\ paced 300 (map fst train) /\ Forall (fits 201 300) (concat out) /\
  (forall i, (i < 96)%nat -> map (fun x => (prim_tuple (fst x), snd x)) (filter (fun x => channel (fst x) =? chan_of i) (decisions (this_run e)))
     = [((8177, 8352, 350, chan_of i, 3199, 159), true)]) /\
  (forall i, (i < 96)%nat -> exists q x, channel q = chan_of i /\ time_start q = 8177 /\ In x (sets (this_run e)) /\ In q (ts_objects x)).
Proof.
  destruct train_good as [G C].
  destruct (feed [] lh_push lh_top lh_pop (fun h => h) lh_ok 201 300 coll_params (fun i => negb (i =? 0)%nat) false train ltac:(lia)) as (l & s & e & R & CH & T & F).
  destruct (C65_every_primitive _ _ _ _ _ _ lh_ok _ _ _ _ _ _ R) as (out & O & D & _). rewrite CH in O.
  destruct (C65_consecutive 201 300 7777 coll_params train _ _ coll_params_ok G C ltac:(lia) ltac:(lia) ltac:(lia) ltac:(cbn; lia) O) as (S1 & S2 & S3 & _).
  pose proof (free_hands_inv s F) as [F1 F2].
  exists l, s, e, out. do 8 (split; [assumption|]).
  assert (forall i, (i < 96)%nat -> map (fun x => (prim_tuple (fst x), snd x)) (filter (fun x => channel (fst x) =? chan_of i) (decisions (this_run e)))
     = [((8177, 8352, 350, chan_of i, 3199, 159), true)]) as DEC.
  { intros i Li. destruct (C65_from_samples _ _ _ _ _ _ lh_ok _ _ _ _ _ _ R coll_params_ok ltac:(rewrite CH; exact G)) as [_ H].
    specialize (H i Li). rewrite CH in H. unfold in_hand in H. rewrite F1, app_nil_r in H. rewrite H. clear H.
    change (length train) with 7%nat. cbn [seq flat_map]. rewrite !train_called by exact Li. generalize (chan_of i). intros ch. vm_compute. reflexivity. }
  split; [exact DEC|]. intros i Li. specialize (DEC i Li).
  destruct (filter (fun x => channel (fst x) =? chan_of i) (decisions (this_run e))) as [|[q b] [|]] eqn:E; try discriminate DEC.
  cbn [map fst snd] in DEC. injection DEC as D1 D2 D3 D4 D5 D6 D7. subst b.
  assert (In (q, true) (decisions (this_run e))) as Iq.
  { eapply (proj1 (filter_In _ _ _)). rewrite E. left. reflexivity. }
  destruct (C65_latency _ _ _ _ _ _ lh_ok 201 300 _ _ _ _ ltac:(lia) ltac:(lia) R F ltac:(rewrite CH; exact S2)) with (q := q) as (x & Ix & Iq2).
  - intros st o Ho. rewrite CH, O in Ho. injection Ho as <- <-. exact S3.
  - exact Iq.
  - rewrite D1, CH. vm_compute. reflexivity.
  - exists q, x. auto.
Qed.

(** The same pulse, but the run is stopped after the superchunk in which it was found: all 96 primitives are accepted and none is ever sent. *)
Example C65_end_of_run_example : exists l s e s' e',
  run (list prim) [] lh_push lh_top lh_pop 201 300 coll_params l (configured []) = Go s e /\ chunks_of l = firstn 3 train /\
  run (list prim) [] lh_push lh_top lh_pop 201 300 coll_params [JoinThread; Free; Start] s = Go s' e' /\
  (forall i, (i < 96)%nat -> exists q, channel q = chan_of i /\ In (q, true) (decisions (this_run e)) /\ ~ In q (pushed (this_run e))).
Proof.
  assert (good_data coll_params (firstn 3 train) /\ consecutive 7777 (firstn 3 train)) as [G C].
  { destruct train_good as [[G1 G2] C]. split; [split|].
    - apply Forall_forall. intros c Ic. rewrite Forall_forall in G1. apply G1. rewrite <- (firstn_skipn 3 train). apply in_or_app. left. exact Ic.
    - intros i t Li Lt. change (12 * length (firstn 3 train))%nat with 36%nat in Lt. specialize (G2 i t Li ltac:(change (12 * length train)%nat with 84%nat; lia)).
      unfold tick_ok in *.
      assert (forall ch t', stream (firstn 3 train) ch t' = 273 * nth (t' / 12) [3; 4; 3] 0) as SF.
      { intros ch t'. apply (flat_stream 7777 [3; 4; 3]). repeat constructor; lia. }
      assert (start_pedestal (firstn 3 train) i = 819) as PF by (change (start_pedestal (firstn 3 train) i) with (start_pedestal train i); apply train_pedestal).
      rewrite PF. rewrite (filtered_ext _ _ _ _ _ (SF (chan_of i))), (run_length_ext _ _ _ _ _ (SF (chan_of i))), (est_ext _ _ _ (SF (chan_of i))).
      set (f3 := fun t' : nat => 273 * nth (t' / 12) [3; 4; 3] 0).
      assert (forallb (fun t =>
         (-32768 <=? filtered (taps coll_params) 6 819 f3 t) && (filtered (taps coll_params) 6 819 f3 t <=? 32767) &&
         (Z.of_nat (run_length (taps coll_params) 6 819 f3 t) <? 32767) && (width (est 819 f3 (S t)) <=? sigma_max coll_params)) (seq 0 36) = true) as CC
        by (vm_compute; reflexivity).
      rewrite forallb_forall in CC. specialize (CC t ltac:(apply in_seq; lia)).
      apply andb_prop in CC. destruct CC as [CC C4]. apply andb_prop in CC. destruct CC as [CC C3]. apply andb_prop in CC. destruct CC as [C1 C2].
      apply Z.leb_le in C1, C2, C4. apply Z.ltb_lt in C3. unfold is_i16. change (tap_exponent coll_params) with 6.
      split; [split; assumption|]. split; [assumption|]. left. exact C4.
    - intros k Lk. change (length (firstn 3 train)) with 3%nat in Lk. do 3 (destruct k; [reflexivity|]). lia. }
  destruct (feed [] lh_push lh_top lh_pop (fun h => h) lh_ok 201 300 coll_params (fun _ => true) true (firstn 3 train) ltac:(lia)) as (l & s & e & R & CH & T & F).
  destruct (C65_every_primitive _ _ _ _ _ _ lh_ok _ _ _ _ _ _ R) as (out & O & D & _). rewrite CH in O.
  destruct (C65_consecutive 201 300 7777 coll_params (firstn 3 train) _ _ coll_params_ok G C ltac:(lia) ltac:(lia) ltac:(lia) ltac:(cbn; lia) O) as (S1 & _ & S3 & _).
  pose proof (free_hands_inv s F) as [F1 F2].
  destruct (inv_run [] lh_push lh_top lh_pop (fun h => h) lh_ok 201 300 coll_params _ _ _ R) as (la & out' & I).
  pose proof (iv_thread _ _ _ _ _ _ _ _ _ _ _ _ I T) as RU.
  exists l, s, e. eexists. eexists. split; [exact R|]. split; [exact CH|]. split.
  { cbn. rewrite RU, F. cbn. unfold on_tp. cbn. rewrite F2. cbn. reflexivity. }
  intros i Li. destruct (C65_from_samples _ _ _ _ _ _ lh_ok _ _ _ _ _ _ R coll_params_ok ltac:(rewrite CH; exact G)) as [_ H].
  specialize (H i Li). rewrite CH in H. unfold in_hand in H. rewrite F1, app_nil_r in H.
  assert (forall k, called_for coll_params (firstn 3 train) i k =
    flat_map (fun t => if hit_ends (taps coll_params) 6 819 (fun t' : nat => 273 * nth (t' / 12) [3; 4; 3] 0) t
                          && negb (run_charge (taps coll_params) 6 819 (fun t' : nat => 273 * nth (t' / 12) [3; 4; 3] 0) t =? 0)
      then [expected_primitive (ts_at (firstn 3 train) k) (chan_of i) (Z.of_nat t - Z.of_nat (12 * k))
              (Z.of_nat (run_length (taps coll_params) 6 819 (fun t' : nat => 273 * nth (t' / 12) [3; 4; 3] 0) t))
              (run_charge (taps coll_params) 6 819 (fun t' : nat => 273 * nth (t' / 12) [3; 4; 3] 0) t)] else [])
    (seq (12 * k) 12)) as CF.
  { intros k. assert (forall ch t', stream (firstn 3 train) ch t' = 273 * nth (t' / 12) [3; 4; 3] 0) as SF.
    { intros ch t'. apply (flat_stream 7777 [3; 4; 3]). repeat constructor; lia. }
    unfold called_for. cbv zeta. change (start_pedestal (firstn 3 train) i) with (start_pedestal train i). rewrite train_pedestal.
    apply flat_map_ext_in. intros t _. change (tap_exponent coll_params) with 6.
    rewrite (hit_ends_ext _ _ _ _ _ (SF (chan_of i))), (run_charge_ext _ _ _ _ _ (SF (chan_of i))),
      (run_length_ext _ _ _ _ _ (SF (chan_of i))). reflexivity. }
  change (length (firstn 3 train)) with 3%nat in H. cbn [seq flat_map] in H. rewrite !CF in H.
  match type of H with _ = ?rhs => assert (rhs = [((8177, 8352, 350, chan_of i, 3199, 159), true)]) as E
    by (generalize (chan_of i); intros ch; vm_compute; reflexivity) end.
  rewrite E in H. clear E CF.
  destruct (filter (fun x => channel (fst x) =? chan_of i) (decisions (this_run e))) as [|[q b] [|]] eqn:E; try discriminate H.
  cbn [map fst snd] in H. injection H as D1 D2 D3 D4 D5 D6 D7. subst b.
  assert (In (q, true) (decisions (this_run e))) as Iq.
  { eapply (proj1 (filter_In _ _ _)). rewrite E. left. reflexivity. }
  exists q. split; [exact D4|]. split; [exact Iq|].
  destruct (C65_recent_not_sent _ _ _ _ _ _ lh_ok 201 300 _ _ _ _ ltac:(lia) ltac:(lia) R ltac:(rewrite CH; exact S1)) as [_ N].
  { intros st o Ho. rewrite CH, O in Ho. injection Ho as <- <-. exact S3. }
  apply (N q Iq). rewrite D1, CH. vm_compute. discriminate.
Qed.

(** Counters, drops and the induction queue on a small run: nothing found. *)
Example C65_counters_example :
  let e := [Tp EReset; Tp (EAdd (mkPrim 5 6 7 8 9 1) false); Tp (EAdd (mkPrim 5 6 7 8 9 1) true); Hits 0; Done; Dropped 1; Hits 2] in
  dropped_unread (firstn 5 e) = 1 /\ hits_unread (firstn 6 e) = (2, 0) /\ hits_unread (firstn 3 e) = (0, 2).
Proof. vm_compute. auto. Qed.
