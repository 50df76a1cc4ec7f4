(** The software trigger primitive generation: from samples to sets. *)
From Coq Require Import ZArith List Bool Lia ZifyBool Arith Sorting.Permutation Sorting.Sorted.
From Verif Require Import Base_model Frugal_model Expand_model Expand_spec Hits_model Hits_spec Hits_proofs Hits_proofs2 Hits_proofs3 Hits_props
  Tp_model Tp_spec Tp_proofs Swtpg_model Swtpg_spec Swtpg_proofs Swtpg_proofs2.
Import ListNotations.
Open Scope Z_scope.

(** The decisions called for, superchunk by superchunk. *)
Lemma expected_nth timeout chunks : forall out, length out = length chunks ->
  expected_decisions timeout chunks out
  = flat_map (fun k => map (fun q => (q, on_time timeout (ts_at chunks k) q)) (nth k out [])) (seq 0 (length chunks)).
Proof.
  unfold expected_decisions. induction chunks as [|[ts m] cs IH]; intros [|o out] L; try discriminate; [reflexivity|].
  cbn [combine flat_map fst snd length seq]. f_equal. injection L as L. rewrite (IH out L).
  rewrite <- seq_shift, !flat_map_concat_map, map_map. reflexivity.
Qed.

(** Bytes in memory and the conditions of C48 on the samples. *)
Definition good_data (p : params) (chunks : list (Z * memory)) : Prop :=
  Forall (fun c => is_bytes (snd c)) chunks /\
  forall i t, (i < 96)%nat -> (t < 12 * length chunks)%nat -> tick_ok p (start_pedestal chunks) (fun i => stream chunks (chan_of i)) i t.
(** The time stamps of consecutive superchunks of twelve frames. *)
Definition consecutive (ts0 : Z) (chunks : list (Z * memory)) : Prop :=
  forall k, (k < length chunks)%nat -> ts_at chunks k = ts0 + 300 * Z.of_nat k.

(** The primitives the samples of superchunk [k] call for in entry [i] of the channel map. *)
Definition called_for (p : params) (chunks : list (Z * memory)) (i k : nat) : list primitive :=
  let ends := hit_ends (taps p) (tap_exponent p) (start_pedestal chunks i) (stream chunks (chan_of i)) in
  let len t := Z.of_nat (run_length (taps p) (tap_exponent p) (start_pedestal chunks i) (stream chunks (chan_of i)) t) in
  let integral := run_charge (taps p) (tap_exponent p) (start_pedestal chunks i) (stream chunks (chan_of i)) in
  flat_map (fun t => if ends t && negb (integral t =? 0)
      then [expected_primitive (ts_at chunks k) (chan_of i) (Z.of_nat t - Z.of_nat (12 * k)) (len t) (integral t)] else [])
    (seq (12 * k) 12).
Definition start_of (x : primitive) : Z := fst (fst (fst (fst (fst x)))).

Lemma samples_decisions p chunks st out timeout : params_ok p -> good_data p chunks -> tpg_run p None chunks = Ok (st, out) ->
  let d := expected_decisions timeout chunks out in
  (forall x, In x d -> exists i, (i < 96)%nat /\ channel (fst x) = chan_of i) /\
  forall i, (i < 96)%nat ->
    map (fun x => (prim_tuple (fst x), snd x)) (filter (fun x => channel (fst x) =? chan_of i) d)
    = flat_map (fun k => map (fun x => (x, ts_at chunks k <? (start_of x + timeout) mod 2 ^ 64)) (called_for p chunks i k)) (seq 0 (length chunks)).
Proof.
  intros P [B K] R. cbv zeta. destruct chunks as [|c cs] eqn:EC.
  { cbn in R. injection R as _ <-. cbn. split; [contradiction|reflexivity]. }
  rewrite <- EC in *. destruct (C48_primitives p chunks P) as (st' & out' & R' & L & H); [rewrite EC; discriminate|exact B|exact K|].
  rewrite R' in R. injection R as -> ->. rewrite expected_nth by exact L. split.
  - intros x Ix. apply in_flat_map in Ix as (k & Ik & Ix). apply in_seq in Ik. apply in_map_iff in Ix as (q & <- & Iq). cbn [fst].
    destruct (H k (proj2 Ik)) as [A _]. apply A, Iq.
  - intros i Li. rewrite filter_flat_map. rewrite flat_map_concat_map, concat_map, map_map, <- flat_map_concat_map.
    apply flat_map_ext_in. intros k Ik. apply in_seq in Ik. destruct (H k (proj2 Ik)) as [_ A]. specialize (A i Li). cbv zeta in A.
    unfold called_for. rewrite <- A. generalize (nth k out []). intros qs.
    induction qs as [|q qs IH]; [reflexivity|]. cbn [map filter fst]. destruct (channel q =? chan_of i); cbn [map fst snd]; [f_equal|]; exact IH.
Qed.

(** Start times lie between the first time stamp and the end of the superchunk. *)
Lemma start_times p chunks st out ts0 : params_ok p -> good_data p chunks -> tpg_run p None chunks = Ok (st, out) ->
  consecutive ts0 chunks -> 0 <= ts0 -> ts0 + 300 * Z.of_nat (length chunks) < 2 ^ 64 ->
  forall k q, (k < length chunks)%nat -> In q (nth k out []) -> ts0 <= time_start q < ts_at chunks k + 300.
Proof.
  intros P [B K] R C T0 T1 k q Lk Iq. destruct chunks as [|c cs] eqn:EC; [cbn in Lk; lia|]. rewrite <- EC in *.
  destruct (C48_primitives p chunks P) as (st' & out' & R' & L & H); [rewrite EC; discriminate|exact B|exact K|].
  rewrite R' in R. injection R as -> ->. destruct (H k Lk) as [A1 A2]. destruct (A1 q Iq) as (i & Li & CH). specialize (A2 i Li). cbv zeta in A2.
  assert (In (prim_tuple q) (map prim_tuple (filter (fun q => channel q =? chan_of i) (nth k out [])))) as IT.
  { apply in_map, filter_In. split; [exact Iq|]. lia. }
  rewrite A2 in IT. apply in_flat_map in IT as (t & It & IT). apply in_seq in It.
  match type of IT with In _ (if ?b then _ else _) => destruct b eqn:EB; [|destruct IT] end. destruct IT as [IT|[]].
  pose proof (run_length_le p (start_pedestal chunks i) (stream chunks (chan_of i)) t) as RL.
  assert (0 < run_length (taps p) (tap_exponent p) (start_pedestal chunks i) (stream chunks (chan_of i)) t)%nat as RP.
  { unfold hit_ends in EB. lia. }
  set (len := run_length _ _ _ _ t) in *. clearbody len.
  assert (time_start q = (ts0 + 25 * (Z.of_nat t - Z.of_nat len)) mod 2 ^ 64) as TS.
  { assert (time_start q = fst (fst (fst (fst (fst (prim_tuple q)))))) as -> by reflexivity. rewrite <- IT.
    unfold expected_primitive. cbn [fst]. f_equal. rewrite (C k Lk). lia. }
  rewrite TS, (C k Lk). change (2 ^ 64) with two64 in *. rewrite Z.mod_small; lia.
Qed.

Lemma consecutive_sorted ts0 chunks : consecutive ts0 chunks -> StronglySorted Z.le (map fst chunks) /\ paced 300 (map fst chunks).
Proof.
  revert ts0. induction chunks as [|c cs IH]; intros ts0 C; [split; constructor|].
  assert (consecutive (ts0 + 300) cs) as C'.
  { intros k Lk. specialize (C (S k) ltac:(cbn; lia)). change (ts_at (c :: cs) (S k)) with (ts_at cs k) in C. lia. }
  destruct (IH _ C') as [I1 I2]. pose proof (C 0%nat ltac:(cbn; lia)) as C0. change (ts_at (c :: cs) 0) with (fst c) in C0.
  cbn [map]. split.
  - constructor; [exact I1|]. apply Forall_forall. intros x Ix. apply (In_nth _ _ 0) in Ix as (k & Lk & <-). rewrite map_length in Lk.
    specialize (C' k Lk). unfold ts_at in C'. rewrite (nth_map_ex _ _ fst cs k (0, zero_mem)) by exact Lk. lia.
  - destruct cs as [|c' cs]; [exact I|]. cbn [map paced]. split; [|exact I2].
    pose proof (C' 0%nat ltac:(cbn; lia)) as C1. change (ts_at (c' :: cs) 0) with (fst c') in C1. lia.
Qed.
Lemma paced_mono d d' l : d <= d' -> paced d l -> paced d' l.
Proof. intros D. induction l as [|a [|b l] IH]; cbn; auto. intros [H1 H2]. split; [lia|]. apply IH, H2. Qed.

Section Feed.
Context {heap : Type}.
Variable h_empty : heap.
Variable h_push : prim -> heap -> heap.
Variable h_top : heap -> option prim.
Variable h_pop : heap -> heap.
Variable elements : heap -> list prim.
Hypothesis PQ : pq_ok time_start h_empty h_push h_top h_pop elements.
Variable timeout window : Z.
Variable p : params.
Notation run := (Swtpg_model.run heap h_empty h_push h_top h_pop timeout window p).
Notation conf := (configured h_empty).
Notation inv_run := (inv_run h_empty h_push h_top h_pop elements PQ timeout window p).

Lemma chunks_thread oks ok l l' : Forall (thread_act oks ok) l' -> chunks_of (l ++ l') = chunks_of l.
Proof.
  induction l' as [|a l' IH] using rev_ind; intros F; [rewrite app_nil_r; reflexivity|]. apply Forall_app in F as [F1 F2].
  inversion F2 as [|? ? A _]; subst. rewrite app_assoc, chunks_snoc, IH by exact F1. destruct A as [->|[->|[[i ->]| ->]]]; reflexivity.
Qed.
Lemma thread_run oks ok l' : Forall (thread_act oks ok) l' -> forall s s' e', run l' s = Go s' e' -> sp_thread s' = sp_thread s.
Proof.
  induction l' as [|a l' IH] using rev_ind; intros F s s' e' R; [cbn in R; injection R as <- _; reflexivity|].
  apply Forall_app in F as [F1 F2]. inversion F2 as [|? ? A _]; subst.
  apply (srun_snoc h_empty h_push h_top h_pop timeout window p) in R as (s1 & e1 & e2 & R & S & _).
  rewrite <- (IH F1 _ _ _ R). apply (step_seffect h_empty h_push h_top h_pop elements PQ) in S.
  destruct A as [->|[->|[[i ->]| ->]]]; inversion S; reflexivity.
Qed.

(** Any sequence of superchunks is processed in a run, whichever pushes fail. *)
Lemma feed (oks : nat -> bool) (ok : bool) chunks : window <> 0 -> exists l s e, run l conf = Go s e /\ chunks_of l = chunks /\ sp_thread s = true /\ free_hands s = true.
Proof.
  intros W. induction chunks as [|[ts mem] cs IH] using rev_ind.
  - exists [Start; StartThread]. eexists. eexists. split; [reflexivity|]. repeat split.
  - destruct IH as (l & s & e & R & C & T & F).
    destruct (completes h_empty h_push h_top h_pop elements PQ timeout window p l s e ts mem oks ok W R T F) as (l' & s' & e' & R' & F' & A).
    exists (l ++ Chunk ts mem :: l'), s', (e ++ e'). split; [|split; [|split; [|exact F']]].
    + eapply srun_app_ok; eauto.
    + change (Chunk ts mem :: l') with ([Chunk ts mem] ++ l'). rewrite app_assoc, (chunks_thread oks ok) by exact A.
      rewrite chunks_snoc, C. reflexivity.
    + change (Chunk ts mem :: l') with ([Chunk ts mem] ++ l') in R'.
      rewrite (srun_app h_empty h_push h_top h_pop timeout window p) in R'. destruct (run [Chunk ts mem] s) as [s1 e1| |] eqn:R1; try discriminate.
      destruct (run l' s1) as [s2 e2| |] eqn:R2; try discriminate. injection R' as <- <-. rewrite (thread_run _ _ _ A _ _ _ R2).
      cbn [Swtpg_model.run] in R1. destruct (step heap h_empty h_push h_top h_pop timeout window p (Chunk ts mem) s) as [s3 e3| |] eqn:S; try discriminate.
      injection R1 as <- <-. apply (step_seffect h_empty h_push h_top h_pop elements PQ) in S. inversion S; reflexivity.
Qed.

(** What has become of the accepted primitives. *)
Lemma conserved l s e : run l conf = Go s e ->
  Permutation (map fst (filter snd (decisions (this_run e))))
    (elements (tp_buffer (sp_tp s)) ++ concat (map ts_objects (sets (this_run e))) ++ opened (tp_open (sp_tp s))) /\
  pushed (this_run e) = concat (map ts_objects (sets (this_run e))) ++ opened (tp_open (sp_tp s)).
Proof.
  intros R. destruct (inv_run _ _ _ R) as (la & out & I). pose proof (iv_tp _ _ _ _ _ _ _ _ _ _ _ _ I) as T.
  apply (c25 _ _ _ _ _ _ PQ) in T. destruct T as (T1 & T2 & _). rewrite <- accepted_decisions. unfold this_run. rewrite <- T2. auto.
Qed.

Lemma orderly_run l s e la out : inv h_empty h_push h_top h_pop timeout window p l s e la out ->
  StronglySorted Z.le (map fst (chunks_of l)) -> Forall (fits timeout window) (concat out) ->
  orderly time_start timeout window (calls_since_reset la).
Proof.
  intros I S F. split; [apply (iv_clk _ _ _ _ _ _ _ _ _ _ _ _ I), S|].
  rewrite (iv_off _ _ _ _ _ _ _ _ _ _ _ _ I). apply Forall_forall. intros q Iq. rewrite Forall_forall in F. apply F.
  apply in_map_iff in Iq as ([q' b] & <- & Iq). cbn [fst].
  assert (In (q', b) (expected_decisions timeout (chunks_of l) out)) as D.
  { rewrite <- (iv_dec _ _ _ _ _ _ _ _ _ _ _ _ I). apply in_or_app. left. exact Iq. }
  unfold expected_decisions in D. apply in_flat_map in D as ([c qs] & D1 & D2). cbn [fst snd] in D2.
  apply in_map_iff in D2 as (q2 & D2 & D3). injection D2 as <- <-. apply in_concat. exists qs. split; [|exact D3].
  apply in_combine_r in D1. exact D1.
Qed.

(** No set is sent before its window is [timeout] old. *)
Lemma last_indep (l : list Z) d d' : l <> [] -> last l d = last l d'.
Proof.
  induction l as [|x [|y l] IH]; intros N; [congruence|reflexivity|]. change (last (x :: y :: l) d) with (last (y :: l) d).
  change (last (x :: y :: l) d') with (last (y :: l) d'). apply IH. discriminate.
Qed.
Lemma not_early l s e : 0 < window -> 0 < timeout -> run l conf = Go s e ->
  StronglySorted Z.le (map fst (chunks_of l)) -> (forall st out, tpg_run p None (chunks_of l) = Ok (st, out) -> Forall (fits timeout window) (concat out)) ->
  (forall x, In x (sets (this_run e)) \/ tp_open (sp_tp s) = Some x -> ts_end x + timeout < now_of l) .
Proof.
  intros W0 T0. revert s e. induction l as [|a l IH] using rev_ind; intros s e R.
  - cbn in R. injection R as <- <-. cbn. intros _ _ x [[]|X]; discriminate.
  - apply (srun_snoc h_empty h_push h_top h_pop timeout window p) in R as (s1 & e1 & e2 & R & S & ->).
    destruct (inv_run _ _ _ R) as (la & out & I). specialize (IH _ _ R).
    pose proof (elements_found h_empty h_push h_top h_pop elements PQ timeout window p _ _ _ _ _ I) as EF. pose proof (iv_out _ _ _ _ _ _ _ _ _ _ _ _ I) as OUT.
    apply (step_seffect h_empty h_push h_top h_pop elements PQ) in S. unfold now_of in *. rewrite chunks_snoc.
    inversion S; subst; clear S; cbn [sp_hand sp_tp set_tp]; intros SS FI y; rewrite ?app_nil_r; try (now apply IH).
    + assert (e = [EReset] /\ tp_open t = None) as [-> ON].
      { apply (step_effect _ _ _ _ _ _ PQ) in H0. inversion H0; subst; auto. }
      cbn [map]. rewrite this_run_snoc, ON. intros [[]|X]; discriminate.
    + rewrite map_app in *. cbn [map fst] in *. rewrite last_snoc. apply sorted_snoc in SS as [S1 S2]. intros X.
      assert (chunks_of l <> []) as NE.
      { intros CE. pose proof (one_set h_empty h_push h_top h_pop elements PQ timeout window p _ _ _ R) as OS. rewrite CE in OS. cbn in OS.
        destruct X as [X|X]; [|congruence]. destruct (sets (this_run e1)); [destruct X|cbn in OS; lia]. }
      assert (ts_end y + timeout < last (map fst (chunks_of l)) 0) as IHx.
      { apply IH; [exact S1| |exact X]. intros st o O.
        specialize (FI _ _ (tpg_run_snoc _ _ _ _ _ _ _ _ _ O ltac:(replace st with (sp_win s1) by congruence; exact H3))).
        rewrite concat_app in FI. apply Forall_app in FI as [FI _]. exact FI. }
      enough (last (map fst (chunks_of l)) 0 <= ts) by lia.
      rewrite Forall_forall in S2. apply S2. destruct (exists_last NE) as (pre & c & ->). rewrite map_app. cbn [map]. rewrite last_snoc.
      apply in_or_app. right. left. reflexivity.
    + apply (step_effect _ _ _ _ _ _ PQ) in H0. rewrite this_run_snoc, sets_snoc, app_nil_r.
      inversion H0; subst; cbn [tp_open]; intros [X|X]; try discriminate; apply (IH SS FI); auto.
    + apply (step_effect _ _ _ _ _ _ PQ) in H0. rewrite this_run_snoc.
      inversion H0; subst; cbn [tp_open]; intros [X|X]; try (apply (IH SS FI); now auto).
      injection X as <-. cbn [ts_end].
      match goal with X : h_top _ = Some ?u |- _ => rename u into t0; rename X into TT end.
      assert (In t0 (elements (tp_buffer (sp_tp s1)))) as I0 by (eapply Permutation_in; [apply (pq_pop _ _ _ _ _ _ PQ _ _ TT)|left; reflexivity]).
      specialize (FI _ _ OUT). rewrite Forall_forall in FI. destruct (FI _ (EF _ I0)) as [F1 F2].
      pose proof (floor_bounds window W0 (time_start t0) F1) as FB.
      match goal with X : u64 _ < ts |- _ => rename X into DU end.
      rewrite (u64_small (time_start t0 + window)) in DU by lia. rewrite u64_small in DU by lia.
      rewrite (u64_small (time_start t0 / window * window)) by lia. rewrite u64_small by lia.
      destruct (iv_hand _ _ _ _ _ _ _ _ _ _ _ _ I _ _ _ H) as (pre & m & CH). rewrite CH, map_app. cbn [map fst]. rewrite last_snoc. lia.
    + apply (step_effect _ _ _ _ _ _ PQ) in H. rewrite this_run_snoc, sets_snoc, app_nil_r.
      inversion H; subst; cbn [tp_open]. intros [X|X]; [apply (IH SS FI); auto|]. injection X as <-. cbn [ts_end]. apply (IH SS FI). auto.
    + apply (step_effect _ _ _ _ _ _ PQ) in H. rewrite this_run_snoc, sets_snoc.
      inversion H; subst; cbn [tp_open]. intros [X|X]; [|discriminate]. apply in_app_or in X as [X|[<-|[]]]; apply (IH SS FI); auto.
    + apply (step_effect _ _ _ _ _ _ PQ) in H. rewrite this_run_snoc, sets_snoc, app_nil_r. inversion H; subst; cbn [tp_open]. apply (IH SS FI).
    + apply (step_effect _ _ _ _ _ _ PQ) in H. rewrite this_run_snoc, sets_snoc, app_nil_r. inversion H; subst; cbn [tp_open]. apply (IH SS FI).
    + rewrite this_run_snoc. apply (IH SS FI).
    + rewrite this_run_snoc. apply (IH SS FI).
Qed.

Lemma sent_below l s e : run l conf = Go s e -> forall q, In q (pushed (this_run e)) ->
  exists x, (In x (sets (this_run e)) \/ tp_open (sp_tp s) = Some x) /\ time_start q < ts_end x.
Proof.
  intros R q Iq. destruct (inv_run _ _ _ R) as (la & out & I). pose proof (iv_tp _ _ _ _ _ _ _ _ _ _ _ _ I) as T.
  pose proof (inv1_run _ _ _ _ _ _ PQ _ _ _ _ _ T) as I1. fold (this_run e) in I1.
  rewrite (i_pushed _ _ _ _ I1) in Iq. apply in_app_or in Iq as [Iq|Iq].
  - apply in_concat in Iq as (os & Io & Iq). apply in_map_iff in Io as (x & <- & Ix). exists x. split; [auto|].
    pose proof (i_sets _ _ _ _ I1) as S. rewrite Forall_forall in S. destruct (S _ Ix) as [_ F]. rewrite Forall_forall in F. apply F, Iq.
  - destruct (tp_open (sp_tp s)) as [x|] eqn:O; [|destruct Iq]. exists x. split; [auto|].
    destruct (i_open _ _ _ _ I1 x O) as [[_ F] _]. rewrite Forall_forall in F. apply F, Iq.
Qed.
End Feed.
