(** Proofs about Life_model.v: stop returns when nothing arrives any more. *)
From Coq Require Import List Bool Arith Lia.
From Verif Require Import Base_model Life_model Life_spec Life_proofs Life_proofs2.
Import ListNotations.
Open Scope nat_scope.

Definition rank (w : worker) : nat := match w with Given => 4 | Body => 3 | Head => 2 | Late => 1 | Off => 0 end.
Definition post_ranks (s : life) : nat := list_sum (map (fun i => rank (f_thread s (Post i))) (seq 0 (f_tasks s))).
Definition is_body (w : worker) : nat := match w with Body => 1 | _ => 0 end.
Definition measure (s : life) : nat :=
  (match f_todo s with Some (_, l) => S (length l) | None => 0 end) +
  (S (S (length (f_queues s))) * f_input s + list_sum (f_queues s) + rank (f_thread s Consumer)) +
  (2 * f_reqs s + rank (f_thread s Requester)) +
  (rank (f_thread s Timesync) + is_body (f_thread s Timesync) * f_links s) +
  rank (f_thread s Cleanup) + (2 * rank (f_thread s Recording) + if f_isrec s then 1 else 0) +
  post_ranks s + (match f_wait s with Some true => 1 | _ => 0 end) +
  (match f_pool s with Some p => o_pending p + (f_retries s + 3) * o_retry p | None => 0 end) +
  list_sum (map (fun r => r + 2) (f_list s)).

Definition smaller (s' s : life) : Prop := measure s' < measure s.

Lemma list_sum_app' : forall a b, list_sum (a ++ b) = list_sum a + list_sum b.
Proof. induction a; intros; simpl; auto. rewrite IHa. lia. Qed.

Lemma offer_sum : forall qs k, list_sum (offer qs k) <= list_sum qs + length qs /\ length (offer qs k) = length qs.
Proof.
  induction qs as [|q qs IH]; intros k; simpl; [lia|]. destruct (IH (Nat.div2 k)) as [A B]. destruct (Nat.odd k); simpl; lia.
Qed.
Lemma take_sum : forall qs i n, nth i qs 0 = S n -> S (list_sum (take qs i)) = list_sum qs /\ length (take qs i) = length qs.
Proof.
  induction qs as [|q qs IH]; intros [|i] n H; simpl in *; try discriminate.
  - subst q. simpl. lia.
  - destruct (IH i n H) as [A B]. lia.
Qed.
Lemma pass_sum : forall l k keep n, pass l k = (keep, n) -> n + list_sum (map (fun r => r + 2) keep) + length l <= list_sum (map (fun r => r + 2) l).
Proof.
  induction l as [|r l IH]; intros k keep n H; simpl in H; [injection H as <- <-; simpl; lia|].
  destruct (pass l (Nat.div2 k)) as [keep' n'] eqn:E. specialize (IH _ _ _ E). simpl. destruct (Nat.odd k).
  - injection H as <- <-. lia.
  - destruct r as [|r]; injection H as <- <-; simpl; lia.
Qed.

Lemma sum_update : forall (f g : nat -> nat) l i, In i l -> NoDup l -> (forall j, j <> i -> g j = f j) ->
  list_sum (map g l) + f i = list_sum (map f l) + g i.
Proof.
  induction l as [|x l IH]; intros i H ND E; [contradiction|]. inversion ND; subst. simpl. destruct (Nat.eq_dec x i) as [->|N].
  - assert (map g l = map f l) as ->; [|lia]. apply map_ext_in. intros j Hj. apply E. intros ->. contradiction.
  - destruct H as [H|H]; [contradiction|]. specialize (IH i H H3 E). rewrite (E x N). lia.
Qed.

Lemma post_ranks_post : forall s i w, i < f_tasks s -> post_ranks (set_worker s (Post i) w) + rank (f_thread s (Post i)) = post_ranks s + rank w.
Proof.
  intros s i w H. unfold post_ranks. change (f_tasks (set_worker s (Post i) w)) with (f_tasks s).
  pose proof (sum_update (fun j => rank (f_thread s (Post j))) (fun j => rank (f_thread (set_worker s (Post i) w) (Post j))) (seq 0 (f_tasks s)) i) as U.
  simpl in U. rewrite Nat.eqb_refl in U. apply U.
  - apply in_seq. lia.
  - apply seq_NoDup.
  - intros j N. destruct (j =? i) eqn:E; [apply Nat.eqb_eq in E; contradiction|reflexivity].
Qed.

(** A state of stop past its first two steps. *)
Definition ending (s : life) (log : list event) : Prop :=
  inv s log /\ (exists l, f_todo s = Some (CStop, l)) /\ f_marker s = false /\ f_hmarker s = false.

Definition inner (a : action) : Prop := match a with AArrive | ARequest | ACommand _ => False | _ => True end.

Definition fields (s' s : life) : Prop := f_todo s' = f_todo s /\ f_marker s' = f_marker s /\ f_hmarker s' = f_hmarker s /\ f_pmarker s' = f_pmarker s /\ f_tasks s' = f_tasks s.

Lemma worker_smaller : forall s t w, valid s t -> rank w < rank (f_thread s t) -> (t = Timesync -> is_body w = 0) -> smaller (set_worker s t w) s.
Proof.
  intros s t w V R B. unfold smaller, measure. simpl. destruct t; simpl.
  - change (post_ranks (set_worker s Consumer w)) with (post_ranks s). lia.
  - change (post_ranks (set_worker s Requester w)) with (post_ranks s). lia.
  - change (post_ranks (set_worker s Timesync w)) with (post_ranks s). rewrite B by reflexivity. lia.
  - change (post_ranks (set_worker s Cleanup w)) with (post_ranks s). lia.
  - change (post_ranks (set_worker s Recording w)) with (post_ranks s). lia.
  - pose proof (post_ranks_post s i w (V i eq_refl)). lia.
Qed.

Lemma head_smaller : forall s t k s' ev, valid s t -> f_thread s t = Head -> f_marker s = false -> f_hmarker s = false -> iterate s t k = Ok (s', ev) ->
  (s' = s \/ smaller s' s) /\ (k <> 0 -> (forall i, t = Post i -> f_pmarker s = false) -> smaller s' s).
Proof.
  intros s t k s' ev V H M HM E.
  assert (smaller (set_worker s t Late) s) as L by (apply worker_smaller; [exact V|rewrite H; simpl; lia|reflexivity]).
  destruct t; simpl in E.
  - rewrite M in E. destruct (f_input s) as [|n] eqn:I; [injection E as <- _; auto|]. destruct (f_mem s); [|discriminate]. injection E as <- _.
    assert (smaller (set_queues (set_ring (set_input s n) (if Nat.odd k then S (f_ring s) else f_ring s)) (offer (f_queues s) (Nat.div2 k))) s) as Z; [|auto].
    destruct (offer_sum (f_queues s) (Nat.div2 k)) as [A B]. unfold smaller, measure. simpl. rewrite B, I.
    change (post_ranks (set_queues (set_ring (set_input s n) (if Nat.odd k then S (f_ring s) else f_ring s)) (offer (f_queues s) (Nat.div2 k)))) with (post_ranks s). 
    rewrite !Nat.mul_succ_r. lia.
  - rewrite M in E. destruct (f_reqs s) as [|n] eqn:I; injection E as <- _; [auto|].
    assert (smaller (set_reqs s n) s) as Z; [|auto]. unfold smaller, measure. simpl. rewrite I. change (post_ranks (set_reqs s n)) with (post_ranks s). lia.
  - rewrite M in E. injection E as <- _. auto.
  - rewrite HM in E. injection E as <- _. auto.
  - destruct (f_isrec s) eqn:I; [|injection E as <- _; auto].
    assert (smaller (set_isrec s false) s) as Z by (unfold smaller, measure; simpl; rewrite I; change (post_ranks (set_isrec s false)) with (post_ranks s); lia).
    destruct k; injection E as <- _; [|auto]. split; [left; reflexivity|intros N; contradiction].
  - destruct (nth i (f_queues s) 0) as [|n] eqn:I.
    + destruct (f_pmarker s); injection E as <- _; [|auto]. split; [left; reflexivity|]. intros _ X. specialize (X i eq_refl). discriminate X.
    + injection E as <- _. assert (smaller (set_queues s (take (f_queues s) i)) s) as Z; [|auto]. destruct (take_sum _ _ _ I) as [A B].
      unfold smaller, measure. simpl. rewrite B. change (post_ranks (set_queues s (take (f_queues s) i))) with (post_ranks s). lia.
Qed.

Lemma post_measure : forall s n s', post s n = Ok s' -> measure s' = measure s + n /\ fields s' s /\ f_thread s' = f_thread s /\ f_links s' = f_links s.
Proof.
  intros s n s' H. unfold post in H. destruct n; [injection H as <-; split; [lia|repeat split]|].
  destruct (f_pool s) as [p|] eqn:P; [|discriminate]. injection H as <-. split; [|repeat split]. unfold measure. simpl. rewrite P.
  change (post_ranks (set_pool s (Some (mkPool (o_joined p) (o_pending p + S n) (o_retry p))))) with (post_ranks s). simpl. lia.
Qed.

Lemma thread_smaller : forall s t k s' ev, (~ valid s t -> f_thread s t = Off) -> f_marker s = false -> f_hmarker s = false -> thread_step s t k = Ok (s', ev) ->
  (s' = s \/ smaller s' s) /\ (k <> 0 -> ready (f_thread s t) = false -> (forall i, t = Post i -> f_pmarker s = false) -> smaller s' s).
Proof.
  intros s t k s' ev NV M HM E.
  assert (f_thread s t = Off \/ valid s t) as [O|V].
  { destruct t; try (right; intros ? X; discriminate X). destruct (Nat.lt_ge_cases i (f_tasks s)); [right; intros j X; injection X as <-; assumption|].
    left. apply NV. intros X. specialize (X i eq_refl). lia. }
  { unfold thread_step in E. rewrite O in E. injection E as <- _. split; [auto|]. rewrite O. discriminate. }
  unfold thread_step in E. destruct (f_thread s t) eqn:H.
  - injection E as <- _. split; [auto|discriminate].
  - assert (smaller (set_worker s t Head) s) as L by (apply worker_smaller; [exact V|rewrite H; simpl; lia|reflexivity]).
    assert (smaller s' s) as Z; [|auto]. injection E as <- _. destruct t; try exact L.
    clear L. unfold smaller, measure. simpl. rewrite H. change (post_ranks (set_isrec (set_worker s Recording Head) true)) with (post_ranks s). simpl. destruct (f_isrec s); lia.
  - destruct (head_smaller s t k s' ev V H M HM E) as [A B]. split; [exact A|]. intros K _ X. exact (B K X).
  - assert (smaller (set_worker s t Head) s) as L by (apply worker_smaller; [exact V|rewrite H; simpl; lia|reflexivity]).
    assert (smaller s' s) as Z; [|auto]. destruct t; try (injection E as <- _; exact L).
    + destruct (f_reqs s) as [|n] eqn:I; [injection E as <- _; exact L|].
      destruct (post (set_reqs s n) 1) as [s1|] eqn:P; simpl in E; [|discriminate]. injection E as <- _.
      destruct (post_measure _ _ _ P) as (A & (_ & _ & _ & _ & FT) & B & _).
      assert (smaller (set_worker s1 Requester Head) s1) as L1 by (apply worker_smaller; [intros ? X; discriminate X|rewrite B; simpl; rewrite H; simpl; lia|reflexivity]).
      unfold smaller in *. assert (measure (set_reqs s n) + 2 = measure s); [|lia]. unfold measure. simpl. rewrite I. change (post_ranks (set_reqs s n)) with (post_ranks s). lia.
    + destruct (post s (if Nat.odd k then f_links s else 0)) as [s1|] eqn:P; simpl in E; [|discriminate]. injection E as <- _.
      destruct (post_measure _ _ _ P) as (A & (_ & _ & _ & _ & FT) & B & LK).
      assert (measure (set_worker s1 Timesync Head) + 1 + f_links s1 = measure s1) as L1.
      { unfold measure. simpl. rewrite B, H. change (post_ranks (set_worker s1 Timesync Head)) with (post_ranks s1). simpl. lia. }
      unfold smaller in *. rewrite LK in L1. destruct (Nat.odd k); lia.
  - assert (smaller (set_worker s t Off) s) as L by (apply worker_smaller; [exact V|rewrite H; simpl; lia|reflexivity]). injection E as <- _. split; [auto|discriminate].
Qed.

Lemma waiting_smaller : forall s k s' ev, f_hmarker s = false -> waiting_step s k = Ok (s', ev) ->
  (s' = s \/ smaller s' s) /\ (f_wait s = Some true -> smaller s' s).
Proof.
  intros s k s' ev HM E. unfold waiting_step in E. destruct (f_wait s) as [[|]|] eqn:W; try (injection E as <- _; split; [auto|discriminate]).
  assert (smaller s' s) as Z; [|auto]. destruct (f_list s) as [|r l] eqn:FL.
  - rewrite HM in E. injection E as <- _. unfold smaller, measure. simpl. rewrite W. change (post_ranks (set_wait s (Some false))) with (post_ranks s). lia.
  - destruct (pass (r :: l) k) as [keep n] eqn:PS. destruct (post (set_list s keep) n) as [s1|] eqn:P; simpl in E; [|discriminate]. injection E as <- _.
    destruct (post_measure _ _ _ P) as (A & _). pose proof (pass_sum _ _ _ _ PS) as B. unfold smaller. rewrite A.
    assert (measure (set_list s keep) + list_sum (map (fun r => r + 2) (r :: l)) = measure s + list_sum (map (fun r => r + 2) keep)).
    { unfold measure. change (f_list (set_list s keep)) with keep. rewrite FL. change (post_ranks (set_list s keep)) with (post_ranks s). simpl. lia. }
    simpl length in B. lia.
Qed.

Lemma pool_smaller : forall s b, f_hmarker s = false -> (pool_step s b = s \/ smaller (pool_step s b) s) /\
  (forall p, f_pool s = Some p -> o_joined p = false -> o_pending p <> 0 -> smaller (pool_step s b) s).
Proof.
  intros s b HM. unfold pool_step. destruct (f_pool s) as [[[|] [|n] r]|] eqn:P;
    try (split; [left; reflexivity|intros p E J N; try discriminate E; injection E as <-; simpl in *; try discriminate; contradiction]).
  rewrite HM, andb_false_r. assert (smaller (set_pool s (Some (mkPool false n r))) s) as Z; [|auto]. unfold smaller, measure. simpl. rewrite P.
  change (post_ranks (set_pool s (Some (mkPool false n r)))) with (post_ranks s). simpl. lia.
Qed.
Lemma put_smaller : forall s, (pool_put s = s \/ smaller (pool_put s) s) /\
  (forall p, f_pool s = Some p -> o_joined p = false -> o_retry p <> 0 -> smaller (pool_put s) s).
Proof.
  intros s. unfold pool_put. destruct (f_pool s) as [[[|] n [|r]]|] eqn:P;
    try (split; [left; reflexivity|intros p E J N; try discriminate E; injection E as <-; simpl in *; try discriminate; contradiction]).
  assert (smaller (set_list (set_pool s (Some (mkPool false n r))) (f_list s ++ [f_retries s])) s) as Z; [|auto]. unfold smaller, measure. simpl. rewrite P.
  change (post_ranks (set_list (set_pool s (Some (mkPool false n r))) (f_list s ++ [f_retries s]))) with (post_ranks s).
  rewrite map_app, list_sum_app'. simpl. rewrite Nat.mul_succ_r. lia.
Qed.

(** A step of stop itself. *)
Lemma mop_smaller : forall s m rest s' ev, f_todo s = Some (CStop, m :: rest) -> In m (program s CStop) -> mop_step s m = Done s' ev ->
  smaller (set_todo s' (Some (CStop, rest))) s /\ (f_marker s = false -> f_marker s' = false) /\ (f_hmarker s = false -> f_hmarker s' = false) /\ f_tasks s' = f_tasks s.
Proof.
  intros s m rest s' ev T IM M. unfold smaller.
  destruct (stop_ops _ _ IM) as [->|[->|[(t & -> & _)|[->|[->|[->| ->]]]]]]; simpl in M.
  - destruct (f_conf s); injection M as <- _; (split; [|auto]); unfold measure; simpl; rewrite T;
      change (post_ranks (set_todo (set_marker s false) (Some (CStop, rest)))) with (post_ranks s); simpl length; lia.
  - injection M as <- _; (split; [|auto]). unfold measure; simpl; rewrite T.
    change (post_ranks (set_todo (set_hmarker s false) (Some (CStop, rest)))) with (post_ranks s); simpl length; lia.
  - destruct (ready (f_thread s t)); [|discriminate]. injection M as <- _; (split; [|auto]). unfold measure; simpl; rewrite T.
    change (post_ranks (set_todo s (Some (CStop, rest)))) with (post_ranks s); simpl length; lia.
  - destruct (f_wait s) as [[|]|] eqn:W; try discriminate. injection M as <- _; (split; [|auto]). unfold measure; simpl; rewrite T, W.
    change (post_ranks (set_todo (set_wait s None) (Some (CStop, rest)))) with (post_ranks s); simpl length; lia.
  - destruct (f_pool s) as [p|] eqn:P; [|discriminate]. destruct (o_pending p + o_retry p =? 0) eqn:Z.
    + injection M as <- _; (split; [|auto]). unfold measure; simpl; rewrite T, P.
      change (post_ranks (set_todo (set_pool s (Some (mkPool true 0 0))) (Some (CStop, rest)))) with (post_ranks s); simpl length. simpl o_pending. simpl o_retry. lia.
    + destruct (o_joined p); [|discriminate]. injection M as <- _; (split; [|auto]). unfold measure; simpl; rewrite T.
      change (post_ranks (set_todo s (Some (CStop, rest)))) with (post_ranks s); simpl length; lia.
  - injection M as <- _; (split; [|auto]). unfold measure; simpl; rewrite T.
    change (post_ranks (set_todo (set_ring s 0) (Some (CStop, rest)))) with (post_ranks s); simpl length; lia.
  - injection M as <- _; (split; [|auto]). unfold measure; simpl; rewrite T.
    change (post_ranks (set_todo (set_pmarker s false) (Some (CStop, rest)))) with (post_ranks s); simpl length; lia.
Qed.
