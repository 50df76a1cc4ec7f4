(** C83: looking for an error while the registry is being changed. *)
From Coq Require Import ZArith List Bool String Lia.
From Verif Require Import Registry_model Registry_spec Registry_proofs Walk_model Walk_spec Walk_proofs.
Import ListNotations.
Open Scope Z_scope.

(** add_error of a new name: lock, erase, insert, unlock; of a known name: with a node to free. *)
Definition first_add (w : nat) (iv : interval) : list action := ACall w (CAdd iv) :: repeat (AWrite w) 4.
Definition next_add (w : nat) (iv : interval) : list action := ACall w (CAdd iv) :: repeat (AWrite w) 5.
Definition iv1 : interval := mk_interval 100 200.
Definition iv2 : interval := mk_interval 500 600.
Definition at_end (acts : list action) : walk := match walk_run walk_new acts with Some s => s | None => walk_new end.

(** Whenever no call is between its lock and its unlock, the map holds exactly the interval that is in
    force after the completed calls, in the order in which they held the lock. *)
Theorem C83_registry_content :
  forall acts s, walk_run walk_new acts = Some s -> quiet s -> forall iv, in_map s iv <-> in_force_now s iv.
Proof. exact content_lemma. Qed.
Print Assumptions C83_registry_content.

(** Two calls of two threads that overlap: the trimming waits for the lock and then removes the interval. *)
Definition overlap : list action :=
  first_add 0 iv1 ++ [ACall 0 (CAdd iv2); AWrite 0; ACall 1 (CTrim 700)] ++ repeat (AWrite 0) 4.
Example C83_registry_content_ex :
  quiet (at_end overlap) /\ in_map (at_end overlap) iv2 /\ in_force_now (at_end overlap) iv2 /\
  walk_run walk_new (overlap ++ repeat (AWrite 1) 3) <> None /\ k_lock (at_end (overlap ++ repeat (AWrite 1) 3)) = Some 1%nat /\
  quiet (at_end (overlap ++ repeat (AWrite 1) 4)) /\ ~ exists iv, in_map (at_end (overlap ++ repeat (AWrite 1) 4)) iv.
Proof.
  split; [reflexivity|]. split; [exists 1%nat; split; reflexivity|]. split; [left; split; reflexivity|].
  split; [vm_compute; discriminate|]. split; [reflexivity|]. split; [reflexivity|].
  intros (iv & p & E & _). vm_compute in E. discriminate.
Qed.

(** A call of has_error(name) that returns answers whether a node hung below the header at its first step, whatever
    the other threads did meanwhile; if no call was then between lock and unlock, whether an interval was
    in force. *)
Theorem C83_answer :
  forall acts s r found, walk_run walk_new acts = Some s -> k_r s r = RDone found ->
  exists s1, began walk_new acts r s1 /\ (found = true <-> k_root s1 <> None) /\
    (quiet s1 -> (found = true <-> exists iv, in_force_now s1 iv)).
Proof.
  intros acts s r found H Hr. destruct (began_lemma acts s r H) as [[E _]|(s1 & B & K)]; [congruence|].
  rewrite Hr in K. exists s1. split; [exact B|].
  assert (found = true <-> k_root s1 <> None) as Hf by (destruct found; split; congruence).
  split; [exact Hf|]. intros Hq. rewrite Hf. destruct B as (a & b & _ & Ra & _). exact (root_in_force a s1 Ra Hq).
Qed.
Print Assumptions C83_answer.

(** Thread 7 looks before the first error, during the replacement (it already holds the node, which is only
    unlinked while it looks), and finds it. *)
Definition look_around : list action :=
  [ALook 7] ++ first_add 0 iv1 ++ [ALook 7; ACall 0 (CAdd iv2); AWrite 0; AWrite 0; ALook 7; ALook 7; ALook 7; AWrite 0].
Example C83_answer_ex :
  k_r (at_end [ALook 7]) 7 = RDone false /\
  k_r (at_end look_around) 7 = RDone true /\ k_root (at_end look_around) = None /\ walk_run walk_new look_around <> None.
Proof. repeat split; try (vm_compute; reflexivity). vm_compute. discriminate. Qed.

(** A call of has_error(name) between two of its steps: the next step reads freed memory exactly if some
    call freed the node in between. *)
Theorem C83_when_freed_memory_is_read :
  forall acts s1 s2 r p k acts' s3, walk_run walk_new acts = Some s1 ->
  walk_step s1 (ALook r) = Some s2 -> k_r s2 r = RAt p k -> k_crashed s2 = false ->
  not_by r acts' -> walk_run s2 acts' = Some s3 -> k_crashed s3 = false ->
  exists s4, walk_step s3 (ALook r) = Some s4 /\ (k_crashed s4 = true <-> freed_during s2 acts' p).
Proof. exact uaf_lemma. Qed.
Print Assumptions C83_when_freed_memory_is_read.

Example C83_when_freed_memory_is_read_ex :
  let s2 := at_end (first_add 0 iv1 ++ [ALook 7]) in
  k_r s2 7 = RAt 0 3 /\ not_by 7 (next_add 0 iv2) /\ freed_during s2 (next_add 0 iv2) 0 /\
  match walk_run s2 (next_add 0 iv2) with Some s3 => k_crashed s3 = false /\ quiet s3 | None => False end.
Proof.
  split; [vm_compute; reflexivity|]. split; [|split; [|vm_compute; split; reflexivity]].
  - intros H. cbn in H. intuition discriminate.
  - exists [ACall 0 (CAdd iv2); AWrite 0; AWrite 0], 0%nat, [AWrite 0; AWrite 0],
      (at_end (first_add 0 iv1 ++ [ALook 7] ++ [ACall 0 (CAdd iv2); AWrite 0; AWrite 0])).
    split; [reflexivity|]. split; [vm_compute; reflexivity|]. left. exists iv2. vm_compute. reflexivity.
Qed.

(** Nothing else goes wrong: only a step of has_error can read freed memory, and only in a node it took from the
    header earlier. *)
Theorem C83_only_lookups_can :
  forall acts s a s', walk_run walk_new acts = Some s -> walk_step s a = Some s' ->
  k_crashed s = false -> k_crashed s' = true -> exists r p k, a = ALook r /\ k_r s r = RAt p k /\ k_heap s p = None.
Proof. exact only_lookups_lemma. Qed.
Print Assumptions C83_only_lookups_can.

(** Finding: one more discontinuity registered by the consumer thread while a request thread looks for the
    error is enough for the request thread to read freed memory. *)
Theorem C83_lookup_is_safe_refuted :
  exists acts s, walk_run walk_new acts = Some s /\ k_crashed s = true /\
    (forall w c, In (ACall w c) acts -> w = 0%nat /\ exists iv, c = CAdd iv).
Proof.
  exists (first_add 0 iv1 ++ [ALook 7] ++ next_add 0 iv2 ++ [ALook 7]),
    (at_end (first_add 0 iv1 ++ [ALook 7] ++ next_add 0 iv2 ++ [ALook 7])).
  split; [vm_compute; reflexivity|]. split; [vm_compute; reflexivity|].
  assert (Forall (fun a => match a with ACall w c => w = 0%nat /\ exists iv, c = CAdd iv | _ => True end)
    (first_add 0 iv1 ++ [ALook 7] ++ next_add 0 iv2 ++ [ALook 7])) as F.
  { cbn [first_add next_add app repeat].
    repeat (apply Forall_cons; [(exact I || (split; [reflexivity|eexists; reflexivity]))|]); apply Forall_nil. }
  intros w c H. exact (proj1 (Forall_forall _ _) F (ACall w c) H).
Qed.
Print Assumptions C83_lookup_is_safe_refuted.

Definition during : list action := [ACall 0 (CAdd iv2); AWrite 0; AWrite 0; ALook 7; AWrite 0; AWrite 0; AWrite 0].

(** Finding: while a registered error is replaced by a later one of the same name, has_error can answer no,
    though an interval is in force before and after and nothing was trimmed. *)
Theorem C83_lookup_sees_the_error_refuted :
  exists a b s1 s, walk_run walk_new a = Some s1 /\ quiet s1 /\ in_force_now s1 iv1 /\
    walk_run s1 b = Some s /\ quiet s /\ in_force_now s iv2 /\ k_r s1 7 = RIdle /\ k_r s 7 = RDone false /\
    forall w c, In (ACall w c) b -> c = CAdd iv2.
Proof.
  exists (first_add 0 iv1), during, (at_end (first_add 0 iv1)), (at_end (first_add 0 iv1 ++ during)).
  split; [vm_compute; reflexivity|]. split; [vm_compute; reflexivity|]. split; [left; split; reflexivity|].
  split; [vm_compute; reflexivity|]. split; [vm_compute; reflexivity|]. split; [left; split; reflexivity|].
  split; [vm_compute; reflexivity|]. split; [vm_compute; reflexivity|].
  intros w c H. cbn in H. intuition congruence.
Qed.
Print Assumptions C83_lookup_sees_the_error_refuted.

(** The registry never holds more than one node, none is lost: outside the calls there is one exactly while an
    interval is in force. *)
Theorem C83_nodes :
  forall acts s, walk_run walk_new acts = Some s ->
  (nodes (k_heap s) (k_next s) <= 1)%nat /\ (forall p, (k_next s <= p)%nat -> k_heap s p = None) /\
  (quiet s -> (nodes (k_heap s) (k_next s) = 1%nat <-> exists iv, in_force_now s iv)).
Proof. exact nodes_lemma. Qed.
Print Assumptions C83_nodes.

Example C83_nodes_ex :
  nodes (k_heap (at_end overlap)) (k_next (at_end overlap)) = 1%nat /\ k_next (at_end overlap) = 2%nat /\
  nodes (k_heap (at_end (overlap ++ repeat (AWrite 1) 4))) 2 = 0%nat.
Proof. repeat split. Qed.

(** Every call ends: the one that holds the lock within four steps of its thread, one that waits while nobody does
    within five, and a call of has_error with nobody between its steps within four, with the answer whether
    a node is there. *)
Theorem C83_calls_end :
  forall acts s, walk_run walk_new acts = Some s -> k_crashed s = false ->
  (forall w, k_lock s = Some w -> exists c k s', (k <= 4)%nat /\ walk_run s (repeat (AWrite w) k) = Some s' /\
     k_crashed s' = false /\ quiet s' /\ k_w s' w = WIdle /\ k_calls s' = k_calls s ++ [c]) /\
  (forall w c, quiet s -> k_w s w = WWait c -> exists k s', (k <= 5)%nat /\ walk_run s (repeat (AWrite w) k) = Some s' /\
     k_crashed s' = false /\ quiet s' /\ k_w s' w = WIdle /\ k_calls s' = k_calls s ++ [c]) /\
  (forall r, k_r s r = RIdle \/ (exists f, k_r s r = RDone f) ->
     exists k s' found, (1 <= k <= 4)%nat /\ walk_run s (repeat (ALook r) k) = Some s' /\ k_crashed s' = false /\
       k_r s' r = RDone found /\ (found = true <-> k_root s <> None)).
Proof.
  intros acts s H Hc. split; [|split].
  - intros w. exact (finish_lemma acts s w H Hc).
  - intros w c. exact (begin_lemma acts s w c H Hc).
  - intros r. exact (lookup_ends_lemma acts s r H Hc).
Qed.
Print Assumptions C83_calls_end.

(** Thread 0 holds the lock with an entry to replace; then thread 1, waiting to trim, gets its turn. *)
Definition held : list action := first_add 0 iv1 ++ [ACall 0 (CAdd iv2); AWrite 0; ACall 1 (CTrim 700)].
Example C83_calls_end_ex :
  k_lock (at_end held) = Some 0%nat /\ quiet (at_end (held ++ repeat (AWrite 0) 4)) /\
  k_w (at_end (held ++ repeat (AWrite 0) 4)) 1 = WWait (CTrim 700) /\
  k_calls (at_end (held ++ repeat (AWrite 0) 4 ++ repeat (AWrite 1) 4)) = [CAdd iv1; CAdd iv2; CTrim 700].
Proof. vm_compute. repeat split. Qed.
