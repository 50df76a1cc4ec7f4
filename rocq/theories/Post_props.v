(** C43: post-processing of raw data. *)
From Coq Require Import ZArith List Bool Lia.
From Verif Require Import Base_model Ring_model Post_model Post_spec Post_proofs.
Import ListNotations.
Open Scope nat_scope.

(** C43. From any state [s], for any sequence of set-up calls, starts, stops, offered items and thread steps that does
    not crash, and any queue i: what its task has been given followed by what is queued is what it was before, followed
    by exactly the items at whose arrival this queue had a free place, in order. The queue never holds more than its
    capacity. *)
Theorem C43_exactly_the_accepted :
  forall {X : Type} (s s' : post) (acts : list (@paction X)) (i : nat) (l : lane),
    post_run s acts = Ok s' -> nth_error (p_lanes s) i = Some l -> length (l_queue l) <= l_cap l ->
    exists l', nth_error (p_lanes s') i = Some l' /\
      l_seen l' ++ l_queue l' = (l_seen l ++ l_queue l) ++ accepted i s acts /\
      subseq (accepted i s acts) (offers acts) /\
      l_cap l' = l_cap l /\ length (l_queue l') <= l_cap l'.
Proof.
  intros X s s' acts i l E N C. destruct (post_conserve i acts s s' l E N) as (l' & N' & K1 & K2 & K3).
  exists l'. repeat split; auto; [apply accepted_subseq|]. rewrite K2. auto.
Qed.
Print Assumptions C43_exactly_the_accepted.

(** In a run with at least one queue per task nothing crashes, and a queue and its task do not depend on the other
    threads: leaving out their steps changes nothing for it. *)
Theorem C43_independent :
  forall {X : Type} (s : post) (acts : list (@paction X)) (i : nat) (l : lane),
    p_tasks s <= length (p_lanes s) -> forallb is_run acts = true -> nth_error (p_lanes s) i = Some l ->
    exists s1 s2, post_run s acts = Ok s1 /\ post_run s (filter (concerns i) acts) = Ok s2 /\
      nth_error (p_lanes s1) i = nth_error (p_lanes s2) i.
Proof.
  intros X s acts i l L R N. destruct (post_project i acts s l L R N) as (s1 & E1 & K). destruct (K s L eq_refl eq_refl N) as (s2 & E2 & N2).
  exists s1, s2. auto.
Qed.
Print Assumptions C43_independent.

(** After stop, when no items are offered any more, a busy thread ends after at most twice the number of queued items
    plus two of its steps, and has given its task everything accepted. *)
Theorem C43_stop_drains :
  forall {X : Type} (s : post) (acts : list (@paction X)) (i : nat) (l : lane),
    nth_error (p_lanes s) i = Some l -> p_marker s = false -> l_phase l <> PIdle -> forallb is_drain acts = true ->
    2 * length (l_queue l) + 2 <= steps_of i acts ->
    exists s' l', post_run s acts = Ok s' /\ nth_error (p_lanes s') i = Some l' /\
      l_phase l' = PIdle /\ l_queue l' = [] /\ l_seen l' = l_seen l ++ l_queue l.
Proof.
  intros X s acts i l N M P D K. destruct (post_drain i acts s l M D N (or_introl P)) as (s' & l' & E & N' & Q & L).
  destruct (post_conserve i acts s s' l E N) as (l2 & N2 & C & _). rewrite N2 in N'. injection N' as ->.
  assert (A : forall s, accepted i s acts = []).
  { clear - D. induction acts as [|a acts IH]; intros s; [reflexivity|]. cbn in D. apply andb_true_iff in D as [D1 D2].
    cbn [accepted]. destruct a; try discriminate; cbn [app paction_step]; auto. }
  rewrite A, app_nil_r in C. exists s', l'. split; [exact E|]. split; [exact N2|].
  assert (Z : left l' = 0). { unfold left in L |- *. destruct (l_phase l); [congruence| |destruct (length (l_queue l) =? 0)]; lia. }
  unfold left in Z. assert (l_queue l' = []) as EQ. { destruct (l_queue l'); [reflexivity|cbn in Z; lia]. }
  rewrite EQ in *. rewrite app_nil_r in C. repeat split; auto. destruct (l_phase l'); cbn in Z; [reflexivity|lia|lia].
Qed.
Print Assumptions C43_stop_drains.

(** Two tasks with one place each; task 0 reads in between, task 1 does not: it misses b. After stop both are drained. *)
Example C43_ex :
  exists s, post_run post_new [PAddTask; PAddTask; PConf 2; PStart; POffer 1; PThread 0; PThread 0; POffer 2; PStop;
                               PThread 0; PThread 0; PThread 1; PThread 1; PThread 0; PThread 1] = Ok s /\
    map l_seen (p_lanes s) = [[1; 2]; [1]] /\ map l_phase (p_lanes s) = [PIdle; PIdle].
Proof. vm_compute. eexists. auto. Qed.

(** Set-up: configuring once after the tasks were added gives one queue per task. A processor that adds its task at each
    conf (WIBFrameProcessor.hpp 226-237) has after k of them k tasks and k(k+1)/2 queues. *)
Theorem C43_setup :
  forall {X : Type} (k size : nat), 2 <= size ->
    (exists s : @post X, post_run post_new (repeat PAddTask k ++ [PConf size]) = Ok s /\ p_tasks s = k /\ length (p_lanes s) = k) /\
    (exists s : @post X, post_run post_new (concat (repeat [PAddTask; PConf size] k)) = Ok s /\ p_tasks s = k /\ 2 * length (p_lanes s) = k * (k + 1)).
Proof.
  intros X k size S. split.
  - assert (G : forall k (s : @post X), post_run s (repeat PAddTask k) = Ok (mk_post (p_tasks s + k) (p_lanes s) (p_marker s))).
    { induction k0 as [|k0 IH]; intros s; cbn [repeat post_run paction_step bind]; [destruct s; cbn; do 2 f_equal; lia|]. rewrite IH. cbn. do 2 f_equal. lia. }
    assert (APP : forall a b (s : @post X), post_run s (a ++ b) = do s1 <- post_run s a; post_run s1 b).
    { induction a as [|x a IH]; intros b s; [reflexivity|]. cbn [app post_run]. destruct (paction_step s x); [apply IH|reflexivity]. }
    rewrite APP, G. cbn [bind post_run paction_step p_tasks post_new]. destruct (Nat.leb_spec 2 size); [|lia]. cbn [orb bind]. eexists. split; [reflexivity|].
    cbn [p_tasks p_lanes post_new app]. rewrite repeat_length. split; lia.
  - assert (G : forall k (s : @post X), exists s', post_run s (concat (repeat [PAddTask; PConf size] k)) = Ok s' /\ p_tasks s' = p_tasks s + k /\
      2 * length (p_lanes s') = 2 * length (p_lanes s) + k * (2 * p_tasks s + k + 1)).
    { induction k0 as [|k0 IH]; intros s; [exists s; cbn; repeat split; lia|]. cbn [repeat concat app post_run paction_step bind].
      destruct (Nat.leb_spec 2 size); [|lia]. cbn [orb bind]. edestruct IH as (s' & E & T & L). exists s'. split; [exact E|].
      cbn [p_tasks p_lanes] in T, L. rewrite app_length, repeat_length in L. split; [lia|]. rewrite L. nia. }
    destruct (G k post_new) as (s' & E & T & L). exists s'. split; [exact E|]. cbn [p_tasks p_lanes post_new length] in *. split; [exact T|lia].
Qed.
Print Assumptions C43_setup.

(** Hence after a second conf there is a queue without a thread: it is never read and, when full, refuses every item. *)
Theorem C43_second_conf_refuted :
  exists (acts : list (@paction nat)) (s : post) (l : lane),
    acts = [PAddTask; PConf 2; PAddTask; PConf 2; PStart; POffer 7; PThread 0; PThread 1; PThread 2; PThread 0; PThread 1; PThread 2; POffer 8; PStop;
            PThread 0; PThread 1; PThread 2; PThread 0; PThread 1; PThread 2; PThread 0; PThread 1; PThread 2] /\
    post_run post_new acts = Ok s /\ nth_error (p_lanes s) 2 = Some l /\ p_tasks s = 2 /\ l_queue l = [7] /\ l_seen l = [] /\
    map l_seen (firstn 2 (p_lanes s)) = [[7; 8]; [7; 8]].
Proof. do 3 eexists. split; [reflexivity|]. vm_compute. auto 10. Qed.
Print Assumptions C43_second_conf_refuted.

(** The items are pointers: what a task reads through one may have been overwritten since it was offered. Here the
    pointer to element 1 in a buffer with one place shows element 3 after two clean-ups and two writes. *)
Theorem C43_stale_pointer_refuted :
  exists (r0 r1 r2 : ring Z) (i : Z),
    ring_new 2 = Ok r0 /\ snd (run r0 [OWrite 1%Z]) = Ok r1 /\ back r1 = Some i /\ deref r1 i = Ok 1%Z /\
    snd (run r1 [OPop 1; OWrite 2%Z; OPop 1; OWrite 3%Z]) = Ok r2 /\ deref r2 i = Ok 3%Z.
Proof. do 4 eexists. split; [vm_compute; reflexivity|]. split; [vm_compute; reflexivity|]. split; [vm_compute; reflexivity|]. vm_compute. auto. Qed.
Print Assumptions C43_stale_pointer_refuted.
