(** Properties of the consumer modules (C64). *)
From Coq Require Import ZArith List Bool Lia.
From Verif Require Import Base_model Consumer_model Consumer_spec.
Import ListNotations.
Open Scope Z_scope.

Section Lemmas.
Context {T : Type}.
Implicit Types (l : list (event T)) (s : st T).

Definition is_started (e : event T) : bool := match e with Started => true | _ => false end.
(** Whether a run is in progress after the events. *)
Fixpoint running (b : bool) l : bool :=
  match l with [] => b | Started :: r => running true r | Called _ :: r => running b r | Stopped :: r => running false r end.

Lemma called_app : forall l1 l2, called (l1 ++ l2) = called l1 ++ called l2.
Proof. induction l1 as [|[|x|] l1 IH]; intros l2; cbn; rewrite ?IH; reflexivity. Qed.
Lemma pushed_app : forall a1 a2 : list (act T), pushed (a1 ++ a2) = pushed a1 ++ pushed a2.
Proof. induction a1 as [|[x| | | |] a1 IH]; intros a2; cbn; rewrite ?IH; reflexivity. Qed.
Lemma running_app : forall l1 l2 b, running b (l1 ++ l2) = running (running b l1) l2.
Proof. induction l1 as [|[|x|] l1 IH]; intros l2 b; cbn; rewrite ?IH; reflexivity. Qed.
Lemma inside_app : forall l1 l2 b, inside_runs b (l1 ++ l2) = inside_runs b l1 && inside_runs (running b l1) l2.
Proof. induction l1 as [|[|x|] l1 IH]; intros l2 b; cbn; rewrite ?IH, ?andb_assoc; reflexivity. Qed.
Lemma alternating_app : forall l1 l2 b, alternating b (l1 ++ l2) = alternating b l1 && alternating (running b l1) l2.
Proof. induction l1 as [|[|x|] l1 IH]; intros l2 b; cbn; rewrite ?IH, ?andb_assoc; reflexivity. Qed.
Lemma running_started : forall l b, running b l = true -> b = true \/ existsb is_started l = true.
Proof.
  induction l as [|[|x|] l IH]; intros b H; cbn in *; auto. destruct (IH false H) as [|]; [discriminate|auto].
Qed.
Lemma this_run_none : forall l, existsb is_started l = false -> this_run l = [].
Proof. induction l as [|[|x|] l IH]; intros H; cbn in *; auto. discriminate. Qed.
Lemma this_run_started : forall l, this_run (l ++ [Started]) = [].
Proof.
  induction l as [|[|x|] l IH]; [reflexivity| |exact IH|exact IH]. cbn. fold is_started. rewrite existsb_app. cbn. rewrite orb_true_r. exact IH.
Qed.
Lemma this_run_called : forall l x, existsb is_started l = true -> this_run (l ++ [Called x]) = this_run l ++ [x].
Proof.
  induction l as [|[|y|] l IH]; intros x H; [discriminate| |exact (IH x H)|exact (IH x H)]. cbn. fold is_started. rewrite existsb_app. cbn.
  rewrite orb_false_r. destruct (existsb is_started l) eqn:E; [apply IH; reflexivity|]. rewrite called_app. reflexivity.
Qed.
Lemma this_run_stopped : forall l, this_run (l ++ [Stopped]) = this_run l.
Proof.
  induction l as [|[|y|] l IH]; [reflexivity| |exact IH|exact IH]. cbn. fold is_started. rewrite existsb_app. cbn. rewrite orb_false_r, IH.
  destruct (existsb is_started l) eqn:E; [reflexivity|]. rewrite called_app. cbn. apply app_nil_r.
Qed.

(** The element taken from the queue for which the callback has not run yet. *)
Definition taken s : list T := match w s with WCall x => [x] | _ => [] end.
Definition uncounted s : Z := match w s with WCount => 1 | _ => 0 end.

Record inv s : Prop := {
  inv_idle : running false (log s) = false -> w s = WIdle /\ c s <> CMark /\ c s <> CWork;
  inv_inside : inside_runs false (log s) = true;
  inv_count : alternating false (log s) = true -> count s = i32 (Z.of_nat (length (this_run (log s))) - uncounted s)
}.
Lemma i32_step : forall a, i32 (i32 (a - 1) + 1) = i32 (a - 0).
Proof.
  intros a. unfold i32. f_equal. replace ((a - 1 + 2147483648) mod two32 - 2147483648 + 1 + 2147483648) with ((a - 1 + 2147483648) mod two32 + 1) by lia.
  rewrite Zplus_mod_idemp_l. f_equal. lia.
Qed.

Lemma step_inv : forall s a, inv s -> inv (step s a).
Proof.
  intros [q m wk cm n lg] a [I1 I2 I3]. cbn [log w c count] in *. destruct a as [x| | | |]; cbn [step queue marker w c count log].
  - split; assumption.
  - destruct cm; split; cbn [log w c count]; auto; intros H; destruct (I1 H) as (E & _); repeat split; [exact E|discriminate|discriminate].
  - destruct cm; split; cbn [log w c count]; auto; intros H; destruct (I1 H) as (E & _); repeat split; [exact E|discriminate|discriminate].
  - unfold command. cbn [queue marker w c count log]. destruct cm; cbn [queue marker w c count log].
    + split; assumption.
    + split; cbn [log w c count].
      * rewrite running_app. discriminate.
      * rewrite inside_app, I2. reflexivity.
      * rewrite alternating_app, this_run_started. cbn [alternating length]. intros H. apply andb_prop in H as [H1 H2].
        rewrite andb_true_r in H2. destruct (running false lg) eqn:R; [discriminate|]. destruct (I1 eq_refl) as (-> & _). reflexivity.
    + split; cbn [log w c count]; [intros H; destruct (I1 H) as (E & N & _); congruence|assumption|exact I3].
    + split; cbn [log w c count].
      * intros H. destruct (I1 H) as (E & _ & N). congruence.
      * exact I2.
      * intros H. rewrite (I3 H). unfold uncounted, idle. cbn [w]. destruct wk; reflexivity.
    + split; cbn [log w c count]; [intros H; destruct (I1 H) as (E & _); repeat split; [exact E|discriminate|discriminate]|assumption|exact I3].
    + unfold idle. cbn [w]. destruct wk; try (split; cbn [log w c count]; assumption). split; cbn [log w c count].
      * intros _. repeat split; discriminate.
      * rewrite inside_app, I2. reflexivity.
      * rewrite alternating_app, this_run_stopped. intros H. apply andb_prop in H as [H _]. exact (I3 H).
  - unfold worker. cbn [queue marker w c count log]. destruct wk as [| | |x|]; cbn [queue marker w c count log].
    + split; assumption.
    + split; cbn [log w c count]; [intros H; destruct (I1 H) as (E & _); discriminate|exact I2|].
      intros H. rewrite (I3 H). unfold uncounted. cbn [w]. destruct m; reflexivity.
    + destruct q as [|x q]; (split; cbn [log w c count]; [intros H; destruct (I1 H) as (E & _); discriminate|exact I2|exact I3]).
    + destruct (running false lg) eqn:R; [|destruct (I1 eq_refl) as (E & _); discriminate].
      destruct (running_started lg false R) as [|S]; [discriminate|]. split; cbn [log w c count].
      * rewrite running_app, R. discriminate.
      * rewrite inside_app, I2, R. reflexivity.
      * rewrite alternating_app, this_run_called by exact S. intros H. apply andb_prop in H as [H _]. rewrite (I3 H). unfold uncounted. cbn [w].
        rewrite app_length. cbn [length]. f_equal. lia.
    + split; cbn [log w c count]; [intros H; destruct (I1 H) as (E & _); discriminate|exact I2|].
      intros H. rewrite (I3 H). unfold uncounted. cbn [w]. apply i32_step.
Qed.

Lemma run_inv : forall (l : list (act T)) b, inv (run l (@init T b)).
Proof.
  intros l b. unfold run. assert (inv (@init T b)) as I.
  { split; cbn; [repeat split; discriminate|reflexivity|reflexivity]. }
  revert I. generalize (@init T b). induction l as [|a l IH]; intros s I; [exact I|]. apply IH, step_inv, I.
Qed.

Lemma step_fifo : forall s a, called (log (step s a)) ++ taken (step s a) ++ queue (step s a) =
  (called (log s) ++ taken s ++ queue s) ++ pushed [a].
Proof.
  intros [q m wk cm n lg] a. unfold taken. destruct a as [x| | | |]; cbn [step queue marker w c count log pushed].
  - rewrite !app_assoc. reflexivity.
  - rewrite app_nil_r. destruct cm; reflexivity.
  - rewrite app_nil_r. destruct cm; reflexivity.
  - rewrite app_nil_r. unfold command. cbn [queue marker w c count log]. destruct cm; cbn [queue marker w c count log]; rewrite ?called_app, ?app_nil_r; try reflexivity.
    + unfold idle. cbn [w]. destruct wk; reflexivity.
    + unfold idle. cbn [w]. destruct wk; cbn [queue w log]; rewrite ?called_app, ?app_nil_r; reflexivity.
  - rewrite app_nil_r. unfold worker. cbn [queue marker w c count log]. destruct wk as [| | |x|]; cbn [queue marker w c count log]; try reflexivity.
    + destruct m; reflexivity.
    + destruct q; reflexivity.
    + rewrite called_app, <- app_assoc. reflexivity.
Qed.
End Lemmas.

(** Every pushed element reaches the callback exactly once, in the order of the pushes, over any number of runs; what has not reached it is
    still in the queue, or is the one element in the worker's hands. *)
Theorem C64_exactly_once_in_order : forall (T : Type) (l : list (act T)) b,
  pushed l = called (log (run l (init b))) ++ taken (run l (init b)) ++ queue (run l (init b)) /\
  (length (taken (run l (init b))) <= 1)%nat /\ (w (run l (init b)) = WIdle -> taken (run l (init b)) = []).
Proof.
  intros T l b. split; [|split].
  - unfold run. replace (pushed l) with ((called (log (@init T b)) ++ taken (init b) ++ queue (init b)) ++ pushed l) by reflexivity.
    generalize (@init T b). induction l as [|a l IH]; intros s; cbn [fold_left]; [cbn [pushed]; rewrite app_nil_r; reflexivity|].
    rewrite <- IH, step_fifo. change (a :: l) with ([a] ++ l). rewrite pushed_app, app_assoc. reflexivity.
  - unfold taken. destruct (w (run l (init b))); cbn; lia.
  - unfold taken. intros ->. reflexivity.
Qed.
Print Assumptions C64_exactly_once_in_order.

(** The first run stops with an element left; it is the first of the second run. *)
Definition history : list (act nat) :=
  [Push 1; Start; Command; Command; Command; Worker; Worker; Push 2; Worker; Worker; Push 3; Worker; Worker; Stop; Command; Worker; Worker; Worker;
   Command; Start; Command; Command; Command; Push 4; Worker; Worker; Worker; Worker; Worker; Worker; Worker]%nat.
Example C64_exactly_once_ex : let s := run history (init true) in
  pushed history = [1; 2; 3; 4]%nat /\ log s = [Started; Called 1; Called 2; Stopped; Started; Called 3; Called 4]%nat /\ queue s = [] /\ count s = 1.
Proof. repeat split. Qed.

(** The callback runs only between a start and the return of the next stop. *)
Theorem C64_silent_when_stopped : forall (T : Type) (l : list (act T)) b, inside_runs false (log (run l (init b))) = true.
Proof. intros. apply inv_inside, run_inv. Qed.
Print Assumptions C64_silent_when_stopped.
Example C64_silent_ex : inside_runs false (log (run history (init false))) = true /\
  inside_runs false [Started; Called 1; Stopped; Called 2]%nat = false.
Proof. split; reflexivity. Qed.

(** The reported number of packets is the number of callbacks since the last start, one less while the worker is between callback and counter,
    modulo the wrap-around of int, provided no start is sent during a run. *)
Theorem C64_packets_processed : forall (T : Type) (l : list (act T)) b, alternating false (log (run l (init b))) = true ->
  exists d, 0 <= d <= 1 /\ count (run l (init b)) = i32 (Z.of_nat (length (this_run (log (run l (init b))))) - d) /\
    (w (run l (init b)) = WIdle -> d = 0).
Proof.
  intros T l b A. exists (uncounted (run l (init b))). pose proof (inv_count _ (run_inv l b) A) as C. unfold uncounted in *.
  destruct (w (run l (init b))); repeat split; try lia; try discriminate; exact C.
Qed.
Print Assumptions C64_packets_processed.
Example C64_packets_ex : alternating false (log (run history (init true))) = true /\ this_run (log (run history (init true))) = [3; 4]%nat /\
  count (run history (init true)) = 1 /\ count (run (history ++ [Worker]) (init true)) = 2.
Proof. repeat split. Qed.
(** Without the proviso the count can exceed the callbacks since the last start. *)
Theorem C64_start_during_run_refuted : exists (l : list (act nat)) b,
  this_run (log (run l (init b))) = [] /\ count (run l (init b)) = 1.
Proof. exists [Push 1%nat; Start; Command; Command; Command; Worker; Worker; Worker; Start; Command; Worker], true. split; reflexivity. Qed.
Print Assumptions C64_start_during_run_refuted.

Definition left_calls {T} (s : st T) : nat := match w s with WPop | WCall _ => 1 | _ => 0 end.
Definition left_steps {T} (s : st T) : nat := match w s with WIdle => 0 | WTest => 1 | WCount => 2 | WCall _ => 3 | WPop => 4 end.
Definition is_worker {T} (a : act T) : bool := match a with Worker => true | _ => false end.
Definition is_command_sent {T} (a : act T) : bool := match a with Start | Stop => true | _ => false end.

Lemma stopping_step : forall (T : Type) (a : act T) s, is_command_sent a = false -> marker s = false -> (c s = CWait \/ c s = CNone /\ w s = WIdle) ->
  marker (step s a) = false /\ (c (step s a) = CWait \/ c (step s a) = CNone /\ w (step s a) = WIdle) /\
  exists new, log (step s a) = log s ++ new /\ (length (called new) + left_calls (step s a) <= left_calls s)%nat /\
    ((if is_worker a then 1 else 0) + left_steps (step s a) <= left_steps s \/ left_steps (step s a) = 0)%nat.
Proof.
  intros T a [q m wk cm n lg] NA M C. cbn [marker c w] in *. subst m. unfold left_calls, left_steps.
  destruct a as [x| | | |]; try discriminate; cbn [step queue marker w c count log is_worker].
  - split; [reflexivity|]. split; [exact C|]. exists []. rewrite app_nil_r. cbn. split; [reflexivity|]. split; lia.
  - unfold command. cbn [queue marker w c count log]. destruct C as [->|[-> ->]]; unfold idle; cbn [w].
    + destruct wk; cbn [queue marker w c count log].
      * split; [reflexivity|]. split; [right; split; reflexivity|]. exists [Stopped]. cbn. split; [reflexivity|]. split; lia.
      * split; [reflexivity|]. split; [left; reflexivity|]. exists []. rewrite app_nil_r. cbn. split; [reflexivity|]. split; lia.
      * split; [reflexivity|]. split; [left; reflexivity|]. exists []. rewrite app_nil_r. cbn. split; [reflexivity|]. split; lia.
      * split; [reflexivity|]. split; [left; reflexivity|]. exists []. rewrite app_nil_r. cbn. split; [reflexivity|]. split; lia.
      * split; [reflexivity|]. split; [left; reflexivity|]. exists []. rewrite app_nil_r. cbn. split; [reflexivity|]. split; lia.
    + split; [reflexivity|]. split; [right; split; reflexivity|]. exists []. rewrite app_nil_r. cbn. split; [reflexivity|]. split; lia.
  - destruct C as [->|[-> ->]]; unfold worker; cbn [queue marker w c count log].
    + destruct wk as [| | |x|]; [| |destruct q as [|x q]| |]; cbn [queue marker w c count log]; (split; [reflexivity|]; split; [left; reflexivity|]).
      5:{ exists [Called x]. cbn. split; [reflexivity|]. split; lia. }
      all: exists []; rewrite app_nil_r; cbn; split; [reflexivity|]; split; lia.
    + split; [reflexivity|]. split; [right; split; reflexivity|]. exists []. rewrite app_nil_r. cbn. split; [reflexivity|]. split; lia.
Qed.

(** After stop has cleared the marker the callback runs at most once more, whatever is pushed; and stop returns at its next look after the worker
    has taken four steps (one of which may be the expiry of the pop). *)
Theorem C64_stop : forall (T : Type) (l : list (act T)) s, c s = CClear -> forallb (fun a => negb (is_command_sent a)) l = true ->
  let s' := run (Command :: l) s in
  (exists new, log s' = log s ++ new /\ (length (called new) <= 1)%nat) /\
  ((4 <= length (filter is_worker l))%nat -> w s' = WIdle /\ c (run (Command :: l ++ [Command]) s) = CNone).
Proof.
  intros T l s0 C0 NL. cbn [run fold_left]. unfold run. cbn [fold_left step]. assert (exists s1, command s0 = s1 /\ marker s1 = false /\ c s1 = CWait /\ log s1 = log s0) as (s & -> & M & C & L).
  { eexists. split; [reflexivity|]. unfold command. rewrite C0. repeat split. }
  rewrite fold_left_app. cbn [fold_left step]. rewrite <- L. clear L C0 s0.
  assert (forall l s, forallb (fun a => negb (is_command_sent a)) l = true -> marker s = false -> (c s = CWait \/ c s = CNone /\ w s = WIdle) ->
    (c (fold_left step l s) = CWait \/ c (fold_left step l s) = CNone /\ w (fold_left step l s) = WIdle) /\
    exists new, log (fold_left step l s) = log s ++ new /\ (length (@called T new) + left_calls (fold_left step l s) <= left_calls s)%nat /\
    (length (filter is_worker l) + left_steps (fold_left step l s) <= left_steps s \/ left_steps (fold_left step l s) = 0)%nat) as A.
  { clear. induction l as [|a l IH]; intros s N M C; cbn [fold_left filter].
    - split; [exact C|]. exists []. rewrite app_nil_r. cbn. split; [reflexivity|]. split; lia.
    - cbn in N. apply andb_prop in N as [N1 N2]. apply negb_true_iff in N1.
      destruct (stopping_step T a s N1 M C) as (M1 & C1 & n1 & L1 & K1 & S1).
      destruct (IH (step s a) N2 M1 C1) as (C2 & n2 & L2 & K2 & S2). split; [exact C2|]. exists (n1 ++ n2).
      split; [rewrite L2, L1, app_assoc; reflexivity|]. rewrite called_app, app_length. split; [lia|].
      destruct (is_worker a); cbn [length]; lia. }
  destruct (A l s NL M (or_introl C)) as (C2 & new & L2 & K & S). split.
  - exists new. split; [exact L2|]. unfold left_calls in K. destruct (w s), (w (fold_left step l s)); lia.
  - intros W. assert (w (fold_left step l s) = WIdle) as I.
    { unfold left_steps in S. destruct (w s), (w (fold_left step l s)); try reflexivity; lia. }
    split; [exact I|]. unfold command. destruct C2 as [E|[E _]]; rewrite E; [|exact E]. unfold idle. rewrite I. reflexivity.
Qed.
Print Assumptions C64_stop.
Example C64_stop_ex : let s := run (firstn 14 history) (init true) in c s = CClear /\
  log (run (Command :: [Worker; Push 9; Worker; Worker; Worker; Command])%nat s) = [Started; Called 1; Called 2; Stopped]%nat.
Proof. split; reflexivity. Qed.

Lemma log_grows : forall (T : Type) (l : list (act T)) s, exists new, log (run l s) = log s ++ new.
Proof.
  induction l as [|a l IH]; intros s; [exists []; symmetry; apply app_nil_r|]. cbn. destruct (IH (step s a)) as (n & E). fold (run l (step s a)). rewrite E.
  assert (exists n1, log (step s a) = log s ++ n1) as (n1 & E1).
  { destruct s as [q m wk cm k lg]. destruct a; cbn; try (exists []; rewrite app_nil_r; reflexivity).
    - destruct cm; exists []; rewrite app_nil_r; reflexivity.
    - destruct cm; exists []; rewrite app_nil_r; reflexivity.
    - unfold command. cbn. destruct cm; cbn; try (exists []; rewrite app_nil_r; reflexivity); [eexists; reflexivity|].
      unfold idle. cbn. destruct wk; cbn; [eexists; reflexivity|..]; exists []; rewrite app_nil_r; reflexivity.
    - unfold worker. cbn. destruct wk; cbn; try (exists []; rewrite app_nil_r; reflexivity); [destruct q; cbn; exists []; rewrite app_nil_r; reflexivity|eexists; reflexivity]. }
  exists (n1 ++ n). rewrite E1, app_assoc. reflexivity.
Qed.
Definition spent {T} (s : st T) : nat := match w s with WIdle => 0 | WTest => 1 | WPop => 2 | WCall _ => 3 | WCount => 0 end.

(** During a run whatever waits in the queue is delivered within four steps of the worker per element, whatever is pushed meanwhile. *)
Theorem C64_delivered : forall (T : Type) (l : list (act T)) s, marker s = true -> w s <> WIdle ->
  forallb (fun a => match a with Push _ | Worker => true | _ => false end) l = true ->
  (4 * (length (queue s) + 1) <= length (filter is_worker l))%nat ->
  exists new rest, log (run l s) = log s ++ new /\ called new = taken s ++ queue s ++ rest.
Proof.
  intros T. assert (forall (l : list (act T)) s R rest, marker s = true -> w s <> WIdle ->
    forallb (fun a => match a with Push _ | Worker => true | _ => false end) l = true -> taken s ++ queue s = R ++ rest ->
    (4 * length R - spent s <= length (filter is_worker l))%nat ->
    exists new r, log (run l s) = log s ++ new /\ called new = R ++ r) as A.
  { induction l as [|a l IH]; intros s R rest M W F E N.
    - destruct R as [|x R]; [exists [], []; cbn; rewrite app_nil_r; split; reflexivity|]. exfalso. cbn [filter length] in N. unfold spent in N.
      destruct (w s); lia.
    - destruct R as [|x R].
      { destruct (log_grows T (a :: l) s) as (n & L). exists n, (called n). split; [exact L|reflexivity]. }
      cbn [forallb] in F. apply andb_prop in F as [Fa F]. destruct s as [q m wk cm k lg]. cbn [marker w] in M, W. subst m.
      unfold taken, spent in *. cbn [w queue] in E, N. cbn [run fold_left]. fold (run l (step (mk q true wk cm k lg) a)).
      destruct a as [y| | | |]; try discriminate; cbn [step queue marker w c count log filter is_worker] in *.
      + apply (IH (mk (q ++ [y]) true wk cm k lg) (x :: R) (rest ++ [y])); cbn [marker w queue]; [reflexivity|exact W|exact F| |exact N]. rewrite app_assoc, E, <- app_assoc. reflexivity.
      + unfold worker. cbn [queue marker w c count log]. destruct wk as [| | |z|]; [congruence|..]; cbn [length] in N.
        * apply (IH (mk q true WPop cm k lg) (x :: R) rest); cbn [marker w queue]; [reflexivity|discriminate|exact F|exact E|cbn [length]; lia].
        * cbn [app] in E. destruct q as [|z q]; [discriminate|]. apply (IH (mk q true (WCall z) cm k lg) (x :: R) rest); cbn [marker w queue]; [reflexivity|discriminate|exact F|exact E|cbn [length]; lia].
        * cbn [app] in E. injection E as -> E. destruct (IH (mk q true WCount cm k (lg ++ [Called x])) R rest) as (n & r & L & C);
            cbn [marker w queue]; [reflexivity|discriminate|exact F|exact E|lia|]. cbn [log] in L |- *. exists (Called x :: n), r. split.
          -- rewrite L, <- app_assoc. reflexivity.
          -- cbn. rewrite C. reflexivity.
        * apply (IH (mk q true WTest cm (i32 (k + 1)) lg) (x :: R) rest); cbn [marker w queue]; [reflexivity|discriminate|exact F|exact E|cbn [length]; lia]. }
  intros l s M W F N. destruct (A l s (taken s ++ queue s) [] M W F) as (n & r & L & C).
  - symmetry. apply app_nil_r.
  - rewrite app_length. unfold taken, spent. destruct (w s); cbn [length]; lia.
  - exists n, r. split; [exact L|]. rewrite C, app_assoc. reflexivity.
Qed.
Print Assumptions C64_delivered.
Example C64_delivered_ex : let s := run [Push 1; Push 2; Start; Command; Command; Command]%nat (init false) in
  marker s = true /\ w s = WTest /\ called (log (run (repeat Worker 12) s)) = [1; 2]%nat.
Proof. repeat split. Qed.

(** During a run the worker does not give up: whatever is pushed at any moment of it, however long the queue was empty, is delivered, in order,
    once the worker has made four steps per element. *)
Theorem C64_every_push_delivered : forall (T : Type) (l1 l2 : list (act T)) s, marker s = true -> w s <> WIdle ->
  forallb (fun a => match a with Push _ | Worker => true | _ => false end) (l1 ++ l2) = true ->
  (4 * (length (queue s) + length (pushed l1) + 1) <= length (filter is_worker l2))%nat ->
  exists new rest, log (run (l1 ++ l2) s) = log s ++ new /\ called new = taken s ++ queue s ++ pushed l1 ++ rest.
Proof.
  intros T l1 l2 s M W F N. rewrite forallb_app in F. apply andb_prop in F as [F1 F2].
  assert (forall (l : list (act T)) s, marker s = true -> w s <> WIdle ->
    forallb (fun a => match a with Push _ | Worker => true | _ => false end) l = true ->
    marker (run l s) = true /\ w (run l s) <> WIdle /\ (length (queue (run l s)) <= length (queue s) + length (pushed l))%nat /\
    exists new, log (run l s) = log s ++ new /\ called new ++ taken (run l s) ++ queue (run l s) = taken s ++ queue s ++ pushed l) as A.
  { clear. induction l as [|a l IH]; intros s M W F.
    - cbn. repeat split; [exact M|exact W|lia|]. exists []. rewrite !app_nil_r. split; reflexivity.
    - cbn [forallb] in F. apply andb_prop in F as [Fa F]. cbn [run fold_left]. fold (run l (step s a)).
      assert (marker (step s a) = true /\ w (step s a) <> WIdle /\
        (length (queue (step s a)) <= length (queue s) + (match a with Push _ => 1 | _ => 0 end))%nat /\
        exists n1, log (step s a) = log s ++ n1 /\ called n1 ++ taken (step s a) ++ queue (step s a)
          = taken s ++ queue s ++ match a with Push x => [x] | _ => [] end) as (M1 & W1 & Q1 & n1 & L1 & C1).
      { destruct s as [q m wk cm k lg]. cbn [marker w] in M, W. subst m. destruct a as [y| | | |]; try discriminate; cbn [step queue marker w c count log].
        - repeat split; [exact W|rewrite app_length; cbn; lia|]. exists []. rewrite app_nil_r. split; reflexivity.
        - unfold worker, taken. cbn [queue marker w c count log]. destruct wk as [| | |z|]; [congruence|..]; cbn [marker w queue log].
          + repeat split; [discriminate|lia|]. exists []. rewrite !app_nil_r. split; reflexivity.
          + destruct q as [|z q]; cbn [marker w queue log]; (repeat split; [discriminate|cbn; lia|]); exists []; rewrite !app_nil_r; split; reflexivity.
          + repeat split; [discriminate|lia|]. exists [Called z]. split; [reflexivity|]. cbn. rewrite !app_nil_r. reflexivity.
          + repeat split; [discriminate|lia|]. exists []. rewrite !app_nil_r. split; reflexivity. }
      destruct (IH (step s a) M1 W1 F) as (M2 & W2 & Q2 & n2 & L2 & C2). split; [exact M2|]. split; [exact W2|]. split.
      { destruct a; cbn [pushed length] in *; lia. }
      exists (n1 ++ n2). rewrite L2, L1, app_assoc. split; [reflexivity|].
      assert (forall a b : list (event T), called (a ++ b) = called a ++ called b) as CA.
      { induction a0 as [|e a0 IHa]; intros b; [reflexivity|]. destruct e; cbn; rewrite IHa; reflexivity. }
      rewrite CA, <- app_assoc, C2, (app_assoc (taken (step s a))), app_assoc, C1, <- !app_assoc. destruct a; reflexivity. }
  destruct (A l1 s M W F1) as (M1 & W1 & Q1 & n1 & L1 & C1).
  destruct (C64_delivered T l2 (run l1 s) M1 W1 F2 ltac:(lia)) as (n2 & rest & L2 & C2).
  exists (n1 ++ n2), rest. unfold run in *. rewrite fold_left_app, L2, L1, app_assoc. split; [reflexivity|].
  assert (forall a b : list (event T), called (a ++ b) = called a ++ called b) as CA.
  { induction a as [|e a IHa]; intros b; [reflexivity|]. destruct e; cbn; rewrite IHa; reflexivity. }
  rewrite CA, C2, (app_assoc (taken _)), app_assoc, C1, <- !app_assoc. reflexivity.
Qed.
Print Assumptions C64_every_push_delivered.
Example C64_every_push_delivered_ex : let s := run [Start; Command; Command; Command]%nat (init false) in
  marker s = true /\ w s = WTest /\ called (log (run ([Worker; Worker; Worker; Push 5; Worker; Push 6] ++ repeat Worker 12) s)) = [5; 6].
Proof. repeat split. Qed.
