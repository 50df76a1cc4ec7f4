(** Proofs about post-processing. *)
From Coq Require Import ZArith List Bool Lia.
From Verif Require Import Base_model Loops_model Loops_proofs Post_model Post_spec.
Import ListNotations.
Open Scope nat_scope.

Section Proofs.
Context {X : Type}.
Implicit Types (s : @post X) (a : @paction X) (l : @lane X).

Lemma nth_error_set_nth {Y} (v : Y) : forall i k j, nth_error (set_nth i v k) j = if (j =? i)%nat then match nth_error k i with Some _ => Some v | None => None end else nth_error k j.
Proof.
  unfold set_nth. induction i as [|i IH]; intros [|y k] [|j]; cbn; auto. 
  - destruct (j =? i)%nat; reflexivity.
Qed.

(** What a run action does to lane i. *)
Definition lane_act (i : nat) (marker task : bool) a l : lane :=
  match a with
  | POffer x => offer_lane x l
  | PStart => if task then start_lane l else l
  | PThread j => if (i =? j)%nat then thread_lane marker l else l
  | _ => l
  end.

Lemma nth_error_start (t : nat) : forall (k : list (@lane X)) i, nth_error (map start_lane (firstn t k) ++ skipn t k) i =
  match nth_error k i with Some l => Some (if (i <? t)%nat then start_lane l else l) | None => None end.
Proof.
  induction t as [|t IH]; intros k i; cbn [firstn skipn map app].
  - destruct (nth_error k i); reflexivity.
  - destruct k as [|l k]; cbn [map app]; [destruct i; reflexivity|]. destruct i as [|i]; [reflexivity|]. cbn [nth_error]. rewrite IH. 
    change (S i <? S t)%nat with (i <? t)%nat. reflexivity.
Qed.

Lemma lane_step s a s1 i l : paction_step s a = Ok s1 -> nth_error (p_lanes s) i = Some l ->
  nth_error (p_lanes s1) i = Some (lane_act i (p_marker s) (i <? p_tasks s)%nat a l).
Proof.
  intros E N. destruct a as [|size| | |x|j]; cbn [paction_step lane_act] in *.
  - injection E as <-. exact N.
  - destruct (_ || _); [|discriminate]. injection E as <-. cbn [p_lanes]. rewrite nth_error_app1; [exact N|]. apply nth_error_Some. congruence.
  - unfold start in E. destruct (_ <=? _)%nat; [|discriminate]. injection E as <-. cbn [p_lanes]. rewrite nth_error_start, N. destruct (i <? p_tasks s)%nat; reflexivity.
  - injection E as <-. exact N.
  - injection E as <-. cbn [p_lanes]. now rewrite nth_error_map, N.
  - injection E as <-. cbn [p_lanes]. destruct (nth_error (p_lanes s) j) as [lj|] eqn:NJ; [|destruct (Nat.eqb_spec i j); [congruence|exact N]].
    rewrite nth_error_set_nth. destruct (Nat.eqb_spec i j) as [->|]; [|exact N]. rewrite NJ. congruence.
Qed.

Lemma run_step s a : is_run a = true -> p_tasks s <= length (p_lanes s) ->
  exists s1, paction_step s a = Ok s1 /\ p_tasks s1 = p_tasks s /\ length (p_lanes s1) = length (p_lanes s) /\
    p_marker s1 = match a with PStart => true | PStop => false | _ => p_marker s end.
Proof.
  intros R L. destruct a as [|size| | |x|j]; try discriminate; cbn [paction_step]; eauto 6.
  - unfold start. destruct (Nat.leb_spec (p_tasks s) (length (p_lanes s))); [|lia]. eexists. split; [reflexivity|]. cbn. repeat split.
    rewrite app_length, map_length, <- app_length, firstn_skipn. reflexivity.
  - eexists. split; [reflexivity|]. cbn. repeat split. apply map_length.
  - eexists. split; [reflexivity|]. cbn. repeat split. destruct (nth_error _ _); [|reflexivity]. apply set_nth_length.
Qed.

(** Conservation. *)
Lemma lane_conserve i m t a l : l_seen (lane_act i m t a l) ++ l_queue (lane_act i m t a l) =
  (l_seen l ++ l_queue l) ++ match a with POffer x => if (length (l_queue l) <? l_cap l)%nat then [x] else [] | _ => [] end.
Proof.
  destruct a as [|size| | |x|j]; cbn [lane_act]; rewrite ?app_nil_r; auto.
  - destruct t; reflexivity.
  - unfold offer_lane. destruct (_ <? _)%nat; cbn [l_seen l_queue]; rewrite ?app_nil_r, ?app_assoc; reflexivity.
  - destruct (i =? j)%nat; [|reflexivity]. unfold thread_lane. destruct (l_phase l); cbn [l_seen l_queue]; auto.
    destruct (l_queue l); cbn [l_seen l_queue]; rewrite <- ?app_assoc; reflexivity.
Qed.
Lemma lane_cap i m t a l : l_cap (lane_act i m t a l) = l_cap l /\ ((length (l_queue l) <= l_cap l)%nat -> (length (l_queue (lane_act i m t a l)) <= l_cap l)%nat).
Proof.
  destruct a as [|size| | |x|j]; cbn [lane_act]; auto.
  - destruct t; auto.
  - unfold offer_lane. destruct (Nat.ltb_spec (length (l_queue l)) (l_cap l)); cbn; auto. rewrite app_length. cbn. split; [reflexivity|lia].
  - destruct (i =? j)%nat; auto. unfold thread_lane. destruct (l_phase l); auto. destruct (l_queue l); cbn; split; auto; lia.
Qed.

Lemma post_conserve i acts : forall s s' l, post_run s acts = Ok s' -> nth_error (p_lanes s) i = Some l ->
  exists l', nth_error (p_lanes s') i = Some l' /\ l_seen l' ++ l_queue l' = (l_seen l ++ l_queue l) ++ accepted i s acts /\
    l_cap l' = l_cap l /\ ((length (l_queue l) <= l_cap l)%nat -> (length (l_queue l') <= l_cap l)%nat).
Proof.
  induction acts as [|a acts IH]; intros s s' l E N; cbn [post_run] in E.
  - injection E as <-. exists l. cbn. rewrite app_nil_r. auto.
  - destruct (paction_step s a) as [s1|] eqn:E1; [|discriminate]. cbn [bind] in E.
    pose proof (lane_step s a s1 i l E1 N) as N1. destruct (IH s1 s' _ E N1) as (l' & N2 & C & K1 & K2). exists l'. split; [exact N2|].
    destruct (lane_cap i (p_marker s) (i <? p_tasks s)%nat a l) as [Q1 Q2]. rewrite K1, Q1 in *.
    split; [|split; auto]. rewrite C, lane_conserve. cbn [accepted]. rewrite N, E1, <- app_assoc. destruct a; reflexivity.
Qed.

Lemma accepted_subseq i acts : forall s, subseq (accepted i s acts) (offers acts).
Proof.
  assert (NIL : forall b : list X, subseq [] b) by (induction b; constructor; auto).
  induction acts as [|a acts IH]; intros s; cbn [accepted offers]; [constructor|].
  destruct a as [|size| | |x|j]; try (cbn [app]; destruct (paction_step s _); auto; fail).
  cbn [paction_step]. destruct (nth_error (p_lanes s) i) as [l|]; [|cbn; constructor; apply IH].
  destruct (_ <? _)%nat; cbn [app]; constructor; apply IH.
Qed.

(** Independence. *)
Lemma post_project i acts : forall s l, p_tasks s <= length (p_lanes s) -> forallb is_run acts = true -> nth_error (p_lanes s) i = Some l ->
  exists s', post_run s acts = Ok s' /\
    (forall s2, p_tasks s2 <= length (p_lanes s2) -> p_tasks s2 = p_tasks s -> p_marker s2 = p_marker s -> nth_error (p_lanes s2) i = Some l ->
       exists s2', post_run s2 (filter (concerns i) acts) = Ok s2' /\ nth_error (p_lanes s2') i = nth_error (p_lanes s') i).
Proof.
  induction acts as [|a acts IH]; intros s l L R N.
  - exists s. split; [reflexivity|]. intros s2 L2 T2 M2 N2. exists s2. split; [reflexivity|congruence].
  - cbn in R. apply andb_true_iff in R as [R1 R2]. destruct (run_step s a R1 L) as (s1 & E1 & T1 & L1 & M1).
    pose proof (lane_step s a s1 i l E1 N) as N1. destruct (IH s1 _ ltac:(lia) R2 N1) as (s' & E' & K). exists s'. cbn [post_run]. rewrite E1. split; [exact E'|].
    intros s2 L2 T2 M2 N2. cbn [filter]. destruct (concerns i a) eqn:C.
    + destruct (run_step s2 a R1 L2) as (s3 & E3 & T3 & L3 & M3). cbn [post_run]. rewrite E3. cbn [bind].
      pose proof (lane_step s2 a s3 i l E3 N2) as N3. rewrite T2, M2 in N3. apply K; try lia; [|exact N3]. rewrite M1, M3, M2. reflexivity.
    + destruct a; try discriminate. cbn in C. cbn [lane_act] in *. rewrite C in *. apply K; auto; congruence.
Qed.

(** Draining. *)
Definition left l : nat := (2 * length (l_queue l) + match l_phase l with PIdle => 0 | PTest => 1 | PRead => if (length (l_queue l) =? 0)%nat then 2 else 0 end)%nat.
Lemma drain_lane l : l_phase l <> PIdle \/ l_queue l = [] ->
  (l_phase (thread_lane false l) <> PIdle \/ l_queue (thread_lane false l) = []) /\ left (thread_lane false l) <= left l - 1.
Proof.
  intros P. unfold thread_lane, left. destruct (l_phase l) eqn:E.
  - destruct P as [P|P]; [congruence|]. rewrite E, P. cbn. auto.
  - cbn [orb]. destruct (l_queue l) as [|x q]; cbn [length Nat.ltb Nat.leb l_phase l_queue Nat.eqb]; [split; [now right|lia]|]. split; [left; discriminate|lia].
  - destruct (l_queue l) as [|x q]; cbn [length l_phase l_queue Nat.eqb]; split; try (left; discriminate); lia.
Qed.
Lemma post_drain i acts : forall s l, p_marker s = false -> forallb is_drain acts = true -> nth_error (p_lanes s) i = Some l ->
  l_phase l <> PIdle \/ l_queue l = [] ->
  exists s' l', post_run s acts = Ok s' /\ nth_error (p_lanes s') i = Some l' /\ (l_phase l' <> PIdle \/ l_queue l' = []) /\
    left l' <= left l - steps_of i acts.
Proof.
  induction acts as [|a acts IH]; intros s l M R N P.
  - exists s, l. cbn. repeat split; auto. lia.
  - cbn in R. apply andb_true_iff in R as [R1 R2]. assert (E1 : exists s1, paction_step s a = Ok s1 /\ p_marker s1 = false).
    { destruct a; try discriminate; cbn [paction_step]; eauto. }
    destruct E1 as (s1 & E1 & M1). pose proof (lane_step s a s1 i l E1 N) as N1. cbn [post_run]. rewrite E1. cbn [bind].
    unfold steps_of. cbn [filter]. destruct a as [|size| | |x|j]; try discriminate; cbn [lane_act] in N1.
    + apply (IH s1 l); auto.
    + rewrite M in N1. destruct (i =? j)%nat.
      * destruct (drain_lane l P) as [P2 L2]. destruct (IH s1 _ M1 R2 N1 P2) as (s' & l' & F1 & F2 & F3 & F4). exists s', l'. repeat split; auto.
        cbn [length]. unfold steps_of in F4. lia.
      * apply (IH s1 l); auto.
Qed.
End Proofs.
