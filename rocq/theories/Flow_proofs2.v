From Coq Require Import ZArith List Bool Lia Permutation.
From Verif Require Import Base_model Elem_model Lb_model Request_model Request_spec Request_proofs Flow_model Flow_spec Flow_proofs.
Import ListNotations.
Open Scope Z_scope.

Lemma task_eq : forall a b : task, {a = b} + {a <> b}.
Proof. repeat decide equality. Defined.

Definition cnt (t : task) (l : list task) : nat := count_occ task_eq l t.

Lemma cnt_perm : forall l l', Permutation l l' -> forall t, cnt t l = cnt t l'.
Proof. intros l l' H t. unfold cnt. revert t. apply (Permutation_count_occ task_eq). exact H. Qed.
Lemma cnt_app : forall l l' t, cnt t (l ++ l') = (cnt t l + cnt t l')%nat.
Proof. intros. apply count_occ_app. Qed.
Lemma cnt_cons : forall x l t, cnt t (x :: l) = (cnt t [x] + cnt t l)%nat.
Proof. intros. change (x :: l) with ([x] ++ l). apply cnt_app. Qed.

Section Inv.
Variable dnf : Z.
Variable lk : link.
Variable tick : Z.
Context {B : Type}.
Variable L : lb elem B.
Variable R : nat.
Notation step := (fstep dnf lk tick L R).
Notation run := (frun dnf lk tick L R).
Notation st := (@fstate B).

Lemma run_app : forall a b s, run s (a ++ b) = match run s a with Some s' => run s' b | None => None end.
Proof. induction a as [|x a IH]; intros b s; cbn; [reflexivity|]. destruct (step s x); auto. Qed.

Lemma run_inv : forall (P : st -> Prop), (forall s a s', P s -> step s a = Some s' -> P s') ->
  forall acts s s', P s -> run s acts = Some s' -> P s'.
Proof.
  intros P H acts. induction acts as [|a acts IH]; intros s s' Hs E; cbn in E; [congruence|].
  destruct (step s a) as [s1|] eqn:E1; [|discriminate]. eapply IH; [|exact E]. eapply H; eauto.
Qed.

Ltac hd H := match type of H with
  | (match ?x with _ => _ end) = Some _ => let E := fresh "E" in destruct x eqn:E in H; try discriminate H
  end.
Ltac step_cases H :=
  unfold fstep, fwork, floop, fstop, fstart in H; hd H;
  match type of H with match ?a with _ => _ end = _ => destruct a as [r|mis b|i|i full|full| | |c] end;
  repeat hd H; try injection H as H; subst; try match goal with c : counter |- _ => destruct c end.

(** ** Every request is in exactly one place *)
Definition located (s : st) : Prop :=
  Permutation (f_issued s) (inside s ++ answered s ++ f_lost s) /\ map t_id (f_issued s) = seq 0 (length (f_issued s)).

Lemma located_init : forall m b, located (finit m b).
Proof. intros. split; [constructor|reflexivity]. Qed.

Lemma located_step : forall s a s', located s -> step s a = Some s' -> located s'.
Proof.
  intros s a s' [P I] H. unfold located in *.
  assert (Q : (forall t, cnt t (f_issued s) = cnt t (inside s ++ answered s ++ f_lost s))) by (intro; apply cnt_perm; exact P).
  unfold inside, answered in *.
  step_cases H; unfold crash_now, upd_work, upd_loop, upd_out, upd_read, upd_stop, finfo in *;
    cbn [f_marker f_pool f_work f_waiting f_loop f_stop f_buf f_stats f_timed f_crashed f_out f_issued f_lost f_sum f_sum_timed f_reads f_start_out] in *.
  all: split; [|first [exact I | rewrite map_app, app_length; cbn [map length]; rewrite seq_app, I; reflexivity]].
  all: apply (Permutation_count_occ task_eq); intro t0; specialize (Q t0); fold (cnt t0 (f_issued s)) in *;
    rewrite ?map_app in *; cbn [map a_task fst w_task] in *;
    repeat match goal with |- context [count_occ task_eq ?l ?t] => change (count_occ task_eq l t) with (cnt t l) end;
    rewrite ?cnt_app in *.
  all: idtac.
  all: try (erewrite (map_replace fst) by (eassumption || reflexivity)).
  all: try (rewrite bump_at_map by reflexivity).
  all: try match goal with H : nth_error ?l ?i = Some ?x |- context [map ?f (swap_remove ?l ?i)] =>
     assert (PP := cnt_perm _ _ (Permutation_map f (swap_remove_perm _ _ _ H)) t0); cbn [map] in PP; rewrite cnt_cons in PP end.
  all: try match goal with H : nth_error ?l ?i = Some ?x |- context [map ?f (remove_at ?l ?i)] =>
     assert (PP := cnt_perm _ _ (Permutation_map f (remove_at_perm _ _ _ H)) t0); cbn [map fst] in PP; rewrite cnt_cons in PP end.
  all: try match goal with H : nth_error ?l ?i = Some ?x |- context [cnt _ (remove_at ?l ?i)] =>
     assert (PP := cnt_perm _ _ (remove_at_perm _ _ _ H) t0); rewrite cnt_cons in PP end.
  all: cbn [map cnt count_occ] in *; unfold cnt in *; cbn [count_occ] in *; try lia.

Qed.

Lemma located_run : forall acts m b s, run (finit m b) acts = Some s -> located s.
Proof. intros acts m b s. apply (run_inv located); [exact located_step|apply located_init]. Qed.

Lemma one_place_lemma : forall acts m b s, run (finit m b) acts = Some s ->
  Permutation (f_issued s) (inside s ++ answered s ++ f_lost s) /\ NoDup (map t_id (inside s ++ answered s ++ f_lost s)).
Proof.
  intros acts m b s H. destruct (located_run _ _ _ _ H) as [P I]. split; [exact P|].
  eapply Permutation_NoDup; [apply Permutation_map; exact P|]. rewrite I. apply seq_NoDup.
Qed.

(** ** Answers are about their request *)
Definition good_answers (s : st) : Prop :=
  (forall a, In a (f_out s) -> mirrors lk (t_req (a_task a)) (fg_header (a_frag a))) /\
  (forall t fr, In (t, KPush fr) (f_work s) -> mirrors lk (t_req t) (fg_header fr)).

Lemma in_replace : forall {A} (l : list A) i (x y : A), In x (replace l i y) -> x = y \/ In x l.
Proof.
  intros A l i x y H. unfold replace in H. apply in_app_or in H. destruct H as [H|[H|H]]; auto.
  - right. rewrite <- (firstn_skipn i l). apply in_or_app. auto.
  - right. rewrite <- (firstn_skipn (S i) l). apply in_or_app. auto.
Qed.
Lemma in_remove_at : forall {A} (l : list A) i x, In x (remove_at l i) -> In x l.
Proof.
  intros A l i x H. unfold remove_at in H. apply in_app_or in H. destruct H as [H|H].
  - rewrite <- (firstn_skipn i l). apply in_or_app. auto.
  - rewrite <- (firstn_skipn (S i) l). apply in_or_app. auto.
Qed.

Lemma good_answers_step : forall s a s', good_answers s -> step s a = Some s' -> good_answers s'.
Proof.
  intros s a s' [G1 G2] H. unfold good_answers in *.
  step_cases H; unfold crash_now, upd_work, upd_loop, upd_out, upd_read, upd_stop, finfo in *;
    cbn [f_marker f_pool f_work f_waiting f_loop f_stop f_buf f_stats f_timed f_crashed f_out f_issued f_lost f_sum f_sum_timed f_reads f_start_out] in *.
  all: split; intros; try (apply G1; assumption); try (apply G2; assumption).
  all: try (match goal with H : In _ (replace _ _ _) |- _ => apply in_replace in H; destruct H as [H|H]; [try discriminate H|apply G2; assumption] end).
  all: try (match goal with H : In _ (remove_at _ _) |- _ => apply in_remove_at in H; apply G2; assumption end).
  all: try (match goal with H : In _ (_ ++ [_]) |- _ => apply in_app_or in H; destruct H as [H|[H|[]]]; [(apply G1 + apply G2); assumption|try discriminate H] end).
  all: try (injection H as <- <-; eapply header_mirrors; eassumption).
  all: subst; cbn [a_task a_frag].
  all: try (match goal with H : nth_error _ _ = Some (_, KPush _) |- _ => apply nth_error_In in H; apply G2; exact H end).
  all: try apply empty_headers.
Qed.

Lemma good_answers_run : forall acts m b s, run (finit m b) acts = Some s ->
  forall a, In a (f_out s) -> mirrors lk (t_req (a_task a)) (fg_header (a_frag a)).
Proof.
  intros acts m b s H. apply (run_inv good_answers) in H; [exact (proj1 H)|exact good_answers_step|].
  split; cbn; contradiction.
Qed.

Lemma lost_only_at_restart : forall s a s', step s a = Some s' -> not_restart a -> f_lost s' = f_lost s.
Proof.
  intros s a s' H N. step_cases H; try contradiction; reflexivity.
Qed.

(** ** Thread phases *)
Definition phases (s : st) : Prop :=
  (f_stop s = SRun <-> f_marker s = true) /\
  (f_loop s = LDone -> f_marker s = false) /\
  (f_loop s = LSize -> f_marker s = false) /\
  (f_stop s = SJoined \/ f_stop s = SDone -> f_loop s = LDone) /\
  (f_stop s = SDone -> f_work s = []).

Lemma phases_init : forall m b, phases (finit m b).
Proof. intros. unfold phases; cbn. repeat split; intros; try discriminate; auto. destruct H; discriminate. Qed.

Lemma nth_nil : forall {A} i, @nth_error A [] i = None. Proof. destruct i; reflexivity. Qed.

Lemma phases_step : forall s a s', phases s -> step s a = Some s' -> phases s'.
Proof.
  intros s a s' (A1 & A2 & A3 & A4 & A5) H. unfold phases.
  step_cases H; unfold crash_now, upd_work, upd_loop, upd_out, upd_read, upd_stop, finfo in *;
    cbn [f_marker f_pool f_work f_waiting f_loop f_stop f_buf f_stats f_timed f_crashed f_out f_issued f_lost f_sum f_sum_timed f_reads f_start_out] in *.
  all: repeat split; intros; auto.
  all: try (solve [intuition (try congruence)]).
  1-6: exfalso; rewrite A5 in E0 by assumption; rewrite nth_nil in E0; discriminate.
  - destruct (f_marker s); [discriminate|reflexivity].
  - destruct (f_marker s); [discriminate|reflexivity].
Qed.

Lemma phases_run : forall acts m b s, run (finit m b) acts = Some s -> phases s.
Proof. intros acts m b s. apply (run_inv phases); [exact phases_step|apply phases_init]. Qed.

(** ** Nothing is left behind unless it came too late *)
Definition clean_end (s : st) : Prop :=
  (f_loop s = LDone -> f_waiting s = []) /\ (f_stop s = SDone -> f_pool s = []) /\ f_lost s = [].

Lemma clean_end_step : forall s a s', phases s -> clean_end s -> ~ too_late s a -> step s a = Some s' -> clean_end s'.
Proof.
  intros s a s' (A1 & A2 & A3 & A4 & A5) (C1 & C2 & C3) N H. unfold clean_end.
  step_cases H; unfold crash_now, upd_work, upd_loop, upd_out, upd_read, upd_stop, finfo, too_late in *;
    cbn [f_marker f_pool f_work f_waiting f_loop f_stop f_buf f_stats f_timed f_crashed f_out f_issued f_lost f_sum f_sum_timed f_reads f_start_out] in *.
  all: repeat split; intros; auto; try congruence.
  all: try (exfalso; apply N; eauto; fail).
  all: try (destruct (f_marker s); discriminate).
  all: try (destruct (f_waiting s); [reflexivity|discriminate]).
  all: try (rewrite A4 in *; [congruence|auto]).
  all: try (rewrite C3, C2; auto).
  rewrite A4 in E0 by auto; discriminate.
Qed.

Lemma stop_answers_all : forall acts m b s, run (finit m b) acts = Some s ->
  (forall pre a post s1, acts = pre ++ a :: post -> run (finit m b) pre = Some s1 -> ~ too_late s1 a) ->
  f_stop s = SDone -> Permutation (f_issued s) (answered s).
Proof.
  intros acts m b s H N D.
  assert (K : clean_end s).
  { clear D. revert s H N. induction acts as [|a acts IH] using rev_ind; intros s H N.
    - injection H as <-. repeat split; intros; discriminate.
    - rewrite run_app in H. destruct (run (finit m b) acts) as [s1|] eqn:E1; [|discriminate].
      cbn in H. destruct (step s1 a) as [s2|] eqn:E2; [|discriminate]. injection H as <-.
      eapply clean_end_step; [eapply phases_run; exact E1| |eapply N; [reflexivity|exact E1]|exact E2].
      apply IH; [reflexivity|]. intros pre x post s3 -> H3. eapply N; [|exact H3]. rewrite <- app_assoc. reflexivity. }
  destruct K as (K1 & K2 & K3). destruct (phases_run _ _ _ _ H) as (_ & _ & _ & P4 & P5).
  destruct (located_run _ _ _ _ H) as [P _]. rewrite P. unfold inside.
  rewrite (K2 D), (P5 D), K1, K3 by auto. cbn. rewrite app_nil_r. reflexivity.
Qed.

Lemma filter_replace : forall {A} (p : A -> bool) l i x y, nth_error l i = Some x -> p y = false ->
  (length (filter p (replace l i y)) <= length (filter p l))%nat.
Proof.
  intros A p l i x y H E. rewrite (nth_split_at l i x H) at 2. unfold replace. rewrite !filter_app, !app_length.
  cbn [filter]. rewrite E. destruct (p x); cbn; lia.
Qed.
Lemma filter_remove_at : forall {A} (p : A -> bool) l i x, nth_error l i = Some x ->
  (length (filter p (remove_at l i)) <= length (filter p l))%nat.
Proof.
  intros A p l i x H. rewrite (nth_split_at l i x H) at 2. unfold remove_at. rewrite !filter_app, !app_length.
  cbn [filter]. destruct (p x); cbn; lia.
Qed.

Lemma data_request_stopped : forall missing buf dr s fo s', data_request dnf lk tick L false missing buf dr s <> Ok (kNotYet, fo, s').
Proof.
  intros missing buf dr s fo s' H. unfold data_request in H. destruct (negb _); [|discriminate].
  destruct (lb_front L buf) as [[f|]|]; try discriminate; destruct (lb_back L buf) as [[k|]|]; try discriminate. cbn in H.
  destruct (availability _ _ _ _ _ _ _ _ _ _) as [[[[c h] by_] sx]|]; cbn in H; [|discriminate].
  destruct c; discriminate.
Qed.

(** Once the marker is cleared no worker decides "retry later" any more. *)
Lemma deciding_falls : forall s a s', f_marker s = false -> not_restart a -> step s a = Some s' -> (deciding s' <= deciding s)%nat.
Proof.
  intros s a s' M N H. unfold deciding.
  step_cases H; unfold crash_now, upd_work, upd_loop, upd_out, upd_read, upd_stop, finfo, not_restart in *;
    cbn [f_marker f_pool f_work f_waiting f_loop f_stop f_buf f_stats f_timed f_crashed f_out f_issued f_lost f_sum f_sum_timed f_reads f_start_out] in *; try lia.
  all: try (rewrite filter_app; cbn; rewrite app_nil_r; lia).
  all: try (eapply filter_replace; [eassumption|reflexivity]).
  all: try (eapply filter_remove_at; eassumption).
  all: try (rewrite M in *; exfalso; eapply data_request_stopped; eassumption).
Qed.

(** ** stop() completes *)
Definition w_weight (x : task * @wstep B) : nat :=
  match snd x with KBegin => 3 | KRead _ _ => 2 | KPush _ => 1 | KWait => 11 end.
Fixpoint sumw (l : list (task * @wstep B)) : nat := match l with [] => 0 | x :: l' => w_weight x + sumw l' end.
Definition l_phase (s : st) : nat :=
  match f_loop s with
  | LDone => 0 | LTop => 4 | LSize => 3
  | LLock => match f_waiting s with [] => 6 | _ => 2 end
  | LPass i _ => if (i <? length (f_waiting s))%nat then 1 else 5
  end.
Definition s_phase (s : st) : nat := match f_stop s with SRun => 3 | SAsked => 2 | SJoined => 1 | SDone => 0 end.
Definition measure (s : st) : nat :=
  (4 * length (f_pool s) + sumw (f_work s) + 10 * length (f_waiting s) + l_phase s + s_phase s + if f_crashed s then 0 else 1)%nat.

Lemma sumw_app : forall a b, sumw (a ++ b) = (sumw a + sumw b)%nat.
Proof. induction a; intros; cbn; [reflexivity|]. rewrite IHa. lia. Qed.
Lemma sumw_split : forall l i x, nth_error l i = Some x -> sumw l = (w_weight x + sumw (remove_at l i))%nat.
Proof. intros l i x H. rewrite (nth_split_at l i x H) at 1. unfold remove_at. rewrite !sumw_app. cbn. lia. Qed.
Lemma sumw_replace : forall l i x, sumw (replace l i x) = (w_weight x + sumw (remove_at l i))%nat.
Proof. intros l i x. unfold replace, remove_at. rewrite !sumw_app. cbn. lia. Qed.

Lemma measure_step : forall s a s', phases s -> f_marker s = false -> own_step a -> step s a = Some s' -> (measure s' < measure s)%nat.
Proof.
  intros s a s' (A1 & A2 & A3 & A4 & A5) M O H. unfold measure, l_phase, s_phase.
  step_cases H; unfold crash_now, upd_work, upd_loop, upd_out, upd_read, upd_stop, finfo, own_step in *;
    cbn [f_marker f_pool f_work f_waiting f_loop f_stop f_buf f_stats f_timed f_crashed f_out f_issued f_lost f_sum f_sum_timed f_reads f_start_out] in *;
    try contradiction.
  all: try match goal with E : f_stop ?s0 = _ |- _ => rewrite E end.
  all: try match goal with E : f_loop ?s0 = _ |- _ => rewrite E end.
  all: try match goal with E : f_crashed ?s0 = _ |- _ => rewrite E end.
  all: try match goal with H : nth_error (f_work _) ?i = Some ?x |- _ => assert (W := sumw_split _ _ _ H); cbn in W end.
  all: rewrite ?sumw_replace, ?sumw_app, ?app_length, ?bump_at_length; cbn [w_weight snd sumw length] in *.
  all: try match goal with H : nth_error (f_pool _) ?i = Some ?x |- _ => assert (W := remove_at_length _ _ _ H) end.
  all: try match goal with H : nth_error (f_waiting ?s0) ?i = Some ?x |- _ =>
      assert (W := swap_remove_length _ _ _ H); assert (W2 : (i < length (f_waiting s0))%nat) by (apply nth_error_Some; congruence) end.
  all: try match goal with H : nth_error (f_waiting ?s0) ?i = None |- _ => apply nth_error_None in H end.
  all: rewrite ?M in *.
  all: try (exfalso; eapply data_request_stopped; eassumption).
  all: try (exfalso; match goal with H : verdict_of R false _ _ = VKeep |- _ => unfold verdict_of in H; destruct (_ <? _); [discriminate|]; destruct (_ <=? _)%nat; discriminate end).
  all: try (match goal with |- context [(?a <? ?b)%nat] => destruct (Nat.ltb_spec a b) end).
  all: try (match goal with |- context [(?a <? ?b)%nat] => destruct (Nat.ltb_spec a b) end).
  all: try (destruct (f_waiting s); cbn [length app] in *).
  all: try lia.
  all: try (destruct (f_loop s) as [| | |j nn|]; [| | | |]; try lia; destruct (j <? length (f_waiting s))%nat; lia).
  all: try (destruct (f_loop s) as [| | |j nn|]; lia).
Qed.

Lemma own_marker : forall s a s', phases s -> f_marker s = false -> own_step a -> step s a = Some s' -> f_marker s' = false.
Proof.
  intros s a s' P M O H. step_cases H; cbn in *; try contradiction; auto.
Qed.

Lemma stop_terminates : forall acts s s', phases s -> f_marker s = false -> Forall own_step acts -> run s acts = Some s' ->
  (length acts <= measure s)%nat.
Proof.
  induction acts as [|a acts IH]; intros s s' P M F H; cbn [length]; [lia|]. cbn [frun] in H.
  destruct (step s a) as [s1|] eqn:E; [|discriminate]. inversion F; subst.
  assert (D := measure_step _ _ _ P M H2 E). specialize (IH s1 s' (phases_step _ _ _ P E) (own_marker _ _ _ P M H2 E) H3 H). lia.
Qed.

Lemma stop_progress : forall s, phases s -> f_marker s = false -> f_crashed s = false -> f_stop s <> SDone ->
  exists a s', own_step a /\ step s a = Some s'.
Proof.
  intros s P M C N. destruct P as (A1 & A2 & A3 & A4 & A5).
  destruct (f_loop s) eqn:El.
  1,2: exists (FLoop false); eexists; split; [exact I|]; unfold fstep, floop; rewrite C, El; reflexivity.
  - exists (FLoop false). unfold fstep, floop. rewrite C, El. destruct (lb_back L (snd (f_buf s))) as [[e|]|]; eexists; split; try exact I; reflexivity.
  - exists (FLoop false). unfold fstep, floop. rewrite C, El. destruct (nth_error (f_waiting s) i) as [w|]; [|eexists; split; [exact I|reflexivity]].
    destruct (verdict_of R (f_marker s) newest w); eexists; split; try exact I; reflexivity.
  - destruct (f_pool s) as [|t pool] eqn:Ep.
    + destruct (f_work s) as [|[t k] work] eqn:Ew.
      * exists FStop. unfold fstep, fstop. rewrite C, El, Ep, Ew. destruct (f_stop s) eqn:Es; try (eexists; split; [exact I|reflexivity]).
        congruence.
      * exists (FWork 0 false). unfold fstep, fwork. rewrite C, Ew. cbn [nth_error]. rewrite El.
        destruct k as [|mis buf|fr|]; try (eexists; split; [exact I|reflexivity]).
        destruct (data_request dnf lk tick L (f_marker s) mis buf (t_req t) (f_stats s)) as [[[c fo] sx]|];
          [destruct c; try destruct fo|]; eexists; split; try exact I; reflexivity.
    + exists (FTake 0). unfold fstep. rewrite C, Ep. cbn [nth_error]. destruct (f_stop s) eqn:Es; try (eexists; split; [exact I|reflexivity]).
      congruence.
Qed.

Lemma stop_completes : forall n s, phases s -> f_marker s = false -> (measure s <= n)%nat ->
  exists acts s', Forall own_step acts /\ run s acts = Some s' /\ (f_crashed s' = true \/ f_stop s' = SDone).
Proof.
  induction n as [|n IH]; intros s P M Hm.
  - exists [], s. split; [constructor|]. split; [reflexivity|]. unfold measure in Hm. destruct (f_crashed s); [auto|lia].
  - destruct (f_crashed s) eqn:C; [exists [], s; auto|].
    assert (D : f_stop s = SDone \/ f_stop s <> SDone) by (destruct (f_stop s); auto; right; discriminate).
    destruct D as [D|D]; [exists [], s; auto|].
    destruct (stop_progress s P M C D) as (a & s1 & O & E).
    destruct (IH s1) as (acts & s' & F & Er & G).
    { eapply phases_step; eauto. } { eapply own_marker; eauto. } { assert (X := measure_step _ _ _ P M O E). lia. }
    exists (a :: acts), s'. split; [constructor; assumption|]. cbn. rewrite E. auto.
Qed.

Lemma stop_always : forall acts m b s, run (finit m b) acts = Some s -> f_stop s <> SRun ->
  exists bound, forall acts' s', Forall own_step acts' -> run s acts' = Some s' ->
    (length acts' <= bound)%nat /\
    ((forall a, own_step a -> step s' a = None) -> f_crashed s' = true \/ f_stop s' = SDone).
Proof.
  intros acts m b s H N. assert (P := phases_run _ _ _ _ H).
  assert (M : f_marker s = false). { destruct P as (P & _). destruct (f_marker s); [|reflexivity]. destruct P as [_ P]. exfalso. auto. }
  exists (measure s). intros acts' s' F E. split; [eapply stop_terminates; eauto|].
  intro St. destruct (f_crashed s') eqn:C; [auto|]. right.
  assert (P' : phases s') by (eapply run_inv; [exact phases_step|exact P|exact E]).
  assert (M' : f_marker s' = false).
  { clear - P M F E. revert s P M E. induction acts' as [|a acts' IH]; intros s P M E; cbn in E; [congruence|].
    destruct (step s a) as [s1|] eqn:E1; [|discriminate]. inversion F; subst. eapply IH; [assumption| | |exact E].
    - eapply phases_step; eauto. - eapply own_marker; eauto. }
  destruct (f_stop s') eqn:D; [| | |reflexivity];
    (destruct (stop_progress s' P' M' C) as (a & s2 & O & E2); [congruence|]; rewrite (St a O) in E2; discriminate).
Qed.

(** ** Retries *)
Definition waited (s : st) : Prop :=
  (forall w, In w (f_waiting s) -> length (w_seen w) = w_retry w /\ (w_retry w <= R)%nat /\
     forall n, In n (w_seen w) -> n <= rq_end (t_req (w_task w))) /\
  (forall a seen, In a (f_out s) -> a_why a = TimedOut seen ->
     length seen = S R /\ (forall n, In n seen -> n <= rq_end (t_req (a_task a))) /\
     a_frag a = create_empty_fragment dnf lk (t_req (a_task a))) /\
  (forall a, In a (f_out s) -> a_why a = EndOfRun -> a_frag a = create_empty_fragment dnf lk (t_req (a_task a))).

Lemma in_swap_remove : forall {A} (l : list A) i w x, nth_error l i = Some w -> In x (swap_remove l i) -> In x l.
Proof. intros A l i w x H Hx. eapply Permutation_in; [symmetry; apply (swap_remove_perm l i w H)|right; exact Hx]. Qed.

Lemma waited_step : forall s a s', waited s -> step s a = Some s' -> waited s'.
Proof.
  intros s a s' (G1 & G2 & G3) H. unfold waited in *.
  step_cases H; unfold crash_now, upd_work, upd_loop, upd_out, upd_read, upd_stop, finfo in *;
    cbn [f_marker f_pool f_work f_waiting f_loop f_stop f_buf f_stats f_timed f_crashed f_out f_issued f_lost f_sum f_sum_timed f_reads f_start_out] in *.
  all: try (split; [exact G1|split; [exact G2|exact G3]]).
  all: try (split; [|split; [exact G2|exact G3]]).
  all: try (intros w0 Hw; eapply in_swap_remove in Hw; [|eassumption]; apply G1; exact Hw).
  all: try (intros w0 Hw; apply in_app_or in Hw; destruct Hw as [Hw|[<-|[]]]; [apply G1; exact Hw|];
            cbn; split; [reflexivity|split; [lia|intros n []]]).
  - split; [exact G1|]. split; intros a; intros; match goal with H : In a _ |- _ => apply in_app_or in H; destruct H as [H|[<-|[]]] end; eauto; discriminate.
  - match goal with H : nth_error (f_waiting s) _ = Some _ |- _ => assert (Hn := nth_error_In _ _ H); assert (Hnth := H) end.
    assert (Hw := G1 _ Hn). match goal with H : verdict_of _ _ _ _ = _ |- _ => rename H into Heqv; unfold verdict_of in Heqv end.
    destruct (Z.ltb_spec (rq_end (t_req (w_task w))) newest) as [?|Hle]; [discriminate|].
    destruct (Nat.leb_spec R (w_retry w)) as [Hr|Hr]; [|destruct (negb (f_marker s)); discriminate].
    split; [|split].
    + intros w0 Hw0. eapply in_swap_remove in Hw0; [|exact Hnth]. apply G1, Hw0.
    + intros a seen Ha Hy. apply in_app_or in Ha. destruct Ha as [Ha|[<-|[]]]; [apply G2; assumption|].
      cbn in *. injection Hy as <-. destruct Hw as (Hw1 & Hw2 & Hw3). rewrite app_length. cbn. split; [lia|].
      split; [|reflexivity]. intros n Hin. apply in_app_or in Hin. destruct Hin as [Hin|[<-|[]]]; auto.
    + intros a Ha Hy. apply in_app_or in Ha. destruct Ha as [Ha|[<-|[]]]; [apply G3; assumption|]. discriminate.
  - match goal with H : nth_error (f_waiting s) _ = Some _ |- _ => assert (Hnth := H) end.
    split; [|split].
    + intros w0 Hw0. eapply in_swap_remove in Hw0; [|exact Hnth]. apply G1, Hw0.
    + intros a seen Ha Hy. apply in_app_or in Ha. destruct Ha as [Ha|[<-|[]]]; [apply G2; assumption|]. discriminate.
    + intros a Ha Hy. apply in_app_or in Ha. destruct Ha as [Ha|[<-|[]]]; [apply G3; assumption|]. reflexivity.
  - match goal with H : nth_error (f_waiting s) _ = Some _ |- _ => assert (Hn := nth_error_In _ _ H); assert (Hnth := H) end.
    intros w0 Hw0. rewrite (bump_at_split _ _ _ _ Hnth) in Hw0.
    match goal with H : verdict_of _ _ _ _ = _ |- _ => rename H into Heqv; unfold verdict_of in Heqv end.
    destruct (Z.ltb_spec (rq_end (t_req (w_task w))) newest) as [?|Hle]; [discriminate|].
    destruct (Nat.leb_spec R (w_retry w)) as [Hr|Hr]; [discriminate|].
    apply (in_replace (f_waiting s) i w0 (bump newest w)) in Hw0. destruct Hw0 as [->|Hw0]; [|apply G1, Hw0].
    destruct (G1 _ Hn) as (Hw1 & Hw2 & Hw3). cbn. rewrite app_length. cbn. split; [lia|]. split; [lia|].
    intros n Hin. apply in_app_or in Hin. destruct Hin as [Hin|[<-|[]]]; auto.
Qed.

Lemma waited_run : forall acts m b s, run (finit m b) acts = Some s -> waited s.
Proof. intros acts m b s. apply (run_inv waited); [exact waited_step|]. repeat split; cbn; try contradiction. Qed.

End Inv.
