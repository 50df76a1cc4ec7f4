(** Proofs about Life_model.v: stop returns when nothing arrives any more, continued. *)
From Coq Require Import List Bool Arith Lia.
From Verif Require Import Base_model Life_model Life_spec Life_proofs Life_proofs2 Life_proofs3.
Import ListNotations.
Open Scope nat_scope.

Definition stopped (ev : list event) : Prop := In (EReturned CStop) ev.

Lemma ending_step : forall s log a, ending s log -> inner a -> exists s' ev, life_step s a = Ok (s', ev) /\
  (stopped ev \/ ((s' = s \/ smaller s' s) /\ ending s' (log ++ ev) /\ f_tasks s' = f_tasks s)).
Proof.
  intros s log a (I & (l & T) & M & HM) IN.
  destruct (life_step_inv s log a I) as (s' & ev & E & I' & _). { intros c ->. contradiction. }
  exists s', ev. split; [exact E|].
  assert (forall s'' ev'', quiet s s'' ev'' -> s' = s'' -> ending s' (log ++ ev) /\ f_tasks s' = f_tasks s) as Q.
  { intros s'' ev'' [] ->. split; [|exact q_tasks]. split; [exact I'|]. rewrite q_todo, q_marker, q_hmarker. split; [exists l; exact T|auto]. }
  destruct a; simpl in IN; try contradiction; simpl in E.
  - unfold command_step in E. rewrite T in E. destruct l as [|m rest].
    + injection E as <- <-. left. left. reflexivity.
    + right. destruct (v_prog _ _ I _ _ T) as [S|(c' & X & _)]; [|discriminate X].
      pose proof (suffix_in m _ _ S ltac:(left; reflexivity)) as IM. destruct (mop_fine _ _ _ _ _ I T) as [NA NT].
      destruct (mop_step s m) as [|s1|s1 ev1|] eqn:MS.
      * injection E as <- <-. split; [auto|]. rewrite app_nil_r. split; [split; [exact I|split; [exists (m :: rest); exact T|auto]]|reflexivity].
      * destruct (NT s1 eq_refl) as (X & _). discriminate X.
      * injection E as <- <-. destruct (mop_smaller _ _ _ _ _ T IM MS) as (A & B & C & D). split; [right; exact A|]. split; [|exact D].
        split; [exact I'|]. split; [exists rest; reflexivity|]. split; [exact (B M)|exact (C HM)].
      * contradiction.
  - right. destruct (thread_quiet s log t k I) as (s'' & ev'' & E2 & QQ). destruct (thread_smaller s t k s' ev (v_valid _ _ I t) M HM E) as [A _].
    split; [exact A|]. apply (Q s'' ev'' QQ). congruence.
  - right. destruct (waiting_quiet s log k I) as (s'' & ev'' & E2 & QQ). destruct (waiting_smaller s k s' ev HM E) as [A _].
    split; [exact A|]. apply (Q s'' ev'' QQ). congruence.
  - right. injection E as <- <-. split; [apply pool_smaller; exact HM|]. apply (Q _ _ (pool_quiet s not_yet)). reflexivity.
  - right. injection E as <- <-. split; [apply put_smaller|]. apply (Q _ _ (put_quiet s)). reflexivity.
Qed.

Lemma ending_run : forall acts s log, ending s log -> (forall a, In a acts -> inner a) -> exists s' ev, life_run s acts = Ok (s', ev) /\
  (stopped ev \/ ((measure s' <= measure s) /\ ending s' (log ++ ev) /\ f_tasks s' = f_tasks s)).
Proof.
  induction acts as [|a acts IH]; intros s log En IN.
  - exists s, []. split; [reflexivity|]. right. rewrite app_nil_r. auto.
  - destruct (ending_step s log a En ltac:(apply IN; left; reflexivity)) as (s1 & e1 & E & [ST|(A & En1 & TK)]).
    + assert (forall acts s log, inv s log -> (forall a, In a acts -> inner a) -> exists s' ev, life_run s acts = Ok (s', ev)) as RUN.
      { clear. induction acts as [|a acts IH]; intros s log I IN; [eexists _, _; reflexivity|].
        destruct (life_step_inv s log a I) as (s1 & e1 & E & I1 & _). { intros c ->. specialize (IN _ ltac:(left; reflexivity)). contradiction. }
        destruct (IH s1 (log ++ e1) I1 ltac:(intros x Hx; apply IN; right; exact Hx)) as (s2 & e2 & E2). exists s2, (e1 ++ e2). simpl. rewrite E. simpl. rewrite E2. reflexivity. }
      destruct En as (I & _). destruct (life_step_inv s log a I) as (s1' & e1' & E' & I1 & _). { intros c ->. specialize (IN _ ltac:(left; reflexivity)). contradiction. }
      rewrite E in E'. injection E' as <- <-. destruct (RUN acts s1 (log ++ e1) I1 ltac:(intros x Hx; apply IN; right; exact Hx)) as (s2 & e2 & E2).
      exists s2, (e1 ++ e2). simpl. rewrite E. simpl. rewrite E2. split; [reflexivity|]. left. apply in_or_app. left. exact ST.
    + destruct (IH s1 (log ++ e1) En1 ltac:(intros x Hx; apply IN; right; exact Hx)) as (s2 & e2 & E2 & D).
      exists s2, (e1 ++ e2). simpl. rewrite E. simpl. rewrite E2. split; [reflexivity|]. destruct D as [ST|(B & En2 & TK2)].
      * left. apply in_or_app. right. exact ST.
      * right. rewrite <- app_assoc in En2. split; [|split; [exact En2|congruence]]. unfold smaller in A. destruct A as [->|A]; lia.
Qed.

(** If the turn of some thread in the sequence would bring stop further, the sequence does. *)
Lemma run_progress : forall acts s log, ending s log -> (forall a, In a acts -> inner a) ->
  (exists a, In a acts /\ forall s' ev, life_step s a = Ok (s', ev) -> stopped ev \/ smaller s' s) ->
  forall s' ev, life_run s acts = Ok (s', ev) -> stopped ev \/ measure s' < measure s.
Proof.
  induction acts as [|a acts IH]; intros s log En IN (b & Hb & P) s' ev R; [contradiction|].
  destruct (ending_step s log a En ltac:(apply IN; left; reflexivity)) as (s1 & e1 & E & D).
  simpl in R. rewrite E in R. simpl in R. destruct (life_run s1 acts) as [[s2 e2]|] eqn:R2; simpl in R; [|discriminate]. injection R as <- <-.
  destruct D as [ST|(A & En1 & TK)]; [left; apply in_or_app; left; exact ST|].
  destruct (ending_run acts s1 (log ++ e1) En1 ltac:(intros x Hx; apply IN; right; exact Hx)) as (s3 & e3 & E3 & D3). rewrite R2 in E3. injection E3 as <- <-.
  destruct D3 as [ST|(B & _ & _)]; [left; apply in_or_app; right; exact ST|].
  destruct A as [->|A]; [|right; unfold smaller in A; lia].
  destruct Hb as [->|Hb].
  - destruct (P s e1 E) as [ST|X]; [left; apply in_or_app; left; exact ST|]. unfold smaller in X. lia.
  - destruct (IH s (log ++ e1) En1 ltac:(intros x Hx; apply IN; right; exact Hx) ltac:(exists b; auto) _ _ R2) as [ST|X]; [left; apply in_or_app; right; exact ST|auto].
Qed.

Lemma stop_split : forall s, program s CStop =
  [MMarker false; MHMarker false; MWait Recording; MWait Cleanup; MJoinWaiting; MJoinPool; MWait Timesync; MWait Consumer; MWait Requester; MFlush] ++ MPMarker false :: map MWait (posts s).
Proof. intros. reflexivity. Qed.

Lemma suffix_head : forall (l : list mop) x p, suffix (x :: l) p -> In x l -> NoDup p -> False.
Proof. intros l x p S X ND. pose proof (suffix_nodup _ _ S ND) as N. inversion N. contradiction. Qed.

Lemma pmarker_off : forall s log i l, inv s log -> f_todo s = Some (CStop, MWait (Post i) :: l) -> f_pmarker s = false.
Proof.
  intros s log i l I T. apply not_true_is_false. intros P. apply (v_pmarker _ _ I) in P. unfold live in P. rewrite T in P.
  destruct (v_prog _ _ I _ _ T) as [S|(c' & X & _)]; [|discriminate X]. destruct P as [P|P]; [discriminate P|].
  assert (In (MWait (Post i)) l) as X.
  { assert (suffix l (program s CStop)) as SL by (eapply suffix_cons; exact S).
    assert (In (MWait (Post i)) (map MWait (posts s))) as IM.
    { pose proof (suffix_in _ _ _ S (or_introl eq_refl)) as IM. apply stop_in_wait in IM. apply in_map. apply posts_in. exists i. split; [reflexivity|]. apply IM. reflexivity. }
    eapply stop_order; [exact SL|apply stop_split|exact IM|exact P]. }
  eapply suffix_head; [exact S|exact X|apply program_nodup].
Qed.

Lemma progress : forall s log acts, ending s log -> round (f_tasks s) acts ->
  exists a, In a acts /\ forall s' ev, life_step s a = Ok (s', ev) -> stopped ev \/ smaller s' s.
Proof.
  intros s log acts (I & (l & T) & M & HM) (R1 & R2 & (kw & R3) & (bp & R4) & R5 & _).
  destruct l as [|m rest].
  { exists AStep. split; [exact R1|]. intros s' ev E. simpl in E. unfold command_step in E. rewrite T in E. injection E as <- <-. left. left. reflexivity. }
  destruct (v_prog _ _ I _ _ T) as [S|(c' & X & _)]; [|discriminate X].
  pose proof (suffix_in m _ _ S ltac:(left; reflexivity)) as IM. destruct (mop_fine _ _ _ _ _ I T) as [NA NT].
  destruct (mop_step s m) as [|s1|s1 ev1|] eqn:MS.
  - destruct (stop_ops _ _ IM) as [->|[->|[(t & -> & V)|[->|[->|[->| ->]]]]]]; simpl in MS; try discriminate.
    + destruct (f_conf s); discriminate.
    + destruct (ready (f_thread s t)) eqn:RD; [discriminate|]. destruct (R2 t V) as (k & K & IK). exists (AThread t k). split; [exact IK|].
      intros s' ev E. right. simpl in E. eapply thread_smaller; eauto.
      * apply (v_valid _ _ I).
      * intros i ->. eapply pmarker_off; eauto.
    + destruct (f_wait s) as [[|]|] eqn:W; try discriminate. exists (AWaiting kw). split; [exact R3|].
      intros s' ev E. right. simpl in E. eapply waiting_smaller; eauto.
    + destruct (f_pool s) as [p|] eqn:P; [|discriminate]. destruct (o_pending p + o_retry p =? 0) eqn:Z; [discriminate|].
      destruct (o_joined p) eqn:J; [discriminate|]. apply Nat.eqb_neq in Z. destruct (Nat.eq_dec (o_pending p) 0) as [N|N].
      * exists APoolPut. split; [exact R5|]. intros s' ev E. right. injection E as <- _. eapply put_smaller; eauto. lia.
      * exists (APool bp). split; [exact R4|]. intros s' ev E. right. injection E as <- _. eapply pool_smaller; eauto.
  - destruct (NT s1 eq_refl) as (X & _). discriminate X.
  - exists AStep. split; [exact R1|]. intros s' ev E. simpl in E. unfold command_step in E. rewrite T, MS in E. injection E as <- <-. right.
    eapply mop_smaller; eauto.
  - contradiction.
Qed.


Lemma first_rounds_shift : forall rounds n, first_rounds rounds (S n) = rounds 0 ++ first_rounds (fun i => rounds (S i)) n.
Proof.
  intros rounds n. induction n as [|n IH]; [simpl; rewrite app_nil_r; reflexivity|].
  change (first_rounds rounds (S (S n))) with (first_rounds rounds (S n) ++ rounds (S n)). rewrite IH, <- app_assoc. reflexivity.
Qed.

Lemma inner_of_round : forall n acts, round n acts -> forall a, In a acts -> inner a.
Proof. intros n acts (_ & _ & _ & _ & _ & H) a Ha. specialize (H a Ha). destruct a; auto. Qed.

Lemma ending_stops : forall n s log rounds, measure s <= n -> ending s log -> (forall i, round (f_tasks s) (rounds i)) ->
  exists N s' ev, life_run s (first_rounds rounds N) = Ok (s', ev) /\ stopped ev.
Proof.
  induction n as [n IH] using lt_wf_ind. intros s log rounds L En RD.
  destruct (ending_run (rounds 0) s log En (inner_of_round _ _ (RD 0))) as (s1 & e1 & E & D).
  destruct (run_progress (rounds 0) s log En (inner_of_round _ _ (RD 0)) (progress _ _ _ En (RD 0)) _ _ E) as [ST|LT].
  { exists 1, s1, e1. simpl. split; [exact E|exact ST]. }
  destruct D as [ST|(_ & En1 & TK)]; [exists 1, s1, e1; simpl; auto|].
  destruct (IH (measure s1) ltac:(lia) s1 (log ++ e1) (fun i => rounds (S i)) ltac:(lia) En1) as (N & s2 & e2 & E2 & ST).
  { intros i. rewrite TK. apply RD. }
  exists (S N), s2, (e1 ++ e2). rewrite first_rounds_shift, run_app, E. simpl. rewrite E2. split; [reflexivity|]. apply in_or_app. right. exact ST.
Qed.

(** The first two steps of stop. *)
Lemma early_head : forall s l, suffix l (program s CStop) -> In (MHMarker false) l -> exists m rest, l = m :: rest /\ (m = MMarker false \/ m = MHMarker false).
Proof.
  intros s l S H. destruct l as [|m rest]; [contradiction|]. exists m, rest. split; [reflexivity|].
  destruct H as [H|H]; [auto|]. left.
  pose proof (suffix_in m _ _ S ltac:(left; reflexivity)) as IM. unfold program in IM. simpl in IM. destruct IM as [IM|[IM|IM]]; [auto| |].
  - subst m. exfalso. eapply suffix_head; [exact S|exact H|apply program_nodup].
  - exfalso. eapply suffix_head; [exact S| |apply program_nodup].
    refine (suffix_after (program s CStop) (MHMarker false) m [MMarker false] _ rest _ (program_nodup _ _) _ (suffix_cons _ _ _ S) H); [reflexivity|exact IM].
Qed.

Definition stopping (s : life) (log : list event) (l : list mop) : Prop := inv s log /\ f_todo s = Some (CStop, l).

Lemma stopping_ending : forall s log l, stopping s log l -> ~ In (MHMarker false) l -> ending s log.
Proof.
  intros s log l (I & T) N. split; [exact I|]. split; [eauto|].
  destruct (v_prog _ _ I _ _ T) as [S|(c' & X & _)]; [|discriminate X]. split; apply not_true_is_false; intros E.
  - apply (v_marker _ _ I) in E. unfold live in E. rewrite T in E. apply N.
    refine (stop_order s l (MMarker false) (MHMarker false) [] _ S _ _ E); [reflexivity|left; reflexivity].
  - apply (v_hmarker _ _ I) in E. unfold live in E. rewrite T in E. contradiction.
Qed.

Lemma stopping_step : forall s log l a, stopping s log l -> inner a -> exists s' ev, life_step s a = Ok (s', ev) /\
  (stopped ev \/ exists l', stopping s' (log ++ ev) l' /\ (l' = l \/ (a = AStep /\ exists m, l = m :: l')) /\ (a = AStep -> In (MHMarker false) l -> l' <> l) /\ f_tasks s' = f_tasks s).
Proof.
  intros s log l a (I & T) IN.
  destruct (life_step_inv s log a I) as (s' & ev & E & I' & _). { intros c ->. contradiction. }
  exists s', ev. split; [exact E|].
  assert (forall s'' ev'', quiet s s'' ev'' -> s' = s'' -> a <> AStep -> stopped ev \/ exists l', stopping s' (log ++ ev) l' /\ (l' = l \/ (a = AStep /\ exists m, l = m :: l')) /\ (a = AStep -> In (MHMarker false) l -> l' <> l) /\ f_tasks s' = f_tasks s) as Q.
  { intros s'' ev'' [] -> NA. right. exists l. split; [split; [exact I'|congruence]|]. split; [auto|]. split; [intros X; contradiction|exact q_tasks]. }
  destruct a; simpl in IN; try contradiction; simpl in E.
  - unfold command_step in E. rewrite T in E. destruct l as [|m rest].
    + injection E as <- <-. left. left. reflexivity.
    + right. destruct (v_prog _ _ I _ _ T) as [S|(c' & X & _)]; [|discriminate X].
      pose proof (suffix_in m _ _ S ltac:(left; reflexivity)) as IM. destruct (mop_fine _ _ _ _ _ I T) as [NA NT].
      destruct (mop_step s m) as [|s1|s1 ev1|] eqn:MS.
      * injection E as <- <-. exists (m :: rest). split; [split; [rewrite app_nil_r; exact I|exact T]|]. split; [auto|]. split; [|reflexivity].
        intros _ H. destruct (early_head s _ S H) as (m' & r' & X & Y). injection X as <- <-. destruct Y as [->| ->]; simpl in MS; [destruct (f_conf s)|]; discriminate MS.
      * destruct (NT s1 eq_refl) as (X & _). discriminate X.
      * injection E as <- <-. exists rest. split; [split; [exact I'|reflexivity]|]. split; [right; eauto|]. split.
        -- intros _ _ X. apply (f_equal (@length mop)) in X. simpl in X. lia.
        -- apply (mop_smaller _ _ _ _ _ T IM MS).
      * contradiction.
  - destruct (thread_quiet s log t k I) as (s'' & ev'' & E2 & QQ). apply (Q s'' ev'' QQ); [congruence|discriminate].
  - destruct (waiting_quiet s log k I) as (s'' & ev'' & E2 & QQ). apply (Q s'' ev'' QQ); [congruence|discriminate].
  - injection E as <- <-. apply (Q _ _ (pool_quiet s not_yet)); [reflexivity|discriminate].
  - injection E as <- <-. apply (Q _ _ (put_quiet s)); [reflexivity|discriminate].
Qed.

Lemma inner_run : forall acts s log, inv s log -> (forall a, In a acts -> inner a) -> exists s' ev, life_run s acts = Ok (s', ev) /\ inv s' (log ++ ev).
Proof.
  induction acts as [|a acts IH]; intros s log I IN; [eexists _, _; split; [reflexivity|rewrite app_nil_r; exact I]|].
  destruct (life_step_inv s log a I) as (s1 & e1 & E & I1 & _). { intros c ->. specialize (IN _ ltac:(left; reflexivity)). contradiction. }
  destruct (IH s1 (log ++ e1) I1 ltac:(intros x Hx; apply IN; right; exact Hx)) as (s2 & e2 & E2 & I2). exists s2, (e1 ++ e2). simpl. rewrite E. simpl. rewrite E2.
  rewrite app_assoc. auto.
Qed.

Lemma stopping_run : forall acts s log l, stopping s log l -> (forall a, In a acts -> inner a) -> exists s' ev, life_run s acts = Ok (s', ev) /\
  (stopped ev \/ exists l', stopping s' (log ++ ev) l' /\ length l' <= length l /\ (In AStep acts -> In (MHMarker false) l -> length l' < length l) /\ f_tasks s' = f_tasks s).
Proof.
  induction acts as [|a acts IH]; intros s log l St IN.
  - exists s, []. split; [reflexivity|]. right. exists l. rewrite app_nil_r. split; [exact St|]. split; [lia|]. split; [intros []|reflexivity].
  - destruct (stopping_step s log l a St ltac:(apply IN; left; reflexivity)) as (s1 & e1 & E & [ST|(l1 & St1 & A & B & TK)]).
    + destruct St as (I & _). destruct (inner_run (a :: acts) s log I IN) as (s2 & e2 & E2 & _). exists s2, e2. split; [exact E2|]. left.
      simpl in E2. rewrite E in E2. simpl in E2. destruct (life_run s1 acts) as [[s3 e3]|]; simpl in E2; [|discriminate]. injection E2 as <- <-. apply in_or_app. left. exact ST.
    + destruct (IH s1 (log ++ e1) l1 St1 ltac:(intros x Hx; apply IN; right; exact Hx)) as (s2 & e2 & E2 & D).
      exists s2, (e1 ++ e2). simpl. rewrite E. simpl. rewrite E2. split; [reflexivity|]. destruct D as [ST|(l2 & St2 & L2 & P2 & TK2)].
      * left. apply in_or_app. right. exact ST.
      * right. exists l2. rewrite <- app_assoc in St2. split; [exact St2|]. assert (length l1 <= length l) as LL by (destruct A as [->|(_ & m & ->)]; simpl; lia).
        split; [lia|]. split; [|congruence]. intros HS HM. destruct HS as [->|HS].
        -- specialize (B eq_refl HM). destruct A as [->|(_ & m & ->)]; [contradiction|]. simpl. lia.
        -- destruct A as [->|(_ & m & ->)]; [apply P2; assumption|simpl; lia].
Qed.

Lemma stopping_stops : forall n s log l rounds, length l <= n -> stopping s log l -> (forall i, round (f_tasks s) (rounds i)) ->
  exists N s' ev, life_run s (first_rounds rounds N) = Ok (s', ev) /\ stopped ev.
Proof.
  induction n as [n IH] using lt_wf_ind. intros s log l rounds L St RD.
  destruct (in_dec (fun a b : mop => ltac:(repeat decide equality) : {a = b} + {a <> b}) (MHMarker false) l) as [D|D];
    [|eapply ending_stops; [apply le_n|eapply stopping_ending; eassumption|exact RD]].
  destruct (stopping_run (rounds 0) s log l St (inner_of_round _ _ (RD 0))) as (s1 & e1 & E & [ST|(l1 & St1 & _ & P & TK)]).
  { exists 1, s1, e1. simpl. auto. }
  specialize (P ltac:(apply (RD 0)) D).
  destruct (IH (length l1) ltac:(lia) s1 (log ++ e1) l1 (fun i => rounds (S i)) ltac:(lia) St1) as (N & s2 & e2 & E2 & ST).
  { intros i. rewrite TK. apply RD. }
  exists (S N), s2, (e1 ++ e2). rewrite first_rounds_shift, run_app, E. simpl. rewrite E2. split; [reflexivity|]. apply in_or_app. right. exact ST.
Qed.

(** ** The command in progress *)
Lemma current_app : forall a b, current (a ++ b) = current_from (current a) b.
Proof. unfold current. intros a. generalize (@None cmd). induction a; intros; simpl; auto. Qed.

Definition calm (ev : list event) : Prop := forall e, In e ev -> match e with ECommand _ | EReturned _ | EThrew _ => False | _ => True end.
Lemma calm_current : forall ev b, calm ev -> current_from b ev = b.
Proof.
  induction ev as [|e ev IH]; intros b H; [reflexivity|]. simpl. pose proof (H e ltac:(left; reflexivity)) as X.
  destruct e; try contradiction; apply IH; intros x Hx; apply H; right; exact Hx.
Qed.
Lemma mop_calm : forall s m s' ev, mop_step s m = Done s' ev -> calm ev.
Proof.
  intros s m s' ev M e H. destruct m; unfold mop_step in M.
  - destruct (uses_buffer s); [discriminate|]. injection M as _ <-. destruct (c_alloc c); simpl in H; intuition (subst; auto).
  - destruct (f_isrec s || negb (f_open s)); [|destruct (f_thread s Recording)]; injection M as _ <-; simpl in H; intuition (subst; auto).
  - destruct (f_conf s); [|destruct b; [discriminate|]]; injection M as _ <-; contradiction.
  - injection M as _ <-; contradiction.
  - injection M as _ <-; contradiction.
  - destruct (f_thread s t); injection M as _ <-; simpl in H; intuition (subst; auto).
  - destruct (ready (f_thread s t)); [injection M as _ <-; contradiction|discriminate].
  - injection M as _ <-; contradiction.
  - destruct (f_wait s); [discriminate|]. injection M as _ <-; contradiction.
  - destruct (f_wait s) as [[|]|]; try discriminate. injection M as _ <-; contradiction.
  - destruct (f_pool s) as [p|]; [|discriminate]. destruct (o_pending p + o_retry p =? 0); [|destruct (o_joined p); [|discriminate]]; injection M as _ <-; contradiction.
  - injection M as _ <-; contradiction.
  - destruct ok; [|discriminate]. injection M as _ <-; contradiction.
  - destruct (f_thread s t); try discriminate. injection M as _ <-; contradiction.
  - destruct (f_wait s); [discriminate|]. injection M as _ <-; contradiction.
Qed.
(** What the steps outside the command thread leave alone, whatever the state. *)
Record outside (s s' : life) (ev : list event) : Prop := mkOutside {
  u_todo : f_todo s' = f_todo s; u_tasks : f_tasks s' = f_tasks s; u_conf : f_conf s' = f_conf s;
  u_wait : f_wait s' = None <-> f_wait s = None;
  u_off : forall t, f_thread s t = Off -> f_thread s' t = Off;
  u_ready : forall t, ready (f_thread s t) = true -> ready (f_thread s' t) = true;
  u_calm : forall e, In e ev -> e = ERecorded
}.
Lemma post_outside : forall s n s', post s n = Ok s' -> outside s s' [].
Proof.
  intros s n s' H. unfold post in H. destruct n; [injection H as <-|destruct (f_pool s); [injection H as <-|discriminate]]; constructor; try reflexivity; auto; intros e [].
Qed.
Lemma outside_worker : forall s s1 t w ev, outside s s1 [] -> f_thread s1 t <> Off -> (ready (f_thread s1 t) = true -> ready w = true) -> (forall e, In e ev -> e = ERecorded) -> outside s (set_worker s1 t w) ev.
Proof.
  intros s s1 t w ev [] N R C. constructor; simpl; auto.
  - intros t' O. destruct (tid_eq t' t) eqn:E; [apply tid_eq_spec in E; subst; exfalso; auto|auto].
  - intros t' O. destruct (tid_eq t' t) eqn:E; [apply tid_eq_spec in E; subst; auto|auto].
Qed.
Lemma outside_refl : forall s, outside s s [].
Proof. intros s. constructor; auto; try tauto. intros e []. Qed.

Lemma life_step_outside : forall s a s' ev, life_step s a = Ok (s', ev) -> (match a with ACommand _ => f_todo s <> None | AStep => False | _ => True end) -> outside s s' ev.
Proof.
  intros s a s' ev E NA.
  assert (forall s', f_todo s' = f_todo s -> f_tasks s' = f_tasks s -> f_conf s' = f_conf s -> f_wait s' = f_wait s -> f_thread s' = f_thread s -> outside s s' []) as Q.
  { intros x A B C D F. constructor; auto; try (rewrite F; auto); try (rewrite D; tauto). intros e []. }
  destruct a; simpl in *.
  - injection E as <- <-. apply Q; reflexivity.
  - injection E as <- <-. apply Q; reflexivity.
  - destruct (f_todo s); [injection E as <- <-; apply outside_refl|contradiction].
  - contradiction.
  - unfold thread_step in E. destruct (f_thread s t) eqn:H.
    + injection E as <- <-. apply outside_refl.
    + injection E as <- <-. assert (outside s (set_worker s t Head) []) as O by (apply outside_worker; [apply outside_refl|congruence|rewrite H; discriminate|intros e []]).
      destruct t; try exact O. destruct O. constructor; auto.
    + assert (forall w ev', (forall e, In e ev' -> e = ERecorded) -> outside s (set_worker s t w) ev') as O.
      { intros w ev' C. apply outside_worker; [apply outside_refl|congruence|rewrite H; discriminate|exact C]. }
      destruct t; simpl in E.
      * destruct (f_input s); [destruct (f_marker s)|destruct (f_mem s); [|discriminate]]; injection E as <- <-; [apply outside_refl|apply O; intros e []|apply Q; reflexivity].
      * destruct (f_marker s); [|destruct (f_reqs s)]; injection E as <- <-; [apply O; intros e []|apply O; intros e []|apply Q; reflexivity].
      * destruct (f_marker s); injection E as <- <-; apply O; intros e [].
      * destruct (f_hmarker s); injection E as <- <-; [apply Q; reflexivity|apply O; intros e []].
      * destruct (f_isrec s); [destruct k|]; injection E as <- <-; [apply outside_refl|apply Q; reflexivity|apply O; intros e [<-|[]]; reflexivity].
      * destruct (nth i (f_queues s) 0); [destruct (f_pmarker s)|]; injection E as <- <-; [apply outside_refl|apply O; intros e []|apply Q; reflexivity].
    + destruct t; try (injection E as <- <-; apply outside_worker; [apply outside_refl|congruence|rewrite H; discriminate|intros e []]).
      * destruct (f_reqs s) as [|n]; [injection E as <- <-; apply outside_worker; [apply outside_refl|congruence|rewrite H; discriminate|intros e []]|].
        destruct (post (set_reqs s n) 1) as [s1|] eqn:P; simpl in E; [|discriminate]. injection E as <- <-. pose proof (post_thread _ _ _ P) as PT. apply post_outside in P.
        apply outside_worker; [destruct P; constructor; auto|rewrite PT; simpl; congruence|rewrite PT; simpl; rewrite H; discriminate|intros e []].
      * destruct (post s (if Nat.odd k then f_links s else 0)) as [s1|] eqn:P; simpl in E; [|discriminate]. injection E as <- <-. pose proof (post_thread _ _ _ P) as PT. apply post_outside in P.
        apply outside_worker; [exact P|rewrite PT; simpl; congruence|rewrite PT; simpl; rewrite H; discriminate|intros e []].
    + injection E as <- <-. apply outside_worker; [apply outside_refl|congruence|auto|intros e []].
  - unfold waiting_step in E. destruct (f_wait s) as [[|]|] eqn:W; try (injection E as <- <-; apply outside_refl).
    destruct (f_list s) as [|r l].
    + destruct (f_hmarker s); injection E as <- <-; [apply outside_refl|]. constructor; simpl; auto; [rewrite W; split; discriminate|intros e []].
    + destruct (pass (r :: l) k) as [keep n]. destruct (post (set_list s keep) n) as [s1|] eqn:P; simpl in E; [|discriminate]. injection E as <- <-. apply post_outside in P. destruct P. constructor; auto.
  - injection E as <- <-. unfold pool_step. destruct (f_pool s) as [[[|] [|n] r]|]; try apply outside_refl. apply Q; reflexivity.
  - injection E as <- <-. unfold pool_put. destruct (f_pool s) as [[[|] n [|r]]|]; try apply outside_refl. apply Q; reflexivity.
Qed.

Lemma step_current : forall s a s' ev log, life_step s a = Ok (s', ev) -> current log = option_map fst (f_todo s) -> current (log ++ ev) = option_map fst (f_todo s').
Proof.
  intros s a s' ev log E C. rewrite current_app, C.
  assert (match a with ACommand _ => f_todo s <> None | AStep => False | _ => True end -> current_from (option_map fst (f_todo s)) ev = option_map fst (f_todo s')) as O.
  { intros H. destruct (life_step_outside _ _ _ _ E H). rewrite u_todo0. apply calm_current. intros e He. rewrite (u_calm0 e He). exact I. }
  destruct a; try (apply O; exact I); simpl in E.
  - destruct (f_todo s) eqn:T; [apply O; discriminate|]. injection E as <- <-. reflexivity.
  - unfold command_step in E. destruct (f_todo s) as [[c [|m rest]]|] eqn:T.
    + injection E as <- <-. reflexivity.
    + destruct (mop_step s m) as [|s1|s1 e1|] eqn:M; [injection E as <- <-; rewrite T; reflexivity|injection E as <- <-; reflexivity| |discriminate].
      injection E as <- <-. simpl. rewrite calm_current; [reflexivity|]. eapply mop_calm; eauto.
    + injection E as <- <-. rewrite T. reflexivity.
Qed.

Lemma run_current : forall acts links s log, life_run (life_new links) acts = Ok (s, log) -> current log = option_map fst (f_todo s).
Proof.
  induction acts as [|a acts IH] using rev_ind; intros links s log R; [injection R as <- <-; reflexivity|].
  apply run_snoc in R. destruct R as (s1 & l1 & ev & R & E & ->). eapply step_current; eauto.
Qed.
