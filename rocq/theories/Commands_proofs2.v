(** Proofs for the runs of a generated application. *)
From Coq Require Import String ZArith List Bool Lia Permutation.
From Verif Require Import Base_model Factory_model Gen_model Gen_spec Gen_props Commands_model Commands_spec Commands_proofs.
Import ListNotations.
Open Scope string_scope.
Open Scope list_scope.

Section Runs.
Variable ft : string.
Variable n t : nat.
Variable A : Type.
Hypothesis F : In ft front_ends.
Implicit Type s : app A.
Notation step := (step ft n t A).
Notation reach := (reach ft n t A).
Notation names := (names ft n t).
Notation opens := (opens ft n t).

Definition at_work (p : phase) : Prop := p = Running \/ p = Lost.

Inductive shape s : Prop :=
  | starting done rest : todo s = map (pair VStart) rest -> running s = true -> Permutation (done ++ rest) names ->
      (forall x, In x done -> at_work (phase_of s x)) -> (forall x, In x rest -> phase_of s x = Idle) -> shape s
  | ending done rest : todo s = map (pair VStop) rest -> running s = false -> dispatched stop_patterns names (done ++ rest) ->
      (forall x, In x done -> phase_of s x = Idle) -> (forall x r, rest = x :: r -> phase_of s x <> Idle) ->
      (forall x r y, rest = x :: r -> In y r -> at_work (phase_of s y)) -> shape s.

Lemma upd_same : forall {B} (f : string -> B) x b, upd f x b x = b.
Proof. intros. unfold upd. rewrite String.eqb_refl. reflexivity. Qed.
Lemma upd_other : forall {B} (f : string -> B) x b y, y <> x -> upd f x b y = f y.
Proof. intros B f x b y H. unfold upd. destruct (String.eqb_spec y x); congruence. Qed.

Lemma some_order : forall pats l, exists order, dispatched pats l order.
Proof.
  intros pats l. exists (concat (map (fun p => filter (matches p) l) pats)), (map (fun p => filter (matches p) l) pats). split; [|reflexivity].
  induction pats as [|p pats IH]; [constructor|constructor; [reflexivity|exact IH]].
Qed.

Lemma shape_init : shape (initial A).
Proof.
  destruct (some_order stop_patterns names) as (order & D). apply (ending _ order []); try reflexivity; try discriminate. rewrite app_nil_r. exact D.
Qed.

Lemma map_nil : forall {X Y} (f : X -> Y) l, map f l = [] -> l = [].
Proof. intros X Y f [|a l]; [reflexivity|discriminate]. Qed.

Lemma in_order : forall order, dispatched stop_patterns names order -> forall x, In x names -> In x order.
Proof. intros order D x I. eapply Permutation_in; [symmetry; apply (stop_perm ft n t order F D)|exact I]. Qed.

Lemma mid_NoDup : forall (l1 l2 : list string) x y, NoDup (l1 ++ x :: l2) -> In y (l1 ++ l2) -> y <> x.
Proof. intros l1 l2 x y N I ->. apply NoDup_remove_2 in N. contradiction. Qed.

Lemma shape_step : forall s s', shape s -> step s s' -> shape s'.
Proof.
  intros s s' H S. destruct S as [s order T R D|s order T R D|s m r T|s m r T|s m r T P|s m r T P|s m P G|s m r T P|s m q x a P O|s m q x a r P O Q].
  - (* send_start *) destruct H as [done rest T' R' _ _ _|done rest T' R' D' I _ _]; [congruence|]. rewrite T in T'. symmetry in T'. apply map_nil in T'. subst rest. rewrite app_nil_r in D'.
    apply (starting _ [] order); try reflexivity; [apply (start_perm ft n t order F D)|intros x []|].
    intros x X. cbn [phase_of]. apply I. apply (in_order _ D'). apply (Permutation_in x (start_perm ft n t order F D)), X.
  - (* send_stop *) destruct H as [done rest T' R' P I J|done rest T' R' D' I _ _]; [|congruence]. rewrite T in T'. symmetry in T'. apply map_nil in T'. subst rest. rewrite app_nil_r in P.
    assert (W : forall x, In x order -> at_work (phase_of s x)).
    { intros x X. apply I. apply (Permutation_in x (Permutation_sym P)). apply (Permutation_in x (stop_perm ft n t order F D)), X. }
    apply (ending _ [] order); try reflexivity; [exact D|intros x []| |].
    + intros x r ->. cbn [phase_of]. destruct (W x (or_introl eq_refl)) as [-> | ->]; discriminate.
    + intros x r y -> Y. apply W. right. exact Y.
  - (* start_module *) destruct H as [done rest T' R' P I J|done rest T' R' D' I _ _].
    + rewrite T in T'. destruct rest as [|x rest]; [discriminate|]. injection T' as <- ->.
      assert (N : NoDup (done ++ m :: rest)) by (eapply Permutation_NoDup; [symmetry; exact P|apply names_NoDup, F]).
      apply (starting _ (done ++ [m]) rest); try assumption; [reflexivity|rewrite <- app_assoc; exact P| |].
      * intros x X. cbn [phase_of]. apply in_app_or in X as [X|[<-|[]]]; [|left; apply upd_same].
        rewrite upd_other; [apply I, X|]. apply (mid_NoDup done rest m x N), in_or_app. left. exact X.
      * intros x X. cbn [phase_of]. rewrite upd_other; [apply J; right; exact X|]. apply (mid_NoDup done rest m x N), in_or_app. right. exact X.
    + rewrite T in T'. destruct rest as [|x rest]; discriminate.
  - (* start_lost *) destruct H as [done rest T' R' P I J|done rest T' R' D' I _ _].
    + rewrite T in T'. destruct rest as [|x rest]; [discriminate|]. injection T' as <- ->.
      assert (N : NoDup (done ++ m :: rest)) by (eapply Permutation_NoDup; [symmetry; exact P|apply names_NoDup, F]).
      apply (starting _ (done ++ [m]) rest); try assumption; [reflexivity|rewrite <- app_assoc; exact P| |].
      * intros x X. cbn [phase_of]. apply in_app_or in X as [X|[<-|[]]]; [|right; apply upd_same].
        rewrite upd_other; [apply I, X|]. apply (mid_NoDup done rest m x N), in_or_app. left. exact X.
      * intros x X. cbn [phase_of]. rewrite upd_other; [apply J; right; exact X|]. apply (mid_NoDup done rest m x N), in_or_app. right. exact X.
    + rewrite T in T'. destruct rest as [|x rest]; discriminate.
  - (* stop_module *) destruct H as [done rest T' R' Pm I J|done rest T' R' D I J K]; [rewrite T in T'; destruct rest; discriminate|].
    assert (T2 := T'). rewrite T in T2. destruct rest as [|x rest]; [discriminate|]. injection T2 as <- ->.
    pose proof (stop_NoDup ft n t _ F D) as N. apply (ending _ done (m :: rest)); try assumption.
    + intros x X. cbn [phase_of]. rewrite upd_other; [apply I, X|]. apply (mid_NoDup done rest m x N), in_or_app. left. exact X.
    + intros x r E. injection E as <- <-. cbn [phase_of]. rewrite upd_same. discriminate.
    + intros x r y E Y. injection E as <- <-. cbn [phase_of]. rewrite upd_other; [apply (K m rest); auto|]. apply (mid_NoDup done rest m y N), in_or_app. right. exact Y.
  - (* stop_lost *) destruct H as [done rest T' R' Pm I J|done rest T' R' D I J K]; [rewrite T in T'; destruct rest; discriminate|].
    assert (T2 := T'). rewrite T in T2. destruct rest as [|x rest]; [discriminate|]. injection T2 as <- ->.
    pose proof (stop_NoDup ft n t _ F D) as N. apply (ending _ done (m :: rest)); try assumption.
    + intros x X. cbn [phase_of]. rewrite upd_other; [apply I, X|]. apply (mid_NoDup done rest m x N), in_or_app. left. exact X.
    + intros x r E. injection E as <- <-. cbn [phase_of]. rewrite upd_same. discriminate.
    + intros x r y E Y. injection E as <- <-. cbn [phase_of]. rewrite upd_other; [apply (K m rest); auto|]. apply (mid_NoDup done rest m y N), in_or_app. right. exact Y.
  - (* reader_ends *)
    assert (U : forall x, at_work (phase_of s x) \/ phase_of s x = Idle -> x <> m) by (intros x [[E|E]|E] ->; congruence).
    destruct H as [done rest T' R' Pm I J|done rest T' R' D I J K].
    + apply (starting _ done rest); try assumption; intros x X; cbn [phase_of]; rewrite upd_other; auto.
    + apply (ending _ done rest); try assumption.
      * intros x X. cbn [phase_of]. rewrite upd_other; auto.
      * intros x r E. cbn [phase_of]. unfold upd. destruct (String.eqb x m); [discriminate|]. apply (J x r E).
      * intros x r y E Y. cbn [phase_of]. pose proof (K x r y E Y). rewrite upd_other; auto.
  - (* stop_returns *) destruct H as [done rest T' R' Pm I J|done rest T' R' D I J K]; [rewrite T in T'; destruct rest; discriminate|].
    assert (T2 := T'). rewrite T in T2. destruct rest as [|x rest]; [discriminate|]. injection T2 as <- ->.
    pose proof (stop_NoDup ft n t _ F D) as N.
    assert (W : forall y, In y rest -> at_work (phase_of s y) /\ y <> m).
    { intros y Y. split; [apply (K m rest); auto|]. apply (mid_NoDup done rest m y N), in_or_app. right. exact Y. }
    apply (ending _ (done ++ [m]) rest); try assumption; [reflexivity|rewrite <- app_assoc; exact D| | |].
    + intros x X. cbn [phase_of]. apply in_app_or in X as [X|[<-|[]]]; [|apply upd_same].
      rewrite upd_other; [apply I, X|]. apply (mid_NoDup done rest m x N), in_or_app. left. exact X.
    + intros x r ->. cbn [phase_of]. destruct (W x (or_introl eq_refl)) as [Wx Nx]. rewrite upd_other by exact Nx. destruct Wx as [-> | ->]; discriminate.
    + intros x r y -> Y. cbn [phase_of]. destruct (W y (or_intror Y)) as [Wx Nx]. rewrite upd_other by exact Nx. exact Wx.
  - (* push *) destruct H as [done rest T' R' Pm I J|done rest T' R' D I J K]; [apply (starting _ done rest)|apply (ending _ done rest)]; assumption.
  - (* pop *) destruct H as [done rest T' R' Pm I J|done rest T' R' D I J K]; [apply (starting _ done rest)|apply (ending _ done rest)]; assumption.
Qed.

Lemma shape_reach : forall s0 s, shape s0 -> reach s0 s -> shape s.
Proof. intros s0 s H R. induction R as [|s0 s1 s2 R IH S]; [exact H|]. eapply shape_step; [apply IH, H|exact S]. Qed.

(** * What the reader of a data queue finds *)
Definition reader (m q : string) : Prop := exists e, opens m q false (Data e).

Lemma reader_handler : forall m q, reader m q -> plugin_is ft n t m DataLinkHandler.
Proof.
  intros m q (e & O). pose proof (opens_name _ _ _ _ _ _ _ O) as I. apply in_names in I as (p & I). destruct (name_module ft n t m p I) as (d & M & E & Ep).
  exists d. split; [exact M|]. split; [exact E|]. rewrite Ep. clear d M E Ep. apply opens_wired in O; [|exact F].
  inversion O; subst; apply (is_name_fun n t _ _ _ I); constructor; assumption.
Qed.
Lemma reader_not_sync : forall m q, reader m q -> q <> "time_sync_q".
Proof. intros m q (e & O). apply opens_wired in O; [|exact F]. inversion O; subst; destruct F as [<-|[<-|[<-|[<-|[]]]]]; cbn; discriminate. Qed.
Lemma reader_one : forall m q q', reader m q -> reader m q' -> q = q'.
Proof.
  intros m q q' (e & O) (e' & O'). apply opens_wired in O; [|exact F]. apply opens_wired in O'; [|exact F].
  inversion O; subst; inversion O'; subst; repeat match goal with E : (_ ++ _)%string = (_ ++ _)%string |- _ => cbn in E | E : String _ _ = (_ ++ _)%string |- _ => cbn in E end; strs; subst; reflexivity.
Qed.

Definition calm s m q : Prop := running s = false -> phase_of s m = Idle \/ phase_of s m = Closing -> queue s q = [].

Lemma writers_idle : forall s m q w x, shape s -> reader m q -> opens w q true x -> running s = false -> phase_of s m = Idle \/ phase_of s m = Closing ->
  phase_of s w = Idle.
Proof.
  intros s m q w x H Rd O Rs Pm. destruct H as [done rest T' R' P I J|done rest T' R' D I J K]; [congruence|]. destruct Rd as (e & Rd).
  assert (B : before w m (done ++ rest)).
  { apply (stop_order ft n t _ w m q _ _ F D O Rd). intros E. destruct (reader_not_sync m q (ex_intro _ e Rd) E). }
  pose proof (stop_NoDup ft n t _ F D) as N. destruct B as (l1 & l2 & l3 & B).
  assert (Im : In m (done ++ rest)) by (rewrite B; rewrite !in_app_iff; right; right; apply in_or_app; right; left; reflexivity).
  assert (Iw : In w (done ++ rest)) by (rewrite B; rewrite !in_app_iff; right; left; reflexivity).
  apply in_app_or in Iw as [Iw|Iw]; [apply I, Iw|exfalso].
  assert (C : (exists a b, done = a ++ m :: b) \/ exists b, rest = m :: b).
  { apply in_app_or in Im as [Im|Im]; [left; apply in_split in Im; exact Im|]. right. destruct rest as [|y rest]; [destruct Im|].
    destruct Im as [->|Im]; [eexists; reflexivity|]. pose proof (K y rest m eq_refl Im) as [E|E]; rewrite E in Pm; destruct Pm; discriminate. }
  assert (B2 : before m w (done ++ rest)).
  { destruct C as [(a & b & E)|(b & E)].
    - apply before_in; [rewrite E; apply in_or_app; right; left; reflexivity|exact Iw].
    - rewrite E in Iw. destruct Iw as [E2|Iw].
      + exfalso. subst w. rewrite B in N. apply NoDup_remove_2 in N. apply N. rewrite !in_app_iff. right. right. left. reflexivity.
      + rewrite E. apply in_split in Iw as (u & v & ->). exists done, u, v. reflexivity. }
  apply (before_antisym w m _ N); [|exact B2]. exists l1, l2, l3. exact B.
Qed.

Lemma calm_step : forall s s' m q, shape s -> reader m q -> calm s m q -> phase_of s m <> Lost -> ~ In (LLost m) (log s') -> step s s' ->
  calm s' m q /\ phase_of s' m <> Lost.
Proof.
  intros s s' m q H Rd C L NL S.
  destruct S as [s order T R D|s order T R D|s m' r T|s m' r T|s m' r T P|s m' r T P|s m' P G|s m' r T P|s m' q' x a P O|s m' q' x a r P O Q]; unfold calm; cbn [running phase_of queue].
  - split; [discriminate|exact L].
  - split; [|exact L]. intros _ Pm. exfalso. destruct H as [done rest T' R' Pn I J|done rest T' R' D' I _ _]; [|congruence]. rewrite T in T'. symmetry in T'. apply map_nil in T'. subst rest.
    rewrite app_nil_r in Pn. destruct Rd as (e & O). pose proof (I m (Permutation_in m (Permutation_sym Pn) (opens_name _ _ _ _ _ _ _ O))) as [E|E]; rewrite E in Pm; destruct Pm; congruence.
  - assert (R : running s = true) by (destruct H as [? rest T' R' _ _ _|? rest T' R' _ _ _ _]; [exact R'|rewrite T in T'; destruct rest; discriminate]).
    split; [congruence|]. unfold upd. destruct (String.eqb m m'); [discriminate|exact L].
  - assert (R : running s = true) by (destruct H as [? rest T' R' _ _ _|? rest T' R' _ _ _ _]; [exact R'|rewrite T in T'; destruct rest; discriminate]).
    split; [congruence|]. unfold upd. destruct (String.eqb_spec m m') as [->|]; [|exact L]. exfalso. apply NL. cbn [log]. apply in_or_app. right. left. reflexivity.
  - unfold upd. destruct (String.eqb m m'); [split; [intros _ [E|E]; discriminate|discriminate]|split; [exact C|exact L]].
  - unfold upd. destruct (String.eqb_spec m m') as [->|]; [congruence|split; [exact C|exact L]].
  - unfold upd. destruct (String.eqb_spec m m') as [->|]; [|split; [exact C|exact L]]. split; [|discriminate]. intros _ _. pose proof Rd as (e & O). apply (G (reader_handler m' q Rd) q e O).
  - unfold upd. destruct (String.eqb_spec m m') as [->|]; [|split; [exact C|exact L]]. split; [|discriminate]. intros Rs _. apply C; [exact Rs|]. right. exact P.
  - split; [|exact L]. intros Rs Pm. unfold upd. destruct (String.eqb_spec q q') as [->|]; [|apply C; assumption]. exfalso. apply P. eapply writers_idle; eassumption.
  - split; [|exact L]. intros Rs Pm. unfold upd. destruct (String.eqb_spec q q') as [->|]; [|apply C; assumption]. pose proof (C Rs Pm). congruence.
Qed.

Lemma log_grows : forall s s', step s s' -> exists l, log s' = log s ++ l.
Proof. intros s s' S. destruct S; cbn [log]; try (exists []; rewrite app_nil_r; reflexivity); eexists; reflexivity. Qed.

(** * The contents of a run *)
Lemma since_same : forall (whole l : list (event A)) e, e <> LBegin -> since_start (whole ++ [e]) l -> exists l', l = l' ++ [e] /\ since_start whole l'.
Proof.
  intros whole l e N (l1 & E & B). destruct l as [|b l _] using rev_ind.
  - apply app_inj_tail in E as [_ E]. congruence.
  - rewrite app_comm_cons, app_assoc in E. apply app_inj_tail in E as [E ->]. exists l. split; [reflexivity|]. exists l1. split; [exact E|].
    intros X. apply B, in_or_app. left. exact X.
Qed.
Lemma since_begin : forall (whole l : list (event A)), since_start (whole ++ [LBegin]) l -> l = [].
Proof.
  intros whole l (l1 & E & B). destruct l as [|b l _] using rev_ind; [reflexivity|]. exfalso. rewrite app_comm_cons, app_assoc in E. apply app_inj_tail in E as [_ <-].
  apply B, in_or_app. right. left. reflexivity.
Qed.
Lemma pushed_app : forall q (l1 l2 : list (event A)), pushed q (l1 ++ l2) = pushed q l1 ++ pushed q l2.
Proof. induction l1 as [|e l1 IH]; intros l2; [reflexivity|]. destruct e; cbn; rewrite ?IH; try reflexivity. destruct (String.eqb q0 q); reflexivity. Qed.
Lemma popped_app : forall q (l1 l2 : list (event A)), popped q (l1 ++ l2) = popped q l1 ++ popped q l2.
Proof. induction l1 as [|e l1 IH]; intros l2; [reflexivity|]. destruct e; cbn; rewrite ?IH; try reflexivity. destruct (String.eqb q0 q); reflexivity. Qed.

Definition balanced s q : Prop := forall l, since_start (log s) l -> pushed q l = popped q l ++ queue s q.

Lemma balanced_step : forall s s' m q, shape s -> reader m q -> calm s m q -> balanced s q -> step s s' -> balanced s' q.
Proof.
  intros s s' m q H Rd C B S.
  destruct S as [s order T R D|s order T R D|s m' r T|s m' r T|s m' r T P|s m' r T P|s m' P G|s m' r T P|s m' q' x a P O|s m' q' x a r P O Q]; unfold balanced; cbn [log queue]; try exact B; intros l Sl.
  - apply since_begin in Sl. subst l. cbn. symmetry. destruct H as [done rest T' R' Pn I J|done rest T' R' D' I J K]; [congruence|]. rewrite T in T'. symmetry in T'. apply map_nil in T'. subst rest.
    rewrite app_nil_r in D'. apply C; [exact R|]. left. apply I. destruct Rd as (e & O). apply (in_order _ D'), (opens_name _ _ _ _ _ _ _ O).
  - apply since_same in Sl as (l' & -> & Sl); [|discriminate]. rewrite pushed_app, popped_app. cbn. rewrite !app_nil_r. apply B, Sl.
  - apply since_same in Sl as (l' & -> & Sl); [|discriminate]. rewrite pushed_app, popped_app. cbn. rewrite !app_nil_r. unfold upd. rewrite (String.eqb_sym q q').
    destruct (String.eqb_spec q' q) as [->|]; [rewrite (B l' Sl), app_assoc; reflexivity|rewrite app_nil_r; apply B, Sl].
  - apply since_same in Sl as (l' & -> & Sl); [|discriminate]. rewrite pushed_app, popped_app. cbn. rewrite !app_nil_r. unfold upd. rewrite (String.eqb_sym q q').
    destruct (String.eqb_spec q' q) as [->|]; [rewrite (B l' Sl), Q, <- app_assoc; reflexivity|rewrite app_nil_r; apply B, Sl].
Qed.

Theorem runs : forall s m q, reach (initial A) s -> reader m q -> ~ In (LLost m) (log s) -> shape s /\ calm s m q /\ phase_of s m <> Lost /\ balanced s q.
Proof.
  intros s m q R Rd. remember (initial A) as s0 eqn:E. induction R as [s|s s1 s2 R IH S]; intros NL; subst.
  - split; [apply shape_init|]. split; [intros _ _; reflexivity|]. split; [discriminate|]. intros l (l1 & X & _). destruct l1; discriminate.
  - destruct (log_grows _ _ S) as (x & Ex). destruct (IH eq_refl) as (H & C & L & B); [intros X; apply NL; rewrite Ex; apply in_or_app; left; exact X|].
    destruct (calm_step s1 s2 m q H Rd C L NL S) as [C' L']. split; [eapply shape_step; eassumption|]. split; [exact C'|]. split; [exact L'|]. eapply balanced_step; eassumption.
Qed.

Lemma all_idle : forall s, shape s -> todo s = [] -> running s = false -> forall m, In m names -> phase_of s m = Idle.
Proof.
  intros s H T R m I. destruct H as [done rest T' R' P I' J|done rest T' R' D I' J K]; [congruence|]. rewrite T in T'. symmetry in T'. apply map_nil in T'. subst rest.
  rewrite app_nil_r in D. apply I', (in_order _ D), I.
Qed.

(** * Commands can always be finished *)
Lemma reach_trans : forall s1 s2 s3, reach s1 s2 -> reach s2 s3 -> reach s1 s3.
Proof. intros s1 s2 s3 R1 R2. induction R2 as [|s s' s'' R IH S]; [exact R1|]. eapply reach_step; [apply IH, R1|exact S]. Qed.
Lemma reach_one : forall s1 s2, step s1 s2 -> reach s1 s2.
Proof. intros. eapply reach_step; [apply reach_refl|eassumption]. Qed.

Lemma drain : forall l s m q, reader m q -> phase_of s m = Stopping -> queue s q = l ->
  exists s', reach s s' /\ queue s' q = [] /\ phase_of s' = phase_of s /\ todo s' = todo s /\ running s' = running s.
Proof.
  induction l as [|a l IH]; intros s m q Rd P Q.
  - exists s. split; [apply reach_refl|]. auto.
  - destruct Rd as (e & O). pose proof (pop ft n t A s m q (Data e) a l (or_intror P) O Q) as S.
    match type of S with Commands_model.step _ _ _ _ _ ?x => destruct (IH x m q (ex_intro _ e O) P) as (s' & R & E & E1 & E2 & E3) end; [cbn [queue]; apply upd_same|].
    exists s'. split; [eapply reach_trans; [apply reach_one, S|exact R]|]. auto.
Qed.

Lemma reader_dec : forall m, (exists q, reader m q) \/ ~ exists q, reader m q.
Proof.
  intros m. destruct (in_dec string_dec m names) as [I|I].
  - unfold Commands_model.names in I. apply in_map_iff in I as (d & <- & M). destruct (C63_wiring ft n t d F M) as (us & U & _ & _).
    assert (X : (exists u, In u us /\ snd (fst u) = false /\ exists e, snd u = Data e) \/ ~ exists u, In u us /\ snd (fst u) = false /\ exists e, snd u = Data e).
    { clear. induction us as [|[[q w] x] us IH]; [right; intros (u & [] & _)|]. destruct IH as [(u & I & H)|IH]; [left; exists u; split; [right; exact I|exact H]|].
      destruct w; [right; intros (u & [<-|I] & H & Z); [discriminate|apply IH; eauto]|].
      destruct x; try (right; intros (u & [<-|I] & H & (e' & Z)); [discriminate|apply IH; eauto]). left. eexists. split; [left; reflexivity|]. split; [reflexivity|eexists; reflexivity]. }
    assert (G : forall q, reader (m_name d) q -> exists u, In u us /\ snd (fst u) = false /\ exists e, snd u = Data e).
    { intros q (e & d' & us' & M' & E & U' & I'). assert (d' = d).
      { pose proof (names_NoDup ft n t F) as N. unfold Commands_model.names in N. clear - M M' E N. induction (modules ft n t) as [|b l IH]; [destruct M|]. cbn in N. inversion N as [|? ? NI N']; subst.
        destruct M as [->|M], M' as [->|M']; [reflexivity| | |apply IH; assumption]; exfalso; apply NI; [rewrite <- E|rewrite E]; apply in_map; assumption. }
      subst d'. rewrite U in U'. injection U' as <-. exists (q, false, Data e). split; [exact I'|]. split; [reflexivity|]. exists e. reflexivity. }
    destruct X as [([[q w] x] & I & W & (e & E))|X]; [|right; intros (q & Rd); apply X, (G q Rd)].
    cbn in W, E. subst w x. left. exists q, e, d, us. auto.
  - right. intros (q & e & O). apply I, (opens_name _ _ _ _ _ _ _ O).
Qed.

Lemma finish_one : forall s m r, todo s = (VStop, m) :: r -> phase_of s m <> Idle ->
  exists s', reach s s' /\ todo s' = r /\ running s' = running s.
Proof.
  intros s m r T P.
  assert (C : forall s, todo s = (VStop, m) :: r -> phase_of s m = Closing -> exists s', reach s s' /\ todo s' = r /\ running s' = running s).
  { intros u Tu Pu. eexists. split; [apply reach_one, (stop_returns ft n t A u m r Tu Pu)|]. split; reflexivity. }
  assert (D : forall s, todo s = (VStop, m) :: r -> phase_of s m = Stopping -> exists s', reach s s' /\ todo s' = r /\ running s' = running s).
  { intros u Tu Pu. destruct (reader_dec m) as [(q & Rd)|NR].
    - destruct (drain (queue u q) u m q Rd Pu eq_refl) as (u' & R1 & Q & E1 & E2 & E3).
      assert (S : step u' (mk_app (upd (phase_of u') m Closing) (queue u') (todo u') (running u') (log u'))).
      { apply reader_ends; [congruence|]. intros _ q' e O. rewrite (reader_one m q' q (ex_intro _ e O) Rd). exact Q. }
      match type of S with Commands_model.step _ _ _ _ _ ?x => destruct (C x (eq_trans E2 Tu) (upd_same _ _ _)) as (u2 & R2 & T2 & N2) end. cbn [running] in N2. exists u2. split; [|split; congruence].
      eapply reach_trans; [eapply reach_step; [exact R1|exact S]|exact R2].
    - assert (S : step u (mk_app (upd (phase_of u) m Closing) (queue u) (todo u) (running u) (log u))).
      { apply reader_ends; [exact Pu|]. intros _ q' e O. exfalso. apply NR. exists q', e. exact O. }
      match type of S with Commands_model.step _ _ _ _ _ ?x => destruct (C x Tu (upd_same _ _ _)) as (u2 & R2 & T2 & N2) end. cbn [running] in N2. exists u2. split; [|split; congruence].
      eapply reach_trans; [apply reach_one, S|exact R2]. }
  destruct (phase_of s m) eqn:Pm; [congruence| | |apply D; assumption|apply C; assumption].
  - pose proof (stop_module ft n t A s m r T Pm) as S. match type of S with Commands_model.step _ _ _ _ _ ?x => destruct (D x T (upd_same _ _ _)) as (u2 & R2 & T2 & N2) end. exists u2. split; [|auto]. eapply reach_trans; [apply reach_one, S|exact R2].
  - pose proof (stop_lost ft n t A s m r T Pm) as S. match type of S with Commands_model.step _ _ _ _ _ ?x => destruct (C x T (upd_same _ _ _)) as (u2 & R2 & T2 & N2) end. exists u2. split; [|auto]. eapply reach_trans; [apply reach_one, S|exact R2].
Qed.

Lemma finish : forall k s, length (todo s) = k -> shape s -> exists s', reach s s' /\ todo s' = [] /\ running s' = running s.
Proof.
  induction k as [|k IH]; intros s E H.
  - exists s. split; [apply reach_refl|]. split; [|reflexivity]. destruct (todo s); [reflexivity|discriminate].
  - assert (X : exists s', reach s s' /\ length (todo s') = k /\ running s' = running s).
    { destruct H as [done rest T' R' P I' J|done rest T' R' D I' J K]; destruct rest as [|m rest]; rewrite T' in E; try discriminate.
      - eexists. split; [apply reach_one, (start_module ft n t A s m _ T')|]. cbn [map length] in E. injection E as E. split; [exact E|reflexivity].
      - destruct (finish_one s m _ T' (J m rest eq_refl)) as (s' & R & T & Rn). exists s'. split; [exact R|]. split; [|exact Rn]. rewrite T. cbn [map length] in E. injection E as E. exact E. }
    destruct X as (s1 & R1 & E1 & N1). destruct (IH s1 E1 (shape_reach _ _ H R1)) as (s2 & R2 & T2 & N2). exists s2. split; [eapply reach_trans; eassumption|]. split; congruence.
Qed.
End Runs.
