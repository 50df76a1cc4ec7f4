(** Proofs about Feed_model.v: the invariant of orderly schedules. *)
From Coq Require Import ZArith List Bool Arith Lia.
From Verif Require Import Base_model Feed_model Feed_spec.
Import ListNotations.
Open Scope nat_scope.

Section Proofs.
Context {Conf St Out : Type}.
Variable begin : Conf -> option St -> res St.
Variable turn : Conf -> bool -> St -> res (option Out * St).
Notation action := (action Conf). Notation event := (event Conf Out). Notation cmd := (cmd Conf). Notation mop := (mop Conf).
Notation card := (card Conf St). Notation emul := (emul Conf St). Notation producer := (producer St).
Notation run := (card_run begin turn).
Notation step := (card_step begin turn).
Notation alone := (alone begin turn).
Notation fed := (fed begin turn).
Notation sound := (sound begin turn).
Notation orderly := (orderly begin turn).
Notation allowed := (allowed begin turn).
Implicit Types (s : card) (e : emul) (log ev : list event) (acts more : list action).

(** ** Runs and histories *)
Lemma run_app : forall a b s, run s (a ++ b) = do r <- run s a; do q <- run (fst r) b; Ok (fst q, snd r ++ snd q).
Proof.
  induction a as [|x a IH]; intros b s; simpl.
  - destruct (run s b) as [[]|]; reflexivity.
  - destruct (step s x) as [[s1 e1]|]; simpl; [|reflexivity]. rewrite IH. destruct (run s1 a) as [[s2 e2]|]; simpl; [|reflexivity].
    destruct (run s2 b) as [[s3 e3]|]; simpl; [|reflexivity]. rewrite app_assoc. reflexivity.
Qed.
Lemma run_snoc : forall a x s s' log, run s (a ++ [x]) = Ok (s', log) ->
  exists s1 l1 ev, run s a = Ok (s1, l1) /\ step s1 x = Ok (s', ev) /\ log = l1 ++ ev.
Proof.
  intros a x s s' log H. rewrite run_app in H. destruct (run s a) as [[s1 l1]|]; simpl in H; [|discriminate].
  destruct (step s1 x) as [[s2 e2]|] eqn:E; simpl in H; [|discriminate]. injection H as <- <-. rewrite app_nil_r.
  exists s1, l1, e2. auto.
Qed.

Lemma running_app : forall a b : list event, running (a ++ b) = running_from (running a) b.
Proof. unfold running. intros a. generalize false. induction a; intros; simpl; auto. Qed.
Lemma configured_app : forall a b : list event, configured (a ++ b) = configured_from (configured a) b.
Proof. unfold configured. intros a. generalize false. induction a; intros; simpl; auto. Qed.
Lemma current_app : forall a b : list event, current (a ++ b) = current_from (current a) b.
Proof. unfold current. intros a. generalize (@None cmd). induction a; intros; simpl; auto. Qed.
Lemma settings_app : forall i (a b : list event), settings i (a ++ b) = settings_from i (settings i a) b.
Proof. unfold settings. intros i a. generalize (@None Conf). induction a; intros; simpl; auto. Qed.
Lemma runs_app : forall i (a b : list event), runs i (a ++ b) = runs_from i (runs i a) b.
Proof. unfold runs. intros i a. generalize (@nil (list (Out * bool))). induction a; intros; simpl; auto. Qed.
Lemma ignored_app : forall (a b : list event), ignored (a ++ b) = ignored_from (ignored a) b.
Proof. unfold ignored. intros a. generalize (@nil nat). induction a; intros; simpl; auto. Qed.

(** ** What an emulator makes *)
Lemma makes_app : forall c a b x, makes turn c (a ++ b) x =
  do r <- makes turn c a x; do q <- makes turn c b (snd r); Ok (fst r ++ fst q, snd q).
Proof.
  induction a as [|q a IH]; intros b x; simpl.
  - destruct (makes turn c b x) as [[]|]; reflexivity.
  - destruct (turn c q x) as [[o x1]|]; simpl; [|reflexivity]. rewrite IH. destruct (makes turn c a x1) as [[l x2]|]; simpl; [|reflexivity].
    destruct (makes turn c b x2) as [[m x3]|]; simpl; [|reflexivity]. destruct o; reflexivity.
Qed.
Lemma alone_turn : forall c last queue r x q, alone c last queue = Ok (r, x) ->
  alone c last (queue ++ [q]) = do (o, x1) <- turn c q x; Ok (match o with Some p => r ++ [(p, q)] | None => r end, x1).
Proof.
  unfold Feed_spec.alone. intros c last queue r x q H. destruct (begin c last) as [x0|]; simpl in *; [|discriminate].
  rewrite makes_app, H. simpl. destruct (turn c q x) as [[[p|] x1]|]; simpl; rewrite ?app_nil_r; reflexivity.
Qed.

(** ** One link *)
Definition local (p : producer) : option (nat * St) :=
  match p with
  | Head f x | Pushed f x | Counted f x | Rate f x | Limit f x _ => Some (f, x)
  | _ => None
  end.

Record link_inv e (o : option Conf) (rs : list (list (Out * bool))) : Prop := mkLinkInv {
  l_set : e_set e = true -> exists f c, e_file e = Some (f, Some c);
  l_file : forall f c, e_file e = Some (f, Some c) -> o = Some c /\ sound c;
  l_work : forall f x, local (e_thread e) = Some (f, x) -> exists c r rs' queue,
    e_file e = Some (f, Some c) /\ rs = r :: rs' /\ fed c rs' (e_last e) /\ alone c (e_last e) queue = Ok (r, x);
  l_given : e_thread e = Given -> exists f c rs', e_file e = Some (f, Some c) /\ rs = [] :: rs' /\ fed c rs' (e_last e);
  l_rest : ready (e_thread e) = true -> forall c, o = Some c -> fed c rs (e_last e);
  l_lim : ready (e_thread e) = false -> exists l, e_lim e = Some l /\ forall f x l', e_thread e = Limit f x l' -> l' = l;
  l_alive : ready (e_thread e) = false -> e_alive e = true
}.

(** Events of producers and of monitoring. *)
Definition quiet (ev : list event) : Prop :=
  forall x, In x ev -> match x with EPush _ _ _ | ETotal _ _ | ENew _ _ => True | _ => False end.
Lemma quiet_running : forall ev, quiet ev -> forall b, running_from b ev = b.
Proof. induction ev as [|x ev IH]; intros Q b; [reflexivity|]. pose proof (Q x (or_introl eq_refl)). destruct x; try contradiction; apply IH; firstorder. Qed.
Lemma quiet_configured : forall ev, quiet ev -> forall b, configured_from b ev = b.
Proof. induction ev as [|x ev IH]; intros Q b; [reflexivity|]. pose proof (Q x (or_introl eq_refl)). destruct x; try contradiction; apply IH; firstorder. Qed.
Lemma quiet_current : forall ev, quiet ev -> forall b, current_from b ev = b.
Proof. induction ev as [|x ev IH]; intros Q b; [reflexivity|]. pose proof (Q x (or_introl eq_refl)). destruct x; try contradiction; apply IH; firstorder. Qed.
Lemma quiet_settings : forall i ev, quiet ev -> forall b, settings_from i b ev = b.
Proof. induction ev as [|x ev IH]; intros Q b; [reflexivity|]. pose proof (Q x (or_introl eq_refl)). destruct x; try contradiction; apply IH; firstorder. Qed.
Lemma quiet_ignored : forall ev, quiet ev -> forall b, ignored_from b ev = b.
Proof. induction ev as [|x ev IH]; intros Q b; [reflexivity|]. pose proof (Q x (or_introl eq_refl)). destruct x; try contradiction; apply IH; firstorder. Qed.
Lemma quiet_destroy : forall ev, quiet ev -> forall c, ~ In (ECommand c) ev.
Proof. intros ev Q c H. apply (Q _ H). Qed.

(** What a turn of the producer of link [i] may do. *)
Record turned (i : nat) (s s' : card) (ev : list event) : Prop := mkTurned {
  t_n : k_n s' = k_n s;
  t_conf : k_conf s' = k_conf s;
  t_marker : k_marker s' = k_marker s;
  t_todo : k_todo s' = k_todo s;
  t_other : forall j, j <> i -> k_emu s' j = k_emu s j;
  t_file : e_file (k_emu s' i) = e_file (k_emu s i);
  t_set : e_set (k_emu s' i) = e_set (k_emu s i);
  t_alive : e_alive (k_emu s' i) = e_alive (k_emu s i);
  t_quiet : quiet ev;
  t_runs : forall j, j <> i -> forall rs, runs_from j rs ev = rs;
  t_ready : ready (e_thread (k_emu s i)) = true ->
    ready (e_thread (k_emu s' i)) = true /\ e_last (k_emu s' i) = e_last (k_emu s i) /\ forall rs, runs_from i rs ev = rs;
  t_off : e_thread (k_emu s i) = Off -> e_thread (k_emu s' i) = Off
}.

Lemma turned_id : forall i s, turned i s s [].
Proof. intros i s. constructor; auto. intros x []. Qed.
Lemma turned_emu : forall i s e, e_file e = e_file (k_emu s i) -> e_set e = e_set (k_emu s i) -> e_alive e = e_alive (k_emu s i) ->
  (ready (e_thread (k_emu s i)) = true -> ready (e_thread e) = true /\ e_last e = e_last (k_emu s i)) ->
  (e_thread (k_emu s i) = Off -> e_thread e = Off) -> turned i s (set_emu s i e) [].
Proof.
  intros i s e F S A R O. constructor; simpl; auto; rewrite ?Nat.eqb_refl; auto.
  - intros j N. apply Nat.eqb_neq in N. rewrite N. reflexivity.
  - intros x [].
  - intros H. destruct (R H). auto.
Qed.

Lemma thread_ok : forall s i q o rs, link_inv (k_emu s i) o rs ->
  exists s' ev, thread_step begin turn s i q = Ok (s', ev) /\ turned i s s' ev /\ link_inv (k_emu s' i) o (runs_from i rs ev).
Proof.
  intros s i q o rs [LS LF LW LG LR LL LA]. unfold thread_step. destruct (e_thread (k_emu s i)) as [| | |f x|f x|f x|f x|f x l] eqn:T.
  - exists s, []. split; [reflexivity|]. split; [apply turned_id|]. simpl. rewrite <- T in *. constructor; auto.
  - destruct (LG eq_refl) as (f & c & rs' & F & -> & G). rewrite F. destruct (LF _ _ F) as [-> SD].
    pose proof (SD rs' _ [] G) as NC. unfold Feed_spec.alone in NC. destruct (begin c (e_last (k_emu s i))) as [x|] eqn:B; [|contradiction NC; reflexivity].
    simpl. eexists _, _. split; [reflexivity|]. split.
    { apply turned_emu; simpl; auto; rewrite T; discriminate. }
    simpl. rewrite Nat.eqb_refl. destruct (LL eq_refl) as (l & L & _). specialize (LA eq_refl). constructor; simpl; auto; try discriminate.
    + intros f' x' E. injection E as <- <-. exists c, [], rs', []. repeat (split; [assumption || reflexivity|]). unfold Feed_spec.alone. rewrite B. reflexivity.
    + intros _. exists l. split; [exact L|]. discriminate.
  - eexists _, _. split; [reflexivity|]. split; [apply turned_emu; simpl; auto; discriminate|]. simpl. rewrite Nat.eqb_refl. constructor; simpl; auto; try discriminate.
  - destruct (LW _ _ eq_refl) as (c & r & rs' & queue & F & -> & G & A). destruct (LL eq_refl) as (l & L & _). pose proof (LA eq_refl) as AL.
    destruct (LF _ _ F) as [-> SD]. destruct (k_marker s).
    + rewrite F, Nat.eqb_refl, AL. simpl. pose proof (SD rs' _ (queue ++ [q]) G) as NC. pose proof (alone_turn _ _ _ _ _ q A) as AT. rewrite AT in NC.
      destruct (turn c q x) as [[o x1]|]; [|contradiction NC; reflexivity]. simpl in AT. simpl. destruct o as [p|].
      * eexists _, _. split; [reflexivity|]. split.
        { constructor; simpl; auto; rewrite ?Nat.eqb_refl, ?T; simpl; auto; try discriminate.
          - intros j N. apply Nat.eqb_neq in N. rewrite N. reflexivity.
          - intros y [<-|[]]. exact I.
          - intros j N rs. apply not_eq_sym in N. apply Nat.eqb_neq in N. rewrite N. reflexivity. }
        simpl. rewrite Nat.eqb_refl. simpl. constructor; simpl; auto; try discriminate.
        -- intros f' x' E. injection E as <- <-. exists c, (r ++ [(p, q)]), rs', (queue ++ [q]). auto.
        -- intros _. exists l. split; [exact L|]. discriminate.
      * eexists _, _. split; [reflexivity|]. split; [apply turned_emu; simpl; auto; rewrite T; discriminate|].
        simpl. rewrite Nat.eqb_refl. constructor; simpl; auto; try discriminate.
        -- intros f' x' E. injection E as <- <-. exists c, r, rs', (queue ++ [q]). auto.
        -- intros _. exists l. split; [exact L|]. discriminate.
    + eexists _, _. split; [reflexivity|]. split; [apply turned_emu; simpl; auto; rewrite T; discriminate|].
      simpl. rewrite Nat.eqb_refl. constructor; simpl; auto; try discriminate.
      intros _ k E. injection E as <-. econstructor; eassumption.
  - eexists _, _. split; [reflexivity|]. split; [apply turned_emu; simpl; auto; rewrite T; discriminate|].
    simpl. rewrite Nat.eqb_refl. destruct (LL eq_refl) as (l & L & _). constructor; simpl; auto; try discriminate.
    intros _. exists l. split; [exact L|]. discriminate.
  - eexists _, _. split; [reflexivity|]. split; [apply turned_emu; simpl; auto; rewrite T; discriminate|].
    simpl. rewrite Nat.eqb_refl. destruct (LL eq_refl) as (l & L & _). constructor; simpl; auto; try discriminate.
    intros _. exists l. split; [exact L|]. discriminate.
  - destruct (LL eq_refl) as (l & L & _). rewrite L.
    eexists _, _. split; [reflexivity|]. split; [apply turned_emu; simpl; auto; rewrite T; discriminate|].
    simpl. rewrite Nat.eqb_refl. constructor; simpl; auto; try discriminate.
    intros _. exists l. split; [exact L|]. intros f' x' l' E. congruence.
  - destruct (LL eq_refl) as (l0 & L & X). rewrite L. rewrite (X _ _ _ eq_refl), Nat.eqb_refl.
    eexists _, _. split; [reflexivity|]. split; [apply turned_emu; simpl; auto; rewrite T; discriminate|].
    simpl. rewrite Nat.eqb_refl. constructor; simpl; auto; try discriminate.
    intros _. exists l0. split; [exact L|]. discriminate.
Qed.

(** Monitoring. *)
Lemma monitor_ok : forall s i e ev, e_file e = e_file (k_emu s i) -> e_set e = e_set (k_emu s i) -> e_alive e = e_alive (k_emu s i) ->
  e_thread e = e_thread (k_emu s i) -> e_last e = e_last (k_emu s i) -> e_lim e = e_lim (k_emu s i) ->
  forall o rs, link_inv (k_emu s i) o rs -> link_inv e o rs.
Proof. intros s i e ev F S A T L M o rs []. constructor; rewrite ?F, ?S, ?A, ?T, ?L, ?M; auto. Qed.

(** ** The card *)
Definition rest s : Prop := k_marker s = false /\ forall i, ready (e_thread (k_emu s i)) = true.
Definition on s log : Prop := if running log then k_marker s = true else rest s.
Definition conf_prog (m : list mop) : Prop :=
  exists l, m = map (fun x => MConf (fst x) (snd x)) l ++ [MCheck] /\ forall i c, In (i, Some c) l -> sound c.
(** Link [i] is about to be started: its newest run is empty. *)
Definition pending s log (i : nat) : Prop :=
  exists rs, runs i log = [] :: rs /\ forall c, settings i log = Some c -> fed c rs (e_last (k_emu s i)).

Definition mode s log : Prop :=
  match k_todo s with
  | None => on s log
  | Some (CConf _, m) => (m = [] /\ k_conf s = true /\ on s log) \/ (running log = false /\ rest s /\ k_conf s = false /\ conf_prog m)
  | Some (CScrap, m) => running log = false /\ rest s /\ configured log = false /\
      ((exists j, m = map MScrap (seq j (k_n s - j)) ++ [MUnset]) \/ (m = [] /\ k_conf s = false))
  | Some (CStart, m) => running log = false /\ configured log = true /\ ~ In (ECommand CDestroy) log /\
      ((m = MMarker true :: map MStart (seq 0 (k_n s)) /\ rest s /\ forall i, pending s log i) \/
       (k_marker s = true /\ exists j, j <= k_n s /\ m = map MStart (seq j (k_n s - j)) /\
        forall i, j <= i < k_n s -> ready (e_thread (k_emu s i)) = true /\ pending s log i))
  | Some (CStop, m) =>
      (m = MMarker false :: map MWait (seq 0 (k_n s)) /\ on s log) \/
      (k_marker s = false /\ exists j, j <= k_n s /\ m = map MWait (seq j (k_n s - j)) /\ forall i, i < j -> ready (e_thread (k_emu s i)) = true)
  | Some (CDestroy, m) => running log = false /\ rest s /\ forall x, In x m -> exists i, x = MDrop i \/ x = MJoin i
  end.

Definition conf_known (t : option (cmd * list mop)) : Prop := match t with Some (CConf _, _) | Some (CScrap, _) => False | _ => True end.
Record inv s log : Prop := mkInv {
  v_current : current log = option_map fst (k_todo s);
  v_link : forall i, link_inv (k_emu s i) (settings i log) (runs i log);
  v_out : forall i, k_n s <= i -> e_thread (k_emu s i) = Off;
  v_conf : k_conf s = true -> forall i, i < k_n s -> exists f c, e_file (k_emu s i) = Some (f, Some c);
  v_hist : configured log = true -> k_conf s = true;
  v_idle : conf_known (k_todo s) -> k_conf s = configured log;
  v_alive : ~ In (ECommand CDestroy) log -> forall i, e_alive (k_emu s i) = true;
  v_mode : mode s log
}.

Lemma not_in_app : forall (x : event) a b, ~ In x (a ++ b) -> ~ In x a.
Proof. intros x a b H I. apply H. apply in_or_app. auto. Qed.

(** Steps of producers and of monitoring keep it. *)
Lemma rest_turned : forall i s s' ev, turned i s s' ev -> rest s -> rest s'.
Proof.
  intros i s s' ev [TN TC TM TT TO TF TS TA TQ TR TY TZ] [M R]. split; [congruence|]. intros j. destruct (Nat.eq_dec j i) as [->|N].
  - apply TY. apply R.
  - rewrite TO by auto. apply R.
Qed.

Lemma turned_inv : forall i s s' log ev, inv s log -> turned i s s' ev -> link_inv (k_emu s' i) (settings i log) (runs_from i (runs i log) ev) ->
  inv s' (log ++ ev).
Proof.
  intros i s s' log ev [VC VL VO VF VH VI VA VM] T L. pose proof T as [TN TC TM TT TO TF TS TA TQ TR TY TZ]. constructor.
  - rewrite current_app, quiet_current by auto. rewrite TT. exact VC.
  - intros j. rewrite settings_app, quiet_settings, runs_app by auto. destruct (Nat.eq_dec j i) as [->|N]; [exact L|]. rewrite TR, TO by auto. apply VL.
  - intros j H. rewrite TN in H. destruct (Nat.eq_dec j i) as [->|N]; [|rewrite TO by auto; auto]. apply TZ. auto.
  - rewrite TC, TN. intros H j J. destruct (Nat.eq_dec j i) as [->|N]; [rewrite TF|rewrite TO by auto]; auto.
  - rewrite configured_app, quiet_configured, TC by auto. auto.
  - rewrite configured_app, quiet_configured, TC, TT by auto. auto.
  - intros H j. apply not_in_app in H. destruct (Nat.eq_dec j i) as [->|N]; [rewrite TA|rewrite TO by auto]; auto.
  - assert (RU : running (log ++ ev) = running log) by (rewrite running_app; apply quiet_running; auto).
    assert (CO : configured (log ++ ev) = configured log) by (rewrite configured_app; apply quiet_configured; auto).
    assert (ON : on s log -> on s' (log ++ ev)).
    { unfold on. rewrite RU. destruct (running log); [congruence|]. apply (rest_turned _ _ _ _ T). }
    assert (PE : forall j, ready (e_thread (k_emu s j)) = true -> pending s log j -> ready (e_thread (k_emu s' j)) = true /\ pending s' (log ++ ev) j).
    { intros j RY (rs & E & F). unfold pending. rewrite runs_app, settings_app, quiet_settings by auto. destruct (Nat.eq_dec j i) as [->|N].
      - destruct (TY RY) as (Y & LA & RR). split; [exact Y|]. exists rs. rewrite RR, LA. auto.
      - rewrite TO, TR by auto. eauto. }
    unfold mode in *. rewrite TT, TN, TC, RU, CO. destruct (k_todo s) as [[[l| | | |] m]|].
    + destruct VM as [(A & B & C)|(A & B & C & D)]; [left; auto|right]. split; [exact A|]. split; [eapply rest_turned; eauto|]. auto.
    + destruct VM as (A & B & C). split; [exact A|]. split; [eapply rest_turned; eauto|]. exact C.
    + destruct VM as (A & B & C & D). split; [exact A|]. split; [exact B|]. split.
      { intros H. apply in_app_or in H. destruct H as [H|H]; [auto|]. eapply quiet_destroy; eauto. }
      destruct D as [(E & F & G)|(E & j & J & F & G)].
      * left. split; [exact E|]. split; [eapply rest_turned; eauto|]. intros k. apply PE; auto. apply F.
      * right. split; [congruence|]. exists j. split; [exact J|]. split; [exact F|]. intros k K. destruct (G k K). apply PE; auto.
    + destruct VM as [(A & B)|(A & j & J & B & C)]; [left; auto|right]. split; [congruence|]. exists j. split; [exact J|]. split; [exact B|].
      intros k K. specialize (C k K). destruct (Nat.eq_dec k i) as [->|N]; [apply TY; auto|]. rewrite TO by auto. exact C.
    + destruct VM as (A & B & C). split; [exact A|]. split; [eapply rest_turned; eauto|]. exact C.
    + auto.
Qed.

Lemma thread_inv : forall s log i q, inv s log -> exists s' ev, step s (AThread i q) = Ok (s', ev) /\ inv s' (log ++ ev) /\ turned i s s' ev.
Proof.
  intros s log i q I. destruct (thread_ok s i q _ _ (v_link _ _ I i)) as (s' & ev & E & T & L). exists s', ev. split; [exact E|]. split; [|exact T].
  eapply turned_inv; eauto.
Qed.
Lemma total_inv : forall s log i, inv s log -> inv s (log ++ [ETotal i (e_tot (k_emu s i))]).
Proof.
  intros s log i I. eapply (turned_inv i); eauto.
  - constructor; auto. intros x [<-|[]]. exact Logic.I.
  - simpl. apply (v_link _ _ I).
Qed.
Lemma new_inv : forall s log i s' ev, inv s log -> step s (ANew i) = Ok (s', ev) -> inv s' (log ++ ev) /\ turned i s s' ev.
Proof.
  intros s log i s' ev I E. simpl in E. injection E as <- <-.
  assert (T : turned i s (set_emu s i (mkEmul (e_set (k_emu s i)) (e_file (k_emu s i)) (e_lim (k_emu s i)) (e_last (k_emu s i)) 0 (e_tot (k_emu s i)) (e_thread (k_emu s i)) (e_alive (k_emu s i)))) [ENew i (e_new (k_emu s i))]).
  { constructor; simpl; auto; rewrite ?Nat.eqb_refl; auto.
    - intros j N. apply Nat.eqb_neq in N. rewrite N. reflexivity.
    - intros x [<-|[]]. exact Logic.I. }
  split; [|exact T]. eapply (turned_inv i); eauto. simpl. rewrite Nat.eqb_refl.
  destruct (v_link _ _ I i). constructor; simpl; auto.
Qed.

(** The commands. *)
Lemma rest_fed : forall s log i, inv s log -> ready (e_thread (k_emu s i)) = true -> forall c, settings i log = Some c -> fed c (runs i log) (e_last (k_emu s i)).
Proof. intros s log i I R c E. destruct (v_link _ _ I i). auto. Qed.

Lemma issue_inv : forall s log c, inv s log -> current log = None -> allowed log c -> inv (set_todo s (Some (c, program s c))) (log ++ [ECommand c]).
Proof.
  intros s log c I CU [ND AL]. pose proof I as [VC VL VO VF VH VI VA VM]. assert (k_todo s = None) as T by (rewrite CU in VC; destruct (k_todo s); [discriminate|reflexivity]).
  assert (k_conf s = configured log) as VI' by (apply VI; rewrite T; exact Logic.I). clear VI. rename VI' into VI. unfold mode in VM. rewrite T in VM.
  assert (RU : running (log ++ [ECommand c]) = running log) by (rewrite running_app; destruct c; reflexivity).
  assert (SE : forall i, settings i (log ++ [ECommand c]) = settings i log) by (intros i; rewrite settings_app; reflexivity).
  assert (RR : c <> CStart -> forall i, runs i (log ++ [ECommand c]) = runs i log) by (intros NS i; rewrite runs_app; destruct c; auto; contradiction).
  constructor; simpl.
  - rewrite current_app. reflexivity.
  - intros i. rewrite SE. destruct c; try (rewrite RR by discriminate; apply VL).
    rewrite runs_app. simpl. destruct AL as [RF CF]. unfold on in VM. rewrite RF in VM. destruct VM as [_ RS]. specialize (RS i).
    pose proof (VL i) as [LS LF LW LG LR LL LA]. constructor; auto.
    + intros f x E. destruct (e_thread (k_emu s i)); discriminate.
    + intros E. rewrite E in RS. discriminate.
    + intros _ k E. apply fed_idle. auto.
  - exact VO.
  - exact VF.
  - rewrite configured_app. intros H. apply VH. destruct c; simpl in H; congruence.
  - intros H. rewrite configured_app. destruct c; simpl in *; auto; contradiction.
  - intros H. apply not_in_app in H. auto.
  - unfold mode. simpl. rewrite RU. destruct c as [l| | | |]; simpl.
    + destruct (k_conf s) eqn:K; [left|right].
      * split; [reflexivity|]. split; [reflexivity|]. unfold on in *. simpl. rewrite RU. exact VM.
      * destruct AL as [[AL|AL] SO]; [|rewrite AL in VI; discriminate]. unfold on in VM. rewrite AL in VM. split; [exact AL|]. split; [exact VM|]. split; [reflexivity|].
        exists l. auto.
    + unfold on in VM. rewrite AL in VM. split; [exact AL|]. split; [exact VM|]. split; [rewrite configured_app; reflexivity|]. left. exists 0. rewrite Nat.sub_0_r. reflexivity.
    + destruct AL as [RF CF]. unfold on in VM. rewrite RF in VM. split; [exact RF|]. split; [rewrite configured_app; exact CF|]. split.
      { intros H. apply in_app_or in H. destruct H as [H|[H|[]]]; [auto|discriminate]. }
      left. split; [reflexivity|]. split; [exact VM|]. intros i. exists (runs i log). rewrite SE, runs_app. split; [reflexivity|]. simpl.
      intros k E. eapply rest_fed; eauto. apply VM.
    + left. split; [reflexivity|]. unfold on in *. simpl. rewrite RU. exact VM.
    + unfold on in VM. rewrite AL in VM. split; [exact AL|]. split; [exact VM|]. intros x X. apply in_flat_map in X. destruct X as (i & _ & [<-|[<-|[]]]); eauto.
Qed.

Lemma seq_cons : forall (j n : nat), j < n -> seq j (n - j) = j :: seq (S j) (n - S j).
Proof. intros j n H. replace (n - j) with (S (n - S j)) by lia. reflexivity. Qed.

End Proofs.
