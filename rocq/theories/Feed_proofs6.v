(** Proofs about Feed_model.v: commands out of order; a start that comes too soon. *)
From Coq Require Import ZArith List Bool Arith Lia.
From Verif Require Import Base_model Feed_model Feed_spec Feed_proofs Feed_proofs2 Feed_proofs3 Feed_proofs4 Feed_proofs5.
Import ListNotations.
Open Scope nat_scope.

Section Proofs.
Context {Conf St Out : Type}.
Variable begin : Conf -> option St -> res St.
Variable turn : Conf -> bool -> St -> res (option Out * St).
Notation action := (action Conf). Notation event := (event Conf Out). Notation cmd := (cmd Conf). Notation mop := (mop Conf).
Notation card := (card Conf St). Notation emul := (emul Conf St). Notation producer := (producer St).
Notation run := (card_run begin turn).
Notation step := (card_step begin turn).
Notation sound := (sound begin turn).
Notation orderly := (orderly begin turn).
Notation allowed := (allowed begin turn).
Notation cstep := (@command_step Conf St Out).
Notation inv := (inv begin turn). Notation mode := (mode begin turn). Notation link_inv := (link_inv begin turn).
Implicit Types (s : card) (log ev : list event) (acts more : list action).

Lemma running_marker : forall s log, inv s log -> running log = true -> current log = None -> k_todo s = None /\ k_marker s = true.
Proof.
  intros s log I R C. rewrite (v_current _ _ _ _ I) in C. pose proof (v_mode _ _ _ _ I) as MD. unfold Feed_proofs.mode in MD. destruct (k_todo s) as [[]|]; [discriminate|].
  unfold on in MD. rewrite R in MD. auto.
Qed.
Lemma at_work : forall s log i, inv s log -> live s log -> running log = true -> current log = None -> i < k_n s ->
  (ready (e_thread (k_emu s i)) = false <-> ~ In i (ignored log)).
Proof.
  intros s log i I L R C J. destruct (running_marker s log I R C) as [T _]. unfold live in L. rewrite T in L. apply (L R i J).
Qed.

Lemma crash_cons : forall s a more s1 e1, step s a = Ok (s1, e1) -> run s1 more = Crash -> run s (a :: more) = Crash.
Proof. intros s a more s1 e1 E C. simpl. rewrite E. simpl. rewrite C. reflexivity. Qed.
Lemma crash_app : forall s a more s1 e1, run s a = Ok (s1, e1) -> run s1 more = Crash -> run s (a ++ more) = Crash.
Proof. intros s a more s1 e1 E C. rewrite run_app, E. simpl. rewrite C. reflexivity. Qed.

(** The steps of a start up to link [i]. *)
Lemma start_steps : forall j s m, k_todo s = Some (CStart, map MStart (seq (k_n s - j) j) ++ m) -> forall k, k <= j ->
  exists s' ev, run s (repeat AStep k) = Ok (s', ev) /\ k_n s' = k_n s /\ k_next s' = k_next s + k /\
    k_todo s' = Some (CStart, map MStart (seq (k_n s - j + k) (j - k)) ++ m) /\
    forall i, (i < k_n s - j + k -> k_n s - j <= i -> e_lim (k_emu s' i) = Some (k_next s + (i - (k_n s - j)))) /\
              e_thread (k_emu s' i) = match e_thread (k_emu s i) with Off => e_thread (k_emu s' i) | p => p end.
Proof.
  intros j s m T k. induction k as [|k IH]; intros K.
  - exists s, []. rewrite !Nat.add_0_r, Nat.sub_0_r. split; [reflexivity|]. split; [reflexivity|]. split; [reflexivity|]. split; [exact T|]. intros i. split; [lia|]. destruct (e_thread (k_emu s i)); reflexivity.
  - destruct IH as (s1 & e1 & E1 & N1 & X1 & T1 & H1); [lia|]. cbn [repeat]. rewrite repeat_cons, run_app, E1. cbn [bind fst snd].
    replace (j - k) with (S (j - S k)) in T1 by lia. simpl in T1. simpl. unfold command_step. rewrite T1. simpl. eexists _, _. split; [reflexivity|]. simpl.
    split; [exact N1|]. split; [lia|]. split; [replace (k_n s - j + S k) with (S (k_n s - j + k)) by lia; reflexivity|].
    intros i. destruct (Nat.eqb_spec i (k_n s - j + k)) as [->|NE]; simpl.
    + split; [intros; f_equal; lia|]. destruct (H1 (k_n s - j + k)) as [_ H]. rewrite H. destruct (e_thread (k_emu s (k_n s - j + k))); reflexivity.
    + destruct (H1 i) as [A B]. split; [intros; apply A; lia|exact B].
Qed.

Lemma start_in_a_run : forall s log i f x l, inv s log -> ids s -> k_todo s = None -> i < k_n s -> e_thread (k_emu s i) = Limit f x l ->
  run s (ACommand CStart :: repeat AStep (i + 2) ++ [AThread i true]) = Crash.
Proof.
  intros s log i f x l I D T J H. pose proof (v_link _ _ _ _ I i) as [LS LF LW LG LR LL LA]. rewrite H in LL. destruct (LL eq_refl) as (l0 & L & E). specialize (E _ _ _ eq_refl). subst l0.
  pose proof (proj1 (D i) _ L) as LT. eapply crash_cons; [simpl; rewrite T; reflexivity|]. replace (i + 2) with (S (S i)) by lia. cbn [repeat app].
  eapply crash_cons; [reflexivity|]. set (s1 := set_todo _ _).
  destruct (start_steps (k_n s) s1 []) with (k := S i) as (s2 & e2 & E2 & N2 & X2 & T2 & H2).
  { simpl. rewrite Nat.sub_diag, app_nil_r. reflexivity. }
  { lia. }
  change (AStep :: repeat AStep i ++ [AThread i true]) with (repeat (@AStep Conf) (S i) ++ [AThread i true]). eapply crash_app; [exact E2|]. simpl. destruct (H2 i) as [A B]. simpl in A, B. rewrite Nat.sub_diag, Nat.sub_0_r in A. rewrite H in B.
  unfold thread_step. rewrite B, A by lia. destruct (Nat.eqb_spec (k_next s + i) l); [lia|]. reflexivity.
Qed.

(** The steps of a scrap. *)
Lemma scrap_steps : forall j s m, j <= k_n s -> k_todo s = Some (CScrap, map MScrap (seq (k_n s - j) j) ++ m) ->
  exists s' ev, run s (repeat AStep j) = Ok (s', ev) /\ k_n s' = k_n s /\ k_next s' = k_next s /\ k_todo s' = Some (CScrap, m) /\ k_marker s' = k_marker s /\
    forall i, e_thread (k_emu s' i) = e_thread (k_emu s i) /\ (k_n s - j <= i < k_n s -> e_set (k_emu s' i) = false) /\ (e_set (k_emu s i) = false -> e_set (k_emu s' i) = false).
Proof.
  induction j as [|j IH]; intros s m LE T.
  - exists s, []. split; [reflexivity|]. simpl in T. split; [reflexivity|]. split; [reflexivity|]. split; [exact T|]. split; [reflexivity|]. intros i. split; [reflexivity|]. split; [lia|auto].
  - simpl in T. simpl. unfold command_step. rewrite T. simpl. set (s1 := set_todo _ _).
    destruct (IH s1 m) as (s2 & e2 & E2 & N2 & X2 & T2 & M2 & H2). { simpl. lia. } { simpl. replace (k_n s - j) with (S (k_n s - S j)) by lia. reflexivity. }
    simpl. rewrite E2. simpl. exists s2, e2. split; [reflexivity|]. split; [exact N2|]. split; [exact X2|]. split; [exact T2|]. split; [exact M2|].
    intros i. destruct (H2 i) as (A & B & C). split; [rewrite A; simpl; destruct (Nat.eqb_spec i (k_n s - S j)) as [->|]; reflexivity|]. simpl in *. split.
    * intros R. destruct (Nat.eq_dec i (k_n s - S j)) as [->|NE]; [apply C; rewrite Nat.eqb_refl; reflexivity|]. apply B; lia.
    * intros S0. apply C. destruct (Nat.eqb_spec i (k_n s - S j)); [reflexivity|exact S0].
Qed.

Lemma conf_in_a_run : forall s log i f x c, inv s log -> ids s -> k_todo s = None -> k_marker s = true -> i < k_n s -> e_thread (k_emu s i) = Head f x ->
  run s (ACommand CScrap :: repeat AStep (k_n s + 2) ++ [ACommand (CConf [(i, Some c)]); AStep; AThread i true]) = Crash.
Proof.
  intros s log i f x c I D T M J H. pose proof (v_link _ _ _ _ I i) as [LS LF LW LG LR LL LA]. rewrite H in LW. destruct (LW _ _ eq_refl) as (c0 & r & rs & queue & F & _).
  pose proof (proj2 (D i) _ _ F) as LT. eapply crash_cons; [simpl; rewrite T; reflexivity|]. rewrite repeat_app, <- app_assoc. set (s1 := set_todo _ _).
  destruct (scrap_steps (k_n s) s1 [MUnset]) as (s2 & e2 & E2 & N2 & X2 & T2 & M2 & H2).
  { simpl. lia. } { simpl. rewrite Nat.sub_diag. reflexivity. }
  eapply crash_app; [exact E2|]. simpl. unfold command_step. rewrite T2. simpl. destruct (H2 i) as (A & B & _). simpl in A, B. rewrite N2. simpl.
  rewrite B by lia. destruct (Nat.ltb_spec i (k_n s)); [|lia]. simpl. unfold thread_step. simpl. rewrite Nat.eqb_refl. simpl. rewrite A, H, M2. simpl. rewrite M, X2. simpl.
  destruct (Nat.eqb_spec (k_next s) f); [lia|]. reflexivity.
Qed.

(** ** Destruction in a run *)
Definition stuck i s : Prop := k_marker s = true /\ ready (e_thread (k_emu s i)) = false /\
  exists m, k_todo s = Some (CDestroy, m) /\ In (MJoin i) m /\ forall x, In x m -> exists j, x = MDrop j \/ x = MJoin j.
Lemma thread_frame : forall s i q s' ev, thread_step begin turn s i q = Ok (s', ev) -> k_marker s' = k_marker s /\ k_todo s' = k_todo s /\ (forall j, j <> i -> k_emu s' j = k_emu s j) /\ forall c, ~ In (EReturned c) ev.
Proof.
  intros s i q s' ev E.
  assert (G : forall (e : emul) ev0, (forall c, ~ In (EReturned c) ev0) -> Ok (set_emu s i e, ev0) = Ok (s', ev) -> k_marker s' = k_marker s /\ k_todo s' = k_todo s /\ (forall j, j <> i -> k_emu s' j = k_emu s j) /\ forall c, ~ In (EReturned c) ev).
  { intros e ev0 Q X. injection X as <- <-. simpl. split; [reflexivity|]. split; [reflexivity|]. split; [|exact Q]. intros j N. apply Nat.eqb_neq in N. rewrite N. reflexivity. }
  unfold thread_step in E. destruct (e_thread (k_emu s i)); try (eapply G; [|exact E]; intros c []; fail).
  - injection E as <- <-. split; [reflexivity|]. split; [reflexivity|]. split; [reflexivity|]. intros c [].
  - destruct (e_file (k_emu s i)) as [[f [c|]]|]; try discriminate E. destruct (begin c _); [|discriminate E]. eapply G; [|exact E]; intros ? [].
  - destruct (k_marker s); [|eapply G; [|exact E]; intros ? []]. destruct (e_file (k_emu s i)) as [[g [c|]]|]; try discriminate E. destruct (_ && _); [|discriminate E].
    destruct (turn c q s0) as [[[p|] x]|]; simpl in E; try discriminate E; (eapply G; [|exact E]); [intros c0 [X|[]]; discriminate X|intros ? []].
  - destruct (e_lim _); [|discriminate E]. eapply G; [|exact E]; intros ? [].
  - destruct (e_lim _); [|discriminate E]. destruct (_ =? _); [|discriminate E]. eapply G; [|exact E]; intros ? [].
Qed.

Lemma stuck_step : forall i s a s' ev, stuck i s -> (forall c, a <> ACommand c) -> step s a = Ok (s', ev) -> stuck i s' /\ forall c, ~ In (EReturned c) ev.
Proof.
  intros i s a s' ev (M & R & m & T & IN & P) NC E. destruct a as [c| |j q|j|j].
  - contradiction (NC c eq_refl).
  - simpl in E. injection E as E. unfold command_step in E. rewrite T in E. destruct m as [|x m]; [contradiction IN|]. destruct (P x (or_introl eq_refl)) as (j & [-> | ->]); simpl in E.
    + injection E as <- <-. split; [|intros c []]. split; [exact M|]. split; [simpl; destruct (Nat.eqb_spec i j) as [->|]; exact R|]. exists m. split; [reflexivity|]. split; [destruct IN as [X|X]; [discriminate X|exact X]|]. intros x X. apply P. right. exact X.
    + destruct (Nat.eq_dec j i) as [->|NE].
      * destruct (e_thread (k_emu s i)) eqn:TH; try discriminate R; injection E as <- <-; (split; [|intros c []]); (split; [exact M|]; split; [rewrite TH; reflexivity|]; exists (MJoin i :: m); auto).
      * assert (X : forall y (ev0 : list event), y = s \/ y = set_todo s (Some (CDestroy, m)) -> (y, []) = (s', ev) -> stuck i s' /\ forall c, ~ In (EReturned c) ev).
        { intros y ev0 Y EQ. injection EQ as <- <-. split; [|intros c []]. destruct Y as [-> | ->]; (split; [exact M|]; split; [exact R|]).
          - exists (MJoin j :: m). auto.
          - exists m. split; [reflexivity|]. split; [destruct IN as [X|X]; [congruence|exact X]|]. intros x X. apply P. right. exact X. }
        destruct (e_thread (k_emu s j)); (eapply X; [exact [] | |exact E]; auto).
  - simpl in E. destruct (thread_frame _ _ _ _ _ E) as (A & B & C & D). split; [|exact D]. split; [congruence|]. split; [|exists m; rewrite B; auto].
    destruct (Nat.eq_dec i j) as [->|NE]; [eapply stay; eauto|]. rewrite C by auto. exact R.
  - injection E as <- <-. split; [|intros c [X|[]]; discriminate X]. split; [exact M|]. split; [exact R|]. exists m. auto.
  - simpl in E. injection E as <- <-. split; [|intros c [X|[]]; discriminate X]. split; [exact M|]. split; [simpl; destruct (Nat.eqb_spec i j) as [->|]; exact R|]. exists m. auto.
Qed.
Lemma stuck_run : forall more i s s' ev, stuck i s -> no_command more -> run s more = Ok (s', ev) -> forall c, ~ In (EReturned c) ev.
Proof.
  induction more as [|a more IH]; intros i s s' ev K N E c.
  - injection E as <- <-. intros [].
  - apply no_command_cons in N. destruct N as [NA N]. simpl in E. destruct (step s a) as [[s1 e1]|] eqn:E1; [|discriminate E]. simpl in E. destruct (run s1 more) as [[s2 e2]|] eqn:E2; [|discriminate E]. simpl in E. injection E as <- <-.
    destruct (stuck_step i s a s1 e1 K NA E1) as [K1 Q]. intros H. apply in_app_or in H. destruct H as [H|H]; [exact (Q _ H)|]. eapply IH; eauto.
Qed.
Lemma destroy_in_a_run : forall s i more s' ev, k_todo s = None -> k_marker s = true -> i < k_n s -> ready (e_thread (k_emu s i)) = false -> no_command more ->
  run s (ACommand CDestroy :: more) = Ok (s', ev) -> ~ In (EReturned CDestroy) ev.
Proof.
  intros s i more s' ev T M J R N E. simpl in E. rewrite T in E. simpl in E. destruct (run _ more) as [[s1 e1]|] eqn:E1; [|discriminate E]. simpl in E. injection E as <- <-. intros [X|X]; [discriminate X|].
  revert X. eapply (stuck_run more i); [|exact N|exact E1]. split; [exact M|]. split; [exact R|]. eexists. split; [reflexivity|]. split.
  - apply in_flat_map. exists i. split; [apply in_seq; lia|]. simpl. auto.
  - intros x X. apply in_flat_map in X. destruct X as (j & _ & [<-|[<-|[]]]); eauto.
Qed.
Lemma destroy_crash : forall s f x, k_todo s = None -> k_marker s = true -> 0 < k_n s -> e_thread (k_emu s 0) = Head f x ->
  run s [ACommand CDestroy; AStep; AThread 0 true] = Crash.
Proof.
  intros s f x T M J H. simpl. rewrite T. simpl. unfold command_step. simpl. destruct (k_n s); [lia|]. simpl. unfold thread_step. simpl. rewrite H, M.
  destruct (e_file (k_emu s 0)) as [[g [c|]]|]; try reflexivity. rewrite andb_false_r. reflexivity.
Qed.

(** ** A start right after a stop *)
Definition too_soon (c : Conf) : list action :=
  [ACommand (CConf [(0, Some c)]); AStep; AStep; AStep; ACommand CStart; AStep; AStep; AStep; AThread 0 true;
   ACommand CStop; AStep; AThread 0 true; AStep; AStep; ACommand CStart; AStep; AStep; AStep].
(** Its first nine steps. *)
Definition s8 (c : Conf) : card := Eval vm_compute in match run (card_new 1) (firstn 8 (too_soon c)) with Ok (s, _) => s | Crash => card_new 1 end.
Definition s9 (c : Conf) (x : St) : card := Eval vm_compute in set_emu (s8 c) 0 (set_thread (k_emu (s8 c) 0) (Head 0 x)).
Definition l9 (c : Conf) : list event := [ECommand (CConf [(0, Some c)]); ESet 0 c; EReturned (CConf [(0, Some c)]); ECommand CStart; EReturned CStart].
Lemma nine : forall c x, begin c None = Ok x -> run (card_new 1) (firstn 9 (too_soon c)) = Ok (s9 c x, l9 c).
Proof.
  intros c x BE. change (firstn 9 (too_soon c)) with (firstn 8 (too_soon c) ++ [AThread 0 true]). rewrite run_app.
  assert (A : run (card_new 1) (firstn 8 (too_soon c)) = Ok (s8 c, l9 c)) by (vm_compute; reflexivity). rewrite A. cbn [bind fst snd].
  assert (B : run (s8 c) [AThread 0 true] = Ok (s9 c x, [])). { unfold card_run, card_step, thread_step. change (e_thread (k_emu (s8 c) 0)) with (@Given St). change (e_file (k_emu (s8 c) 0)) with (Some (0, Some c)). change (e_last (k_emu (s8 c) 0)) with (@None St). cbn [bind]. rewrite BE. reflexivity. }
  rewrite B. reflexivity.
Qed.
Lemma fourteen : forall c x, begin c None = Ok x -> exists s, run (card_new 1) (firstn 14 (too_soon c)) = Ok (s, l9 c ++ [ECommand CStop; EReturned CStop]).
Proof.
  intros c x BE. change (firstn 14 (too_soon c)) with (firstn 9 (too_soon c) ++ [ACommand CStop; AStep; AThread 0 true; AStep; AStep]). rewrite run_app, (nine c x BE). cbn [bind fst snd].
  match goal with |- context [run (s9 c x) ?a] => let v := eval vm_compute in (run (s9 c x) a) in assert (A : run (s9 c x) a = v) by (vm_compute; reflexivity) end.
  rewrite A. eexists. reflexivity.
Qed.
Definition l18 (c : Conf) : list event := l9 c ++ [ECommand CStop; EReturned CStop; ECommand CStart; EIgnored 0; EReturned CStart].
Lemma too_soon_run : forall c, sound c -> exists s, run (card_new 1) (too_soon c) = Ok (s, l18 c).
Proof.
  intros c S0. pose proof (S0 [] None [] (fed_none _ _ c)) as B. unfold alone in B. destruct (begin c None) as [x|] eqn:BE; [|contradiction B; reflexivity].
  change (too_soon c) with (firstn 9 (too_soon c) ++ skipn 9 (too_soon c)). rewrite run_app, (nine c x BE). cbn [bind fst snd].
  match goal with |- context [run (s9 c x) ?a] => let v := eval vm_compute in (run (s9 c x) a) in assert (A : run (s9 c x) a = v) by (vm_compute; reflexivity) end.
  rewrite A. eexists. reflexivity.
Qed.

Lemma list_eq_nil_or_snoc : forall (T : Type) (l : list T), l = [] \/ exists l' y, l = l' ++ [y].
Proof. intros T l. destruct l as [|a l] using rev_ind; eauto. Qed.
Lemma orderly_command : forall s a c, orderly s a -> (forall s' log, run s a = Ok (s', log) -> current log = None /\ allowed log c) -> orderly s (a ++ [ACommand c]).
Proof.
  intros s a c O H before d after s' log E R. destruct (list_eq_nil_or_snoc _ after) as [->|(after' & y & ->)].
  - apply app_inj_tail in E. destruct E as [<- E]. injection E as <-. eapply H; eauto.
  - rewrite app_comm_cons, app_assoc in E. apply app_inj_tail in E. destruct E as [-> _]. eapply O; eauto.
Qed.
Lemma orderly_quiet : forall more s a, orderly s a -> no_command more -> orderly s (a ++ more).
Proof.
  intros more s a O N before c after s' log E R. destruct (app_eq_app _ _ _ _ E) as (l & [[-> E2]|[-> E2]]).
  - destruct l as [|y l].
    + rewrite app_nil_r in *. simpl in E2. exfalso. apply (N c). rewrite <- E2. left. reflexivity.
    + simpl in E2. injection E2 as <- ->. eapply O; eauto.
  - exfalso. apply (N c). rewrite E2. apply in_or_app. right. left. reflexivity.
Qed.
Lemma orderly_nil : forall s, orderly s [].
Proof. intros s before c after s' log E. destruct before; discriminate E. Qed.

Lemma too_soon_orderly : forall c, sound c -> orderly (card_new 1) (too_soon c).
Proof.
  intros c S0. pose proof (S0 [] None [] (fed_none _ _ c)) as B. unfold alone in B. destruct (begin c None) as [x|] eqn:BE; [|contradiction B; reflexivity].
  assert (Q : forall l : list action, (forall a, In a l -> match a with ACommand _ => False | _ => True end) -> no_command l) by (intros l H d D; apply (H _ D)).
  change (too_soon c) with (((((((([] ++ [ACommand (CConf [(0, Some c)])]) ++ [AStep; AStep; AStep]) ++ [ACommand CStart]) ++ [AStep; AStep; AStep; AThread 0 true]) ++ [ACommand CStop]) ++ [AStep; AThread 0 true; AStep; AStep]) ++ [ACommand CStart]) ++ [AStep; AStep; AStep]).
  apply orderly_quiet; [apply orderly_command; [apply orderly_quiet; [apply orderly_command; [apply orderly_quiet; [apply orderly_command; [apply orderly_quiet; [apply orderly_command; [apply orderly_nil|]|]|]|]|]|]|]|];
    try (apply Q; simpl; intuition (subst; exact Logic.I); fail).
  - intros s log R. injection R as <- <-. split; [reflexivity|]. split; [intros []|]. split; [left; reflexivity|]. intros i k [E|[]]. injection E as <- <-. exact S0.
  - intros s log R. change (([] ++ [ACommand (CConf [(0, Some c)])]) ++ [AStep; AStep; AStep]) with (firstn 4 (too_soon c)) in R.
    assert (A : exists s0, run (card_new 1) (firstn 4 (too_soon c)) = Ok (s0, firstn 3 (l9 c))) by (eexists; vm_compute; reflexivity). destruct A as (s0 & A). rewrite A in R. injection R as <- <-.
    split; [reflexivity|]. split; [intros [X|[X|[X|[]]]]; discriminate X|]. split; reflexivity.
  - intros s log R. match type of R with run _ ?a = _ => change a with (firstn 9 (too_soon c)) in R end. rewrite (nine c x BE) in R. injection R as <- <-.
    split; [reflexivity|]. split; [simpl; intuition discriminate|]. exact Logic.I.
  - intros s log R. match type of R with run _ ?a = _ => change a with (firstn 14 (too_soon c)) in R end. destruct (fourteen c x BE) as (s0 & A). rewrite A in R. injection R as <- <-.
    split; [reflexivity|]. split; [simpl; intuition discriminate|]. split; reflexivity.
Qed.
End Proofs.
