(** Proofs about Feed_model.v: rest between runs, stop, production, counters. *)
From Coq Require Import ZArith List Bool Arith Lia.
From Verif Require Import Base_model Feed_model Feed_spec Feed_proofs Feed_proofs2.
Import ListNotations.
Open Scope nat_scope.

Lemma i32_congr : forall a b, (a mod two32 = b mod two32 -> i32 a = i32 b)%Z.
Proof. intros a b H. unfold i32. f_equal. rewrite Z.add_mod, H, <- Z.add_mod by (unfold two32; lia). reflexivity. Qed.
Lemma i32_mod : forall a, (i32 a mod two32 = a mod two32)%Z.
Proof. intros a. unfold i32. rewrite Zminus_mod_idemp_l. f_equal. lia. Qed.
Lemma i32_add : forall a b, (i32 (i32 a + b) = i32 (a + b))%Z.
Proof. intros a b. apply i32_congr. rewrite Z.add_mod, i32_mod, <- Z.add_mod by (unfold two32; lia). reflexivity. Qed.

Section Proofs.
Context {Conf St Out : Type}.
Variable begin : Conf -> option St -> res St.
Variable turn : Conf -> bool -> St -> res (option Out * St).
Notation action := (action Conf). Notation event := (event Conf Out). Notation cmd := (cmd Conf). Notation mop := (mop Conf).
Notation card := (card Conf St). Notation emul := (emul Conf St). Notation producer := (producer St).
Notation run := (card_run begin turn).
Notation step := (card_step begin turn).
Notation alone := (alone begin turn).
Notation fed := (fed begin turn).
Notation sound := (sound begin turn).
Notation orderly := (orderly begin turn).
Notation allowed := (allowed begin turn).
Notation cstep := (@command_step Conf St Out).
Notation inv := (inv begin turn). Notation mode := (mode begin turn). Notation link_inv := (link_inv begin turn).
Implicit Types (s : card) (log ev : list event) (acts more : list action).

Lemma no_command_cons : forall a more, no_command (a :: more) -> (forall c, a <> ACommand c) /\ no_command more.
Proof. intros a more N. split; [intros c ->; apply (N c); left; reflexivity|]. intros c H. apply (N c). right. exact H. Qed.

Lemma idle_command : forall s, k_todo s = None -> cstep s = (s, []).
Proof. intros s T. unfold command_step. rewrite T. reflexivity. Qed.

(** ** Between runs *)
Lemma ready_silent : forall s i q, ready (e_thread (k_emu s i)) = true -> exists s', thread_step begin turn s i q = Ok (s', []).
Proof. intros s i q R. unfold thread_step. destruct (e_thread (k_emu s i)); try discriminate R; eauto. Qed.

Lemma rest_silent : forall more s log, inv s log -> k_todo s = None -> rest s -> no_command more ->
  exists s' ev, run s more = Ok (s', ev) /\ inv s' (log ++ ev) /\ k_todo s' = None /\ rest s' /\ forall i p q, ~ In (EPush i p q) ev.
Proof.
  induction more as [|a more IH]; intros s log I T R N.
  - exists s, []. rewrite app_nil_r. split; [reflexivity|]. split; [exact I|]. split; [exact T|]. split; [exact R|]. intros i p q [].
  - apply no_command_cons in N. destruct N as [NA N].
    assert (exists s1 e1, step s a = Ok (s1, e1) /\ inv s1 (log ++ e1) /\ k_todo s1 = None /\ rest s1 /\ forall i p q, ~ In (EPush i p q) e1) as (s1 & e1 & E1 & I1 & T1 & R1 & P1).
    { destruct a as [c| |i q|i|i].
      - contradiction (NA c eq_refl).
      - simpl. rewrite idle_command by auto. exists s, []. rewrite app_nil_r. split; [reflexivity|]. split; [exact I|]. split; [exact T|]. split; [exact R|]. intros i p q [].
      - destruct (thread_inv begin turn s log i q I) as (s1 & e1 & E1 & I1 & X). exists s1, e1. split; [exact E1|]. split; [exact I1|].
        split; [rewrite (t_todo _ _ _ _ X); exact T|]. split; [eapply rest_turned; eauto|].
        destruct (ready_silent s i q) as (s2 & E2); [apply R|]. simpl in E1. rewrite E2 in E1. injection E1 as _ <-. intros j p r [].
      - exists s, [ETotal i (e_tot (k_emu s i))]. split; [reflexivity|]. split; [apply total_inv; auto|]. split; [exact T|]. split; [exact R|]. intros j p q [H|[]]. discriminate H.
      - destruct (step s (ANew i)) as [[s1 e1]|] eqn:E1; [|discriminate E1]. destruct (new_inv begin turn s log i s1 e1 I E1) as [I1 X].
        exists s1, e1. split; [reflexivity|]. split; [exact I1|]. split; [rewrite (t_todo _ _ _ _ X); exact T|]. split; [eapply rest_turned; eauto|].
        simpl in E1. injection E1 as <- <-. intros j p q [H|[]]. discriminate H. }
    destruct (IH s1 (log ++ e1) I1 T1 R1 N) as (s2 & e2 & E2 & I2 & T2 & R2 & P2). exists s2, (e1 ++ e2). simpl. rewrite E1. simpl. rewrite E2. simpl.
    split; [reflexivity|]. split; [rewrite app_assoc; exact I2|]. split; [exact T2|]. split; [exact R2|]. intros i p q H. apply in_app_or in H. destruct H; [eapply P1|eapply P2]; eauto.
Qed.

Lemma inv_rest : forall s log, inv s log -> running log = false -> current log = None -> k_todo s = None /\ rest s.
Proof.
  intros s log I R C. rewrite (v_current _ _ _ _ I) in C. assert (k_todo s = None) as T by (destruct (k_todo s); [discriminate|reflexivity]). split; [exact T|].
  pose proof (v_mode _ _ _ _ I) as M. unfold Feed_proofs.mode, on in M. rewrite T, R in M. exact M.
Qed.

(** ** The history of each link *)
Lemma inv_fed : forall s log i c, inv s log -> settings i log = Some c -> exists last, fed c (runs i log) last.
Proof.
  intros s log i c I E. destruct (v_link _ _ _ _ I i) as [LS LF LW LG LR LL LA]. destruct (ready (e_thread (k_emu s i))) eqn:R; [eauto|].
  destruct (local (e_thread (k_emu s i))) as [[f x]|] eqn:L.
  - destruct (LW f x eq_refl) as (c' & r & rs & queue & F & -> & G & A). destruct (LF _ _ F) as [E' _]. assert (c' = c) as -> by congruence. exists (Some x). econstructor; eauto.
  - destruct (e_thread (k_emu s i)) eqn:T; try discriminate. destruct (LG eq_refl) as (f & c' & rs & F & -> & G). destruct (LF _ _ F) as [E' _]. assert (c' = c) as -> by congruence.
    eexists. apply fed_idle. exact G.
Qed.

(** ** A stop returns *)
Definition rank (p : producer) : nat :=
  match p with Off | Late => 0 | Head _ _ => 1 | Limit _ _ _ | Given => 2 | Rate _ _ => 3 | Counted _ _ => 4 | Pushed _ _ => 5 end.
Definition load s : nat := list_sum (map (fun i => rank (e_thread (k_emu s i))) (seq 0 (k_n s))).
Definition mu s : nat := load s + match k_todo s with Some (_, m) => length m | None => 0 end.
Definition stopping s : Prop := (exists m, k_todo s = Some (CStop, m)) /\ k_marker s = false.
(** What one or more actions do while a stop waits. *)
Definition better s s' (did_step : Prop) (did : nat -> Prop) : Prop :=
  stopping s' /\ mu s' <= mu s /\ (forall i, rank (e_thread (k_emu s' i)) <= rank (e_thread (k_emu s i))) /\
  (forall i, i < k_n s -> rank (e_thread (k_emu s' i)) < rank (e_thread (k_emu s i)) -> mu s' < mu s) /\
  (forall i, did i -> 0 < rank (e_thread (k_emu s i)) -> rank (e_thread (k_emu s' i)) < rank (e_thread (k_emu s i))) /\
  (did_step -> (forall i, rank (e_thread (k_emu s i)) = 0) -> mu s' < mu s).

Lemma sum_other : forall (f g : nat -> nat) l i, (forall j, j <> i -> g j = f j) -> g i <= f i -> list_sum (map g l) <= list_sum (map f l).
Proof.
  intros f g l i O L. induction l as [|a l IH]; simpl; [lia|]. destruct (Nat.eq_dec a i) as [->|N]; [lia|]. rewrite (O a N). lia.
Qed.
Lemma sum_less : forall (f g : nat -> nat) l i, (forall j, j <> i -> g j = f j) -> g i < f i -> In i l -> list_sum (map g l) < list_sum (map f l).
Proof.
  intros f g l i O L. induction l as [|a l IH]; simpl; [intros []|]. intros [->|H].
  - pose proof (sum_other f g l i O). lia.
  - specialize (IH H). destruct (Nat.eq_dec a i) as [->|N]; [lia|]. rewrite (O a N). lia.
Qed.

Lemma rank_turn : forall s i q s' ev, k_marker s = false -> thread_step begin turn s i q = Ok (s', ev) -> rank (e_thread (k_emu s' i)) = pred (rank (e_thread (k_emu s i))).
Proof.
  intros s i q s' ev M E. unfold thread_step in E. rewrite M in E. destruct (e_thread (k_emu s i)) eqn:T.
  - injection E as <- <-. rewrite T. reflexivity.
  - destruct (e_file (k_emu s i)) as [[f [c|]]|]; try discriminate E. destruct (begin c (e_last (k_emu s i))); [|discriminate E]. simpl in E. injection E as <- <-. simpl. rewrite Nat.eqb_refl. reflexivity.
  - injection E as <- <-. simpl. rewrite Nat.eqb_refl. reflexivity.
  - injection E as <- <-. simpl. rewrite Nat.eqb_refl. reflexivity.
  - injection E as <- <-. simpl. rewrite Nat.eqb_refl. reflexivity.
  - injection E as <- <-. simpl. rewrite Nat.eqb_refl. reflexivity.
  - destruct (e_lim _); [|discriminate E]. injection E as <- <-. simpl. rewrite Nat.eqb_refl. reflexivity.
  - destruct (e_lim _); [|discriminate E]. destruct (_ =? _); [|discriminate E]. injection E as <- <-. simpl. rewrite Nat.eqb_refl. reflexivity.
Qed.

(** One action while a stop waits. *)
Lemma stopping_step : forall s log a, inv s log -> stopping s -> (forall c, a <> ACommand c) ->
  exists s' ev, step s a = Ok (s', ev) /\ inv s' (log ++ ev) /\ k_n s' = k_n s /\
    (In (EReturned CStop) ev \/ better s s' (a = AStep) (fun i => exists q, a = AThread i q)).
Proof.
  intros s log a I [(m & T) M] NA. destruct a as [c| |i q|i|i].
  - contradiction (NA c eq_refl).
  - simpl. destruct (cstep s) as [s' ev] eqn:E. exists s', ev. split; [reflexivity|]. pose proof (command_inv begin turn s log I) as IN. rewrite E in IN. split; [exact IN|].
    unfold command_step in E. rewrite T in E. destruct m as [|x m].
    + injection E as <- <-. split; [reflexivity|]. left. left. reflexivity.
    + pose proof (v_mode _ _ _ _ I) as MD. unfold Feed_proofs.mode in MD. rewrite T in MD.
      assert (x = MMarker false \/ exists j, x = MWait j) as [->|(j & ->)].
      { destruct MD as [(EM & O)|(_ & j & J & EM & R)]; [injection EM as -> _; auto|].
        destruct (seq j (k_n s - j)); simpl in EM; [discriminate|]. injection EM as -> _. eauto. }
      * simpl in E. injection E as <- <-. split; [reflexivity|]. right. unfold better, stopping, mu, load. rewrite T. simpl.
        split; [eauto|]. split; [lia|]. split; [auto|]. split; [intros; lia|]. split; [intros i (q & D); discriminate D|]. intros; lia.
      * simpl in E. destruct (ready (e_thread (k_emu s j))) eqn:RJ; injection E as <- <-; (split; [reflexivity|]); right; unfold better, stopping, mu, load; rewrite T; simpl.
        -- split; [eauto|]. split; [lia|]. split; [auto|]. split; [intros; lia|]. split; [intros i (q & D); discriminate D|]. intros; lia.
        -- split; [eauto|]. split; [simpl; lia|]. split; [auto|]. split; [intros; lia|]. split; [intros i (q & D); discriminate D|]. intros _ Z. specialize (Z j). destruct (e_thread (k_emu s j)); discriminate.
  - destruct (thread_inv begin turn s log i q I) as (s' & ev & E & I' & X). exists s', ev. split; [exact E|]. split; [exact I'|]. split; [apply (t_n _ _ _ _ X)|]. right.
    pose proof (rank_turn s i q s' ev M E) as RK. pose proof (t_other _ _ _ _ X) as OT.
    assert (OT' : forall j, j <> i -> rank (e_thread (k_emu s' j)) = rank (e_thread (k_emu s j))) by (intros j N; rewrite OT; auto).
    unfold better, stopping, mu, load. rewrite (t_todo _ _ _ _ X), (t_n _ _ _ _ X), T, (t_marker _ _ _ _ X).
    assert (SO : list_sum (map (fun j => rank (e_thread (k_emu s' j))) (seq 0 (k_n s))) <= list_sum (map (fun j => rank (e_thread (k_emu s j))) (seq 0 (k_n s)))) by (apply (sum_other _ _ _ i); [exact OT'|lia]). split; [eauto|]. split; [lia|]. split; [|split; [|split; [|discriminate]]].
    + intros j. destruct (Nat.eq_dec j i) as [->|N]; [lia|]. rewrite OT' by auto. lia.
    + intros j L Z. destruct (Nat.eq_dec j i) as [->|N]; [|rewrite OT' in Z by auto; lia].
      assert (list_sum (map (fun j => rank (e_thread (k_emu s' j))) (seq 0 (k_n s))) < list_sum (map (fun j => rank (e_thread (k_emu s j))) (seq 0 (k_n s)))); [|lia].
      apply (sum_less _ _ _ i); [exact OT'|exact Z|apply in_seq; lia].
    + intros j (r & EA) Z. injection EA as <- <-. lia.
  - simpl. eexists _, _. split; [reflexivity|]. split; [apply total_inv; auto|]. split; [reflexivity|]. right. unfold better, stopping.
    split; [eauto|]. split; [lia|]. split; [auto|]. split; [intros; lia|]. split; [intros j (q & D); discriminate D|discriminate].
  - destruct (step s (ANew i)) as [[s' ev]|] eqn:E; [|discriminate E]. destruct (new_inv begin turn s log i s' ev I E) as [I' X]. exists s', ev. split; [reflexivity|]. split; [exact I'|].
    simpl in E. injection E as <- <-. split; [reflexivity|]. right.
    assert (RK : forall j, rank (e_thread (k_emu (set_emu s i (mkEmul (e_set (k_emu s i)) (e_file (k_emu s i)) (e_lim (k_emu s i)) (e_last (k_emu s i)) 0 (e_tot (k_emu s i)) (e_thread (k_emu s i)) (e_alive (k_emu s i)))) j)) = rank (e_thread (k_emu s j))).
    { intros j. simpl. destruct (Nat.eqb_spec j i) as [->|]; reflexivity. }
    unfold better, stopping, mu, load. rewrite (map_ext _ _ RK). simpl k_todo. simpl k_marker. simpl k_n. rewrite T.
    split; [eauto|]. split; [lia|]. split; [intros j; rewrite RK; lia|]. split; [intros j _ Z; rewrite RK in Z; lia|]. split; [intros j (q & D); discriminate D|discriminate].
Qed.

Lemma stopping_run : forall more s log, inv s log -> stopping s -> no_command more ->
  exists s' ev, run s more = Ok (s', ev) /\ inv s' (log ++ ev) /\ k_n s' = k_n s /\
    (In (EReturned CStop) ev \/ better s s' (In AStep more) (fun i => exists q, In (AThread i q) more)).
Proof.
  induction more as [|a more IH]; intros s log I S N.
  - exists s, []. rewrite app_nil_r. split; [reflexivity|]. split; [exact I|]. split; [reflexivity|]. right. unfold better. split; [exact S|]. split; [auto|]. split; [auto|]. split; [intros; lia|].
    split; [intros i (q & [])|intros []].
  - apply no_command_cons in N. destruct N as [NA N]. destruct (stopping_step s log a I S NA) as (s1 & e1 & E1 & I1 & K1 & C1).
    simpl. rewrite E1. simpl. destruct C1 as [C1|(S1 & M1 & R1 & L1 & T1 & A1)].
    + destruct (quiet_run begin turn more s1 _ I1 N) as (s2 & e2 & E2 & I2). rewrite E2. simpl. exists s2, (e1 ++ e2). split; [reflexivity|]. rewrite app_assoc. split; [exact I2|].
      split; [rewrite (run_n _ _ _ _ _ _ E2); exact K1|]. left. apply in_or_app. auto.
    + destruct (IH s1 (log ++ e1) I1 S1 N) as (s2 & e2 & E2 & I2 & K2 & C2). rewrite E2. simpl. exists s2, (e1 ++ e2). split; [reflexivity|]. rewrite app_assoc. split; [exact I2|]. split; [congruence|].
      destruct C2 as [C2|(S2 & M2 & R2 & L2 & T2 & A2)]; [left; apply in_or_app; auto|]. right. unfold better. rewrite K1 in L2.
      split; [exact S2|]. split; [lia|]. split; [intros i; specialize (R1 i); specialize (R2 i); lia|]. split; [|split].
      * intros i L Z. specialize (L1 i L). specialize (L2 i L). specialize (R1 i). specialize (R2 i). lia.
      * intros i (q & [->|H]) Z; specialize (R1 i); specialize (R2 i).
        -- assert (rank (e_thread (k_emu s1 i)) < rank (e_thread (k_emu s i))) by (apply T1; eauto). lia.
        -- destruct (Nat.eq_dec (rank (e_thread (k_emu s1 i))) 0); [lia|]. assert (rank (e_thread (k_emu s2 i)) < rank (e_thread (k_emu s1 i))) by (apply T2; [eauto|lia]). lia.
      * intros [->|H] Z; [specialize (A1 eq_refl Z); lia|]. assert (mu s2 < mu s1); [|lia]. apply A2; auto. intros i. specialize (R1 i). specialize (Z i). lia.
Qed.

Lemma round_better : forall r s log, inv s log -> stopping s -> round (k_n s) r ->
  exists s' ev, run s r = Ok (s', ev) /\ inv s' (log ++ ev) /\ k_n s' = k_n s /\ (In (EReturned CStop) ev \/ (stopping s' /\ mu s' < mu s)).
Proof.
  intros r s log I S (AS & AT & N). destruct (stopping_run r s log I S N) as (s' & ev & E & I' & K & C). exists s', ev. split; [exact E|]. split; [exact I'|]. split; [exact K|].
  destruct C as [C|(S1 & M1 & R1 & L1 & T1 & A1)]; [auto|]. right. split; [exact S1|].
  destruct (Exists_dec (fun i => 0 < rank (e_thread (k_emu s i))) (seq 0 (k_n s)) (fun i => lt_dec _ _)) as [X|X].
  - apply Exists_exists in X. destruct X as (i & Hi & Z). apply in_seq in Hi. destruct (AT i) as (q & Q); [lia|]. apply (L1 i); [lia|]. apply T1; eauto.
  - apply A1; auto. intros i. destruct (le_lt_dec (k_n s) i) as [H|H]; [rewrite (v_out _ _ _ _ I i H); reflexivity|].
    destruct (Nat.eq_dec (rank (e_thread (k_emu s i))) 0) as [Z|Z]; [exact Z|]. exfalso. apply X. apply Exists_exists. exists i. split; [apply in_seq; lia|lia].
Qed.

Lemma rounds_no_command : forall (n : nat) (rs : list (list action)), Forall (round n) rs -> no_command (concat rs).
Proof.
  intros n rs F c H. apply in_concat in H. destruct H as (r & R & H). rewrite Forall_forall in F. destruct (F r R) as (_ & _ & N). apply (N c H).
Qed.

Lemma stopping_returns : forall rs s log, inv s log -> stopping s -> Forall (round (k_n s)) rs -> mu s < length rs ->
  exists s' ev, run s (concat rs) = Ok (s', ev) /\ In (EReturned CStop) ev.
Proof.
  induction rs as [|r rs IH]; intros s log I S F L; [simpl in L; lia|]. pose proof (Forall_inv F) as F1. pose proof (Forall_inv_tail F) as F2. simpl in L. simpl concat.
  destruct (round_better r s log I S F1) as (s1 & e1 & E1 & I1 & K1 & C1). rewrite run_app, E1. simpl. destruct C1 as [C1|(S1 & M1)].
  - destruct (quiet_run begin turn (concat rs) s1 _ I1) as (s2 & e2 & E2 & I2); [eapply rounds_no_command; eauto|]. rewrite E2. simpl. exists s2, (e1 ++ e2). split; [reflexivity|]. apply in_or_app. auto.
  - destruct (IH s1 (log ++ e1) I1 S1) as (s2 & e2 & E2 & C2); [rewrite K1; exact F2|lia|]. rewrite E2. simpl. exists s2, (e1 ++ e2). split; [reflexivity|]. apply in_or_app. auto.
Qed.

Lemma load_bound : forall s, load s <= 5 * k_n s.
Proof.
  intros s. unfold load. assert (H : forall l, list_sum (map (fun i => rank (e_thread (k_emu s i))) l) <= 5 * length l).
  { induction l as [|a l IH]; simpl; [lia|]. assert (rank (e_thread (k_emu s a)) <= 5) by (destruct (e_thread (k_emu s a)); simpl; lia). lia. }
  specialize (H (seq 0 (k_n s))). rewrite seq_length in H. exact H.
Qed.

(** The first step of a stop. *)
Lemma until_step : forall r s log, inv s log -> k_todo s = Some (CStop, MMarker false :: map MWait (seq 0 (k_n s))) -> no_command r -> In AStep r ->
  exists s' ev, run s r = Ok (s', ev) /\ inv s' (log ++ ev) /\ k_n s' = k_n s /\ (In (EReturned CStop) ev \/ (stopping s' /\ mu s' <= 6 * k_n s')).
Proof.
  induction r as [|a r IH]; intros s log I T N H; [destruct H|]. apply no_command_cons in N. destruct N as [NA N]. simpl.
  destruct (step_inv begin turn s log a I) as (s1 & e1 & E1 & I1 & _); [intros c ->; contradiction (NA c eq_refl)|]. rewrite E1. simpl.
  assert (AS : a = AStep \/ a <> AStep) by (destruct a; auto; right; discriminate). destruct AS as [->|NS].
  - simpl in E1. unfold command_step in E1. rewrite T in E1. simpl in E1. injection E1 as <- <-. rewrite app_nil_r in I1.
    match goal with |- context [run ?x r] => set (s1 := x) in * end.
    assert (S1 : stopping s1) by (split; [eexists; reflexivity|reflexivity]).
    assert (M1 : mu s1 <= 6 * k_n s1).
    { unfold mu. pose proof (load_bound s1). unfold s1 at 2. cbn [k_todo set_todo set_marker]. rewrite map_length, seq_length. change (k_n s1) with (k_n s) in *. lia. }
    destruct (stopping_run r s1 log I1 S1 N) as (s2 & e2 & E2 & I2 & K2 & C2). rewrite E2. simpl. exists s2, e2. split; [reflexivity|]. split; [exact I2|]. split; [exact K2|].
    destruct C2 as [C2|(S2 & M2 & _)]; [auto|]. right. split; [exact S2|]. rewrite K2. lia.
  - assert (T1 : k_todo s1 = k_todo s /\ k_n s1 = k_n s).
    { destruct a as [c| |i q|i|i]; [contradiction (NA c eq_refl)|contradiction| | |].
      - destruct (thread_inv begin turn s log i q I) as (s' & ev & E & _ & X). rewrite E in E1. injection E1 as <- <-. split; apply X.
      - injection E1 as <- <-. auto.
      - injection E1 as <- <-. auto. }
    destruct T1 as [T1 K1]. destruct (IH s1 (log ++ e1) I1) as (s2 & e2 & E2 & I2 & K2 & C2); [rewrite T1, K1; exact T|exact N|destruct H as [H|H]; [congruence|exact H]|].
    rewrite E2. simpl. exists s2, (e1 ++ e2). split; [reflexivity|]. rewrite app_assoc. split; [exact I2|]. split; [congruence|]. destruct C2 as [C2|C2]; [left; apply in_or_app; auto|auto].
Qed.

Lemma stop_returns : forall rs s log, inv s log -> current log = Some CStop -> Forall (round (k_n s)) rs -> 6 * k_n s + 2 <= length rs ->
  exists s' ev, run s (concat rs) = Ok (s', ev) /\ In (EReturned CStop) ev.
Proof.
  intros rs s log I C F L. rewrite (v_current _ _ _ _ I) in C. destruct (k_todo s) as [[c m]|] eqn:T; [|discriminate C]. injection C as ->.
  pose proof (v_mode _ _ _ _ I) as MD. unfold Feed_proofs.mode in MD. rewrite T in MD. destruct MD as [(E & _)|(M & j & J & E & _)].
  - destruct rs as [|r rs]; [simpl in L; lia|]. pose proof (Forall_inv F) as (AS & AT & N). pose proof (Forall_inv_tail F) as F2. subst m.
    destruct (until_step r s log I T N AS) as (s1 & e1 & E1 & I1 & K1 & C1). simpl concat. rewrite run_app, E1. simpl. destruct C1 as [C1|(S1 & M1)].
    + destruct (quiet_run begin turn (concat rs) s1 _ I1) as (s2 & e2 & E2 & I2); [eapply rounds_no_command; eauto|]. rewrite E2. simpl. exists s2, (e1 ++ e2). split; [reflexivity|]. apply in_or_app. auto.
    + destruct (stopping_returns rs s1 (log ++ e1) I1 S1) as (s2 & e2 & E2 & C2); [rewrite K1; exact F2|simpl in L; lia|]. rewrite E2. simpl. exists s2, (e1 ++ e2). split; [reflexivity|]. apply in_or_app. auto.
  - apply (stopping_returns rs s log I); auto.
    + split; eauto.
    + unfold mu. rewrite T, E, map_length, seq_length. pose proof (load_bound s). lia.
Qed.
End Proofs.
