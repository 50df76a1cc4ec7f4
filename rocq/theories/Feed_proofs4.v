(** Proofs about Feed_model.v: which links produce, the counters, commands out of order. *)
From Coq Require Import ZArith List Bool Arith Lia.
From Verif Require Import Base_model Feed_model Feed_spec Feed_proofs Feed_proofs2 Feed_proofs3.
Import ListNotations.
Open Scope nat_scope.

Section Proofs.
Context {Conf St Out : Type}.
Variable begin : Conf -> option St -> res St.
Variable turn : Conf -> bool -> St -> res (option Out * St).
Notation action := (action Conf). Notation event := (event Conf Out). Notation cmd := (cmd Conf). Notation mop := (mop Conf).
Notation card := (card Conf St). Notation emul := (emul Conf St). Notation producer := (producer St).
Notation run := (card_run begin turn).
Notation step := (card_step begin turn).
Notation alone := (alone begin turn).
Notation fed := (fed begin turn).
Notation sound := (sound begin turn).
Notation orderly := (orderly begin turn).
Notation allowed := (allowed begin turn).
Notation cstep := (@command_step Conf St Out).
Notation inv := (inv begin turn). Notation mode := (mode begin turn). Notation link_inv := (link_inv begin turn).
Implicit Types (s : card) (log ev : list event) (acts more : list action).

(** ** A thread at work stays at work while the marker is set *)
Lemma stay : forall s i q s' ev, k_marker s = true -> thread_step begin turn s i q = Ok (s', ev) -> ready (e_thread (k_emu s i)) = false ->
  ready (e_thread (k_emu s' i)) = false.
Proof.
  intros s i q s' ev M E R. unfold thread_step in E. rewrite M in E. destruct (e_thread (k_emu s i)) eqn:T; try discriminate R.
  - destruct (e_file (k_emu s i)) as [[f [c|]]|]; try discriminate E. destruct (begin c (e_last (k_emu s i))); [|discriminate E]. simpl in E. injection E as <- <-. simpl. rewrite Nat.eqb_refl. reflexivity.
  - destruct (e_file (k_emu s i)) as [[g [c|]]|]; try discriminate E. destruct (_ && _); [|discriminate E]. destruct (turn c q s0) as [[[p|] x]|]; simpl in E; try discriminate E; injection E as <- <-; simpl; rewrite Nat.eqb_refl; reflexivity.
  - injection E as <- <-. simpl. rewrite Nat.eqb_refl. reflexivity.
  - injection E as <- <-. simpl. rewrite Nat.eqb_refl. reflexivity.
  - destruct (e_lim _); [|discriminate E]. injection E as <- <-. simpl. rewrite Nat.eqb_refl. reflexivity.
  - destruct (e_lim _); [|discriminate E]. destruct (_ =? _); [|discriminate E]. injection E as <- <-. simpl. rewrite Nat.eqb_refl. reflexivity.
Qed.

Definition handed s log (i : nat) : Prop := ready (e_thread (k_emu s i)) = false <-> ~ In i (ignored log).
Definition live s log : Prop :=
  match k_todo s with
  | Some (CStart, m) => forall i, i < k_n s -> if in_dec Nat.eq_dec i (flat_map (fun x => match x with MStart j => [j] | _ => [] end) m) then ~ In i (ignored log) else handed s log i
  | Some (CStop, MWait _ :: _) | Some (CStop, []) => True
  | _ => running log = true -> forall i, i < k_n s -> handed s log i
  end.

Lemma starts_seq : forall j k, flat_map (fun x : mop => match x with MStart j => [j] | _ => [] end) (map MStart (seq j k)) = seq j k.
Proof. intros j k. revert j. induction k; intros j; simpl; f_equal; auto. Qed.

Lemma live_turned : forall i q s s' log ev, inv s log -> live s log -> thread_step begin turn s i q = Ok (s', ev) -> turned i s s' ev -> live s' (log ++ ev).
Proof.
  intros i q s s' log ev I L E X. pose proof (v_mode _ _ _ _ I) as MD. unfold live, Feed_proofs.mode in *.
  rewrite (t_todo _ _ _ _ X), (t_n _ _ _ _ X). assert (IG : ignored (log ++ ev) = ignored log) by (rewrite ignored_app; apply quiet_ignored; apply X).
  assert (RU : running (log ++ ev) = running log) by (rewrite running_app; apply quiet_running; apply X).
  assert (H : k_marker s = true -> forall j, handed s log j -> handed s' (log ++ ev) j).
  { intros M j D. unfold handed in *. rewrite IG. destruct (Nat.eq_dec j i) as [->|N]; [|rewrite (t_other _ _ _ _ X) by auto; exact D].
    rewrite <- D. split; intros R; [|eapply stay; eauto]. destruct (ready (e_thread (k_emu s i))) eqn:R'; [|reflexivity]. apply (t_ready _ _ _ _ X) in R'. destruct R'. congruence. }
  rewrite IG, RU. destruct (k_todo s) as [[[l| | | |] m]|].
  - intros R j J. apply H; auto. unfold on in MD. destruct MD as [(_ & _ & O)|(R' & _)]; [rewrite R in O; exact O|congruence].
  - intros R. destruct MD as (R' & _). congruence.
  - intros j J. specialize (L j J). destruct (in_dec _ _ _) as [D|D]; [exact L|]. apply H; auto. destruct MD as (_ & _ & _ & [(-> & _)|(M & _)]); [|exact M]. simpl in D. rewrite starts_seq in D. exfalso. apply D. apply in_seq. lia.
  - assert (m = MMarker false :: map MWait (seq 0 (k_n s)) -> on s log -> running log = true -> forall j, j < k_n s -> handed s' (log ++ ev) j) as Q.
    { intros -> O R j J. apply H; [unfold on in O; rewrite R in O; exact O|]. apply L; auto. }
    destruct MD as [(EM & O)|(M & j & J & EM & R)]; [subst m; auto|]. destruct (seq j (k_n s - j)); simpl in EM; subst m; exact Logic.I.
  - intros R. destruct MD as (R' & _). congruence.
  - intros R j J. apply H; auto. unfold on in MD. rewrite R in MD. exact MD.
Qed.

Lemma live_step : forall s log a s' ev, inv s log -> live s log -> (forall c, a = ACommand c -> current log = None /\ allowed log c) -> step s a = Ok (s', ev) -> live s' (log ++ ev).
Proof.
  intros s log a s' ev I L C E. destruct a as [c| |i q|i|i].
  - destruct (C c eq_refl) as [CU AL]. rewrite (v_current _ _ _ _ I) in CU. simpl in E. destruct (k_todo s) as [[]|] eqn:T; [discriminate|]. injection E as <- <-.
    unfold live, handed in *. rewrite T in L. simpl. rewrite running_app, ignored_app. destruct c; simpl; auto; [].
    intros i J. destruct (in_dec _ _ _) as [D|D]; [intros []|]. exfalso. rewrite starts_seq in D. apply D. apply in_seq. lia.
  - simpl in E. injection E as E. pose proof (v_mode _ _ _ _ I) as MD. unfold live, Feed_proofs.mode in *. unfold command_step in E. destruct (k_todo s) as [[c [|x m]]|] eqn:T.
    + injection E as <- <-. simpl. rewrite running_app. unfold handed. rewrite ignored_app. destruct c; simpl; auto; try discriminate.
    + destruct c as [l| | | |].
      * destruct MD as [(EM & _)|(R & _)]; [discriminate EM|].
        assert (running (log ++ ev) = running log).
        { rewrite running_app. destruct (mop_step s x) as [|s1|s1 ev1] eqn:MS; injection E as <- <-; [reflexivity|reflexivity|].
          destruct x; simpl in MS; repeat match type of MS with (if ?b then _ else _) = _ => destruct b | match ?b with _ => _ end = _ => destruct b end; try discriminate MS; injection MS as <- <-; try reflexivity.
          destruct (e_thread (k_emu s i)); reflexivity. }
        assert (match k_todo s' with Some (CConf _, _) | None => True | _ => False end) by (destruct (mop_step s x); injection E as <- <-; simpl; rewrite ?T; exact Logic.I).
        destruct (k_todo s') as [[[]]|]; try contradiction; congruence.
      * destruct MD as (R & _ & _ & [(j & EM)|(EM & _)]); [|discriminate EM]. assert (running (log ++ ev) = running log /\ exists m', k_todo s' = Some (CScrap, m')) as [RU (m' & ->)].
        { rewrite running_app. destruct (seq j (k_n s - j)); simpl in EM; injection EM as -> ->; simpl in E; injection E as <- <-; simpl; eauto. }
        congruence.
      * destruct MD as (_ & _ & _ & [(EM & _)|(_ & j & J & EM & P)]).
        -- injection EM as -> ->. simpl in E. injection E as <- <-. rewrite app_nil_r. simpl in *. exact L.
        -- destruct (Nat.eq_dec j (k_n s)) as [->|NJ]; [rewrite Nat.sub_diag in EM; discriminate EM|]. rewrite seq_cons in EM by lia. simpl in EM. injection EM as -> ->. simpl in E. injection E as <- <-. simpl.
           intros i Hi. specialize (L i Hi). cbn [map flat_map app] in L. destruct (P j) as [RJ _]; [lia|]. rewrite starts_seq in *.
           destruct (in_dec Nat.eq_dec i (j :: seq (S j) (k_n s - S j))) as [D|D]; destruct (in_dec Nat.eq_dec i (seq (S j) (k_n s - S j))) as [D'|D'].
           ++ rewrite ignored_app. pose proof (proj1 (in_seq _ _ _) D') as D2. assert (i <> j) by lia. destruct (e_thread (k_emu s j)); simpl; intuition congruence.
           ++ destruct D as [<-|D]; [|contradiction]. unfold handed. simpl. rewrite Nat.eqb_refl. simpl. rewrite ignored_app.
              destruct (e_thread (k_emu s j)); try discriminate RJ; simpl; split; auto; try discriminate. intros H. exfalso. apply H. auto.
           ++ exfalso. apply D. right. exact D'.
           ++ assert (N : i <> j) by (intros ->; apply D; left; reflexivity). unfold handed in *. simpl. rewrite (proj2 (Nat.eqb_neq i j) N). rewrite L. rewrite ignored_app. destruct (e_thread (k_emu s j)); simpl; intuition congruence.
      * destruct MD as [(EM & O)|(M & j & J & EM & R)].
        -- injection EM as -> ->. simpl in E. injection E as <- <-. simpl. destruct (seq 0 (k_n s)); exact Logic.I.
        -- destruct (Nat.eq_dec j (k_n s)) as [->|NJ]; [rewrite Nat.sub_diag in EM; discriminate EM|]. rewrite seq_cons in EM by lia. simpl in EM. injection EM as -> ->. simpl in E.
           destruct (ready _); injection E as <- <-; simpl; [|rewrite T; exact Logic.I]. destruct (seq (S j) (k_n s - S j)); exact Logic.I.
      * destruct MD as (R & _ & P). destruct (P x (or_introl eq_refl)) as (i & [-> | ->]); simpl in E.
        -- injection E as <- <-. simpl. rewrite app_nil_r. congruence.
        -- destruct (e_thread (k_emu s i)); injection E as <- <-; simpl; rewrite ?T, app_nil_r; congruence.
    + injection E as <- <-. rewrite T, app_nil_r. exact L.
  - destruct (thread_inv begin turn s log i q I) as (s1 & e1 & E1 & _ & X). rewrite E in E1. injection E1 as <- <-. eapply live_turned; eauto.
  - injection E as <- <-. unfold live, handed in *. rewrite running_app, ignored_app. simpl. exact L.
  - simpl in E. injection E as <- <-. unfold live, handed in *. rewrite running_app, ignored_app. simpl.
    assert (R : forall j, ready (e_thread (if j =? i then mkEmul (e_set (k_emu s i)) (e_file (k_emu s i)) (e_lim (k_emu s i)) (e_last (k_emu s i)) 0 (e_tot (k_emu s i)) (e_thread (k_emu s i)) (e_alive (k_emu s i)) else k_emu s j)) = ready (e_thread (k_emu s j))).
    { intros j. destruct (Nat.eqb_spec j i) as [->|]; reflexivity. }
    destruct (k_todo s) as [[[l| | | |] m]|]; try (intros; rewrite R; auto; fail).
    + intros j J. specialize (L j J). destruct (in_dec _ _ _); [exact L|]. rewrite R. exact L.
    + destruct m as [|[]]; auto; intros; rewrite R; auto.
Qed.

Lemma orderly_live : forall n acts s log, orderly (card_new n) acts -> run (card_new n) acts = Ok (s, log) -> live s log.
Proof.
  intros n acts. induction acts as [|a acts IH] using rev_ind; intros s log O R.
  - injection R as <- <-. unfold live. simpl. discriminate.
  - apply run_snoc in R. destruct R as (s1 & l1 & ev & R & E & ->). eapply live_step; [eapply orderly_inv; [eapply orderly_app; eauto|exact R]|apply IH; [eapply orderly_app; eauto|exact R]| |exact E].
    intros c ->. apply (O acts c [] s1 l1); auto.
Qed.

(** ** Production *)
Definition dist (p : producer) : nat :=
  match p with Head _ _ => 1 | Limit _ _ _ | Given => 2 | Rate _ _ => 3 | Counted _ _ => 4 | Pushed _ _ => 5 | _ => 0 end.

Lemma offered_app : forall i a b, offered i (a ++ b) = offered i a + offered i (b : list event).
Proof. intros i a b. unfold offered. rewrite filter_app, app_length. reflexivity. Qed.
Lemma turns_cons : forall i a more, turns i (a :: more) = (match a with AThread j _ => if j =? i then 1 else 0 | _ => 0 end) + turns i more.
Proof. intros i a more. unfold turns. simpl. destruct a; auto. destruct (i0 =? i); reflexivity. Qed.

Lemma dist_turn : forall s i q s' ev o rs, link_inv (k_emu s i) o rs -> k_marker s = true -> ready (e_thread (k_emu s i)) = false ->
  (forall c q' x y x', o = Some c -> turn c q' x = Ok (y, x') -> y <> None) ->
  thread_step begin turn s i q = Ok (s', ev) -> 1 + dist (e_thread (k_emu s' i)) = 5 * offered i ev + dist (e_thread (k_emu s i)).
Proof.
  intros s i q s' ev o rs [LS LF LW LG LR LL LA] M R AL E. unfold thread_step in E. rewrite M in E. destruct (e_thread (k_emu s i)) eqn:T; try discriminate R.
  - destruct (e_file (k_emu s i)) as [[f [c|]]|]; try discriminate E. destruct (begin c (e_last (k_emu s i))); [|discriminate E]. simpl in E. injection E as <- <-. simpl. rewrite Nat.eqb_refl. reflexivity.
  - destruct (e_file (k_emu s i)) as [[g [c|]]|] eqn:F; try discriminate E. destruct (LF _ _ eq_refl) as [EO _]. destruct (_ && _); [|discriminate E].
    destruct (turn c q s0) as [[y x]|] eqn:TU; simpl in E; [|discriminate E]. destruct y as [p|]; [|exfalso; eapply AL; eauto]. injection E as <- <-. unfold offered. simpl. rewrite !Nat.eqb_refl. reflexivity.
  - injection E as <- <-. simpl. rewrite Nat.eqb_refl. reflexivity.
  - injection E as <- <-. simpl. rewrite Nat.eqb_refl. reflexivity.
  - destruct (e_lim _); [|discriminate E]. injection E as <- <-. simpl. rewrite Nat.eqb_refl. reflexivity.
  - destruct (e_lim _); [|discriminate E]. destruct (_ =? _); [|discriminate E]. injection E as <- <-. simpl. rewrite Nat.eqb_refl. reflexivity.
Qed.

Lemma dist_other : forall s i j q s' ev, j <> i -> thread_step begin turn s j q = Ok (s', ev) -> offered i ev = 0.
Proof.
  intros s i j q s' ev N E. assert (NB : j =? i = false) by (apply Nat.eqb_neq; auto). unfold thread_step in E. destruct (e_thread (k_emu s j)).
  - injection E as <- <-. reflexivity.
  - destruct (e_file (k_emu s j)) as [[f [c|]]|]; try discriminate E. destruct (begin c (e_last (k_emu s j))); [|discriminate E]. simpl in E. injection E as <- <-. reflexivity.
  - injection E as <- <-. reflexivity.
  - destruct (k_marker s); [|injection E as <- <-; reflexivity]. destruct (e_file (k_emu s j)) as [[g [c|]]|]; try discriminate E. destruct (_ && _); [|discriminate E].
    destruct (turn c q s0) as [[[p|] x]|]; simpl in E; try discriminate E; injection E as <- <-; unfold offered; simpl; rewrite ?NB; reflexivity.
  - injection E as <- <-. reflexivity.
  - injection E as <- <-. reflexivity.
  - destruct (e_lim _); [|discriminate E]. injection E as <- <-. reflexivity.
  - destruct (e_lim _); [|discriminate E]. destruct (_ =? _); [|discriminate E]. injection E as <- <-. reflexivity.
Qed.

Lemma produces : forall more s log i, inv s log -> k_todo s = None -> k_marker s = true -> ready (e_thread (k_emu s i)) = false -> no_command more ->
  (forall c q x y x', settings i log = Some c -> turn c q x = Ok (y, x') -> y <> None) ->
  exists s' ev, run s more = Ok (s', ev) /\ ready (e_thread (k_emu s' i)) = false /\ turns i more + dist (e_thread (k_emu s' i)) = 5 * offered i ev + dist (e_thread (k_emu s i)).
Proof.
  induction more as [|a more IH]; intros s log i I T M R N AL.
  - exists s, []. split; [reflexivity|]. auto.
  - apply no_command_cons in N. destruct N as [NA N]. rewrite turns_cons.
    assert (exists s1 e1, step s a = Ok (s1, e1) /\ inv s1 (log ++ e1) /\ k_todo s1 = None /\ k_marker s1 = true /\ ready (e_thread (k_emu s1 i)) = false /\ settings i (log ++ e1) = settings i log /\
            (match a with AThread j _ => if j =? i then 1 else 0 | _ => 0 end) + dist (e_thread (k_emu s1 i)) = 5 * offered i e1 + dist (e_thread (k_emu s i))) as (s1 & e1 & E1 & I1 & T1 & M1 & R1 & S1 & D1).
    { destruct a as [c| |j q|j|j].
      - contradiction (NA c eq_refl).
      - simpl. rewrite idle_command by auto. exists s, []. rewrite app_nil_r. split; [reflexivity|]. split; [exact I|]. auto.
      - destruct (thread_inv begin turn s log j q I) as (s1 & e1 & E1 & I1 & X). exists s1, e1. split; [exact E1|]. split; [exact I1|].
        split; [rewrite (t_todo _ _ _ _ X); exact T|]. split; [rewrite (t_marker _ _ _ _ X); exact M|].
        destruct (Nat.eqb_spec j i) as [->|NE].
        + split; [eapply stay; eauto|]. split; [rewrite settings_app; apply quiet_settings; apply X|]. eapply dist_turn; eauto. apply (v_link _ _ _ _ I).
        + rewrite (t_other _ _ _ _ X) by auto. split; [exact R|]. split; [rewrite settings_app; apply quiet_settings; apply X|]. rewrite (dist_other _ _ _ _ _ _ NE E1). reflexivity.
      - exists s, [ETotal j (e_tot (k_emu s j))]. split; [reflexivity|]. split; [apply total_inv; auto|]. rewrite settings_app. auto.
      - destruct (step s (ANew j)) as [[s1 e1]|] eqn:E1; [|discriminate E1]. destruct (new_inv begin turn s log j s1 e1 I E1) as [I1 X]. exists s1, e1. split; [reflexivity|]. split; [exact I1|].
        split; [rewrite (t_todo _ _ _ _ X); exact T|]. split; [rewrite (t_marker _ _ _ _ X); exact M|]. simpl in E1. injection E1 as <- <-. rewrite settings_app. simpl.
        destruct (Nat.eqb_spec i j) as [->|NE]; auto. }
    destruct (IH s1 (log ++ e1) i I1 T1 M1 R1 N) as (s2 & e2 & E2 & R2 & D2); [rewrite S1; exact AL|].
    simpl. rewrite E1. simpl. rewrite E2. simpl. exists s2, (e1 ++ e2). split; [reflexivity|]. split; [exact R2|]. rewrite offered_app. lia.
Qed.

(** A link without a producer offers nothing. *)
Lemma silent : forall more s log i, inv s log -> k_todo s = None -> ready (e_thread (k_emu s i)) = true -> no_command more ->
  exists s' ev, run s more = Ok (s', ev) /\ offered i ev = 0.
Proof.
  induction more as [|a more IH]; intros s log i I T R N.
  - exists s, []. auto.
  - apply no_command_cons in N. destruct N as [NA N].
    assert (exists s1 e1, step s a = Ok (s1, e1) /\ inv s1 (log ++ e1) /\ k_todo s1 = None /\ ready (e_thread (k_emu s1 i)) = true /\ offered i e1 = 0) as (s1 & e1 & E1 & I1 & T1 & R1 & D1).
    { destruct a as [c| |j q|j|j].
      - contradiction (NA c eq_refl).
      - simpl. rewrite idle_command by auto. exists s, []. rewrite app_nil_r. auto.
      - destruct (thread_inv begin turn s log j q I) as (s1 & e1 & E1 & I1 & X). exists s1, e1. split; [exact E1|]. split; [exact I1|].
        split; [rewrite (t_todo _ _ _ _ X); exact T|]. destruct (Nat.eq_dec j i) as [->|NE].
        + destruct (t_ready _ _ _ _ X R) as (R1 & _). split; [exact R1|]. destruct (ready_silent begin turn s i q R) as (s2 & E2). simpl in E1. rewrite E2 in E1. injection E1 as <- <-. reflexivity.
        + rewrite (t_other _ _ _ _ X) by auto. split; [exact R|]. eapply dist_other; eauto.
      - exists s, [ETotal j (e_tot (k_emu s j))]. split; [reflexivity|]. split; [apply total_inv; auto|]. auto.
      - destruct (step s (ANew j)) as [[s1 e1]|] eqn:E1; [|discriminate E1]. destruct (new_inv begin turn s log j s1 e1 I E1) as [I1 X]. exists s1, e1. split; [reflexivity|]. split; [exact I1|].
        split; [rewrite (t_todo _ _ _ _ X); exact T|]. simpl in E1. injection E1 as <- <-. simpl. destruct (Nat.eqb_spec i j) as [->|NE]; auto. }
    destruct (IH s1 (log ++ e1) i I1 T1 R1 N) as (s2 & e2 & E2 & D2). simpl. rewrite E1. simpl. rewrite E2. simpl. exists s2, (e1 ++ e2). split; [reflexivity|]. rewrite offered_app. lia.
Qed.
End Proofs.
