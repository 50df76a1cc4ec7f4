(** Proofs about Feed_model.v: the two kinds of emulator; a start after a pause. *)
From Coq Require Import ZArith List Bool Arith Lia.
From Verif Require Import Base_model Bytes_model Ebg_model Ebg_spec Emu_model Emu_spec Emu_proofs Rawtp_model Rawtp_spec Rawtp_proofs
  Feed_model Feed_spec Feed_proofs Feed_proofs2 Feed_proofs3 Feed_proofs4 Feed_proofs6.
Import ListNotations.
Open Scope nat_scope.

(** ** The source emulator *)
Lemma raw_makes : forall c queue s, makes kind_turn (Raw c) queue (RawAt s) =
  do r <- emu_loop c queue s; Ok (flat_map (fun x => match fst x with Some p => [(RawOut p, snd x)] | None => [] end) (combine (fst r) queue), RawAt (snd r)).
Proof.
  induction queue as [|q queue IH]; intros s; [reflexivity|]. cbn [makes emu_loop kind_turn bind]. destruct (emu_slot c q s) as [[o s1]|]; [|reflexivity]. cbn [bind fst snd].
  rewrite IH. destruct (emu_loop c queue s1) as [[l s2]|]; [|reflexivity]. cbn [bind fst snd combine flat_map]. destruct o; reflexivity.
Qed.
Lemma combine_map_l : forall (T U V : Type) (f : T -> U) (a : list T) (b : list V), combine (map f a) b = map (fun x => (f (fst x), snd x)) (combine a b).
Proof. induction a as [|x a IH]; intros [|y b]; cbn; f_equal; auto. Qed.
Lemma slots_run : forall c used queue,
  flat_map (fun x => match fst x with Some p => [(RawOut p, snd x)] | None => [] end)
    (combine (map (fun x => slot c (start_time c) used (fst x) (snd x)) (combine (seq 0 (length queue)) queue)) queue) = raw_run c used queue.
Proof.
  intros c used queue. unfold raw_run. generalize 0. induction queue as [|q queue IH]; intros k; [reflexivity|]. cbn [length seq combine map flat_map fst snd]. rewrite IH. reflexivity.
Qed.

Definition gen_of (last : option kind_state) : gen := match last with Some (RawAt s) => es_gen s | _ => gen_new end.
Lemma raw_alone : forall c last used queue, good_raw c -> (exists ws, gen_words (em_tables c) used gen_new = Ok (ws, gen_of last)) ->
  exists s, alone kind_begin kind_turn (Raw c) last queue = Ok (raw_run c used queue, RawAt s) /\
    exists ws, gen_words (em_tables c) (used + produced (em_dropouts c) (length queue) * em_frames c) gen_new = Ok (ws, es_gen s).
Proof.
  intros c last used queue (S0 & N0 & NB & D0 & T) W. destruct (begin_inv c S0 N0 D0 used (gen_of last) W) as (s0 & B & I).
  destruct (many_slots c S0 N0 NB D0 T _ used queue 0 s0 I) as (s1 & L & I1). exists s1. unfold alone. cbn [kind_begin]. fold (gen_of last). rewrite B. cbn [bind].
  rewrite raw_makes, L. cbn [bind fst snd]. split; [|exact (i_gen _ _ _ _ _ I1)]. do 2 f_equal. apply slots_run.
Qed.
Lemma raw_fed : forall c, good_raw c -> forall rs last, fed kind_begin kind_turn (Raw c) rs last ->
  exists used, raw_runs c rs used /\ exists ws, gen_words (em_tables c) used gen_new = Ok (ws, gen_of last).
Proof.
  intros c G rs last F. induction F as [|rs last queue r x F (used & R & W) A|rs last F (used & R & W)].
  - exists 0. split; [constructor|]. exists []. reflexivity.
  - destruct (raw_alone c last used queue G W) as (s & A' & W'). rewrite A in A'. injection A' as -> ->. eexists. split; [constructor; exact R|]. exact W'.
  - exists used. split; [|exact W]. pose proof (raw_next c rs used [] R) as N. cbn in N. unfold produced in N. cbn in N. rewrite Nat.add_0_r in N. exact N.
Qed.
Lemma raw_sound : forall c, good_raw c -> sound kind_begin kind_turn (Raw c).
Proof.
  intros c G rs last queue F C. destruct (raw_fed c G rs last F) as (used & _ & W). destruct (raw_alone c last used queue G W) as (s & A & _). congruence.
Qed.

(** ** The TP emulator *)
Lemma tps_makes : forall junk file queue off l, produce junk file (length queue) off = Ok l ->
  exists x, makes kind_turn (Tps junk file) queue (TpsAt off) = Ok (combine (map TpsOut l) queue, x).
Proof.
  induction queue as [|q queue IH]; intros off l P.
  - injection P as <-. eexists. reflexivity.
  - cbn [length produce] in P. cbn [makes kind_turn]. set (o := if off =? _ then _ else _) in *. destruct (next_frame junk file o) as [[f o1]|]; [|discriminate P]. cbn [bind fst snd] in *.
    destruct (produce junk file (length queue) o1) as [rest|] eqn:E; [|discriminate P]. cbn [bind] in P. injection P as <-. destruct (IH _ _ E) as (x & ->). eexists. reflexivity.
Qed.
Lemma tps_alone : forall junk blocks last queue, good_tps blocks ->
  exists x, alone kind_begin kind_turn (Tps junk (concat (map file_bytes blocks))) last queue = Ok (tps_run blocks queue, x).
Proof.
  intros junk blocks last queue [W N]. unfold alone. cbn [kind_begin bind].
  destruct (tps_makes junk (concat (map file_bytes blocks)) queue 0 _ (produce_ok junk blocks W N (length queue) 0 (Nat.le_0_l _))) as (x & ->). exists x. do 2 f_equal.
  unfold tps_run. rewrite map_map, combine_map_l. reflexivity.
Qed.
Lemma tps_fed : forall junk blocks rs last, good_tps blocks -> fed kind_begin kind_turn (Tps junk (concat (map file_bytes blocks))) rs last ->
  Forall (fun r => exists queue, r = tps_run blocks queue) rs.
Proof.
  intros junk blocks rs last G F. induction F as [|rs last queue r x F IH A|rs last F IH]; constructor; auto.
  - destruct (tps_alone junk blocks last queue G) as (y & E). rewrite A in E. injection E as -> _. exists queue. reflexivity.
  - exists []. reflexivity.
Qed.
Lemma tps_sound : forall junk blocks, good_tps blocks -> sound kind_begin kind_turn (Tps junk (concat (map file_bytes blocks))).
Proof. intros junk blocks G rs last queue _ C. destruct (tps_alone junk blocks last queue G) as (x & E). congruence. Qed.

(** ** A start after a pause *)
Section Pause.
Context {Conf St Out : Type}.
Variable begin : Conf -> option St -> res St.
Variable turn : Conf -> bool -> St -> res (option Out * St).
Notation action := (action Conf). Notation event := (event Conf Out). Notation mop := (mop Conf).
Notation card := (card Conf St).
Notation run := (card_run begin turn).
Notation step := (card_step begin turn).
Notation inv := (inv begin turn).
Implicit Types (s : card) (log ev : list event) (acts more : list action).

Lemma off_stays : forall s i j q s' ev, thread_step begin turn s j q = Ok (s', ev) -> e_thread (k_emu s i) = Off -> e_thread (k_emu s' i) = Off.
Proof.
  intros s i j q s' ev E O. destruct (Nat.eq_dec i j) as [->|N]; [unfold thread_step in E; rewrite O in E; injection E as <- <-; exact O|].
  destruct (thread_frame begin turn _ _ _ _ _ E) as (_ & _ & F & _). rewrite F by auto. exact O.
Qed.
Lemma pause : forall more s log, inv s log -> k_todo s = None -> rest s -> no_command more ->
  exists s' ev, run s more = Ok (s', ev) /\ inv s' (log ++ ev) /\ k_todo s' = None /\ rest s' /\ k_n s' = k_n s /\ (forall i, ~ In (EIgnored i) ev) /\
    forall i, e_thread (k_emu s i) = Off \/ 0 < turns i more -> e_thread (k_emu s' i) = Off.
Proof.
  induction more as [|a more IH]; intros s log I T R N.
  - exists s, []. rewrite app_nil_r. split; [reflexivity|]. split; [exact I|]. split; [exact T|]. split; [exact R|]. split; [reflexivity|]. split; [intros i []|]. intros i [H|H]; [exact H|]. unfold turns in H. simpl in H. lia.
  - apply no_command_cons in N. destruct N as [NA N].
    assert (exists s1 e1, step s a = Ok (s1, e1) /\ inv s1 (log ++ e1) /\ k_todo s1 = None /\ rest s1 /\ k_n s1 = k_n s /\ (forall i, ~ In (EIgnored i) e1) /\
            forall i, e_thread (k_emu s i) = Off \/ (exists q, a = AThread i q) -> e_thread (k_emu s1 i) = Off) as (s1 & e1 & E1 & I1 & T1 & R1 & K1 & G1 & O1).
    { destruct a as [c| |j q|j|j].
      - contradiction (NA c eq_refl).
      - simpl. rewrite idle_command by auto. exists s, []. rewrite app_nil_r. split; [reflexivity|]. split; [exact I|]. split; [exact T|]. split; [exact R|]. split; [reflexivity|]. split; [intros i []|]. intros i [H|(q & H)]; [exact H|discriminate H].
      - destruct (thread_inv begin turn s log j q I) as (s1 & e1 & E1 & I1 & X). exists s1, e1. split; [exact E1|]. split; [exact I1|]. split; [rewrite (t_todo _ _ _ _ X); exact T|]. split; [eapply rest_turned; eauto|].
        split; [apply X|]. split; [intros i H; apply (t_quiet _ _ _ _ X _ H)|]. intros i [H|(q' & H)]; [eapply off_stays; eauto|]. injection H as -> ->.
        simpl in E1. pose proof (proj2 R i) as RI. unfold thread_step in E1. destruct (e_thread (k_emu s i)) eqn:TH; try discriminate RI; injection E1 as <- <-; [exact TH|]. simpl. rewrite Nat.eqb_refl. reflexivity.
      - exists s, [ETotal j (e_tot (k_emu s j))]. split; [reflexivity|]. split; [apply total_inv; auto|]. split; [exact T|]. split; [exact R|]. split; [reflexivity|]. split; [intros i [H|[]]; discriminate H|]. intros i [H|(q & H)]; [exact H|discriminate H].
      - destruct (step s (ANew j)) as [[s1 e1]|] eqn:E1; [|discriminate E1]. destruct (new_inv begin turn s log j s1 e1 I E1) as [I1 X]. exists s1, e1. split; [reflexivity|]. split; [exact I1|].
        split; [rewrite (t_todo _ _ _ _ X); exact T|]. split; [eapply rest_turned; eauto|]. split; [apply X|]. split; [intros i H; apply (t_quiet _ _ _ _ X _ H)|].
        simpl in E1. injection E1 as <- <-. intros i [H|(q & H)]; [|discriminate H]. simpl. destruct (Nat.eqb_spec i j) as [->|]; exact H. }
    destruct (IH s1 (log ++ e1) I1 T1 R1 N) as (s2 & e2 & E2 & I2 & T2 & R2 & K2 & G2 & O2). simpl. rewrite E1. simpl. rewrite E2. simpl. exists s2, (e1 ++ e2). rewrite app_assoc.
    split; [reflexivity|]. split; [exact I2|]. split; [exact T2|]. split; [exact R2|]. split; [congruence|]. split; [intros i H; apply in_app_or in H; destruct H as [H|H]; [exact (G1 i H)|exact (G2 i H)]|].
    intros i [H|H]; apply O2; [left; apply O1; auto|]. rewrite turns_cons in H. destruct a as [c| |j q|j|j]; auto. destruct (Nat.eqb_spec j i) as [->|]; [left; apply O1; eauto|auto].
Qed.

Definition starting s : Prop :=
  match k_todo s with
  | None | Some (CStart, []) => True
  | Some (CStart, MMarker _ :: m) | Some (CStart, m) => exists j, j <= k_n s /\ m = map MStart (seq j (k_n s - j)) /\ forall i, j <= i < k_n s -> e_thread (k_emu s i) = Off
  | _ => False
  end.
Lemma starting_step : forall s a s' ev, starting s -> (forall c, a <> ACommand c) -> step s a = Ok (s', ev) -> starting s' /\ forall i, ~ In (EIgnored i) ev.
Proof.
  intros s a s' ev K NC E.
  assert (FR : k_n s' = k_n s -> k_todo s' = k_todo s -> (forall i, e_thread (k_emu s i) = Off -> e_thread (k_emu s' i) = Off) -> starting s').
  { intros A B C. unfold starting in *. rewrite A, B. destruct (k_todo s) as [[[] [|[] m]]|]; auto; destruct K as (j & J & M & O); exists j; auto. }
  destruct a as [c| |j q|j|j].
  - contradiction (NC c eq_refl).
  - simpl in E. injection E as E. unfold command_step in E. unfold starting in K. destruct (k_todo s) as [[[l| | | |] m]|] eqn:T; try contradiction.
    + destruct m as [|x m]; [injection E as <- <-; split; [exact Logic.I|]; intros i [H|[]]; discriminate H|].
      destruct x; try (destruct K as (j & J & M & O); destruct (seq j (k_n s - j)); discriminate M).
      * injection E as <- <-. split; [|intros i []]. unfold starting. simpl. destruct K as (j & J & M & O). rewrite M. destruct (seq j (k_n s - j)) eqn:SQ; simpl; [exact Logic.I|]. exists j. rewrite SQ. auto.
      * destruct K as (j & J & M & O). destruct (Nat.eq_dec j (k_n s)) as [->|NE]; [rewrite Nat.sub_diag in M; discriminate M|]. rewrite seq_cons in M by lia. simpl in M. injection M as -> ->. simpl in E. rewrite (O j) in E by lia. injection E as <- <-.
        split; [|intros k []]. unfold starting. simpl. destruct (seq (S j) (k_n s - S j)) eqn:SQ; simpl; [exact Logic.I|]. exists (S j). split; [lia|]. split; [rewrite SQ; reflexivity|]. intros k K'. destruct (Nat.eqb_spec k j); [lia|]. apply O. lia.
    + injection E as <- <-. split; [|intros i []]. unfold starting. rewrite T. exact Logic.I.
  - simpl in E. destruct (thread_frame begin turn _ _ _ _ _ E) as (A & B & C & D). split.
    + apply FR; auto; [|intros i H; eapply off_stays; eauto]. apply (run_n begin turn [AThread j q] s s' ev). simpl. rewrite E. simpl. rewrite app_nil_r. reflexivity.
    + intros i H. clear - E H. unfold thread_step in E. destruct (e_thread (k_emu s j)); try (injection E as <- <-; destruct H; fail).
      * destruct (e_file (k_emu s j)) as [[f [c|]]|]; try discriminate E. destruct (begin c _); [|discriminate E]. injection E as <- <-. destruct H.
      * destruct (k_marker s); [|injection E as <- <-; destruct H]. destruct (e_file (k_emu s j)) as [[g [c|]]|]; try discriminate E. destruct (_ && _); [|discriminate E].
        destruct (turn c q s0) as [[[p|] x]|]; simpl in E; try discriminate E; injection E as <- <-; [destruct H as [H|[]]; discriminate H|destruct H].
      * destruct (e_lim _); [|discriminate E]. injection E as <- <-. destruct H.
      * destruct (e_lim _); [|discriminate E]. destruct (_ =? _); [|discriminate E]. injection E as <- <-. destruct H.
  - injection E as <- <-. split; [exact K|]. intros i [H|[]]. discriminate H.
  - simpl in E. injection E as <- <-. split; [|intros i [H|[]]; discriminate H]. apply FR; auto. intros i H. simpl. destruct (Nat.eqb_spec i j) as [->|]; exact H.
Qed.
Lemma starting_run : forall more s s' ev, starting s -> no_command more -> run s more = Ok (s', ev) -> forall i, ~ In (EIgnored i) ev.
Proof.
  induction more as [|a more IH]; intros s s' ev K N E i.
  - injection E as <- <-. intros [].
  - apply no_command_cons in N. destruct N as [NA N]. simpl in E. destruct (step s a) as [[s1 e1]|] eqn:E1; [|discriminate E]. simpl in E. destruct (run s1 more) as [[s2 e2]|] eqn:E2; [|discriminate E]. simpl in E. injection E as <- <-.
    destruct (starting_step s a s1 e1 K NA E1) as [K1 Q]. intros H. apply in_app_or in H. destruct H as [H|H]; [exact (Q _ H)|]. eapply IH; eauto.
Qed.
Lemma start_after_pause : forall s log wait more, inv s log -> k_todo s = None -> rest s -> no_command wait -> (forall i, i < k_n s -> 0 < turns i wait) -> no_command more ->
  forall s' ev, run s (wait ++ ACommand CStart :: more) = Ok (s', ev) -> forall i, ~ In (EIgnored i) ev.
Proof.
  intros s log wait more I T R N P N2 s' ev E i. destruct (pause wait s log I T R N) as (s1 & e1 & E1 & I1 & T1 & R1 & K1 & G1 & O1). rewrite run_app, E1 in E. cbn [bind fst snd] in E.
  simpl in E. rewrite T1 in E. simpl in E. destruct (run _ more) as [[s2 e2]|] eqn:E2; [|discriminate E]. simpl in E. injection E as <- <-. intros H. apply in_app_or in H. destruct H as [H|[H|H]]; [exact (G1 i H)|discriminate H|].
  revert H. eapply starting_run; [|exact N2|exact E2]. unfold starting. simpl. exists 0. split; [lia|]. rewrite Nat.sub_0_r. split; [reflexivity|]. intros k K. apply O1. right. apply P. lia.
Qed.

(** ** Deciding whether a schedule is orderly *)
Definition allowed_b (log : list event) (c : cmd Conf) : bool :=
  negb (existsb (fun e => match e with ECommand CDestroy => true | _ => false end) log) &&
  match c with
  | CConf _ => negb (running log) || configured log
  | CScrap | CDestroy => negb (running log)
  | CStart => negb (running log) && configured log
  | CStop => true
  end.
Fixpoint orderly_b s log acts : bool :=
  match acts with
  | [] => true
  | a :: rest =>
      match a with ACommand c => match current log with None => allowed_b log c | Some _ => false end | _ => true end &&
      match step s a with Ok (s1, ev) => orderly_b s1 (log ++ ev) rest | Crash => true end
  end.
Lemma orderly_check : forall acts s log, orderly_b s log acts = true ->
  (forall l i k, In (ACommand (CConf l)) acts -> In (i, Some k) l -> sound begin turn k) ->
  forall before c after s' ev, acts = before ++ ACommand c :: after -> run s before = Ok (s', ev) -> current (log ++ ev) = None /\ allowed begin turn (log ++ ev) c.
Proof.
  induction acts as [|a acts IH]; intros s log B S0 before c after s' ev E R; [destruct before; discriminate E|].
  simpl in B. apply andb_true_iff in B. destruct B as [B1 B2]. destruct before as [|b before].
  - injection E as -> ->. injection R as <- <-. rewrite app_nil_r. destruct (current log); [discriminate B1|]. split; [reflexivity|]. unfold allowed_b in B1. apply andb_true_iff in B1. destruct B1 as [D B1].
    split.
    + intros H. apply negb_true_iff in D. assert (X : existsb (fun e : event => match e with ECommand CDestroy => true | _ => false end) log = true) by (apply existsb_exists; eexists; split; [exact H|reflexivity]). congruence.
    + destruct c as [l| | | |]; auto.
      * split; [destruct (running log); auto|]. intros i k H. apply (S0 l i k); auto. left. reflexivity.
      * apply negb_true_iff. exact B1.
      * apply andb_true_iff in B1. destruct B1 as [B1 B3]. apply negb_true_iff in B1. auto.
      * apply negb_true_iff. exact B1.
  - injection E as <- ->. simpl in R. destruct (step s a) as [[s1 e1]|]; [|discriminate R]. simpl in R. destruct (run s1 before) as [[s2 e2]|] eqn:E2; [|discriminate R]. simpl in R. injection R as <- <-.
    rewrite app_assoc. eapply IH; eauto. intros l i k H. apply (S0 l i k). right. exact H.
Qed.
Lemma orderly_decide : forall acts s, orderly_b s [] acts = true -> (forall l i k, In (ACommand (CConf l)) acts -> In (i, Some k) l -> sound begin turn k) -> orderly begin turn s acts.
Proof. intros acts s B S0 before c after s' log E R. apply (orderly_check acts s [] B S0 before c after s' log E R). Qed.
End Pause.

Lemma steady_turn : forall k, steady k -> forall q x y x', kind_turn k q x = Ok (y, x') -> y <> None.
Proof.
  intros [c|junk file] S0 q [s|o] y x' E; cbn [kind_turn] in E; try discriminate E.
  - unfold emu_slot in E. destruct (nth_error (em_dropouts c) (es_drop s)) as [b|] eqn:N; [|discriminate E]. apply nth_error_In in N. cbn [steady] in S0. rewrite Forall_forall in S0. rewrite (S0 _ N) in E.
    destruct (rd _ _ _); [|discriminate E]. cbn [bind] in E. destruct (gen_words _ _ _); [|discriminate E]. cbn [bind option_map fst snd] in E. injection E as <- <-. discriminate.
  - destruct (next_frame _ _ _); [|discriminate E]. cbn [bind] in E. injection E as <- <-. discriminate.
Qed.
