(** Proofs about the life of a recorder: counters, commands out of order. *)
From Coq Require Import String ZArith List Bool Arith Lia.
From Verif Require Import Base_model File_model File_spec File_proofs Recorder_model Recorder_spec Recorder_proofs Recorder_proofs2 Recorder_proofs4 Recorder_proofs5.
Import ListNotations.
Open Scope nat_scope.

Section Proofs.
Variable enc : codec -> list Z -> list Z.
Variable d : device.
Notation run := (rec_run enc d).
Notation step := (rec_step enc d).
Notation inv := (inv enc d).

(** ** The total *)
Definition counted (s : rec) (log : list event) : Prop :=
  (match y_todo s with Some (CStart, MZero :: _) => False | _ => True end) ->
  match y_thread s with
  | Popped _ => exists n, length (taken_run log) = S n /\ y_total s = i32 (Z.of_nat n)
  | _ => y_total s = i32 (Z.of_nat (length (taken_run log)))
  end.
Definition zeroing (t : option (cmd * list mop)) : Prop := match t with Some (CStart, MZero :: _) => True | _ => False end.
Lemma total_step : forall s log a s' ev, inv s log -> counted s log /\ (zeroing (y_todo s) -> taken_run log = []) -> 
  step s a = Ok (s', ev) -> counted s' (log ++ ev) /\ (zeroing (y_todo s') -> taken_run (log ++ ev) = []).
Proof.
  intros s log a s' ev I [C Z] E.
  assert (AP : forall ev, taken_run (log ++ ev) = taken_run_from (taken_run log) ev) by (intros; unfold taken_run; apply taken_run_from_app).
  assert (KEEP : forall s1 ev, y_todo s1 = y_todo s -> y_thread s1 = y_thread s -> y_total s1 = y_total s -> taken_run_from (taken_run log) ev = taken_run log ->
     counted s1 (log ++ ev) /\ (zeroing (y_todo s1) -> taken_run (log ++ ev) = [])).
  { intros s1 ev0 E1 E2 E3 E4. unfold counted. rewrite AP, E1, E2, E3, E4. auto. }
  destruct a as [c| | | |e|]; cbn [rec_step] in E.
  - destruct (y_todo s) as [t|] eqn:T; injection E as <- <-; [apply KEEP; auto|]. unfold counted. rewrite AP. cbn [set_todo y_todo y_thread y_total]. unfold counted in C. rewrite T in C. specialize (C Logic.I).
    destruct c; cbn; auto. split; [contradiction|auto].
  - unfold command_step in E. destruct (y_todo s) as [[c [|m rest]]|] eqn:T; [| |injection E as <- <-; apply KEEP; auto].
    + injection E as <- <-. unfold counted in *. rewrite AP, T in *. cbn. split; [|tauto]. intros _. apply C. destruct c; exact Logic.I.
    + assert (TD : m = MZero -> c = CStart /\ rest = [MMarker true; MGive]).
      { intros ->. destruct I as [_ TD _ _ _]. unfold todo_ok in TD. rewrite T in TD. destruct c as [g x y| | |].
        - destruct TD as (_ & _ & [(Y & _)|[(Y & _)|(Y & _)]]); discriminate Y.
        - destruct TD as (_ & _ & [(j & Y & J & _)|(Y & _)]); [|discriminate Y]. assert (J3 : j = 0 \/ j = 1 \/ j = 2) by lia. destruct J3 as [-> |[-> | ->]]; cbn in Y; try discriminate Y. injection Y as ->. auto.
        - destruct TD as (_ & [Y|[Y|(Y & _)]] & _); discriminate Y.
        - destruct TD as (_ & _ & [(j & Y & J & _)|(Y & _)]); [|discriminate Y]. assert (J3 : j = 0 \/ j = 1) by lia. destruct J3 as [-> | ->]; discriminate Y. }
      assert (RZ : c = CStart -> match rest with MZero :: _ => False | _ => True end).
      { intros ->. destruct I as [_ TD' _ _ _]. unfold todo_ok in TD'. rewrite T in TD'. destruct TD' as (_ & _ & [(j & Y & J & _)|(Y & _)]); [|discriminate Y].
        assert (J3 : j = 0 \/ j = 1 \/ j = 2) by lia. destruct J3 as [-> |[-> | ->]]; cbn in Y; injection Y as -> ->; exact Logic.I. }
      assert (NXT : forall s1 ev1, m <> MZero -> y_total s1 = y_total s -> (y_thread s1 = y_thread s \/ (ready (y_thread s) = true /\ (y_thread s1 = Given \/ y_thread s1 = Missed))) ->
        taken_run_from (taken_run log) ev1 = taken_run log -> counted (set_todo s1 (Some (c, rest))) (log ++ ev1) /\ (zeroing (Some (c, rest)) -> taken_run (log ++ ev1) = [])).
      { intros s1 ev1 NZ E1 E2 E3. unfold counted. rewrite AP, E3. cbn [set_todo y_todo y_thread y_total]. split.
        - intros _. unfold counted in C. rewrite T in C. assert (PRE : match c with CStart => match m with MZero => False | _ => True end | _ => True end) by (destruct c, m; auto; congruence).
          specialize (C PRE). rewrite E1. destruct E2 as [-> |[RD E2]]; [exact C|]. destruct E2 as [-> | ->]; destruct (y_thread s); try discriminate RD; exact C.
        - intros Y. exfalso. destruct c; cbn in Y; try contradiction. specialize (RZ eq_refl). destruct rest as [|[]]; contradiction. }
      destruct (mop_step enc d s m) as [|s0|s0 ev0|] eqn:M; try discriminate E; injection E as <- <-.
      * apply KEEP; auto.
      * assert (F : y_thread s0 = y_thread s /\ y_total s0 = y_total s /\ m <> MZero).
        { revert M. unfold mop_step. destruct m; try discriminate; try (destruct (y_thread s); discriminate).
          destruct (ready _); [|discriminate]. destruct (fst _); [discriminate|]. intros X; injection X as <-. splits; auto. discriminate. }
        destruct F as (F1 & F2 & F3). unfold counted in *. rewrite AP, T in *. cbn. rewrite F1, F2. split; [|tauto]. intros _. apply C. destruct c, m; auto.
      * destruct m; cbn [mop_step] in M.
        -- injection M as <- <-. apply NXT; auto; discriminate.
        -- destruct (ready _); [|discriminate]. destruct (fst _); [|discriminate]. injection M as <- <-. apply NXT; auto; discriminate.
        -- injection M as <- <-. destruct (TD eq_refl) as [-> ->]. cbn in Z. specialize (Z Logic.I). unfold counted. rewrite AP. cbn [set_todo set_total y_todo y_thread y_total taken_run_from]. rewrite Z. split; [|auto].
           intros _. destruct I as [_ TD' _ _ _]. unfold todo_ok in TD'. rewrite T in TD'. destruct TD' as (_ & _ & [(j & _ & _ & Y & _)|(Y & _)]); [|discriminate Y].
           destruct (y_thread s); try discriminate Y; reflexivity.
        -- injection M as <- <-. apply NXT; auto; discriminate.
        -- destruct (y_thread s) eqn:TH; injection M as <- <-; apply NXT; auto; try discriminate; right; auto.
        -- destruct (ready _); [|discriminate]. injection M as <- <-. apply NXT; auto; discriminate.
        -- destruct (y_thread s) eqn:TH; try discriminate M; injection M as <- <-; apply NXT; auto; discriminate.
        -- injection M as <- <-. apply NXT; auto; discriminate.
  - destruct (thread_frame d s s' ev E) as (F1 & _ & _ & _ & F5 & _ & _ & F8). rewrite F1. rewrite AP.
    assert (ZR : zeroing (y_todo s) -> ready (y_thread s) = true).
    { intros Y. destruct I as [_ TD _ _ _]. unfold todo_ok in TD. destruct (y_todo s) as [[[] [|[] rest]]|] eqn:T; cbn in Y; try contradiction. destruct TD as (_ & _ & [(j & _ & _ & R & _)|(R & _)]); [auto|discriminate R]. }
    split; [|intros Y; rewrite (F8 (ZR Y)); cbn; auto].
    unfold counted. rewrite AP, F1. intros NZ. unfold counted in C. specialize (C NZ). unfold thread_step in E. destruct (y_thread s) eqn:TH; try (injection E as <- <-; cbn; rewrite ?TH; exact C).
    + injection E as <- <-. cbn. destruct (y_marker s); exact C.
    + destruct (y_queue s); injection E as <- <-; cbn; [exact C|]. exists (length (taken_run log)). rewrite app_length. cbn. split; [lia|exact C].
    + injection E as <- <-. cbn. destruct C as (n & C1 & C2). rewrite C1, C2, i32_step. f_equal. lia.
    + destruct (fst (writes _ _ _)); injection E as <- <-; cbn; exact C.
    + destruct (y_fd s); [|discriminate]. injection E as <- <-. cbn. exact C.
  - injection E as <- <-. unfold counted in *. rewrite AP. cbn [taken_run_from].
    assert (TT : y_todo (match y_thread s with Off => set_thread s Awake | Missed => set_thread s Given | _ => s end) = y_todo s /\ y_total (match y_thread s with Off => set_thread s Awake | Missed => set_thread s Given | _ => s end) = y_total s) by (destruct (y_thread s); auto).
    destruct TT as (T1 & T2). rewrite T1, T2. split; [|exact Z]. intros NZ. specialize (C NZ). destruct (y_thread s) eqn:TH; cbn; rewrite ?TH; exact C.
  - injection E as <- <-. apply KEEP; auto.
  - unfold monitor_step in E. destruct (y_mon s); injection E as <- <-; apply KEEP; auto.
Qed.
Lemma total_run : forall fs b acts s log, orderly enc d (rec_new fs b) acts -> run (rec_new fs b) acts = Ok (s, log) -> counted s log /\ (zeroing (y_todo s) -> taken_run log = []).
Proof.
  intros fs b acts. induction acts as [|a acts IH] using rev_ind; intros s log O R.
  - cbn in R. injection R as <- <-. split; [|intros []]. intros _. reflexivity.
  - destruct (run_snoc _ _ _ _ _ _ _ R) as (s1 & l1 & l2 & R1 & E & ->). pose proof (orderly_prefix enc d _ _ _ O) as O1.
    destruct (run_inv enc d fs b acts O1) as (s1' & l1' & R1' & I & _). rewrite R1 in R1'. injection R1' as <- <-. apply (total_step s1 l1 a); auto.
Qed.

(** ** The packets since the last report *)
Definition pending (w : worker) : Z := match w with Popped _ | Counted _ => 1 | _ => 0 end.
Definition unreported (s : rec) : Z := match y_mon s with IReset => 0 | _ => y_since s end.
Definition bounded (s : rec) (log : list event) : Prop :=
  let n := Z.of_nat (length (taken log)) in
  (0 <= reported log /\ 0 <= y_since s /\ y_since s + pending (y_thread s) <= n /\ reported log + unreported s + pending (y_thread s) <= n)%Z.
Lemma since_step : forall s log a s' ev, bounded s log -> (Z.of_nat (length (taken (log ++ ev))) < 2147483648)%Z -> step s a = Ok (s', ev) ->
  bounded s' (log ++ ev) /\ (a <> AThread \/ y_mon s <> IReset -> reported log + unreported s + pending (y_thread s) = Z.of_nat (length (taken log)) ->
    reported (log ++ ev) + unreported s' + pending (y_thread s') = Z.of_nat (length (taken (log ++ ev))))%Z.
Proof.
  intros s log a s' ev (B0 & B1 & B2 & B3) SM E. unfold bounded. rewrite taken_app, app_length, reported_app in *. unfold unreported in *.
  assert (SAME : forall s1 ev1, y_since s1 = y_since s -> y_mon s1 = y_mon s -> pending (y_thread s1) = pending (y_thread s) -> taken ev1 = [] -> reported ev1 = 0%Z ->
    (0 <= reported log + reported ev1 /\ 0 <= y_since s1 /\ y_since s1 + pending (y_thread s1) <= Z.of_nat (length (taken log) + length (taken ev1)) /\
    reported log + reported ev1 + (match y_mon s1 with IReset => 0 | _ => y_since s1 end) + pending (y_thread s1) <= Z.of_nat (length (taken log) + length (taken ev1)))%Z /\
    (a <> AThread \/ y_mon s <> IReset -> reported log + (match y_mon s with IReset => 0 | _ => y_since s end) + pending (y_thread s) = Z.of_nat (length (taken log)) ->
    reported log + reported ev1 + (match y_mon s1 with IReset => 0 | _ => y_since s1 end) + pending (y_thread s1) = Z.of_nat (length (taken log) + length (taken ev1)))%Z).
  { intros s1 ev1 -> -> -> -> ->. cbn [length]. destruct (y_mon s); splits; try lia. }
  destruct a as [c| | | |e|]; cbn [rec_step] in E.
  - destruct (y_todo s); injection E as <- <-; apply SAME; auto.
  - assert (K : y_since s' = y_since s /\ y_mon s' = y_mon s /\ pending (y_thread s') = pending (y_thread s) /\ taken ev = [] /\ reported ev = 0%Z); [|destruct K as (K1 & K2 & K3 & K4 & K5); now apply SAME].
    unfold command_step in E. destruct (y_todo s) as [[c [|m rest]]|]; [injection E as <- <-; auto| |injection E as <- <-; auto].
    destruct m; cbn [mop_step] in E.
    + injection E as <- <-; auto.
    + destruct (ready _); [|discriminate]. destruct (fst _); injection E as <- <-; auto.
    + injection E as <- <-; auto.
    + injection E as <- <-; auto.
    + destruct (y_thread s) eqn:TH; injection E as <- <-; cbn; rewrite ?TH; auto.
    + destruct (ready _); injection E as <- <-; auto.
    + destruct (y_thread s) eqn:TH; injection E as <- <-; cbn; rewrite ?TH; auto.
    + injection E as <- <-; auto.
  - unfold thread_step in E. destruct (y_thread s) eqn:TH; try (injection E as <- <-; apply SAME; cbn; rewrite ?TH; auto; fail).
    + injection E as <- <-. apply SAME; cbn; auto. destruct (y_marker s); auto.
    + destruct (y_queue s); injection E as <- <-; [apply SAME; cbn; auto|]. cbn in *. destruct (y_mon s); splits; lia.
    + injection E as <- <-. cbn in *. rewrite i32_id by lia. destruct (y_mon s); splits; try lia. intros [Y|Y]; congruence.
    + destruct (fst (writes _ _ _)); injection E as <- <-; apply SAME; cbn; auto.
    + destruct (y_fd s); [|discriminate]. injection E as <- <-. apply SAME; cbn; auto.
  - injection E as <- <-. destruct (y_thread s) eqn:TH; apply SAME; cbn; rewrite ?TH; auto.
  - injection E as <- <-. apply SAME; auto.
  - unfold monitor_step in E. destruct (y_mon s); injection E as <- <-; cbn in *; destruct (y_thread s); cbn in *; splits; lia.
Qed.
Lemma since_run : forall fs b acts s log, run (rec_new fs b) acts = Ok (s, log) -> (Z.of_nat (length (taken log)) < 2147483648)%Z ->
  bounded s log /\ (calm acts -> reported log + unreported s + pending (y_thread s) = Z.of_nat (length (taken log)))%Z /\
  y_mon s = match calls acts mod 3 with 0 => ITotal | 1 => ISince | _ => IReset end.
Proof.
  intros fs b acts. induction acts as [|a acts IH] using rev_ind; intros s log R SM.
  - cbn in R. injection R as <- <-. unfold bounded. cbn. splits; auto; lia.
  - destruct (run_snoc _ _ _ _ _ _ _ R) as (s1 & l1 & l2 & R1 & E & ->).
    destruct (IH s1 l1 R1) as (B & C & M). { rewrite taken_app, app_length in SM. lia. }
    destruct (since_step s1 l1 a s l2 B SM E) as [B' C']. splits; auto.
    + intros CA. apply C'.
      * destruct a; try (left; discriminate). right. rewrite M. specialize (CA acts [] eq_refl).
        destruct (calls acts mod 3) as [|[|n]] eqn:CM; try discriminate. exfalso. apply CA. assert (calls acts mod 3 < 3) by (apply Nat.mod_upper_bound; lia). lia.
      * apply C. intros x y ->. apply (CA x (y ++ [a])). now rewrite <- app_assoc.
    + unfold calls in *. rewrite filter_app, app_length. cbn [filter].
      assert (MK : a <> AMonitor -> y_mon s = y_mon s1).
      { intros NA. destruct a as [c| | | |e|]; cbn [rec_step] in E.
        - destruct (y_todo s1); injection E as <- <-; auto.
        - unfold command_step in E. destruct (y_todo s1) as [[c [|m rest]]|]; [injection E as <- <-; auto| |injection E as <- <-; auto].
          destruct m; cbn [mop_step] in E; try (injection E as <- <-; reflexivity); try (destruct (y_thread s1); injection E as <- <-; reflexivity).
          destruct (ready _); [|discriminate]. destruct (fst _); injection E as <- <-; auto.
        - apply (thread_frame d s1 s l2 E).
        - injection E as <- <-. destruct (y_thread s1); auto.
        - injection E as <- <-. auto.
        - congruence. }
      destruct a; cbn [length]; rewrite ?Nat.add_0_r; try (rewrite <- M; apply MK; discriminate).
      cbn [rec_step] in E. unfold monitor_step in E. set (k := length _) in *. rewrite <- (Nat.add_mod_idemp_l k 1 3) by lia.
      assert (KB : k mod 3 < 3) by (apply Nat.mod_upper_bound; lia). destruct (k mod 3) as [|[|[|n]]] eqn:KM; [| | |lia]; rewrite M in E; injection E as <- <-; reflexivity.
Qed.

(** ** Commands out of order *)
(** Destruction in a run. *)
Lemma destroy_run : forall acts s s' ev l1 l2, run s acts = Ok (s', ev) -> y_todo s = Some (CDestroy, program CDestroy) -> y_marker s = true -> working (y_thread s) = true ->
  ev = l1 ++ EReturned CDestroy :: l2 -> In EWarn l1.
Proof.
  induction acts as [|a acts IH]; intros s s' ev l1 l2 R T M W EV.
  - cbn in R. injection R as <- <-. destruct l1; discriminate.
  - cbn [rec_run] in R. destruct (step s a) as [[s1 e1]|] eqn:S; [|discriminate]. cbn [bind fst snd] in R. destruct (run s1 acts) as [[s2 e2]|] eqn:X; [|discriminate].
    cbn [bind fst snd] in R. injection R as <- <-.
    assert (H : e1 = [EWarn] \/ (y_todo s1 = Some (CDestroy, program CDestroy) /\ y_marker s1 = true /\ working (y_thread s1) = true /\ (e1 = [] \/ exists x, e1 = [x] /\ x <> EReturned CDestroy))).
    { destruct a as [c| | | |e|]; cbn [rec_step] in S.
      - rewrite T in S. injection S as <- <-. auto 6.
      - unfold command_step in S. rewrite T in S. cbn [program mop_step] in S. destruct (y_thread s) eqn:TH; try discriminate W; injection S as <- <-; right; rewrite ?TH; auto 6.
      - destruct (thread_working d s s1 e1 S M W) as [H| ->]; [|auto]. destruct (thread_frame d s s1 e1 S) as (F1 & F2 & _ & _ & F5 & _). rewrite F1, F2.
        destruct F5 as [-> |[-> |(e & ->)]]; auto; right; splits; auto. right. eexists. split; [reflexivity|discriminate].
      - injection S as <- <-. right. destruct (y_thread s) eqn:TH; try discriminate W; rewrite ?TH; auto 6.
      - injection S as <- <-. right. splits; auto. right. eexists. split; [reflexivity|discriminate].
      - unfold monitor_step in S. destruct (y_mon s); injection S as <- <-; right; splits; auto; right; eexists; (split; [reflexivity|discriminate]). }
    destruct H as [-> |(T1 & M1 & W1 & H)].
    + destruct l1 as [|y l1]; [discriminate EV|]. injection EV as <- _. cbn. auto.
    + destruct H as [-> |(x & -> & NX)].
      * apply (IH s1 s2 e2 l1 l2); auto.
      * destruct l1 as [|y l1]; cbn in EV; [injection EV as EV _; contradiction|]. injection EV as <- EV. right. apply (IH s1 s2 e2 l1 l2); auto.
Qed.

(** Start before any conf: the worker never ends its work. *)
Definition raw (s : rec) (log : list event) : Prop :=
  y_fd s = false /\ y_thread s <> Late /\ confs_out (y_todo s) /\ (In (EReturned CStart) log \/ y_todo s = Some (CStart, []) -> ready (y_thread s) = false) /\
  (y_todo s = Some (CStop, []) -> ready (y_thread s) = true).
Lemma raw_step : forall s log a s' ev, raw s log -> (forall g x y, a <> ACommand (CConf g x y)) -> step s a = Ok (s', ev) ->
  raw s' (log ++ ev) /\ (In (EReturned CStart) log -> ~ In (EReturned CStop) ev) /\ length ev <= 1.
Proof.
  intros s log a s' ev (R1 & R2 & R3 & R4 & R5) N E.
  assert (QUIET : forall s1 e1, y_fd s1 = false -> y_thread s1 <> Late -> (ready (y_thread s) = false -> ready (y_thread s1) = false) -> (ready (y_thread s) = true -> ready (y_thread s1) = true) ->
    y_todo s1 = y_todo s -> length e1 <= 1 -> ~ In (EReturned CStart) e1 -> ~ In (EReturned CStop) e1 -> raw s1 (log ++ e1) /\ (In (EReturned CStart) log -> ~ In (EReturned CStop) e1) /\ length e1 <= 1).
  { intros s1 e1 Q1 Q2 Q3 Q4 Q5 Q6 Q7 Q8. splits; auto. unfold raw. rewrite Q5. splits; auto. intros H. apply Q3, R4. destruct H as [H|H]; [|auto]. apply in_app_or in H. tauto. }
  destruct a as [c| | | |e|]; cbn [rec_step] in E.
  - destruct (y_todo s) as [t|] eqn:T; injection E as <- <-.
    + apply QUIET; cbn; auto.
    + splits; [|cbn; intuition discriminate|cbn; lia]. unfold raw. cbn [set_todo y_fd y_thread y_todo]. splits; auto.
      * exists 0. split; [reflexivity|]. destruct c; auto. now apply (N g removes opens).
      * intros [H|H]; [|destruct c; discriminate]. apply in_app_or in H. destruct H as [H|[H|[]]]; [auto|discriminate].
      * destruct c; discriminate.
  - unfold command_step in E. destruct (y_todo s) as [[c rest]|] eqn:T; [|injection E as <- <-; apply QUIET; cbn; auto].
    destruct R3 as (n & -> & C). destruct (skipn n (program c)) as [|m rest] eqn:SK.
    + injection E as <- <-. splits; [|intros H [Y|[]]|cbn; lia].
      * unfold raw. cbn [set_todo y_fd y_thread y_todo]. splits; auto; try discriminate; [exact Logic.I|]. intros [H|H]; [|discriminate]. apply in_app_or in H. destruct H as [H|[H|[]]]; [auto|]. injection H as ->. auto.
      * injection Y as ->. rewrite (R5 eq_refl) in R4. specialize (R4 ltac:(auto)). discriminate.
    + assert (NX : confs_out (Some (c, rest))). { exists (Datatypes.S n). split; [|exact C]. apply (f_equal (@tl mop)) in SK. cbn [tl] in SK. rewrite <- SK. clear. generalize (program c). induction n as [|n IHn]; intros [|x l]; try reflexivity. exact (IHn l). }
      assert (IM : In m (program c)). { assert (Y : In m (skipn n (program c))) by (rewrite SK; cbn; auto). revert Y. clear. generalize (program c). induction n as [|n IHn]; intros [|x l] Y; cbn in *; auto. }
      assert (LAST : rest = [] -> (c = CStart -> m = MGive) /\ (c = CStop -> m = MWait)).
      { intros ->. split; intros ->; do 3 (destruct n as [|n]; [cbn in SK; try discriminate SK; now injection SK as <-|]); destruct n; discriminate SK. }
      assert (QT : forall s1, y_fd s1 = false -> y_thread s1 = y_thread s -> (c = CStart -> rest <> []) -> (c = CStop -> rest = [] -> ready (y_thread s) = true) ->
        raw (set_todo s1 (Some (c, rest))) (log ++ []) /\ (In (EReturned CStart) log -> ~ In (EReturned CStop) []) /\ length (@nil event) <= 1).
      { intros s1 Q1 Q2 Q3 Q4. rewrite app_nil_r. splits; auto. unfold raw. cbn [set_todo y_fd y_thread y_todo]. rewrite Q2. splits; auto.
        - intros [H|H]; [auto|]. injection H as -> ->. exfalso. now apply Q3.
        - intros H. injection H as -> ->. auto. }
      destruct m; try (destruct c; try contradiction; cbn in IM; exfalso; intuition discriminate); cbn [mop_step] in E.
      * injection E as <- <-. apply QT; auto; intros EC ER; destruct (LAST ER) as [L L']; try (specialize (L EC); discriminate); specialize (L' EC); discriminate.
      * injection E as <- <-. apply QT; auto; intros EC ER; destruct (LAST ER) as [L L']; try (specialize (L EC); discriminate); specialize (L' EC); discriminate.
      * assert (CS : c = CStart) by (destruct c; cbn in IM; auto; exfalso; intuition discriminate). subst c.
        assert (END : forall s1 e1, y_fd s1 = false -> ready (y_thread s1) = false -> y_thread s1 <> Late -> (e1 = [] \/ e1 = [EIgnored]) ->
          raw (set_todo s1 (Some (CStart, rest))) (log ++ e1) /\ (In (EReturned CStart) log -> ~ In (EReturned CStop) e1) /\ length e1 <= 1).
        { intros s1 e1 Q1 Q2 Q3 Q4. splits; [|destruct Q4 as [-> | ->]; cbn; intuition discriminate|destruct Q4 as [-> | ->]; cbn; lia]. unfold raw. cbn [set_todo y_fd y_thread y_todo]. splits; auto. discriminate. }
        destruct (y_thread s) eqn:TH; try congruence; injection E as <- <-; apply END; cbn; rewrite ?TH; auto; discriminate.
      * destruct (ready (y_thread s)) eqn:RD; injection E as <- <-; [|apply QUIET; cbn; auto; discriminate].
        apply QT; auto; intros EC ER; destruct (LAST ER) as [L L']; specialize (L EC); discriminate.
      * assert (CS : c = CDestroy) by (destruct c; cbn in IM; auto; exfalso; intuition discriminate). subst c.
        destruct (y_thread s) eqn:TH; injection E as <- <-; try (apply QT; auto; discriminate); apply QUIET; cbn; rewrite ?TH; auto; discriminate.
      * injection E as <- <-. apply QT; auto; intros EC ER; destruct (LAST ER) as [L L']; try (specialize (L EC); discriminate); specialize (L' EC); discriminate.
  - destruct (thread_frame d s s' ev E) as (F1 & _ & _ & F4 & F5 & _). unfold thread_step in E.
    assert (EV : length ev <= 1 /\ ~ In (EReturned CStart) ev /\ ~ In (EReturned CStop) ev) by (destruct F5 as [-> |[-> |(e & ->)]]; cbn; splits; try lia; intuition discriminate).
    destruct EV as (V1 & V2 & V3). apply QUIET; auto; try congruence; clear QUIET R3 R4 R5 V1 V2 V3 F5.
    + destruct (y_thread s) eqn:TH; try (injection E as <- <-; cbn; rewrite ?TH; congruence).
      * injection E as <- <-. cbn. destruct (y_marker s); discriminate.
      * destruct (y_queue s); injection E as <- <-; discriminate.
      * destruct (fst (writes _ _ _)); injection E as <- <-; discriminate.
      * rewrite R1 in E. discriminate.
    + destruct (y_thread s) eqn:TH; try (injection E as <- <-; cbn; rewrite ?TH; auto; discriminate).
      * injection E as <- <-. cbn. destruct (y_marker s); auto.
      * destruct (y_queue s); injection E as <- <-; auto.
      * destruct (fst (writes _ _ _)); injection E as <- <-; auto.
      * rewrite R1 in E. discriminate.
    + destruct (y_thread s) eqn:TH; try discriminate; injection E as <- <-; cbn; rewrite ?TH; auto.
  - injection E as <- <-. apply QUIET; try (destruct (y_thread s) eqn:TH; cbn; rewrite ?TH; auto; congruence).
  - injection E as <- <-. apply QUIET; cbn; auto; intuition discriminate.
  - unfold monitor_step in E. destruct (y_mon s); injection E as <- <-; apply QUIET; cbn; auto; intuition discriminate.
Qed.
Lemma raw_run : forall acts fs b s log, no_conf acts -> run (rec_new fs b) acts = Ok (s, log) ->
  raw s log /\ (forall l1 l2, log = l1 ++ EReturned CStart :: l2 -> ~ In (EReturned CStop) l2).
Proof.
  induction acts as [|a acts IH] using rev_ind; intros fs b s log N R.
  - cbn in R. injection R as <- <-. split; [|intros [|? ?] ? Y; discriminate]. unfold raw. cbn. splits; auto; try discriminate. intros [[]|Y]. discriminate.
  - destruct (run_snoc _ _ _ _ _ _ _ R) as (s1 & e1 & e2 & R1 & E & ->).
    destruct (IH fs b s1 e1 ltac:(intros g x y Y; apply (N g x y), in_or_app; auto) R1) as [K1 K2].
    destruct (raw_step s1 e1 a s e2 K1 ltac:(intros g x y ->; apply (N g x y), in_or_app; cbn; auto) E) as (K3 & K4 & K5). split; [exact K3|].
    intros l1 l2 EQ. destruct e2 as [|x [|y e2]]; [rewrite app_nil_r in EQ; now apply (K2 l1)| |cbn in K5; lia].
    destruct l2 as [|z l2] using rev_ind; [auto|]. clear IHl2. rewrite app_comm_cons, app_assoc in EQ. apply app_inj_tail in EQ. destruct EQ as [-> ->].
    intros Y. apply in_app_or in Y. destruct Y as [Y|[->|[]]]; [now apply (K2 l1 l2 eq_refl)|]. apply K4; [apply in_or_app; cbn; auto|cbn; auto].
Qed.
End Proofs.
