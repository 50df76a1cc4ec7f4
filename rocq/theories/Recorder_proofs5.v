(** Proofs about the life of a recorder: failures, counters, commands out of order. *)
From Coq Require Import String ZArith List Bool Arith Lia.
From Verif Require Import Base_model File_model File_spec File_proofs Recorder_model Recorder_spec Recorder_proofs Recorder_proofs2 Recorder_proofs4.
Import ListNotations.
Open Scope nat_scope.

Lemma i32_step : forall z, i32 (i32 z + 1) = i32 (z + 1).
Proof. intros z. unfold i32. f_equal. replace ((z + 2147483648) mod two32 - 2147483648 + 1 + 2147483648)%Z with ((z + 2147483648) mod two32 + 1)%Z by lia.
  rewrite Z.add_mod_idemp_l by discriminate. f_equal. lia. Qed.
Lemma i32_id : forall z, (0 <= z < 2147483648)%Z -> i32 z = z.
Proof. intros z H. unfold i32. rewrite Z.mod_small; [lia|]. unfold two32. lia. Qed.
Lemma starts_app : forall a b, starts (a ++ b) = starts a + starts b.
Proof. intros. unfold starts. now rewrite filter_app, app_length. Qed.

Section Proofs.
Variable enc : codec -> list Z -> list Z.
Variable d : device.
Notation run := (rec_run enc d).
Notation step := (rec_step enc d).
Notation inv := (inv enc d).

Ltac runs R STEP X := cbn [rec_run] in R; match type of R with context[rec_step enc d ?s ?a] => destruct (rec_step enc d s a) as [[? ?]|] eqn:STEP; [|discriminate R] end;
  cbn [bind fst snd] in R; match type of R with context[rec_run enc d ?s ?a] => destruct (rec_run enc d s a) as [[? ?]|] eqn:X; [|discriminate R] end;
  cbn [bind fst snd] in R; injection R as <- <-.

(** ** A worker that missed its wake-up *)
Definition stuck (s : rec) : Prop := y_thread s = Missed /\ (y_todo s = Some (CStop, program CStop) \/ y_todo s = Some (CStop, [MWait])).
Lemma stuck_run : forall acts s s' ev, stuck s -> ~ In ASpurious acts -> run s acts = Ok (s', ev) -> ~ In (EReturned CStop) ev /\ taken ev = [].
Proof.
  induction acts as [|a acts IH]; intros s s' ev K N R.
  - injection R as <- <-. auto.
  - runs R ST X. rename ST into S, r into s1, l into e1, r0 into s2, l0 into e2.
    assert (H : stuck s1 /\ ~ In (EReturned CStop) e1 /\ taken e1 = []).
    { destruct K as [K1 K2]. destruct a as [c| | | |e|]; cbn [rec_step] in S.
      - assert (NN : exists t, y_todo s = Some t) by (destruct K2 as [-> | ->]; eauto). destruct NN as [t NN]. rewrite NN in S. injection S as <- <-. splits; auto. split; auto.
      - unfold command_step in S. destruct K2 as [K2|K2]; rewrite K2 in S; cbn [program mop_step] in S; [|rewrite K1 in S; cbn [ready] in S]; injection S as <- <-; splits; auto; split; auto.
      - unfold thread_step in S. rewrite K1 in S. injection S as <- <-. splits; auto. split; auto.
      - exfalso. apply N. cbn. auto.
      - injection S as <- <-. splits; [split; auto| |auto]. intros [Y|[]]. discriminate.
      - unfold monitor_step in S. destruct (y_mon s); injection S as <- <-; (splits; [split; auto| |auto]); cbn; intuition discriminate. }
    destruct H as (K1 & H1 & H2). destruct (IH s1 s2 e2 K1 ltac:(intros Y; apply N; cbn; auto) X) as [H3 H4]. split.
    + intros Y. apply in_app_or in Y. tauto.
    + now rewrite taken_app, H2, H4.
Qed.

(** ** A worker without work *)
Lemma workless_run : forall acts s s' ev, ready (y_thread s) = true -> y_todo s = None -> no_command acts -> run s acts = Ok (s', ev) -> taken ev = [].
Proof.
  induction acts as [|a acts IH]; intros s s' ev K T N R.
  - injection R as <- <-. auto.
  - runs R ST X. rename ST into S, r into s1, l into e1, r0 into s2, l0 into e2.
    assert (H : ready (y_thread s1) = true /\ y_todo s1 = None /\ taken e1 = []).
    { destruct a as [c| | | |e|]; cbn [rec_step] in S.
      - exfalso. apply (N c). cbn. auto.
      - unfold command_step in S. rewrite T in S. injection S as <- <-. auto.
      - unfold thread_step in S. destruct (y_thread s) eqn:TH; try discriminate K; injection S as <- <-; cbn; rewrite ?TH; auto.
      - injection S as <- <-. destruct (y_thread s) eqn:TH; try discriminate K; cbn; rewrite ?TH; auto.
      - injection S as <- <-. auto.
      - unfold monitor_step in S. destruct (y_mon s); injection S as <- <-; auto. }
    destruct H as (H1 & H2 & H3). rewrite taken_app, H3. apply (IH s1 s2); auto. intros c Y. apply (N c). cbn. auto.
Qed.

(** ** A writer that has failed *)
Definition broken (k : disk) : Prop := w_open (k_w k) = false \/ w_bad (k_w k) = true.
Lemma with_w : forall k x, k_w (with_world k x) = snd x.
Proof. intros k x. unfold with_world. destruct (k_place k); reflexivity. Qed.
Lemma broken_write : forall k e, broken k -> fst (writes d e k) = false /\ broken (snd (writes d e k)).
Proof.
  intros k e B. unfold writes, broken. cbn [fst snd]. rewrite with_w. unfold w_write, world_of. cbn [snd]. destruct (w_open (k_w k)) eqn:O; cbn [negb].
  - destruct B as [B|B]; [congruence|]. cbn [fst snd]. destruct (w_codec (k_w k)); cbn [snd]; rewrite ?(put_bad d e (the_file k, k_w k) B), ?B; cbn [snd]; rewrite ?B; auto.
  - cbn [fst snd]. auto.
Qed.
Lemma broken_flush : forall k, broken k -> broken (flushes d k).
Proof.
  intros k B. unfold flushes, broken. rewrite with_w. unfold w_flush, world_of. cbn [fst snd].
  destruct (w_bad (set_fd_direct false (k_w k))) eqn:BB.
  - right. cbn. exact BB.
  - destruct B as [B|B]; [|cbn in BB; congruence]. left. unfold sync. cbn [fst snd]. destruct (w_buf _); [exact B|]. destruct (dev_write _ _ _ _ _); exact B.
Qed.
Lemma broken_closed : forall k, broken k -> broken (closed enc d k).
Proof. intros k B. unfold closed. destruct (w_open (k_w k)) eqn:O; [|exact B]. left. cbn. rewrite with_w. reflexivity. Qed.

(** The payloads that may still be lost. *)
Definition owed (w : worker) : nat := match w with Given | Missed | Test | Pop => 1 | _ => 0 end.
Definition confs_out (t : option (cmd * list mop)) : Prop :=
  match t with None => True | Some (c, rest) => exists n, rest = skipn n (program c) /\ (match c with CConf _ _ _ => False | _ => True end) end.
Definition left_ (t : option (cmd * list mop)) : nat := match t with Some (CStart, _ :: _) => 1 | _ => 0 end.
Lemma lost_run : forall acts s s' ev, broken (y_disk s) -> confs_out (y_todo s) -> no_conf acts -> run s acts = Ok (s', ev) ->
  length (taken ev) + owed (y_thread s') + left_ (y_todo s') <= starts ev + owed (y_thread s) + left_ (y_todo s).
Proof.
  induction acts as [|a acts IH]; intros s s' ev B T N R.
  - injection R as <- <-. cbn. lia.
  - runs R ST X. rename ST into S, r into s1, l into e1, r0 into s2, l0 into e2.
    assert (H : broken (y_disk s1) /\ confs_out (y_todo s1) /\ length (taken e1) + owed (y_thread s1) + left_ (y_todo s1) <= starts e1 + owed (y_thread s) + left_ (y_todo s)).
    { destruct a as [c| | | |e|]; cbn [rec_step] in S.
      - destruct (y_todo s) as [t|] eqn:TD; injection S as <- <-; [rewrite TD; splits; auto; cbn; lia|]. cbn [set_todo y_todo y_disk y_thread]. splits; auto.
        + exists 0. split; [reflexivity|]. destruct c as [g a b| | |]; auto. apply (N g a b). cbn. auto.
        + destruct c; cbn; lia.
      - unfold command_step in S. destruct (y_todo s) as [[c rest]|] eqn:TD; [|injection S as <- <-; rewrite TD; splits; auto; cbn; lia].
        destruct T as (n & -> & C). destruct (skipn n (program c)) as [|m rest] eqn:SK.
        + injection S as <- <-. cbn. splits; auto. destruct c; cbn; lia.
        + assert (NX : confs_out (Some (c, rest))). { exists (Datatypes.S n). split; [|exact C]. apply (f_equal (@tl mop)) in SK. cbn [tl] in SK. rewrite <- SK. clear. generalize (program c). induction n as [|n IHn]; intros [|x l]; try reflexivity. exact (IHn l). }
          assert (IM : In m (program c)). { assert (Y : In m (skipn n (program c))) by (rewrite SK; cbn; auto). revert Y. clear. generalize (program c). induction n as [|n IHn]; intros [|x l] Y; cbn in *; auto. }
          assert (LB : left_ (Some (c, m :: rest)) = match c with CStart => 1 | _ => 0 end) by (destruct c; reflexivity).
          assert (LA : left_ (Some (c, rest)) <= match c with CStart => 1 | _ => 0 end) by (destruct c, rest; cbn; lia).
          assert (GV : m = MGive -> c = CStart /\ rest = []).
          { intros ->. destruct c; cbn in IM; try (exfalso; intuition discriminate). split; [reflexivity|].
            do 3 (destruct n as [|n]; [cbn in SK; try discriminate SK; now injection SK as <-|]). destruct n; discriminate SK. }
          destruct m; try (destruct c; try contradiction; cbn in IM; exfalso; intuition discriminate); cbn [mop_step] in S.
          * injection S as <- <-. cbn [set_todo set_total y_disk y_todo y_thread]. rewrite LB. splits; auto. cbn [taken flat_map length starts filter]. lia.
          * injection S as <- <-. cbn [set_todo set_marker y_disk y_todo y_thread]. rewrite LB. splits; auto. cbn [taken flat_map length starts filter]. lia.
          * destruct (GV eq_refl) as [-> ->]. destruct (y_thread s) eqn:TH; injection S as <- <-; cbn [set_todo set_thread y_disk y_todo y_thread]; rewrite ?TH; splits; auto; cbn; lia.
          * destruct (ready (y_thread s)); injection S as <- <-; cbn [set_todo y_disk y_todo y_thread]; rewrite ?TD, ?LB; splits; auto; cbn [taken flat_map length starts filter]; try lia.
            -- exists n. auto.
          * assert (G1 : broken (y_disk s) /\ confs_out (Some (c, MJoin :: rest)) /\ length (taken []) + owed (y_thread s) + left_ (Some (c, MJoin :: rest)) <= starts [] + owed (y_thread s) + left_ (Some (c, MJoin :: rest))) by (splits; auto; exists n; auto).
            assert (G2 : broken (y_disk s) /\ confs_out (Some (c, rest)) /\ length (taken []) + owed (y_thread s) + left_ (Some (c, rest)) <= starts [] + owed (y_thread s) + left_ (Some (c, MJoin :: rest))) by (splits; auto; rewrite LB; cbn [taken flat_map length starts filter]; lia).
            destruct (y_thread s) eqn:TH; injection S as <- <-; cbn [set_todo y_disk y_todo y_thread]; rewrite ?TD, ?TH; assumption.
          * injection S as <- <-. cbn [set_todo set_disk y_disk y_todo y_thread]. rewrite LB. splits; auto using broken_closed. cbn [taken flat_map length starts filter]. lia.
      - destruct (thread_frame d s s1 e1 S) as (F1 & _). unfold thread_step in S.
        destruct (y_thread s) eqn:TH; rewrite F1; try (injection S as <- <-; cbn [set_thread set_total set_since y_disk y_thread]; rewrite ?TH; splits; auto; cbn; lia).
        + injection S as <- <-. cbn [set_thread y_disk y_thread]. splits; auto. destruct (y_marker s); cbn; lia.
        + destruct (y_queue s); injection S as <- <-; cbn [set_queue set_thread y_disk y_thread]; splits; auto; cbn; lia.
        + destruct (broken_write (y_disk s) e B) as [W1 W2]. rewrite W1 in S. injection S as <- <-. cbn [set_disk set_thread y_disk y_thread]. splits; auto.
        + destruct (y_fd s); [|discriminate]. injection S as <- <-. cbn [set_disk set_thread y_disk y_thread]. splits; auto using broken_flush.
      - injection S as <- <-. destruct (y_thread s) eqn:TH; cbn [set_thread y_disk y_todo y_thread]; rewrite ?TH; splits; auto; cbn; lia.
      - injection S as <- <-. cbn. splits; auto.
      - unfold monitor_step in S. destruct (y_mon s); injection S as <- <-; cbn; splits; auto. }
    destruct H as (B1 & T1 & K1). pose proof (IH s1 s2 e2 B1 T1 ltac:(intros g a0 b Y; apply (N g a0 b); cbn; auto) X) as K2.
    rewrite taken_app, app_length, starts_app. lia.
Qed.
Lemma fail_bad : forall ops x, In false (fst (w_ops d ops x)) -> w_open (snd x) = true -> w_bad (snd (snd (w_ops d ops x))) = true.
Proof.
  assert (KB : forall o x, w_bad (snd x) = true -> w_bad (snd (snd (w_ops d [o] x))) = true).
  { intros [bs|] x B; cbn [w_ops fst snd].
    - unfold w_write. destruct (w_open (snd x)); cbn [negb snd]; [|exact B]. destruct (w_codec (snd x)); rewrite ?(put_bad d bs x B), ?B; auto.
    - unfold w_flush. cbn [fst snd]. assert (E : w_bad (set_fd_direct false (snd x)) = true) by exact B. rewrite E. exact B. }
  induction ops as [|o ops IH] using rev_ind; intros x H O; [destruct H|]. rewrite ops_app in *. cbn [fst snd] in *.
  assert (O1 : w_open (snd (snd (w_ops d ops x))) = true) by now apply ops_open.
  apply in_app_or in H. destruct H as [H|H]; [apply KB; auto|].
  destruct o as [bs|]; cbn [w_ops fst snd] in *; [|destruct H]. destruct H as [H|[]]. unfold w_write in *. rewrite O1 in *. cbn [negb fst snd] in *. now apply negb_false_iff in H.
Qed.
Lemma warned_broken : forall s log, inv s log -> current log = None -> running log = false ->
  (v_active (view_of log) = None \/ exists p q, v_active (view_of log) = Some p /\ v_files (view_of log) p = Some q /\ q_warned q = true) -> broken (y_disk s).
Proof.
  intros s log I C R H. destruct I as [IC IT _ _ _]. rewrite C in IC. unfold todo_ok in IT. destruct (y_todo s); [discriminate|]. destruct IT as [[A _] _]. unfold active_ok in A.
  destruct H as [E|(p & q & E & V & W)]; rewrite E in A.
  - left. tauto.
  - destruct A as (q0 & c & old & ops & A1 & _ & A3 & _ & (_ & _ & A5) & A6 & _). rewrite V in A1. injection A1 as <-. right.
    assert (E1 : k_w (y_disk s) = snd (world_of (y_disk s))) by reflexivity. rewrite E1, A6. apply fail_bad; [|reflexivity].
    rewrite W in A5. symmetry in A5. apply negb_true_iff in A5. fold (done d (q_conf q) c old ops). clear - A5. induction (fst (done d (q_conf q) c old ops)) as [|[|] l IH]; cbn in *; auto. discriminate.
Qed.
Lemma rest_owes : forall s log, inv s log -> current log = None -> running log = false -> owed (y_thread s) = 0 /\ y_todo s = None.
Proof. intros s log [IC IT _ _ _] C R. rewrite C in IC. unfold todo_ok in IT. destruct (y_todo s); [discriminate|]. destruct IT as [_ K]. specialize (K R). split; [|reflexivity]. destruct (y_thread s); cbn in *; congruence. Qed.

(** ** Other files *)
Definition names (p : nat) (m : mop) : Prop := match m with MRemove q _ => q = p | MOpen g _ => cf_path g = p | _ => False end.
Definition apart (p : nat) (f0 : option (list Z)) (s : rec) : Prop :=
  k_fs (y_disk s) p = f0 /\ k_place (y_disk s) <> At p /\ (forall c rest m, y_todo s = Some (c, rest) -> In m rest -> ~ names p m).
Lemma apart_with : forall p k x, k_place k <> At p -> k_fs (with_world k x) p = k_fs k p /\ k_place (with_world k x) <> At p.
Proof. intros p k x N. unfold with_world. destruct (k_place k) as [|q|] eqn:P; cbn; try (split; [reflexivity|discriminate]). split; [|congruence]. unfold set_path. destruct (p =? q) eqn:E; auto. apply Nat.eqb_eq in E. congruence. Qed.
Lemma apart_run : forall p f0 acts s s' ev, apart p f0 s -> (forall g a b, In (ACommand (CConf g a b)) acts -> cf_path g <> p) -> run s acts = Ok (s', ev) -> apart p f0 s'.
Proof.
  intros p f0. induction acts as [|a acts IH]; intros s s' ev K N R; [injection R as <- <-; exact K|]. runs R ST X. rename ST into S, r into s1, l into e1, r0 into s2, l0 into e2.
  apply (IH s1 s2 e2); [|intros g x y Y; apply (N g x y); cbn; auto|exact X]. clear IH X. destruct K as (K1 & K2 & K3).
  assert (KEEP : forall s1, y_disk s1 = y_disk s -> y_todo s1 = y_todo s -> apart p f0 s1) by (intros s0 E1 E2; unfold apart; rewrite E1, E2; auto).
  destruct a as [c| | | |e|]; cbn [rec_step] in S.
  - destruct (y_todo s) as [t|] eqn:T; injection S as <- <-; [apply KEEP; auto|]. unfold apart. cbn [set_todo y_disk y_todo]. splits; auto.
    intros c0 rest m E. injection E as <- <-. destruct c as [g x y| | |]; cbn; [|intuition (subst; auto)..]. pose proof (N g x y ltac:(cbn; auto)). intros [<- |[<- |[]]]; cbn; auto.
  - unfold command_step in S. destruct (y_todo s) as [[c [|m rest]]|] eqn:T; [injection S as <- <-; unfold apart; cbn; splits; auto; discriminate| |injection S as <- <-; apply KEEP; auto].
    assert (NM : ~ names p m) by (apply (K3 c (m :: rest)); cbn; auto). assert (NR : forall m', In m' rest -> ~ names p m') by (intros m' Y; apply (K3 c (m :: rest)); cbn; auto).
    assert (NXT : forall s1 ev1, mop_step enc d s m = Done s1 ev1 \/ mop_step enc d s m = Threw s1 -> k_fs (y_disk s1) p = f0 /\ k_place (y_disk s1) <> At p).
    { intros s0 ev0 H. destruct m; cbn [mop_step names] in *.
      - destruct H as [H|H]; [|discriminate]. injection H as <- <-. cbn [set_disk y_disk]. unfold removed. destruct works; [|auto]. cbn [k_fs k_place]. split.
        + unfold set_path. destruct (p =? p0) eqn:E; auto. apply Nat.eqb_eq in E. congruence.
        + destruct (k_place (y_disk s)) as [|q|]; try discriminate. destruct (q =? p0); [discriminate|exact K2].
      - destruct (ready _); [|destruct H; discriminate].
        assert (E : y_disk s0 = snd (opened enc d g works (y_disk s))).
        { destruct (fst (opened enc d g works (y_disk s))); destruct H as [H|H]; try discriminate; [injection H as <- <-|injection H as <-]; reflexivity. }
        rewrite E. unfold opened. set (k1 := if w_open _ then _ else _). assert (F : k_fs k1 p = f0 /\ k_place k1 <> At p).
        { unfold k1. destruct (w_open _); [|auto]. destruct (apart_with p (y_disk s) (w_close enc d (world_of (y_disk s))) K2) as [-> F2]. auto. }
        destruct F as [F1 F2]. assert (SP : set_path (k_fs k1) (cf_path g) (Some (content (k_fs k1 (cf_path g)))) p = f0).
        { unfold set_path. destruct (p =? cf_path g) eqn:Y; auto. apply Nat.eqb_eq in Y. congruence. }
        destruct works; cbn [negb snd k_fs k_place]; [|split; [auto|discriminate]]. destruct (codec_of _); cbn [snd k_fs k_place]; split; auto; try discriminate. congruence.
      - destruct H as [H|H]; [|discriminate]. injection H as <- <-. auto.
      - destruct H as [H|H]; [|discriminate]. injection H as <- <-. auto.
      - destruct H as [H|H]; destruct (y_thread s); try discriminate; injection H as <- <-; auto.
      - destruct H as [H|H]; destruct (ready _); try discriminate; injection H as <- <-; auto.
      - destruct H as [H|H]; destruct (y_thread s); try discriminate; injection H as <- <-; auto.
      - destruct H as [H|H]; [|discriminate]. injection H as <- <-. cbn [set_disk y_disk]. unfold closed. destruct (w_open _); [|auto]. cbn [k_fs k_place].
        destruct (apart_with p (y_disk s) (w_close enc d (world_of (y_disk s))) K2) as [-> F2]. split; [auto|discriminate]. }
    destruct (mop_step enc d s m) as [|s0|s0 ev0|] eqn:M; try discriminate S; injection S as <- <-.
    + apply KEEP; auto.
    + destruct (NXT s0 [] ltac:(auto)). unfold apart. cbn. splits; auto; discriminate.
    + destruct (NXT s0 ev0 ltac:(auto)). unfold apart. cbn. splits; auto. intros c0 rest0 m0 E. injection E as <- <-. apply NR.
  - unfold thread_step in S. destruct (y_thread s); try (injection S as <- <-; apply KEEP; reflexivity).
    + destruct (y_queue s); injection S as <- <-; apply KEEP; reflexivity.
    + destruct (apart_with p (y_disk s) (snd (w_write d e (world_of (y_disk s)))) K2) as [F1 F2]. unfold writes in S. cbn [fst snd] in S.
      destruct (fst (w_write d e (world_of (y_disk s)))); injection S as <- <-; unfold apart; cbn [set_disk set_thread y_disk y_todo]; rewrite F1; auto.
    + destruct (y_fd s); [|discriminate]. injection S as <- <-. unfold apart, flushes. cbn [set_disk set_thread y_disk y_todo]. destruct (apart_with p (y_disk s) (w_flush d (world_of (y_disk s))) K2) as [-> F2]. auto.
  - injection S as <- <-. apply KEEP; destruct (y_thread s); auto.
  - injection S as <- <-. apply KEEP; auto.
  - unfold monitor_step in S. destruct (y_mon s); injection S as <- <-; apply KEEP; auto.
Qed.
End Proofs.
