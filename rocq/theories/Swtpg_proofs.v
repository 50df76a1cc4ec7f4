From Coq Require Import ZArith List Bool Lia ZifyBool Sorting.Permutation Sorting.Sorted.
From Verif Require Import Base_model Expand_model Hits_model Tp_model Tp_spec Tp_proofs Swtpg_model Swtpg_spec.
Import ListNotations.
Open Scope Z_scope.

Lemma chunks_snoc l a :
  chunks_of (l ++ [a]) = match a with Start => [] | Chunk ts mem => chunks_of l ++ [(ts, mem)] | _ => chunks_of l end.
Proof. unfold chunks_of. rewrite fold_left_app. reflexivity. Qed.
Lemma count_snoc l a : count_chunks (l ++ [a]) = match a with Chunk _ _ => count_chunks l + 1 | _ => count_chunks l end.
Proof. unfold count_chunks. rewrite fold_left_app. reflexivity. Qed.
Lemma tp_events_app a b : tp_events (a ++ b) = tp_events a ++ tp_events b.
Proof. unfold tp_events. apply flat_map_app. Qed.
Lemma tp_events_map e : tp_events (map Tp e) = e.
Proof. unfold tp_events. induction e; cbn; congruence. Qed.
Lemma decisions_snoc e x : decisions (e ++ [x]) = decisions e ++ match x with EAdd q b => [(q, b)] | _ => [] end.
Proof. unfold decisions. rewrite flat_map_app. cbn. rewrite app_nil_r. reflexivity. Qed.
Lemma accepted_decisions e : accepted e = map fst (filter snd (decisions e)).
Proof.
  induction e as [|x e IH]; [reflexivity|]. destruct x as [q [|] | | | | | ]; cbn; unfold accepted, decisions in *; cbn; congruence.
Qed.
Lemma combine_snoc {A B} (a : list A) (b : list B) x y : length a = length b -> combine (a ++ [x]) (b ++ [y]) = combine a b ++ [(x, y)].
Proof. revert b. induction a as [|u a IH]; intros [|v b]; cbn; intros L; try discriminate; [reflexivity|]. rewrite IH by lia. reflexivity. Qed.

Lemma tpg_run_snoc p st cs ts mem st1 out st2 tps : tpg_run p st cs = Ok (st1, out) -> find_collection_hits p st1 ts mem = Ok (st2, tps) ->
  tpg_run p st (cs ++ [(ts, mem)]) = Ok (st2, out ++ [tps]).
Proof.
  revert st out. induction cs as [|[t m] cs IH]; intros st out R F; cbn [tpg_run app] in *.
  - injection R as -> <-. rewrite F. reflexivity.
  - destruct (find_collection_hits p st t m) as [[w o]|]; [|discriminate]. cbn [bind fst snd] in *.
    destruct (tpg_run p w cs) as [[w1 o1]|] eqn:E; [|discriminate]. cbn [bind fst snd] in R. injection R as -> <-.
    rewrite (IH w o1 E F). reflexivity.
Qed.
Lemma tpg_run_length p st cs st1 out : tpg_run p st cs = Ok (st1, out) -> length out = length cs.
Proof.
  revert st out. induction cs as [|[t m] cs IH]; intros st out R; cbn [tpg_run] in *; [injection R as _ <-; reflexivity|].
  destruct (find_collection_hits p st t m) as [[w o]|]; [|discriminate]. cbn [bind fst snd] in *.
  destruct (tpg_run p w cs) as [[w1 o1]|] eqn:E; [|discriminate]. cbn [bind fst snd] in R. injection R as -> <-. cbn. erewrite IH; eauto.
Qed.

Section Proofs.
Context {heap : Type}.
Variable h_empty : heap.
Variable h_push : prim -> heap -> heap.
Variable h_top : heap -> option prim.
Variable h_pop : heap -> heap.
Variable elements : heap -> list prim.
Hypothesis PQ : pq_ok time_start h_empty h_push h_top h_pop elements.
Variable timeout window : Z.
Variable p : params.

Notation tstep := (tp_step prim time_start heap h_empty h_push h_top h_pop timeout window).
Notation trun := (tp_run prim time_start heap h_empty h_push h_top h_pop timeout window).
Notation step := (step heap h_empty h_push h_top h_pop timeout window p).
Notation run := (run heap h_empty h_push h_top h_pop timeout window p).
Notation conf := (configured h_empty).

Lemma srun_app l1 l2 s : run (l1 ++ l2) s =
  match run l1 s with
  | Go s1 e1 => match run l2 s1 with Go s2 e2 => Go s2 (e1 ++ e2) | r => r end
  | r => r
  end.
Proof.
  revert s. induction l1 as [|a l1 IH]; intros s; cbn.
  - now destruct (run l2 s).
  - destruct (step a s) as [s1 e1| |]; auto. rewrite IH. destruct (run l1 s1) as [s2 e2| |]; auto.
    destruct (run l2 s2); auto. now rewrite app_assoc.
Qed.
Lemma srun_snoc l a s s2 e : run (l ++ [a]) s = Go s2 e ->
  exists s1 e1 e2, run l s = Go s1 e1 /\ step a s1 = Go s2 e2 /\ e = e1 ++ e2.
Proof.
  rewrite srun_app. destruct (run l s) as [s1 e1| |]; try discriminate. cbn.
  destruct (step a s1) as [s3 e3| |] eqn:E; try discriminate. intros H. injection H as <- <-.
  exists s1, e1, e3. rewrite app_nil_r. auto.
Qed.
Lemma trun_snoc la s0 s e a s' e' : trun la s0 = Next s e -> tstep a s = Next s' e' -> trun (la ++ [a]) s0 = Next s' (e ++ e').
Proof. intros R S. rewrite run_app, R. cbn. rewrite S. rewrite app_nil_r. reflexivity. Qed.

(** What each step does. *)
Inductive seffect (s : proc heap) : act -> proc heap -> list ev -> Prop :=
| se_start t e : sp_cmd s = NoRun -> tstep AReset (sp_tp s) = Next t e ->
    seffect s Start (mkProc Starting None true (sp_thread s) (sp_hand s) t 0 0 (sp_ind s)) (map Tp e)
| se_thread : sp_cmd s = Starting ->
    seffect s StartThread (mkProc Running (sp_win s) (sp_buffers s) true (sp_hand s) (sp_tp s) (sp_dropped s) (sp_hits s) (sp_ind s)) []
| se_join : sp_cmd s = Running -> sp_hand s = None -> tp_open (sp_tp s) = None ->
    seffect s JoinThread (mkProc Stopping (sp_win s) (sp_buffers s) false (sp_hand s) (sp_tp s) (sp_dropped s) (sp_hits s) (sp_ind s)) []
| se_free : sp_cmd s = Stopping ->
    seffect s Free (mkProc NoRun (sp_win s) false (sp_thread s) (sp_hand s) (sp_tp s) (sp_dropped s) (sp_hits s) (sp_ind s)) []
| se_chunk ts mem w tps : sp_thread s = true -> sp_hand s = None -> tp_open (sp_tp s) = None -> sp_buffers s = true ->
    find_collection_hits p (sp_win s) ts mem = Ok (w, tps) ->
    seffect s (Chunk ts mem) (mkProc (sp_cmd s) w true true (Some (ts, 0, tps)) (sp_tp s) (sp_dropped s) (sp_hits s) (induction_write (sp_ind s))) []
| se_add ts n q rest t b : sp_hand s = Some (ts, n, q :: rest) -> tstep (AAdd q ts) (sp_tp s) = Next t [EAdd q b] -> b = on_time timeout ts q ->
    seffect s Add (mkProc (sp_cmd s) (sp_win s) (sp_buffers s) (sp_thread s) (Some (ts, u32 (n + 1), rest)) t
                     (if b then sp_dropped s else u64 (sp_dropped s + 1)) (sp_hits s) (sp_ind s)) [Tp (EAdd q b)]
| se_try ts n t : sp_hand s = Some (ts, n, []) -> tstep (ATry ts) (sp_tp s) = Next t [] ->
    seffect s Try (mkProc (sp_cmd s) (sp_win s) (sp_buffers s) (sp_thread s) None t (sp_dropped s) (i32 (sp_hits s + n)) (sp_ind s)) [Done]
| se_send ok t q : tstep (ASend ok) (sp_tp s) = Next t [ETp q ok] -> seffect s (Send ok) (set_tp heap s t) [Tp (ETp q ok)]
| se_finish ok t x : tstep (AFinish ok) (sp_tp s) = Next t [ESet x ok] -> seffect s (Finish ok) (set_tp heap s t) [Tp (ESet x ok)]
| se_tps t n : tstep AReadTps (sp_tp s) = Next t [ETps n] -> seffect s ReadTps (set_tp heap s t) [Tp (ETps n)]
| se_sets t n : tstep AReadSets (sp_tp s) = Next t [ESets n] -> seffect s ReadSets (set_tp heap s t) [Tp (ESets n)]
| se_dropped : seffect s ReadDropped (mkProc (sp_cmd s) (sp_win s) (sp_buffers s) (sp_thread s) (sp_hand s) (sp_tp s) 0 (sp_hits s) (sp_ind s)) [Dropped (sp_dropped s)]
| se_hits : seffect s ReadHits (mkProc (sp_cmd s) (sp_win s) (sp_buffers s) (sp_thread s) (sp_hand s) (sp_tp s) (sp_dropped s) 0 (sp_ind s)) [Hits (sp_hits s)].

Lemma free_hands_inv (s : proc heap) : free_hands s = true -> sp_hand s = None /\ tp_open (sp_tp s) = None.
Proof. unfold free_hands. destruct (sp_hand s), (tp_open (sp_tp s)); intros; try discriminate; auto. Qed.

Lemma step_seffect a s s' e : step a s = Go s' e -> seffect s a s' e.
Proof.
  destruct a as [| | | |ts mem| | |ok|ok| | | |]; cbn [Swtpg_model.step]; unfold on_tp.
  - destruct (sp_cmd s) eqn:C; try discriminate. destruct (tstep AReset (sp_tp s)) as [t x| |] eqn:E; try discriminate.
    intros H; injection H as <- <-. constructor; assumption.
  - destruct (sp_cmd s) eqn:C; try discriminate. intros H; injection H as <- <-. constructor; assumption.
  - destruct (sp_cmd s) eqn:C; try discriminate. destruct (free_hands s) eqn:F; try discriminate.
    apply free_hands_inv in F as [F1 F2]. intros H; injection H as <- <-. constructor; assumption.
  - destruct (sp_cmd s) eqn:C; try discriminate. intros H; injection H as <- <-. constructor; assumption.
  - destruct (sp_thread s) eqn:T; try discriminate. destruct (free_hands s) eqn:F; try discriminate. apply free_hands_inv in F as [F1 F2]. cbn [andb negb].
    destruct (sp_buffers s) eqn:B; try discriminate. cbn [negb].
    destruct (find_collection_hits p (sp_win s) ts mem) as [[w tps]|] eqn:E; try discriminate. intros H; injection H as <- <-. constructor; auto.
  - destruct (sp_hand s) as [[[ts n] [|q rest]]|] eqn:Hh; try discriminate.
    destruct (tstep (AAdd q ts) (sp_tp s)) as [t x| |] eqn:E; try discriminate.
    assert (x = [EAdd q (on_time timeout ts q)]) as X.
    { cbn in E. destruct (tp_open (sp_tp s)); [discriminate|]. unfold add_tp in E. unfold on_time. change (2 ^ 64) with two64.
      fold (u64 (time_start q + timeout)). destruct (u64 (time_start q + timeout) >? ts) eqn:G; injection E as <- <-; do 2 f_equal; lia. }
    subst x. intros H; injection H as <- <-. cbn [map].
    replace (if match on_time timeout ts q with true => false | false => true end then u64 (sp_dropped s + 1) else sp_dropped s)
      with (if on_time timeout ts q then sp_dropped s else u64 (sp_dropped s + 1)) by (destruct (on_time timeout ts q); reflexivity).
    econstructor; eauto.
  - destruct (sp_hand s) as [[[ts n] [|q rest]]|] eqn:Hh; try discriminate.
    destruct (tstep (ATry ts) (sp_tp s)) as [t x| |] eqn:E; try discriminate.
    assert (x = []) as ->.
    { apply (step_effect _ _ _ _ _ _ PQ) in E. inversion E; reflexivity. }
    intros H; injection H as <- <-. cbn [map]. econstructor; eauto.
  - destruct (tstep (ASend ok) (sp_tp s)) as [t x| |] eqn:E; try discriminate.
    pose proof E as E'. apply (step_effect _ _ _ _ _ _ PQ) in E'. inversion E'; subst. intros H; injection H as <- <-. econstructor. exact E.
  - destruct (tstep (AFinish ok) (sp_tp s)) as [t x| |] eqn:E; try discriminate.
    pose proof E as E'. apply (step_effect _ _ _ _ _ _ PQ) in E'. inversion E'; subst. intros H; injection H as <- <-. econstructor. exact E.
  - destruct (tstep AReadTps (sp_tp s)) as [t x| |] eqn:E; try discriminate.
    pose proof E as E'. apply (step_effect _ _ _ _ _ _ PQ) in E'. inversion E'; subst. intros H; injection H as <- <-. econstructor. exact E.
  - destruct (tstep AReadSets (sp_tp s)) as [t x| |] eqn:E; try discriminate.
    pose proof E as E'. apply (step_effect _ _ _ _ _ _ PQ) in E'. inversion E'; subst. intros H; injection H as <- <-. econstructor. exact E.
  - intros H; injection H as <- <-. constructor.
  - intros H; injection H as <- <-. constructor.
Qed.

Notation hand_list := (in_hand timeout).

Record inv (l : list act) (s : proc heap) (e : list ev) (la : list (action prim)) (out : list (list prim)) : Prop := {
  iv_tp : trun la (tp_new h_empty) = Next (sp_tp s) (tp_events e);
  iv_out : tpg_run p None (chunks_of l) = Ok (sp_win s, out);
  iv_dec : decisions (this_run e) ++ hand_list s = expected_decisions timeout (chunks_of l) out;
  iv_off : offered (calls_since_reset la) = map fst (decisions (this_run e));
  iv_clk : StronglySorted Z.le (map fst (chunks_of l)) ->
     StronglySorted Z.le (clocks (calls_since_reset la));
  iv_in : forall c, In c (clocks (calls_since_reset la)) -> In c (map fst (chunks_of l));
  iv_hand : forall ts n qs, sp_hand s = Some (ts, n, qs) -> exists pre m, chunks_of l = pre ++ [(ts, m)];
  iv_run : sp_hand s <> None \/ tp_open (sp_tp s) <> None -> sp_thread s = true;
  iv_thread : sp_thread s = true -> sp_cmd s = Running;
  iv_buf : sp_cmd s = Starting \/ sp_cmd s = Running -> sp_buffers s = true
}.

Lemma last_snoc {A} (l : list A) x d : last (l ++ [x]) d = x.
Proof. induction l as [|y l IH]; [reflexivity|]. cbn. destruct (l ++ [x]) eqn:E; [destruct l; discriminate|exact IH]. Qed.

Lemma inv_run l s e : run l conf = Go s e -> exists la out, inv l s e la out.
Proof.
  revert s e. induction l as [|a l IH] using rev_ind; intros s e R.
  - cbn in R. injection R as <- <-. exists [], []. constructor; cbn; try reflexivity; try discriminate; try tauto; try (intros [H|H]; congruence).
  - apply srun_snoc in R as (s1 & e1 & e2 & R & S & ->). destruct (IH _ _ R) as (la & out & I). clear IH.
    apply step_seffect in S. destruct I as [I1 I2 I3 I4 I5 J5 I6 I7 I8 I9].
    assert (length out = length (chunks_of l)) as LO by (eapply tpg_run_length; eauto).
    unfold this_run in *.
    inversion S; subst; clear S.
    + (* Start *)
      assert (e = [EReset]) as ->.
      { apply (step_effect _ _ _ _ _ _ PQ) in H0. inversion H0; reflexivity. }
      assert (sp_thread s1 = false) as T by (destruct (sp_thread s1); [rewrite (I8 eq_refl) in H; discriminate|reflexivity]).
      assert (sp_hand s1 = None) as HN.
      { destruct (sp_hand s1) eqn:X; [|reflexivity]. rewrite I7 in T; [discriminate|left; discriminate]. }
      exists (la ++ [AReset]), []. pose proof (trun_snoc _ _ _ _ _ _ _ I1 H0) as TR.
      assert (tp_open t = None) as ON by (apply (step_effect _ _ _ _ _ _ PQ) in H0; inversion H0; reflexivity).
      constructor; cbn [sp_tp sp_win sp_hand sp_thread sp_buffers sp_cmd]; rewrite ?chunks_snoc, ?calls_snoc.
      * rewrite tp_events_app. cbn. exact TR.
      * reflexivity.
      * unfold in_hand, this_run. cbn [sp_hand]. rewrite HN, tp_events_app. cbn. rewrite since_reset_snoc. reflexivity.
      * unfold this_run. rewrite tp_events_app. cbn. rewrite since_reset_snoc. reflexivity.
      * cbn. intros _. constructor.
      * cbn. contradiction.
      * rewrite HN. discriminate.
      * rewrite HN, ON. intros [X|X]; congruence.
      * rewrite T. discriminate.
      * reflexivity.
    + exists la, out. constructor; cbn [sp_tp sp_win sp_hand sp_thread sp_buffers sp_cmd]; unfold this_run, in_hand in *; cbn [sp_hand]; rewrite ?app_nil_r, ?chunks_snoc; auto.
    + exists la, out. constructor; cbn [sp_tp sp_win sp_hand sp_thread sp_buffers sp_cmd]; unfold this_run, in_hand in *; cbn [sp_hand]; rewrite ?app_nil_r, ?chunks_snoc; auto.
      all: try discriminate; intros [X|X]; congruence.
    + exists la, out. assert (sp_thread s1 = false) as T by (destruct (sp_thread s1); [rewrite (I8 eq_refl) in H; discriminate|reflexivity]).
      constructor; cbn [sp_tp sp_win sp_hand sp_thread sp_buffers sp_cmd]; unfold this_run, in_hand in *; cbn [sp_hand]; rewrite ?app_nil_r, ?chunks_snoc; auto.
      all: rewrite ?T; try discriminate; intros [X|X]; congruence.
    + (* Chunk *)
      exists la, (out ++ [tps]). constructor; cbn [sp_tp sp_win sp_hand sp_thread sp_buffers sp_cmd]; unfold this_run; rewrite ?app_nil_r, ?chunks_snoc; auto.
      * eapply tpg_run_snoc; eauto.
      * unfold in_hand in *. cbn [sp_hand]. rewrite H0 in I3. rewrite app_nil_r in I3. rewrite I3. unfold expected_decisions.
        rewrite combine_snoc by lia. rewrite flat_map_app. cbn [flat_map fst snd]. rewrite app_nil_r. reflexivity.
      * rewrite map_app. cbn [map fst]. intros SS. apply sorted_snoc in SS as [S1 S2]. apply I5, S1.
      * rewrite map_app. intros c Ic. apply in_or_app. left. apply J5, Ic.
      * intros ts0 n qs X. injection X as <- <- <-. eauto.
    + (* Add *)
      destruct (I6 _ _ _ H) as (pre & m & CH).
      exists (la ++ [AAdd q ts]), out. pose proof (trun_snoc _ _ _ _ _ _ _ I1 H0) as TR.
      assert (tp_open t = None) as ON by (apply (step_effect _ _ _ _ _ _ PQ) in H0; inversion H0; reflexivity || assumption).
      constructor; cbn [sp_tp sp_win sp_hand sp_thread sp_buffers sp_cmd]; unfold this_run; rewrite ?chunks_snoc, ?calls_snoc, ?tp_events_app; auto;
        cbn [tp_events flat_map app]; rewrite ?since_reset_snoc, ?decisions_snoc.
      * rewrite <- I3. unfold in_hand. cbn [sp_hand]. rewrite H. cbn [map]. rewrite <- app_assoc. reflexivity.
      * rewrite offered_snoc, I4, map_app. reflexivity.
      * rewrite clocks_snoc. intros SS. apply sorted_snoc. split; [apply I5, SS|]. apply Forall_forall. intros c Ic. apply J5 in Ic.
        rewrite CH, map_app in SS, Ic. cbn [map fst] in SS, Ic. apply sorted_snoc in SS as [_ SS]. rewrite Forall_forall in SS.
        apply in_app_or in Ic as [Ic|[<-|[]]]; [apply SS, Ic|lia].
      * rewrite clocks_snoc. intros c Ic. apply in_app_or in Ic as [Ic|[<-|[]]]; [apply J5, Ic|].
        rewrite CH, map_app. apply in_or_app. right. left. reflexivity.
      * intros ts0 n0 qs X. injection X as <- <- <-. eauto.
      * intros _. apply I7. left. congruence.
    + (* Try *)
      destruct (I6 _ _ _ H) as (pre & m & CH).
      exists (la ++ [ATry ts]), out. pose proof (trun_snoc _ _ _ _ _ _ _ I1 H0) as TR.
      constructor; cbn [sp_tp sp_win sp_hand sp_thread sp_buffers sp_cmd]; unfold this_run; rewrite ?chunks_snoc, ?calls_snoc, ?tp_events_app; auto;
        cbn [tp_events flat_map app]; rewrite ?app_nil_r.
      * rewrite <- I3. unfold in_hand. cbn [sp_hand]. rewrite H. cbn [map]. rewrite app_nil_r. reflexivity.
      * rewrite offered_snoc, I4, app_nil_r. reflexivity.
      * rewrite clocks_snoc. intros SS. apply sorted_snoc. split; [apply I5, SS|]. apply Forall_forall. intros c Ic. apply J5 in Ic.
        rewrite CH, map_app in SS, Ic. cbn [map fst] in SS, Ic. apply sorted_snoc in SS as [_ SS]. rewrite Forall_forall in SS.
        apply in_app_or in Ic as [Ic|[<-|[]]]; [apply SS, Ic|lia].
      * rewrite clocks_snoc. intros c Ic. apply in_app_or in Ic as [Ic|[<-|[]]]; [apply J5, Ic|].
        rewrite CH, map_app. apply in_or_app. right. left. reflexivity.
      * discriminate.
      * intros _. apply I7. left. congruence.
    + (* Send *)
      exists (la ++ [ASend ok]), out. pose proof (trun_snoc _ _ _ _ _ _ _ I1 H) as TR.
      assert (tp_open (sp_tp s1) <> None) as ON by (apply (step_effect _ _ _ _ _ _ PQ) in H; inversion H; congruence).
      unfold set_tp. constructor; cbn [sp_tp sp_win sp_hand sp_thread sp_buffers sp_cmd]; unfold this_run; rewrite ?chunks_snoc, ?calls_snoc, ?tp_events_app; auto;
        cbn [tp_events flat_map app]; rewrite ?since_reset_snoc, ?decisions_snoc, ?offered_snoc, ?clocks_snoc, ?app_nil_r; auto.
    + (* Finish *)
      exists (la ++ [AFinish ok]), out. pose proof (trun_snoc _ _ _ _ _ _ _ I1 H) as TR.
      assert (tp_open (sp_tp s1) <> None) as ON by (apply (step_effect _ _ _ _ _ _ PQ) in H; inversion H; congruence).
      unfold set_tp. constructor; cbn [sp_tp sp_win sp_hand sp_thread sp_buffers sp_cmd]; unfold this_run; rewrite ?chunks_snoc, ?calls_snoc, ?tp_events_app; auto;
        cbn [tp_events flat_map app]; rewrite ?since_reset_snoc, ?decisions_snoc, ?offered_snoc, ?clocks_snoc, ?app_nil_r; auto.
    + (* ReadTps *)
      exists (la ++ [AReadTps]), out. pose proof (trun_snoc _ _ _ _ _ _ _ I1 H) as TR.
      assert (tp_open t = tp_open (sp_tp s1)) as ON by (apply (step_effect _ _ _ _ _ _ PQ) in H; inversion H; reflexivity).
      unfold set_tp. constructor; cbn [sp_tp sp_win sp_hand sp_thread sp_buffers sp_cmd]; unfold this_run; rewrite ?chunks_snoc, ?calls_snoc, ?tp_events_app, ?ON; auto;
        cbn [tp_events flat_map app]; rewrite ?since_reset_snoc, ?decisions_snoc, ?offered_snoc, ?clocks_snoc, ?app_nil_r; auto.
    + (* ReadSets *)
      exists (la ++ [AReadSets]), out. pose proof (trun_snoc _ _ _ _ _ _ _ I1 H) as TR.
      assert (tp_open t = tp_open (sp_tp s1)) as ON by (apply (step_effect _ _ _ _ _ _ PQ) in H; inversion H; reflexivity).
      unfold set_tp. constructor; cbn [sp_tp sp_win sp_hand sp_thread sp_buffers sp_cmd]; unfold this_run; rewrite ?chunks_snoc, ?calls_snoc, ?tp_events_app, ?ON; auto;
        cbn [tp_events flat_map app]; rewrite ?since_reset_snoc, ?decisions_snoc, ?offered_snoc, ?clocks_snoc, ?app_nil_r; auto.
    + exists la, out. constructor; cbn [sp_tp sp_win sp_hand sp_thread sp_buffers sp_cmd]; unfold this_run, in_hand in *; cbn [sp_hand];
        rewrite ?chunks_snoc, ?tp_events_app; cbn [tp_events flat_map app]; rewrite ?app_nil_r; auto.
    + exists la, out. constructor; cbn [sp_tp sp_win sp_hand sp_thread sp_buffers sp_cmd]; unfold this_run, in_hand in *; cbn [sp_hand];
        rewrite ?chunks_snoc, ?tp_events_app; cbn [tp_events flat_map app]; rewrite ?app_nil_r; auto.
Qed.

(** ** Counters *)
Lemma dropped_snoc e x : dropped_unread (e ++ [x]) =
  match x with Tp (EAdd _ false) => dropped_unread e + 1 | Tp EReset | Dropped _ => 0 | _ => dropped_unread e end.
Proof. unfold dropped_unread. rewrite fold_left_app. reflexivity. Qed.
Lemma hits_snoc e x : hits_unread (e ++ [x]) =
  match x with
  | Tp (EAdd _ _) => (fst (hits_unread e), snd (hits_unread e) + 1)
  | Done => (fst (hits_unread e) + snd (hits_unread e), 0)
  | Tp EReset => (0, 0)
  | Hits _ => (0, snd (hits_unread e))
  | _ => hits_unread e end.
Proof. unfold hits_unread. rewrite fold_left_app. reflexivity. Qed.
Definition in_hand_count (s : proc heap) : Z := match sp_hand s with Some (_, n, _) => n | None => 0 end.

Lemma u32_add a b : u32 (u32 a + b) = u32 (a + b).
Proof. unfold u32. rewrite Zplus_mod_idemp_l. reflexivity. Qed.
Lemma i32_add a b : i32 (i32 a + b) = i32 (a + b).
Proof.
  unfold i32. f_equal. replace ((a + 2147483648) mod two32 - 2147483648 + b + 2147483648) with ((a + 2147483648) mod two32 + b) by lia.
  rewrite Zplus_mod_idemp_l. f_equal. lia.
Qed.
Lemma i32_add_u32 a b : i32 (a + u32 b) = i32 (a + b).
Proof.
  unfold i32, u32. f_equal. replace (a + b mod two32 + 2147483648) with (a + 2147483648 + b mod two32) by lia.
  rewrite Zplus_mod_idemp_r. f_equal. lia.
Qed.

Lemma counters_run l s e : run l conf = Go s e ->
  sp_dropped s = u64 (dropped_unread e) /\ sp_hits s = i32 (fst (hits_unread e)) /\ in_hand_count s = u32 (snd (hits_unread e)) /\
  (sp_hand s = None -> snd (hits_unread e) = 0).
Proof.
  revert s e. induction l as [|a l IH] using rev_ind; intros s e R.
  - cbn in R. injection R as <- <-. repeat split.
  - apply srun_snoc in R as (s1 & e1 & e2 & R & S & ->). destruct (inv_run _ _ _ R) as (la & out & I). destruct (IH _ _ R) as (A & B & C & D). clear IH.
    apply step_seffect in S. inversion S; subst; clear S; unfold in_hand_count in *; cbn [sp_dropped sp_hits sp_hand]; unfold set_tp; cbn [sp_dropped sp_hits sp_hand];
      rewrite ?app_nil_r; auto.
    + assert (e = [EReset]) as ->.
      { apply (step_effect _ _ _ _ _ _ PQ) in H0. inversion H0; reflexivity. }
      assert (sp_hand s1 = None) as HN.
      { destruct (sp_hand s1) eqn:X; [|reflexivity]. rewrite (iv_thread _ _ _ _ _ I) in H; [discriminate|]. apply (iv_run _ _ _ _ _ I). left. rewrite X. discriminate. }
      cbn [map]. rewrite dropped_snoc, hits_snoc, HN. repeat split.
    + rewrite H0 in D. rewrite (D eq_refl). repeat split; auto; discriminate.
    + rewrite dropped_snoc, hits_snoc. rewrite H in C. cbn [fst snd]. split; [|split; [exact B|split; [|discriminate]]].
      * destruct (on_time timeout ts q); [exact A|]. rewrite A. unfold u64. rewrite Zplus_mod_idemp_l. reflexivity.
      * rewrite C. apply u32_add.
    + rewrite dropped_snoc, hits_snoc. rewrite H in C. cbn [fst snd]. repeat split; auto.
      rewrite B, C, i32_add_u32, i32_add. reflexivity.
    + rewrite dropped_snoc, hits_snoc. repeat split; auto.
    + rewrite dropped_snoc, hits_snoc. repeat split; auto.
    + rewrite dropped_snoc, hits_snoc. repeat split; auto.
    + rewrite dropped_snoc, hits_snoc. repeat split; auto.
    + rewrite dropped_snoc, hits_snoc. cbn. repeat split; auto.
    + rewrite dropped_snoc, hits_snoc. cbn. repeat split; auto.
Qed.

Lemma counters_read l s e : run l conf = Go s e ->
  (forall a n b, e = a ++ Dropped n :: b -> n = u64 (dropped_unread a)) /\
  (forall a n b, e = a ++ Hits n :: b -> n = i32 (fst (hits_unread a))).
Proof.
  revert s e. induction l as [|c l IH] using rev_ind; intros s e R.
  - cbn in R. injection R as <- <-. split; intros [|] ? ?; discriminate.
  - apply srun_snoc in R as (s1 & e1 & e2 & R & S & ->). destruct (IH _ _ R) as [A B]. pose proof (step_seffect _ _ _ _ S) as SE.
    destruct (counters_run _ _ _ R) as (C1 & C2 & _).
    assert (e2 = [] \/ exists y, e2 = [y] /\ (forall n, y = Dropped n -> n = sp_dropped s1) /\ (forall n, y = Hits n -> n = sp_hits s1)) as LE.
    { inversion SE; subst; auto; try (right; eexists; split; [reflexivity|split; intros ? X; inversion X; reflexivity]).
      apply (step_effect _ _ _ _ _ _ PQ) in H0. inversion H0; subst. right. eexists; split; [reflexivity|split; intros ? X; inversion X]. }
    destruct LE as [->|(y & -> & Y1 & Y2)]; [rewrite app_nil_r; auto|].
    split; intros a n b E; destruct b as [|z b _] using rev_ind.
    + apply app_inj_tail in E as [-> ->]. rewrite (Y1 n eq_refl). exact C1.
    + rewrite app_comm_cons, app_assoc in E. apply app_inj_tail in E as [E _]. eapply A; eauto.
    + apply app_inj_tail in E as [-> ->]. rewrite (Y2 n eq_refl). exact C2.
    + rewrite app_comm_cons, app_assoc in E. apply app_inj_tail in E as [E _]. eapply B; eauto.
Qed.

(** ** The queue for the induction planes *)
Lemma count_nonneg l : 0 <= count_chunks l.
Proof. induction l as [|a l IH] using rev_ind; [cbn; lia|]. rewrite count_snoc. destruct a; lia. Qed.
Lemma induction_run l s e : run l conf = Go s e -> sp_ind s = Z.min (count_chunks l) (induction_slots - 1).
Proof.
  revert s e. induction l as [|a l IH] using rev_ind; intros s e R.
  - cbn in R. injection R as <- <-. reflexivity.
  - apply srun_snoc in R as (s1 & e1 & e2 & R & S & ->). specialize (IH _ _ R). pose proof (count_nonneg l).
    apply step_seffect in S. rewrite count_snoc. unfold induction_slots in *. inversion S; subst; clear S; cbn [sp_ind set_tp]; auto.
    rewrite IH. unfold induction_write, induction_slots. destruct (_ =? 200000) eqn:E; [cbn; lia|]. destruct (_ =? 0) eqn:E2; lia.
Qed.

(** ** Latency *)
Lemma u64_small z : 0 <= z < two64 -> u64 z = z.
Proof. apply Z.mod_small. Qed.
Definition fits (q : prim) : Prop := 0 <= time_start q /\ time_start q + window + timeout < two64.
Lemma elements_found l s e la out : inv l s e la out -> forall q, In q (elements (tp_buffer (sp_tp s))) -> In q (concat out).
Proof.
  intros I q Iq. pose proof (iv_tp _ _ _ _ _ I) as T. apply (c25 _ _ _ _ _ _ PQ) in T. destruct T as [T _].
  assert (In q (accepted (since_reset (tp_events e)))) as A.
  { eapply Permutation_in; [symmetry; exact T|]. apply in_or_app. left. exact Iq. }
  rewrite accepted_decisions in A. apply in_map_iff in A as ([q' b] & <- & A). apply filter_In in A as [A _]. cbn [fst].
  assert (In (q', b) (expected_decisions timeout (chunks_of l) out)) as D.
  { rewrite <- (iv_dec _ _ _ _ _ I). apply in_or_app. left. exact A. }
  unfold expected_decisions in D. apply in_flat_map in D as ([c qs] & D1 & D2). cbn [fst snd] in D2.
  apply in_map_iff in D2 as (q2 & D2 & D3). injection D2 as <- <-. apply in_concat. exists qs. split; [|exact D3].
  apply in_combine_r in D1. exact D1.
Qed.
Lemma paced_snoc d l x : paced d (l ++ [x]) -> paced d l /\ (l <> [] -> last l x <= x <= last l x + d).
Proof.
  induction l as [|a [|b l] IH]; cbn [app].
  - intros _. split; [exact Logic.I|congruence].
  - cbn. intros [H _]. split; [exact Logic.I|]. intros _. exact H.
  - intros [H1 H2]. destruct (IH H2) as [A B]. split; [split; assumption|]. intros _. apply B. discriminate.
Qed.
Definition now_of (l : list act) : Z := last (map fst (chunks_of l)) 0.
Definition slot (q : prim) : Z := time_start q / window.

Lemma latency_run l s e : 0 < window -> 0 < timeout -> run l conf = Go s e ->
  paced window (map fst (chunks_of l)) -> (forall st out, tpg_run p None (chunks_of l) = Ok (st, out) -> Forall fits (concat out)) ->
  chunks_of l <> [] ->
  (sp_hand s = None -> tp_open (sp_tp s) = None -> forall q, In q (elements (tp_buffer (sp_tp s))) -> now_of l <= (slot q + 2) * window + timeout) /\
  (sp_hand s <> None -> tp_open (sp_tp s) = None /\ forall q, In q (elements (tp_buffer (sp_tp s))) -> now_of l <= (slot q + 3) * window + timeout) /\
  (forall x, tp_open (sp_tp s) = Some x -> sp_hand s = None /\
     forall q, In q (elements (tp_buffer (sp_tp s))) -> ts_end x <= time_start q -> now_of l <= (slot q + 2) * window + timeout).
Proof.
  intros W0 T0. revert s e. induction l as [|a l IH] using rev_ind; intros s e R; [cbn; congruence|].
  apply srun_snoc in R as (s1 & e1 & e2 & R & S & ->). destruct (inv_run _ _ _ R) as (la & out & I). specialize (IH _ _ R).
  pose proof (elements_found _ _ _ _ _ I) as EF. pose proof (iv_out _ _ _ _ _ I) as OUT.
  apply step_seffect in S. unfold now_of in *. rewrite chunks_snoc.
  inversion S; subst; clear S; cbn [sp_hand sp_tp set_tp]; intros PA FI NE; try congruence; try (now apply IH).
  - (* Chunk *)
    rewrite map_app in *. cbn [map fst] in *. rewrite last_snoc. apply paced_snoc in PA as [PA PB]. clear NE.
    split; [discriminate|]. split; [|congruence]. intros _. split; [assumption|]. intros q Iq.
    destruct (chunks_of l) as [|c cs] eqn:CL.
    { apply EF in Iq. cbn in OUT. injection OUT as _ <-. destruct Iq. }
    destruct IH as (IH1 & _ & _); [exact PA| |discriminate|].
    { intros st o O. specialize (FI _ _ (tpg_run_snoc _ _ _ _ _ _ _ _ _ O ltac:(replace st with (sp_win s1) by congruence; exact H3))).
      rewrite concat_app in FI. apply Forall_app in FI as [FI _]. exact FI. }
    specialize (IH1 H0 H1 q Iq). specialize (PB ltac:(discriminate)). cbn [map fst] in *.
    assert (forall (l : list Z) d d', l <> [] -> last l d = last l d') as LL.
    { clear. induction l as [|x [|y l] IH]; intros d d' N; [congruence|reflexivity|]. change (last (x :: y :: l) d) with (last (y :: l) d).
      change (last (x :: y :: l) d') with (last (y :: l) d'). apply IH. discriminate. }
    rewrite (LL _ ts 0) in PB by discriminate. lia.
  - (* Add *)
    destruct (IH PA FI NE) as (_ & IH2 & _). rewrite H in IH2. destruct (IH2 ltac:(discriminate)) as [O IH2']. clear IH2.
    pose proof H0 as H0'. apply (step_effect _ _ _ _ _ _ PQ) in H0'.
    assert (tp_open t = None) as ON by (inversion H0'; reflexivity || assumption).
    split; [discriminate|]. split; [|congruence]. intros _. split; [exact ON|]. intros q0 Iq.
    inversion H0'; subst.
    + cbn [tp_buffer] in Iq. apply (Permutation_in _ (pq_push _ _ _ _ _ _ PQ _ _)) in Iq. destruct Iq as [<-|Iq]; [|apply IH2', Iq].
      destruct (iv_hand _ _ _ _ _ I _ _ _ H) as (pre & m & CH). rewrite CH, map_app. cbn [map fst]. rewrite last_snoc.
      assert (In q (concat out)) as IQ.
      { assert (In (q, on_time timeout ts q) (expected_decisions timeout (chunks_of l) out)) as D.
        { rewrite <- (iv_dec _ _ _ _ _ I). apply in_or_app. right. unfold in_hand. rewrite H. left. reflexivity. }
        unfold expected_decisions in D. apply in_flat_map in D as ([c qs] & D1 & D2). cbn [fst snd] in D2.
        apply in_map_iff in D2 as (q2 & D2 & D3). injection D2 as <-. apply in_concat. exists qs. split; [|exact D3].
        apply in_combine_r in D1. exact D1. }
      specialize (FI _ _ OUT). rewrite Forall_forall in FI. specialize (FI _ IQ). unfold fits in FI.
      match goal with X : ts < u64 _ |- _ => rename X into LT end. rewrite (u64_small _) in LT by (unfold two64 in *; lia).
      unfold slot. pose proof (floor_bounds window W0 (time_start q) ltac:(lia)) as FB. lia.
    + apply IH2', Iq.
  - (* Try *)
    destruct (IH PA FI NE) as (_ & IH2 & _). rewrite H in IH2. destruct (IH2 ltac:(discriminate)) as [O IH2']. clear IH2.
    destruct (iv_hand _ _ _ _ _ I _ _ _ H) as (pre & m & CH).
    specialize (FI _ _ OUT). rewrite Forall_forall in FI.
    assert (forall q, In q (elements (tp_buffer (sp_tp s1))) -> fits q) as FT by (intros q Iq; apply FI, EF, Iq).
    assert (last (map fst (chunks_of l)) 0 = ts) as LT by (rewrite CH, map_app; cbn [map fst]; apply last_snoc).
    rewrite LT in *. split; [|split; [congruence|]].
    + intros _ ON q Iq. cbn in H0. rewrite O in H0. unfold begin_set in H0. destruct (h_top (tp_buffer (sp_tp s1))) as [t0|] eqn:TT.
      * assert (In t0 (elements (tp_buffer (sp_tp s1)))) as I0 by (eapply Permutation_in; [apply (pq_pop _ _ _ _ _ _ PQ _ _ TT)|left; reflexivity]).
        destruct (FT _ I0) as [F1 F2].
        rewrite (u64_small (time_start t0 + window)) in H0 by lia. rewrite u64_small in H0 by lia.
        destruct (_ <? ts) eqn:DU.
        { destruct (window =? 0); [discriminate|]. injection H0 as <-. discriminate ON. }
        injection H0 as <-. pose proof (pq_top_min _ _ _ _ _ _ PQ _ _ TT) as TM. rewrite Forall_forall in TM. specialize (TM _ Iq).
        pose proof (floor_bounds window W0 (time_start q) ltac:(lia)) as FB. unfold slot. lia.
      * injection H0 as <-. apply (pq_top_none _ _ _ _ _ _ PQ) in TT. rewrite TT in Iq. destruct Iq.
    + intros x OX. split; [reflexivity|]. intros q Iq LE. apply (step_effect _ _ _ _ _ _ PQ) in H0.
      inversion H0; subst; [congruence|]. cbn [tp_open tp_buffer] in OX, Iq. injection OX as <-. cbn [ts_end] in LE.
      match goal with X : h_top _ = Some ?u |- _ => rename u into t0; rename X into TT end.
      assert (In t0 (elements (tp_buffer (sp_tp s1)))) as I0 by (eapply Permutation_in; [apply (pq_pop _ _ _ _ _ _ PQ _ _ TT)|left; reflexivity]).
      specialize (IH2' _ I0). destruct (FT _ I0) as [F1 F2]. pose proof (floor_bounds window W0 (time_start t0) F1) as FB.
      rewrite (u64_small (time_start t0 / window * window)) in LE by lia. rewrite u64_small in LE by lia.
      unfold slot in *. destruct (FT _ Iq) as [G1 G2].
      assert (time_start t0 / window + 1 <= time_start q / window).
      { apply Z.div_le_lower_bound; lia. }
      nia.
  - (* Send *)
    destruct (IH PA FI NE) as (_ & IH2 & IH3). apply (step_effect _ _ _ _ _ _ PQ) in H. inversion H; subst. cbn [tp_open tp_buffer].
    match goal with X : tp_open (sp_tp s1) = Some ?y |- _ => destruct (IH3 _ X) as [HN IH3'] end. rewrite HN.
    split; [discriminate|]. split; [congruence|]. intros y Y. injection Y as <-. cbn [ts_end]. split; [reflexivity|].
    intros q0 Iq LE. apply IH3'; [|exact LE]. eapply Permutation_in; [apply (pq_pop _ _ _ _ _ _ PQ); eassumption|]. right. exact Iq.
  - (* Finish *)
    destruct (IH PA FI NE) as (_ & IH2 & IH3). apply (step_effect _ _ _ _ _ _ PQ) in H. inversion H; subst. cbn [tp_open tp_buffer].
    match goal with X : tp_open (sp_tp s1) = Some ?y |- _ => destruct (IH3 _ X) as [HN IH3'] end. rewrite HN.
    split; [|split; congruence]. intros _ _ q Iq. apply IH3'; [exact Iq|].
    match goal with X : Forall _ (elements _) |- _ => rewrite Forall_forall in X; apply X, Iq end.
  - apply (step_effect _ _ _ _ _ _ PQ) in H. inversion H; subst. cbn [tp_open tp_buffer]. now apply IH.
  - apply (step_effect _ _ _ _ _ _ PQ) in H. inversion H; subst. cbn [tp_open tp_buffer]. now apply IH.
Qed.
End Proofs.
