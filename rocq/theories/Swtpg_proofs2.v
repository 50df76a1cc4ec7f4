(** The software trigger primitive generation: no undefined behaviour, progress, number of sets, start times. *)
From Coq Require Import ZArith List Bool Lia ZifyBool Arith Sorting.Permutation Sorting.Sorted.
From Verif Require Import Base_model Frugal_model Expand_model Expand_spec Expand_proofs Expand_props Hits_model Hits_spec Hits_proofs Hits_proofs2 Hits_proofs3 Hits_props
  Tp_model Tp_spec Tp_proofs Swtpg_model Swtpg_spec Swtpg_proofs.
Import ListNotations.
Open Scope Z_scope.

(** ** The hit finder is total *)
Definition shaped (st : option window_state) : Prop :=
  match st with None => True | Some w => forall r, (r < 6)%nat -> length (nth r (regs w) []) = 16%nat end.

Lemma decode_total : forall ts gl fuel, (length gl < fuel)%nat ->
  Forall (fun x => (fst x < 6)%nat /\ group_shape (snd x)) gl ->
  exists tps, decode_hits fuel ts (flat_map (fun x => group_words (fst x) (snd x)) gl ++ repeat MAGIC 64) = Ok tps.
Proof.
  intros ts gl. induction gl as [|[r g] gl IH]; intros fuel L F.
  - destruct fuel as [|fuel]; [lia|]. exists []. reflexivity.
  - destruct fuel as [|fuel]; [cbn in L; lia|].
    inversion F as [|? ? [R S] F']; subst. cbn [fst snd] in R, S.
    cbn [flat_map fst snd]. rewrite <- app_assoc.
    destruct (IH fuel ltac:(cbn in L; lia) F') as [tps E].
    set (rest := flat_map _ gl ++ repeat MAGIC 64) in *.
    destruct g as [[t c] tv]. destruct S as [S1 S2]. cbn [fst snd] in S1, S2.
    pose proof (group_words_length r (t, c, tv) (conj S1 S2)) as GL.
    pose proof (fun l Hl => group_words_nth r t c tv l S1 S2 Hl rest) as GN.
    set (w := group_words r (t, c, tv) ++ rest) in *.
    assert (64 <= length w)%nat as LW by (unfold w; rewrite app_length, GL; lia).
    assert (skipn 64 w = rest) as SK.
    { unfold w. rewrite skipn_app, GL. rewrite (skipn_all2 (group_words r (t, c, tv))) by lia. reflexivity. }
    cbn [decode_hits]. clearbody w. destruct w as [|x w']; [cbn in LW; lia|].
    destruct (GN 0%nat ltac:(lia)) as [G0 _]. cbn [nth] in G0.
    rewrite u16_id in G0 by lia. assert ((x =? MAGIC) = false) as XM by (unfold MAGIC; lia). rewrite XM.
    replace (length (x :: w') <? 64)%nat with false by (symmetry; apply Nat.ltb_ge; exact LW).
    rewrite SK, E. cbn [bind]. eexists. reflexivity.
Qed.

Lemma init_shaped input : shaped (Some (init_window input)).
Proof.
  intros r Lr. unfold init_window. cbn [regs]. rewrite (nth_map_ex nat (list chan) _ (seq 0 6) r 0%nat) by (rewrite seq_length; exact Lr).
  rewrite seq_nth by exact Lr. cbn [Nat.add].
  assert (length (map init_chan (set_state input)) = 96%nat) as LC by (unfold set_state; rewrite !map_length, seq_length; reflexivity).
  rewrite firstn_length, skipn_length, LC. lia.
Qed.

Lemma find_total p st ts mem : shaped st -> exists w tps, find_collection_hits p st ts mem = Ok (Some w, tps) /\ shaped (Some w).
Proof.
  intros SH. unfold find_collection_hits. set (input := expand_collection mem).
  set (w := match st with Some w => w | None => init_window input end).
  assert (shaped (Some w)) as SW by (unfold w; destruct st; [exact SH|apply init_shaped]).
  clearbody w. clear SH st. unfold process_window_avx2.
  set (reg := fun r => avx2_register p (abs_time w) 0 (nth r (regs w) []) (register_samples input r)).
  assert (forall r, (r < 6)%nat -> length (fst (reg r)) = 16%nat /\ Forall group_shape (snd (reg r)) /\ (length (snd (reg r)) <= 12)%nat) as R.
  { intros r Lr. pose proof (register_shape (register_samples input r) p (abs_time w) 0 _ (SW r Lr)) as S.
    assert (Forall (fun ss : list Z => length ss = 16%nat) (register_samples input r)) as F.
    { unfold register_samples. apply Forall_map, Forall_forall. intros. unfold lanes_of. rewrite map_length, seq_length. reflexivity. }
    specialize (S F). unfold reg. destruct (avx2_register _ _ _ _ _). cbn [fst snd].
    unfold register_samples in S. rewrite map_length, seq_length in S. tauto. }
  set (gl := flat_map (fun r => map (fun g => (r, g)) (snd (reg r))) (seq 0 6)).
  assert (concat (map (fun x => flat_map (group_words (fst x)) (snd (snd x))) (combine (seq 0 6) (map reg (seq 0 6))))
          = flat_map (fun x => group_words (fst x) (snd x)) gl) as OUT.
  { unfold gl. generalize (seq 0 6). intros l. induction l as [|r l IH]; [reflexivity|].
    cbn [map combine concat fst snd]. rewrite IH. cbn [flat_map]. rewrite flat_map_app. f_equal.
    generalize (snd (reg r)). intros gs. induction gs as [|g gs IHg]; [reflexivity|]. cbn. rewrite IHg. reflexivity. }
  rewrite OUT. clear OUT.
  assert (Forall (fun x => (fst x < 6)%nat /\ group_shape (snd x)) gl) as WF.
  { apply Forall_forall. intros [r g] I. unfold gl in I. apply in_flat_map in I. destruct I as (r' & I1 & I2).
    apply in_map_iff in I2. destruct I2 as (g' & E & I2). injection E as -> ->. apply in_seq in I1. cbn [fst snd].
    split; [lia|]. destruct (R r ltac:(lia)) as (_ & F & _). rewrite Forall_forall in F. apply F, I2. }
  assert (length (flat_map (fun x => group_words (fst x) (snd x)) gl) = 64 * length gl)%nat as LW.
  { clearbody gl. induction WF as [|[r g] l' [A B] WF IH]; [reflexivity|]. cbn [flat_map length fst snd].
    rewrite app_length, group_words_length, IH by exact B. lia. }
  set (out := flat_map (fun x => group_words (fst x) (snd x)) gl ++ repeat MAGIC 64).
  destruct (decode_total ts gl (length out)) as [tps D]; [|exact WF|].
  { unfold out. rewrite app_length, repeat_length, LW. lia. }
  fold out in D. rewrite D. cbn [bind]. eexists. exists tps. split; [reflexivity|].
  intros r Lr. cbn [regs]. rewrite map_map. rewrite (nth_map_ex nat (list chan) _ (seq 0 6) r 0%nat) by (rewrite seq_length; exact Lr).
  rewrite seq_nth by exact Lr. apply R, Lr.
Qed.

Section Proofs2.
Context {heap : Type}.
Variable h_empty : heap.
Variable h_push : prim -> heap -> heap.
Variable h_top : heap -> option prim.
Variable h_pop : heap -> heap.
Variable elements : heap -> list prim.
Hypothesis PQ : pq_ok time_start h_empty h_push h_top h_pop elements.
Variable timeout window : Z.
Variable p : params.

Notation tstep := (tp_step prim time_start heap h_empty h_push h_top h_pop timeout window).
Notation trun := (tp_run prim time_start heap h_empty h_push h_top h_pop timeout window).
Notation step := (Swtpg_model.step heap h_empty h_push h_top h_pop timeout window p).
Notation run := (Swtpg_model.run heap h_empty h_push h_top h_pop timeout window p).
Notation conf := (configured h_empty).
Notation inv_run := (inv_run h_empty h_push h_top h_pop elements PQ timeout window p).

Lemma shaped_run l s e : run l conf = Go s e -> shaped (sp_win s).
Proof.
  revert s e. induction l as [|a l IH] using rev_ind; intros s e R.
  - cbn in R. injection R as <- <-. exact I.
  - apply (srun_snoc h_empty h_push h_top h_pop timeout window p) in R as (s1 & e1 & e2 & R & S & ->). specialize (IH _ _ R).
    apply (step_seffect h_empty h_push h_top h_pop elements PQ) in S. inversion S; subst; cbn [sp_win set_tp]; auto.
    + exact I.
    + destruct (find_total p (sp_win s1) ts mem IH) as (w' & tps' & F & SW). rewrite F in *. congruence.
Qed.

Lemma no_bad l : window <> 0 -> run l conf <> Bad.
Proof.
  intros W. induction l as [|a l IH] using rev_ind; [discriminate|].
  rewrite (srun_app h_empty h_push h_top h_pop timeout window p). destruct (run l conf) as [s e| |] eqn:R; [|discriminate|congruence].
  destruct (inv_run _ _ _ R) as (la & out & I). pose proof (shaped_run _ _ _ R) as SH.
  assert (forall x, tstep x (sp_tp s) <> Fault) as TF.
  { intros x F. apply W. eapply (c25_fault time_start h_empty h_push h_top h_pop timeout window (la ++ [x])). rewrite run_app, (iv_tp _ _ _ _ _ _ _ _ _ _ _ _ I).
    cbn. rewrite F. reflexivity. }
  cbn [Swtpg_model.run]. assert (step a s <> Bad) as SB.
  2:{ destruct (step a s); congruence. }
  destruct a as [| | | |ts mem| | |ok|ok| | | |]; cbn [Swtpg_model.step]; unfold on_tp; try (destruct (sp_cmd s); discriminate); try discriminate.
  - destruct (sp_cmd s); try discriminate. pose proof (TF AReset). destruct (tstep AReset (sp_tp s)); congruence.
  - destruct (sp_cmd s); try discriminate. destruct (free_hands s); discriminate.
  - destruct (sp_thread s) eqn:T; cbn [andb negb]; [|discriminate]. destruct (free_hands s); cbn [negb]; [|discriminate].
    rewrite (iv_buf _ _ _ _ _ _ _ _ _ _ _ _ I) by (right; apply (iv_thread _ _ _ _ _ _ _ _ _ _ _ _ I), T). cbn [negb].
    destruct (find_total p (sp_win s) ts mem SH) as (w & tps & -> & _). discriminate.
  - destruct (sp_hand s) as [[[ts n] [|q rest]]|]; try discriminate. pose proof (TF (AAdd q ts)). destruct (tstep (AAdd q ts) (sp_tp s)); congruence.
  - destruct (sp_hand s) as [[[ts n] [|q rest]]|]; try discriminate. pose proof (TF (ATry ts)). destruct (tstep (ATry ts) (sp_tp s)); congruence.
  - pose proof (TF (ASend ok)). destruct (tstep (ASend ok) (sp_tp s)); congruence.
  - pose proof (TF (AFinish ok)). destruct (tstep (AFinish ok) (sp_tp s)); congruence.
Qed.

(** ** A superchunk is always processed to its end *)
Lemma srun_cons a l s s1 e1 s2 e2 : step a s = Go s1 e1 -> run l s1 = Go s2 e2 -> run (a :: l) s = Go s2 (e1 ++ e2).
Proof. intros H1 H2. cbn [Swtpg_model.run]. rewrite H1, H2. reflexivity. Qed.
Lemma srun_app_ok l1 l2 s s1 e1 s2 e2 : run l1 s = Go s1 e1 -> run l2 s1 = Go s2 e2 -> run (l1 ++ l2) s = Go s2 (e1 ++ e2).
Proof. intros H1 H2. rewrite (srun_app h_empty h_push h_top h_pop timeout window p), H1, H2. reflexivity. Qed.

Lemma adds_run qs : forall s ts n, sp_hand s = Some (ts, n, qs) -> tp_open (sp_tp s) = None -> window <> 0 ->
  exists n' s' e', run (repeat Add (length qs)) s = Go s' e' /\ sp_hand s' = Some (ts, n', []) /\ tp_open (sp_tp s') = None.
Proof.
  induction qs as [|q qs IH]; intros s ts n Hh O W.
  - exists n, s, []. auto.
  - cbn [length repeat].
    destruct (c27 time_start h_empty h_push h_top h_pop elements PQ timeout window (sp_tp s) q ts O) as (t' & b & T & _ & TP & TS).
    assert (exists s1 e1 m, step Add s = Go s1 e1 /\ sp_hand s1 = Some (ts, m, qs) /\ sp_tp s1 = t') as (s1 & e1 & m & S1 & S2 & S3).
    { cbn [Swtpg_model.step]. rewrite Hh. unfold on_tp. rewrite T. do 3 eexists. split; [reflexivity|]. split; reflexivity. }
    assert (tp_open t' = None) as O'.
    { apply (step_effect _ _ _ _ _ _ PQ) in T. inversion T; subst; auto. }
    destruct (IH s1 ts m S2 ltac:(rewrite S3; exact O') W) as (n' & s2 & e2 & R & A & B).
    exists n', s2, (e1 ++ e2). split; [|split; assumption]. eapply srun_cons; eauto.
Qed.

Lemma sends_run oks ok n : forall k s t' e', trun (map (fun i => ASend (oks i)) (seq k n) ++ [AFinish ok]) (sp_tp s) = Next t' e' ->
  run (map (fun i => Send (oks i)) (seq k n) ++ [Finish ok]) s = Go (set_tp heap s t') (map Tp e').
Proof.
  induction n as [|n IH]; intros k s t' e' R; cbn [seq map app] in *.
  - cbn [Tp_model.tp_run] in R. cbn [Swtpg_model.run Swtpg_model.step]. unfold on_tp.
    destruct (tstep (AFinish ok) (sp_tp s)) as [t x| |]; try discriminate. injection R as <- <-. rewrite !app_nil_r. reflexivity.
  - cbn [Tp_model.tp_run] in R. cbn [Swtpg_model.run Swtpg_model.step]. unfold on_tp.
    destruct (tstep (ASend (oks k)) (sp_tp s)) as [t x| |]; try discriminate.
    destruct (trun (map (fun i => ASend (oks i)) (seq (S k) n) ++ [AFinish ok]) t) as [t2 x2| |] eqn:R2; try discriminate. injection R as <- <-.
    specialize (IH (S k) (set_tp heap s t) t2 x2 R2). rewrite IH. rewrite map_app. reflexivity.
Qed.

Definition thread_act (oks : nat -> bool) (ok : bool) (a : act) : Prop :=
  a = Add \/ a = Try \/ (exists i, a = Send (oks i)) \/ a = Finish ok.
Lemma completes l s e ts mem oks ok : window <> 0 -> run l conf = Go s e -> sp_thread s = true -> free_hands s = true ->
  exists l' s' e', run (Chunk ts mem :: l') s = Go s' e' /\ free_hands s' = true /\ Forall (thread_act oks ok) l'.
Proof.
  intros W R T F. destruct (inv_run _ _ _ R) as (la & out & I). pose proof (shaped_run _ _ _ R) as SH.
  destruct (find_total p (sp_win s) ts mem SH) as (w & tps & E & _).
  assert (exists s1 e1, step (Chunk ts mem) s = Go s1 e1 /\ sp_hand s1 = Some (ts, 0, tps) /\ sp_tp s1 = sp_tp s) as (s1 & e1 & S1 & S2 & S3).
  { cbn [Swtpg_model.step]. rewrite T, F. cbn [andb negb].
    rewrite (iv_buf _ _ _ _ _ _ _ _ _ _ _ _ I) by (right; apply (iv_thread _ _ _ _ _ _ _ _ _ _ _ _ I), T). cbn [negb]. rewrite E.
    do 2 eexists. split; [reflexivity|]. split; reflexivity. }
  apply free_hands_inv in F as [F1 F2].
  destruct (adds_run tps s1 ts 0 S2 ltac:(rewrite S3; exact F2) W) as (n & s2 & e2 & R2 & A & B).
  assert (exists s3 e3, step Try s2 = Go s3 e3 /\ sp_hand s3 = None) as (s3 & e3 & S4 & S5).
  { cbn [Swtpg_model.step]. rewrite A. unfold on_tp. cbn [Tp_model.tp_step]. rewrite B. unfold begin_set.
    destruct (h_top (tp_buffer (sp_tp s2))); [|do 2 eexists; split; reflexivity].
    destruct (_ <? ts); [|do 2 eexists; split; reflexivity]. destruct (window =? 0) eqn:Z0; [lia|]. do 2 eexists; split; reflexivity. }
  assert (Forall (thread_act oks ok) (repeat Add (length tps))) as FA.
  { clear. induction (length tps); cbn; constructor; auto. left. reflexivity. }
  destruct (tp_open (sp_tp s3)) as [x|] eqn:O.
  - destruct (c26_completes time_start h_empty h_push h_top h_pop elements PQ timeout window (sp_tp s3) oks ok) as (m & t' & e4 & R4 & O4); [congruence|].
    pose proof (sends_run oks ok m 0 s3 t' e4 R4) as R5.
    exists (repeat Add (length tps) ++ Try :: map (fun i => Send (oks i)) (seq 0 m) ++ [Finish ok]).
    eexists. eexists. split; [|split].
    + eapply srun_cons; [exact S1|]. eapply srun_app_ok; [exact R2|]. eapply srun_cons; [exact S4|]. exact R5.
    + unfold free_hands. cbn [sp_hand sp_tp set_tp]. rewrite S5, O4. reflexivity.
    + apply Forall_app. split; [exact FA|]. constructor; [right; left; reflexivity|]. apply Forall_app. split.
      * apply Forall_map, Forall_forall. intros i _. right. right. left. exists i. reflexivity.
      * constructor; [|constructor]. right. right. right. reflexivity.
  - exists (repeat Add (length tps) ++ [Try]). eexists. eexists. split; [|split].
    + eapply srun_cons; [exact S1|]. eapply srun_app_ok; [exact R2|]. eapply srun_cons; [exact S4|]. reflexivity.
    + unfold free_hands. rewrite S5, O. reflexivity.
    + apply Forall_app. split; [exact FA|]. constructor; [right; left; reflexivity|constructor].
Qed.

(** ** At most one set for a superchunk *)
Definition busy (s : proc heap) : nat :=
  match sp_hand s, tp_open (sp_tp s) with None, None => 0%nat | _, _ => 1%nat end.
Lemma sets_snoc (e : list (event prim)) x : sets (e ++ [x]) = sets e ++ match x with ESet y _ => [y] | _ => [] end.
Proof. unfold sets. rewrite flat_map_app. cbn. rewrite app_nil_r. reflexivity. Qed.
Lemma since_snoc (e : list (event prim)) x : since_reset (e ++ [x]) = match x with EReset => [] | _ => since_reset e ++ [x] end.
Proof. unfold since_reset. rewrite fold_left_app. destruct x; reflexivity. Qed.
Lemma this_run_snoc e x : this_run (e ++ [x]) = match x with Tp EReset => [] | Tp y => this_run e ++ [y] | _ => this_run e end.
Proof. unfold this_run. rewrite tp_events_app. destruct x as [y| | |]; cbn; rewrite ?app_nil_r; auto. rewrite since_snoc. destruct y; reflexivity. Qed.

Lemma one_set l s e : run l conf = Go s e -> (length (sets (this_run e)) + busy s <= length (chunks_of l))%nat.
Proof.
  revert s e. induction l as [|a l IH] using rev_ind; intros s e R.
  - cbn in R. injection R as <- <-. cbn. lia.
  - apply (srun_snoc h_empty h_push h_top h_pop timeout window p) in R as (s1 & e1 & e2 & R & S & ->). specialize (IH _ _ R).
    destruct (inv_run _ _ _ R) as (la & out & I).
    apply (step_seffect h_empty h_push h_top h_pop elements PQ) in S. rewrite chunks_snoc.
    inversion S; subst; unfold busy in *; cbn [sp_hand sp_tp set_tp]; rewrite ?app_nil_r; auto.
    + assert (e = [EReset] /\ tp_open t = None) as [-> ON].
      { apply (step_effect _ _ _ _ _ _ PQ) in H0. inversion H0; subst; auto. }
      assert (sp_hand s1 = None) as HN.
      { destruct (sp_hand s1) eqn:X; [|reflexivity]. rewrite (iv_thread _ _ _ _ _ _ _ _ _ _ _ _ I) in H; [discriminate|].
        apply (iv_run _ _ _ _ _ _ _ _ _ _ _ _ I). left. rewrite X. discriminate. }
      cbn [map]. rewrite this_run_snoc, HN, ON. cbn. lia.
    + rewrite H0, H1 in IH. rewrite app_length. cbn [length]. lia.
    + rewrite H in IH. rewrite this_run_snoc, sets_snoc, app_nil_r. destruct (tp_open t); lia.
    + rewrite H in IH. rewrite this_run_snoc. destruct (tp_open t); lia.
    + rewrite this_run_snoc, sets_snoc, app_nil_r. apply (step_effect _ _ _ _ _ _ PQ) in H. inversion H; subst.
      match goal with X : tp_open (sp_tp s1) = _ |- _ => rewrite X in IH end. cbn [tp_open]. destruct (sp_hand s1); lia.
    + rewrite this_run_snoc, sets_snoc, app_length. cbn [length]. apply (step_effect _ _ _ _ _ _ PQ) in H. inversion H; subst. cbn [tp_open].
      match goal with X : tp_open (sp_tp s1) = _ |- _ => rename X into O; rewrite O in IH end.
      assert (sp_hand s1 = None \/ sp_hand s1 <> None) as [HN|HN] by (destruct (sp_hand s1); [right; discriminate|left; reflexivity]).
      * rewrite HN in *. lia.
      * exfalso. clear - HN O R PQ. revert HN O.
        (* a superchunk in hand and an open set exclude each other *)
        assert (sp_hand s1 <> None -> tp_open (sp_tp s1) = None) as X.
        { clear - R PQ. revert s1 e1 R. induction l as [|a l IH] using rev_ind; intros s e R.
          - cbn in R. injection R as <- <-. reflexivity.
          - apply (srun_snoc h_empty h_push h_top h_pop timeout window p) in R as (s1 & e1 & e2 & R & S & ->). specialize (IH _ _ R).
            apply (step_seffect h_empty h_push h_top h_pop elements PQ) in S.
            inversion S; subst; cbn [sp_hand sp_tp set_tp]; auto; try congruence.
            + intros _. apply (step_effect _ _ _ _ _ _ PQ) in H0. inversion H0; subst; auto.
            + intros _. apply (step_effect _ _ _ _ _ _ PQ) in H0. inversion H0; subst; auto.
            + intros X. specialize (IH X). apply (step_effect _ _ _ _ _ _ PQ) in H. inversion H; subst; congruence.
            + intros _. apply (step_effect _ _ _ _ _ _ PQ) in H. inversion H; subst; auto.
            + intros X. specialize (IH X). apply (step_effect _ _ _ _ _ _ PQ) in H. inversion H; subst; auto.
            + intros X. specialize (IH X). apply (step_effect _ _ _ _ _ _ PQ) in H. inversion H; subst; auto. }
        intros A B. rewrite X in B by exact A. discriminate.
    + rewrite this_run_snoc, sets_snoc, app_nil_r. apply (step_effect _ _ _ _ _ _ PQ) in H. inversion H; subst. cbn [tp_open]. lia.
    + rewrite this_run_snoc, sets_snoc, app_nil_r. apply (step_effect _ _ _ _ _ _ PQ) in H. inversion H; subst. cbn [tp_open]. lia.
    + rewrite this_run_snoc. lia.
    + rewrite this_run_snoc. lia.
Qed.
End Proofs2.
