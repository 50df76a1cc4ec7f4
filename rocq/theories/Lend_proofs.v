(** Proofs about the pointers that the skip-list buffer hands out. *)
From Coq Require Import ZArith List Bool Lia ZifyBool Permutation Arith.
From Verif Require Import Base_model SkipList_model SkipList_spec SkipList_proofs Lend_model Lend_spec.
Import ListNotations.
Open Scope Z_scope.

Section P.
Variables pds keep : bool.
Notation run := (lend_run pds keep).
Notation stp := (step pds keep).

Lemma run_app : forall a b s, run s (a ++ b) = match run s a with Some s' => run s' b | None => None end.
Proof.
  induction a as [|x a IH]; intros b s; [reflexivity|]. cbn [app lend_run].
  destruct (stp s x); [apply IH|reflexivity].
Qed.

(** Invariant by induction on the last step. *)
Lemma run_inv : forall (P : lend -> Prop), (forall s a s', P s -> stp s a = Some s' -> P s') ->
  forall acts s s', P s -> run s acts = Some s' -> P s'.
Proof.
  intros P HP acts. induction acts as [|a acts IH]; intros s s' H R; cbn in R; [congruence|].
  destruct (stp s a) as [s1|] eqn:E; [|discriminate]. eapply IH; [|exact R]. eapply HP; eassumption.
Qed.

Definition all (s : lend) : list node := n_list s ++ n_waste s.
Record good (s : lend) : Prop := mk_good {
  g_incr : incr nd_ts (n_list s);
  g_id : forall y, In y (all s) -> (nd_id y < n_now s)%nat;
  g_uniq : forall y z, In y (all s) -> In z (all s) -> nd_id y = nd_id z -> y = z;
  g_kind : n_clean s <> CIdle -> pds = true;
  g_apart : forall y, In y (n_list s) -> In y (n_waste s) -> False
}.

Lemma incr_filter : forall f (l : list node), incr nd_ts l -> incr nd_ts (filter f l).
Proof.
  induction l as [|x l IH]; intros H; [exact I|]. destruct H as [Hx Hl]. cbn [filter].
  destruct (f x); [|auto]. split; [|auto]. intros y Hy. apply filter_In in Hy. apply Hx. tauto.
Qed.

Lemma insert_in : forall x (l : list node) y, incr nd_ts l -> In y (fst (sl_write nd_ts x l)) -> y = x \/ In y l.
Proof.
  intros x l y H Hy. unfold sl_write in Hy. destruct (insert_ok nd_ts x l H) as [[(_ & Hp & _)|(_ & E & _)] _].
  - apply (Permutation_in _ Hp) in Hy. destruct Hy; auto.
  - rewrite E in Hy. auto.
Qed.

Lemma insert_keeps : forall x (l : list node) y, incr nd_ts l -> In y l -> In y (fst (sl_write nd_ts x l)).
Proof.
  intros x l y H Hy. unfold sl_write. destruct (insert_ok nd_ts x l H) as [[(_ & Hp & _)|(_ & E & _)] _].
  - apply (Permutation_in _ (Permutation_sym Hp)). right. exact Hy.
  - rewrite E. exact Hy.
Qed.

Lemma incr_insert : forall x (l : list node), incr nd_ts l -> incr nd_ts (fst (sl_write nd_ts x l)).
Proof. intros x l H. apply (insert_ok nd_ts x l H). Qed.

(** What a step does to the nodes. *)
Lemma good_insert : forall t s, good s -> good (insert t s).
Proof.
  intros t s [G1 G2 G3 G4 G5]. unfold insert. constructor; unfold all in *; cbn in *.
  - apply incr_insert. exact G1.
  - intros y Hy. apply in_app_iff in Hy. destruct Hy as [Hy|Hy].
    + apply insert_in in Hy; [|exact G1]. destruct Hy as [->|Hy]; [cbn; lia|].
      specialize (G2 y (in_or_app _ _ _ (or_introl Hy))). lia.
    + specialize (G2 y (in_or_app _ _ _ (or_intror Hy))). lia.
  - assert (HI : forall y, In y (fst (sl_write nd_ts (mk_node t (n_now s)) (n_list s)) ++ n_waste s) ->
              y = mk_node t (n_now s) \/ In y (n_list s ++ n_waste s)).
    { intros y Hy. apply in_app_iff in Hy. destruct Hy as [Hy|Hy].
      - apply insert_in in Hy; [|exact G1]. destruct Hy; [auto|right; apply in_or_app; auto].
      - right. apply in_or_app; auto. }
    intros y z Hy Hz E. apply HI in Hy. apply HI in Hz.
    destruct Hy as [->|Hy], Hz as [->|Hz]; [reflexivity| | |auto].
    + apply G2 in Hz. cbn in E. lia.
    + apply G2 in Hy. cbn in E. lia.
  - exact G4.
  - intros y Hy Hw. apply insert_in in Hy; [|exact G1]. destruct Hy as [->|Hy]; [|eauto].
    specialize (G2 _ (in_or_app _ _ _ (or_intror Hw))). cbn in G2. lia.
Qed.

Lemma all_remove : forall t s y, In y (all (remove t s)) <-> In y (all s).
Proof.
  intros t s y. unfold all, remove. cbn. rewrite !in_app_iff, !filter_In.
  destruct (nd_ts y =? t); cbn; intuition discriminate.
Qed.

Lemma good_remove : forall t s, good s -> good (remove t s).
Proof.
  intros t s [G1 G2 G3 G4 G5]. constructor.
  - cbn. apply incr_filter. exact G1.
  - intros y Hy. apply all_remove in Hy. apply G2. exact Hy.
  - intros y z Hy Hz. apply all_remove in Hy. apply all_remove in Hz. auto.
  - exact G4.
  - intros y Hy Hw. cbn in Hy, Hw. apply filter_In in Hy. apply in_app_iff in Hw. rewrite filter_In in Hw.
    destruct Hy as [Hy E]. destruct Hw as [[_ E']|Hw]; [rewrite E' in E; discriminate|eauto].
Qed.

Lemma good_closed : forall s, good s -> good (closed s).
Proof.
  intros s [G1 G2 G3 G4 G5]. unfold closed. destruct (open_now s); [|constructor; assumption].
  constructor; unfold all in *; cbn in *; auto.
  - intros y Hy. apply G2. rewrite app_nil_r in Hy. apply in_or_app. auto.
  - intros y z Hy Hz. rewrite app_nil_r in Hy, Hz. apply G3; apply in_or_app; auto.
Qed.

Lemma good_clean : forall c s, good s -> (c <> CIdle -> pds = true) -> good (set_clean c s).
Proof. intros c s [G1 G2 G3 G4 G5] H. constructor; cbn; auto. Qed.
Lemma good_look : forall k s, good s -> good (set_look k s).
Proof. intros c s [G1 G2 G3 G4 G5]. constructor; cbn; auto. Qed.
Lemma good_users : forall k s, good s -> good (set_users k s).
Proof. intros c s [G1 G2 G3 G4 G5]. constructor; cbn; auto. Qed.

Lemma good0 : good lend0.
Proof. constructor; cbn; try tauto. Qed.

Lemma good_step : forall s a s', good s -> stp s a = Some s' -> good s'.
Proof.
  intros s a s' G E. pose proof (g_kind _ G) as GK. destruct a; cbn in E.
  - inversion E. apply good_users. exact G.
  - destruct (n_users s); [discriminate|]. inversion E. apply good_closed, good_users, G.
  - destruct (n_users s); [discriminate|]. inversion E. apply good_insert, G.
  - destruct (n_users s); [discriminate|]. destruct pds; [discriminate|]. inversion E.
    destruct (sl_back (n_list s)); [apply good_remove|]; exact G.
  - destruct (n_clean s); try discriminate. destruct pds eqn:P; [|discriminate]. inversion E.
    apply good_clean; [exact G|]. auto.
  - destruct (n_clean s) eqn:C; try discriminate. inversion E. apply good_clean; [exact G|].
    intros _. apply GK. congruence.
  - destruct (n_clean s) eqn:C; try discriminate. inversion E. apply good_clean; [exact G|].
    intros _. apply GK. congruence.
  - destruct (n_clean s) eqn:C; try discriminate. inversion E. apply good_clean; [apply good_remove; exact G|].
    intros _. apply GK. congruence.
  - destruct (n_clean s) eqn:C; try discriminate. inversion E. apply good_clean; [exact G|].
    intros _. apply GK. congruence.
  - destruct (n_clean s) eqn:C; try discriminate. inversion E. apply good_closed, good_clean; [exact G|]. congruence.
  - destruct (n_look s); try discriminate. inversion E. apply good_look, G.
  - destruct (n_look s); try discriminate. inversion E. apply good_look, G.
  - destruct (n_look s); try discriminate. inversion E. apply good_closed, good_look, G.
  - destruct G as [G1 G2 G3 G4 G5].
    destruct (n_look s); try discriminate; destruct keep; try discriminate; inversion E; constructor; cbn; auto.
Qed.

Lemma good_run : forall acts s s', good s -> run s acts = Some s' -> good s'.
Proof. intros acts s s'. apply run_inv. apply good_step. Qed.

(** Where a node of the list or of the removed ones is after a step. *)
Lemma nobody_open : forall s, nobody s <-> open_now s = O.
Proof.
  intros s. unfold nobody, open_now. split.
  - intros (-> & -> & [-> | [p ->]]); reflexivity.
  - intros H. destruct (n_users s); [|discriminate]. split; [reflexivity|].
    destruct (n_clean s); try discriminate. split; [reflexivity|].
    destruct (n_look s); try discriminate; [left; reflexivity|right; eexists; reflexivity].
Qed.

Lemma closed_all : forall s nd, In nd (all s) -> In nd (all (closed s)) \/ (nobody (closed s) /\ ~ In nd (n_list (closed s))).
Proof.
  intros s nd H. unfold closed. destruct (open_now s) eqn:O; [|left; exact H].
  unfold all in *. cbn. rewrite app_nil_r.
  destruct (in_dec (fun x y : node => ltac:(decide equality; [apply Nat.eq_dec|apply Z.eq_dec])) nd (n_list s)) as [I|I];
    [left; exact I|right; split; [|exact I]].
  apply nobody_open in O. exact O.
Qed.

Lemma step_all : forall s a s' nd, good s -> stp s a = Some s' -> In nd (all s) ->
  In nd (all s') \/ (nobody s' /\ ~ In nd (n_list s')).
Proof.
  intros s a s' nd G E I. destruct a; cbn in E.
  - inversion E. left; exact I.
  - destruct (n_users s); [discriminate|]. inversion E. apply closed_all. exact I.
  - destruct (n_users s); [discriminate|]. inversion E. left. unfold all in *. cbn. apply in_app_iff in I.
    apply in_or_app. destruct I; [left; apply insert_keeps; [apply G|assumption]|right; assumption].
  - destruct (n_users s); [discriminate|]. destruct pds; [discriminate|]. inversion E. left.
    destruct (sl_back (n_list s)); [apply all_remove|]; exact I.
  - destruct (n_clean s); try discriminate. destruct pds; [|discriminate]. inversion E. left; exact I.
  - destruct (n_clean s); try discriminate. inversion E. left; exact I.
  - destruct (n_clean s); try discriminate. inversion E. left; exact I.
  - destruct (n_clean s); try discriminate. inversion E. left. 
    change (In nd (all (remove (nd_ts h) s))). apply all_remove. exact I.
  - destruct (n_clean s); try discriminate. inversion E. left; exact I.
  - destruct (n_clean s); try discriminate. inversion E. apply closed_all. exact I.
  - destruct (n_look s); try discriminate. inversion E. left; exact I.
  - destruct (n_look s); try discriminate. inversion E. left; exact I.
  - destruct (n_look s); try discriminate. inversion E. apply closed_all. exact I.
  - destruct (n_look s); try discriminate; destruct keep; try discriminate; inversion E; left; exact I.
Qed.

(** A removed node never comes back, and is destroyed when nobody is inside. *)
Lemma closed_out : forall s nd, ~ In nd (all s) -> ~ In nd (all (closed s)).
Proof.
  intros s nd H I. apply H. unfold closed in I. destruct (open_now s); [|exact I].
  unfold all in *. cbn in I. rewrite app_nil_r in I. apply in_or_app. auto.
Qed.

Lemma step_out : forall s a s' nd, good s -> (nd_id nd < n_now s)%nat -> stp s a = Some s' -> ~ In nd (all s) ->
  ~ In nd (all s').
Proof.
  intros s a s' nd G L E I. destruct a; cbn in E.
  - inversion E. exact I.
  - destruct (n_users s); [discriminate|]. inversion E. apply closed_out. exact I.
  - destruct (n_users s); [discriminate|]. inversion E. unfold all in *. cbn. rewrite in_app_iff. intros [H|H].
    + apply insert_in in H; [|apply G]. destruct H as [-> |H]; [cbn in L; lia|]. apply I, in_or_app; auto.
    + apply I, in_or_app; auto.
  - destruct (n_users s); [discriminate|]. destruct pds; [discriminate|]. inversion E.
    destruct (sl_back (n_list s)); [rewrite all_remove|]; exact I.
  - destruct (n_clean s); try discriminate. destruct pds; [|discriminate]. inversion E. exact I.
  - destruct (n_clean s); try discriminate. inversion E. exact I.
  - destruct (n_clean s); try discriminate. inversion E. exact I.
  - destruct (n_clean s); try discriminate. inversion E. 
    change (~ In nd (all (remove (nd_ts h) s))). rewrite all_remove. exact I.
  - destruct (n_clean s); try discriminate. inversion E. exact I.
  - destruct (n_clean s); try discriminate. inversion E. apply closed_out. exact I.
  - destruct (n_look s); try discriminate. inversion E. exact I.
  - destruct (n_look s); try discriminate. inversion E. exact I.
  - destruct (n_look s); try discriminate. inversion E. apply closed_out. exact I.
  - destruct (n_look s); try discriminate; destruct keep; try discriminate; inversion E; exact I.
Qed.

(** When nobody is inside an operation there are no removed nodes left. *)
Definition tidy (s : lend) : Prop := nobody s -> n_waste s = [].
Lemma tidy_closed : forall s, tidy (closed s).
Proof.
  intros s N. unfold closed in *. destruct (open_now s) eqn:O; [reflexivity|].
  apply nobody_open in N. congruence.
Qed.
Lemma tidy_open : forall s, open_now s <> O -> tidy s.
Proof. intros s H N. apply nobody_open in N. contradiction. Qed.

Lemma tidy_step : forall s a s', tidy s -> stp s a = Some s' -> tidy s'.
Proof.
  intros s a s' T E. destruct a; cbn in E.
  - inversion E. apply tidy_open. unfold open_now. cbn. lia.
  - destruct (n_users s); [discriminate|]. inversion E. apply tidy_closed.
  - destruct (n_users s) eqn:U; [discriminate|]. inversion E. apply tidy_open. unfold open_now. cbn. lia.
  - destruct (n_users s) eqn:U; [discriminate|]. destruct pds; [discriminate|]. inversion E. apply tidy_open.
    unfold open_now. destruct (sl_back (n_list s)); cbn; lia.
  - destruct (n_clean s); try discriminate. destruct pds; [|discriminate]. inversion E. apply tidy_open.
    unfold open_now. cbn. lia.
  - destruct (n_clean s); try discriminate. inversion E. apply tidy_open. unfold open_now. cbn.
    destruct (sl_back (n_list s)); lia.
  - destruct (n_clean s); try discriminate. inversion E. apply tidy_open. unfold open_now. cbn.
    destruct (sl_front (n_list s)); [destruct (_ <? _)|]; lia.
  - destruct (n_clean s); try discriminate. inversion E. apply tidy_open. unfold open_now. cbn. lia.
  - destruct (n_clean s); try discriminate. inversion E. apply tidy_open. unfold open_now. cbn.
    destruct (sl_front (n_list s)); [destruct (_ <=? _)|]; lia.
  - destruct (n_clean s); try discriminate. inversion E. apply tidy_closed.
  - destruct (n_look s); try discriminate. inversion E. apply tidy_open. unfold open_now. cbn. lia.
  - destruct (n_look s); try discriminate. inversion E. apply tidy_open. unfold open_now. cbn. lia.
  - destruct (n_look s); try discriminate. inversion E. apply tidy_closed.
  - destruct (n_look s) eqn:L; try discriminate; destruct keep; try discriminate; inversion E.
    + apply tidy_open. unfold open_now. cbn. lia.
    + intros (N1 & N2 & _). cbn in *. apply T. split; [exact N1|]. split; [exact N2|].
      right. eexists. exact L.
Qed.

Lemma now_step : forall s a s', stp s a = Some s' -> (n_now s <= n_now s')%nat.
Proof.
  assert (C : forall s, n_now (closed s) = n_now s) by (intros s; unfold closed; destruct (open_now s); reflexivity).
  intros s a s' E. destruct a; cbn in E;
    repeat match type of E with
           | match ?x with _ => _ end = _ => destruct x eqn:?; try discriminate
           end; inversion E; rewrite ?C; cbn; try lia.
  destruct (sl_back (n_list s)); cbn; lia.
Qed.

Lemma gone_more : forall s acts b nd, gone pds keep s acts nd -> gone pds keep s (acts ++ b) nd.
Proof.
  intros s acts b nd (x & y & s' & -> & R & N). exists x, (y ++ b), s'. rewrite app_assoc. auto.
Qed.

(** Where a node stored at first is later. *)
Lemma track : forall acts s s' nd, good s -> tidy s -> In nd (n_list s) -> run s acts = Some s' ->
  (In nd (all s') /\ ~ gone pds keep s acts nd) \/ (~ In nd (all s') /\ gone pds keep s acts nd).
Proof.
  intros acts. induction acts as [|a acts IH] using rev_ind; intros s s' nd G T I R.
  - cbn in R. inversion R. subst s'. left. split; [apply in_or_app; auto|].
    intros (x & y & s1 & E & R1 & _ & N). destruct x; [|discriminate]. cbn in R1. inversion R1. subst. contradiction.
  - rewrite run_app in R. destruct (run s acts) as [s1|] eqn:R1; [|discriminate]. cbn in R.
    destruct (stp s1 a) as [s2|] eqn:St; [|discriminate]. inversion R. subst s2.
    assert (G1 := good_run _ _ _ G R1).
    assert (T1 : tidy s1) by (eapply (run_inv tidy tidy_step); eassumption).
    assert (T2 := tidy_step _ _ _ T1 St).
    assert (L1 : (nd_id nd < n_now s1)%nat).
    { apply (run_inv (fun x => (nd_id nd < n_now x)%nat)) with (acts := acts) (s := s); [|apply G, in_or_app; auto|exact R1].
      intros x b x' Hx Hs. apply now_step in Hs. lia. }
    assert (AND : run s (acts ++ [a]) = Some s') by (rewrite run_app, R1; cbn; rewrite St; reflexivity).
    destruct (IH s s1 nd G T I R1) as [[I1 N1]|[N1 Go]].
    + destruct (in_dec (fun x y : node => ltac:(decide equality; [apply Nat.eq_dec|apply Z.eq_dec])) nd (all s')) as [I2|I2].
      * left. split; [exact I2|]. intros (x & y & s3 & E & R3 & N3 & O3).
        destruct y as [|z y] using rev_ind.
        -- rewrite app_nil_r in E. subst x. rewrite AND in R3. inversion R3. subst s3.
           unfold all in I2. rewrite (T2 N3), app_nil_r in I2. contradiction.
        -- rewrite app_assoc in E. apply app_inj_tail in E. destruct E as [E _]. apply N1.
           exists x, y, s3. auto.
      * right. split; [exact I2|]. destruct (step_all _ _ _ nd G1 St I1) as [H|[H1 H2]]; [contradiction|].
        exists (acts ++ [a]), [], s'. rewrite app_nil_r. auto.
    + right. split; [eapply step_out; eassumption|]. apply gone_more. exact Go.
Qed.

Lemma back_newest : forall s, good s ->
  match sl_back (n_list s) with Some nd => newest s nd | None => n_list s = [] end.
Proof.
  intros s G. unfold sl_back. destruct (n_list s) as [|y l] eqn:E; [reflexivity|].
  destruct (last_largest nd_ts (y :: l) y) as [H1 H2]; [rewrite <- E; apply G|discriminate|].
  unfold newest. rewrite E. split; assumption.
Qed.

Lemma read_in : forall s nd, good s -> In nd (all s) -> read_node s (Some nd) = Newest (nd_ts nd).
Proof.
  intros s nd G I. cbn. fold (all s). destruct (find _ (all s)) as [y|] eqn:F.
  - apply find_some in F. destruct F as [F1 F2]. apply Nat.eqb_eq in F2.
    rewrite (g_uniq _ G y nd F1 I F2). reflexivity.
  - exfalso. apply (find_none _ _ F) in I. rewrite Nat.eqb_refl in I. discriminate.
Qed.

Lemma id_bound : forall acts s s' nd, good s -> In nd (n_list s) -> run s acts = Some s' ->
  forall y, In y (all s') -> nd_id y = nd_id nd -> y = nd.
Proof.
  intros acts s s' nd G I R.
  apply (run_inv (fun x => good x /\ (nd_id nd < n_now x)%nat /\ forall y, In y (all x) -> nd_id y = nd_id nd -> y = nd))
    with (acts := acts) (s := s); [| |exact R].
  - intros x a x' (Gx & L & U) St. split; [eapply good_step; eassumption|].
    split; [apply now_step in St; lia|]. intros y Hy E.
    destruct (in_dec (fun x y : node => ltac:(decide equality; [apply Nat.eq_dec|apply Z.eq_dec])) y (all x)) as [Iy|Iy]; [auto|].
    exfalso. apply (step_out x a x' y) ; try assumption. lia.
  - split; [exact G|]. split; [apply G, in_or_app; auto|]. intros y Hy E.
    apply (g_uniq _ G); [exact Hy|apply in_or_app; auto|exact E].
Qed.

Lemma read_out : forall acts s s' nd, good s -> In nd (n_list s) -> run s acts = Some s' -> ~ In nd (all s') ->
  read_node s' (Some nd) = Freed.
Proof.
  intros acts s s' nd G I R N. cbn. fold (all s'). destruct (find _ (all s')) as [y|] eqn:F; [|reflexivity].
  apply find_some in F. destruct F as [F1 F2]. apply Nat.eqb_eq in F2.
  rewrite (id_bound acts s s' nd G I R y F1 F2) in F1. contradiction.
Qed.

End P.
