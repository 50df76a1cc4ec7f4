From Coq Require Import ZArith List Bool Lia ZifyBool Sorting.Permutation Sorting.Sorted.
From Verif Require Import Base_model Tp_model Tp_spec.
Import ListNotations.
Open Scope Z_scope.

Section Lists.
Context {T : Type}.
Lemma since_reset_snoc (e : list (event T)) x :
  since_reset (e ++ [x]) = match x with EReset => [] | _ => since_reset e ++ [x] end.
Proof. unfold since_reset. now rewrite fold_left_app. Qed.
Lemma calls_snoc (l : list (action T)) a :
  calls_since_reset (l ++ [a]) = match a with AReset => [] | _ => calls_since_reset l ++ [a] end.
Proof. unfold calls_since_reset. now rewrite fold_left_app. Qed.
Lemma accepted_snoc (e : list (event T)) x : accepted (e ++ [x]) = accepted e ++ match x with EAdd t true => [t] | _ => [] end.
Proof. unfold accepted. rewrite flat_map_app. cbn. now rewrite app_nil_r. Qed.
Lemma pushed_snoc (e : list (event T)) x : pushed (e ++ [x]) = pushed e ++ match x with ETp t _ => [t] | _ => [] end.
Proof. unfold pushed. rewrite flat_map_app. cbn. now rewrite app_nil_r. Qed.
Lemma sets_snoc (e : list (event T)) x : sets (e ++ [x]) = sets e ++ match x with ESet t _ => [t] | _ => [] end.
Proof. unfold sets. rewrite flat_map_app. cbn. now rewrite app_nil_r. Qed.
Lemma clocks_snoc (l : list (action T)) a :
  clocks (l ++ [a]) = clocks l ++ match a with AAdd _ now => [now] | ATry now => [now] | _ => [] end.
Proof. unfold clocks. rewrite flat_map_app. cbn. now rewrite app_nil_r. Qed.
Lemma offered_snoc (l : list (action T)) a : offered (l ++ [a]) = offered l ++ match a with AAdd t _ => [t] | _ => [] end.
Proof. unfold offered. rewrite flat_map_app. cbn. now rewrite app_nil_r. Qed.

Lemma sorted_snoc {A} (R : A -> A -> Prop) l x : StronglySorted R (l ++ [x]) <-> StronglySorted R l /\ Forall (fun y => R y x) l.
Proof.
  induction l as [|y l IH]; cbn.
  - split; intros; repeat constructor.
  - split.
    + intros H. apply StronglySorted_inv in H as [H1 H2]. apply IH in H1 as [H1 H3].
      apply Forall_app in H2 as [H2 H4]. apply Forall_inv in H4. split; constructor; auto.
    + intros [H1 H2]. apply StronglySorted_inv in H1 as [H1 H3].
      pose proof (Forall_inv H2). apply Forall_inv_tail in H2.
      constructor; [apply IH; auto|]. apply Forall_app. split; auto.
Qed.
Lemma tps_unread_snoc (e : list (event T)) x :
  tps_unread (e ++ [x]) = match x with ETp _ true => tps_unread e + 1 | ETps _ | EReset => 0 | _ => tps_unread e end.
Proof. unfold tps_unread. now rewrite fold_left_app. Qed.
Lemma sets_unread_snoc (e : list (event T)) x :
  sets_unread (e ++ [x]) = match x with ESet _ true => sets_unread e + 1 | ESets _ | EReset => 0 | _ => sets_unread e end.
Proof. unfold sets_unread. now rewrite fold_left_app. Qed.
Lemma numbered_snoc (l : list (tpset T)) x : numbered l -> ts_seqno x = u64 (Z.of_nat (length l)) -> numbered (l ++ [x]).
Proof.
  intros H Hx i y Hy. destruct (Nat.lt_ge_cases i (length l)).
  - rewrite nth_error_app1 in Hy by assumption. now apply H.
  - rewrite nth_error_app2 in Hy by assumption. destruct (i - length l)%nat eqn:E; cbn in Hy.
    + injection Hy as <-. rewrite Hx. do 2 f_equal. lia.
    + now destruct n.
Qed.
End Lists.

Section Proofs.
Context {T heap : Type}.
Variable time_start : T -> Z.
Variable h_empty : heap.
Variable h_push : T -> heap -> heap.
Variable h_top : heap -> option T.
Variable h_pop : heap -> heap.
Variable elements : heap -> list T.
Hypothesis PQ : pq_ok time_start h_empty h_push h_top h_pop elements.
Variable timeout window : Z.

Notation step := (tp_step T time_start heap h_empty h_push h_top h_pop timeout window).
Notation run := (tp_run T time_start heap h_empty h_push h_top h_pop timeout window).
Notation new := (tp_new (T:=T) h_empty).

Lemma run_app l1 l2 s : run (l1 ++ l2) s =
  match run l1 s with
  | Next s1 e1 => match run l2 s1 with Next s2 e2 => Next s2 (e1 ++ e2) | r => r end
  | r => r
  end.
Proof.
  revert s. induction l1 as [|a l1 IH]; intros s; cbn.
  - now destruct (run l2 s).
  - destruct (step a s) as [s1 e1| |]; auto. rewrite IH. destruct (run l1 s1) as [s2 e2| |]; auto.
    destruct (run l2 s2); auto. now rewrite app_assoc.
Qed.

Lemma run_snoc l a s s2 e : run (l ++ [a]) s = Next s2 e ->
  exists s1 e1 e2, run l s = Next s1 e1 /\ step a s1 = Next s2 e2 /\ e = e1 ++ e2.
Proof.
  rewrite run_app. destruct (run l s) as [s1 e1| |]; try discriminate. cbn.
  destruct (step a s1) as [s3 e3| |] eqn:E; try discriminate. intros H. injection H as <- <-.
  exists s1, e1, e3. rewrite app_nil_r. auto.
Qed.

(** What each step does, in one place. *)
Inductive effect (s : tpst T heap) : action T -> tpst T heap -> list (event T) -> Prop :=
| ef_add t now : tp_open s = None -> now < u64 (time_start t + timeout) ->
    effect s (AAdd t now) (mk_tpst (h_push t (tp_buffer s)) (tp_seqno s) (tp_sent s) (tp_sets s) None) [EAdd t true]
| ef_rej t now : tp_open s = None -> u64 (time_start t + timeout) <= now -> effect s (AAdd t now) s [EAdd t false]
| ef_idle now : tp_open s = None -> effect s (ATry now) s []
| ef_open t now : tp_open s = None -> h_top (tp_buffer s) = Some t ->
    u64 (u64 (time_start t + window) + timeout) < now -> window <> 0 ->
    effect s (ATry now) (mk_tpst (tp_buffer s) (u64 (tp_seqno s + 1)) (tp_sent s) (tp_sets s)
                (Some (mk_tpset (u64 ((time_start t / window) * window)) (u64 (u64 ((time_start t / window) * window) + window)) (tp_seqno s) []))) []
| ef_send ok x t : tp_open s = Some x -> h_top (tp_buffer s) = Some t -> time_start t < ts_end x ->
    effect s (ASend ok) (mk_tpst (h_pop (tp_buffer s)) (tp_seqno s) (if ok then u64 (tp_sent s + 1) else tp_sent s) (tp_sets s)
              (Some (mk_tpset (ts_start x) (ts_end x) (ts_seqno x) (ts_objects x ++ [t])))) [ETp t ok]
| ef_finish ok x : tp_open s = Some x -> Forall (fun t => ts_end x <= time_start t) (elements (tp_buffer s)) ->
    effect s (AFinish ok) (mk_tpst (tp_buffer s) (tp_seqno s) (tp_sent s) (if ok then u64 (tp_sets s + 1) else tp_sets s) None) [ESet x ok]
| ef_tps : effect s AReadTps (mk_tpst (tp_buffer s) (tp_seqno s) 0 (tp_sets s) (tp_open s)) [ETps (tp_sent s)]
| ef_sets : effect s AReadSets (mk_tpst (tp_buffer s) (tp_seqno s) (tp_sent s) 0 (tp_open s)) [ESets (tp_sets s)]
| ef_reset : tp_open s = None -> effect s AReset new [EReset].

Lemma step_effect a s s' e : step a s = Next s' e -> effect s a s' e.
Proof.
  destruct a as [t now|now|ok|ok| | |]; cbn.
  - destruct (tp_open s) eqn:O; [discriminate|]. unfold add_tp. destruct (_ >? _) eqn:E; intros H; injection H as <- <-; constructor; auto; lia.
  - destruct (tp_open s) eqn:O; [discriminate|]. unfold begin_set. destruct (h_top _) as [t|] eqn:Ht.
    + destruct (_ <? now) eqn:E; [|intros H; injection H as <- <-; now constructor].
      destruct (window =? 0) eqn:W; [discriminate|]. intros H; injection H as <- <-. apply ef_open; auto; lia.
    + intros H; injection H as <- <-; now constructor.
  - unfold send_tp. destruct (tp_open s) as [x|] eqn:O; [|discriminate]. unfold more. destruct (h_top _) as [t|] eqn:Ht; [|discriminate].
    destruct (_ <? _) eqn:E; [|discriminate]. intros H; injection H as <- <-. apply ef_send; auto; lia.
  - unfold send_set. destruct (tp_open s) as [x|] eqn:O; [|discriminate]. unfold more. destruct (h_top _) as [t|] eqn:Ht.
    + destruct (_ <? _) eqn:E; [discriminate|]. intros H; injection H as <- <-. apply ef_finish; auto.
      pose proof (pq_top_min _ _ _ _ _ _ PQ _ _ Ht) as Hm. eapply Forall_impl; [|exact Hm]. cbn. lia.
    + intros H; injection H as <- <-. apply ef_finish; auto. apply (pq_top_none _ _ _ _ _ _ PQ) in Ht. now rewrite Ht.
  - intros H; injection H as <- <-; constructor.
  - intros H; injection H as <- <-; constructor.
  - destruct (tp_open s) eqn:O; [discriminate|]. intros H; injection H as <- <-. now constructor.
Qed.

(** Conservation and order: holds without any assumption on clock and times. *)
Definition sorted_set (x : tpset T) : Prop :=
  StronglySorted Z.le (map time_start (ts_objects x)) /\ Forall (fun t => time_start t < ts_end x) (ts_objects x).

Record inv1 (s : tpst T heap) (e : list (event T)) : Prop := mk_inv1 {
  i_perm : Permutation (accepted e) (elements (tp_buffer s) ++ pushed e);
  i_pushed : pushed e = concat (map ts_objects (sets e)) ++ opened (tp_open s);
  i_sets : Forall sorted_set (sets e);
  i_open : forall x, tp_open s = Some x -> sorted_set x /\
             Forall (fun t => Forall (fun u => time_start t <= time_start u) (elements (tp_buffer s))) (ts_objects x);
  i_num : numbered (sets e);
  i_seq : tp_seqno s = u64 (Z.of_nat (length (sets e)) + match tp_open s with Some _ => 1 | None => 0 end);
  i_oseq : forall x, tp_open s = Some x -> ts_seqno x = u64 (Z.of_nat (length (sets e)))
}.

Lemma inv1_new : inv1 new [].
Proof.
  constructor; cbn; auto; try discriminate.
  - now rewrite (pq_empty _ _ _ _ _ _ PQ).
  - intros i x H. now destruct i.
Qed.

Lemma u64_add_l a b : u64 (u64 a + b) = u64 (a + b).
Proof. unfold u64. apply Zplus_mod_idemp_l. Qed.

Lemma inv1_run l s e : run l new = Next s e -> inv1 s (since_reset e).
Proof.
  revert s e. induction l as [|a l IH] using rev_ind; intros s e H.
  - cbn in H. injection H as <- <-. apply inv1_new.
  - apply run_snoc in H as (s1 & e1 & e2 & H1 & H2 & ->). specialize (IH _ _ H1).
    apply step_effect in H2. destruct IH as [P Q S O N K L].
    destruct H2 as [t now O1 O2|t now O1 O2|now O1|t now O1 O2 O3 O4|ok x t O1 O2 O3|ok x O1 O2| | |O1];
      rewrite ?app_nil_r, ?since_reset_snoc.
    + constructor; rewrite ?accepted_snoc, ?pushed_snoc, ?sets_snoc, ?app_nil_r; cbn; auto; try discriminate.
      * rewrite Permutation_app_comm. cbn. rewrite (pq_push _ _ _ _ _ _ PQ). cbn. now apply perm_skip.
      * rewrite O1 in Q. cbn in Q. now rewrite app_nil_r in Q.
      * rewrite O1 in K. exact K.
    + constructor; rewrite ?accepted_snoc, ?pushed_snoc, ?sets_snoc, ?app_nil_r; cbn; auto.
    + constructor; auto.
    + rewrite O1 in Q, K. cbn in Q. rewrite app_nil_r in Q. constructor; cbn; auto.
      * now rewrite app_nil_r.
      * intros x Hx. injection Hx as <-. cbn. repeat constructor.
      * rewrite K, Z.add_0_r. apply u64_add_l.
      * intros x Hx. injection Hx as <-. cbn. rewrite K. f_equal. lia.
    + destruct (O _ O1) as [[Sx Ex] Ux]. rewrite O1 in Q, K. cbn in Q.
      pose proof (pq_pop _ _ _ _ _ _ PQ _ _ O2) as Hp. pose proof (pq_top_min _ _ _ _ _ _ PQ _ _ O2) as Hm.
      constructor; rewrite ?accepted_snoc, ?pushed_snoc, ?sets_snoc, ?app_nil_r; cbn; auto.
      * rewrite P, <- Hp. cbn. rewrite app_assoc. apply Permutation_cons_append.
      * rewrite Q, app_assoc. reflexivity.
      * intros y Hy. injection Hy as <-. unfold sorted_set. cbn.
        assert (Ht : In t (elements (tp_buffer s1))) by (rewrite <- Hp; now left).
        assert (Hsub : forall u, In u (elements (h_pop (tp_buffer s1))) -> In u (elements (tp_buffer s1)))
          by (intros u Hu; rewrite <- Hp; now right).
        repeat split.
        -- rewrite map_app. cbn. apply sorted_snoc. split; auto. apply Forall_map. rewrite Forall_forall in *.
           intros u Hu. specialize (Ux u Hu). rewrite Forall_forall in Ux. auto.
        -- apply Forall_app. split; auto.
        -- apply Forall_app. split; rewrite Forall_forall in *.
           ++ intros u Hu. specialize (Ux u Hu). rewrite Forall_forall in *. auto.
           ++ intros u [<-|[]]. rewrite Forall_forall. auto.
      * intros y Hy. injection Hy as <-. cbn. auto.
    + destruct (O _ O1) as [Sx Ux]. rewrite O1 in Q, K. cbn in Q. specialize (L _ O1).
      constructor; rewrite ?accepted_snoc, ?pushed_snoc, ?sets_snoc, ?app_nil_r; cbn; auto; try discriminate.
      * rewrite map_app, concat_app. cbn. now rewrite app_nil_r.
      * apply Forall_app. split; auto.
      * now apply numbered_snoc.
      * rewrite K, app_length. cbn. f_equal. lia.
    + constructor; rewrite ?accepted_snoc, ?pushed_snoc, ?sets_snoc, ?app_nil_r; cbn; auto.
    + constructor; rewrite ?accepted_snoc, ?pushed_snoc, ?sets_snoc, ?app_nil_r; cbn; auto.
    + apply inv1_new.
Qed.

Lemma inv_counts l s e : run l new = Next s e -> tp_sent s = u64 (tps_unread e) /\ tp_sets s = u64 (sets_unread e).
Proof.
  revert s e. induction l as [|a l IH] using rev_ind; intros s e H.
  - cbn in H. injection H as <- <-. auto.
  - apply run_snoc in H as (s1 & e1 & e2 & H1 & H2 & ->). specialize (IH _ _ H1) as [I1 I2].
    apply step_effect in H2.
    destruct H2; rewrite ?app_nil_r, ?tps_unread_snoc, ?sets_unread_snoc; cbn; try solve [auto].
    + destruct ok; rewrite I1; auto. split; auto. apply u64_add_l.
    + destruct ok; rewrite I2; auto. split; auto. apply u64_add_l.
Qed.

Lemma run_split l s e a x b : run l new = Next s e -> e = a ++ x :: b ->
  exists l1 act l2 s1 s2, l = l1 ++ act :: l2 /\ run l1 new = Next s1 a /\ step act s1 = Next s2 [x].
Proof.
  revert s e b. induction l as [|c l IH] using rev_ind; intros s e b H ->.
  - cbn in H. injection H as _ H. now destruct a.
  - apply run_snoc in H as (s1 & e1 & e2 & H1 & H2 & He).
    assert (Hl : (length e2 <= 1)%nat) by (apply step_effect in H2; destruct H2; cbn; lia).
    assert (Hnil : b = [] \/ b <> []) by (destruct b; [now left|right; discriminate]). destruct Hnil as [->|Hb]; cycle 1.
    + destruct (exists_last Hb) as (b' & y & ->).
      destruct e2 as [|z [|]]; cbn in Hl; try lia.
      * rewrite app_nil_r in He. rewrite <- He in H1. destruct (IH _ _ _ H1 eq_refl) as (l1 & act & l2 & s2 & s3 & -> & H3 & H4).
        exists l1, act, (l2 ++ [c]), s2, s3. rewrite <- app_assoc. auto.
      * rewrite app_comm_cons, app_assoc in He. apply app_inj_tail in He as [He _]. rewrite <- He in H1.
        destruct (IH _ _ _ H1 eq_refl) as (l1 & act & l2 & s2 & s3 & -> & H3 & H4).
        exists l1, act, (l2 ++ [c]), s2, s3. rewrite <- app_assoc. auto.
    + destruct e2 as [|z [|]]; cbn in Hl; try lia.
      * rewrite app_nil_r in He. rewrite <- He in H1. destruct (IH _ _ _ H1 eq_refl) as (l1 & act & l2 & s2 & s3 & -> & H3 & H4).
        exists l1, act, (l2 ++ [c]), s2, s3. rewrite <- app_assoc. auto.
      * apply app_inj_tail in He as [<- <-]. exists l, c, [], s1, s. auto.
Qed.

(** Windows, under an orderly clock. *)
Hypothesis Hw : 0 < window.
Hypothesis Ht : 0 < timeout.

Definition good_set (x : tpset T) : Prop :=
  ts_start x mod window = 0 /\ ts_end x = ts_start x + window /\ 0 <= ts_start x /\
  Forall (fun t => ts_start x <= time_start t) (ts_objects x).

Definition fits (t : T) : Prop := 0 <= time_start t /\ time_start t + window + timeout < two64.

Definition last_clock (l : list (action T)) : Z := last (clocks l) 0.

Record inv2 (s : tpst T heap) (e : list (event T)) (c : Z) : Prop := mk_inv2 {
  w_fits : Forall fits (elements (tp_buffer s));
  w_sets : Forall (fun x => good_set x /\ ts_objects x <> []) (sets e);
  w_past : Forall (fun x => ts_end x + timeout < c /\ Forall (fun t => ts_end x <= time_start t) (elements (tp_buffer s))) (sets e);
  w_pairs : ForallOrdPairs (fun x y => ts_end x <= ts_start y) (sets e);
  w_open : forall x, tp_open s = Some x -> good_set x /\ ts_end x + timeout < c /\
             Forall (fun t => ts_start x <= time_start t) (elements (tp_buffer s)) /\
             Forall (fun y => ts_end y <= ts_start x) (sets e) /\
             (ts_objects x <> [] \/ exists t, In t (elements (tp_buffer s)) /\ time_start t < ts_end x);
  w_late : forall a x ok b, e = a ++ ESet x ok :: b -> Forall (fun t => ts_end x <= time_start t) (accepted b)
}.

Lemma inv2_new c : inv2 new [] c.
Proof.
  constructor; cbn; auto; try discriminate.
  - now rewrite (pq_empty _ _ _ _ _ _ PQ).
  - constructor.
  - intros a x ok b H. now destruct a.
Qed.

Lemma pairs_snoc {A} (R : A -> A -> Prop) l x : ForallOrdPairs R l -> Forall (fun y => R y x) l -> ForallOrdPairs R (l ++ [x]).
Proof.
  induction 1 as [|y l H1 H2 IH]; cbn; intros H.
  - repeat constructor.
  - pose proof (Forall_inv H). apply Forall_inv_tail in H. constructor; auto. apply Forall_app. auto.
Qed.

Lemma late_snoc (e : list (event T)) y :
  (forall a x ok b, e = a ++ ESet x ok :: b -> Forall (fun t => ts_end x <= time_start t) (accepted b)) ->
  (forall t, y = EAdd t true -> Forall (fun x => ts_end x <= time_start t) (sets e)) ->
  forall a x ok b, e ++ [y] = a ++ ESet x ok :: b -> Forall (fun t => ts_end x <= time_start t) (accepted b).
Proof.
  intros H1 H2 a x ok b E.
  assert (Hnil : b = [] \/ b <> []) by (destruct b; [now left|right; discriminate]). destruct Hnil as [->|Hb].
  - cbn. constructor.
  - destruct (exists_last Hb) as (b' & z & ->). rewrite app_comm_cons, app_assoc in E. apply app_inj_tail in E as [E ->].
    rewrite accepted_snoc. apply Forall_app. split.
    + eapply H1. exact E.
    + destruct z; try constructor. destruct accepted; constructor; [|constructor].
      specialize (H2 _ eq_refl). rewrite E in H2. rewrite Forall_forall in H2. apply H2.
      unfold sets. rewrite flat_map_app. cbn. apply in_app_iff. right. now left.
Qed.

Lemma u64_small z : 0 <= z < two64 -> u64 z = z.
Proof. intros H. unfold u64. now apply Z.mod_small. Qed.

Lemma last_clock_le (l : list (action T)) n : StronglySorted Z.le (clocks l ++ [n]) -> clocks l <> [] -> last_clock l <= n.
Proof.
  intros H Hn. unfold last_clock. apply sorted_snoc in H as [_ H]. destruct (exists_last Hn) as (l' & y & E). rewrite E in *.
  rewrite last_last. apply Forall_app in H as [_ H]. now apply Forall_inv in H.
Qed.

Lemma floor_bounds a : 0 <= a -> 0 <= a / window * window /\ a / window * window <= a < a / window * window + window.
Proof. intros H. pose proof (Z.div_mod a window ltac:(lia)). pose proof (Z.mod_pos_bound a window Hw).
  pose proof (Z.div_pos a window H Hw). nia. Qed.

Lemma floor_ge f a : f mod window = 0 -> f <= a -> f <= a / window * window.
Proof.
  intros H H1. apply Z.mod_divide in H; [|lia]. destruct H as [k ->].
  apply Z.mul_le_mono_nonneg_r; [lia|]. apply Z.div_le_lower_bound; lia.
Qed.

Lemma inv2_run l s e : run l new = Next s e -> orderly time_start timeout window (calls_since_reset l) ->
  inv2 s (since_reset e) (last_clock (calls_since_reset l)) /\
  (clocks (calls_since_reset l) = [] -> sets (since_reset e) = [] /\ tp_open s = None).
Proof.
  revert s e. induction l as [|a l IH] using rev_ind; intros s e H [Hc Ho].
  - cbn in H. injection H as <- <-. split; auto. apply inv2_new.
  - apply run_snoc in H as (s1 & e1 & e2 & H1 & H2 & ->).
    pose proof (step_effect _ _ _ _ H2) as He. rewrite calls_snoc in *.
    destruct (match a with AReset => true | _ => false end) eqn:Er.
    { destruct a; try discriminate. inversion He; subst. rewrite since_reset_snoc. cbn. split; auto. apply inv2_new. }
    set (cl := calls_since_reset l) in *.
    assert (Hc' : StronglySorted Z.le (clocks (cl ++ [a]))) by now destruct a.
    assert (Ho' : Forall fits (offered (cl ++ [a]))) by now destruct a.
    replace (match a with AReset => [] | _ => cl ++ [a] end) with (cl ++ [a]) by now destruct a.
    clear Hc Ho.
    assert (Hord : orderly time_start timeout window cl).
    { split.
      - rewrite clocks_snoc in Hc'. destruct a; rewrite ?app_nil_r in Hc'; auto; now apply sorted_snoc in Hc' as [? _].
      - rewrite offered_snoc in Ho'. now apply Forall_app in Ho' as [? _]. }
    specialize (IH _ _ H1 Hord) as [I0 Inone]. pose proof (inv1_run _ _ _ H1) as J. destruct I0 as [F S P Q O L].
    assert (Hlast : forall n, match a with AAdd _ k => k = n | ATry k => k = n | _ => False end ->
              last_clock (cl ++ [a]) = n /\ clocks (cl ++ [a]) <> [] /\ (clocks cl <> [] -> last_clock cl <= n)).
    { intros n Hn. unfold last_clock at 1. rewrite clocks_snoc in *. destruct a; try contradiction; subst.
      - rewrite last_last. split; [auto|split; [now destruct (clocks cl)|now apply last_clock_le]].
      - rewrite last_last. split; [auto|split; [now destruct (clocks cl)|now apply last_clock_le]]. }
    assert (Hsame : match a with AAdd _ _ => False | ATry _ => False | _ => True end ->
              last_clock (cl ++ [a]) = last_clock cl /\ clocks (cl ++ [a]) = clocks cl).
    { intros Hn. unfold last_clock. rewrite clocks_snoc. destruct a; try contradiction; now rewrite app_nil_r. }
    assert (Hpast : forall n, (clocks cl <> [] -> last_clock cl <= n) ->
              Forall (fun x => ts_end x + timeout < n /\ Forall (fun t => ts_end x <= time_start t) (elements (tp_buffer s1))) (sets (since_reset e1))).
    { intros n Hn. assert (Hnil : clocks cl = [] \/ clocks cl <> []) by (destruct (clocks cl); [now left|right; discriminate]).
      destruct Hnil as [E|E].
      - destruct (Inone E) as [-> _]. constructor.
      - specialize (Hn E). eapply Forall_impl; [|exact P]. cbn. intros x [Hx Hy]. split; auto. lia. }
    destruct He as [t now O1 O2|t now O1 O2|now O1|t now O1 O2 O3 O4|ok x t O1 O2 O3|ok x O1 O2| | |O1];
      rewrite ?app_nil_r, ?since_reset_snoc.
    + destruct (Hlast now eq_refl) as (-> & Hne & Hle). split; [|tauto]. specialize (Hpast _ Hle).
      rewrite offered_snoc in Ho'. apply Forall_app in Ho' as [_ Hf]. apply Forall_inv in Hf. destruct Hf as [Hf1 Hf2].
      rewrite u64_small in O2 by lia.
      constructor; rewrite ?accepted_snoc, ?sets_snoc, ?app_nil_r; cbn; auto; try discriminate.
      * rewrite (pq_push _ _ _ _ _ _ PQ). constructor; [split; lia|auto].
      * rewrite Forall_forall in *. intros x Hx. destruct (Hpast x Hx) as [Ha Hb]. split; auto.
        rewrite (pq_push _ _ _ _ _ _ PQ). constructor; [lia|auto].
      * apply late_snoc; auto. intros u Hu. injection Hu as <-. rewrite Forall_forall in *. intros x Hx.
        destruct (Hpast x Hx) as [Ha _]. lia.
    + destruct (Hlast now eq_refl) as (-> & Hne & Hle). split; [|tauto]. specialize (Hpast _ Hle).
      constructor; rewrite ?accepted_snoc, ?sets_snoc, ?app_nil_r; cbn; auto.
      * rewrite O1. discriminate.
      * apply late_snoc; auto. discriminate.
    + destruct (Hlast now eq_refl) as (-> & Hne & Hle). split; [|tauto]. specialize (Hpast _ Hle).
      constructor; auto. rewrite O1. discriminate.
    + destruct (Hlast now eq_refl) as (-> & Hne & Hle). split; [|tauto]. specialize (Hpast _ Hle).
      assert (Hin : In t (elements (tp_buffer s1))) by (rewrite <- (pq_pop _ _ _ _ _ _ PQ _ _ O2); now left).
      pose proof (pq_top_min _ _ _ _ _ _ PQ _ _ O2) as Hm.
      assert (Hft : fits t) by (rewrite Forall_forall in F; auto). destruct Hft as [Hf1 Hf2].
      pose proof (floor_bounds _ Hf1) as [Hb1 Hb2].
      rewrite (u64_small (time_start t + window)) in O3 by lia. rewrite u64_small in O3 by lia.
      rewrite (u64_small (time_start t / window * window)) in * by lia.
      rewrite (u64_small (time_start t / window * window + window)) in * by lia.
      constructor; cbn; auto.
      intros x Hx. injection Hx as <-. cbn. unfold good_set. cbn. repeat split; auto; try lia.
      * apply Z.mod_mul. lia.
      * eapply Forall_impl; [|exact Hm]. cbn. lia.
      * rewrite Forall_forall in *. intros y Hy. destruct (S y Hy) as [[G1 [G2 _]] _]. rewrite G2.
        apply floor_ge.
        -- rewrite Zplus_mod, G1, Z_mod_same_full. reflexivity.
        -- rewrite <- G2. destruct (Hpast y Hy) as [_ Hp]. rewrite Forall_forall in Hp. auto.
      * right. exists t. split; auto. lia.
    + destruct (Hsame I) as [-> ->]. pose proof (pq_pop _ _ _ _ _ _ PQ _ _ O2) as Hp.
      destruct (O _ O1) as ([G1 [G2 [G3 G4]]] & Oc & Ob & Os & On).
      assert (Hin : In t (elements (tp_buffer s1))) by (rewrite <- Hp; now left).
      assert (Hsub : forall u, In u (elements (h_pop (tp_buffer s1))) -> In u (elements (tp_buffer s1)))
          by (intros u Hu; rewrite <- Hp; now right).
      split.
      2:{ intros E. destruct (Inone E) as [_ E']. rewrite E' in O1. discriminate. }
      constructor; rewrite ?accepted_snoc, ?sets_snoc, ?app_nil_r; cbn; auto.
      * rewrite Forall_forall in *. auto.
      * rewrite Forall_forall in *. intros y Hy. destruct (P y Hy) as [Ha Hb]. split; auto.
        rewrite Forall_forall in *. auto.
      * intros y Hy. injection Hy as <-. unfold good_set. cbn. repeat split; auto.
        -- apply Forall_app. split; auto. constructor; [|constructor]. rewrite Forall_forall in Ob. auto.
        -- rewrite Forall_forall in *. auto.
        -- left. now destruct (ts_objects x).
      * apply late_snoc; auto. discriminate.
    + destruct (Hsame I) as [-> ->].
      destruct (O _ O1) as (G & Oc & Ob & Os & On).
      split.
      2:{ intros E. destruct (Inone E) as [_ E']. rewrite E' in O1. discriminate. }
      constructor; rewrite ?accepted_snoc, ?sets_snoc, ?app_nil_r; cbn; auto; try discriminate.
      * apply Forall_app. split; auto. constructor; [|constructor]. split; auto. destruct On as [On|(t & Hin & Hlt)]; auto.
        rewrite Forall_forall in O2. specialize (O2 t Hin). lia.
      * apply Forall_app. split; auto.
      * now apply pairs_snoc.
      * apply late_snoc; auto. discriminate.
    + destruct (Hsame I) as [-> ->]. split; [|rewrite sets_snoc, app_nil_r; auto].
      constructor; rewrite ?accepted_snoc, ?sets_snoc, ?app_nil_r; cbn; auto. apply late_snoc; auto. discriminate.
    + destruct (Hsame I) as [-> ->]. split; [|rewrite sets_snoc, app_nil_r; auto].
      constructor; rewrite ?accepted_snoc, ?sets_snoc, ?app_nil_r; cbn; auto. apply late_snoc; auto. discriminate.
    + discriminate.
Qed.

Lemma filter_none {A} (p : A -> bool) l : Forall (fun a => p a = false) l -> filter p l = [].
Proof. induction 1 as [|a l H1 H2 IH]; cbn; auto. now rewrite H1. Qed.
Lemma filter_all {A} (p : A -> bool) l : Forall (fun a => p a = true) l -> filter p l = l.
Proof. induction 1 as [|a l H1 H2 IH]; cbn; auto. rewrite H1. now f_equal. Qed.
Lemma filter_perm {A} (p : A -> bool) l l' : Permutation l l' -> Permutation (filter p l) (filter p l').
Proof.
  induction 1; cbn; auto.
  - destruct (p x); auto.
  - destruct (p x), (p y); auto. constructor.
  - etransitivity; eauto.
Qed.
Lemma filter_concat_none {A} (p : A -> bool) l : Forall (fun k => filter p k = []) l -> filter p (concat l) = [].
Proof. induction 1 as [|a l H1 H2 IH]; cbn; auto. rewrite filter_app, H1. auto. Qed.
Lemma pairs_split {A} (R : A -> A -> Prop) a x b : ForallOrdPairs R (a ++ x :: b) -> Forall (fun y => R y x) a /\ Forall (R x) b.
Proof.
  induction a as [|y a IH]; cbn; intros H; inversion H; subst.
  - auto.
  - destruct (IH H3). split; auto. constructor; auto. rewrite Forall_app in H2. now apply (Forall_inv (proj2 H2)).
Qed.

Lemma complete_set l s e x : run l new = Next s e -> orderly time_start timeout window (calls_since_reset l) ->
  In x (sets (since_reset e)) -> Permutation (filter (in_window time_start x) (accepted (since_reset e))) (ts_objects x).
Proof.
  intros H Ho Hx. pose proof (inv1_run _ _ _ H) as J. destruct (inv2_run _ _ _ H Ho) as [I _].
  destruct I as [F S P Q O L]. destruct J as [J1 J2 J3 J4 _ _ _].
  rewrite (filter_perm _ _ _ J1), J2, !filter_app.
  apply in_split in Hx as (a & b & E). rewrite E in *.
  apply pairs_split in Q as [Qa Qb].
  rewrite map_app, concat_app, filter_app. cbn [map concat]. rewrite filter_app.
  apply Forall_app in S as [Sa Sb]. pose proof (Forall_inv Sb) as Sx. apply Forall_inv_tail in Sb.
  apply Forall_app in P as [Pa Pb]. pose proof (Forall_inv Pb) as Px.
  apply Forall_app in J3 as [Ja Jb]. pose proof (Forall_inv Jb) as Jx. apply Forall_inv_tail in Jb.
  destruct Sx as [[X1 [X2 [X3 X4]]] _]. destruct Px as [_ Px]. destruct Jx as [_ Jx].
  rewrite (filter_none _ (elements _)).
  2:{ eapply Forall_impl; [|exact Px]. cbn. intros t Htt. unfold in_window. lia. }
  rewrite (filter_none _ (opened _)).
  2:{ destruct (tp_open s) as [y|] eqn:Oy; cbn; [|constructor].
      destruct (O _ eq_refl) as ([_ [_ [_ Y4]]] & _ & _ & Y5 & _).
      apply Forall_app in Y5 as [_ Y5]. apply Forall_inv in Y5.
      eapply Forall_impl; [|exact Y4]. cbn. intros t Htt. unfold in_window. lia. }
  rewrite (filter_all _ (ts_objects x)).
  2:{ rewrite Forall_forall in *. intros t Htt. specialize (X4 t Htt). specialize (Jx t Htt). unfold in_window. lia. }
  rewrite (filter_concat_none _ (map ts_objects a)), (filter_concat_none _ (map ts_objects b)).
  - cbn. now rewrite !app_nil_r.
  - apply Forall_map. rewrite Forall_forall in *. intros y Hy. apply filter_none. destruct (Sb y Hy) as [[_ [_ [_ Y4]]] _].
    specialize (Qb y Hy). eapply Forall_impl; [|exact Y4]. cbn. intros t Htt. unfold in_window. lia.
  - apply Forall_map. rewrite Forall_forall in *. intros y Hy. apply filter_none. destruct (Ja y Hy) as [_ Y4].
    specialize (Qa y Hy). eapply Forall_impl; [|exact Y4]. cbn. intros t Htt. unfold in_window. lia.
Qed.

Lemma c26_windows l s e : run l new = Next s e -> orderly time_start timeout window (calls_since_reset l) ->
  ForallOrdPairs (fun x y => ts_end x <= ts_start y) (sets (since_reset e)) /\
  forall x, In x (sets (since_reset e)) ->
    ts_start x mod window = 0 /\ ts_end x = ts_start x + window /\ ts_objects x <> [] /\
    Permutation (ts_objects x) (filter (in_window time_start x) (accepted (since_reset e))).
Proof.
  intros H Ho. destruct (inv2_run _ _ _ H Ho) as [I _]. split; [apply I|].
  intros x Hx. pose proof (w_sets _ _ _ I) as S. rewrite Forall_forall in S. destruct (S x Hx) as [[A [B _]] C].
  repeat split; auto. symmetry. eapply complete_set; eauto.
Qed.

Lemma c26_late l s e a x ok b : run l new = Next s e -> orderly time_start timeout window (calls_since_reset l) ->
  since_reset e = a ++ ESet x ok :: b -> Forall (fun t => ts_end x <= time_start t) (accepted b).
Proof. intros H Ho. destruct (inv2_run _ _ _ H Ho) as [I _]. apply I. Qed.

Lemma c26_due l s e now : run l new = Next s e -> orderly time_start timeout window (calls_since_reset l) ->
  tp_open s = None ->
  exists s', step (ATry now) s = Next s' [] /\
    (tp_open s' <> None <-> exists t, In t (elements (tp_buffer s)) /\ time_start t + window + timeout < now).
Proof.
  intros H Ho O1. destruct (inv2_run _ _ _ H Ho) as [I _]. cbn. rewrite O1. unfold begin_set.
  destruct (h_top (tp_buffer s)) as [t|] eqn:E.
  - assert (Hin : In t (elements (tp_buffer s))) by (rewrite <- (pq_pop _ _ _ _ _ _ PQ _ _ E); now left).
    pose proof (w_fits _ _ _ I) as F. rewrite Forall_forall in F. destruct (F t Hin) as [F1 F2].
    pose proof (pq_top_min _ _ _ _ _ _ PQ _ _ E) as Hm. rewrite Forall_forall in Hm.
    rewrite (u64_small (time_start t + window)), u64_small by lia.
    destruct (_ <? now) eqn:C.
    + destruct (window =? 0) eqn:W; [lia|]. eexists. split; [reflexivity|]. cbn. split; [|discriminate].
      intros _. exists t. split; auto. lia.
    + eexists. split; [reflexivity|]. rewrite O1. split; [tauto|]. intros (u & Hu & Hlt). specialize (Hm u Hu). lia.
  - eexists. split; [reflexivity|]. rewrite O1. apply (pq_top_none _ _ _ _ _ _ PQ) in E. rewrite E. split; [tauto|]. now intros (u & [] & _).
Qed.
End Proofs.

Section More.
Context {T heap : Type}.
Variable time_start : T -> Z.
Variable h_empty : heap.
Variable h_push : T -> heap -> heap.
Variable h_top : heap -> option T.
Variable h_pop : heap -> heap.
Variable elements : heap -> list T.
Hypothesis PQ : pq_ok time_start h_empty h_push h_top h_pop elements.
Variable timeout window : Z.
Notation step := (tp_step T time_start heap h_empty h_push h_top h_pop timeout window).
Notation run := (tp_run T time_start heap h_empty h_push h_top h_pop timeout window).
Notation new := (tp_new (T:=T) h_empty).

Lemma c25 l s e : run l new = Next s e ->
  Permutation (accepted (since_reset e)) (elements (tp_buffer s) ++ pushed (since_reset e)) /\
  pushed (since_reset e) = concat (map ts_objects (sets (since_reset e))) ++ opened (tp_open s) /\
  Forall (fun x => StronglySorted Z.le (map time_start (ts_objects x)) /\ Forall (fun t => time_start t < ts_end x) (ts_objects x))
    (sets (since_reset e)).
Proof. intros H. pose proof (inv1_run _ _ _ _ _ _ PQ _ _ _ _ _ H) as I. repeat split; apply I. Qed.

Lemma c25_fault l : run l new = Fault -> window = 0.
Proof.
  induction l as [|a l IH] using rev_ind; [discriminate|].
  rewrite run_app. destruct (run l new) as [s1 e1| |]; [|discriminate|auto]. cbn.
  destruct a as [t now|now|ok|ok| | |]; cbn.
  - destruct (tp_open s1); [discriminate|]. unfold add_tp. now destruct (_ >? _).
  - destruct (tp_open s1); [discriminate|]. unfold begin_set. destruct (h_top _); [|discriminate].
    destruct (_ <? _); [|discriminate]. destruct (window =? 0) eqn:E; [lia|discriminate].
  - unfold send_tp. destruct (tp_open s1) as [x|]; [|discriminate]. now destruct (more _ _ _ _ _ _).
  - unfold send_set. destruct (tp_open s1) as [x|]; [|discriminate]. now destruct (more _ _ _ _ _ _).
  - discriminate.
  - discriminate.
  - now destruct (tp_open s1).
Qed.

Lemma sends (oks : nat -> bool) (ok : bool) n : forall (s : tpst T heap) k, length (elements (tp_buffer s)) = n -> tp_open s <> None ->
  exists m s' e', run (map (fun i => ASend (oks i)) (seq k m) ++ [AFinish ok]) s = Next s' e' /\ tp_open s' = None.
Proof.
  induction n as [|n IH]; intros s k Hn Ho.
  - destruct (tp_open s) as [x|] eqn:O; [|tauto]. exists 0%nat. cbn. unfold send_set, more. rewrite O.
    assert (Hh : h_top (tp_buffer s) = None) by (apply (pq_top_none _ _ _ _ _ _ PQ); now apply length_zero_iff_nil).
    rewrite Hh. eexists. eexists. split; reflexivity.
  - destruct (tp_open s) as [x|] eqn:O; [|tauto].
    destruct (h_top (tp_buffer s)) as [t|] eqn:Hh.
    2:{ apply (pq_top_none _ _ _ _ _ _ PQ) in Hh. rewrite Hh in Hn. discriminate. }
    destruct (time_start t <? ts_end x) eqn:C.
    + set (s1 := mk_tpst (h_pop (tp_buffer s)) (tp_seqno s) (if oks k then u64 (tp_sent s + 1) else tp_sent s) (tp_sets s)
              (Some (mk_tpset (ts_start x) (ts_end x) (ts_seqno x) (ts_objects x ++ [t])))).
      assert (Hs : step (ASend (oks k)) s = Next s1 [ETp t (oks k)]).
      { cbn. unfold send_tp, more. now rewrite O, Hh, C. }
      destruct (IH s1 (S k)) as (m & s' & e' & R & O').
      * cbn. pose proof (pq_pop _ _ _ _ _ _ PQ _ _ Hh) as Hp. apply Permutation_length in Hp. cbn in Hp. lia.
      * discriminate.
      * exists (S m), s', (ETp t (oks k) :: e'). cbn [seq map app]. cbn [tp_run]. rewrite Hs, R. auto.
    + exists 0%nat. cbn. unfold send_set, more. rewrite O, Hh, C. eexists. eexists. split; reflexivity.
Qed.

Lemma c26_completes (s : tpst T heap) (oks : nat -> bool) (ok : bool) : tp_open s <> None ->
  exists n s' e', run (map (fun i => ASend (oks i)) (seq 0 n) ++ [AFinish ok]) s = Next s' e' /\ tp_open s' = None.
Proof. intros Ho. now apply (sends oks ok _ s 0%nat eq_refl). Qed.

Lemma c27 (s : tpst T heap) t now : tp_open s = None ->
  exists s' b, step (AAdd t now) s = Next s' [EAdd t b] /\
    (b = true <-> (time_start t + timeout) mod two64 > now) /\
    (b = true -> Permutation (elements (tp_buffer s')) (t :: elements (tp_buffer s))) /\ (b = false -> s' = s).
Proof.
  intros O. cbn. rewrite O. unfold add_tp, u64. destruct (_ >? now) eqn:E.
  - eexists. exists true. split; [reflexivity|]. cbn. split; [split; auto; lia|]. split; [|discriminate]. intros _. apply PQ.
  - exists s, false. split; auto. split; [split; [discriminate|lia]|]. split; [discriminate|auto].
Qed.

Lemma c27_rule (s : tpst T heap) t now : tp_open s = None -> 0 <= time_start t < two64 -> 0 <= timeout < two64 ->
  (time_start t + timeout < two64 -> exists s', step (AAdd t now) s = Next s' [EAdd t (now - time_start t <? timeout)]) /\
  (two64 <= time_start t + timeout -> time_start t <= now -> step (AAdd t now) s = Next s [EAdd t false]).
Proof.
  intros O H1 H2. destruct (c27 s t now O) as (s' & b & H3 & H4 & _ & H5). split.
  - intros H6. rewrite Z.mod_small in H4 by lia. exists s'. rewrite H3. do 2 f_equal. f_equal.
    destruct b.
    + assert (time_start t + timeout > now) by now apply H4. symmetry. apply Z.ltb_lt. lia.
    + symmetry. apply Z.ltb_ge. destruct (Z.le_gt_cases timeout (now - time_start t)) as [C|C]; [lia|].
      assert (false = true) by (apply H4; lia). discriminate.
  - intros H6 H7. assert (Hb : b = false).
    { destruct b; auto. assert (H8 : (time_start t + timeout) mod two64 > now) by now apply H4.
      replace (time_start t + timeout) with ((time_start t + timeout - two64) + 1 * two64) in H8 by ring.
      rewrite Z_mod_plus_full, Z.mod_small in H8 by lia. lia. }
    rewrite H3, Hb, (H5 Hb). reflexivity.
Qed.

Lemma c28 l s e : run l new = Next s e ->
  (forall a n b, e = a ++ ETps n :: b -> n = u64 (tps_unread a)) /\
  (forall a n b, e = a ++ ESets n :: b -> n = u64 (sets_unread a)).
Proof.
  intros H. split; intros a n b E.
  - destruct (run_split _ _ _ _ _ _ PQ _ _ _ _ _ _ _ _ H E) as (l1 & act & l2 & s1 & s2 & _ & H1 & H2).
    apply (step_effect _ _ _ _ _ _ PQ) in H2. inversion H2; subst. now apply (inv_counts _ _ _ _ _ _ PQ) in H1.
  - destruct (run_split _ _ _ _ _ _ PQ _ _ _ _ _ _ _ _ H E) as (l1 & act & l2 & s1 & s2 & _ & H1 & H2).
    apply (step_effect _ _ _ _ _ _ PQ) in H2. inversion H2; subst. now apply (inv_counts _ _ _ _ _ _ PQ) in H1.
Qed.

Lemma c28_seqno l s e : run l new = Next s e -> numbered (sets (since_reset e)).
Proof. intros H. pose proof (inv1_run _ _ _ _ _ _ PQ _ _ _ _ _ H) as I. apply I. Qed.

Lemma c28_reset l s e : run l new = Next s e -> tp_open s = None ->
  exists s', step AReset s = Next s' [EReset] /\ elements (tp_buffer s') = [].
Proof. intros _ O. cbn. rewrite O. eexists. split; [reflexivity|]. cbn. apply PQ. Qed.
End More.
