(** From times to numbers of elements (C77). *)
From Coq Require Import ZArith List Bool Lia Sorted.
From Verif Require Import Base_model Rate_model Rate_spec Rate_props Emu_model Emu_spec Chain_model Chain_spec Chain_proofs Chain_proofs2 Chain_proofs3 Sustain_spec Sustain_proofs2 Pace_spec.
Import ListNotations.
Open Scope Z_scope.

Lemma producer_run_app P s h1 h2 s2 : producer_run P s (h1 ++ h2) s2 -> exists s1, producer_run P s h1 s1 /\ producer_run P s1 h2 s2.
Proof.
  revert s. induction h1 as [|e h1 IH]; intros s H; cbn [app] in H; [exists s; split; [constructor|exact H]|].
  inversion H; subst. destruct (IH _ H5) as (s3 & A & B). exists s3. split; [econstructor; eauto|exact B].
Qed.

Definition call_of (e : timed) : list rl_event := match e with Limited rs t => [Call rs t] | _ => [] end.
Definition calls_of (h : list timed) : list rl_event := flat_map call_of h.
Fixpoint made (h : list timed) : nat := match h with [] => 0 | At _ (XProduce _) :: h' => S (made h') | _ :: h' => made h' end.

Lemma calls_of_calls h : calls (calls_of h).
Proof. unfold calls. apply Forall_forall. intros e H. unfold calls_of in H. apply in_flat_map in H as (x & _ & H). destruct x; cbn in H; [contradiction|]. destruct H as [<-|[]]. exact I. Qed.

Lemma rl_run_app s l1 l2 : rl_run s (l1 ++ l2) = match rl_run s l1 with Some s' => rl_run s' l2 | None => None end.
Proof. revert s. induction l1 as [|e l1 IH]; intros s; cbn; [reflexivity|]. destruct (rl_step s e); auto. Qed.

Lemma sorted_weaken l x y : Sorted Z.le (l ++ [x]) -> x <= y -> Sorted Z.le (l ++ [y]).
Proof.
  induction l as [|a l IH]; cbn; intros S H; [constructor; auto|]. inversion S; subst. constructor; [auto|]. destruct l; cbn in *; constructor; inversion H3; lia.
Qed.

Lemma sorted_glue l x r : Sorted Z.le (l ++ [x]) -> Sorted Z.le (x :: r) -> Sorted Z.le (l ++ r).
Proof.
  intros A B. apply Sorted_StronglySorted in A; [|intros ? ? ?; lia]. apply Sorted_StronglySorted in B; [|intros ? ? ?; lia]. apply StronglySorted_Sorted.
  induction l as [|a l IH]; cbn in *; [inversion B; auto|]. inversion A; subst. constructor; [auto|]. rewrite Forall_forall in *. intros z Hz. apply in_app_or in Hz as [Hz|Hz].
  - apply H2. apply in_or_app; auto.
  - assert (a <= x) by (apply H2; apply in_or_app; right; left; auto). inversion B; subst. rewrite Forall_forall in H5. specialize (H5 z Hz). lia.
Qed.

Definition p_at (P : Z) (s : producer) (t0 : Z) (l : list rl_event) : Prop :=
  0 <= t0 /\ calls l /\ rl_run (rl_init P t0) l = Some (pr_limiter s) /\ Sorted Z.le (t0 :: concat (map event_times l) ++ [pr_last s]) /\
    Forall (fun t => t < 2 ^ 62) (t0 :: concat (map event_times l)).

Lemma sorted_last x l y : Sorted Z.le (x :: l ++ [y]) -> x <= y.
Proof.
  intros A. apply Sorted_StronglySorted in A; [|intros ? ? ?; lia]. inversion A; subst. rewrite Forall_forall in H2. apply H2. apply in_or_app. right. left. auto.
Qed.

Lemma sorted_dup l t : Sorted Z.le (l ++ [t]) -> Sorted Z.le ((l ++ [t]) ++ [t]).
Proof.
  induction l as [|a l IH]; cbn; intros S; [repeat constructor; lia|]. inversion S; subst. constructor; [auto|]. destruct l; cbn in *; constructor; inversion H2; lia.
Qed.

Lemma p_at_step P s t0 l e s' : p_at P s t0 l -> produces P s e s' -> when e < 2 ^ 62 -> ~ is_restart e -> p_at P s' t0 (l ++ call_of e).
Proof.
  intros (A1 & A2 & A3 & A4 & A5) H W N. inversion H; subst; cbn [when is_restart call_of] in *; try rewrite app_nil_r.
  - contradiction N; exact I.
  - split; [exact A1|]. split; [exact A2|]. split; [exact A3|]. split; [|exact A5]. cbn [pr_last]. change (t0 :: concat (map event_times l) ++ [t]) with ((t0 :: concat (map event_times l)) ++ [t]).
    apply (sorted_weaken _ (pr_last s)); [exact A4|lia].
  - unfold p_at. cbn [pr_last pr_limiter]. split; [exact A1|]. split; [apply Forall_app; split; [exact A2|repeat constructor]|].
    split; [rewrite rl_run_app, A3; cbn; rewrite H2; reflexivity|].
    rewrite map_app, concat_app. cbn [map concat event_times]. rewrite app_nil_r.
    assert (S1 : Sorted Z.le ((t0 :: concat (map event_times l)) ++ (rs ++ [t]))) by (apply (sorted_glue _ (pr_last s)); [exact A4|exact H1]).
    split.
    + rewrite app_assoc in S1. apply sorted_dup in S1. rewrite <- app_assoc in S1 |- *. rewrite <- !app_assoc in *. exact S1.
    + change (Forall (fun x => x < 2 ^ 62) ((t0 :: concat (map event_times l)) ++ (rs ++ [t]))). apply Forall_app. split; [exact A5|].
      apply Sorted_StronglySorted in S1; [|intros ? ? ?; lia]. rewrite app_assoc in S1. apply Forall_app. split; [|constructor; [exact W|constructor]].
      apply Forall_forall. intros x Hx. enough (x <= t) by lia. clear - S1 Hx.
      assert (Hx' : In x ((t0 :: concat (map event_times l)) ++ rs)) by (apply in_or_app; auto). revert S1 Hx'. generalize ((t0 :: concat (map event_times l)) ++ rs). clear.
      induction l as [|a l IH]; cbn; intros S Hx; [contradiction|]. inversion S; subst. destruct Hx as [->|Hx]; [|auto]. rewrite Forall_forall in H2. apply H2. apply in_or_app. right. left. auto.
  - split; [exact A1|]. split; [exact A2|]. split; [exact A3|]. split; [exact A4|exact A5].
Qed.

Lemma p_at_run P s h s' t0 l : producer_run P s h s' -> p_at P s t0 l -> Forall (fun e => when e < 2 ^ 62) h -> Forall (fun e => ~ is_restart e) h ->
  p_at P s' t0 (l ++ calls_of h).
Proof.
  intros R. revert l. induction R as [s|s e s1 h s2 R1 R2 IH]; intros l A W N; cbn [calls_of flat_map].
  - rewrite app_nil_r. exact A.
  - inversion W; inversion N; subst. rewrite app_assoc. apply IH; auto. apply (p_at_step P s t0 l e s1); auto.
Qed.

Lemma p_ok_run P s h s' : producer_run P s h s' -> (exists t0 l, p_at P s t0 l) -> Forall (fun e => when e < 2 ^ 62) h -> exists t0 l, p_at P s' t0 l.
Proof.
  intros R. induction R as [s|s e s1 h s2 R1 R2 IH]; intros A W; [exact A|]. inversion W; subst. apply IH; auto. destruct A as (t0 & l & A).
  assert (is_restart e \/ ~ is_restart e) as [Y|N] by (destruct e as [t []|]; cbn; auto).
  - destruct e as [t o|rs t]; cbn in Y; [|contradiction]. destruct o; try contradiction. inversion R1; subst; [|congruence]. exists t, [].
    destruct A as (A1 & _ & _ & A4 & _). apply sorted_last in A4. cbn [when] in *.
    split; [lia|]. split; [constructor|]. split; [reflexivity|]. split; [cbn; repeat constructor; lia|]. repeat constructor; assumption.
  - exists t0, (l ++ call_of e). eapply p_at_step; eauto.
Qed.

Lemma made_calls P s h s' : producer_run P s h s' -> Forall (fun e => ~ is_restart e) h ->
  (made h + (if pr_owes_call s then 1 else 0) = List.length (calls_of h) + (if pr_owes_call s' then 1 else 0))%nat.
Proof.
  intros R. induction R as [s|s e s1 h s2 R1 R2 IH]; intros N; [reflexivity|]. inversion N; subst. specialize (IH H2). inversion R1; subst; cbn [made calls_of flat_map call_of app pr_owes_call List.length] in *.
  - contradiction H1; exact I.
  - rewrite H. fold (calls_of h). lia.
  - rewrite H. fold (calls_of h). lia.
  - fold (calls_of h). destruct o; try exact IH. exfalso. eapply H0; reflexivity.
Qed.

Lemma returns_when h t : In t (returns (calls_of h)) -> exists e, In e h /\ when e = t.
Proof.
  induction h as [|e h IH]; cbn; [contradiction|]. destruct e as [u o|rs u]; cbn.
  - intros H. destruct (IH H) as (x & Hx & E). eauto.
  - intros [<-|H]; [exists (Limited rs u); auto|]. destruct (IH H) as (x & Hx & E). eauto.
Qed.

Lemma rl_period_run s l s' : calls l -> rl_run s l = Some s' -> rl_period s' = rl_period s.
Proof.
  revert s. induction l as [|e l IH]; intros s C R; cbn in R; [congruence|]. inversion C; subst. destruct e; [contradiction|]. cbn [rl_step] in R.
  destruct (rl_limit readings s) as [s1|] eqn:L; [|discriminate]. rewrite (IH s1 H2 R). unfold rl_limit in L. destruct (_ >? _).
  - destruct readings; [injection L as <-; reflexivity|discriminate].
  - destruct (spin _ _ _); [injection L as <-; reflexivity|discriminate].
Qed.

Lemma last_in {A : Type} (l : list A) d : l <> [] -> In (last l d) l.
Proof. intros H. destruct (exists_last H) as (l' & x & ->). rewrite last_last. apply in_or_app. right. left. reflexivity. Qed.

(** The number of elements made in a stretch of one run, from the time it takes. *)
Lemma made_bound P s h s' lo hi : 0 <= P < 2 ^ 62 -> (exists t0 l, p_at P s t0 l) -> producer_run P s h s' -> Forall (fun e => when e < 2 ^ 62) h -> Forall (fun e => ~ is_restart e) h ->
  Forall (fun e => lo <= when e <= hi) h -> lo <= hi -> (Z.of_nat (made h) - 5) * P <= hi - lo + 2 * max_overshoot.
Proof.
  intros HP (t0 & l & A) R W N B L. pose proof (made_calls P s h s' R N) as M. pose proof (p_at_run P s h s' t0 l R A W N) as A'.
  destruct (calls_of h) as [|e r] eqn:C; [cbn [List.length] in M; destruct (pr_owes_call s), (pr_owes_call s'); unfold max_overshoot; nia|].
  destruct A' as (A1 & A2 & A3 & A4 & A5). rewrite rl_run_app in A3. destruct A as (_ & Cl & A6 & _ & _). rewrite A6 in A3.
  assert (CO : clock_ok t0 (l ++ e :: r)).
  { split; [|split; [exact A1|split; [exact A5|]]].
    - clear - A4. change (Sorted Z.le ((t0 :: concat (map event_times (l ++ e :: r))) ++ [pr_last s'])) in A4. revert A4. generalize (t0 :: concat (map event_times (l ++ e :: r))). intros q. clear.
      induction q as [|a q IH]; cbn; intros S; [constructor|]. inversion S; subst. constructor; [auto|]. destruct q; cbn in *; constructor. inversion H2; auto.
    - eapply Forall_impl; [|exact A2]. intros [p|]; cbn; [contradiction|auto]. }
  assert (Cr : calls (e :: r)) by (rewrite <- C; apply calls_of_calls).
  pose proof (C33_calls_in_an_interval P t0 l e r (pr_limiter s) (pr_limiter s') HP CO Cr A6 A3) as I. rewrite (rl_period_run _ _ _ Cl A6) in I. cbn [rl_init rl_period] in I.
  assert (Q : forall t, In t (returns (e :: r)) -> lo <= t <= hi).
  { intros t Ht. rewrite <- C in Ht. apply returns_when in Ht as (x & Hx & <-). rewrite Forall_forall in B. exact (B x Hx). }
  assert (Ne : returns (e :: r) <> []) by (destruct e; [inversion Cr; contradiction|discriminate]).
  pose proof (Q _ (last_in _ 0 Ne)) as Q1. assert (Q2 : lo <= hd 0 (returns (e :: r)) <= hi) by (apply Q; destruct (returns (e :: r)); [congruence|left; reflexivity]).
  set (k := Z.of_nat (List.length (e :: r))) in *. assert (Z.of_nat (made h) <= k + 1) by (unfold k; destruct (pr_owes_call s), (pr_owes_call s'); lia). nia.
Qed.

Lemma ops_of_app a b : ops_of (a ++ b) = ops_of a ++ ops_of b.
Proof. unfold ops_of. apply flat_map_app. Qed.

Lemma ops_of_split h : forall a b, ops_of h = a ++ b -> exists h1 h2, h = h1 ++ h2 /\ ops_of h1 = a /\ ops_of h2 = b.
Proof.
  induction h as [|e h IH]; intros a b E; [destruct a, b; try discriminate; exists [], []; auto|].
  destruct e as [t o|rs t]; cbn in E.
  - destruct a as [|o' a]; cbn in E; [exists [], (At t o :: h); auto|]. injection E as -> E. destruct (IH a b E) as (h1 & h2 & -> & <- & <-). exists (At t o' :: h1), h2. auto.
  - destruct (IH a b E) as (h1 & h2 & -> & <- & <-). exists (Limited rs t :: h1), h2. auto.
Qed.

Section Flow.
Variable d : list bool.
Notation fl h := (flow_run d (ops_of h)).

Lemma fl_snoc h e : fl (h ++ [e]) = match e with At _ o => flow_step d (fl h) o | Limited _ _ => fl h end.
Proof. rewrite ops_of_app. unfold flow_run. rewrite fold_left_app. destruct e; reflexivity. Qed.

Lemma fl_got_grows b : forall a, Forall (fun e => ~ is_restart e) b -> exists new, fl_got (fl (a ++ b)) = fl_got (fl a) ++ new.
Proof.
  induction b as [|e b IH]; intros a N; [exists []; rewrite !app_nil_r; reflexivity|]. inversion N; subst.
  replace (a ++ e :: b) with ((a ++ [e]) ++ b) by (rewrite <- app_assoc; reflexivity). destruct (IH (a ++ [e]) H2) as (new & ->). rewrite fl_snoc.
  destruct e as [t []|rs t]; cbn [flow_step fl_got]; try (exists new; reflexivity); [|contradiction H1; exact I].
  destruct (fl_waiting (fl a)); [exists new; reflexivity|]. cbn [fl_got]. rewrite <- app_assoc. eexists. reflexivity.
Qed.

Lemma fl_next_grows b : forall a, Forall (fun e => ~ is_restart e) b -> fl_next (fl (a ++ b)) = (fl_next (fl a) + made b)%nat.
Proof.
  induction b as [|e b IH]; intros a N; [rewrite app_nil_r; cbn; lia|]. inversion N; subst.
  replace (a ++ e :: b) with ((a ++ [e]) ++ b) by (rewrite <- app_assoc; reflexivity). rewrite (IH (a ++ [e]) H2), fl_snoc.
  destruct e as [t []|rs t]; cbn [flow_step fl_next made]; try lia; [|contradiction H1; exact I]. destruct (fl_waiting (fl a)); cbn [fl_next]; lia.
Qed.

Lemma first_consume b : forall a, Forall (fun e => ~ is_restart e) b -> (List.length (fl_got (fl a)) < List.length (fl_got (fl (a ++ b))))%nat ->
  exists b1 t b2 i w, b = b1 ++ At t XConsume :: b2 /\ fl_waiting (fl (a ++ b1)) = i :: w /\ fl_got (fl (a ++ b1)) = fl_got (fl a).
Proof.
  induction b as [|e b IH]; intros a N L; [rewrite app_nil_r in L; lia|]. inversion N; subst.
  assert (C : (exists t i w, e = At t XConsume /\ fl_waiting (fl a) = i :: w) \/ fl_got (fl (a ++ [e])) = fl_got (fl a)).
  { rewrite fl_snoc. destruct e as [t []|rs t]; cbn [flow_step fl_got]; auto; [|contradiction H1; exact I]. destruct (fl_waiting (fl a)) as [|i w] eqn:W; [auto|]. left. eauto. }
  destruct C as [(t & i & w & -> & W)|C].
  - exists [], t, b, i, w. rewrite app_nil_r. auto.
  - replace (a ++ e :: b) with ((a ++ [e]) ++ b) in L by (rewrite <- app_assoc; reflexivity). rewrite <- C in L. destruct (IH (a ++ [e]) H2 L) as (b1 & t & b2 & i & w & -> & W & G).
    exists (e :: b1), t, b2, i, w. rewrite <- app_assoc in W, G. cbn [app] in W, G. rewrite G, C. auto.
Qed.

Lemma waiting_made h : drained d (ops_of h) -> forall i, In i (fl_waiting (fl h)) ->
  exists a1 t1 room a2, h = a1 ++ At t1 (XProduce room) :: a2 /\ Forall (fun e => ~ is_restart e) a2 /\ fl_next (fl a1) = i.
Proof.
  induction h as [|e h IH] using rev_ind; intros D i Hi; [contradiction|].
  assert (D' : drained d (ops_of h)) by (intros a b E; apply (D a (b ++ ops_of [e])); rewrite ops_of_app, E, <- app_assoc; reflexivity).
  assert (Old : In i (fl_waiting (fl h)) -> ~ is_restart e -> exists a1 t1 room a2, h ++ [e] = a1 ++ At t1 (XProduce room) :: a2 /\ Forall (fun e => ~ is_restart e) a2 /\ fl_next (fl a1) = i).
  { intros H N. destruct (IH D' i H) as (a1 & t1 & room & a2 & -> & F & X). exists a1, t1, room, (a2 ++ [e]). split; [rewrite <- app_assoc; reflexivity|]. split; [apply Forall_app; auto|exact X]. }
  rewrite fl_snoc in Hi. destruct e as [t []|rs t]; cbn [flow_step fl_waiting] in Hi; try (apply Old; [exact Hi|intros []]).
  - apply in_app_or in Hi as [Hi|Hi]; [apply Old; [exact Hi|intros []]|]. destruct (creates d (fl_next (fl h)) && room); [|contradiction]. destruct Hi as [<-|[]].
    exists h, t, room, []. auto.
  - destruct (fl_waiting (fl h)) as [|j w] eqn:W; [rewrite W in Hi; contradiction|]. cbn [fl_waiting] in Hi. apply Old; [right; exact Hi|intros []].
  - exfalso. rewrite (D (ops_of h) []) in Hi by (rewrite ops_of_app; reflexivity). exact Hi.
Qed.
End Flow.

Lemma increasing_count l : forall x n, increasing (x :: l) -> Forall (fun i => (i < n)%nat) (x :: l) -> (List.length (x :: l) <= n - x)%nat.
Proof.
  induction l as [|y l IH]; intros x n I B; inversion B; subst; [cbn; lia|]. destruct I as [I1 I2]. inversion I1; subst. specialize (IH y n I2 H2). cbn [List.length] in *. lia.
Qed.

Lemma sorted_order (t0 : Z) h a e b x : Sorted Z.le (t0 :: map when h) -> h = a ++ e :: b -> In x b -> when e <= when x.
Proof.
  intros S -> Hx. apply Sorted_StronglySorted in S; [|intros ? ? ?; lia]. inversion S; subst. clear S H2. induction a as [|y a IH]; cbn in H1; inversion H1; subst; auto.
  rewrite Forall_forall in H3. apply H3. apply in_map. exact Hx.
Qed.

(** The number of elements received between two clean-ups. *)
Lemma timed_paced d P t0 T D h : 0 < P < 2 ^ 62 -> timed_history P t0 h -> drained d (ops_of h) -> cleaned_every T h -> prompt d D h ->
  chain_paced d (Z.to_nat ((T + D + 2 * max_overshoot) / P + 5)) (ops_of h).
Proof.
  intros HP (Ht0 & So & W & pe & R) Dr CE Pr oa ob oc E F.
  destruct (ops_of_split h oa (ob ++ oc) E) as (a & bc & Eh & Ea & Ebc). destruct (ops_of_split bc ob oc Ebc) as (b & c & -> & Eb & Ec). clear Ebc.
  assert (NI : Forall (fun e => ~ interrupts e) b).
  { apply Forall_forall. intros e He. destruct e as [t o|rs t]; [|intros []]. rewrite Forall_forall in F. apply F. rewrite <- Eb. unfold ops_of. apply in_flat_map. exists (At t o). split; [exact He|left; reflexivity]. }
  assert (NR : Forall (fun e => ~ is_restart e) b) by (eapply Forall_impl; [|exact NI]; intros [t []|]; cbn; auto).
  rewrite <- Ea, <- Eb, <- ops_of_app. set (m := Z.to_nat _).
  destruct (Nat.le_gt_cases (List.length (fl_got (flow_run d (ops_of (a ++ b))))) (List.length (fl_got (flow_run d (ops_of a))))) as [L|L]; [lia|].
  destruct (first_consume d b a NR L) as (b1 & t & b2 & i & w & Eb' & Wt & Gt).
  assert (Dr1 : drained d (ops_of (a ++ b1))).
  { intros x y Exy. apply (Dr x (y ++ ops_of (At t XConsume :: b2 ++ c))). rewrite Eh, Eb'. replace (a ++ (b1 ++ At t XConsume :: b2) ++ c) with ((a ++ b1) ++ (At t XConsume :: b2 ++ c)) by (rewrite <- !app_assoc; reflexivity).
    rewrite ops_of_app, Exy, <- app_assoc. reflexivity. }
  destruct (waiting_made d (a ++ b1) Dr1 i ltac:(rewrite Wt; left; reflexivity)) as (a1 & t1 & room & a2 & Eab & N2 & Nx).
  set (S := At t1 (XProduce room) :: a2 ++ At t XConsume :: b2).
  assert (Eab2 : a ++ b = a1 ++ S) by (rewrite Eb'; unfold S; replace (a ++ b1 ++ At t XConsume :: b2) with ((a ++ b1) ++ At t XConsume :: b2) by (rewrite <- app_assoc; reflexivity); rewrite Eab, <- app_assoc; reflexivity).
  assert (Eh2 : h = a1 ++ S ++ c) by (rewrite Eh, app_assoc, Eab2, <- app_assoc; reflexivity).
  assert (HD : t - t1 <= D).
  { apply (Pr a1 t1 room a2 t (b2 ++ c) i w); auto; [|rewrite <- Eab; exact Wt]. rewrite Eh2. unfold S. cbn [app]. rewrite <- !app_assoc. reflexivity. }
  assert (NS : Forall (fun e => ~ is_restart e) S).
  { unfold S. constructor; [intros []|]. apply Forall_app. split; [exact N2|]. rewrite Eb' in NR. apply Forall_app in NR as [_ NR]. exact NR. }
  (* the number of elements *)
  assert (Cnt : (List.length (fl_got (flow_run d (ops_of (a ++ b)))) <= List.length (fl_got (flow_run d (ops_of a))) + made S)%nat).
  { assert (Drab : drained d (ops_of (a ++ b))).
    { intros x y Exy. apply (Dr x (y ++ ops_of c)). rewrite Eh, app_assoc, ops_of_app, Exy, <- app_assoc. reflexivity. }
    destruct (flow_facts d _ Drab) as (I1 & I2 & _).
    assert (Sn : exists new, fl_got (flow_run d (ops_of (a ++ b))) = fl_got (flow_run d (ops_of a)) ++ i :: new).
    { assert (N3 : Forall (fun e => ~ is_restart e) b2) by (rewrite Eb' in NR; apply Forall_app in NR as [_ NR]; inversion NR; assumption).
      destruct (fl_got_grows d b2 (a ++ b1 ++ [At t XConsume]) N3) as (new & Gn). exists new.
      replace (a ++ b) with ((a ++ b1 ++ [At t XConsume]) ++ b2) by (rewrite Eb', <- !app_assoc; reflexivity). rewrite Gn.
      replace (a ++ b1 ++ [At t XConsume]) with ((a ++ b1) ++ [At t XConsume]) by (rewrite <- app_assoc; reflexivity). rewrite fl_snoc. cbn [flow_step]. rewrite Wt. cbn [fl_got]. rewrite Gt, <- app_assoc. reflexivity. }
    destruct Sn as (new & Gn). rewrite Gn in I1, I2 |- *. apply increasing_app in I1 as [I1 _]. apply increasing_app in I1 as (_ & I1 & _).
    apply Forall_app in I2 as [I2 _]. apply Forall_app in I2 as [_ I2]. pose proof (increasing_count new i _ I1 I2) as Q. rewrite Eab2, (fl_next_grows d S a1 NS), Nx in Q.
    rewrite app_length. lia. }
  (* the times *)
  assert (Tm : Forall (fun e => t1 <= when e <= t1 + (T + D)) S /\ 0 <= T + D).
  { assert (In1 : In (At t XConsume) b) by (rewrite Eb'; apply in_or_app; right; left; reflexivity).
    assert (Hup : forall e, In e b -> when e <= t1 + (T + D)). { intros e He. pose proof (CE a b c Eh NI (At t XConsume) e In1 He) as Q. cbn [when] in Q. lia. }
    assert (Hlo : forall e, In e (a2 ++ At t XConsume :: b2) -> t1 <= when e).
    { intros e He. apply (sorted_order t0 h a1 (At t1 (XProduce room)) ((a2 ++ At t XConsume :: b2) ++ c) e So); [rewrite Eh2; reflexivity|]. apply in_or_app. left. exact He. }
    pose proof (Hup _ In1) as Q1. cbn [when] in Q1. pose proof (Hlo (At t XConsume) ltac:(apply in_or_app; right; left; reflexivity)) as Q2. cbn [when] in Q2.
    split; [|lia]. unfold S. constructor; [cbn [when]; lia|]. apply Forall_forall. intros e He. split; [apply Hlo; exact He|]. apply in_app_or in He as [He|He].
    - assert (when e <= t); [|lia]. apply in_split in He as (x & y & ->). change t with (when (At t XConsume)).
      apply (sorted_order t0 h (a1 ++ At t1 (XProduce room) :: x) e (y ++ At t XConsume :: b2 ++ c) (At t XConsume) So); [|apply in_or_app; right; left; reflexivity].
      rewrite Eh2. unfold S. repeat (cbn [app]; rewrite <- ?app_assoc). reflexivity.
    - apply Hup. rewrite Eb'. apply in_or_app. right. exact He. }
  destruct Tm as [Tm HTD].
  rewrite Eh2 in R. apply producer_run_app in R as (s1 & R1 & R2). apply producer_run_app in R2 as (s2 & R2 & _).
  rewrite Eh2 in W. apply Forall_app in W as [W1 W]. apply Forall_app in W as [W2 _].
  assert (Ok0 : exists t l, p_at P (new_run P t0) t l).
  { exists t0, []. split; [exact Ht0|]. split; [constructor|]. split; [reflexivity|]. split; [cbn; repeat constructor; lia|]. constructor; [|constructor].
    rewrite Forall_forall in W2. specialize (W2 (At t1 (XProduce room)) ltac:(left; reflexivity)). cbn [when] in W2.
    apply Sorted_StronglySorted in So; [|intros ? ? ?; lia]. inversion So; subst. rewrite Forall_forall in H2. specialize (H2 t1). enough (t0 <= t1) by lia. apply H2.
    apply in_map_iff. exists (At t1 (XProduce room)). split; [reflexivity|]. rewrite Eh2. apply in_or_app. right. left. reflexivity. }
  pose proof (made_bound P s1 S s2 t1 (t1 + (T + D)) ltac:(lia) (p_ok_run P _ a1 s1 R1 Ok0 W1) R2 W2 NS Tm ltac:(lia)) as MB.
  assert (Z.of_nat (made S) - 5 <= (T + D + 2 * max_overshoot) / P) by (apply Z.div_le_lower_bound; [lia|]; nia).
  enough (made S <= m)%nat by lia. unfold m. lia.
Qed.
