From Coq Require Import ZArith List Bool Lia ZifyBool Sorted.
From Verif Require Import Base_model Rate_model Rate_spec.
Import ListNotations.
Open Scope Z_scope.

Definition lim : Z := 4611686018427387904.
Lemma lim_eq : 2 ^ 62 = lim. Proof. reflexivity. Qed.

(** Invariant at time [c]. *)
Definition rinv (c : Z) (s : rl) : Prop :=
  0 <= rl_now s <= c /\ c < lim /\ 0 <= rl_period s < lim /\ 0 <= rl_deadline s < rl_now s + lim.

Lemma spin_inv d : forall rs now now', spin d now rs = Some now' ->
  (d <= now /\ rs = [] /\ now' = now) \/ (now < d /\ d <= now' /\ In now' rs).
Proof.
  induction rs as [|r rs IH]; intros now now'; cbn [spin]; destruct (Z.ltb_spec now d); try discriminate.
  - intros E. injection E as <-. left. auto.
  - intros E. right. apply IH in E as [(A & -> & ->)|(A & B & C)]; cbn; auto.
Qed.

Definition sstep (c : Z) (s s' : rl) : Prop :=
  rl_period s' = rl_period s /\
  ((rl_deadline s + max_overshoot < rl_now s /\ rl_now s' = rl_now s /\ rl_deadline s' = rl_now s + rl_period s) \/
   (rl_now s <= rl_deadline s + max_overshoot /\ rl_deadline s' = rl_deadline s + rl_period s /\
    ((rl_deadline s <= rl_now s /\ rl_now s' = rl_now s) \/ (rl_now s < rl_deadline s <= rl_now s' /\ c <= rl_now s')))).

Lemma limit_step c rs t s s' : rinv c s -> (forall r, In r rs -> c <= r <= t) -> c <= t -> t < lim ->
  rl_limit rs s = Some s' -> sstep c s s' /\ rinv t s'.
Proof.
  intros (H1 & H2 & H3 & H4) Hr Hc Ht E. unfold rl_limit in E. unfold u64 in E. unfold lim in *.
  rewrite !(Z.mod_small _ two64) in E by (unfold two64, max_overshoot; lia).
  destruct (Z.gtb_spec (rl_now s) (rl_deadline s + max_overshoot)) as [G|G].
  - destruct rs; [|discriminate]. injection E as <-. split; [split; [reflexivity|left; cbn; lia]|unfold rinv, lim; cbn; lia].
  - destruct (spin (rl_deadline s) (rl_now s) rs) as [now'|] eqn:Sp; [|discriminate]. injection E as <-.
    apply spin_inv in Sp as [(A & -> & ->)|(A & B & C)].
    + split; [split; [reflexivity|right; cbn; lia]|unfold rinv, lim; cbn; lia].
    + apply Hr in C. split; [split; [reflexivity|right; cbn; lia]|unfold rinv, lim; cbn; lia].
Qed.

(** Clock side conditions in inductive form. *)
Fixpoint good (c : Z) (l : list rl_event) : Prop :=
  match l with
  | [] => True
  | Adjust p :: l' => 0 <= p < lim /\ good c l'
  | Call rs t :: l' => (forall r, In r rs -> c <= r <= t) /\ c <= t < lim /\ good t l'
  end.
Fixpoint after (c : Z) (l : list rl_event) : Z :=
  match l with [] => c | Adjust _ :: l' => after c l' | Call _ t :: l' => after t l' end.

Lemma clock_good t0 l : clock_ok t0 l -> good t0 l /\ 0 <= t0 < lim.
Proof.
  intros (S & H0 & B & A). rewrite lim_eq in *. split; [|split; [assumption|now apply Forall_inv in B]].
  apply Sorted_StronglySorted in S; [|intros x y z; lia]. clear H0. revert t0 S B.
  induction l as [|[p|rs t] l IH]; intros t0 S B; cbn [good]; auto.
  - apply Forall_cons_iff in A as [A1 A]. split; [exact A1|]. cbn [map event_times concat app] in S, B. auto.
  - apply Forall_cons_iff in A as [_ A]. cbn [map event_times concat] in S, B. rewrite <- app_assoc in S, B. cbn [app] in S, B.
    apply StronglySorted_inv in S as [S F]. apply Forall_cons_iff in B as [_ B]. apply Forall_app in F as [F1 F2]. apply Forall_app in B as [_ B].
    pose proof (Forall_inv F2) as F3. pose proof (Forall_inv B) as B3. cbn in F3, B3.
    assert (St : StronglySorted Z.le (t :: concat (map event_times l)) /\ forall r, In r rs -> r <= t).
    { clear -S. induction rs as [|r rs IHr]; cbn [app] in S.
      - split; auto. intros r [].
      - apply StronglySorted_inv in S as [S F]. destruct (IHr S) as [I1 I2]. split; auto. intros x [<-|Hx]; auto.
        rewrite Forall_forall in F. apply F. apply in_or_app. right. now left. }
    destruct St as [St1 St2]. rewrite Forall_forall in F1. split; [intros r Hr; split; auto|]. split; [lia|]. apply IH; auto.
Qed.

Lemma good_app c l1 l2 : good c (l1 ++ l2) <-> good c l1 /\ good (after c l1) l2.
Proof. revert c. induction l1 as [|[p|rs t] l1 IH]; intros c; cbn [app good after]; [tauto| |]; rewrite IH; tauto. Qed.

Lemma run_app_rl s l1 l2 : rl_run s (l1 ++ l2) = match rl_run s l1 with Some s' => rl_run s' l2 | None => None end.
Proof. revert s. induction l1 as [|e l1 IH]; intros s; cbn [app rl_run]; auto. destruct (rl_step s e); auto. Qed.

Lemma run_inv : forall l c s s', rinv c s -> good c l -> rl_run s l = Some s' -> rinv (after c l) s'.
Proof.
  induction l as [|[p|rs t] l IH]; intros c s s' I G E; cbn [good after rl_run rl_step] in *.
  - injection E as <-. auto.
  - destruct G as [Gp G]. eapply IH; [|exact G|exact E]. unfold rinv, rl_adjust in *. cbn. lia.
  - destruct G as (G1 & G2 & G). destruct (rl_limit rs s) as [s1|] eqn:L; [|discriminate].
    apply limit_step with (c := c) (t := t) in L as [_ I']; auto; try lia. eapply IH; eauto.
Qed.

Lemma init_inv P t : 0 <= P < lim -> 0 <= t < lim -> rinv t (rl_init P t) /\ rl_deadline (rl_init P t) = t + P.
Proof.
  intros HP Ht. unfold rl_init, u64. unfold lim in *. rewrite Z.mod_small by (unfold two64; lia). unfold rinv, lim. cbn. lia.
Qed.

(** k-th return. *)
Lemma kth l : calls l -> forall c s s', rinv c s -> good c l -> rl_run s l = Some s' ->
  rl_period s' = rl_period s /\
  (forall k t, nth_error (returns l) k = Some t -> rl_deadline s + Z.of_nat k * rl_period s <= t).
Proof.
  induction 1 as [|[p|rs t] l He Hl IH]; intros c s s' I G E; cbn [good rl_run rl_step] in *; [|contradiction|].
  - injection E as <-. split; auto. intros [|k] t; discriminate.
  - destruct G as (G1 & G2 & G). destruct (rl_limit rs s) as [s1|] eqn:L; [|discriminate].
    apply limit_step with (c := c) (t := t) in L as [S I']; auto; try lia.
    destruct (IH _ _ _ I' G E) as [Q1 Q2]. destruct S as [S1 S2]. split; [congruence|]. intros k x Hk.
    cbn [returns map concat app] in Hk. destruct k as [|k].
    + cbn [nth_error] in Hk. injection Hk as <-. destruct I as (I1 & I2 & I3 & I4), I' as (J1 & J2 & J3 & J4).
      unfold max_overshoot in S2. lia.
    + cbn [nth_error] in Hk. apply Q2 in Hk. rewrite S1 in Hk. destruct I as (I1 & I2 & I3 & I4).
      unfold max_overshoot in S2. rewrite Nat2Z.inj_succ. lia.
Qed.

Lemma last_return l : calls l -> length (returns l) = length l.
Proof. induction 1 as [|[p|rs t] l He Hl IH]; cbn [returns map concat length app]; [reflexivity|contradiction|]. f_equal. exact IH. Qed.

Lemma after_last l : forall c, after c l = last (returns l) c.
Proof.
  induction l as [|[p|rs t] l IH]; intros c; cbn [after returns map concat app]; auto.
  rewrite IH. unfold returns. destruct (concat _) eqn:E; [reflexivity|]. cbn [last]. clear.
  revert z. induction l0 as [|y l0 IH0]; intros z; cbn [last]; auto.
Qed.

Lemma last_bound l : calls l -> forall c s s', rinv c s -> good c l -> rl_run s l = Some s' -> l <> [] ->
  rl_deadline s + (Z.of_nat (length l) - 1) * rl_period s <= after c l.
Proof.
  intros C c s s' I G E Hne. destruct (kth l C c s s' I G E) as [_ K]. rewrite after_last.
  assert (Hl : (0 < length l)%nat) by (destruct l; [congruence|cbn; lia]).
  pose proof (last_return l C) as Lr.
  destruct (nth_error (returns l) (length l - 1)) as [t|] eqn:N.
  - apply K in N as B. replace (Z.of_nat (length l - 1)) with (Z.of_nat (length l) - 1) in B by lia.
    replace (last (returns l) c) with t; auto. clear -N Lr Hl. revert N. rewrite <- Lr. intros N.
    assert (returns l <> []) by (intros X; rewrite X in *; cbn in *; lia).
    rewrite (app_removelast_last c H) in N at 2. rewrite (app_removelast_last c H) in N at 1. rewrite app_length in N. cbn [length] in N.
    rewrite nth_error_app2 in N by lia. replace (length (removelast (returns l)) + 1 - 1 - length (removelast (returns l)))%nat with O in N by lia.
    cbn in N. congruence.
  - apply nth_error_None in N. lia.
Qed.

Lemma after_ge l : forall c, good c l -> c <= after c l.
Proof. induction l as [|[p|rs t] l IH]; intros c; cbn [good after]; [lia| |]. - intros [_ G]. auto. - intros (_ & H & G). apply IH in G. lia. Qed.

(** From a state whose stored time is at least [t]. *)
Lemma fresh_bound l : calls l -> forall c s s' t, rinv c s -> good c l -> rl_run s l = Some s' -> t <= rl_now s ->
  (Z.of_nat (length l) - 1) * rl_period s <= after c l - t + max_overshoot.
Proof.
  intros C c s s' t I G E Ht. assert (HO : max_overshoot = 10000000) by reflexivity. pose proof (after_ge l c G) as A.
  destruct l as [|e l]. { pose proof I as (I1 & I2 & I3 & I4). cbn [length after] in *. lia. }
  destruct (Z.le_gt_cases (rl_now s) (rl_deadline s + max_overshoot)) as [Q|Q].
  - pose proof (last_bound _ C c s s' I G E ltac:(discriminate)). lia.
  - inversion C as [|? ? He Cl]; subst. destruct e as [p|rs x]; [contradiction|]. cbn [good rl_run rl_step after length] in *. destruct G as (G1 & G2 & G).
    destruct (rl_limit rs s) as [s1|] eqn:L; [|discriminate].
    apply limit_step with (c := c) (t := x) in L as [S I']; auto; try lia. destruct S as [S1 S2].
    destruct l as [|e l]. { pose proof I as (I1 & I2 & I3 & I4). cbn [length after] in *. lia. }
    pose proof (last_bound _ Cl x s1 s' I' G E ltac:(discriminate)) as B. rewrite S1 in B. cbn [length] in *. rewrite !Nat2Z.inj_succ in *. lia.
Qed.

Lemma credit_bound l : calls l -> forall c s s', rinv c s -> good c l -> rl_run s l = Some s' ->
  rl_now s <= rl_deadline s + max_overshoot ->
  (rl_now s < rl_deadline s -> (Z.of_nat (length l) - 2) * rl_period s <= after c l - c + max_overshoot) /\
  (rl_deadline s <= rl_now s -> (Z.of_nat (length l) - 3) * rl_period s <= after c l - c + max_overshoot + (rl_now s - rl_deadline s)).
Proof.
  assert (HO : max_overshoot = 10000000) by reflexivity.
  intros C. induction C as [|[p|rs t] l He Cl IH]; intros c s s' I G E Q; [| contradiction |].
  - pose proof I as (I1 & I2 & I3 & I4). cbn [length after] in *. change (Z.of_nat 0) with 0. lia.
  - pose proof (after_ge _ c G) as A. cbn [good rl_run rl_step after length] in *. destruct G as (G1 & G2 & G).
    destruct (rl_limit rs s) as [s1|] eqn:L; [|discriminate].
    apply limit_step with (c := c) (t := t) in L as [S I']; auto; try lia. destruct S as [S1 [S2|S2]]; [lia|].
    destruct S2 as (S2 & S3 & [S4|S4]).
    + (* credit used *)
      specialize (IH t s1 s' I' G E). rewrite S1, S3 in IH. rewrite Nat2Z.inj_succ. pose proof I as (I1 & I2 & I3 & I4).
      destruct S4 as [S4 S5]. rewrite S5 in IH. destruct IH as [IH1 IH2]; [lia|]. split; [lia|]. intros _.
      destruct (Z.lt_ge_cases (rl_now s) (rl_deadline s + rl_period s)) as [X|X]; [specialize (IH1 X)|specialize (IH2 X)]; lia.
    + (* reads the clock *)
      pose proof (fresh_bound l Cl t s1 s' c I' G E ltac:(lia)) as F. rewrite S1 in F. rewrite Nat2Z.inj_succ. pose proof I as (I1 & I2 & I3 & I4). lia.
Qed.

Lemma stale_bound l : calls l -> forall c s s', rinv c s -> good c l -> rl_run s l = Some s' ->
  (Z.of_nat (length l) - 3) * rl_period s <= after c l - c + 2 * max_overshoot.
Proof.
  assert (HO : max_overshoot = 10000000) by reflexivity.
  intros C c s s' I G E. pose proof I as (I1 & I2 & I3 & I4).
  destruct (Z.le_gt_cases (rl_now s) (rl_deadline s + max_overshoot)) as [Q|Q].
  - destruct (credit_bound l C c s s' I G E Q) as [B1 B2]. destruct (Z.lt_ge_cases (rl_now s) (rl_deadline s)) as [X|X]; [specialize (B1 X)|specialize (B2 X)]; lia.
  - pose proof (after_ge _ c G) as A. inversion C as [|[p|rs t] l' He Cl]; subst.
    + cbn [length after] in *. change (Z.of_nat 0) with 0. lia.
    + contradiction.
    + cbn [good rl_run rl_step after length] in *. destruct G as (G1 & G2 & G).
      destruct (rl_limit rs s) as [s1|] eqn:L; [|discriminate].
      apply limit_step with (c := c) (t := t) in L as [S I']; auto; try lia. destruct S as [S1 [S2|S2]]; [|lia].
      destruct S2 as (_ & S2 & S3). rewrite Nat2Z.inj_succ.
      destruct (credit_bound l' Cl t s1 s' I' G E) as [B1 B2]; [lia|]. rewrite S1 in *.
      destruct (Z.eq_dec (rl_period s) 0) as [Z0|Z0]; [rewrite Z0; lia|]. specialize (B1 ltac:(lia)). lia.
Qed.

Lemma c33_window P0 t0 l1 e l2 s1 s' : 0 <= P0 < 2 ^ 62 -> clock_ok t0 (l1 ++ e :: l2) -> calls (e :: l2) ->
  rl_run (rl_init P0 t0) l1 = Some s1 -> rl_run s1 (e :: l2) = Some s' ->
  (Z.of_nat (length (e :: l2)) - 4) * rl_period s1 <= last (returns (e :: l2)) 0 - hd 0 (returns (e :: l2)) + 2 * max_overshoot.
Proof.
  intros HP C Cl E1 E2. rewrite lim_eq in HP. apply clock_good in C as [G H0]. apply good_app in G as [G1 G2].
  destruct (init_inv P0 t0 HP H0) as [I0 _]. pose proof (run_inv _ _ _ _ I0 G1 E1) as I1.
  inversion Cl as [|? ? He Cl2]; subst. destruct e as [p|rs t]; [contradiction|]. cbn [good rl_run rl_step] in *. destruct G2 as (G2 & G3 & G4).
  destruct (rl_limit rs s1) as [s2|] eqn:L; [|discriminate].
  apply limit_step with (c := after t0 l1) (t := t) in L as [S I']; auto; try lia. destruct S as [S1 _].
  pose proof (stale_bound l2 Cl2 t s2 s' I' G4 E2) as B. rewrite S1 in B. rewrite after_last in B.
  cbn [returns map concat app hd length]. fold (returns l2). cbn [length]. rewrite Nat2Z.inj_succ.
  replace (last (t :: returns l2) 0) with (last (returns l2) t); [lia|]. destruct (returns l2) as [|y r]; [reflexivity|]. cbn [last].
  clear. revert y. induction r as [|z r IH]; intros y; cbn [last]; auto.
Qed.

Lemma c33_kth P t0 l s' : 0 <= P < 2 ^ 62 -> clock_ok t0 l -> calls l -> rl_run (rl_init P t0) l = Some s' ->
  forall k t, nth_error (returns l) k = Some t -> t0 + (Z.of_nat k + 1) * P <= t.
Proof.
  intros HP C Cl E k t Hk. rewrite lim_eq in HP. apply clock_good in C as [G H0].
  destruct (init_inv P t0 HP H0) as [I0 D0]. destruct (kth l Cl t0 _ s' I0 G E) as [_ K]. apply K in Hk. rewrite D0 in Hk. cbn in Hk. lia.
Qed.

Lemma c33_deadline P0 t0 l rs t s1 s2 : 0 <= P0 < 2 ^ 62 -> clock_ok t0 (l ++ [Call rs t]) ->
  rl_run (rl_init P0 t0) l = Some s1 -> rl_limit rs s1 = Some s2 ->
  rl_deadline s1 + rl_period s1 <= rl_deadline s2 <= rl_now s2 + rl_period s1 /\
  rl_now s2 <= t /\
  (rl_deadline s1 <= t) /\
  (rl_deadline s1 + max_overshoot < rl_now s1 -> rl_deadline s2 = rl_now s1 + rl_period s1).
Proof.
  intros HP C E1 E2. rewrite lim_eq in HP. apply clock_good in C as [G H0]. apply good_app in G as [G1 G2]. cbn [good] in G2. destruct G2 as (G2 & G3 & _).
  destruct (init_inv P0 t0 HP H0) as [I0 _]. pose proof (run_inv _ _ _ _ I0 G1 E1) as I1.
  apply limit_step with (c := after t0 l) (t := t) in E2 as [S I']; auto; try lia.
  destruct I1 as (A1 & A2 & A3 & A4), I' as (B1 & B2 & B3 & B4), S as [S1 S2]. unfold max_overshoot in *. lia.
Qed.

(** Waiting: the call returns at the first reading that is not below the deadline. *)
Lemma spin_first d : forall pre now r, now < d -> Forall (fun x => x < d) pre -> d <= r -> spin d now (pre ++ [r]) = Some r.
Proof.
  induction pre as [|x pre IH]; intros now r Hn Hp Hr; cbn [app spin]; destruct (Z.ltb_spec now d); try lia.
  - destruct (Z.ltb_spec r d); [lia|reflexivity].
  - apply Forall_cons_iff in Hp as [Hx Hp]. auto.
Qed.
