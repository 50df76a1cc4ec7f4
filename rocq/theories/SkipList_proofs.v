From Coq Require Import ZArith List Bool Lia ZifyBool Permutation Sorted.
From Verif Require Import Base_model Ring_proofs SkipList_model SkipList_spec.
Import ListNotations.
Open Scope Z_scope.

Section Proofs.
Context {A : Type}.
Variable ts : A -> Z.

(** Strictly increasing timestamps. *)
Fixpoint incr (l : list A) : Prop :=
  match l with
  | [] => True
  | x :: l' => (forall y, In y l' -> ts x < ts y) /\ incr l'
  end.

Lemma insert_ok : forall x l, incr l -> 
  (snd (sl_insert ts x l) = true /\ Permutation (fst (sl_insert ts x l)) (x :: l) /\ ~ present ts (ts x) l
   \/ snd (sl_insert ts x l) = false /\ fst (sl_insert ts x l) = l /\ present ts (ts x) l)
  /\ incr (fst (sl_insert ts x l)).
Proof.
  induction l as [|y l IH]; intros H.
  - cbn. split; [left|]. 
    + repeat split; [apply Permutation_refl|]. intros (z & [] & _).
    + split; [intros ? []|exact I].
  - destruct H as [Hy Hl]. specialize (IH Hl). cbn [sl_insert].
    destruct (ts x <? ts y) eqn:E1; [|destruct (ts y <? ts x) eqn:E2].
    + cbn [fst snd]. split.
      * left. repeat split; [apply Permutation_refl|]. intros (z & [->|Hz] & E); [lia|].
        specialize (Hy z Hz). lia.
      * cbn [incr]. repeat split; try assumption. intros z [->|Hz]; [lia|]. specialize (Hy z Hz). lia.
    + destruct (sl_insert ts x l) as [l'' b] eqn:Ei. cbn [fst snd] in *.
      destruct IH as [[(-> & Hp & Hn)|(-> & -> & Hp)] Hi]; (split; [|]).
      * left. repeat split.
        -- rewrite Hp. apply perm_swap.
        -- intros (z & [->|Hz] & E); [lia|]. apply Hn. exists z. auto.
      * cbn [incr]. split; [|exact Hi]. intros z Hz. apply (Permutation_in _ Hp) in Hz.
        destruct Hz as [->|Hz]; [lia|auto].
      * right. repeat split. destruct Hp as (z & Hz & E). exists z. split; [right|]; assumption.
      * cbn [incr]. split; assumption.
    + cbn [fst snd]. split.
      * right. repeat split. exists y. split; [left; reflexivity|lia].
      * split; assumption.
Qed.

Lemma incr_removelast : forall l, incr l -> incr (removelast l).
Proof.
  induction l as [|x l IH]; intros H; [exact I|]. destruct H as [Hx Hl]. cbn [removelast].
  destruct l as [|y l]; [exact I|]. cbn [incr]. split; [|apply IH; exact Hl].
  intros z Hz. apply Hx. clear -Hz. revert Hz. generalize (y :: l) as m. induction m as [|w m IHm]; [intros []|].
  cbn [removelast]. destruct m as [|v m]; [intros []|]. intros [->|Hz]; [left; reflexivity|right; apply IHm; exact Hz].
Qed.

Lemma last_largest : forall l d, incr l -> l <> [] -> largest ts (last l d) l.
Proof.
  induction l as [|x l IH]; intros d H Hne; [congruence|]. destruct H as [Hx Hl].
  destruct l as [|y l].
  - cbn. split; [left; reflexivity|]. intros z [->|[]]. lia.
  - assert (last (x :: y :: l) d = last (y :: l) d) as -> by reflexivity.
    destruct (IH d Hl ltac:(discriminate)) as [Hi Hm].
    split; [right; exact Hi|]. intros z [->|Hz]; [|auto]. specialize (Hx _ Hi). lia.
Qed.

Lemma pop_incr : forall n l, incr l -> incr (sl_pop n l).
Proof. induction n as [|n IH]; intros l H; [exact H|]. cbn [sl_pop]. apply IH, incr_removelast, H. Qed.

Lemma pop_nil : forall n, @sl_pop A n [] = [].
Proof. induction n as [|n IH]; [reflexivity|]. cbn. exact IH. Qed.

Lemma pop_drops : forall n l s, incr l -> Permutation s l ->
  exists s', drop_newest ts n s s' /\ Permutation s' (sl_pop n l).
Proof.
  induction n as [|n IH]; intros l s H Hp.
  - exists s. split; [constructor; apply Permutation_refl|exact Hp].
  - destruct l as [|y l].
    + apply Permutation_sym, Permutation_nil in Hp. subst s. exists []. split; [constructor|].
      rewrite pop_nil. constructor.
    + pose proof (app_removelast_last y (l := y :: l) ltac:(discriminate)) as E.
      set (m := last (y :: l) y) in *.
      destruct (IH (removelast (y :: l)) (removelast (y :: l)) (incr_removelast _ H) (Permutation_refl _))
        as (s' & Hd & Hs').
      exists s'. split.
      * apply dn_one with (x := m) (s1 := removelast (y :: l)).
        -- destruct (last_largest (y :: l) y H ltac:(discriminate)) as [Hi Hm]. fold m in Hi, Hm.
           split; [apply (Permutation_in _ (Permutation_sym Hp)); exact Hi|].
           intros z Hz. apply Hm. apply (Permutation_in _ Hp). exact Hz.
        -- rewrite Hp. rewrite E at 1. rewrite Permutation_app_comm. apply Permutation_refl.
        -- exact Hd.
      * exact Hs'.
Qed.

Lemma removelast_length : forall (l : list A), length (removelast l) = (length l - 1)%nat.
Proof.
  induction l as [|x l IH]; [reflexivity|]. cbn [removelast]. destruct l as [|y l]; [reflexivity|].
  cbn [length] in *. rewrite IH. lia.
Qed.

Lemma pop_length : forall n (l : list A), length (sl_pop n l) = (length l - n)%nat.
Proof.
  induction n as [|n IH]; intros l; [cbn; lia|]. cbn [sl_pop]. rewrite IH, removelast_length. lia.
Qed.

Lemma pop_firstn : forall n (l : list A), sl_pop n l = firstn (length l - n) l.
Proof.
  induction n as [|n IH]; intros l.
  - cbn [sl_pop]. rewrite Nat.sub_0_r, firstn_all. reflexivity.
  - cbn [sl_pop]. rewrite IH, removelast_length.
    assert (removelast l = firstn (length l - 1) l) as ->.
    { destruct l as [|y l'] eqn:El; [reflexivity|]. rewrite <- El in *.
      assert (l <> []) as Hne by congruence.
      rewrite (app_removelast_last y Hne) at 3.
      rewrite firstn_app, removelast_length.
      replace (length l - 1 - (length l - 1))%nat with O by lia. cbn [firstn]. rewrite app_nil_r.
      symmetry. apply firstn_all2. rewrite removelast_length. lia. }
    rewrite firstn_firstn. f_equal. lia.
Qed.

Lemma occupancy_exact : forall (l : list A), Z.of_nat (length l) < 2147483648 ->
  sl_occupancy l = Z.of_nat (length l).
Proof. intros l H. unfold sl_occupancy. apply i32_small. lia. Qed.

Lemma flush_nil : forall (l : list A), Z.of_nat (length l) < 2147483648 -> sl_flush l = [].
Proof.
  intros l H. unfold sl_flush. rewrite occupancy_exact by exact H.
  rewrite u64_small by (unfold two64; lia). rewrite Nat2Z.id, pop_firstn.
  rewrite Nat.sub_diag. reflexivity.
Qed.

Lemma find_first : forall (f : A -> bool) l x, incr l -> find f l = Some x ->
  (forall y z, f y = true -> ts y <= ts z -> f z = true) ->
  In x l /\ f x = true /\ forall y, In y l -> f y = true -> ts x <= ts y.
Proof.
  induction l as [|a l IH]; intros x H E Hm; [discriminate|]. destruct H as [Ha Hl]. cbn [find] in E.
  destruct (f a) eqn:Ef.
  - injection E as <-. repeat split; [left; reflexivity|exact Ef|].
    intros y [->|Hy] _; [lia|]. specialize (Ha y Hy). lia.
  - destruct (IH x Hl E Hm) as (Hi & Hf & Hs). repeat split; [right; exact Hi|exact Hf|].
    intros y [->|Hy] Hfy; [congruence|auto].
Qed.

Lemma find_ts : forall l x, incr l -> In x l -> find (fun y => ts y =? ts x) l = Some x.
Proof.
  induction l as [|a l IH]; intros x H Hx; [destruct Hx|]. destruct H as [Ha Hl]. cbn [find].
  destruct (ts a =? ts x) eqn:E.
  - destruct Hx as [->|Hx]; [reflexivity|]. specialize (Ha x Hx). lia.
  - destruct Hx as [->|Hx]; [lia|]. apply IH; assumption.
Qed.

Definition nonneg (l : list A) : Prop := forall y, In y l -> 0 <= ts y.

Lemma lower_found : forall l key, incr l -> nonneg l ->
  match sl_found ts l (sl_lower_bound ts l key) with
  | Some x => first_from ts key x l
  | None => forall y, In y l -> ts y < key
  end.
Proof.
  intros l key H Hn. unfold sl_lower_bound, sl_found.
  destruct (find (fun y => key <=? ts y) l) as [x|] eqn:E.
  - destruct (find_first _ l x H E ltac:(intros; lia)) as (Hi & Hf & Hs).
    specialize (Hn x Hi). unfold sl_end. destruct (ts x =? -1) eqn:E1; [lia|].
    unfold sl_deref. rewrite (find_ts l x H Hi).
    repeat split; [exact Hi|lia|]. intros y Hy Hk. apply Hs; [exact Hy|lia].
  - rewrite Z.eqb_refl. intros y Hy. pose proof (find_none _ _ E y Hy) as X. cbn in X. lia.
Qed.

Lemma in_pop : forall n (l : list A) y, In y (sl_pop n l) -> In y l.
Proof.
  intros n l y H. rewrite pop_firstn in H. revert H. generalize (length l - n)%nat as k.
  intros k H. rewrite <- (firstn_skipn k l). apply in_or_app. left. exact H.
Qed.

Lemma step_refines : forall l o s, incr l -> nonneg l -> Permutation s l -> valid_op ts o ->
  Z.of_nat (length l) < 2147483648 ->
  exists s', set_step ts s o (snd (sl_step ts l o)) s' /\ Permutation s' (fst (sl_step ts l o)) /\
    incr (fst (sl_step ts l o)) /\ nonneg (fst (sl_step ts l o)) /\
    (length (fst (sl_step ts l o)) <= S (length l))%nat.
Proof.
  intros l o s H Hn Hp Hv Hlen.
  assert (forall t, present ts t s <-> present ts t l) as Hpres.
  { intros t. split; intros (y & Hy & E); exists y; (split; [|exact E]).
    - apply (Permutation_in _ Hp). exact Hy.
    - apply (Permutation_in _ (Permutation_sym Hp)). exact Hy. }
  assert (l = [] -> s = []) as Hnil.
  { intros ->. apply Permutation_nil. apply Permutation_sym. exact Hp. }
  assert (forall x l0, l = x :: l0 -> smallest ts x s) as Hsm.
  { intros x l0 ->. split; [apply (Permutation_in _ (Permutation_sym Hp)); left; reflexivity|].
    intros y Hy. apply (Permutation_in _ Hp) in Hy. destruct H as [Hx _].
    destruct Hy as [->|Hy]; [lia|]. specialize (Hx y Hy). lia. }
  assert (forall x, (exists b, sl_write ts x l = (fst (sl_write ts x l), b)) /\ 0 <= ts x ->
    ((snd (sl_insert ts x l) = true /\ ~ present ts (ts x) s /\ Permutation (x :: s) (fst (sl_insert ts x l)))
     \/ (snd (sl_insert ts x l) = false /\ present ts (ts x) s /\ Permutation s (fst (sl_insert ts x l)))) /\
    incr (fst (sl_insert ts x l)) /\ nonneg (fst (sl_insert ts x l)) /\
    (length (fst (sl_insert ts x l)) <= S (length l))%nat) as Hw.
  { intros x [_ Hx]. destruct (insert_ok x l H) as [[(Eb & Hpi & Hni)|(Eb & El & Hpi)] Hi].
    - split; [left; repeat split; [exact Eb|rewrite Hpres; exact Hni|rewrite Hpi; constructor; exact Hp]|].
      split; [exact Hi|]. split.
      + intros y Hy. apply (Permutation_in _ Hpi) in Hy. destruct Hy as [->|Hy]; auto.
      + rewrite (Permutation_length Hpi). cbn [length]. lia.
    - rewrite El. split; [right; repeat split; [exact Eb|rewrite Hpres; exact Hpi|exact Hp]|].
      repeat split; try assumption. lia. }
  destruct o as [x|x| |n| | | | |key|]; cbn [sl_step fst snd].
  - unfold sl_write. specialize (Hw x ltac:(split; [eexists; apply surjective_pairing|exact Hv])).
    destruct (sl_insert ts x l) as [l' b]. cbn [fst snd] in *.
    destruct Hw as [[(-> & Hnp & Hpp)|(-> & Hnp & Hpp)] (Hi & Hnn & Hl)].
    + exists (x :: s). repeat split; try assumption. constructor. exact Hnp.
    + exists s. repeat split; try assumption. constructor. exact Hnp.
  - unfold sl_write. specialize (Hw x ltac:(split; [eexists; apply surjective_pairing|exact Hv])).
    destruct (sl_insert ts x l) as [l' b]. cbn [fst snd] in *.
    destruct Hw as [[(-> & Hnp & Hpp)|(-> & Hnp & Hpp)] (Hi & Hnn & Hl)].
    + exists (x :: s). repeat split; try assumption. constructor. exact Hnp.
    + exists s. repeat split; try assumption. constructor. exact Hnp.
  - exists s. repeat split; try assumption; [|lia]. unfold sl_read. destruct l as [|x l]; cbn [hd_error].
    + apply ss_read_empty. auto.
    + apply ss_read. eapply Hsm. reflexivity.
  - destruct (pop_drops n l s H Hp) as (s' & Hd & Hs'). exists s'. repeat split.
    + constructor. exact Hd.
    + exact Hs'.
    + apply pop_incr. exact H.
    + intros y Hy. apply Hn. eapply in_pop. exact Hy.
    + rewrite pop_length. lia.
  - rewrite flush_nil by exact Hlen. exists []. repeat split.
    + constructor.
    + constructor.
    + intros y [].
    + cbn; lia.
  - exists s. repeat split; try assumption; [|lia]. unfold sl_front. destruct l as [|x l]; cbn [hd_error].
    + apply ss_front_empty. auto.
    + apply ss_front. eapply Hsm. reflexivity.
  - exists s. repeat split; try assumption; [|lia]. unfold sl_back. destruct l as [|x l].
    + apply ss_back_empty. auto.
    + apply ss_back. destruct (last_largest (x :: l) x H ltac:(discriminate)) as [Hi Hm].
      split; [apply (Permutation_in _ (Permutation_sym Hp)); exact Hi|].
      intros y Hy. apply Hm. apply (Permutation_in _ Hp). exact Hy.
  - exists s. repeat split; try assumption; [|lia]. rewrite occupancy_exact by exact Hlen.
    rewrite <- (Permutation_length Hp). constructor.
  - exists s. repeat split; try assumption; [|lia].
    pose proof (lower_found l key H Hn) as X. destruct (sl_found ts l (sl_lower_bound ts l key)) as [x|].
    + constructor. destruct X as (Hi & Hk & Hs). repeat split; [|exact Hk|].
      * apply (Permutation_in _ (Permutation_sym Hp)). exact Hi.
      * intros y Hy Hky. apply Hs; [|exact Hky]. apply (Permutation_in _ Hp). exact Hy.
    + constructor. intros y Hy. apply X. apply (Permutation_in _ Hp). exact Hy.
  - exists []. repeat split.
    + constructor.
    + constructor.
    + intros y [].
    + cbn; lia.
Qed.

Lemma run_refines : forall ops l s, incr l -> nonneg l -> Permutation s l -> Forall (valid_op ts) ops ->
  never_huge ts l ops ->
  exists s', set_run ts s ops (fst (sl_run ts l ops)) s' /\ Permutation s' (snd (sl_run ts l ops)) /\
    incr (snd (sl_run ts l ops)).
Proof.
  induction ops as [|o ops IH]; intros l s H Hn Hp Hv Hlen.
  - exists s. repeat split; try assumption. constructor.
  - inversion Hv as [|? ? Hv1 Hv2]; subst. destruct Hlen as [Hlen Hrest].
    destruct (step_refines l o s H Hn Hp Hv1 Hlen) as (s1 & Hs & Hp1 & Hi & Hn1 & Hl).
    cbn [sl_run]. destruct (sl_step ts l o) as [l1 y]. cbn [fst snd] in *.
    destruct (IH l1 s1 Hi Hn1 Hp1 Hv2 Hrest) as (s' & Hr & Hp' & Hi').
    destruct (sl_run ts l1 ops) as [ys lf]. cbn [fst snd] in *.
    exists s'. repeat split; try assumption. econstructor; eassumption.
Qed.

Lemma set_lemma : forall ops, Forall (valid_op ts) ops -> never_huge ts [] ops ->
  exists s, set_run ts [] ops (fst (sl_run ts [] ops)) s.
Proof.
  intros ops Hv Hl. destruct (run_refines ops [] [] I ltac:(intros y []) (Permutation_refl _) Hv Hl) as (s & Hs & _).
  exists s. exact Hs.
Qed.

Lemma reached_incr : forall ops, Forall (valid_op ts) ops -> never_huge ts [] ops ->
  incr (snd (sl_run ts [] ops)) /\ nonneg (snd (sl_run ts [] ops)) /\
  Z.of_nat (length (snd (sl_run ts [] ops))) < 2147483648.
Proof.
  intros ops. assert (incr []) as Hi by exact I. assert (nonneg []) as Hn by (intros y []).
  revert Hi Hn. generalize (@nil A) as l. induction ops as [|o ops IH]; intros l Hi Hn Hv Hl.
  - cbn. destruct Hl as [Hl _]. repeat split; assumption.
  - inversion Hv as [|? ? Hv1 Hv2]; subst. destruct Hl as [Hl Hrest].
    destruct (step_refines l o l Hi Hn (Permutation_refl _) Hv1 Hl) as (s1 & Hs & Hp1 & Hi1 & Hn1 & _).
    cbn [sl_run]. destruct (sl_step ts l o) as [l1 y]. cbn [fst snd] in *.
    specialize (IH l1 Hi1 Hn1 Hv2 Hrest). destruct (sl_run ts l1 ops) as [ys lf]. exact IH.
Qed.

Lemma pop_keeps_oldest : forall n (l : list A), sl_pop n l = firstn (length l - n) l.
Proof. exact pop_firstn. Qed.

End Proofs.
