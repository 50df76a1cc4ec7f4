From Coq Require Import ZArith List Bool Lia Permutation.
From Verif Require Import Base_model Elem_model Lb_model Request_model Request_spec Request_proofs Flow_model Flow_spec.
Import ListNotations.
Open Scope Z_scope.

(** * Lists *)
Lemma nth_split_at : forall {A} (l : list A) i x, nth_error l i = Some x -> l = firstn i l ++ x :: skipn (S i) l.
Proof. induction l as [|y l IH]; intros [|i] x H; try discriminate; cbn in *.
  - congruence. - f_equal. apply IH, H. Qed.

Lemma skipn_at : forall {A} (l : list A) i x, nth_error l i = Some x -> skipn i l = x :: skipn (S i) l.
Proof. induction l as [|y l IH]; intros [|i] x H; try discriminate; cbn in *.
  - congruence. - apply IH, H. Qed.

Lemma swap_remove_shape : forall {A} (l : list A) i x, nth_error l i = Some x ->
  exists tl, swap_remove l i = firstn i l ++ tl /\ Permutation tl (skipn (S i) l) /\ length (firstn i l) = i.
Proof.
  intros A l i x H. unfold swap_remove. rewrite (skipn_at l i x H).
  assert (Hi : length (firstn i l) = i).
  { rewrite firstn_length. assert (i < length l)%nat by (apply nth_error_Some; congruence). lia. }
  destruct (rev (skipn (S i) l)) as [|z m] eqn:E.
  - exists []. rewrite app_nil_r. split; [reflexivity|]. split; [|exact Hi].
    assert (skipn (S i) l = []) as -> by (rewrite <- (rev_involutive (skipn (S i) l)), E; reflexivity).
    constructor.
  - exists (z :: rev m). split; [reflexivity|]. split; [|exact Hi].
    assert (skipn (S i) l = rev m ++ [z]) as -> by (rewrite <- (rev_involutive (skipn (S i) l)), E; reflexivity).
    apply Permutation_cons_append.
Qed.

Lemma swap_remove_perm : forall {A} (l : list A) i x, nth_error l i = Some x ->
  Permutation l (x :: swap_remove l i).
Proof.
  intros A l i x H. destruct (swap_remove_shape l i x H) as (tl & -> & Hp & _).
  rewrite (nth_split_at l i x H) at 1. rewrite <- Permutation_middle. constructor. apply Permutation_app_head. symmetry. exact Hp.
Qed.

Lemma remove_at_perm : forall {A} (l : list A) i x, nth_error l i = Some x -> Permutation l (x :: remove_at l i).
Proof. intros A l i x H. rewrite (nth_split_at l i x H) at 1. unfold remove_at. symmetry. apply Permutation_middle. Qed.

Lemma replace_perm : forall {A} (l : list A) i x y, nth_error l i = Some x ->
  Permutation (replace l i y) (y :: remove_at l i).
Proof. intros. unfold replace, remove_at. symmetry. apply Permutation_middle. Qed.

Lemma map_replace : forall {A C} (f : A -> C) l i x y, nth_error l i = Some x -> f x = f y -> map f (replace l i y) = map f l.
Proof.
  intros A C f l i x y H E. rewrite (nth_split_at l i x H) at 2. unfold replace. rewrite !map_app. cbn. congruence.
Qed.

Lemma bump_at_map : forall {C} (f : waiter -> C) n l i, (forall w, f (bump n w) = f w) -> map f (bump_at n l i) = map f l.
Proof. intros C f n l. induction l as [|w l IH]; intros [|i] H; cbn; f_equal; auto. Qed.

Lemma bump_at_length : forall n l i, length (bump_at n l i) = length l.
Proof. induction l as [|w l IH]; intros [|i]; cbn; congruence. Qed.

Lemma bump_at_split : forall n l i w, nth_error l i = Some w -> bump_at n l i = firstn i l ++ bump n w :: skipn (S i) l.
Proof. induction l as [|y l IH]; intros [|i] w H; try discriminate; cbn in *.
  - congruence. - f_equal. apply IH, H. Qed.

Lemma swap_remove_length : forall {A} (l : list A) i x, nth_error l i = Some x -> S (length (swap_remove l i)) = length l.
Proof. intros A l i x H. apply swap_remove_perm in H. apply Permutation_length in H. cbn in H. congruence. Qed.

Lemma remove_at_length : forall {A} (l : list A) i x, nth_error l i = Some x -> S (length (remove_at l i)) = length l.
Proof. intros A l i x H. apply remove_at_perm in H. apply Permutation_length in H. cbn in H. congruence. Qed.

Lemma filter_perm : forall {A} (p : A -> bool) l l', Permutation l l' -> Permutation (filter p l) (filter p l').
Proof.
  intros A p l l' H. induction H; cbn; try constructor.
  - destruct (p x); auto.
  - destruct (p x), (p y); auto; constructor.
  - etransitivity; eauto.
Qed.

Lemma Forall_perm : forall {A} (P : A -> Prop) l l', Permutation l l' -> Forall P l -> Forall P l'.
Proof. intros A P l l' H F. rewrite Forall_forall in *. intros x Hx. apply F. eapply Permutation_in; [symmetry; exact H|exact Hx]. Qed.

(** * One pass *)
Lemma pass_lemma : forall fuel R m newest l i, (i <= length l)%nat -> (length l - i <= fuel)%nat ->
  let r := pass fuel R m newest l i in let rest := skipn i l in
  Permutation (p_reissued r) (filter (arrived newest) rest) /\
  Permutation (p_timed r) (filter (fun w => negb (arrived newest w) && exhausted R w) rest) /\
  Permutation (p_ended r) (filter (fun w => negb (arrived newest w) && negb (exhausted R w) && negb m) rest) /\
  Permutation (p_kept r) (firstn i l ++ map (bump newest)
     (filter (fun w => negb (arrived newest w) && negb (exhausted R w) && m) rest)).
Proof.
  induction fuel as [|fuel IH]; intros R m newest l i Hi Hf.
  - assert (i = length l) by lia. subst. cbn. rewrite skipn_all, firstn_all. cbn. rewrite app_nil_r. auto.
  - cbn [pass]. destruct (nth_error l i) as [w|] eqn:E.
    2:{ apply nth_error_None in E. assert (i = length l) by lia. subst. cbn. rewrite skipn_all, firstn_all. cbn. rewrite app_nil_r. auto. }
    assert (Hlt : (i < length l)%nat) by (apply nth_error_Some; congruence).
    destruct (swap_remove_shape l i w E) as (tl & Etl & Ptl & Hfi).
    assert (Hsl := swap_remove_length l i w E).
    assert (Hsw : firstn i (swap_remove l i) = firstn i l /\ Permutation (skipn i (swap_remove l i)) (skipn (S i) l)).
    { rewrite Etl. split.
      - rewrite <- Hfi at 1. rewrite firstn_app, Nat.sub_diag, firstn_all2 by lia. cbn. apply app_nil_r.
      - rewrite <- Hfi at 1. rewrite skipn_app, skipn_all, Nat.sub_diag. cbn. exact Ptl. }
    destruct Hsw as [Hsf Hss].
    unfold verdict_of. fold (arrived newest w). fold (exhausted R w).
    destruct (arrived newest w) eqn:E1; [|destruct (exhausted R w) eqn:E2; [|destruct m eqn:Em]]; cbn [negb].
    1,2,4: destruct (IH R m newest (swap_remove l i) i) as (A & T & N & K); [lia|lia|]; subst; cbn [p_kept p_reissued p_timed p_ended] in *;
      rewrite (skipn_at l i w E); cbn [filter]; rewrite ?E1, ?E2; cbn [negb andb];
      rewrite A, T, N, K, Hsf; repeat split;
      try (apply perm_skip); try (apply Permutation_app_head, Permutation_map); apply filter_perm; exact Hss.
    assert (Hbl := bump_at_length newest l i).
    assert (Hb1 : firstn (S i) (bump_at newest l i) = firstn i l ++ [bump newest w] /\ skipn (S i) (bump_at newest l i) = skipn (S i) l).
    { rewrite (bump_at_split _ _ _ _ E). split.
      - rewrite firstn_app, Hfi, firstn_all2 by lia. replace (S i - i)%nat with 1%nat by lia. reflexivity.
      - rewrite skipn_app, Hfi, skipn_all2 by lia. replace (S i - i)%nat with 1%nat by lia. reflexivity. }
    destruct Hb1 as [Hb1 Hb2].
    destruct (IH R true newest (bump_at newest l i) (S i)) as (A & T & N & K); [lia|lia|].
    rewrite Hb1, Hb2 in *. rewrite (skipn_at l i w E). cbn [filter]. rewrite E1, E2. cbn [negb andb map].
    repeat split; auto. rewrite K, <- app_assoc. reflexivity.
Qed.

Lemma pass_correct : forall R m newest l, pass_spec R m newest l (check_pass R m newest l).
Proof.
  intros. unfold check_pass, pass_spec.
  destruct (pass_lemma (length l) R m newest l 0) as (A & T & N & K); [lia|lia|]. cbn [skipn firstn app] in *. auto.
Qed.

(** An entry that keeps waiting is answered in exactly the pass in which its retries are used up. *)
Lemma kept_in : forall R newest l w, In w l -> arrived newest w = false -> (w_retry w < R)%nat ->
  In (bump newest w) (p_kept (check_pass R true newest l)) /\ ~ (exists x, In x (p_timed (check_pass R true newest l)) /\ x = w).
Proof.
  intros R newest l w Hin Ha Hr. destruct (pass_correct R true newest l) as (A & T & N & K). split.
  - eapply Permutation_in; [symmetry; exact K|]. change (bump newest w) with ((fun w => mk_waiter (w_task w) (S (w_retry w)) (w_seen w ++ [newest])) w).
    apply in_map, filter_In. split; [exact Hin|]. rewrite Ha. unfold exhausted.
    destruct (Nat.leb_spec R (w_retry w)); [lia|reflexivity].
  - intros (x & Hx & ->). apply (Permutation_in _ T) in Hx. apply filter_In in Hx. destruct Hx as [_ Hx].
    unfold exhausted in Hx. destruct (Nat.leb_spec R (w_retry w)); [lia|]. rewrite andb_false_r in Hx. discriminate.
Qed.

Lemma checks_app : forall R r1 r2 l, checks R l (r1 ++ r2) =
  let (l1, o1) := checks R l r1 in let (l2, o2) := checks R l1 r2 in (l2, o1 ++ o2).
Proof.
  intros R r1. induction r1 as [|[n m] r1 IH]; intros r2 l; cbn [checks app].
  - destruct (checks R l r2); reflexivity.
  - rewrite IH. destruct (checks R (p_kept (check_pass R true n (l ++ m))) r1) as [l1 o1].
    destruct (checks R l1 r2) as [l2 o2]. reflexivity.
Qed.

Lemma checks_keep : forall R rounds l w, In w l ->
  (forall n m, In (n, m) rounds -> n <= rq_end (t_req (w_task w))) -> (w_retry w + length rounds <= R)%nat ->
  In (aged w rounds) (fst (checks R l rounds)).
Proof.
  intros R rounds. induction rounds as [|[n m] rounds IH]; intros l w Hin Hn Hl; cbn [checks length] in *.
  - unfold aged. cbn. rewrite Nat.add_0_r, app_nil_r. destruct w. exact Hin.
  - destruct (checks R (p_kept (check_pass R true n (l ++ m))) rounds) as [l' out] eqn:E. cbn [fst].
    change l' with (fst (l', out)). rewrite <- E.
    assert (Ha : arrived n w = false).
    { unfold arrived. apply Z.ltb_ge. eapply Hn. left. reflexivity. }
    destruct (kept_in R n (l ++ m) w) as [K _]; [apply in_or_app; auto|exact Ha|lia|].
    specialize (IH (p_kept (check_pass R true n (l ++ m))) (bump n w) K).
    unfold aged in *. cbn [bump w_task w_retry w_seen] in IH.
    cbn [map fst length]. replace (w_retry w + S (length rounds))%nat with (S (w_retry w) + length rounds)%nat by lia.
    replace (w_seen w ++ n :: map fst rounds) with ((w_seen w ++ [n]) ++ map fst rounds) by (rewrite <- app_assoc; reflexivity).
    apply IH; [|lia]. intros n0 m0 H0. eapply Hn. right. exact H0.
Qed.

Lemma timeout_exact : forall R l w rounds n m,
  In w l -> (w_retry w <= R)%nat -> length rounds = (R - w_retry w)%nat ->
  (forall n' m', In (n', m') (rounds ++ [(n, m)]) -> n' <= rq_end (t_req (w_task w))) ->
  In (aged w rounds) (fst (checks R l rounds)) /\
  exists out last, snd (checks R l (rounds ++ [(n, m)])) = out ++ [last] /\ length out = length rounds /\
    In (aged w rounds) last.
Proof.
  intros R l w rounds n m Hin Hr Hl Hn.
  assert (K : In (aged w rounds) (fst (checks R l rounds))).
  { apply checks_keep; [exact Hin| |lia]. intros. eapply Hn. apply in_or_app. left. eassumption. }
  split; [exact K|]. rewrite checks_app. destruct (checks R l rounds) as [l1 o1] eqn:E. cbn [fst] in K.
  cbn [checks snd]. exists o1, (p_timed (check_pass R true n (l1 ++ m))). split; [reflexivity|]. split.
  { clear - E. revert l l1 o1 E. induction rounds as [|[a b] r IH]; intros l l1 o1 E; cbn in E.
    - inversion E. reflexivity.
    - destruct (checks R (p_kept (check_pass R true a (l ++ b))) r) eqn:E'. inversion E; subst. cbn. f_equal. eapply IH. exact E'. }
  destruct (pass_correct R true n (l1 ++ m)) as (_ & T & _). eapply Permutation_in; [symmetry; exact T|].
  apply filter_In. split; [apply in_or_app; auto|]. apply andb_true_intro. split.
  - unfold arrived, aged. cbn [w_task]. apply negb_true_iff, Z.ltb_ge. eapply Hn. apply in_or_app. right. left. reflexivity.
  - unfold exhausted, aged. cbn [w_retry]. apply Nat.leb_le. lia.
Qed.
