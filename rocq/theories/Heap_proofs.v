(** Proofs about the priority queue of trigger primitives. *)
From Coq Require Import ZArith List Bool Arith Lia Permutation.
From Verif Require Import Heap_model.
Import ListNotations.
Open Scope nat_scope.

Section Proofs.
Context {T : Type}.
Variable ts : T -> Z.

Lemma put_length : forall (v : list T) i x, i < length v -> length (put v i x) = length v.
Proof. intros v i x H. unfold put. rewrite app_length, firstn_length. cbn [length]. rewrite skipn_length. lia. Qed.

Lemma put_nth : forall (v : list T) i j x d, i < length v -> nth j (put v i x) d = if j =? i then x else nth j v d.
Proof.
  intros v i j x d. revert i j. induction v as [|a v IH]; intros i j H; cbn [length] in H; [lia|].
  destruct i as [|i]; [destruct j; reflexivity|].
  destruct j as [|j]; [reflexivity|]. change (put (a :: v) (S i) x) with (a :: put v i x). cbn [nth].
  rewrite (IH i j ltac:(lia)). reflexivity.
Qed.

Lemma put_split : forall (v : list T) i d, i < length v -> v = firstn i v ++ nth i v d :: skipn (S i) v.
Proof.
  induction v as [|a v IH]; intros i d H; cbn [length] in H; [lia|]. destruct i as [|i]; [reflexivity|].
  cbn [firstn nth app]. change (skipn (S (S i)) (a :: v)) with (skipn (S i) v). f_equal. apply IH. lia.
Qed.

Lemma put_perm : forall (v : list T) i y d, i < length v -> Permutation (nth i v d :: put v i y) (y :: v).
Proof.
  intros v i y d H. rewrite (put_split v i d H) at 3. unfold put.
  rewrite <- !Permutation_middle. apply perm_swap.
Qed.

(** Moving the hole from [h] to [s] does not change what is in the queue. *)
Lemma move_perm : forall (v : list T) h s x d, h < length v -> s < length v -> h <> s ->
  Permutation (put (put v h (nth s v d)) s x) (put v h x).
Proof.
  intros v h s x d Hh Hs N.
  assert (length (put v h (nth s v d)) = length v) as L by (apply put_length; exact Hh).
  assert (Hs' : s < length (put v h (nth s v d))) by lia.
  pose proof (put_perm (put v h (nth s v d)) s x d Hs') as P1.
  rewrite (put_nth v h s _ d Hh) in P1. replace (s =? h) with false in P1 by (symmetry; apply Nat.eqb_neq; lia).
  pose proof (put_perm v h (nth s v d) d Hh) as P2. pose proof (put_perm v h x d Hh) as P3.
  apply (Permutation_cons_inv (a := nth s v d)). apply (Permutation_cons_inv (a := nth h v d)).
  transitivity (nth h v d :: x :: put v h (nth s v d)); [constructor; exact P1|].
  transitivity (x :: nth h v d :: put v h (nth s v d)); [apply perm_swap|].
  transitivity (x :: nth s v d :: v); [constructor; exact P2|].
  transitivity (nth s v d :: x :: v); [apply perm_swap|].
  transitivity (nth s v d :: nth h v d :: put v h x); [constructor; symmetry; exact P3|]. apply perm_swap.
Qed.

(** ** Heap order *)

Definition le (a b : T) : Prop := (ts a <= ts b)%Z.
Definition parent (i : nat) : nat := (i - 1) / 2.

Lemma parent_lt : forall i, 0 < i -> parent i < i.
Proof. intros i H. unfold parent. apply Nat.div_lt_upper_bound; lia. Qed.
Lemma parent_iff : forall i h, 0 < i -> (parent i = h <-> i = 2 * h + 1 \/ i = 2 * h + 2).
Proof.
  intros i h H. unfold parent. pose proof (Nat.div_mod (i - 1) 2 ltac:(lia)) as D.
  pose proof (Nat.mod_upper_bound (i - 1) 2 ltac:(lia)). lia.
Qed.

Definition heap (v : list T) : Prop := forall i d, 0 < i < length v -> le (nth (parent i) v d) (nth i v d).

(** The order with a hole. *)
Definition holed (v : list T) (h : nat) : Prop :=
  (forall i d, 0 < i < length v -> i <> h -> parent i <> h -> le (nth (parent i) v d) (nth i v d)) /\
  (forall i d, 0 < i < length v -> parent i = h -> 0 < h -> le (nth (parent h) v d) (nth i v d)).

Lemma later_false : forall a b, later ts a b = false -> le a b.
Proof. intros a b H. unfold later in H. unfold le. lia. Qed.
Lemma later_true : forall a b, later ts a b = true -> (ts b < ts a)%Z.
Proof. intros a b H. unfold later in H. lia. Qed.

Lemma move_up : forall v h x, h < length v -> 0 < h -> holed v h ->
  (forall i d, 0 < i < length v -> parent i = h -> le x (nth i v d)) ->
  (ts x < ts (nth (parent h) v x))%Z ->
  let v' := put v h (nth (parent h) v x) in
  holed v' (parent h) /\ (forall i d, 0 < i < length v' -> parent i = parent h -> le x (nth i v' d)).
Proof.
  intros v h x Hh H0 [Ha Hc] Hb Hx v'. pose proof (parent_lt h H0) as Hp.
  assert (length v' = length v) as L by (apply put_length; exact Hh).
  assert (forall d, nth (parent h) v d = nth (parent h) v x) as Ed by (intros d; apply nth_indep; lia).
  split; [split|].
  - intros i d Hi N1 N2. rewrite L in Hi. unfold v'. rewrite !put_nth by exact Hh.
    destruct (i =? h) eqn:E1; [apply Nat.eqb_eq in E1; subst i; congruence|]. apply Nat.eqb_neq in E1.
    destruct (parent i =? h) eqn:E2.
    + apply Nat.eqb_eq in E2. rewrite <- (Ed d). apply Hc; assumption.
    + apply Nat.eqb_neq in E2. apply Ha; assumption.
  - intros i d Hi E Hp0. rewrite L in Hi. unfold v'. rewrite !put_nth by exact Hh.
    pose proof (parent_lt (parent h) Hp0). replace (parent (parent h) =? h) with false by (symmetry; apply Nat.eqb_neq; lia).
    assert (le (nth (parent (parent h)) v d) (nth (parent h) v d)) as X by (apply Ha; lia).
    destruct (i =? h) eqn:E1; [rewrite <- (Ed d); exact X|]. apply Nat.eqb_neq in E1.
    assert (le (nth (parent i) v d) (nth i v d)) as Y by (apply Ha; lia). rewrite E in Y. unfold le in *. lia.
  - intros i d Hi E. rewrite L in Hi. unfold v'. rewrite !put_nth by exact Hh.
    destruct (i =? h) eqn:E1; [unfold le; lia|]. apply Nat.eqb_neq in E1.
    assert (le (nth (parent i) v d) (nth i v d)) as Y by (apply Ha; lia). rewrite E, (Ed d) in Y. unfold le in *. lia.
Qed.

Lemma sift_up_ok : forall fuel v h x, h < fuel -> h < length v -> holed v h ->
  (forall i d, 0 < i < length v -> parent i = h -> le x (nth i v d)) ->
  heap (sift_up ts fuel v h x) /\ Permutation (sift_up ts fuel v h x) (put v h x).
Proof.
  induction fuel as [|fuel IH]; intros v h x Hf Hh Hv Hb; [lia|]. cbn [sift_up]. change ((h - 1) / 2) with (parent h).
  destruct ((0 <? h) && later ts (nth (parent h) v x) x) eqn:E.
  - apply andb_prop in E. destruct E as [E1 E2]. apply Nat.ltb_lt in E1. apply later_true in E2.
    pose proof (parent_lt h E1) as Hp. destruct (move_up v h x Hh E1 Hv Hb E2) as [Hv' Hb'].
    assert (length (put v h (nth (parent h) v x)) = length v) as L by (apply put_length; exact Hh).
    destruct (IH (put v h (nth (parent h) v x)) (parent h) x ltac:(lia) ltac:(lia) Hv' Hb') as [H1 H2]. split; [exact H1|].
    rewrite H2. apply move_perm; lia.
  - split; [|reflexivity]. intros i d Hi. rewrite put_length in Hi by exact Hh. rewrite !put_nth by exact Hh.
    destruct Hv as [Ha Hc]. destruct (i =? h) eqn:E1.
    + apply Nat.eqb_eq in E1. subst i. pose proof (parent_lt h ltac:(lia)).
      replace (parent h =? h) with false by (symmetry; apply Nat.eqb_neq; lia).
      apply andb_false_iff in E. destruct E as [E|E]; [apply Nat.ltb_ge in E; lia|].
      apply later_false in E. rewrite (nth_indep v d x) by lia. exact E.
    + apply Nat.eqb_neq in E1. destruct (parent i =? h) eqn:E2.
      * apply Nat.eqb_eq in E2. apply Hb; assumption.
      * apply Nat.eqb_neq in E2. apply Ha; assumption.
Qed.

Lemma move_down : forall v h s x, h < length v -> 0 < s < length v -> parent s = h -> holed v h ->
  (forall i d, 0 < i < length v -> parent i = h -> le (nth s v x) (nth i v d)) ->
  holed (put v h (nth s v x)) s.
Proof.
  intros v h s x Hh Hs Es [Ha Hc] Hmin. pose proof (parent_lt s ltac:(lia)) as Hlt.
  assert (forall d, nth s v d = nth s v x) as Ed by (intros d; apply nth_indep; lia). split.
  - intros i d Hi N1 N2. rewrite put_length in Hi by exact Hh. rewrite !put_nth by exact Hh.
    destruct (i =? h) eqn:E1.
    + apply Nat.eqb_eq in E1. subst i. pose proof (parent_lt h ltac:(lia)).
      replace (parent h =? h) with false by (symmetry; apply Nat.eqb_neq; lia). rewrite <- (Ed d). apply Hc; lia.
    + apply Nat.eqb_neq in E1. destruct (parent i =? h) eqn:E2.
      * apply Nat.eqb_eq in E2. apply Hmin; assumption.
      * apply Nat.eqb_neq in E2. apply Ha; assumption.
  - intros i d Hi E _. rewrite put_length in Hi by exact Hh. rewrite !put_nth by exact Hh. rewrite Es, Nat.eqb_refl.
    pose proof (parent_lt i ltac:(lia)). replace (i =? h) with false by (symmetry; apply Nat.eqb_neq; lia).
    rewrite <- (Ed d), <- E. apply Ha; lia.
Qed.

Lemma sift_down_ok : forall fuel v h x v1 h1, length v <= fuel + h -> h < length v -> holed v h ->
  sift_down ts fuel v h x = (v1, h1) ->
  length v1 = length v /\ h1 < length v /\ holed v1 h1 /\ (length v - 1) / 2 <= h1 /\ Permutation (put v1 h1 x) (put v h x).
Proof.
  induction fuel as [|fuel IH]; intros v h x v1 h1 Hf Hh Hv E; cbn [sift_down] in E; [lia|].
  destruct (h <? (length v - 1) / 2) eqn:Eh.
  - apply Nat.ltb_lt in Eh. assert (2 * h + 2 < length v) as Hr.
    { pose proof (Nat.div_mod (length v - 1) 2 ltac:(lia)). pose proof (Nat.mod_upper_bound (length v - 1) 2 ltac:(lia)). lia. }
    set (s := if later ts (nth (2 * (h + 1)) v x) (nth (2 * (h + 1) - 1) v x) then 2 * (h + 1) - 1 else 2 * (h + 1)) in E.
    assert (s = 2 * h + 1 \/ s = 2 * h + 2) as Hs by (unfold s; destruct (later _ _ _); lia).
    assert (parent s = h) as Ps by (apply parent_iff; lia).
    assert (forall i d, 0 < i < length v -> parent i = h -> le (nth s v x) (nth i v d)) as Hmin.
    { intros i d Hi Ei. apply parent_iff in Ei; [|lia]. rewrite (nth_indep v d x) by lia.
      unfold s. destruct (later ts (nth (2 * (h + 1)) v x) (nth (2 * (h + 1) - 1) v x)) eqn:El.
      - apply later_true in El. replace (2 * (h + 1) - 1) with (2 * h + 1) in * by lia. replace (2 * (h + 1)) with (2 * h + 2) in * by lia.
        destruct Ei as [-> | ->]; unfold le; lia.
      - apply later_false in El. replace (2 * (h + 1) - 1) with (2 * h + 1) in * by lia. replace (2 * (h + 1)) with (2 * h + 2) in * by lia.
        destruct Ei as [-> | ->]; unfold le in *; lia. }
    pose proof (move_down v h s x Hh ltac:(lia) Ps Hv Hmin) as Hv'.
    assert (length (put v h (nth s v x)) = length v) as L by (apply put_length; exact Hh).
    destruct (IH (put v h (nth s v x)) s x v1 h1 ltac:(lia) ltac:(lia) Hv' E) as (I1 & I2 & I3 & I4 & I5). rewrite L in I1, I2, I4.
    split; [exact I1|]. split; [exact I2|]. split; [exact I3|]. split; [exact I4|]. rewrite I5. apply move_perm; lia.
  - injection E as <- <-. apply Nat.ltb_ge in Eh. auto.
Qed.

Lemma adjust_ok : forall v x, 0 < length v -> holed v 0 ->
  heap (adjust ts v x) /\ Permutation (adjust ts v x) (put v 0 x).
Proof.
  intros v x Hl Hv. unfold adjust. destruct (sift_down ts (length v) v 0 x) as [v1 h] eqn:E.
  destruct (sift_down_ok (length v) v 0 x v1 h ltac:(lia) Hl Hv E) as (L & Hh & Hv1 & Hend & P).
  pose proof (Nat.div_mod (length v - 1) 2 ltac:(lia)) as D1. pose proof (Nat.mod_upper_bound (length v - 1) 2 ltac:(lia)) as M1.
  destruct (Nat.even (length v) && (h =? (length v - 2) / 2)) eqn:Ee.
  - apply andb_prop in Ee. destruct Ee as [E1 E2]. apply Nat.eqb_eq in E2. apply Nat.even_spec in E1. destruct E1 as [m Em].
    assert (h = m - 1) as Hm.
    { rewrite E2, Em. replace (2 * m - 2) with ((m - 1) * 2) by lia. apply Nat.div_mul. lia. }
    replace (2 * (h + 1) - 1) with (2 * h + 1) by lia.
    assert (parent (2 * h + 1) = h) as Ps by (apply parent_iff; lia).
    assert (holed (put v1 h (nth (2 * h + 1) v1 x)) (2 * h + 1)) as Hv2.
    { apply move_down; try lia; [exact Hv1|]. intros i d Hi Ei. apply parent_iff in Ei; [|lia].
      assert (i = 2 * h + 1) as -> by lia. rewrite (nth_indep v1 d x) by lia. unfold le. lia. }
    assert (length (put v1 h (nth (2 * h + 1) v1 x)) = length v1) as L2 by (apply put_length; lia).
    destruct (sift_up_ok (S (length v)) (put v1 h (nth (2 * h + 1) v1 x)) (2 * h + 1) x ltac:(lia) ltac:(lia) Hv2) as [H1 H2].
    { intros i d Hi Ei. apply parent_iff in Ei; lia. }
    split; [exact H1|]. rewrite H2, <- P. apply move_perm; lia.
  - destruct (sift_up_ok (S (length v)) v1 h x ltac:(lia) ltac:(lia) Hv1) as [H1 H2].
    + intros i d Hi Ei. exfalso. apply parent_iff in Ei; [|lia]. apply andb_false_iff in Ee. destruct Ee as [Ee|Ee].
      * apply Bool.not_true_iff_false in Ee. apply Ee. apply Nat.even_spec. exists (length v / 2).
        pose proof (Nat.div_mod (length v) 2 ltac:(lia)). pose proof (Nat.mod_upper_bound (length v) 2 ltac:(lia)). lia.
      * apply Nat.eqb_neq in Ee. pose proof (Nat.div_mod (length v - 2) 2 ltac:(lia)). pose proof (Nat.mod_upper_bound (length v - 2) 2 ltac:(lia)). lia.
    + split; [exact H1|]. rewrite H2. exact P.
Qed.

Lemma insert_ok : forall v x, heap v -> heap (pq_insert ts x v) /\ Permutation (pq_insert ts x v) (x :: v).
Proof.
  intros v x Hv. unfold pq_insert.
  destruct (sift_up_ok (S (length v)) (v ++ [x]) (length v) x) as [H1 H2].
  - lia.
  - rewrite app_length. cbn. lia.
  - split.
    + intros i d Hi N1 N2. rewrite app_length in Hi. cbn [length] in Hi. pose proof (parent_lt i ltac:(lia)).
      rewrite !app_nth1 by lia. apply Hv. lia.
    + intros i d Hi E H0. rewrite app_length in Hi. cbn [length] in Hi. pose proof (parent_lt i ltac:(lia)). lia.
  - intros i d Hi E. rewrite app_length in Hi. cbn [length] in Hi. pose proof (parent_lt i ltac:(lia)). lia.
  - split; [exact H1|]. rewrite H2. unfold put. rewrite firstn_app, Nat.sub_diag, firstn_all. cbn [firstn].
    rewrite skipn_all2 by (rewrite app_length; cbn; lia). rewrite app_nil_r. symmetry. apply Permutation_cons_append.
Qed.

Lemma removelast_length : forall (v : list T), length (removelast v) = length v - 1.
Proof. induction v as [|a [|b v] IH]; cbn [removelast length] in *; lia. Qed.
Lemma removelast_nth : forall (v : list T) i d, i < length v - 1 -> nth i (removelast v) d = nth i v d.
Proof.
  induction v as [|a [|b v] IH]; intros i d H; cbn [length] in H; try lia.
  change (removelast (a :: b :: v)) with (a :: removelast (b :: v)). destruct i as [|i]; [reflexivity|]. cbn [nth].
  apply IH. cbn [length]. lia.
Qed.

Lemma remove_ok : forall v x, heap v -> pq_first v = Some x ->
  heap (pq_remove ts v) /\ Permutation (x :: pq_remove ts v) v.
Proof.
  intros v x Hv Hx. destruct v as [|a [|b v]]; cbn in Hx; [discriminate|injection Hx as ->|injection Hx as ->].
  - cbn. split; [intros i d Hi; cbn in Hi; lia|reflexivity].
  - set (w := x :: b :: v) in *. assert (2 <= length w) as Lw by (cbn; lia).
    change (pq_remove ts w) with (adjust ts (removelast w) (last w x)).
    destruct (adjust_ok (removelast w) (last w x)) as [H1 H2].
    + rewrite removelast_length. lia.
    + split.
      * intros i d Hi N1 N2. rewrite removelast_length in Hi. pose proof (parent_lt i ltac:(lia)).
        rewrite !removelast_nth by lia. apply Hv. lia.
      * intros i d Hi E H0. lia.
    + split; [exact H1|]. rewrite H2.
      pose proof (put_perm (removelast w) 0 (last w x) x ltac:(rewrite removelast_length; lia)) as P.
      change (nth 0 (removelast w) x) with x in P. rewrite P.
      rewrite (app_removelast_last x (l := w)) at 3 by discriminate. apply Permutation_cons_append.
Qed.

Lemma first_least : forall v x, heap v -> pq_first v = Some x -> Forall (fun y => (ts x <= ts y)%Z) v.
Proof.
  intros v x Hv Hx. apply Forall_forall. intros y Hy. apply (In_nth _ _ x) in Hy. destruct Hy as (i & Hi & <-).
  assert (nth 0 v x = x) as E0 by (destruct v; [discriminate|cbn in *; congruence]).
  induction i as [i IH] using (well_founded_induction lt_wf).
  destruct (Nat.eq_dec i 0) as [->|N]; [rewrite E0; lia|].
  pose proof (parent_lt i ltac:(lia)) as Hp. pose proof (IH (parent i) Hp ltac:(lia)). pose proof (Hv i x ltac:(lia)) as X. unfold le in X. lia.
Qed.

Lemma heap_run : forall ops, heap (pq_run ts ops).
Proof.
  intros ops. unfold pq_run. assert (forall v, heap v -> heap (fold_left (pq_step ts) ops v)) as G; [|apply G; intros i d Hi; cbn in Hi; lia].
  induction ops as [|o ops IH]; intros v Hv; cbn [fold_left]; [exact Hv|]. apply IH. destruct o as [x|]; cbn [pq_step].
  - exact (proj1 (insert_ok v x Hv)).
  - destruct (pq_first v) as [x|] eqn:E; [exact (proj1 (remove_ok v x Hv E))|]. destruct v; [exact Hv|discriminate].
Qed.

End Proofs.
