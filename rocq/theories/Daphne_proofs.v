(** Proofs about the DAPHNE clean-up. *)
From Coq Require Import ZArith List Bool Lia ZifyBool Permutation.
From Verif Require Import Base_model SkipList_model SkipList_spec SkipList_proofs Daphne_model.
Import ListNotations.
Open Scope Z_scope.

Section Proofs.
Context {A : Type}.
Variable ts : A -> Z.

Definition ranged (l : list A) : Prop := forall y, In y l -> 0 <= ts y < two64.

Lemma insert_keeps x l y : incr ts l -> In y l -> In y (fst (sl_insert ts x l)).
Proof.
  intros I H. destruct (insert_ok ts x l I) as [[(_ & P & _)|(_ & E & _)] _]; [|now rewrite E].
  apply (Permutation_in _ (Permutation_sym P)). now right.
Qed.
Lemma insert_from x l y : incr ts l -> In y (fst (sl_insert ts x l)) -> y = x \/ In y l.
Proof.
  intros I H. destruct (insert_ok ts x l I) as [[(_ & P & _)|(_ & E & _)] _].
  - apply (Permutation_in _ P) in H. destruct H; auto.
  - rewrite E in H. auto.
Qed.
Lemma insert_present x l : incr ts l -> present ts (ts x) (fst (sl_insert ts x l)).
Proof.
  intros I. destruct (insert_ok ts x l I) as [[(_ & P & _)|(_ & E & P)] _].
  - exists x. split; auto. apply (Permutation_in _ (Permutation_sym P)). now left.
  - now rewrite E.
Qed.
Lemma insert_len x l : incr ts l -> (length (fst (sl_insert ts x l)) <= S (length l))%nat.
Proof.
  intros I. destruct (insert_ok ts x l I) as [[(_ & P & _)|(_ & E & P)] _].
  - apply Permutation_length in P. cbn in P. lia.
  - rewrite E. lia.
Qed.

Lemma insert_all_ok xs : forall l, incr ts l ->
  incr ts (insert_all ts xs l) /\ (forall y, In y l -> In y (insert_all ts xs l)) /\
  (forall y, In y (insert_all ts xs l) -> In y l \/ In y xs) /\
  (forall x, In x xs -> present ts (ts x) (insert_all ts xs l)) /\
  (length (insert_all ts xs l) <= length l + length xs)%nat.
Proof.
  induction xs as [|x xs IH]; intros l I; cbn [insert_all fold_left length].
  - repeat split; auto; try contradiction. lia.
  - destruct (insert_ok ts x l I) as [_ I1]. destruct (IH _ I1) as (J1 & J2 & J3 & J4 & J5).
    change (fold_left (fun l x => fst (sl_insert ts x l)) xs ?z) with (insert_all ts xs z) in *.
    split; [exact J1|]. split; [|split; [|split]].
    + intros y H. apply J2, insert_keeps; auto.
    + intros y H. destruct (J3 y H) as [H1|H1]; [|right; now right]. destruct (insert_from x l y I H1) as [->|]; [right; now left|now left].
    + intros z [->|H]; [|auto]. destruct (insert_present z l I) as (w & W1 & W2). exists w. auto.
    + pose proof (insert_len x l I). lia.
Qed.

Lemma incr_filter (f : A -> bool) l : incr ts l -> incr ts (filter f l).
Proof.
  induction l as [|x l IH]; intros I; [exact I|]. destruct I as [I1 I2]. cbn [filter]. destruct (f x); [|auto].
  split; [|auto]. intros y H. apply filter_In in H. apply I1, H.
Qed.
Lemma incr_inj l x y : incr ts l -> In x l -> In y l -> ts x = ts y -> x = y.
Proof.
  induction l as [|z l IH]; intros I Hx Hy E; [contradiction|]. destruct I as [I1 I2].
  destruct Hx as [->|Hx], Hy as [->|Hy]; auto.
  - specialize (I1 _ Hy). lia.
  - specialize (I1 _ Hx). lia.
Qed.
Lemma filter_len_lt (f : A -> bool) l x : In x l -> f x = false -> (length (filter f l) < length l)%nat.
Proof.
  induction l as [|y l IH]; intros H E; [contradiction|]. cbn [filter]. destruct H as [->|H].
  - rewrite E. cbn [length]. assert (length (filter f l) <= length l)%nat; [|lia]. clear. induction l as [|z l IH]; cbn; [lia|]. destruct (f z); cbn; lia.
  - specialize (IH H E). destruct (f y); cbn [length]; lia.
Qed.

Definition total_len (ins : list (list A)) : nat := fold_right plus 0%nat (map (@length A) ins).

(** What the loop does. *)
Record done (tailts : Z) (tail : A) (ins : list (list A)) (l : list A) (c : @cleaned A) : Prop := mk_done {
  d_incr : incr ts (cl_list c);
  d_removed : forall x, In x (cl_removed c) -> max_ts_diff <= tailts - ts x;
  d_kept : forall x, In x (cl_list c) -> tailts - ts x < max_ts_diff;
  d_tail : In tail (cl_list c);
  d_from : forall x, In x (cl_list c) \/ In x (cl_removed c) -> In x l \/ In x (concat ins);
  d_all : forall x, In x l -> In x (cl_list c) \/ In x (cl_removed c);
  d_ins : forall x, In x (concat (firstn (cl_rounds c) ins)) -> tailts - ts x < max_ts_diff -> present ts (ts x) (cl_list c)
}.

Lemma loop_ok fuel : forall ins tail head l, incr ts l -> ranged l -> (forall xs, In xs ins -> ranged xs) ->
  In tail l -> In head l -> max_ts_diff <= ts tail - ts head -> (length l + total_len ins < fuel)%nat ->
  exists c, daphne_loop ts fuel ins (ts tail) head l = Some (Ok c) /\ done (ts tail) tail ins l c.
Proof.
  induction fuel as [|fuel IH]; intros ins tail head l I RG RI HT HH D F; [lia|]. cbn [daphne_loop].
  set (xs := match ins with [] => [] | xs :: _ => xs end). set (l0 := insert_all ts xs l).
  destruct (insert_all_ok xs l I) as (I0 & K1 & K2 & K3 & K4). fold l0 in I0, K1, K2, K3, K4.
  assert (XI : forall x, In x xs -> In x (concat ins)). { intros x H. unfold xs in H. destruct ins; [contradiction|]. cbn. apply in_or_app. now left. }
  assert (R0 : ranged l0). { intros y H. destruct (K2 y H) as [H1|H1]; [auto|]. unfold xs in H1. destruct ins as [|zs ins]; [contradiction|]. apply (RI zs); [now left|exact H1]. }
  unfold sl_remove. cbn [fst snd]. set (l1 := filter (fun y => negb (ts y =? ts head)) l0).
  assert (EX : existsb (fun y => ts y =? ts head) l0 = true). { apply existsb_exists. exists head. split; [auto|lia]. } rewrite EX.
  assert (T1 : In tail l1). { apply filter_In. split; [auto|]. unfold max_ts_diff in D. lia. }
  assert (I1 : incr ts l1) by now apply incr_filter.
  assert (R1 : ranged l1). { intros y H. apply filter_In in H. apply R0, H. }
  assert (L1 : (length l1 < length l0)%nat). { apply (filter_len_lt _ _ head); [auto|lia]. }
  assert (ALL : forall x, In x l0 -> x = head \/ In x l1).
  { intros x H. destruct (Z.eq_dec (ts x) (ts head)); [left; apply (incr_inj l0); auto|right; apply filter_In; split; [auto|lia]]. }
  destruct l1 as [|h1 l1'] eqn:EL; [contradiction|]. cbn [hd_error]. rewrite <- EL in *.
  assert (H1 : In h1 l1) by (rewrite EL; now left).
  assert (MIN : forall y, In y l1 -> ts h1 <= ts y). { intros y H. rewrite EL in H. destruct H as [->|H]; [lia|]. rewrite EL in I1. destruct I1 as [M _]. specialize (M _ H). lia. }
  assert (U : u64 (ts tail - ts h1) = ts tail - ts h1).
  { unfold u64. apply Z.mod_small. pose proof (MIN _ T1). pose proof (R1 _ T1). pose proof (R1 _ H1). lia. }
  rewrite U. assert (XF : forall x, In x l1 -> In x l \/ In x (concat ins)).
  { intros x H. apply filter_In in H. destruct H as [H _]. destruct (K2 x H); [now left|right; auto]. }
  destruct (Z.geb_spec (ts tail - ts h1) max_ts_diff) as [GE|LT].
  - assert (TL : (length l1 + total_len (tl ins) < fuel)%nat).
    { unfold total_len in *. unfold xs in K4. destruct ins; cbn [tl map fold_right length] in *; lia. }
    destruct (IH (tl ins) tail h1 l1 I1 R1) as (c & E & [D1 D2 D3 D4 D5 D6 D7]); auto; [intros zs H; apply RI; destruct ins; [contradiction|now right]|].
    rewrite E. eexists. split; [reflexivity|]. constructor; cbn [cl_list cl_removed cl_rounds]; auto.
    + intros x [<-|H]; [lia|auto].
    + assert (TI : forall x, In x (concat (tl ins)) -> In x (concat ins)). { intros x H. destruct ins; [contradiction|]. cbn in *. apply in_or_app. now right. }
      intros x [H|[<-|H]]; [| auto |].
      * destruct (D5 x) as [|]; auto.
      * destruct (D5 x) as [|]; auto.
    + intros x H. destruct (ALL x (K1 x H)) as [->|H2]; [right; now left|]. destruct (D6 x H2) as [|H3]; [now left|right; now right].
    + intros x H LT. destruct ins as [|zs ins]; [contradiction|]. cbn [firstn concat] in H. apply in_app_or in H. destruct H as [H|H]; [|apply D7; auto].
      destruct (K3 x H) as (w & W1 & W2). exists w. split; [|auto]. destruct (ALL w W1) as [->|W3]; [lia|]. destruct (D6 w W3) as [|W4]; [auto|]. specialize (D2 w W4). lia.
  - eexists. split; [reflexivity|]. constructor; cbn [cl_list cl_removed cl_rounds]; auto.
    + intros x [<-|[]]. lia.
    + intros x H. specialize (MIN x H). lia.
    + intros x [H|[<-|[]]]; auto.
    + intros x H. destruct (ALL x (K1 x H)) as [->|H2]; [right; now left|now left].
    + intros x H LT2. destruct ins as [|zs ins]; [contradiction|]. cbn [firstn concat] in H. rewrite app_nil_r in H.
      destruct (K3 x H) as (w & W1 & W2). exists w. split; [|auto]. destruct (ALL w W1) as [->|W3]; [lia|auto].
Qed.

(** Two increasing lists with the same elements are the same. *)
Lemma incr_ext : forall l l', incr ts l -> incr ts l' -> (forall x, In x l <-> In x l') -> l = l'.
Proof.
  induction l as [|x l IH]; intros [|y l'] I I' E; auto.
  - destruct (proj2 (E y)); now left.
  - destruct (proj1 (E x)); now left.
  - destruct I as [I1 I2], I' as [J1 J2].
    assert (x = y).
    { destruct (proj1 (E x) (or_introl eq_refl)) as [|H]; [auto|]. destruct (proj2 (E y) (or_introl eq_refl)) as [|H']; [auto|].
      specialize (I1 _ H'). specialize (J1 _ H). lia. }
    subst y. f_equal. apply IH; auto. intros z. split; intros H.
    + destruct (proj1 (E z) (or_intror H)) as [->|]; [|auto]. specialize (I1 _ H). lia.
    + destruct (proj2 (E z) (or_intror H)) as [->|]; [|auto]. specialize (J1 _ H). lia.
Qed.

Lemma loop_removed_incr fuel : forall tailts head l c, incr ts l -> hd_error l = Some head ->
  daphne_loop ts fuel [] tailts head l = Some (Ok c) -> cl_removed c ++ cl_list c = l.
Proof.
  induction fuel as [|fuel IH]; intros tailts head l c I H E; [discriminate|]. destruct l as [|h l]; [discriminate|]. cbn in H. injection H as ->.
  cbn [daphne_loop insert_all fold_left] in E. unfold sl_remove in E. cbn [fst snd filter existsb] in E. rewrite Z.eqb_refl in E. cbn [negb orb] in E.
  destruct I as [I1 I2]. assert (FL : filter (fun y => negb (ts y =? ts head)) l = l).
  { clear - I1. induction l as [|z l IH]; [reflexivity|]. cbn [filter]. specialize (I1 z (or_introl eq_refl)) as Z1.
    replace (negb (ts z =? ts head)) with true by lia. f_equal. apply IH. intros y H. apply I1. now right. }
  rewrite FL in E. destruct l as [|h1 l]; [discriminate|]. cbn [hd_error] in E. destruct (_ >=? _).
  - cbn [tl] in E. destruct (daphne_loop ts fuel [] tailts h1 (h1 :: l)) as [[c1|]|] eqn:E1; try discriminate. injection E as <-. cbn [cl_removed cl_list app].
    f_equal. apply (IH tailts h1 (h1 :: l) c1); auto.
  - injection E as <-. reflexivity.
Qed.
End Proofs.
