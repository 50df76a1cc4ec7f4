(** C42: the clean-up of the DAPHNE skip-list handler. *)
From Coq Require Import ZArith List Bool Lia ZifyBool Sorted.
From Verif Require Import Base_model SkipList_model SkipList_spec SkipList_proofs Daphne_model Daphne_proofs.
Import ListNotations.
Open Scope Z_scope.

Lemma sorted_incr {A} (ts : A -> Z) l : StronglySorted (fun x y => ts x < ts y) l -> incr ts l.
Proof. induction 1 as [|x l S IH F]; [exact I|]. split; [|exact IH]. now apply Forall_forall. Qed.
Lemma incr_sorted {A} (ts : A -> Z) l : incr ts l -> StronglySorted (fun x y => ts x < ts y) l.
Proof. induction l as [|x l IH]; intros H; constructor; destruct H as [H1 H2]; auto. now apply Forall_forall. Qed.

Lemma forallb_filter_id {A} (f : A -> bool) l : forallb f l = true -> filter f l = l.
Proof. induction l as [|x l IH]; [reflexivity|]. cbn. intros H. apply andb_true_iff in H as [-> H]. f_equal. auto. Qed.

(** C42. Undisturbed clean-up of any non-empty content in time order, oldest element [x], newest [last l x]. If the span
    is at most 10000000 ticks nothing happens; otherwise exactly the elements less than 10000000 ticks older than the
    newest stay, all others are removed, oldest first. No null pointer is dereferenced, the loop ends. *)
Theorem C42_exact :
  forall {A : Type} (ts : A -> Z) (x : A) (l' : list A) (fuel : nat),
    let l := x :: l' in
    let newest := last l x in
    StronglySorted (fun x y => ts x < ts y) l -> (forall y, In y l -> 0 <= ts y < two64) -> (length l < fuel)%nat ->
    exists c hit, daphne_cleanup ts fuel [] l = Some (Ok (c, hit)) /\
      hit = (ts newest - ts x >? 10000000) /\
      (if hit then cl_list c = filter (fun y => ts newest - ts y <? 10000000) l /\ cl_removed c = filter (fun y => 10000000 <=? ts newest - ts y) l
       else cl_list c = l /\ cl_removed c = []).
Proof.
  intros A ts x l' fuel l newest S R F. assert (I := sorted_incr ts l S).
  destruct (last_largest ts l x I ltac:(discriminate)) as [N1 N2]. fold newest in N1, N2.
  assert (B1 : sl_back l = Some newest) by reflexivity. assert (B2 : sl_front l = Some x) by reflexivity. unfold daphne_cleanup. rewrite B1, B2.
  assert (X : In x l) by now left. assert (U : u64 (ts newest - ts x) = ts newest - ts x).
  { unfold u64. apply Z.mod_small. pose proof (N2 x X). pose proof (R x X). pose proof (R _ N1). lia. }
  rewrite U. change max_ts_diff with 10000000. destruct (Z.gtb_spec (ts newest - ts x) 10000000) as [G|G].
  - destruct (loop_ok ts fuel [] newest x l I R ltac:(intros ? []) N1 X) as (c & E & [D1 D2 D3 D4 D5 D6 D7]); [change max_ts_diff with 10000000; lia|unfold total_len; cbn [map fold_right]; lia|].
    rewrite E. exists c, true. split; [reflexivity|]. split; [reflexivity|]. change max_ts_diff with 10000000 in *.
    assert (K : cl_list c = filter (fun y => ts newest - ts y <? 10000000) l).
    { apply (incr_ext ts); auto; [now apply incr_filter|]. intros y. rewrite filter_In. split; intros H.
      - split; [destruct (D5 y (or_introl H)) as [|[]]; auto|]. specialize (D3 y H). lia.
      - destruct H as [H1 H2]. destruct (D6 y H1) as [|H3]; [auto|]. specialize (D2 y H3). lia. }
    split; [exact K|]. assert (C : cl_removed c ++ cl_list c = l) by (apply (loop_removed_incr ts fuel (ts newest) x l c I); auto).
    rewrite <- C, filter_app. rewrite (forallb_filter_id _ (cl_removed c)).
    + enough (filter (fun y => 10000000 <=? ts newest - ts y) (cl_list c) = []) as -> by now rewrite app_nil_r.
      clear - D3. induction (cl_list c) as [|y k IH]; [reflexivity|]. cbn [filter]. pose proof (D3 y (or_introl eq_refl)).
      replace (10000000 <=? ts newest - ts y) with false by lia. apply IH. intros z H0. apply D3. now right.
    + apply forallb_forall. intros y H. specialize (D2 y H). lia.
  - exists (mk_cleaned l [] 0), false. auto.
Qed.
Print Assumptions C42_exact.
Example C42_exact_ex : daphne_cleanup (fun x : Z => x) 9 [] [5; 100; 300; 10000100; 10000299] = Some (Ok (mk_cleaned [300; 10000100; 10000299] [5; 100] 2, true)) /\
  daphne_cleanup (fun x : Z => x) 9 [] [5; 100; 10000005] = Some (Ok (mk_cleaned [5; 100; 10000005] [] 0, false)) /\
  daphne_cleanup (fun x : Z => x) 9 [] [] = Some (Ok (mk_cleaned [] [] 0, false)) /\
  StronglySorted Z.lt [5; 100; 300; 10000100; 10000299].
Proof. do 3 (split; [vm_compute; reflexivity|]). repeat constructor. Qed.

(** The same while another thread inserts arbitrary elements between the rounds: the loop still ends without a null
    pointer; only elements at least 10000000 ticks older than the newest one seen at the start are removed, every
    element left is younger than that, the newest stays, nothing of the start is lost, and an element inserted during
    the clean-up and young enough is there at the end (or an earlier one with its timestamp). *)
Theorem C42_concurrent :
  forall {A : Type} (ts : A -> Z) (x : A) (l' : list A) (ins : list (list A)) (fuel : nat),
    let l := x :: l' in
    let newest := last l x in
    StronglySorted (fun x y => ts x < ts y) l -> (forall y, In y l \/ In y (concat ins) -> 0 <= ts y < two64) ->
    ts newest - ts x > 10000000 -> (length l + length (concat ins) < fuel)%nat ->
    exists c, daphne_cleanup ts fuel ins l = Some (Ok (c, true)) /\
      StronglySorted (fun x y => ts x < ts y) (cl_list c) /\
      (forall y, In y (cl_removed c) -> 10000000 <= ts newest - ts y) /\
      (forall y, In y (cl_list c) -> ts newest - ts y < 10000000) /\
      In newest (cl_list c) /\
      (forall y, In y l -> In y (cl_list c) \/ In y (cl_removed c)) /\
      (forall y, In y (cl_list c) \/ In y (cl_removed c) -> In y l \/ In y (concat ins)) /\
      (forall y, In y (concat (firstn (cl_rounds c) ins)) -> ts newest - ts y < 10000000 -> exists z, In z (cl_list c) /\ ts z = ts y).
Proof.
  intros A ts x l' ins fuel l newest S R G F. assert (I := sorted_incr ts l S).
  destruct (last_largest ts l x I ltac:(discriminate)) as [N1 N2]. fold newest in N1, N2. assert (X : In x l) by now left.
  assert (U : u64 (ts newest - ts x) = ts newest - ts x).
  { unfold u64. apply Z.mod_small. pose proof (N2 x X). pose proof (R x (or_introl X)). pose proof (R _ (or_introl N1)). lia. }
  assert (TL : total_len ins = length (concat ins)). { clear. induction ins as [|a ins IH]; [reflexivity|]. cbn. rewrite app_length. unfold total_len in IH. lia. }
  destruct (loop_ok ts fuel ins newest x l I) as (c & E & [D1 D2 D3 D4 D5 D6 D7]); auto.
  { intros y H. apply R. now left. } { intros xs H y Hy. apply R. right. apply in_concat. eauto. } { change max_ts_diff with 10000000. lia. } { rewrite TL. exact F. }
  exists c. split.
  - assert (B1 : sl_back l = Some newest) by reflexivity. assert (B2 : sl_front l = Some x) by reflexivity. unfold daphne_cleanup. rewrite B1, B2.
    rewrite U. change max_ts_diff with 10000000 in *. destruct (Z.gtb_spec (ts newest - ts x) 10000000); [|lia]. now rewrite E.
  - split; [now apply incr_sorted|]. change max_ts_diff with 10000000 in *. repeat split; auto.
Qed.
Print Assumptions C42_concurrent.
Example C42_concurrent_ex : daphne_cleanup (fun x : Z => x) 9 [[1; 10000500]; [400; 2]] [5; 100; 300; 10000100; 10000299] =
  Some (Ok (mk_cleaned [300; 400; 10000100; 10000299; 10000500] [5; 1; 2; 100] 4, true)).
Proof. vm_compute. reflexivity. Qed.
