From Coq Require Import ZArith List Bool Lia ZifyBool.
From Verif Require Import Base_model Ring_model Ring_spec Ring_proofs SkipList_model SkipList_spec SkipList_proofs
  Lb_model Float_model Float_proofs Registry_model Cleanup_model Cleanup_spec.
Import ListNotations.
Open Scope Z_scope.

Section Ring.
Context {E : Type}.
Variable ts : E -> Z.

(** Any ring-based buffer: occupancy, front and pop are those of the ring. *)
Definition ring_like (L : lb E (ring E)) : Prop :=
  (forall r, lb_occupancy L r = occupancy r) /\ (forall r, lb_front L r = deref_opt r (front r)) /\
  (forall k r, lb_pop L k r = pop k r).

Lemma bs_ring_like : ring_like (bs_lb ts).
Proof. repeat split. Qed.
Lemma fr_ring_like : forall nframes tick, ring_like (fr_lb ts nframes tick).
Proof. repeat split. Qed.

Variable L : lb E (ring E).
Hypothesis HL : ring_like L.

Lemma pop_loop_ring : forall k next r l c, holds r l -> (k <= length l)%nat ->
  exists j r', pop_loop ts L k next r c = Ok (r', c + Z.of_nat j) /\ pop j r = Ok r' /\
    trimmed ts (Z.of_nat k) next l (skipn j l) j.
Proof.
  destruct HL as (_ & Hfr & Hpop).
  induction k as [|k IH]; intros next r l c H Hk.
  - exists 0%nat, r. cbn [pop_loop pop]. split; [f_equal; f_equal; lia|]. split; [reflexivity|].
    split; [reflexivity|]. split; [lia|]. split; [lia|]. split; [intros x []|left; reflexivity].
  - destruct l as [|x l]; [cbn [length] in Hk; lia|]. cbn [pop_loop].
    rewrite Hfr, (front_ok r (x :: l) H). cbn [bind hd_error].
    destruct (ts x <? next) eqn:Et.
    + destruct (pop_ok 1 r (x :: l) H ltac:(cbn [length]; lia)) as (r1 & E1 & H1 & _).
      rewrite Hpop, E1. cbn [bind]. cbn [skipn] in H1.
      destruct (IH next r1 l (c + 1) H1 ltac:(cbn [length] in Hk; lia)) as (j & r' & E2 & E3 & T).
      exists (S j), r'. split; [rewrite E2; f_equal; f_equal; lia|].
      split.
      { cbn [pop] in E1 |- *. destruct (popFront r); [|discriminate]. injection E1 as ->. exact E3. }
      destruct T as (_ & T2 & T3 & T4 & T5). split; [reflexivity|]. cbn [length firstn].
      split; [lia|]. split; [lia|]. split; [intros y [<-|Hy]; [lia|apply T4; exact Hy]|].
      destruct T5 as [T5|(y & T5 & T6)]; [left; lia|right; exists y; split; assumption].
    + exists 0%nat, r. split; [f_equal; f_equal; lia|]. split; [reflexivity|].
      split; [reflexivity|]. split; [lia|]. split; [lia|]. split; [intros y []|].
      right. exists x. split; [reflexivity|lia].
Qed.

(** What a clean-up does to a ring holding [l]. *)
Lemma cleanup_holds : forall limit pct next r l reg st,
  holds r l -> proper_share pct -> Z.of_nat (length l) < 2 ^ 24 ->
  (Z.of_nat (length l) <= limit -> exists st', cleanup ts L limit pct next r reg st = Ok (r, reg, st') /\ ps_count st' = ps_count st) /\
  (limit < Z.of_nat (length l) ->
   exists j r', pop j r = Ok r' /\ trimmed ts (share pct (Z.of_nat (length l))) next l (skipn j l) j /\
     match nth_error l j with
     | Some x => exists st', cleanup ts L limit pct next r reg st = Ok (r', remove_errors_until (ts x) reg, st') /\
                             ps_count st' = ps_count st + Z.of_nat j
     | None => cleanup ts L limit pct next r reg st = Crash
     end).
Proof.
  intros limit pct next r l reg st H Hp Hlen. pose proof HL as (Hocc & Hfr & Hpop).
  unfold cleanup. rewrite Hocc, (occupancy_ok r l H). split.
  - intros Hle. destruct (limit <? Z.of_nat (length l)) eqn:E1; [lia|]. eexists. split; reflexivity.
  - intros Hgt. destruct (limit <? Z.of_nat (length l)) eqn:E1; [|lia].
    pose proof (share_bound pct (Z.of_nat (length l)) Hp ltac:(lia)) as Hs.
    destruct (pop_loop_ring (Z.to_nat (share pct (Z.of_nat (length l)))) next r l 0 H ltac:(lia)) as (j & r' & E2 & E3 & T).
    rewrite Z2Nat.id in T by lia.
    exists j, r'. split; [exact E3|]. split; [exact T|]. rewrite E2. cbn [bind].
    destruct T as (_ & T2 & _). destruct (pop_ok j r l H T2) as (r1 & E4 & H1 & _).
    rewrite E3 in E4. injection E4 as <-. rewrite Hfr, (front_ok r' (skipn j l) H1). cbn [bind].
    destruct (nth_error l j) as [x|] eqn:Ex.
    + rewrite (skipn_cons_nth l j x Ex). cbn [hd_error]. eexists. split; reflexivity.
    + apply nth_error_None in Ex. rewrite skipn_all2 by exact Ex. reflexivity.
Qed.

Lemma pop_reached_ring : forall n (ops : list (op E)) r q k r', supported_size n -> Forall supported_op ops ->
  reached n ops r q -> (k <= length (q_items q))%nat -> pop k r = Ok r' ->
  exists q', reached n (ops ++ [OPop k]) r' q' /\ q_items q' = skipn k (q_items q).
Proof.
  intros n ops r q k r' Hn Hf Hr Hk Ep.
  destruct Hr as (r0 & E0 & Er & Eq).
  exists (mk_queue (q_size q) (skipn k (q_items q))). split; [|reflexivity].
  exists r0. split; [exact E0|]. split.
  - rewrite (run_app ops _ r0 r Er). cbn [run step bind]. rewrite Ep. reflexivity.
  - rewrite (q_run_app ops _ _ q Eq). cbn [q_run q_step].
    destruct (k <=? length (q_items q))%nat eqn:E1; [reflexivity|]. apply Nat.leb_gt in E1. lia.
Qed.

(** C16. *)
Lemma c16 : forall n (ops : list (op E)) r q limit pct next reg st res_,
  supported_size n -> Forall supported_op ops -> reached n ops r q ->
  proper_share pct -> Z.of_nat (length (q_items q)) < 2 ^ 24 ->
  cleanup ts L limit pct next r reg st = Ok res_ ->
  (Z.of_nat (length (q_items q)) <= limit -> fst (fst res_) = r /\ snd (fst res_) = reg /\ ps_count (snd res_) = ps_count st) /\
  (limit < Z.of_nat (length (q_items q)) ->
   exists k q', reached n (ops ++ [OPop k]) (fst (fst res_)) q' /\
     trimmed ts (share pct (Z.of_nat (length (q_items q)))) next (q_items q) (q_items q') k /\
     ps_count (snd res_) = ps_count st + Z.of_nat k).
Proof.
  intros n ops r q limit pct next reg st [[r1 reg1] st1] Hn Hf Hr Hp Hlen E0. cbn [fst snd].
  destruct (reached_sim n ops r q Hn Hf Hr) as [H _].
  destruct (cleanup_holds limit pct next r (q_items q) reg st H Hp Hlen) as [C1 C2]. split.
  - intros Hle. destruct (C1 Hle) as (st' & E1 & E2). rewrite E1 in E0. injection E0 as <- <- <-.
    repeat split; exact E2.
  - intros Hgt. destruct (C2 Hgt) as (j & r' & E3 & T & E4).
    destruct (pop_reached_ring n ops r q j r' Hn Hf Hr (proj1 (proj2 T)) E3) as (q' & Hq & Ei).
    destruct (nth_error (q_items q) j) as [x|]; [|rewrite E4 in E0; discriminate].
    destruct E4 as (st' & E4 & E5). rewrite E4 in E0. injection E0 as <- <- <-.
    exists j, q'. split; [exact Hq|]. rewrite Ei. split; [exact T|exact E5].
Qed.

(** Without recording exactly the quota goes. *)
Lemma trimmed_no_recording : forall quota next l l' k, trimmed ts quota next l l' k ->
  (forall x, In x l -> ts x < next) -> Z.of_nat k = quota.
Proof.
  intros quota next l l' k (_ & _ & _ & _ & [H|(x & Hx & Hn)]) Hall; [exact H|].
  specialize (Hall x (nth_error_In _ _ Hx)). lia.
Qed.

(** C17. *)
Lemma c17_survives : forall n (ops : list (op E)) r q limit pct next reg st,
  supported_size n -> Forall supported_op ops -> reached n ops r q ->
  proper_share pct -> ~ full_share pct -> 0 <= limit < Z.of_nat (length (q_items q)) ->
  Z.of_nat (length (q_items q)) < 2 ^ 24 ->
  exists r' st' k x, cleanup ts L limit pct next r reg st = Ok (r', remove_errors_until (ts x) reg, st') /\
    nth_error (q_items q) k = Some x /\
    exists q', reached n (ops ++ [OPop k]) r' q' /\ q_items q' = skipn k (q_items q) /\ hd_error (q_items q') = Some x.
Proof.
  intros n ops r q limit pct next reg st Hn Hf Hr Hp Hnf Hlim Hlen.
  destruct (reached_sim n ops r q Hn Hf Hr) as [H _].
  destruct (cleanup_holds limit pct next r (q_items q) reg st H Hp Hlen) as [_ C2].
  destruct (C2 ltac:(lia)) as (j & r' & E3 & T & E4).
  pose proof (share_less pct (Z.of_nat (length (q_items q))) Hp Hnf ltac:(lia)) as Hs.
  destruct (nth_error (q_items q) j) as [x|] eqn:Ex.
  - destruct E4 as (st' & E4 & _). exists r', st', j, x. split; [exact E4|]. split; [exact Ex|].
    destruct (pop_reached_ring n ops r q j r' Hn Hf Hr (proj1 (proj2 T)) E3) as (q' & Hq & Ei).
    exists q'. split; [exact Hq|]. split; [exact Ei|]. rewrite Ei. rewrite (skipn_cons_nth _ _ _ Ex). reflexivity.
  - exfalso. apply nth_error_None in Ex. destruct T as (_ & _ & T & _). lia.
Qed.

Lemma c17_crash : forall n (ops : list (op E)) r q limit pct next reg st,
  supported_size n -> Forall supported_op ops -> reached n ops r q ->
  proper_share pct -> full_share pct -> 0 <= limit < Z.of_nat (length (q_items q)) ->
  Z.of_nat (length (q_items q)) < 2 ^ 24 -> (forall x, In x (q_items q) -> ts x < next) ->
  cleanup ts L limit pct next r reg st = Crash.
Proof.
  intros n ops r q limit pct next reg st Hn Hf Hr Hp Hfu Hlim Hlen Hall.
  destruct (reached_sim n ops r q Hn Hf Hr) as [H _].
  destruct (cleanup_holds limit pct next r (q_items q) reg st H Hp Hlen) as [_ C2].
  destruct (C2 ltac:(lia)) as (j & r' & E3 & T & E4).
  pose proof (trimmed_no_recording _ _ _ _ _ T Hall) as Ej.
  rewrite (share_full pct (Z.of_nat (length (q_items q))) Hp Hfu ltac:(lia)) in Ej.
  destruct (nth_error (q_items q) j) as [x|] eqn:Ex; [|exact E4].
  exfalso. assert (j < length (q_items q))%nat by (apply nth_error_Some; congruence). lia.
Qed.

End Ring.

(** C08: the same code on a skip list. *)
Section SkipList.
Context {E : Type}.
Variable ts : E -> Z.

Lemma pop_loop_list : forall k next (l : list E) x l0 c, l = x :: l0 -> ts x < next -> (k < length l)%nat ->
  pop_loop ts (sl_lb ts) k next l c = Ok (firstn (length l - k) l, c + Z.of_nat k).
Proof.
  induction k as [|k IH]; intros next l x l0 c El Hx Hk.
  - cbn [pop_loop]. rewrite Nat.sub_0_r, firstn_all. f_equal. f_equal. lia.
  - cbn [pop_loop lb_front sl_lb lb_pop]. cbn [bind]. rewrite El at 1. cbn [sl_front hd_error].
    destruct (ts x <? next) eqn:Et; [|lia]. cbn [bind sl_pop].
    assert (exists l1, removelast l = x :: l1) as (l1 & E1).
    { rewrite El. destruct l0 as [|y l0]; [rewrite El in Hk; cbn [length] in Hk; lia|].
      exists (removelast (y :: l0)). reflexivity. }
    rewrite (IH next (removelast l) x l1 (c + 1) E1 Hx) by (rewrite removelast_length; lia).
    f_equal. f_equal; [|lia]. rewrite removelast_length.
    replace (length l - 1 - k)%nat with (length l - S k)%nat by lia.
    assert (removelast l = firstn (length l - 1) l) as -> by (apply (pop_firstn 1 l)).
    rewrite firstn_firstn. f_equal. lia.
Qed.

Lemma c08_cleanup : forall (ops : list (sl_op E)) l limit pct next reg st,
  Forall (valid_op ts) ops -> never_huge ts [] ops -> snd (sl_run ts [] ops) = l ->
  proper_share pct -> ~ full_share pct -> 0 <= limit < Z.of_nat (length l) -> Z.of_nat (length l) < 2 ^ 24 ->
  (forall x, In x l -> ts x < next) ->
  exists reg' st', cleanup ts (sl_lb ts) limit pct next l reg st =
    Ok (firstn (length l - Z.to_nat (share pct (Z.of_nat (length l)))) l, reg', st').
Proof.
  intros ops l limit pct next reg st Hv Hh El Hp Hnf Hlim Hlen Hall.
  destruct (reached_incr ts ops Hv Hh) as (_ & _ & Hl). rewrite El in Hl. clear El Hv Hh ops.
  unfold cleanup. cbn [lb_occupancy sl_lb]. rewrite (occupancy_exact l Hl).
  destruct (limit <? Z.of_nat (length l)) eqn:E1; [|lia].
  pose proof (share_less pct (Z.of_nat (length l)) Hp Hnf ltac:(lia)) as Hs.
  pose proof (share_bound pct (Z.of_nat (length l)) Hp ltac:(lia)) as Hs0.
  destruct l as [|x l0] eqn:El; [cbn [length] in Hlim; lia|]. rewrite <- El in *.
  rewrite (pop_loop_list _ next l x l0 0 El) by (try (apply Hall; rewrite El; left; reflexivity); lia).
  cbn [bind lb_front sl_lb sl_front].
  set (k := (length l - Z.to_nat (share pct (Z.of_nat (length l))))%nat).
  assert (0 < k)%nat as Hk by (unfold k; lia). clearbody k.
  rewrite El. destruct k as [|k]; [lia|]. cbn [firstn hd_error]. eexists. eexists. reflexivity.
Qed.

End SkipList.
