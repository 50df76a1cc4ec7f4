(** The two buffers of photon detector links keep the promises Pds_proofs.v asks of a buffer. *)
From Coq Require Import String ZArith List Bool Lia Sorted.
From Verif Require Import Base_model Emu_model Emu_spec Elem_model Ring_model Ring_spec Ring_proofs SkipList_model SkipList_spec SkipList_proofs
  Lb_model Lb_proofs Float_model Float_proofs Registry_model Request_model Request_spec Request_proofs Cleanup_model Cleanup_spec Cleanup_proofs
  Daphne_model Daphne_proofs Daphne_props Link_model Link_proofs Chain_model Chain_spec Chain_proofs Chain_proofs3 Pds_model Pds_spec Pds_proofs.
Import ListNotations.
Open Scope Z_scope.

Section Buffers.
Variable p1 p2 stride : nat.
Variable c : emu_conf.
Variable t0 dnf n : Z.
Variable lk : link.
Variable running : bool.
Variable N : nat.
Hypothesis Ht0 : 0 <= t0.
Hypothesis Htick : 0 < em_tick c.
Hypothesis Hdnf : 0 <= dnf.
Hypothesis HN : t0 + Z.of_nat N * (12 * em_tick c) < two64.

Notation sel := (slot_elem c p1 p2 stride t0).
Notation tm := (slot_time c t0).

Lemma wfs_wf l : wfs N l -> wf (em_tick c) (map sel l).
Proof. intros [I L]. exact (slots_wf p1 p2 stride c t0 Ht0 Htick l N I L HN). Qed.

Lemma tm_lt i j : (i < j)%nat -> tm i < tm j.
Proof. intro H. unfold slot_time. nia. Qed.

Lemma tm_bounds i : (i < N)%nat -> 0 <= tm i < two64.
Proof. intro H. unfold slot_time. nia. Qed.

(** From the two theorems on requests to the reply of the device. *)
Lemma reply_from seen l dr st rp : right_answer dnf running (map sel l) dr st rp ->
  (forall k fr st', rp = Ok (k, Some fr, st') -> mirrors lk dr (fg_header fr)) ->
  (map sel l <> [] -> oldest_ts (map sel l) <= rq_begin dr -> rq_end dr <= newest_ts (map sel l) ->
   exists st', rp = Ok (kFound, Some (mk_fragment (create_fragment_header lk dr) (window_bytes (seen (rq_begin dr) (map sel l)) (rq_begin dr) (rq_end dr))), st')) ->
  exists k f st', rp = Ok (k, f, st') /\ reply_ok p1 p2 stride c t0 dnf lk running seen l dr k f.
Proof.
  intros (fo & st' & E & _ & M) Hm Hf. rewrite answer_classify in E, M. exists (answer c t0 running l (rq_begin dr) (rq_end dr)), fo, st'. split; [exact E|].
  unfold reply_ok. destruct (answer c t0 running l (rq_begin dr) (rq_end dr)) eqn:An.
  - rewrite <- (answer_classify p1 p2 stride) in An. unfold classify in An. destruct (map sel l) as [|x l'] eqn:El; [discriminate|].
    destruct ((oldest_ts (x :: l') <=? rq_begin dr) && (rq_end dr <=? newest_ts (x :: l'))) eqn:Ew.
    2:{ destruct (rq_begin dr <? oldest_ts (x :: l')); [discriminate|destruct running; discriminate]. }
    apply andb_true_iff in Ew as [W1 W2]. apply Z.leb_le in W1, W2.
    destruct (Hf ltac:(discriminate) W1 W2) as (st2 & E2). rewrite E in E2. injection E2 as -> _. reflexivity.
  - destruct M as (fr & -> & M1 & M2). exists fr. repeat split; auto; eapply Hm; exact E.
  - rewrite M. reflexivity.
Qed.

(** ** The ring *)
Section Ring.
Hypothesis Hn : 2 <= n <= 2 ^ 24.
Definition ring_holds (r : ring elem) (l : list elem) : Prop :=
  exists iops q, Forall supported_op iops /\ reached n iops r q /\ q_items q = l /\ q_size q = n.

Lemma sup : supported_size n.
Proof. unfold supported_size. lia. Qed.

Lemma ring_len r l : ring_holds r l -> Z.of_nat (List.length l) <= n - 1.
Proof.
  intros (io & q & H1 & H2 & <- & H4). destruct (reached_sim n io r q sup H1 H2) as [Hh Hs]. pose proof (h_len _ _ Hh). lia.
Qed.

Lemma ring_new_holds r : ring_new n = Ok r -> ring_holds r [].
Proof.
  intro E. exists [], (q_new n). split; [constructor|]. split; [|split; reflexivity]. exists r. split; [exact E|]. split; reflexivity.
Qed.

Lemma ring_write b l i : wfs N (l ++ [i]) -> ring_holds b (map sel l) ->
  exists b', lb_write (bs_lb e_ts) (sel i) b = Ok (b', ring_room n l) /\ ring_holds b' (map sel (if ring_room n l then l ++ [i] else l)).
Proof.
  intros _ (io & q & H1 & H2 & H3 & H4). cbn [lb_write bs_lb].
  pose proof (reached_sim n io _ q sup H1 H2) as Hs. pose proof (step_sim _ _ (OWrite (sel i)) Hs I) as Hx.
  pose proof (fun r' y => reached_snoc n io b q (OWrite (sel i)) r' y sup H1 I H2) as Hsn.
  cbn [step] in Hx, Hsn. destruct (write (sel i) b) as [[r' ok]|]; cbn [bind] in *.
  2:{ unfold q_step in Hx. destruct (_ <? _) in Hx; contradiction. }
  destruct (Hsn r' (RBool ok) eq_refl) as (q' & Hr' & Hq'). exists r'.
  unfold q_step in Hq'. unfold ring_room. rewrite H3, H4, map_length in Hq'.
  assert (Fs : Forall supported_op (io ++ [OWrite (sel i)])) by (apply Forall_app; split; [exact H1|repeat constructor]).
  destruct (Z.of_nat (List.length l) <? n - 1) eqn:E; injection Hq' as <- <-.
  - split; [reflexivity|]. eexists _, _. split; [exact Fs|]. split; [exact Hr'|]. cbn [q_items q_size]. split; [rewrite map_app; reflexivity|reflexivity].
  - split; [reflexivity|]. eexists _, _. split; [exact Fs|]. split; [exact Hr'|]. auto.
Qed.

(** Elements before [next] are the first ones. *)
Lemma early_prefix next l : increasing l -> forall k, (k <= List.length l)%nat ->
  (forall i, In i (firstn k l) -> tm i < next) -> (forall i, nth_error l k = Some i -> next <= tm i) ->
  List.length (filter (fun i => tm i <? next) l) = k.
Proof.
  induction l as [|x l IH]; intros I k Hk H1 H2; [cbn in *; lia|]. destruct I as [I1 I2]. cbn [filter]. destruct k as [|k].
  - specialize (H2 x eq_refl). destruct (Z.ltb_spec (tm x) next); [lia|].
    assert (E : filter (fun i => tm i <? next) l = []).
    { clear IH Hk H1 I2. induction l as [|y l IH]; [reflexivity|]. inversion I1 as [|? ? A B]; subst. cbn [filter].
      pose proof (tm_lt x y A). destruct (Z.ltb_spec (tm y) next); [lia|]. apply IH, B. }
    rewrite E. reflexivity.
  - assert (A : tm x < next) by (apply H1; left; reflexivity). destruct (Z.ltb_spec (tm x) next); [|lia]. cbn [List.length]. f_equal.
    apply (IH I2 k); [cbn in Hk; lia| |exact H2]. intros i Hi. apply H1. right. exact Hi.
Qed.

Lemma early_all next l k : increasing l -> (k <= List.length l)%nat -> (forall i, In i (firstn k l) -> tm i < next) ->
  (k <= List.length (filter (fun i => (tm i <? next)%Z) l))%nat.
Proof.
  intros _ Hk H. rewrite <- (firstn_skipn k l) at 1. rewrite filter_app, app_length.
  assert (E : filter (fun i => tm i <? next) (firstn k l) = firstn k l).
  { revert H. generalize (firstn k l). induction l0 as [|x l0 IH]; intro H; [reflexivity|]. cbn [filter].
    rewrite (proj2 (Z.ltb_lt _ _) (H x (or_introl eq_refl))). f_equal. apply IH. intros i Hi. apply H. right. exact Hi. }
  rewrite E, firstn_length. lia.
Qed.

Lemma ring_clean b l limit pct next reg p : wfs N l -> ring_holds b (map sel l) -> good_ring_call (XClean limit pct next) ->
  exists b' reg' p', cleanup e_ts (bs_lb e_ts) limit pct next b reg p = Ok (b', reg', p') /\ ring_holds b' (map sel (ring_keep c t0 limit pct next l)).
Proof.
  intros W Hb (G1 & G2 & G3). pose proof (ring_len _ _ Hb) as HL. rewrite map_length in HL. destruct Hb as (io & q & H1 & H2 & H3 & H4).
  destruct (reached_sim n io b q sup H1 H2) as [Hh _].
  assert (Hlt : Z.of_nat (List.length (q_items q)) < 2 ^ 24) by (rewrite H3, map_length; lia).
  destruct (cleanup_holds e_ts (bs_lb e_ts) (bs_ring_like e_ts) limit pct next b (q_items q) reg p Hh G2 Hlt) as [C1 C2].
  assert (Le : List.length (q_items q) = List.length l) by (rewrite H3, map_length; reflexivity). rewrite Le in *. unfold ring_keep.
  destruct (Z.leb_spec (Z.of_nat (List.length l)) limit) as [A|A].
  - destruct (C1 A) as (st' & E & _). exists b, reg, st'. split; [exact E|]. exists io, q. auto.
  - destruct (C2 ltac:(lia)) as (j & r' & Ep & T & Ej). pose proof (share_less pct (Z.of_nat (List.length l)) G2 G3 ltac:(lia)) as Hs.
    destruct T as (_ & T1 & T2 & T3 & T4). rewrite Le in T1.
    destruct (nth_error (q_items q) j) as [x|] eqn:Ex.
    2:{ exfalso. apply nth_error_None in Ex. lia. }
    destruct Ej as (st' & E & _). exists r', (remove_errors_until (e_ts x) reg), st'. split; [exact E|].
    assert (Ekj : Nat.min (Z.to_nat (share pct (Z.of_nat (List.length l)))) (List.length (filter (fun i => tm i <? next) l)) = j).
    { rewrite H3 in T3, Ex.
      assert (P1 : forall i, In i (firstn j l) -> tm i < next).
      { intros i Hi. rewrite <- (slot_elem_ts p1 p2 stride c t0). apply T3. rewrite firstn_map. apply in_map. exact Hi. }
      pose proof (early_all next l j (proj1 W) T1 P1) as P2.
      destruct T4 as [T4|(z & Hz & Tz)]; [lia|].
      rewrite (early_prefix next l (proj1 W) j T1 P1); [lia|]. intros i Hi. injection Hz as <-. rewrite nth_error_map, Hi in Ex. cbn in Ex. injection Ex as <-.
      rewrite slot_elem_ts in Tz. exact Tz. }
    rewrite Ekj. destruct (pop_reached_ring n io b q j r' sup H1 H2 ltac:(lia) Ep) as (q' & Hq & Ei).
    exists (io ++ [OPop j]), q'. split; [apply Forall_app; split; [exact H1|repeat constructor]|]. split; [exact Hq|].
    split; [rewrite Ei, H3, skipn_map; reflexivity|].
    destruct H2 as (r0 & E0 & Er & Eqq). destruct Hq as (r1 & E1 & Er1 & Eq1).
    rewrite (q_run_app io [OPop j] (q_new n) q Eqq) in Eq1. cbn [q_run q_step] in Eq1.
    destruct (j <=? List.length (q_items q))%nat; [|discriminate]. cbn [snd] in Eq1. injection Eq1 as <-. exact H4.
Qed.

Lemma skipn_increasing k l w : increasing (l ++ w) -> increasing (skipn k l ++ w) /\ incl (skipn k l) l.
Proof.
  intro H. split.
  - rewrite <- (firstn_skipn k l), <- app_assoc in H. apply increasing_app in H. apply H.
  - intros x Hx. rewrite <- (firstn_skipn k l). apply in_or_app. right. exact Hx.
Qed.

Lemma ring_keeps limit pct next l w : increasing (l ++ w) ->
  increasing (ring_keep c t0 limit pct next l ++ w) /\ incl (ring_keep c t0 limit pct next l) l.
Proof. intro H. unfold ring_keep. destruct (_ <=? _); [split; [exact H|apply incl_refl]|]. apply skipn_increasing, H. Qed.

Lemma ring_flush b l : wfs N l -> ring_holds b (map sel l) -> exists b', flush b = Ok b' /\ ring_holds b' [].
Proof.
  intros _ (io & q & H1 & H2 & H3 & H4).
  pose proof (reached_sim n io _ q sup H1 H2) as Hs. pose proof (step_sim _ _ OFlush Hs I) as Hx.
  pose proof (fun r' y => reached_snoc n io b q OFlush r' y sup H1 I H2) as Hsn.
  cbn [step] in Hx, Hsn. destruct (flush b) as [r'|]; cbn [bind] in *; [|contradiction].
  destruct (Hsn r' RUnit eq_refl) as (q' & Hr' & Hq'). cbn [q_step] in Hq'. injection Hq' as <-.
  exists r'. split; [reflexivity|]. eexists _, _. split; [|split; [exact Hr'|split; [reflexivity|exact H4]]].
  apply Forall_app. split; [exact H1|repeat constructor].
Qed.

Lemma ring_request b l dr missing st : wfs N l -> ring_holds b (map sel l) -> good_ring_call (XRequest dr) ->
  exists k f st', data_request dnf lk (em_tick c) (bs_lb e_ts) running missing b dr st = Ok (k, f, st') /\
    reply_ok p1 p2 stride c t0 dnf lk running ring_seen l dr k f.
Proof.
  intros W (io & q & H1 & H2 & H3 & H4) _. pose proof (wfs_wf l W) as Hw. apply (reply_from ring_seen l dr st).
  - rewrite <- H3. apply (c10_bs dnf lk (em_tick c) n io b q); auto using sup. rewrite H3. exact Hw.
  - intros k fr st' E. apply (header_mirrors _ _ _ _ _ _ _ _ _ _ _ _ E).
  - rewrite <- H3. intros A1 A2 A3. unfold ring_seen. apply (c09_bs dnf lk (em_tick c) n io b q); auto using sup; [lia|]. rewrite H3. exact Hw.
Qed.
End Ring.

(** ** The skip list *)
Section List.
Hypothesis Hhuge : Z.of_nat N < 2147483648.
Definition list_holds (b l : list elem) : Prop := b = l.

Lemma incr_slots l : increasing l -> incr e_ts (map sel l).
Proof.
  induction l as [|x l IH]; intro H; [exact I|]. destruct H as [H1 H2]. cbn [map incr]. split; [|apply IH, H2].
  intros y Hy. apply in_map_iff in Hy as (j & <- & Hj). rewrite !slot_elem_ts. apply tm_lt. rewrite Forall_forall in H1. apply H1, Hj.
Qed.

Lemma nonneg_slots l : nonneg e_ts (map sel l).
Proof. intros y Hy. apply in_map_iff in Hy as (j & <- & Hj). rewrite slot_elem_ts. unfold slot_time. nia. Qed.

Lemma increasing_length l : wfs N l -> (List.length l <= N)%nat.
Proof.
  intros [I L]. rewrite <- (seq_length N 0). apply NoDup_incl_length.
  - clear L. induction l as [|x l IH]; [constructor|]. destruct I as [I1 I2]. constructor; [|apply IH, I2].
    intro Hx. rewrite Forall_forall in I1. pose proof (I1 x Hx). lia.
  - intros i Hi. rewrite Forall_forall in L. apply in_seq. pose proof (L i Hi). lia.
Qed.

Lemma insert_last x l : (forall y, In y l -> e_ts y < e_ts x) -> sl_insert e_ts x l = (l ++ [x], true).
Proof.
  induction l as [|y l IH]; intro H; [reflexivity|]. cbn [sl_insert]. pose proof (H y (or_introl eq_refl)) as Hy.
  destruct (Z.ltb_spec (e_ts x) (e_ts y)); [lia|]. destruct (Z.ltb_spec (e_ts y) (e_ts x)); [|lia].
  rewrite IH by (intros z Hz; apply H; right; exact Hz). reflexivity.
Qed.

Lemma list_write b l i : wfs N (l ++ [i]) -> list_holds b (map sel l) ->
  exists b', lb_write (sl_lb e_ts) (sel i) b = Ok (b', list_room l) /\ list_holds b' (map sel (if list_room l then l ++ [i] else l)).
Proof.
  intros [W _] ->. apply increasing_app in W as (_ & _ & W). unfold list_room, list_holds.
  cbn [lb_write sl_lb]. unfold sl_write. rewrite insert_last.
  - eexists. split; [reflexivity|]. rewrite map_app. reflexivity.
  - intros y Hy. apply in_map_iff in Hy as (j & <- & Hj). rewrite !slot_elem_ts. apply tm_lt.
    rewrite Forall_forall in W. specialize (W j Hj). inversion W; assumption.
Qed.

Lemma incr_strongly l : incr e_ts l -> StronglySorted (fun x y => e_ts x < e_ts y) l.
Proof.
  induction l as [|x l IH]; intro H; [constructor|]. destruct H as [H1 H2]. constructor; [apply IH, H2|]. apply Forall_forall. exact H1.
Qed.

Lemma list_cleans b l limit pct next reg p : wfs N l -> list_holds b (map sel l) -> good_list_call (XClean limit pct next) ->
  exists b' reg' p', list_clean limit pct next b reg p = Ok (b', reg', p') /\ list_holds b' (map sel (list_keep c t0 limit pct next l)).
Proof.
  intros [I L] -> _. unfold list_clean, list_holds, list_keep. destruct l as [|i l].
  - cbn. destruct (_ >? _); eexists _, _, _; split; reflexivity.
  - destruct (C42_exact e_ts (sel i) (map sel l) (S (List.length (map sel (i :: l)))) (incr_strongly _ (incr_slots (i :: l) I))) as (k & hit & E & Eh & M).
    + intros y Hy. change (sel i :: map sel l) with (map sel (i :: l)) in Hy. apply in_map_iff in Hy as (j & <- & Hj). rewrite slot_elem_ts.
      apply tm_bounds. rewrite Forall_forall in L. apply L, Hj.
    + cbn [map List.length]. lia.
    + change (sel i :: map sel l) with (map sel (i :: l)) in *. rewrite E.
      assert (La : last (map sel (i :: l)) (sel i) = sel (last (i :: l) 0%nat)).
      { destruct (exists_last (l := i :: l)) as (a & z & Ea); [discriminate|]. rewrite Ea, map_app, !last_last. cbn [map]. rewrite last_last. reflexivity. }
      rewrite La, !slot_elem_ts in Eh. cbn [hd]. rewrite <- Eh. eexists _, _, _. split; [reflexivity|]. destruct hit.
      * destruct M as [M _]. rewrite M, La, slot_elem_ts, filter_map_comm. apply f_equal. apply filter_ext. intro j. rewrite slot_elem_ts. reflexivity.
      * apply M.
Qed.

Lemma filter_increasing f l w : increasing (l ++ w) -> increasing (filter f l ++ w) /\ incl (filter f l) l.
Proof.
  intro H. split; [|apply incl_filter]. induction l as [|x l IH]; [exact H|]. cbn [app increasing] in H. destruct H as [H1 H2]. cbn [filter].
  destruct (f x); [|apply IH, H2]. cbn [app increasing]. split; [|apply IH, H2]. rewrite Forall_forall in *. intros y Hy. apply H1.
  apply in_app_or in Hy as [Hy|Hy]; apply in_or_app; [left|right; exact Hy]. apply filter_In in Hy. apply Hy.
Qed.

Lemma list_keeps limit pct next l w : increasing (l ++ w) ->
  increasing (list_keep c t0 limit pct next l ++ w) /\ incl (list_keep c t0 limit pct next l) l.
Proof. intro H. unfold list_keep. cbn zeta. destruct (_ >? _); [apply filter_increasing, H|]. split; [exact H|apply incl_refl]. Qed.

Lemma list_flushes b l : wfs N l -> list_holds b (map sel l) -> exists b', Ok (sl_flush b) = Ok b' /\ list_holds b' [].
Proof.
  intros W ->. eexists. split; [reflexivity|]. apply flush_nil. rewrite map_length. pose proof (increasing_length l W). lia.
Qed.

Lemma list_request b l dr missing st : wfs N l -> list_holds b (map sel l) -> good_list_call (XRequest dr) ->
  exists k f st', data_request dnf lk (em_tick c) (sl_lb e_ts) running missing b dr st = Ok (k, f, st') /\
    reply_ok p1 p2 stride c t0 dnf lk running list_seen l dr k f.
Proof.
  intros W -> G. cbn [good_list_call] in G. pose proof (wfs_wf l W) as Hw. pose proof (incr_slots l (proj1 W)) as Hi.
  assert (V : Lb_proofs.view (sl_lb e_ts) (map sel l) (map sel l) (sl_pos e_ts (map sel l))).
  { apply view_sl; [exact Hi|apply nonneg_slots|]. rewrite map_length. pose proof (increasing_length l W). lia. }
  apply (reply_from list_seen l dr st).
  - eapply (outcome dnf lk (em_tick c) (sl_lb e_ts)); [exact Hdnf|exact V|].
    intros Hne Hb He. destruct (newest_in _ Hne) as (y & Hy & Ey).
    destruct (sl_position (map sel l) (rq_begin dr) Hi) as (k & x & H1 & H2 & _).
    { exists y. split; [exact Hy|lia]. }
    exists k. split; [cbn; rewrite H2; reflexivity|]. apply nth_error_Some. congruence.
  - intros k fr st' E. apply (header_mirrors _ _ _ _ _ _ _ _ _ _ _ _ E).
  - intros A1 A2 A3. unfold list_seen. apply list_found; try assumption; try lia.
    + reflexivity.
    + intros b m ->. reflexivity.
Qed.
End List.
End Buffers.
