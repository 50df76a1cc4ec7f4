(** Proofs about a link as a whole. *)
From Coq Require Import String ZArith List Bool Lia.
From Verif Require Import Base_model Ring_model Ring_spec Ring_proofs Search_model Search_spec Elem_model Lb_model Float_model
  Registry_model Registry_proofs Request_model Request_spec Request_proofs Cleanup_model Cleanup_spec Cleanup_proofs
  Check_model Check_spec Check_proofs Link_model Link_spec.
Import ListNotations.
Open Scope Z_scope.

Section Reach.
Context {A : Type}.
Lemma nth_ext_error : forall (l l' : list A), length l = length l' ->
  (forall k x, nth_error l k = Some x -> nth_error l' k = Some x) -> l = l'.
Proof.
  induction l as [|a l IH]; intros [|b l'] E H; try discriminate; [reflexivity|]. f_equal.
  - specialize (H 0%nat a eq_refl). cbn in H. congruence.
  - apply IH; [cbn in E; congruence|]. intros k x Hk. apply (H (S k) x Hk).
Qed.

Lemma reached_snoc : forall n (ops : list (op A)) r q o r' y, supported_size n -> Forall supported_op ops -> supported_op o ->
  reached n ops r q -> step r o = Ok (r', y) -> exists q', reached n (ops ++ [o]) r' q' /\ q_step q o = Ok (q', y).
Proof.
  intros n ops r q o r' y Hn Hf Ho Hr E. pose proof (reached_sim n ops r q Hn Hf Hr) as Hs.
  pose proof (step_sim r q o Hs Ho) as Hx. rewrite E in Hx.
  destruct (q_step q o) as [[q' y']|] eqn:Eq; [|contradiction].
  destruct Hx as (Hy & Hq). subst y'. exists q'. split; [|reflexivity].
  destruct Hr as (r0 & E0 & Er & Eqq). exists r0. split; [exact E0|]. split.
  - rewrite (run_app ops [o] r0 r Er). cbn [run]. rewrite E. reflexivity.
  - rewrite (q_run_app ops [o] (q_new n) q Eqq). cbn [q_run]. rewrite Eq. reflexivity.
Qed.

Lemma holds_unique : forall (r : ring A) l l', holds r l -> holds r l' -> l = l'.
Proof.
  intros r l l' H H'. pose proof (occupancy_ok _ _ H). pose proof (occupancy_ok _ _ H').
  assert (length l = length l') as El by lia.
  apply nth_ext_error. exact El.
  intros k x Hk. assert (k < length l)%nat by (apply nth_error_Some; congruence).
  destruct (nth_error l' k) as [x'|] eqn:E'; [|apply nth_error_None in E'; lia].
  pose proof (deref_index _ _ _ _ H Hk). pose proof (deref_index _ _ _ _ H' E'). congruence.
Qed.
End Reach.

(** What the timestamp check does, without its counters. *)
Lemma check_effect : forall dur tick e c, 0 <= dur < two64 -> is_u64 (e_ts e) ->
  exists c', timestamp_check dur tick false e c = (e, c') /\ ck_prev c' = e_ts e /\
  ck_reg c' = if jumps dur (ck_prev c) (e_ts e)
              then add_error "MISSING_FRAMES" (mk_interval (u64 (ck_prev c + dur)) (e_ts e)) (ck_reg c) else ck_reg c.
Proof.
  intros dur tick e c Hd He. unfold timestamp_check. rewrite (jump_eq dur _ _ Hd He).
  eexists. split; [reflexivity|]. cbn [ck_prev ck_reg]. split; [reflexivity|]. reflexivity.
Qed.

Definition flagged (reg : registry) (t : Z) : Prop :=
  exists iv, In ("MISSING_FRAMES"%string, iv) reg /\ t <= iv_end iv.

Lemma flagged_add : forall reg iv t, t <= iv_end iv -> flagged (add_error "MISSING_FRAMES" iv reg) t.
Proof. intros. exists iv. split; [left; reflexivity|assumption]. Qed.

Lemma flagged_trim : forall reg t ts0, ts0 <= t -> flagged reg t -> flagged (remove_errors_until ts0 reg) t.
Proof.
  intros reg t ts0 H (iv & Hi & Ht). exists iv. split; [|exact Ht]. apply filter_In. split; [exact Hi|]. cbn [snd].
  apply negb_true_iff. apply Z.ltb_ge. lia.
Qed.

Lemma flagged_has : forall reg t, flagged reg t -> has_error "MISSING_FRAMES" reg = true.
Proof. intros reg t (iv & H & _). apply has_in. eauto. Qed.

Section Link.
Variable dnf : Z.
Variable lk : link.
Variable tick nf n : Z.
Variable resets running : bool.
Hypothesis Hdnf : 0 <= dnf.
Hypothesis Htick : 0 < tick.
Hypothesis Hnf : 0 < nf.
Hypothesis Hdur : tick * nf < two64.
Hypothesis Hsize : 2 <= n <= 2 ^ 24.

Notation dur := (tick * nf).
Notation lstep := (link_step dnf lk dur tick resets running).

Record inv (s : link_state) (arr : list elem) (iops : list (op elem)) (q : queue elem) (k : nat) : Prop := mk_inv {
  i_sup : Forall supported_op iops;
  i_reach : reached n iops (ls_ring s) q;
  i_qsize : q_size q = n;
  i_kle : (k <= length arr)%nat;
  i_items : q_items q = skipn k arr;
  i_wf : wf tick arr;
  i_num : Forall (fun e => e_num e = nf) arr;
  i_prev : forall a x, arr = a ++ [x] -> ck_prev (ls_check s) = e_ts x;
  i_flag : forall j x y, nth_error (q_items q) j = Some x -> nth_error (q_items q) (S j) = Some y ->
           e_ts y <> e_ts x + dur -> flagged (ck_reg (ls_check s)) (e_ts y)
}.

Lemma sup_n : supported_size n.
Proof. unfold supported_size. lia. Qed.

Lemma sizes : forall s arr ops q k, inv s arr ops q k -> Z.of_nat (length (q_items q)) < 2 ^ 24.
Proof.
  intros s arr ops q k H. destruct (reached_sim n ops _ q sup_n (i_sup _ _ _ _ _ H) (i_reach _ _ _ _ _ H)) as [Hh Hs].
  pose proof (h_len _ _ Hh). rewrite Hs, (i_qsize _ _ _ _ _ H) in H0. lia.
Qed.

Lemma wf_app_end : forall l e, wf tick (l ++ [e]) -> wf tick l.
Proof.
  intros l e [H1 H2]. split.
  - apply Forall_app in H1. apply H1.
  - intros i j x y f Hij Hx Hy Hf. apply (H2 i j x y f Hij); auto.
    + rewrite nth_error_app1; [exact Hx|]. apply nth_error_Some. congruence.
    + rewrite nth_error_app1; [exact Hy|]. apply nth_error_Some. congruence.
Qed.

Lemma wf_last : forall l e x, wf tick (l ++ [e]) -> In x l -> e_ts x < e_ts e.
Proof.
  intros l e x [H1 H2] Hx. destruct (In_nth_error _ _ Hx) as (i & Hi).
  apply Forall_app in H1 as [H1 _]. rewrite Forall_forall in H1.
  destruct (regular_first_in tick x (H1 x Hx)) as (f & Hf & Ef). rewrite <- Ef.
  assert (i < length l)%nat by (apply nth_error_Some; congruence).
  apply (H2 i (length l) x e f); auto.
  - rewrite nth_error_app1; assumption.
  - rewrite nth_error_app2, Nat.sub_diag by lia. reflexivity.
Qed.

Lemma in_skipn : forall (T : Type) (l : list T) k x, In x (skipn k l) -> In x l.
Proof. intros T l k x H. rewrite <- (firstn_skipn k l). apply in_or_app. right. exact H. Qed.

Lemma skipn_skipn : forall (T : Type) (l : list T) a b, skipn a (skipn b l) = skipn (b + a) l.
Proof.
  intros T l a b. revert l. induction b as [|b IH]; intro l; [reflexivity|]. destruct l; [rewrite !skipn_nil; reflexivity|].
  cbn [skipn Nat.add]. apply IH.
Qed.

Lemma nth_error_skipn : forall (T : Type) (l : list T) a i, nth_error (skipn a l) i = nth_error l (a + i).
Proof.
  intros T l a. revert l. induction a as [|a IH]; intros l i; [reflexivity|]. destruct l; [destruct i; reflexivity|].
  cbn [skipn Nat.add nth_error]. apply IH.
Qed.

Lemma skipn_last : forall (T : Type) (l : list T) k j x, nth_error (skipn k l) j = Some x ->
  S j = length (skipn k l) -> exists a, l = a ++ [x].
Proof.
  intros T l k j x H E.
  destruct (exists_last (l := skipn k l)) as (a & z & Ha). { intro E0. rewrite E0 in H. destruct j; discriminate. }
  rewrite Ha, app_length in E. cbn [length] in E. rewrite Ha, nth_error_app2 in H by lia.
  replace (j - length a)%nat with 0%nat in H by lia. cbn in H. injection H as ->.
  exists (firstn k l ++ a). rewrite <- app_assoc, <- Ha. symmetry. apply firstn_skipn.
Qed.

Lemma inv_arrive : forall s arr ops q k e, inv s arr ops q k -> wf tick (arr ++ [e]) -> e_num e = nf ->
  exists s' b, lstep s (LArrive e) = Ok (s', OutWrite b) /\
  (b = true -> exists q', inv s' (arr ++ [e]) (ops ++ [OWrite e]) q' k).
Proof.
  intros s arr ops q k e H Hw He. destruct H as [H1 H2 H3 H4 H5 H6 H7 H8 H9].
  assert (regular tick e) as Hreg. { destruct Hw as [Hw _]. apply Forall_app in Hw as [_ Hw]. inversion Hw; assumption. }
  assert (is_u64 (e_ts e)) as Hu. { destruct Hreg as (_ & A & _ & B). unfold is_u64. rewrite He in B. nia. }
  destruct (check_effect dur tick e (ls_check s)) as (c' & Ec & Ep & Er); [nia|exact Hu|].
  unfold link_step. rewrite Ec.
  pose proof (reached_sim n ops _ q sup_n H1 H2) as Hs. pose proof (step_sim _ _ (OWrite e) Hs I) as Hx.
  pose proof (fun r' y => reached_snoc n ops (ls_ring s) q (OWrite e) r' y sup_n H1 I H2) as Hsn.
  cbn [step] in Hx, Hsn. destruct (write e (ls_ring s)) as [[r' b]|]; cbn [bind] in *.
  2:{ unfold q_step in Hx. destruct (_ <? _) in Hx; contradiction. }
  exists (mk_link_state r' c' (ls_pops s) (ls_stats s)), b. split; [reflexivity|].
  intros ->. destruct (Hsn r' (RBool true) eq_refl) as (q' & Hr' & Hq').
  unfold q_step in Hq'. destruct (_ <? _) in Hq'; [|discriminate]. injection Hq' as <-.
  exists (mk_queue (q_size q) (q_items q ++ [e])). split; cbn [ls_ring ls_check q_size q_items].
  - apply Forall_app. split; [exact H1|]. repeat constructor.
  - exact Hr'.
  - exact H3.
  - rewrite app_length. lia.
  - rewrite H5, skipn_app. replace (k - length arr)%nat with 0%nat by lia. reflexivity.
  - exact Hw.
  - apply Forall_app. split; [exact H7|]. repeat constructor. exact He.
  - intros a x E. apply app_inj_tail in E as [_ <-]. exact Ep.
  - intros j x y Hx0 Hy Hne. rewrite Er.
    assert (j < length (q_items q))%nat as Hj.
    { assert (S j < length (q_items q ++ [e]))%nat as Hl by (apply nth_error_Some; congruence).
      rewrite app_length in Hl. cbn [length] in Hl. lia. }
    rewrite nth_error_app1 in Hx0 by exact Hj.
    destruct (Nat.eq_dec (S j) (length (q_items q))) as [Ej|Ej].
    + rewrite nth_error_app2, Ej, Nat.sub_diag in Hy by lia. cbn in Hy. injection Hy as <-.
      rewrite H5 in Hx0, Ej. destruct (skipn_last _ arr k j x Hx0 Ej) as (a & Ea).
      rewrite (H8 a x Ea).
      assert (jumps dur (e_ts x) (e_ts e) = true) as ->.
      { unfold jumps. apply negb_true_iff, Z.eqb_neq. destruct H6 as [H6 _]. rewrite Ea in H6.
        apply Forall_app in H6 as [_ H6]. inversion H6 as [|? ? (_ & A & _ & B) _]; subst.
        rewrite Forall_forall in H7. rewrite (H7 x) in B by (apply in_or_app; right; left; reflexivity).
        rewrite <- two64_pow, Z.mod_small by nia. exact Hne. }
      apply flagged_add. cbn [iv_end]. lia.
    + assert (S j < length (q_items q))%nat as Hj2 by lia.
      rewrite nth_error_app1 in Hy by exact Hj2.
      assert (e_ts y < e_ts e) as Hlt.
      { apply (wf_last arr e y Hw). apply (in_skipn _ arr k). rewrite <- H5. apply nth_error_In in Hy. exact Hy. }
      destruct (jumps dur (ck_prev (ls_check s)) (e_ts e)).
      * apply flagged_add. cbn [iv_end]. lia.
      * apply (H9 j x y); auto.
Qed.

Lemma inv_clean : forall s arr ops q k limit pct next, inv s arr ops q k ->
  0 <= limit -> proper_share pct -> ~ full_share pct ->
  exists s' ops' q' k', lstep s (LClean limit pct next) = Ok (s', OutNone) /\ inv s' arr ops' q' k'.
Proof.
  intros s arr ops q k limit pct next H Hl Hp Hf. pose proof (sizes _ _ _ _ _ H) as Hlen.
  destruct H as [H1 H2 H3 H4 H5 H6 H7 H8 H9]. unfold link_step.
  destruct (Z.le_gt_cases (Z.of_nat (length (q_items q))) limit) as [Hle|Hgt].
  - destruct (reached_sim n ops _ q sup_n H1 H2) as [Hh _].
    destruct (cleanup_holds e_ts (fr_lb e_ts e_num tick) (fr_ring_like e_ts e_num tick) limit pct next _ _ (ck_reg (ls_check s)) (ls_pops s) Hh Hp Hlen) as [C1 _].
    destruct (C1 Hle) as (st' & E & _). rewrite E. cbn [bind].
    eexists _, ops, q, k. split; [reflexivity|]. split; cbn [ls_ring ls_check ck_prev ck_reg]; assumption.
  - destruct (c17_survives e_ts (fr_lb e_ts e_num tick) (fr_ring_like e_ts e_num tick) n ops (ls_ring s) q limit pct next (ck_reg (ls_check s)) (ls_pops s)
               sup_n H1 H2 Hp Hf ltac:(lia) Hlen) as (r' & st' & j & x & E & Ex & q' & Hr & Eq & Eh).
    rewrite E. cbn [bind].
    eexists _, (ops ++ [OPop j]), q', (k + j)%nat. split; [reflexivity|].
    assert (q_size q' = n) as Hqs.
    { pose proof (reached_sim n _ _ q sup_n H1 H2) as [_ S1].
      assert (Forall supported_op (ops ++ [OPop j])) as Hsup by (apply Forall_app; split; [exact H1|repeat constructor]).
      destruct H2 as (r0 & E0 & Er & Eqq). destruct Hr as (r1 & E1 & Er1 & Eq1).
      rewrite (q_run_app ops [OPop j] (q_new n) q Eqq) in Eq1. cbn [q_run q_step] in Eq1.
      destruct (j <=? length (q_items q))%nat; [|discriminate]. cbn [snd] in Eq1. injection Eq1 as <-. exact H3. }
    assert (j < length (q_items q))%nat as Hj by (apply nth_error_Some; congruence).
    split; cbn [ls_ring ls_check ck_prev ck_reg]; try assumption.
    + apply Forall_app. split; [exact H1|]. repeat constructor.
    + rewrite H5, skipn_length in Hj. lia.
    + rewrite Eq, H5. apply skipn_skipn.
    + intros i a b Ha Hb Hne. apply flagged_trim.
      * assert (nth_error (q_items q') 0 = Some x) as H0 by (destruct (q_items q'); [discriminate|exact Eh]).
        assert (wf tick (q_items q')) as Hw by (rewrite Eq, H5; apply wf_skipn, wf_skipn; exact H6).
        apply (wf_non_decreasing tick _ Hw 0%nat (S i) x b); auto. lia.
      * rewrite Eq in Ha, Hb. apply (H9 (j + i)%nat a b).
        -- rewrite nth_error_skipn in Ha. exact Ha.
        -- rewrite nth_error_skipn in Hb. replace (S (j + i)) with (j + S i)%nat by lia. exact Hb.
        -- exact Hne.
Qed.

Lemma no_gap_spaced : forall (l : list elem) x0 l0, l = x0 :: l0 ->
  (forall j x y, nth_error l j = Some x -> nth_error l (S j) = Some y -> e_ts y = e_ts x + dur) ->
  equally_spaced e_ts l (e_ts x0) dur.
Proof.
  intros l x0 l0 El H k. induction k as [|k IH]; intros x Hx.
  - rewrite El in Hx. cbn in Hx. injection Hx as <-. lia.
  - assert (exists y, nth_error l k = Some y) as (y & Hy).
    { assert (k < length l)%nat by (assert (S k < length l)%nat by (apply nth_error_Some; congruence); lia).
      destruct (nth_error l k) eqn:E; [eauto|]. apply nth_error_None in E. lia. }
    rewrite (H k y x Hy Hx), (IH y Hy). lia.
Qed.

(** Without the flag the contents are equally spaced. *)
Lemma unflagged_spaced : forall s arr ops q k x0 l0, inv s arr ops q k -> q_items q = x0 :: l0 ->
  has_error "MISSING_FRAMES" (ck_reg (ls_check s)) = false ->
  wf tick (q_items q) /\ e_num x0 = nf /\ equally_spaced e_ts (q_items q) (e_ts x0) dur /\
  e_ts x0 + Z.of_nat (length (q_items q)) * dur < two64.
Proof.
  intros s arr ops q k x0 l0 [H1 H2 H3 H4 H5 H6 H7 H8 H9] El Hf.
  assert (wf tick (q_items q)) as Hw by (rewrite H5; apply wf_skipn; exact H6).
  assert (Forall (fun e => e_num e = nf) (q_items q)) as Hn.
  { rewrite Forall_forall in *. intros x Hx. rewrite H5 in Hx. apply H7. apply in_skipn in Hx. exact Hx. }
  assert (equally_spaced e_ts (q_items q) (e_ts x0) dur) as Hsp.
  { apply (no_gap_spaced _ x0 l0 El). intros j x y Hx Hy. destruct (Z.eq_dec (e_ts y) (e_ts x + dur)) as [E|E]; [exact E|].
    pose proof (flagged_has _ _ (H9 j x y Hx Hy E)). congruence. }
  split; [exact Hw|]. split; [rewrite El in Hn; inversion Hn; assumption|]. split; [exact Hsp|].
  destruct (exists_last (l := q_items q)) as (a & z & Ea); [rewrite El; discriminate|].
  assert (nth_error (q_items q) (length a) = Some z) as Hz by (rewrite Ea, nth_error_app2, Nat.sub_diag by lia; reflexivity).
  pose proof (Hsp _ _ Hz) as Ez. destruct Hw as [Hw _]. rewrite Forall_forall in Hw.
  destruct (Hw z (nth_error_In _ _ Hz)) as (_ & _ & _ & Hb).
  rewrite Forall_forall in Hn. rewrite (Hn z (nth_error_In _ _ Hz)) in Hb.
  rewrite Ea, app_length. cbn [length]. lia.
Qed.

Notation ask s dr := (data_request dnf lk tick (fr_lb e_ts e_num tick) running
                        (has_error "MISSING_FRAMES" (ck_reg (ls_check s))) (ls_ring s) dr (ls_stats s)).

Lemma inv_right_answer : forall s arr ops q k dr, inv s arr ops q k -> rq_begin dr <= rq_end dr ->
  right_answer dnf running (q_items q) dr (ls_stats s) (ask s dr).
Proof.
  intros s arr ops q k dr Hi Hdr.
  assert (wf tick (q_items q)) as Hw by (rewrite (i_items _ _ _ _ _ Hi); apply wf_skipn; apply (i_wf _ _ _ _ _ Hi)).
  destruct (has_error "MISSING_FRAMES" (ck_reg (ls_check s))) eqn:E.
  - apply (c10_fr_flagged dnf lk tick n ops); auto using sup_n; apply Hi.
  - destruct (q_items q) as [|x0 l0] eqn:El.
    + replace ([] : list elem) with (q_items q).
      (* an empty buffer never reaches the search *)
      pose proof (c10_fr_flagged dnf lk tick n ops (ls_ring s) q running dr (ls_stats s) sup_n (i_sup _ _ _ _ _ Hi) (i_reach _ _ _ _ _ Hi) Hdnf) as Hr.
      rewrite El in Hr |- *. specialize (Hr Hw).
      destruct (reached_sim n ops _ q sup_n (i_sup _ _ _ _ _ Hi) (i_reach _ _ _ _ _ Hi)) as [Hh _]. rewrite El in Hh.
      unfold data_request in *. change (lb_occupancy (fr_lb e_ts e_num tick) (ls_ring s)) with (occupancy (ls_ring s)) in *.
      rewrite (occupancy_ok _ _ Hh) in *. exact Hr.
    + destruct (unflagged_spaced _ _ _ _ _ x0 l0 Hi El E) as (A1 & A2 & A3 & A4). rewrite <- El.
      apply (c10_fr_spaced dnf lk tick n ops _ q x0 l0); auto using sup_n; try apply Hi; rewrite A2; assumption.
Qed.

Lemma window_suffix : forall arr k b e, wf tick arr -> (k < length arr)%nat -> oldest_ts (skipn k arr) <= b ->
  window_bytes (skipn k arr) b e = window_bytes arr b e.
Proof.
  intros arr k b e [_ Ho] Hk Hb. unfold window_bytes. rewrite <- (firstn_skipn k arr) at 2.
  rewrite all_frames_app, filter_app, flat_map_app. rewrite (filter_all_frames_none _ (firstn k arr)); [reflexivity|].
  intros x f Hx Hf. destruct (In_nth_error _ _ Hx) as (i & Hi).
  assert (i < k)%nat as Hik. { assert (i < length (firstn k arr))%nat by (apply nth_error_Some; congruence). rewrite firstn_length in H. lia. }
  assert (nth_error arr i = Some x) as Hi'. { rewrite <- (firstn_skipn k arr), nth_error_app1; [exact Hi|]. rewrite firstn_length. lia. }
  destruct (nth_error arr k) as [y|] eqn:Ey; [|apply nth_error_None in Ey; lia].
  rewrite (skipn_cons_nth arr k y Ey) in Hb. cbn [oldest_ts] in Hb.
  pose proof (Ho i k x y f Hik Hi' Ey Hf). apply andb_false_iff. left. apply Z.leb_gt. lia.
Qed.

Lemma inv_served : forall s arr ops q k dr, inv s arr ops q k -> rq_begin dr <= rq_end dr ->
  q_items q <> [] -> oldest_ts (q_items q) <= rq_begin dr -> rq_end dr <= newest_ts (q_items q) ->
  exists st', ask s dr = Ok (kFound, Some (mk_fragment (create_fragment_header lk dr)
                                             (window_bytes arr (rq_begin dr) (rq_end dr))), st').
Proof.
  intros s arr ops q k dr Hi Hdr Hne Hb He.
  assert (wf tick (q_items q)) as Hw by (rewrite (i_items _ _ _ _ _ Hi); apply wf_skipn; apply (i_wf _ _ _ _ _ Hi)).
  rewrite <- (window_suffix arr k).
  - rewrite <- (i_items _ _ _ _ _ Hi).
    destruct (has_error "MISSING_FRAMES" (ck_reg (ls_check s))) eqn:E.
    + apply (c09_fr_flagged dnf lk tick n ops); auto using sup_n; try apply Hi. lia.
    + destruct (q_items q) as [|x0 l0] eqn:El; [congruence|].
      destruct (unflagged_spaced _ _ _ _ _ x0 l0 Hi El E) as (A1 & A2 & A3 & A4). rewrite <- El in *.
      apply (c09_fr_spaced dnf lk tick n ops _ q x0 l0); auto using sup_n; try apply Hi; rewrite A2; assumption.
  - apply Hi.
  - destruct (Nat.lt_ge_cases k (length arr)) as [|Hge]; [assumption|]. exfalso. apply Hne.
    rewrite (i_items _ _ _ _ _ Hi). apply skipn_all2. exact Hge.
  - rewrite <- (i_items _ _ _ _ _ Hi). exact Hb.
Qed.

Lemma inv_step : forall s arr ops q k o, inv s arr ops q k -> proper_op nf o ->
  let arr' := match o with LArrive e => arr ++ [e] | LRestart => [] | _ => arr end in
  wf tick arr' ->
  exists s' y, lstep s o = Ok (s', y) /\ (y <> OutWrite false -> exists ops' q' k', inv s' arr' ops' q' k').
Proof.
  intros s arr ops q k o Hi Hp arr' Hw. destruct o as [e|limit pct next|dr|]; subst arr'; cbn iota in *.
  - destruct (inv_arrive s arr ops q k e Hi Hw Hp) as (s' & b & E & H). exists s', (OutWrite b). split; [exact E|].
    intro Hne. destruct b; [|congruence]. destruct (H eq_refl) as (q' & H'). eauto.
  - destruct Hp as (P1 & P2 & P3). destruct (inv_clean s arr ops q k limit pct next Hi P1 P2 P3) as (s' & ops' & q' & k' & E & H).
    eauto 8.
  - destruct (inv_right_answer s arr ops q k dr Hi Hp) as (fo & st' & E & _). unfold link_step. rewrite E. cbn [bind].
    eexists _, _. split; [reflexivity|]. intros _. exists ops, q, k. destruct Hi as [H1 H2 H3 H4 H5 H6 H7 H8 H9].
    split; cbn [ls_ring ls_check]; assumption.
  - unfold link_step. destruct Hi as [H1 H2 H3 H4 H5 H6 H7 H8 H9].
    pose proof (reached_sim n ops _ q sup_n H1 H2) as Hs. pose proof (step_sim _ _ OFlush Hs I) as Hx.
    pose proof (fun r' y => reached_snoc n ops (ls_ring s) q OFlush r' y sup_n H1 I H2) as Hsn.
    cbn [step] in Hx, Hsn. destruct (flush (ls_ring s)) as [r'|]; cbn [bind] in *; [|contradiction].
    eexists _, _. split; [reflexivity|]. intros _. destruct (Hsn r' RUnit eq_refl) as (q' & Hr' & Hq').
    cbn [q_step] in Hq'. injection Hq' as <-. exists (ops ++ [OFlush]), (mk_queue (q_size q) []), 0%nat.
    split; cbn [ls_ring ls_check q_items q_size]; auto.
    + apply Forall_app. split; [exact H1|]. repeat constructor.
    + intros a x E. destruct a; discriminate.
    + intros [|j] x y Hx0; discriminate.
Qed.

Lemma received_snoc_gen : forall ops o acc,
  fold_left (fun acc o => match o with LArrive e => acc ++ [e] | LRestart => [] | _ => acc end) (ops ++ [o]) acc =
  match o with
  | LArrive e => fold_left (fun acc o => match o with LArrive e => acc ++ [e] | LRestart => [] | _ => acc end) ops acc ++ [e]
  | LRestart => []
  | _ => fold_left (fun acc o => match o with LArrive e => acc ++ [e] | LRestart => [] | _ => acc end) ops acc
  end.
Proof. intros. rewrite fold_left_app. reflexivity. Qed.

Lemma link_run_snoc : forall ops o s,
  link_run dnf lk dur tick resets running s (ops ++ [o]) =
  (do (s', ys) <- link_run dnf lk dur tick resets running s ops; do (s'', y) <- lstep s' o; Ok (s'', ys ++ [y])).
Proof.
  induction ops as [|p ops IH]; intros o s; cbn [app link_run].
  - cbn [bind]. destruct (lstep s o) as [[s' y]|]; reflexivity.
  - destruct (lstep s p) as [[s1 y1]|]; [|reflexivity]. cbn [bind]. rewrite IH.
    destruct (link_run dnf lk dur tick resets running s1 ops) as [[s2 ys]|]; [|reflexivity]. cbn [bind].
    destruct (lstep s2 o) as [[s3 y3]|]; reflexivity.
Qed.

Lemma inv_new : forall s0, link_new n = Ok s0 -> inv s0 [] [] (q_new n) 0.
Proof.
  intros s0 E. unfold link_new in E. destruct (ring_new n) as [r|] eqn:Er; [|discriminate]. cbn [bind] in E. injection E as <-.
  split; cbn [ls_ring ls_check q_items q_size q_new]; auto.
  - exists r. split; [exact Er|]. split; reflexivity.
  - split; [constructor|]. intros i j x y f _ Hx. destruct i; discriminate.
  - intros a x E. destruct a; discriminate.
  - intros [|j] x y Hx; discriminate.
Qed.

Lemma proper_prefix : forall ops o, proper_history tick nf (ops ++ [o]) -> proper_history tick nf ops /\ proper_op nf o /\ wf tick (received (ops ++ [o])).
Proof.
  intros ops o [H1 H2]. apply Forall_app in H1 as [H1 H1']. split; [split; [exact H1|]|split].
  - intro k. specialize (H2 (min k (length ops))). rewrite firstn_app in H2.
    replace (min k (length ops) - length ops)%nat with 0%nat in H2 by lia. cbn [firstn] in H2. rewrite app_nil_r in H2.
    destruct (Nat.le_ge_cases k (length ops)).
    + rewrite Nat.min_l in H2 by assumption. exact H2.
    + rewrite Nat.min_r in H2 by assumption. rewrite firstn_all2 by assumption. rewrite firstn_all in H2. exact H2.
  - inversion H1'; assumption.
  - specialize (H2 (length (ops ++ [o]))). rewrite firstn_all in H2. exact H2.
Qed.

Lemma refused_or_not : forall ys : list link_out, In (OutWrite false) ys \/ Forall (fun y => y <> OutWrite false) ys.
Proof.
  induction ys as [|y ys [IH|IH]]; [right; constructor|left; right; exact IH|].
  destruct y as [[]| |]; [right; constructor; [discriminate|exact IH]|left; left; reflexivity|right; constructor; [discriminate|exact IH]..].
Qed.

(** Every proper history runs; without a refused arrival the invariant holds after it. *)
Lemma inv_run : forall ops s0, link_new n = Ok s0 -> proper_history tick nf ops ->
  (exists s ys, link_run dnf lk dur tick resets running s0 ops = Ok (s, ys) /\
     (Forall (fun y => y <> OutWrite false) ys -> exists iops q k, inv s (received ops) iops q k)) \/
  (exists m s ys, (m <= length ops)%nat /\ link_run dnf lk dur tick resets running s0 (firstn m ops) = Ok (s, ys) /\ In (OutWrite false) ys).
Proof.
  induction ops as [|o ops IH] using rev_ind; intros s0 E0 Hp.
  - left. exists s0, []. split; [reflexivity|]. intros _. exists [], (q_new n), 0%nat. apply inv_new. exact E0.
  - destruct (proper_prefix ops o Hp) as (P1 & P2 & P3).
    destruct (IH s0 E0 P1) as [(s & ys & E & H)|(m & s & ys & Hm & E & H)].
    2:{ right. exists m, s, ys. rewrite app_length, firstn_app. replace (m - length ops)%nat with 0%nat by lia.
        cbn [firstn]. rewrite app_nil_r. repeat split; try assumption. lia. }
    destruct (refused_or_not ys) as [Hin|Hnin].
    { right. exists (length ops), s, ys. rewrite app_length, firstn_app, Nat.sub_diag, firstn_all. cbn [firstn]. rewrite app_nil_r.
      repeat split; try assumption. lia. }
    destruct (H Hnin) as (iops & q & k & Hi). unfold received in P3. rewrite received_snoc_gen in P3.
    destruct (inv_step s (received ops) iops q k o Hi P2) as (s' & y & Es & Hs).
    { destruct o; exact P3. }
    left. exists s', (ys ++ [y]). split.
    + rewrite link_run_snoc, E. cbn [bind]. rewrite Es. reflexivity.
    + intros Hall. apply Forall_app in Hall as [_ Hall]. inversion Hall as [|? ? Hy _]; subst. destruct (Hs Hy) as (o' & q' & k' & Hi').
      exists o', q', k'. unfold received. rewrite received_snoc_gen. destruct o; exact Hi'.
Qed.

Lemma c21_no_crash : forall ops s0, link_new n = Ok s0 -> proper_history tick nf ops ->
  link_run dnf lk dur tick resets running s0 ops = Crash ->
  exists m s ys, link_run dnf lk dur tick resets running s0 (firstn m ops) = Ok (s, ys) /\ In (OutWrite false) ys.
Proof.
  intros ops s0 E0 Hp Ec. destruct (inv_run ops s0 E0 Hp) as [(s & ys & E & _)|(m & s & ys & _ & E & H)].
  - rewrite E in Ec. discriminate.
  - eauto.
Qed.

Lemma firstn_run : forall ops m s0 s ys, link_run dnf lk dur tick resets running s0 ops = Ok (s, ys) ->
  exists s1, link_run dnf lk dur tick resets running s0 (firstn m ops) = Ok (s1, firstn m ys).
Proof.
  induction ops as [|o ops IH]; intros m s0 s ys E; cbn [link_run] in E.
  - injection E as <- <-. rewrite !firstn_nil. exists s0. reflexivity.
  - destruct (lstep s0 o) as [[s1 y]|] eqn:Es; [|discriminate]. cbn [bind] in E.
    destruct (link_run dnf lk dur tick resets running s1 ops) as [[s2 ys2]|] eqn:Er; [|discriminate]. cbn [bind] in E. injection E as <- <-.
    destruct m; [exists s0; reflexivity|]. destruct (IH m s1 s2 ys2 Er) as (s3 & E3).
    exists s3. cbn [firstn link_run]. rewrite Es. cbn [bind]. rewrite E3. reflexivity.
Qed.

Lemma inv_after : forall ops s0 s ys, link_new n = Ok s0 -> proper_history tick nf ops ->
  link_run dnf lk dur tick resets running s0 ops = Ok (s, ys) -> ~ In (OutWrite false) ys ->
  exists iops q k, inv s (received ops) iops q k.
Proof.
  intros ops s0 s ys E0 Hp E Hn. destruct (inv_run ops s0 E0 Hp) as [(s1 & ys1 & E1 & H)|(m & s1 & ys1 & _ & E1 & H)].
  - rewrite E in E1. injection E1 as <- <-. apply H. rewrite Forall_forall. intros y Hy Ey. subst. contradiction.
  - exfalso. destruct (firstn_run ops m s0 s ys E) as (s2 & E2). rewrite E1 in E2. injection E2 as _ ->.
    apply Hn. rewrite <- (firstn_skipn m ys). apply in_or_app. left. exact H.
Qed.

Lemma c21_flagged : forall ops s0 s ys, link_new n = Ok s0 -> proper_history tick nf ops ->
  link_run dnf lk dur tick resets running s0 ops = Ok (s, ys) -> ~ In (OutWrite false) ys ->
  exists iops q k, Forall supported_op iops /\ reached n iops (ls_ring s) q /\ q_items q = skipn k (received ops) /\
    (has_gap dur (q_items q) -> has_error "MISSING_FRAMES" (ck_reg (ls_check s)) = true).
Proof.
  intros ops s0 s ys E0 Hp E Hn. destruct (inv_after ops s0 s ys E0 Hp E Hn) as (iops & q & k & Hi).
  exists iops, q, k. split; [apply Hi|]. split; [apply Hi|]. split; [apply Hi|].
  intros (j & x & y & Hx & Hy & Hne). apply (flagged_has _ (e_ts y)). exact (i_flag _ _ _ _ _ Hi j x y Hx Hy Hne).
Qed.

Lemma c21_served : forall ops s0 s ys iops q dr, link_new n = Ok s0 -> proper_history tick nf ops ->
  link_run dnf lk dur tick resets running s0 ops = Ok (s, ys) -> ~ In (OutWrite false) ys ->
  Forall supported_op iops -> reached n iops (ls_ring s) q -> rq_begin dr <= rq_end dr ->
  exists s' c f, lstep s (LRequest dr) = Ok (s', OutReply c f) /\
    right_answer dnf running (q_items q) dr (ls_stats s) (Ok (c, f, ls_stats s')) /\
    (c = kFound -> f = Some (mk_fragment (create_fragment_header lk dr)
                               (window_bytes (received ops) (rq_begin dr) (rq_end dr)))).
Proof.
  intros ops s0 s ys iops q dr E0 Hp E Hn Hf Hr Hdr. destruct (inv_after ops s0 s ys E0 Hp E Hn) as (iops' & q' & k & Hi).
  assert (q_items q' = q_items q) as Eq.
  { destruct (reached_sim n iops _ q sup_n Hf Hr) as [A _].
    destruct (reached_sim n iops' _ q' sup_n (i_sup _ _ _ _ _ Hi) (i_reach _ _ _ _ _ Hi)) as [B _].
    apply (holds_unique _ _ _ B A). }
  pose proof (inv_right_answer s _ _ _ _ dr Hi Hdr) as Ha. rewrite Eq in Ha.
  destruct Ha as (fo & st' & Ea & Hc & Hm). unfold link_step. rewrite Ea. cbn [bind].
  eexists _, _, _. split; [reflexivity|]. cbn [ls_stats]. split.
  - exists fo, st'. split; [reflexivity|]. split; assumption.
  - intros Hfound. unfold classify in Hfound. destruct (q_items q) as [|x l] eqn:El; [discriminate|].
    destruct ((oldest_ts (x :: l) <=? rq_begin dr) && (rq_end dr <=? newest_ts (x :: l))) eqn:Ew.
    2:{ destruct (rq_begin dr <? oldest_ts (x :: l)); [discriminate|destruct running; discriminate]. }
    apply andb_true_iff in Ew as [W1 W2]. apply Z.leb_le in W1, W2.
    destruct (inv_served s _ _ _ _ dr Hi Hdr) as (st2 & E2); [rewrite Eq; discriminate|rewrite Eq; lia|rewrite Eq; lia|].
    rewrite Ea in E2. congruence.
Qed.

End Link.
