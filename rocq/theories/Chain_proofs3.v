(** Answers of an emulated link. *)
From Coq Require Import String ZArith List Bool Lia.
From Verif Require Import Base_model Bytes_model Codec_model Codec_spec Ebg_model Ebg_spec Emu_model
  Emu_spec Ring_model Ring_spec Ring_proofs Elem_model Lb_model Float_model Registry_model Request_model Request_spec
  Cleanup_spec Check_model Check_spec Link_model Link_spec Link_proofs Chain_model Chain_spec Chain_proofs Chain_proofs2.
Import ListNotations.
Open Scope Z_scope.

Section Chain.
Variable p1 p2 stride : nat.
Variable c : emu_conf.
Variable t0 dnf n : Z.
Variable lk : link.
Variable resets running : bool.
Hypothesis Htick : 0 < em_tick c.
Hypothesis Hdnf : 0 <= dnf.
Hypothesis Hn : 2 <= n <= 2 ^ 24.

Notation sel := (slot_elem c p1 p2 stride t0).
Notation cstep := (chain_step p1 p2 stride c dnf lk resets running).

Lemma answer_classify l b e : classify running (map sel l) b e = answer c t0 running l b e.
Proof.
  destruct l as [|i l]; [reflexivity|]. unfold classify, answer.
  assert (E1 : oldest_ts (map sel (i :: l)) = slot_time c t0 i) by (cbn [map oldest_ts]; apply slot_elem_ts).
  assert (E2 : newest_ts (map sel (i :: l)) = slot_time c t0 (last (i :: l) 0%nat)).
  { destruct (exists_last (l := i :: l)) as (a & z & ->); [discriminate|]. unfold newest_ts. rewrite map_app, rev_app_distr. cbn [map rev app oldest_ts].
    rewrite last_last. apply slot_elem_ts. }
  rewrite E1, E2. cbn [map]. destruct ((slot_time c t0 i <=? b) && _); [reflexivity|].
  destruct (b <? slot_time c t0 i); [reflexivity|]. destruct running; reflexivity.
Qed.

Lemma chain_answer ops s : cinv p1 p2 stride c t0 n resets ops s ->
  exists k, (k <= List.length (fl_got (flow_run (em_dropouts c) ops)))%nat /\ (Forall (fun o => ~ is_clean o) ops -> k = 0%nat) /\
  forall dr, rq_begin dr <= rq_end dr ->
  exists s' f, cstep s (XRequest dr) =
      Ok (s', OutReply (answer c t0 running (skipn k (fl_got (flow_run (em_dropouts c) ops))) (rq_begin dr) (rq_end dr)) f) /\
    match answer c t0 running (skipn k (fl_got (flow_run (em_dropouts c) ops))) (rq_begin dr) (rq_end dr) with
    | kFound => f = Some (mk_fragment (create_fragment_header lk dr)
                            (window_bytes (map sel (fl_got (flow_run (em_dropouts c) ops))) (rq_begin dr) (rq_end dr)))
    | kNotYet => f = None
    | kNotFound => exists fr, f = Some fr /\ fg_bytes fr = [] /\ Z.testbit (h_error_bits (fg_header fr)) dnf = true
    end.
Proof.
  intros X. set (got := fl_got _). destruct (x_link _ _ _ _ _ _ _ _ _ X) as (io & q & k & Hi & Hk). exists k.
  split; [rewrite <- (map_length sel); apply (i_kle _ _ _ _ _ _ _ _ Hi)|]. split; [exact Hk|]. intros dr Hdr.
  pose proof (i_items _ _ _ _ _ _ _ _ Hi) as Eq. fold got in Eq. rewrite skipn_map in Eq.
  destruct (inv_right_answer dnf lk (em_tick c) 12 n running Hdnf Htick Hn _ _ _ _ _ dr Hi Hdr) as (fo & st' & Ea & _ & Hm).
  cbn [chain_step]. unfold on_link, link_step. rewrite Ea. cbn [bind]. rewrite Eq, answer_classify in *.
  eexists _, _. split; [reflexivity|].
  destruct (answer c t0 running (skipn k got) (rq_begin dr) (rq_end dr)) eqn:An.
  - (* found *)
    rewrite <- answer_classify, <- Eq in An. unfold classify in An. destruct (q_items q) as [|x l] eqn:El; [discriminate|].
    destruct ((oldest_ts (x :: l) <=? rq_begin dr) && (rq_end dr <=? newest_ts (x :: l))) eqn:Ew.
    2:{ destruct (rq_begin dr <? oldest_ts (x :: l)); [discriminate|destruct running; discriminate]. }
    apply andb_true_iff in Ew as [W1 W2]. apply Z.leb_le in W1, W2.
    destruct (inv_served dnf lk (em_tick c) 12 n running Htick Hn _ _ _ _ _ dr Hi Hdr) as (st2 & E2);
      [rewrite El; discriminate|rewrite El; lia|rewrite El; lia|].
    rewrite Ea in E2. injection E2 as -> _. reflexivity.
  - exact Hm.
  - exact Hm.
Qed.
End Chain.

(** ** Runs without losses *)
Lemma all_true_creates d : d <> [] -> Forall (fun b => b = true) d -> forall i, creates d i = true.
Proof.
  intros Hd Ha i. unfold creates. rewrite Forall_forall in Ha. apply Ha. apply nth_In. apply Nat.mod_upper_bound. destruct d; [congruence|discriminate].
Qed.

Lemma lossless_flow d ops : d <> [] -> lossless d ops -> drained d ops ->
  fl_got (flow_run d ops) ++ fl_waiting (flow_run d ops) = seq 0 (fl_next (flow_run d ops)).
Proof.
  intros Hd [Ha Ho]. induction ops as [|o ops IH] using rev_ind; [reflexivity|]. intros Dr. destruct (drained_prefix _ _ _ Dr) as [Dr1 Dr2]. apply Forall_app in Ho as [Ho1 Ho2]. inversion Ho2 as [|? ? Ho _]; subst.
  specialize (IH Ho1 Dr1). rewrite flow_snoc. destruct o as [room| |limit pct next|dr|]; cbn [flow_step]; auto.
  - cbn [fl_got fl_waiting fl_next]. rewrite (all_true_creates d Hd Ha), Ho. cbn [andb]. rewrite app_assoc, IH, seq_S. reflexivity.
  - destruct (fl_waiting (flow_run d ops)) as [|i w] eqn:W; [rewrite W; exact IH|]. cbn [fl_got fl_waiting fl_next]. rewrite <- app_assoc. exact IH.
Qed.

Lemma app_seq a b m : a ++ b = seq 0 m -> a = seq 0 (List.length a).
Proof.
  intro E. assert (L : (List.length a <= m)%nat) by (rewrite <- (seq_length m 0), <- E, app_length; lia).
  replace m with (List.length a + (m - List.length a))%nat in E by lia. rewrite seq_app in E.
  assert (F1 : firstn (List.length a) (a ++ b) = firstn (List.length a) (seq 0 (List.length a) ++ seq (0 + List.length a) (m - List.length a))) by congruence.
  rewrite firstn_app, Nat.sub_diag, firstn_all in F1. cbn [firstn] in F1. rewrite app_nil_r in F1. rewrite firstn_app, seq_length, Nat.sub_diag in F1.
  cbn [firstn] in F1. rewrite app_nil_r in F1. rewrite firstn_all2 in F1 by (rewrite seq_length; lia). exact F1.
Qed.

Lemma frames_of_slots c p1 p2 stride t0 N :
  all_frames (map (slot_elem c p1 p2 stride t0) (seq 0 N)) = map (run_frame c p1 p2 stride t0) (seq 0 (12 * N)).
Proof.
  unfold all_frames. induction N as [|N IH]; [reflexivity|]. rewrite seq_S, map_app, flat_map_app, IH.
  replace (12 * S N)%nat with (12 * N + 12)%nat by lia. rewrite seq_app, map_app. f_equal. cbn [map flat_map]. rewrite app_nil_r.
  unfold slot_elem. cbn [e_frames]. change (0 + 12 * N)%nat with (12 * N)%nat. change (0 + N)%nat with N.
  assert (E : seq (12 * N) 12 = map (fun j => (12 * N + j)%nat) (seq 0 12)).
  { cbn [seq map]. repeat (f_equal; try lia). }
  rewrite E, map_map. apply map_ext_in. intros j Hj. apply in_seq in Hj. unfold run_frame.
  rewrite (Nat.mul_comm 12 N), Nat.div_add_l, Nat.div_small, Nat.add_0_r by lia.
  rewrite Nat.add_comm, Nat.mod_add, Nat.mod_small by lia. reflexivity.
Qed.

Lemma filter_map_comm {A B} (f : A -> B) p l : filter p (map f l) = map f (filter (fun x => p (f x)) l).
Proof. induction l as [|x l IH]; [reflexivity|]. cbn [map filter]. destruct (p (f x)); cbn [map]; rewrite IH; reflexivity. Qed.

Lemma filter_seq x y M : (y <= M)%nat -> filter (fun m => (x <=? m)%nat && (m <? y)%nat) (seq 0 M) = seq x (y - x).
Proof.
  intro H. assert (G : forall M a, filter (fun m => (x <=? m)%nat && (m <? y)%nat) (seq a M) = seq (Nat.max a x) (Nat.min (a + M) y - Nat.max a x)).
  { clear. induction M as [|M IH]; intro a; cbn [seq filter].
    - replace (Nat.min (a + 0) y - Nat.max a x)%nat with 0%nat by lia. reflexivity.
    - rewrite IH. destruct (Nat.leb_spec x a); destruct (Nat.ltb_spec a y); cbn [andb].
      + replace (Nat.min (a + S M) y - Nat.max a x)%nat with (S (Nat.min (S a + M) y - Nat.max (S a) x)) by lia.
        cbn [seq]. f_equal; [lia|]. f_equal; lia.
      + replace (Nat.min (a + S M) y - Nat.max a x)%nat with 0%nat by lia.
        replace (Nat.min (S a + M) y - Nat.max (S a) x)%nat with 0%nat by lia. reflexivity.
      + f_equal; lia.
      + f_equal; lia. }
  rewrite G. f_equal; lia.
Qed.

Lemma frames_before_spec c t0 t m : 0 < em_tick c -> (m <? frames_before c t0 t)%nat = (t0 + Z.of_nat m * em_tick c <? t).
Proof.
  intro H. unfold frames_before. apply Bool.eq_true_iff_eq. rewrite Nat.ltb_lt, Z.ltb_lt. set (q := (t - t0 + em_tick c - 1) / em_tick c).
  assert (Q : q * em_tick c <= t - t0 + em_tick c - 1 < q * em_tick c + em_tick c).
  { unfold q. pose proof (Z.mod_pos_bound (t - t0 + em_tick c - 1) (em_tick c) H). pose proof (Z.div_mod (t - t0 + em_tick c - 1) (em_tick c) ltac:(lia)). lia. }
  split; intro A.
  - assert (Z.of_nat m + 1 <= q) by lia. nia.
  - destruct (Z.lt_ge_cases (Z.of_nat m) q); [lia|]. nia.
Qed.

Lemma lossless_window c p1 p2 stride t0 N b e : 0 < em_tick c -> t0 <= b -> (0 < N)%nat -> e <= slot_time c t0 (N - 1) ->
  window_bytes (map (slot_elem c p1 p2 stride t0) (seq 0 N)) b e =
  flat_map (fun m => f_bytes (run_frame c p1 p2 stride t0 m)) (seq (frames_before c t0 b) (frames_before c t0 e - frames_before c t0 b)).
Proof.
  intros H Hb HN He. unfold window_bytes. rewrite frames_of_slots, filter_map_comm.
  rewrite (filter_ext _ (fun m => (frames_before c t0 b <=? m)%nat && (m <? frames_before c t0 e)%nat)).
  - rewrite filter_seq.
    + rewrite flat_map_concat_map, map_map, <- flat_map_concat_map. reflexivity.
    + destruct (Nat.le_gt_cases (frames_before c t0 e) (12 * N)) as [|G]; [assumption|]. exfalso.
      pose proof (frames_before_spec c t0 e (12 * N) H) as S. rewrite (proj2 (Nat.ltb_lt _ _) G) in S. symmetry in S. apply Z.ltb_lt in S.
      unfold slot_time in He. nia.
  - intro m. rewrite (frames_before_spec c t0 e m H).
    replace (frames_before c t0 b <=? m)%nat with (negb (m <? frames_before c t0 b)%nat).
    2:{ destruct (Nat.leb_spec (frames_before c t0 b) m); destruct (Nat.ltb_spec m (frames_before c t0 b)); auto; lia. }
    rewrite (frames_before_spec c t0 b m H). cbn [run_frame slot_frame f_ts].
    assert (E : t0 + (Z.of_nat (m / 12) * 12 + Z.of_nat (m mod 12)) * em_tick c = t0 + Z.of_nat m * em_tick c).
    { pose proof (Nat.div_mod_eq m 12). f_equal. f_equal. lia. }
    unfold run_frame, slot_frame. cbn [f_ts]. rewrite E. f_equal.
    destruct (Z.ltb_spec (t0 + Z.of_nat m * em_tick c) b); destruct (Z.leb_spec b (t0 + Z.of_nat m * em_tick c)); auto; lia.
Qed.

Lemma count_regular dur prev x l :
  (forall i a b, nth_error (x :: l) i = Some a -> nth_error (x :: l) (S i) = Some b -> jumps dur a b = false) ->
  count_neighbours (jumps dur) prev (x :: l) = if jumps dur prev x then 1 else 0.
Proof.
  intros H. rewrite Check_proofs.count_cons. replace (count_neighbours (jumps dur) x l) with 0; [lia|].
  revert x H. induction l as [|y l IH]; intros x H; [reflexivity|]. rewrite Check_proofs.count_cons, <- IH.
  - rewrite (H 0%nat x y eq_refl eq_refl). reflexivity.
  - intros i a b Ha Hb. apply (H (S i) a b Ha Hb).
Qed.
