(** Property C80: photon detector links fed by the source emulator. *)
From Coq Require Import String ZArith List Bool Lia.
From Verif Require Import Base_model Bytes_model Codec_model Codec_spec Ebg_model Ebg_spec Emu_model Emu_spec Elem_model Float_model
  Ring_model SkipList_model Request_model Request_spec Cleanup_model Cleanup_spec Link_model Chain_model Chain_spec Chain_proofs Chain_proofs2
  Chain_props Pds_model Pds_spec Pds_proofs Pds_proofs2.
Import ListNotations.
Open Scope Z_scope.

(** C80. "pds_queue". Every interleaving of production (with any dropouts and lost pushes), consumption, clean-ups, requests and
    restarts runs to its end, and every call returns what the device of n - 1 elements returns: an element is refused exactly
    when n - 1 are stored; every request, whatever its window, gets the answer that follows from the times of the stored
    elements, and a served one exactly the stored frames of its window, byte by byte as emulated. *)
Theorem C80_ring_link :
  forall (p1 p2 stride : nat) (c : emu_conf) (t0 dnf n : Z) (lk : link) (running : bool) (used : nat) (ws : list Z) (g : gen)
         (r : ring elem) (s0 : pds (ring elem)) (ops : list chain_op),
  good_emulation p1 p2 stride c t0 -> 0 <= dnf -> 2 <= n <= 2 ^ 24 ->
  gen_words (em_tables c) used gen_new = Ok (ws, g) -> ring_new n = Ok r -> pds_new c g r = Ok s0 ->
  Forall good_ring_call ops -> drained (em_dropouts c) ops -> t0 + Z.of_nat (List.length ops) * (12 * em_tick c) < two64 ->
  exists s ys, pdsq_run p1 p2 stride c dnf lk running s0 ops = Ok (s, ys) /\ List.length ys = List.length ops /\
    forall m o y, nth_error ops m = Some o -> nth_error ys m = Some y ->
      right_out c t0 (ring_room n) (ring_keep c t0) ring_seen p1 p2 stride dnf lk running (firstn m ops) o y.
Proof.
  intros p1 p2 stride c t0 dnf n lk running used ws g r s0 ops (E1 & E2 & E3 & E4 & E5 & E6 & E7 & E8 & E9) Hd Hn W R N G D T.
  destruct (pinv_run (Lb_model.bs_lb e_ts) flush (cleanup e_ts (Lb_model.bs_lb e_ts)) p1 p2 stride c t0 dnf lk running (List.length ops)
              E1 E2 E3 E4 E5 E6 E7 E8 E9 T (ring_room n) (ring_keep c t0) ring_seen good_ring_call (ring_holds n)
              (ring_write p1 p2 stride c t0 n _ Hn)
              (ring_clean p1 p2 stride c t0 n _ E9 Hn)
              (ring_keeps c t0)
              (ring_flush p1 p2 stride c t0 n _ Hn)
              (ring_request p1 p2 stride c t0 dnf n lk running _ E8 E9 Hd T Hn) ops s0) as (s & ys & A1 & _ & A2 & A3); auto.
  - eapply pinv_new; eauto. apply ring_new_holds. exact R.
  - exists s, ys. auto.
Qed.
Print Assumptions C80_ring_link.

(** C80. "pds_list". The same with the skip list: nothing is ever refused, a clean-up leaves what is less than ten million ticks
    older than the newest element, and a served request gets the frames of its window that lie in elements beginning in it. *)
Theorem C80_list_link :
  forall (p1 p2 stride : nat) (c : emu_conf) (t0 dnf : Z) (lk : link) (running : bool) (used : nat) (ws : list Z) (g : gen)
         (s0 : pds (list elem)) (ops : list chain_op),
  good_emulation p1 p2 stride c t0 -> 0 <= dnf ->
  gen_words (em_tables c) used gen_new = Ok (ws, g) -> pds_new c g [] = Ok s0 ->
  Forall good_list_call ops -> drained (em_dropouts c) ops -> t0 + Z.of_nat (List.length ops) * (12 * em_tick c) < two64 ->
  Z.of_nat (List.length ops) < 2147483648 ->
  exists s ys, pdsl_run p1 p2 stride c dnf lk running s0 ops = Ok (s, ys) /\ List.length ys = List.length ops /\
    forall m o y, nth_error ops m = Some o -> nth_error ys m = Some y ->
      right_out c t0 list_room (list_keep c t0) list_seen p1 p2 stride dnf lk running (firstn m ops) o y.
Proof.
  intros p1 p2 stride c t0 dnf lk running used ws g s0 ops (E1 & E2 & E3 & E4 & E5 & E6 & E7 & E8 & E9) Hd W N G D T U.
  destruct (pinv_run (Lb_model.sl_lb e_ts) (fun l => Ok (sl_flush l)) list_clean p1 p2 stride c t0 dnf lk running (List.length ops)
              E1 E2 E3 E4 E5 E6 E7 E8 E9 T list_room (list_keep c t0) list_seen good_list_call list_holds
              (list_write p1 p2 stride c t0 _ E9)
              (list_cleans p1 p2 stride c t0 _ E8 E9 T)
              (list_keeps c t0)
              (list_flushes p1 p2 stride c t0 _ U)
              (list_request p1 p2 stride c t0 dnf lk running _ E8 E9 Hd T U) ops s0) as (s & ys & A1 & _ & A2 & A3); auto.
  - eapply pinv_new; eauto. reflexivity.
  - exists s, ys. auto.
Qed.
Print Assumptions C80_list_link.

(** A window without the begin of an element gets nothing from elements that begin in it. *)
Lemma nothing_begins c p1 p2 stride t0 l b e : 0 < em_tick c ->
  (forall i, In i l -> slot_time c t0 i < b \/ e <= slot_time c t0 i) ->
  window_bytes (list_seen b (map (slot_elem c p1 p2 stride t0) l)) b e = [].
Proof.
  intros Ht H. unfold window_bytes. rewrite Request_proofs.filter_all_frames_none; [reflexivity|]. intros x f Hx Hf.
  unfold list_seen in Hx. apply filter_In in Hx as [Hx Hb]. apply in_map_iff in Hx as (i & <- & Hi). rewrite slot_elem_ts in Hb. apply Z.leb_le in Hb.
  unfold slot_elem in Hf. cbn [e_frames] in Hf. apply in_map_iff in Hf as (j & <- & Hj). unfold slot_frame. cbn [f_ts].
  apply andb_false_iff. right. apply Z.ltb_ge. destruct (H i Hi) as [A|A]; [lia|]. unfold slot_time in A. nia.
Qed.

(** C80 (finding). On a "pds_list" link a request for a window inside one element, all of whose frames are stored, is reported
    as served, without the error bit, and its fragment is empty. *)
Theorem C80_list_windows_inside_an_element :
  forall (p1 p2 stride : nat) (c : emu_conf) (t0 dnf : Z) (lk : link) (running : bool) (used : nat) (ws : list Z) (g : gen)
         (s0 : pds (list elem)) (ops : list chain_op) (dr : request),
  good_emulation p1 p2 stride c t0 -> 0 <= dnf ->
  gen_words (em_tables c) used gen_new = Ok (ws, g) -> pds_new c g [] = Ok s0 ->
  Forall good_list_call ops -> drained (em_dropouts c) ops -> t0 + (Z.of_nat (List.length ops) + 1) * (12 * em_tick c) < two64 ->
  Z.of_nat (List.length ops) + 1 < 2147483648 -> rq_begin dr <= rq_end dr ->
  answer c t0 running (stored c list_room (list_keep c t0) ops) (rq_begin dr) (rq_end dr) = kFound ->
  (forall i, In i (stored c list_room (list_keep c t0) ops) -> slot_time c t0 i < rq_begin dr \/ rq_end dr <= slot_time c t0 i) ->
  exists s ys, pdsl_run p1 p2 stride c dnf lk running s0 (ops ++ [XRequest dr]) =
    Ok (s, ys ++ [OutReply kFound (Some (mk_fragment (create_fragment_header lk dr) []))]).
Proof.
  intros p1 p2 stride c t0 dnf lk running used ws g s0 ops dr GE Hd W N G D T U Hdr An Hi.
  assert (Len : List.length (ops ++ [XRequest dr]) = S (List.length ops)) by (rewrite app_length; cbn; lia).
  destruct (C80_list_link p1 p2 stride c t0 dnf lk running used ws g s0 (ops ++ [XRequest dr]) GE Hd W N) as (s & ys & E & L & A).
  - apply Forall_app. split; [exact G|]. repeat constructor. exact Hdr.
  - intros a b Eq. destruct (exists_last (l := XRestart :: b)) as (b' & z & Eb); [discriminate|]. rewrite Eb, app_assoc in Eq. apply app_inj_tail in Eq as [Eq Ez].
    destruct b' as [|w b']; [cbn in Eb; injection Eb as <- _; discriminate|]. cbn in Eb. injection Eb as <- _. apply (D a b' Eq).
  - rewrite Len. lia.
  - rewrite Len. lia.
  - destruct (exists_last (l := ys)) as (ys' & y & ->); [intros ->; rewrite Len in L; discriminate|]. exists s, ys'. rewrite E. do 4 f_equal.
    rewrite Len, app_length in L. cbn [List.length] in L.
    specialize (A (List.length ops) (XRequest dr) y). rewrite !nth_error_app2 in A by lia. replace (List.length ops - List.length ys')%nat with 0%nat in A by lia.
    rewrite Nat.sub_diag, firstn_app, Nat.sub_diag, firstn_all in A. cbn [firstn nth_error] in A. rewrite app_nil_r in A. specialize (A eq_refl eq_refl).
    cbn [right_out] in A. rewrite An in A. rewrite A. rewrite nothing_begins; [reflexivity|apply GE|exact Hi].
Qed.
Print Assumptions C80_list_windows_inside_an_element.

Lemma increasing_span c t0 x l : 0 < em_tick c -> increasing (x :: l) ->
  Z.of_nat (List.length l) * (12 * em_tick c) <= slot_time c t0 (last (x :: l) 0%nat) - slot_time c t0 x.
Proof.
  intro Ht. revert x. induction l as [|y l IH]; intros x H; [cbn [last List.length]; lia|]. destruct H as [H1 H2]. inversion H1 as [|? ? A _]; subst.
  specialize (IH y H2). change (last (x :: y :: l) 0%nat) with (last (y :: l) 0%nat).
  assert (slot_time c t0 x + 12 * em_tick c <= slot_time c t0 y) by (unfold slot_time; nia). cbn [List.length]. lia.
Qed.

Lemma span_bound c t0 l limit : 0 < em_tick c -> 0 <= limit -> increasing l -> slot_time c t0 (last l 0%nat) - slot_time c t0 (hd 0%nat l) <= limit ->
  Z.of_nat (List.length l) * (12 * em_tick c) <= limit + 12 * em_tick c.
Proof.
  intros Ht Hl I S. destruct l as [|x l]; [cbn [List.length]; lia|]. pose proof (increasing_span c t0 x l Ht I). cbn [hd] in S. cbn [List.length]. lia.
Qed.

(** C80. Although a "pds_list" link never refuses an element, after each clean-up it holds no more than one element per element
    duration of ten million ticks, and one. *)
Theorem C80_list_bounded_by_clean_up :
  forall (p1 p2 stride : nat) (c : emu_conf) (t0 dnf : Z) (lk : link) (running : bool) (used : nat) (ws : list Z) (g : gen)
         (s0 s : pds (list elem)) (ops : list chain_op) (limit : Z) (pct : float32) (next : Z) (ys : list link_out),
  good_emulation p1 p2 stride c t0 -> 0 <= dnf ->
  gen_words (em_tables c) used gen_new = Ok (ws, g) -> pds_new c g [] = Ok s0 ->
  Forall good_list_call ops -> drained (em_dropouts c) ops -> t0 + (Z.of_nat (List.length ops) + 1) * (12 * em_tick c) < two64 ->
  Z.of_nat (List.length ops) + 1 < 2147483648 ->
  pdsl_run p1 p2 stride c dnf lk running s0 (ops ++ [XClean limit pct next]) = Ok (s, ys) ->
  Z.of_nat (List.length (pd_buf s)) * (12 * em_tick c) <= 10000000 + 12 * em_tick c.
Proof.
  intros p1 p2 stride c t0 dnf lk running used ws g s0 s ops limit pct next ys GE Hd W N G D T U R.
  pose proof GE as (E1 & E2 & E3 & E4 & E5 & E6 & E7 & E8 & E9).
  assert (Len : List.length (ops ++ [XClean limit pct next]) = S (List.length ops)) by (rewrite app_length; cbn; lia).
  assert (T' : t0 + Z.of_nat (List.length (ops ++ [XClean limit pct next])) * (12 * em_tick c) < two64) by (rewrite Len; lia).
  assert (U' : Z.of_nat (List.length (ops ++ [XClean limit pct next])) < 2147483648) by (rewrite Len; lia).
  unfold pdsl_run in R. rewrite prun_snoc in R.
  destruct (pinv_run (Lb_model.sl_lb e_ts) (fun l => Ok (sl_flush l)) list_clean p1 p2 stride c t0 dnf lk running (List.length (ops ++ [XClean limit pct next]))
              E1 E2 E3 E4 E5 E6 E7 E8 E9 T' list_room (list_keep c t0) list_seen good_list_call list_holds
              (list_write p1 p2 stride c t0 _ E9)
              (list_cleans p1 p2 stride c t0 _ E8 E9 T')
              (list_keeps c t0)
              (list_flushes p1 p2 stride c t0 _ U')
              (list_request p1 p2 stride c t0 dnf lk running _ E8 E9 Hd T' U') ops s0) as (s1 & ys1 & A1 & [_ _ X3 X4 X5 X6] & _ & _); auto.
  { eapply pinv_new; eauto. reflexivity. }
  { rewrite Len. lia. }
  rewrite A1 in R. cbn [bind pds_step] in R.
  assert (Wst : wfs (List.length (ops ++ [XClean limit pct next])) (stored c list_room (list_keep c t0) ops)).
  { split; [apply increasing_app in X3; apply X3|]. apply Forall_app in X4 as [X4 _]. eapply Forall_impl; [|exact X4]. cbn beta. intros; lia. }
  destruct (list_cleans p1 p2 stride c t0 _ E8 E9 T' (pd_buf s1) _ limit pct next (Check_model.ck_reg (pd_check s1)) (pd_pops s1) Wst X6 I) as (b' & reg' & pp & E & Hb).
  rewrite E in R. cbn [bind] in R. injection R as <- _. cbn [pd_buf]. rewrite Hb, map_length. clear Hb E.
  set (l := stored c list_room (list_keep c t0) ops) in *. destruct Wst as [Wi _]. unfold list_keep. cbn zeta.
  destruct (slot_time c t0 (last l 0%nat) - slot_time c t0 (hd 0%nat l) >? 10000000) eqn:Eh.
  - set (k := filter _ l). assert (Ik : increasing k).
    { pose proof (filter_increasing (fun i => slot_time c t0 (last l 0%nat) - slot_time c t0 i <? 10000000) l []) as Q. rewrite !app_nil_r in Q. apply Q. exact Wi. }
    apply (span_bound c t0 k 10000000 E9 ltac:(lia) Ik). destruct k as [|x k'] eqn:Ek; [cbn [last hd]; lia|]. cbn [hd].
    assert (Hx : In x l /\ slot_time c t0 (last l 0%nat) - slot_time c t0 x < 10000000).
    { assert (Hin : In x k) by (rewrite Ek; left; reflexivity). apply filter_In in Hin as [Q1 Q2]. apply Z.ltb_lt in Q2. auto. }
    assert (Hz : In (last (x :: k') 0%nat) l).
    { assert (Hin : In (last (x :: k') 0%nat) (x :: k')) by (destruct (exists_last (l := x :: k')) as (a & z & ->); [discriminate|]; rewrite last_last; apply in_or_app; right; left; reflexivity).
      rewrite <- Ek in Hin. apply filter_In in Hin. rewrite Ek in Hin. apply Hin. }
    assert (Hm : forall j, In j l -> (j <= last l 0%nat)%nat).
    { intros j Hj. destruct (exists_last (l := l)) as (a & z & El); [intros ->; destruct Hj|]. rewrite El, last_last in *. apply in_app_or in Hj as [Hj|[->|[]]]; [|lia].
      apply increasing_app in Wi as (_ & _ & Q). rewrite Forall_forall in Q. specialize (Q j Hj). inversion Q; lia. }
    pose proof (Hm _ Hz). assert (slot_time c t0 (last (x :: k') 0%nat) <= slot_time c t0 (last l 0%nat)) by (unfold slot_time; nia). lia.
  - apply (span_bound c t0 l 10000000 E9 ltac:(lia) Wi). rewrite Z.gtb_ltb in Eh. apply Z.ltb_ge in Eh. exact Eh.
Qed.
Print Assumptions C80_list_bounded_by_clean_up.

(** Six slots of which every third is dropped, into a ring of four: the fourth element is refused. A reversed window is served
    with nothing; after a clean-up of half of the elements (but nothing from time 1072 on) the old window is not found. *)
Definition pds_history : list chain_op :=
  make 6 ++ take 5 ++ [ex_ask 1030 1040; ex_ask 1060 1010; XClean 1 (1, -1) 1072; ex_ask 1010 1040; ex_ask 1030 1080; XRestart] ++ make 2 ++ take 2 ++ [ex_ask 1011 1013].
Definition brief (ys : list link_out) : list (option code * list Z * bool) :=
  flat_map (fun y => match y with
                     | OutReply c f => [(Some c, match f with Some f => fg_bytes f | None => [] end, false)]
                     | OutWrite ok => [(None, [], ok)]
                     | OutNone => [] end) ys.

Lemma pds_history_drained : drained [true; true; false] pds_history.
Proof.
  intros a b E. assert (L : a = firstn (List.length a) pds_history) by (rewrite E, firstn_app, firstn_all, Nat.sub_diag; cbn; now rewrite app_nil_r).
  assert (X : nth_error pds_history (List.length a) = Some XRestart) by (rewrite E, nth_error_app2, Nat.sub_diag by lia; reflexivity).
  assert (Bd : (List.length a < 22)%nat) by (change 22%nat with (List.length pds_history); apply nth_error_Some; congruence).
  rewrite L. clear L E. revert X Bd. generalize (List.length a). intros m X Bd.
  do 22 (destruct m as [|m]; [vm_compute in X; try discriminate; reflexivity|]). lia.
Qed.

Example C80_ring_ex :
  good_emulation 1 5 10 (ex_emu [true; true; false]) 1000 /\ Forall good_ring_call pds_history /\
  (do r <- ring_new 4; do s <- pds_new (ex_emu [true; true; false]) gen_new r;
   do (_, ys) <- pdsq_run 1 5 10 (ex_emu [true; true; false]) 0 ex_link true s pds_history; Ok (brief ys)) =
    Ok [(None, [], true); (None, [], true); (None, [], true); (None, [], false);
        (Some kFound, [150; 6; 4; 0; 0; 0; 0; 0; 0; 159; 160; 8; 4; 0; 0; 0; 0; 0; 0; 169; 170; 10; 4; 0; 0; 0; 0; 0; 0; 179;
                       180; 12; 4; 0; 0; 0; 0; 0; 0; 189; 190; 14; 4; 0; 0; 0; 0; 0; 0; 199], false);
        (Some kFound, [], false); (Some kNotFound, [], false); (Some kNotYet, [], false);
        (None, [], true); (None, [], true); (Some kFound, [60; 244; 3; 0; 0; 0; 0; 0; 0; 69], false)].
Proof.
  split; [exact C69_emulation_ex|]. split.
  - unfold pds_history. repeat (apply Forall_app; split); repeat (apply Forall_cons || apply Forall_nil); try exact I.
    split; [lia|]. split; [vm_compute; intuition congruence|]. intro E. vm_compute in E. discriminate.
  - vm_compute. reflexivity.
Qed.

(** Elements of 3.6 million ticks in the skip list: the window inside the second element is served with nothing; the window that
    ends in the third gets the two frames at its begin, but none of the second; the clean-up removes the first element. *)
Definition slow_emu : emu_conf := mk_emu ex_file 120 12 [true] 300000 1000 (fun _ => 0) (mk_tables 2 [5; 6] [1; 1] [2; 1]).
Definition slow_history : list chain_op := make 4 ++ take 4 ++ [ex_ask 3900000 4300000; ex_ask 3900000 7600000; XClean 0 (1, 0) 0; ex_ask 1000 2000].

Example C80_list_ex :
  good_emulation 1 5 10 slow_emu 1000 /\ Forall good_list_call slow_history /\ drained [true] slow_history /\
  stored slow_emu list_room (list_keep slow_emu 1000) (firstn 8 slow_history) = [0; 1; 2; 3]%nat /\
  stored slow_emu list_room (list_keep slow_emu 1000) slow_history = [1; 2; 3]%nat /\
  answer slow_emu 1000 true [0; 1; 2; 3]%nat 3900000 4300000 = kFound /\
  (forall i, In i [0; 1; 2; 3]%nat -> slot_time slow_emu 1000 i < 3900000 \/ 4300000 <= slot_time slow_emu 1000 i) /\
  (do s <- pds_new slow_emu gen_new [];
   do (_, ys) <- pdsl_run 1 5 10 slow_emu 0 ex_link true s slow_history; Ok (brief ys)) =
    Ok [(None, [], true); (None, [], true); (None, [], true); (None, [], true); (Some kFound, [], false);
        (Some kFound, [0; 232; 224; 109; 0; 0; 0; 0; 0; 9; 10; 200; 116; 114; 0; 0; 0; 0; 0; 19], false); (Some kNotFound, [], false)].
Proof.
  split; [repeat split; try (vm_compute; congruence); try (cbn; lia)|]. split.
  - unfold slow_history. repeat (apply Forall_app; split); repeat (apply Forall_cons || apply Forall_nil); try exact I; cbn; lia.
  - split; [intros a b E; exfalso; assert (H : In XRestart slow_history) by (rewrite E; apply in_or_app; right; left; reflexivity);
            vm_compute in H; intuition discriminate|].
    split; [vm_compute; reflexivity|]. split; [vm_compute; reflexivity|]. split; [vm_compute; reflexivity|].
    split; [intros i [<-|[<-|[<-|[<-|[]]]]]; vm_compute; auto; right; discriminate|]. vm_compute. reflexivity.
Qed.
