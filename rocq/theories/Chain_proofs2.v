(** The invariant of the emulated source and the link behind it. *)
From Coq Require Import String ZArith List Bool Lia.
From Verif Require Import Base_model Bytes_model Bytes_proofs Codec_model Codec_spec Ebg_model Ebg_spec Ebg_proofs Emu_model
  Emu_spec Emu_proofs Ring_model Ring_spec Ring_proofs Elem_model Lb_model Float_model Registry_model Request_model Request_spec
  Request_proofs Cleanup_spec Check_model Check_spec Check_proofs Link_model Link_spec Link_proofs Chain_model Chain_spec Chain_proofs.
Import ListNotations.
Open Scope Z_scope.

Lemma flow_snoc d ops o : flow_run d (ops ++ [o]) = flow_step d (flow_run d ops) o.
Proof. unfold flow_run. rewrite fold_left_app. reflexivity. Qed.

Definition starts_at (c : emu_conf) (t : Z) : Prop :=
  t = if em_t0 c >=? 0 then em_t0 c else em_get_ts c (firstn (em_size c) (em_source c)).

Section Chain.
Variable p1 p2 stride : nat.
Variable c : emu_conf.
Variable t0 dnf n : Z.
Variable lk : link.
Variable resets running : bool.
Hypothesis F : fields_ok p1 p2 stride.
Hypothesis Hsize : em_size c = (12 * stride)%nat.
Hypothesis Hsrc : (em_size c <= length (em_source c))%nat.
Hypothesis Hcount : Z.of_nat (length (em_source c) / em_size c) < two32.
Hypothesis Hdrops : em_dropouts c <> [].
Hypothesis Htab : tables_ok (em_tables c).
Hypothesis Et0 : starts_at c t0.
Hypothesis Ht0 : 0 <= t0.
Hypothesis Htick : 0 < em_tick c.
Hypothesis Hdnf : 0 <= dnf.
Hypothesis Hn : 2 <= n <= 2 ^ 24.

Notation dur := (em_tick c * 12).
Notation sel := (slot_elem c p1 p2 stride t0).
Notation flow_of := (flow_run (em_dropouts c)).
Notation cstep := (chain_step p1 p2 stride c dnf lk resets running).
Notation crun := (chain_run p1 p2 stride c dnf lk resets running).
Notation lstep := (link_step dnf lk dur (em_tick c) resets running).

(** No 64-bit overflow of the emulated time within the history. *)
Definition in_range (ops : list chain_op) : Prop := t0 + Z.of_nat (length ops) * (12 * em_tick c) < two64.

Lemma in_range_mono ops o : in_range (ops ++ [o]) -> in_range ops.
Proof. unfold in_range. rewrite app_length. cbn [length]. nia. Qed.

Record cinv (ops : list chain_op) (s : chain) : Prop := mk_cinv {
  x_emu : exists used, Emu_proofs.inv c t0 used (fl_next (flow_of ops)) (ch_emu s);
  x_queue : Forall2 (fun m i => view p1 p2 stride m = Ok (sel i)) (ch_queue s) (fl_waiting (flow_of ops));
  x_inc : increasing (fl_got (flow_of ops) ++ fl_waiting (flow_of ops));
  x_lt : Forall (fun i => (i < fl_next (flow_of ops))%nat) (fl_got (flow_of ops) ++ fl_waiting (flow_of ops));
  x_next : (fl_next (flow_of ops) <= length ops)%nat;
  x_link : exists iops q k, Link_proofs.inv (em_tick c) 12 n (ch_link s) (map sel (fl_got (flow_of ops))) iops q k /\
             (Forall (fun o => ~ is_clean o) ops -> k = 0%nat);
  x_check : resets = true \/ ~ In XRestart ops ->
            consistent (count_neighbours (jumps dur) 0 (map (slot_time c t0) (fl_got (flow_of ops)))) (ls_check (ch_link s)) /\
            ck_prev (ls_check (ch_link s)) = last_of 0 (map (slot_time c t0) (fl_got (flow_of ops)))
}.

Lemma size_pos : (0 < em_size c)%nat.
Proof. destruct F as (F1 & _). rewrite Hsize. lia. Qed.

Lemma dur_lt ops : in_range ops -> (0 < length ops)%nat -> dur < two64.
Proof. unfold in_range. intros H L. nia. Qed.

Lemma begin_chain used g : (exists ws, gen_words (em_tables c) used gen_new = Ok (ws, g)) ->
  exists e, emu_begin c g = Ok e /\ Emu_proofs.inv c t0 used 0 e.
Proof.
  intros W. destruct (begin_inv c size_pos Hsrc Hdrops used g W) as (e & E & I). exists e. split; [exact E|].
  unfold first_ts in I. unfold starts_at in Et0. rewrite <- Et0 in I. exact I.
Qed.

Lemma cinv_new used ws g s0 : gen_words (em_tables c) used gen_new = Ok (ws, g) -> chain_new c g n = Ok s0 -> cinv [] s0.
Proof.
  intros W E. unfold chain_new in E. destruct (link_new n) as [l|] eqn:El; [|discriminate]. cbn [bind] in E.
  destruct (begin_chain used g (ex_intro _ ws W)) as (e & Ee & Ie). rewrite Ee in E. cbn [bind] in E. injection E as <-.
  constructor; cbn [ch_emu ch_queue ch_link flow_run fold_left fl_next fl_waiting fl_got app map length increasing].
  - exists used. exact Ie.
  - constructor.
  - exact I.
  - constructor.
  - lia.
  - exists [], (q_new n), 0%nat. split; [|auto]. apply inv_new; try lia. exact El.
  - intros _. unfold link_new in El. destruct (ring_new n); [|discriminate]. cbn [bind] in El. injection El as <-.
    cbn [ls_check]. split; [|reflexivity]. repeat split; cbn; lia.
Qed.

(** Steps of the link that leave the received elements alone. *)
Lemma link_request l arr iops q k dr : Link_proofs.inv (em_tick c) 12 n l arr iops q k -> dur < two64 -> rq_begin dr <= rq_end dr ->
  exists l' y, lstep l (LRequest dr) = Ok (l', OutReply (fst y) (snd y)) /\ Link_proofs.inv (em_tick c) 12 n l' arr iops q k /\ ls_check l' = ls_check l.
Proof.
  intros Hi Hd Hdr. destruct (inv_right_answer dnf lk (em_tick c) 12 n running Hdnf Htick Hn l arr iops q k dr Hi Hdr) as (fo & st' & E & _).
  unfold link_step. rewrite E. cbn [bind]. eexists _, (_, _). split; [reflexivity|]. destruct Hi as [H1 H2 H3 H4 H5 H6 H7 H8 H9].
  split; [|reflexivity]. split; cbn [ls_ring ls_check]; assumption.
Qed.

Lemma link_clean l arr iops q k limit pct next : Link_proofs.inv (em_tick c) 12 n l arr iops q k -> dur < two64 ->
  0 <= limit -> proper_share pct -> ~ full_share pct ->
  exists l' iops' q' k', lstep l (LClean limit pct next) = Ok (l', OutNone) /\ Link_proofs.inv (em_tick c) 12 n l' arr iops' q' k' /\
    ck_prev (ls_check l') = ck_prev (ls_check l) /\ ck_ctr (ls_check l') = ck_ctr (ls_check l) /\ ck_reported (ls_check l') = ck_reported (ls_check l).
Proof.
  intros Hi Hd H1 H2 H3.
  destruct (inv_clean dnf lk (em_tick c) 12 n resets running Hn l arr iops q k limit pct next Hi H1 H2 H3) as (l' & iops' & q' & k' & E & I').
  exists l', iops', q', k'. split; [exact E|]. split; [exact I'|]. unfold link_step in E.
  destruct (Cleanup_model.cleanup _ _ _ _ _ _ _ _) as [[[r' g'] pp]|]; [|discriminate]. cbn [bind] in E. injection E as <-. auto.
Qed.

Lemma link_restart l arr iops q k : Link_proofs.inv (em_tick c) 12 n l arr iops q k -> dur < two64 ->
  exists l' iops' q', lstep l LRestart = Ok (l', OutNone) /\ Link_proofs.inv (em_tick c) 12 n l' [] iops' q' 0 /\
    ls_check l' = (if resets then wib_start (ls_check l) else ls_check l).
Proof.
  intros Hi Hd. pose proof Hi as [H1 H2 H3 H4 H5 H6 H7 H8 H9].
  assert (Sz : supported_size n) by (unfold supported_size; lia).
  unfold link_step. pose proof (reached_sim n iops _ q Sz H1 H2) as Hs. pose proof (step_sim _ _ OFlush Hs I) as Hx.
  pose proof (fun r' y => reached_snoc n iops (ls_ring l) q OFlush r' y Sz H1 I H2) as Hsn.
  cbn [step] in Hx, Hsn. destruct (flush (ls_ring l)) as [r'|]; cbn [bind] in *; [|contradiction].
  destruct (Hsn r' RUnit eq_refl) as (q' & Hr' & Hq'). cbn [q_step] in Hq'. injection Hq' as <-.
  eexists _, (iops ++ [OFlush]), (mk_queue (q_size q) []). split; [reflexivity|]. split; [|reflexivity].
  split; cbn [ls_ring ls_check q_items q_size List.length skipn]; auto.
  - apply Forall_app. split; [exact H1|]. repeat constructor.
  - split; [constructor|]. intros i j x y f _ Hx0. destruct i; discriminate.
  - intros a x E. destruct a; discriminate.
  - intros [|j] x y Hx0; discriminate.
Qed.

Lemma count_snoc p prev l x : count_neighbours p prev (l ++ [x]) = count_neighbours p prev l + if p (last_of prev l) x then 1 else 0.
Proof.
  revert prev. induction l as [|y l IH]; intro prev.
  - cbn [app]. rewrite count_cons. unfold last_of, count_neighbours. cbn. lia.
  - cbn [app]. rewrite !count_cons, IH. unfold last_of. rewrite last_cons_any. lia.
Qed.

Lemma last_of_snoc prev l x : last_of prev (l ++ [x]) = x.
Proof. unfold last_of. rewrite last_last. reflexivity. Qed.

Lemma link_arrive l arr iops q k i m : Link_proofs.inv (em_tick c) 12 n l arr iops q k -> dur < two64 ->
  wf (em_tick c) (arr ++ [sel i]) -> consistent m (ls_check l) \/ True ->
  exists l' b, lstep l (LArrive (sel i)) = Ok (l', OutWrite b) /\
    (b = true -> exists iops' q', Link_proofs.inv (em_tick c) 12 n l' (arr ++ [sel i]) iops' q' k) /\
    (consistent m (ls_check l) ->
       consistent (m + if jumps dur (ck_prev (ls_check l)) (slot_time c t0 i) then 1 else 0) (ls_check l') /\ ck_prev (ls_check l') = slot_time c t0 i).
Proof.
  intros Hi Hd Hw _.
  destruct (inv_arrive dnf lk (em_tick c) 12 n resets running Htick ltac:(lia) Hd Hn l arr iops q k (sel i) Hi Hw eq_refl) as (l' & b & E & H).
  exists l', b. split; [exact E|]. split.
  - intro Hb. destruct (H Hb) as (q' & Hi'). eauto.
  - intros Hc. assert (Hu : is_u64 (e_ts (sel i))).
    { destruct Hw as [Hw _]. apply Forall_app in Hw as [_ Hw]. inversion Hw as [|? ? (_ & A & _ & B) _]; subst. unfold is_u64.
      rewrite (slot_elem_num p1 p2 stride c t0) in B. lia. }
    destruct (check_step_real dur (em_tick c) m (ls_check l) (sel i) ltac:(nia) Hu Hc) as (A1 & A2 & A3 & _). cbn zeta in *.
    unfold link_step in E. destruct (timestamp_check dur (em_tick c) false (sel i) (ls_check l)) as [e' c']. cbn [fst snd] in *.
    destruct (write e' (ls_ring l)) as [[r' b']|]; [|discriminate]. cbn [bind] in E. injection E as <- <-. cbn [ls_check].
    rewrite (slot_elem_ts p1 p2 stride c t0) in *. auto.
Qed.

Lemma cinv_step ops s o : cinv ops s -> in_range (ops ++ [o]) -> good_call o ->
  (o = XRestart -> fl_waiting (flow_of ops) = []) ->
  exists s' y, cstep s o = Ok (s', y) /\ (y <> OutWrite false -> cinv (ops ++ [o]) s').
Proof.
  intros [X1 X2 X3 X4 X5 X6 X7] R G D.
  assert (Hd : dur < two64) by (apply (dur_lt _ R); rewrite app_length; cbn; lia).
  assert (Rb : t0 + Z.of_nat (S (fl_next (flow_of ops))) * (12 * em_tick c) < two64).
  { unfold in_range in R. rewrite app_length in R. cbn [List.length] in R.
    assert (Z.of_nat (S (fl_next (flow_of ops))) * (12 * em_tick c) <= Z.of_nat (List.length ops + 1) * (12 * em_tick c)) by (apply Z.mul_le_mono_nonneg_r; lia). lia. }
  assert (Len : List.length (ops ++ [o]) = S (List.length ops)) by (rewrite app_length; cbn; lia).
  assert (NC : Forall (fun o => ~ is_clean o) (ops ++ [o]) -> Forall (fun o => ~ is_clean o) ops) by (intro H; apply Forall_app in H; apply H).
  assert (NR : resets = true \/ ~ In XRestart (ops ++ [o]) -> resets = true \/ ~ In XRestart ops).
  { intros [H|H]; [left; exact H|right]. intro Hin. apply H. apply in_or_app. left. exact Hin. }
  destruct o as [room| |limit pct next|dr|]; cbn [chain_step].
  - (* produce *)
    destruct X1 as (used & X1).
    destruct (one_slot c size_pos Hsrc Hcount Hdrops Htab t0 used _ (ch_emu s) room X1) as (e' & E & X1'). rewrite E. cbn [bind].
    unfold slot. destruct (creates (em_dropouts c) (fl_next (flow_of ops))) eqn:Cr.
    + cbn [py_ts py_data py_pushed]. destruct (stamp_view p1 p2 stride F c t0 Hsize Hsrc Ht0 Htick (fl_next (flow_of ops))) as (m & Em & Vm).
      { unfold slot_time. lia. }
      rewrite Z.mod_small by nia. change (t0 + Z.of_nat (fl_next (flow_of ops)) * (12 * em_tick c)) with (slot_time c t0 (fl_next (flow_of ops))).
      rewrite Em. cbn [bind]. eexists _, _. split; [reflexivity|]. intros _.
      assert (Ext : Forall (fun i => (i < fl_next (flow_of ops))%nat) (fl_got (flow_of ops) ++ fl_waiting (flow_of ops)) ->
                    Forall (fun i => (i < S (fl_next (flow_of ops)))%nat) (fl_got (flow_of ops) ++ fl_waiting (flow_of ops))).
      { apply Forall_impl. intros; lia. }
      constructor; rewrite ?flow_snoc; cbn [flow_step fl_next fl_waiting fl_got ch_emu ch_queue ch_link].
      * exists used. exact X1'.
      * rewrite Cr. apply Forall2_app; [exact X2|]. destruct room; cbn [andb]; [|constructor]. constructor; [exact Vm|constructor].
      * rewrite Cr, app_assoc. apply increasing_app. split; [exact X3|]. destruct room; cbn [andb].
        -- split; [repeat constructor|]. eapply Forall_impl; [|exact X4]. intros i Hi. constructor; [exact Hi|constructor].
        -- split; [exact I|]. eapply Forall_impl; [|exact X4]. intros i Hi. constructor.
      * rewrite Cr, app_assoc. apply Forall_app. split; [exact (Ext X4)|]. destruct room; cbn [andb]; [|constructor]. constructor; [lia|constructor].
      * rewrite Len. lia.
      * destruct X6 as (io & q & k & Hi & Hk). exists io, q, k. auto.
      * auto.
    + eexists _, _. split; [reflexivity|]. intros _.
      constructor; rewrite ?flow_snoc; cbn [flow_step fl_next fl_waiting fl_got ch_emu ch_queue ch_link]; rewrite ?Cr; cbn [andb]; rewrite ?app_nil_r.
      * exists used. exact X1'.
      * exact X2.
      * exact X3.
      * eapply Forall_impl; [|exact X4]. cbn beta. intros; lia.
      * rewrite Len. lia.
      * destruct X6 as (io & q & k & Hi & Hk). exists io, q, k. auto.
      * auto.
  - (* consume *)
    destruct (ch_queue s) as [|m ms] eqn:Q.
    + destruct (fl_waiting (flow_of ops)) as [|i w] eqn:W; [|inversion X2]. eexists _, _. split; [reflexivity|]. intros _.
      constructor; rewrite ?flow_snoc; cbn [flow_step]; rewrite ?W; auto; try lia.
      * rewrite Q. constructor.
      * destruct X6 as (io & q & k & Hi & Hk). exists io, q, k. auto.
    + destruct (fl_waiting (flow_of ops)) as [|i w] eqn:W; [inversion X2|]. inversion X2 as [|? ? ? ? V X2']; subst. rewrite V. cbn [bind].
      unfold on_link. cbn [ch_link ch_emu ch_queue]. destruct X6 as (io & q & k & Hi & Hk).
      assert (E3 : fl_got (flow_of ops) ++ i :: w = (fl_got (flow_of ops) ++ [i]) ++ w) by (rewrite <- app_assoc; reflexivity).
      rewrite E3 in X3, X4.
      assert (Wf : wf (em_tick c) (map sel (fl_got (flow_of ops)) ++ [sel i])).
      { change [sel i] with (map sel [i]). rewrite <- map_app. apply (slots_wf p1 p2 stride c t0 Ht0 Htick _ (S (fl_next (flow_of ops)))).
        - apply increasing_app in X3. apply X3.
        - apply Forall_app in X4 as [X4 _]. eapply Forall_impl; [|exact X4]. cbn beta. intros; lia.
        - exact Rb. }
      destruct (link_arrive _ _ _ _ _ i (count_neighbours (jumps dur) 0 (map (slot_time c t0) (fl_got (flow_of ops)))) Hi Hd Wf (or_intror I))
        as (l' & b & E & Hb & Hc).
      rewrite E. cbn [bind]. eexists _, _. split; [reflexivity|]. intro Hne. destruct b; [|congruence].
      destruct (Hb eq_refl) as (io' & q' & Hi').
      constructor; rewrite ?flow_snoc; cbn [flow_step]; rewrite ?W; cbn [fl_next fl_waiting fl_got ch_emu ch_queue ch_link]; auto; try lia.
      * exists io', q', k. rewrite map_app. auto.
      * intro Hr. destruct (X7 (NR Hr)) as [C1 C2]. destruct (Hc C1) as [C3 C4]. rewrite map_app. cbn [map]. rewrite count_snoc, last_of_snoc.
        rewrite <- C2. auto.
  - (* clean *)
    destruct G as (G1 & G2 & G3). destruct X6 as (io & q & k & Hi & Hk).
    destruct (link_clean _ _ _ _ _ limit pct next Hi Hd G1 G2 G3) as (l' & io' & q' & k' & E & Hi' & Hp & Hc & Hr). unfold on_link. rewrite E. cbn [bind].
    eexists _, _. split; [reflexivity|]. intros _.
    constructor; rewrite ?flow_snoc; cbn [flow_step ch_emu ch_queue ch_link]; auto; try lia.
    + exists io', q', k'. split; [exact Hi'|]. intro H. apply Forall_app in H as [_ H]. inversion H as [|? ? H' _]; subst. exfalso. apply H'. exact I.
    + intro H. destruct (X7 (NR H)) as [C1 C2]. rewrite Hp. split; [|exact C2]. destruct C1 as (A & B & C). unfold consistent. rewrite Hc, Hr. auto.
  - (* request *)
    destruct X6 as (io & q & k & Hi & Hk).
    destruct (link_request _ _ _ _ _ dr Hi Hd G) as (l' & y & E & Hi' & Hc). unfold on_link. rewrite E. cbn [bind].
    eexists _, _. split; [reflexivity|]. intros _.
    constructor; rewrite ?flow_snoc; cbn [flow_step ch_emu ch_queue ch_link]; auto; try lia.
    + exists io, q, k. auto.
    + rewrite Hc. auto.
  - (* restart *)
    destruct X6 as (io & q & k & Hi & Hk). specialize (D eq_refl).
    destruct (link_restart _ _ _ _ _ Hi Hd) as (l' & io' & q' & E & Hi' & Hc). unfold on_link. rewrite E. cbn [bind ch_queue ch_link].
    destruct X1 as (used & X1). destruct (begin_chain _ _ (i_gen _ _ _ _ _ X1)) as (e' & Ee & Ie). rewrite Ee. cbn [bind].
    rewrite D in X2. inversion X2 as [Q|]; subst.
    eexists _, _. split; [reflexivity|]. intros _.
    constructor; rewrite ?flow_snoc; cbn [flow_step fl_next fl_waiting fl_got ch_emu ch_queue ch_link app map increasing]; rewrite ?D.
    + eauto.
    + constructor.
    + exact I.
    + constructor.
    + lia.
    + exists io', q', 0%nat. auto.
    + intros [H|H]; [|exfalso; apply H; apply in_or_app; right; left; reflexivity]. rewrite Hc, H. cbn. split; [|reflexivity]. repeat split; lia.
Qed.

Lemma crun_snoc : forall ops o s, crun s (ops ++ [o]) = (do (s', ys) <- crun s ops; do (s'', y) <- cstep s' o; Ok (s'', ys ++ [y])).
Proof.
  induction ops as [|p ops IH]; intros o s; cbn [app chain_run].
  - cbn [bind]. destruct (cstep s o) as [[s' y]|]; reflexivity.
  - destruct (cstep s p) as [[s1 y1]|]; [|reflexivity]. cbn [bind]. rewrite IH.
    destruct (crun s1 ops) as [[s2 ys]|]; [|reflexivity]. cbn [bind]. destruct (cstep s2 o) as [[s3 y3]|]; reflexivity.
Qed.

Lemma drained_prefix d ops o : drained d (ops ++ [o]) -> drained d ops /\ (o = XRestart -> fl_waiting (flow_run d ops) = []).
Proof.
  intros H. split.
  - intros a b E. apply (H a (b ++ [o])). rewrite E, <- app_assoc. reflexivity.
  - intros ->. apply (H ops []). reflexivity.
Qed.

Lemma cinv_run : forall ops s0 used ws g, gen_words (em_tables c) used gen_new = Ok (ws, g) -> chain_new c g n = Ok s0 ->
  Forall good_call ops -> drained (em_dropouts c) ops -> in_range ops ->
  (exists s ys, crun s0 ops = Ok (s, ys) /\ (~ In (OutWrite false) ys -> cinv ops s)) \/
  (exists m s ys, (m <= List.length ops)%nat /\ crun s0 (firstn m ops) = Ok (s, ys) /\ In (OutWrite false) ys).
Proof.
  induction ops as [|o ops IH] using rev_ind; intros s0 used ws g W E0 G D R.
  - left. exists s0, []. split; [reflexivity|]. intros _. exact (cinv_new used ws g s0 W E0).
  - apply Forall_app in G as [G Go]. inversion Go as [|? ? Go' _]; subst. destruct (drained_prefix _ _ _ D) as [D1 D2].
    destruct (IH s0 used ws g W E0 G D1 (in_range_mono _ _ R)) as [(s & ys & E & H)|(m & s & ys & Hm & E & H)].
    2:{ right. exists m, s, ys. rewrite app_length, firstn_app. replace (m - List.length ops)%nat with 0%nat by lia.
        cbn [firstn]. rewrite app_nil_r. repeat split; try assumption. lia. }
    destruct (refused_or_not ys) as [Hin|Hnin].
    { right. exists (List.length ops), s, ys. rewrite app_length, firstn_app, Nat.sub_diag, firstn_all. cbn [firstn]. rewrite app_nil_r.
      repeat split; try assumption. lia. }
    assert (Hn' : ~ In (OutWrite false) ys). { intro Hin. rewrite Forall_forall in Hnin. apply (Hnin _ Hin). reflexivity. }
    destruct (cinv_step ops s o (H Hn') R Go' D2) as (s' & y & Es & Hs).
    left. exists s', (ys ++ [y]). split.
    + rewrite crun_snoc, E. cbn [bind]. rewrite Es. reflexivity.
    + intros Hni. apply Hs. intros ->. apply Hni. apply in_or_app. right. left. reflexivity.
Qed.

Lemma firstn_crun : forall ops m s s' ys, crun s ops = Ok (s', ys) -> exists s'', crun s (firstn m ops) = Ok (s'', firstn m ys).
Proof.
  induction ops as [|o ops IH]; intros m s s' ys E.
  - cbn in E. injection E as <- <-. rewrite !firstn_nil. exists s. reflexivity.
  - destruct m as [|m]; [exists s; reflexivity|]. cbn [chain_run] in E. destruct (cstep s o) as [[s1 y]|] eqn:E1; [|discriminate]. cbn [bind] in E.
    destruct (crun s1 ops) as [[s2 ys']|] eqn:E2; [|discriminate]. cbn [bind] in E. injection E as <- <-.
    destruct (IH m s1 s2 ys' E2) as (s3 & E3). exists s3. cbn [firstn chain_run]. rewrite E1. cbn [bind]. rewrite E3. reflexivity.
Qed.

Lemma cinv_after ops s0 used ws g s ys : gen_words (em_tables c) used gen_new = Ok (ws, g) -> chain_new c g n = Ok s0 ->
  Forall good_call ops -> drained (em_dropouts c) ops -> in_range ops -> crun s0 ops = Ok (s, ys) -> ~ In (OutWrite false) ys -> cinv ops s.
Proof.
  intros W E0 G D R E Hni. destruct (cinv_run ops s0 used ws g W E0 G D R) as [(s1 & ys1 & E1 & H)|(m & s1 & ys1 & _ & E1 & H)].
  - rewrite E in E1. injection E1 as <- <-. apply H. exact Hni.
  - exfalso. destruct (firstn_crun ops m s0 s ys E) as (s2 & E2). rewrite E1 in E2. injection E2 as _ ->.
    apply Hni. rewrite <- (firstn_skipn m ys). apply in_or_app. left. exact H.
Qed.
End Chain.
