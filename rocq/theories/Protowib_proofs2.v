(** The invariant of the emulated WIB source and the link behind it. *)
From Coq Require Import String ZArith List Bool Lia.
From Verif Require Import Base_model Bytes_model Ebg_model Ebg_spec Ebg_proofs Emu_model Emu_spec Emu_proofs Ring_model Ring_spec Ring_proofs
  Elem_model Lb_model Float_model Registry_model Request_model Request_spec Request_proofs Cleanup_spec Check_model Check_spec Check_proofs
  Link_model Link_spec Link_proofs Chain_model Chain_spec Chain_proofs Chain_proofs2 Protowib_model Protowib_spec Protowib_proofs.
Import ListNotations.
Open Scope Z_scope.

Lemma chain_ops_snoc ops o : chain_ops (ops ++ [o]) = chain_ops ops ++ match o with PwChain p => [p] | PwInfo => [] end.
Proof. unfold chain_ops. rewrite flat_map_app. cbn [flat_map]. now rewrite app_nil_r. Qed.

Lemma chain_ops_length ops : (List.length (chain_ops ops) <= List.length ops)%nat.
Proof. unfold chain_ops. induction ops as [|[p|] ops IH]; cbn [flat_map app List.length]; lia. Qed.

Lemma words_fst d ops : forall s u, fst (fold_left (fun su o => (flow_step d (fst su) o,
    match o with XRestart => snd su + 12 * produced d (fl_next (fst su)) | _ => snd su end)%nat) ops (s, u)) = fold_left (flow_step d) ops s.
Proof. induction ops as [|o ops IH]; intros s u; [reflexivity|]. cbn [fold_left fst snd]. apply IH. Qed.

Lemma words_snoc d u ops o : words_used d u (ops ++ [o]) =
  match o with XRestart => (words_used d u ops + 12 * produced d (fl_next (flow_run d ops)))%nat | _ => words_used d u ops end.
Proof.
  unfold words_used, flow_run. rewrite <- (words_fst d ops (mk_flow 0 [] []) u). rewrite fold_left_app. cbn [fold_left snd]. destruct o; reflexivity.
Qed.

Lemma reported_snoc ops ys o y : List.length ops = List.length ys ->
  reported (ops ++ [o]) (ys ++ [y]) = match o, y with PwChain XRestart, _ => 0 | _, PwErrors k => reported ops ys + k | _, _ => reported ops ys end.
Proof.
  intro H. unfold reported. assert (E : combine (ops ++ [o]) (ys ++ [y]) = combine ops ys ++ [(o, y)]).
  { revert ys H. induction ops as [|p ops IH]; intros [|z ys] H; try discriminate; [reflexivity|]. cbn [app combine]. f_equal. apply IH. now injection H. }
  rewrite E, fold_left_app. cbn [fold_left]. destruct o as [[]|]; destruct y; reflexivity.
Qed.

(** ** The error counters apart from the total *)
Definition eqc {F} (a b : errst F) : Prop :=
  es_counters a = es_counters b /\ es_processed a = es_processed b /\ es_tries a = es_tries b /\ es_sent a = es_sent b.

Lemma eqc_step {F} (er : F -> Z) thr ok a b f : eqc a b -> eqc (frame_error_step er thr ok a f) (frame_error_step er thr ok b f).
Proof.
  intros (E1 & E2 & E3 & E4). unfold frame_error_step. rewrite E1, E2, E3, E4.
  destruct (bits_loop thr ok (er f) 0 (decay (es_processed b) (es_counters b)) (es_tries b) false) as [[x y] z]. unfold eqc.
  cbn [es_counters es_processed es_tries es_sent]. auto.
Qed.

Lemma eqc_all {F} (er : F -> Z) thr ok l : forall a b, eqc a b -> eqc (frame_errors er thr ok a l) (frame_errors er thr ok b l).
Proof. induction l as [|f l IH]; intros a b H; [exact H|]. cbn [frame_errors fold_left]. apply IH. apply eqc_step. exact H. Qed.

Lemma sum_app a b : sum (a ++ b) = sum a + sum b.
Proof. induction a as [|x a IH]; cbn [app sum]; lia. Qed.

Lemma filter_len {A} (p : A -> bool) l : (List.length (filter p l) <= List.length l)%nat.
Proof. induction l as [|x l IH]; cbn [filter List.length]; [lia|]. destruct (p x); cbn [List.length]; lia. Qed.

Lemma set_bits_bound w : 0 <= set_bits w <= 16.
Proof.
  unfold set_bits. pose proof (filter_len (Z.testbit w) (map Z.of_nat (seq 0 16))) as H. rewrite map_length, seq_length in H. lia.
Qed.

Lemma sum_bits_bound {A} (f : A -> Z) l : 0 <= sum (map (fun j => set_bits (f j)) l) <= 16 * Z.of_nat (List.length l).
Proof. induction l as [|x l IH]; cbn [map sum List.length]; [lia|]. pose proof (set_bits_bound (f x)). lia. Qed.

Lemma error_bits_bound c u l : 0 <= error_bits c u l <= 192 * Z.of_nat (List.length l).
Proof.
  unfold error_bits. induction l as [|x l IH]; cbn [map sum List.length]; [lia|].
  pose proof (sum_bits_bound (slot_word c u x) (seq 0 12)) as H. rewrite seq_length in H. lia.
Qed.

Lemma error_bits_snoc c u l i : error_bits c u (l ++ [i]) = error_bits c u l + sum (map (fun j => set_bits (slot_word c u i j)) (seq 0 12)).
Proof. unfold error_bits. rewrite map_app, sum_app. cbn [map sum]. lia. Qed.

Lemma flow_count d ops : (List.length (fl_got (flow_run d ops)) + List.length (fl_waiting (flow_run d ops)) <= List.length ops)%nat.
Proof.
  induction ops as [|o ops IH] using rev_ind; [cbn; lia|]. rewrite flow_snoc, app_length. cbn [List.length].
  destruct o as [room| | | |]; cbn [flow_step]; try (cbn [fl_got fl_waiting]; lia).
  - cbn [fl_got fl_waiting]. rewrite app_length. destruct (_ && _); cbn [List.length]; lia.
  - destruct (fl_waiting (flow_run d ops)) as [|i w] eqn:E; cbn [fl_got fl_waiting]; [rewrite E; cbn [List.length]; lia|]. rewrite app_length. cbn [List.length] in *. lia.
  - cbn [fl_got fl_waiting List.length]. lia.
Qed.

Section Protowib.
Variable ff : frame_format.
Variable stride : nat.
Variable limit : Z.
Variable ok : list Z -> Prop.
Variable c : emu_conf.
Variable t0 dnf n : Z.
Variable lk : link.
Variable running : bool.
Variable threshold : Z.
Variable push_ok : nat -> bool.
Variable used0 : nat.
Hypothesis L : lawful ff stride limit ok.
Hypothesis Hlim : limit <= two64.
Hypothesis Hpos : (0 < stride)%nat.
Hypothesis Hsize : em_size c = (12 * stride)%nat.
Hypothesis Hframes : em_frames c = 12%nat.
Hypothesis Hsrc : (em_size c <= List.length (em_source c))%nat.
Hypothesis Hcount : Z.of_nat (List.length (em_source c) / em_size c) < two32.
Hypothesis Hdrops : em_dropouts c <> [].
Hypothesis Htab : tables_ok (em_tables c).
Hypothesis Hok : forall k j, (j < 12)%nat -> ok (file_frame c stride k j).
Hypothesis Et0 : starts_at c t0.
Hypothesis Ht0 : 0 <= t0.
Hypothesis Htick : em_tick c = 25.
Hypothesis Hdnf : 0 <= dnf.
Hypothesis Hn : 2 <= n <= 2 ^ 24.

Notation sel := (pw_slot ff stride c t0).
Notation flow_of ops := (flow_run (em_dropouts c) (chain_ops ops)).
Notation uw ops := (words_used (em_dropouts c) used0 (chain_ops ops)).
Notation err f := (ff_errors ff (f_bytes f)).
Notation pstep := (pw_step ff stride c dnf lk running threshold push_ok).
Notation prun := (pw_run ff stride c dnf lk running threshold push_ok).
Notation lstep := (link_step dnf lk 300 25 true running).
Notation ferr := (frame_errors (fun f => err f) threshold push_ok).

(** The emulated time stays within what the frames can hold. *)
Definition pw_range (ops : list pwib_op) : Prop := t0 + Z.of_nat (List.length ops) * 300 < limit.

Record winv (ops : list pwib_op) (ys : list pwib_out) (s : pwib) : Prop := mk_winv {
  w_len : List.length ops = List.length ys;
  w_emu : Emu_proofs.inv c t0 (uw ops) (fl_next (flow_of ops)) (ch_emu (pw_chain s));
  w_queue : Forall2 (fun m i => pw_view ff stride m = Ok (sel (uw ops) i)) (ch_queue (pw_chain s)) (fl_waiting (flow_of ops));
  w_inc : increasing (fl_got (flow_of ops) ++ fl_waiting (flow_of ops));
  w_lt : Forall (fun i => (i < fl_next (flow_of ops))%nat) (fl_got (flow_of ops) ++ fl_waiting (flow_of ops));
  w_next : (fl_next (flow_of ops) <= List.length ops)%nat;
  w_link : exists iops q k, Link_proofs.inv 25 12 n (ch_link (pw_chain s)) (map (sel (uw ops)) (fl_got (flow_of ops))) iops q k /\
             (Forall (fun o => ~ is_clean o) (chain_ops ops) -> k = 0%nat);
  w_check : consistent (count_neighbours (jumps 300) 0 (map (slot_time c t0) (fl_got (flow_of ops)))) (ls_check (ch_link (pw_chain s))) /\
            ck_prev (ls_check (ch_link (pw_chain s))) = last_of 0 (map (slot_time c t0) (fl_got (flow_of ops)));
  w_count : Check_model.es_count (pw_errors s) = error_bits c (uw ops) (fl_got (flow_of ops)) - reported ops ys /\
            0 <= Check_model.es_count (pw_errors s) /\ 0 <= reported ops ys;
  w_sent : ~ In XRestart (chain_ops ops) ->
           eqc (pw_errors s) (ferr errst_new (flat_map e_frames (map (sel (uw ops)) (fl_got (flow_of ops)))))
}.

Lemma pw_size_pos : (0 < em_size c)%nat.
Proof. rewrite Hsize. lia. Qed.

Lemma pw_begin used g : (exists ws, gen_words (em_tables c) used gen_new = Ok (ws, g)) ->
  exists e, emu_begin c g = Ok e /\ Emu_proofs.inv c t0 used 0 e.
Proof.
  intros W. destruct (begin_inv c pw_size_pos Hsrc Hdrops used g W) as (e & E & I). exists e. split; [exact E|].
  unfold first_ts in I. unfold starts_at in Et0. rewrite <- Et0 in I. exact I.
Qed.

Lemma winv_new ws g s0 : gen_words (em_tables c) used0 gen_new = Ok (ws, g) -> pw_new c g n = Ok s0 -> winv [] [] s0.
Proof.
  intros W E. unfold pw_new, chain_new in E. destruct (link_new n) as [l|] eqn:El; [|discriminate]. cbn [bind] in E.
  destruct (pw_begin used0 g (ex_intro _ ws W)) as (e & Ee & Ie). rewrite Ee in E. cbn [bind] in E. injection E as <-.
  constructor; cbn [chain_ops flat_map words_used snd fold_left flow_run fl_next fl_waiting fl_got app map increasing List.length pw_chain pw_errors ch_emu ch_queue ch_link].
  - reflexivity.
  - exact Ie.
  - constructor.
  - exact I.
  - constructor.
  - lia.
  - exists [], (q_new n), 0%nat. split; [|auto]. apply inv_new; try lia. exact El.
  - unfold link_new in El. destruct (ring_new n); [|discriminate]. cbn [bind] in El. injection El as <-.
    cbn [ls_check]. split; [|reflexivity]. repeat split; cbn; lia.
  - cbn. lia.
  - intros _. repeat split; reflexivity.
Qed.

(** Steps of the link. *)
Lemma pw_request l arr iops q k dr : Link_proofs.inv 25 12 n l arr iops q k -> rq_begin dr <= rq_end dr ->
  exists l' y, lstep l (LRequest dr) = Ok (l', OutReply (fst y) (snd y)) /\ Link_proofs.inv 25 12 n l' arr iops q k /\ ls_check l' = ls_check l.
Proof.
  intros Hi Hdr. pose proof (link_request c dnf n lk true running) as X. rewrite Htick in X. change (25 * 12) with 300 in X.
  apply X; auto; unfold two64; lia.
Qed.

Lemma pw_clean l arr iops q k lim pct next : Link_proofs.inv 25 12 n l arr iops q k -> 0 <= lim -> proper_share pct -> ~ full_share pct ->
  exists l' iops' q' k', lstep l (LClean lim pct next) = Ok (l', OutNone) /\ Link_proofs.inv 25 12 n l' arr iops' q' k' /\
    ck_prev (ls_check l') = ck_prev (ls_check l) /\ ck_ctr (ls_check l') = ck_ctr (ls_check l) /\ ck_reported (ls_check l') = ck_reported (ls_check l).
Proof.
  intros Hi H1 H2 H3. pose proof (link_clean c dnf n lk true running) as X. rewrite Htick in X. change (25 * 12) with 300 in X.
  eapply X; eauto. unfold two64; lia.
Qed.

Lemma pw_restart l arr iops q k : Link_proofs.inv 25 12 n l arr iops q k ->
  exists l' iops' q', lstep l LRestart = Ok (l', OutNone) /\ Link_proofs.inv 25 12 n l' [] iops' q' 0 /\ ls_check l' = wib_start (ls_check l).
Proof.
  intros Hi. pose proof (link_restart stride c dnf n lk true running Hsize Hsrc) as X. rewrite Htick in X. change (25 * 12) with 300 in X.
  eapply X; eauto. unfold two64; lia.
Qed.

Lemma pw_arrive l arr iops q k e m : Link_proofs.inv 25 12 n l arr iops q k -> wf 25 (arr ++ [e]) -> e_num e = 12 -> consistent m (ls_check l) ->
  exists l' b, lstep l (LArrive e) = Ok (l', OutWrite b) /\
    (b = true -> exists iops' q', Link_proofs.inv 25 12 n l' (arr ++ [e]) iops' q' k) /\
    consistent (m + if jumps 300 (ck_prev (ls_check l)) (e_ts e) then 1 else 0) (ls_check l') /\ ck_prev (ls_check l') = e_ts e.
Proof.
  intros Hi Hw He Hc.
  destruct (inv_arrive dnf lk 25 12 n true running ltac:(lia) ltac:(lia) ltac:(unfold two64; lia) Hn l arr iops q k e Hi Hw He) as (l' & b & E & H).
  change (25 * 12) with 300 in E.
  exists l', b. split; [exact E|]. split.
  - intro Hb. destruct (H Hb) as (q' & Hi'). eauto.
  - assert (Hu : is_u64 (e_ts e)).
    { destruct Hw as [Hw _]. apply Forall_app in Hw as [_ Hw]. inversion Hw as [|? ? (_ & A & _ & B) _]; subst. unfold is_u64. rewrite He in B. lia. }
    destruct (check_step_real 300 25 m (ls_check l) e ltac:(unfold two64; lia) Hu Hc) as (A1 & A2 & A3 & _). cbn zeta in *.
    unfold link_step in E. destruct (timestamp_check 300 25 false e (ls_check l)) as [e' c']. cbn [fst snd] in *.
    destruct (write e' (ls_ring l)) as [[r' b']|]; [|discriminate]. cbn [bind] in E. injection E as <- <-. cbn [ls_check]. auto.
Qed.

Lemma ferr_app a l1 l2 : ferr a (l1 ++ l2) = ferr (ferr a l1) l2.
Proof. unfold frame_errors. apply fold_left_app. Qed.

Lemma sum_frames u i : slot_time c t0 i + 300 < limit ->
  sum (map (fun f => set_bits (err f)) (e_frames (sel u i))) = sum (map (fun j => set_bits (slot_word c u i j)) (seq 0 12)).
Proof. intro H. exact (slot_bits ff stride limit ok c t0 L Hpos Hsize Hsrc Hok Ht0 Htick u i H). Qed.

Lemma winv_step ops ys s o : winv ops ys s -> pw_range (ops ++ [o]) -> match o with PwChain p => good_call p | PwInfo => True end ->
  (o = PwChain XRestart -> fl_waiting (flow_of ops) = []) ->
  exists s' y, pstep s o = Ok (s', y) /\ (y <> PwOut (OutWrite false) -> winv (ops ++ [o]) (ys ++ [y]) s').
Proof.
  intros [X0 X1 X2 X3 X4 X5 X6 X7 X8 X9] R G D.
  assert (Rb : t0 + Z.of_nat (S (fl_next (flow_of ops))) * 300 < limit).
  { unfold pw_range in R. rewrite app_length in R. cbn [List.length] in R. lia. }
  assert (Ly : forall y : pwib_out, List.length (ops ++ [o]) = List.length (ys ++ [y])) by (intro y; rewrite !app_length, X0; reflexivity).
  assert (Len : List.length (ops ++ [o]) = S (List.length ops)) by (rewrite app_length; cbn; lia).
  destruct s as [[e qu l] er]. cbn [pw_chain pw_errors ch_emu ch_queue ch_link] in *.
  destruct o as [[room| |lim pct next|dr|]|]; cbn [pw_step pw_chain pw_errors ch_emu ch_queue ch_link].
  - (* produce *)
    destruct (one_slot c pw_size_pos Hsrc Hcount Hdrops Htab t0 _ _ e room X1) as (e' & E & X1'). rewrite E. cbn [bind].
    unfold slot. destruct (creates (em_dropouts c) (fl_next (flow_of ops))) eqn:Cr.
    + cbn [py_ts py_data py_pushed py_errs]. rewrite Hframes, Htick.
      assert (Lw : List.length (error_words (em_tables c) (uw ops + produced (em_dropouts c) (fl_next (flow_of ops)) * 12) 12) = 12%nat).
      { pose proof (i_gen _ _ _ _ _ X1) as Wg. rewrite Hframes in Wg.
        destruct (words_from (em_tables c) Htab _ 12 _ Wg) as (g1 & Eg & _). apply (words_length (em_tables c) 12 _ _ Eg). }
      assert (T : slot_time c t0 (fl_next (flow_of ops)) = t0 + Z.of_nat (fl_next (flow_of ops)) * 300) by (unfold slot_time; rewrite Htick; lia).
      destruct (pw_stamp_view ff stride limit ok c t0 L Hlim Hpos Hsize Hsrc Hok Ht0 Htick (uw ops) (fl_next (flow_of ops)) Lw) as (m & m' & Em & Em' & Vm).
      { lia. }
      change (12 * 25) with 300. rewrite Z.mod_small by lia. rewrite <- T.
      rewrite Em. cbn [bind]. rewrite Em'. cbn [bind]. eexists _, _. split; [reflexivity|]. intros _.
      assert (Ext : Forall (fun i => (i < S (fl_next (flow_of ops)))%nat) (fl_got (flow_of ops) ++ fl_waiting (flow_of ops))).
      { eapply Forall_impl; [|exact X4]. cbn beta. intros; lia. }
      constructor; rewrite ?chain_ops_snoc, ?flow_snoc, ?words_snoc; cbn [flow_step fl_next fl_waiting fl_got pw_chain pw_errors ch_emu ch_queue ch_link]; auto.
      * rewrite Cr. apply Forall2_app; [exact X2|]. destruct room; cbn [andb]; [|constructor]. constructor; [exact Vm|constructor].
      * rewrite Cr, app_assoc. apply increasing_app. split; [exact X3|]. destruct room; cbn [andb].
        -- split; [repeat constructor|]. eapply Forall_impl; [|exact X4]. intros i Hi. constructor; [exact Hi|constructor].
        -- split; [exact I|]. eapply Forall_impl; [|exact X4]. intros i Hi. constructor.
      * rewrite Cr, app_assoc. apply Forall_app. split; [exact Ext|]. destruct room; cbn [andb]; [|constructor]. constructor; [lia|constructor].
      * rewrite Len. lia.
      * destruct X6 as (io & q & k & Hi & Hk). exists io, q, k. split; [exact Hi|]. intro H. apply Forall_app in H as [H _]. auto.
      * rewrite reported_snoc by exact X0. exact X8.
      * intro H. apply X9. intro Hin. apply H. apply in_or_app. left. exact Hin.
    + eexists _, _. split; [reflexivity|]. intros _.
      constructor; rewrite ?chain_ops_snoc, ?flow_snoc, ?words_snoc; cbn [flow_step fl_next fl_waiting fl_got pw_chain pw_errors ch_emu ch_queue ch_link];
        rewrite ?Cr; cbn [andb]; rewrite ?app_nil_r; auto.
      * eapply Forall_impl; [|exact X4]. cbn beta. intros; lia.
      * rewrite Len. lia.
      * destruct X6 as (io & q & k & Hi & Hk). exists io, q, k. split; [exact Hi|]. intro H. apply Forall_app in H as [H _]. auto.
      * rewrite reported_snoc by exact X0. exact X8.
      * intro H. apply X9. intro Hin. apply H. apply in_or_app. left. exact Hin.
  - (* consume *)
    destruct qu as [|m ms].
    + destruct (fl_waiting (flow_of ops)) as [|i w] eqn:W; [|inversion X2]. eexists _, _. split; [reflexivity|]. intros _.
      constructor; rewrite ?chain_ops_snoc, ?flow_snoc, ?words_snoc; cbn [flow_step]; rewrite ?W; cbn [pw_chain pw_errors ch_emu ch_queue ch_link]; auto; try lia.
      * destruct X6 as (io & q & k & Hi & Hk). exists io, q, k. split; [exact Hi|]. intro H. apply Forall_app in H as [H _]. auto.
      * rewrite reported_snoc by exact X0. exact X8.
      * intro H. apply X9. intro Hin. apply H. apply in_or_app. left. exact Hin.
    + destruct (fl_waiting (flow_of ops)) as [|i w] eqn:W; [inversion X2|]. inversion X2 as [|? ? ? ? V X2']; subst. rewrite V. cbn [bind].
      unfold pw_link. cbn [pw_chain pw_errors ch_emu ch_queue ch_link]. destruct X6 as (io & q & k & Hi & Hk).
      assert (E3 : fl_got (flow_of ops) ++ i :: w = (fl_got (flow_of ops) ++ [i]) ++ w) by (rewrite <- app_assoc; reflexivity).
      rewrite E3 in X3, X4.
      assert (Hlt : (i < fl_next (flow_of ops))%nat).
      { apply Forall_app in X4 as [X4 _]. apply Forall_app in X4 as [_ X4]. inversion X4; assumption. }
      assert (Wf : wf 25 (map (sel (uw ops)) (fl_got (flow_of ops)) ++ [sel (uw ops) i])).
      { change [sel (uw ops) i] with (map (sel (uw ops)) [i]). rewrite <- map_app. apply (pw_slots_wf ff stride c t0 Ht0 Htick (uw ops) _ (S (fl_next (flow_of ops)))).
        - apply increasing_app in X3. apply X3.
        - apply Forall_app in X4 as [X4 _]. eapply Forall_impl; [|exact X4]. cbn beta. intros; lia.
        - lia. }
      destruct (pw_arrive _ _ _ _ _ (sel (uw ops) i) _ Hi Wf eq_refl (proj1 X7)) as (l' & b & E & Hb & Hc1 & Hc2).
      rewrite E. cbn [bind]. eexists _, _. split; [reflexivity|]. intro Hne. destruct b; [|congruence].
      destruct (Hb eq_refl) as (io' & q' & Hi'). rewrite (pw_slot_ts ff stride c t0 Htick) in Hc1, Hc2.
      constructor; rewrite ?chain_ops_snoc, ?flow_snoc, ?words_snoc; cbn [flow_step]; rewrite ?W; cbn [fl_next fl_waiting fl_got pw_chain pw_errors ch_emu ch_queue ch_link]; auto; try lia.
      * exists io', q', k. rewrite map_app. split; [exact Hi'|]. intro H. apply Forall_app in H as [H _]. auto.
      * rewrite map_app. cbn [map]. rewrite (count_snoc stride c Hsize Hsrc), last_of_snoc. destruct X7 as [_ C2]. rewrite <- C2. auto.
      * rewrite reported_snoc by exact X0. destruct X8 as (C1 & C2 & C3).
        assert (Hst : slot_time c t0 i + 300 < limit) by (unfold slot_time; rewrite Htick; lia).
        pose proof (flow_count (em_dropouts c) (chain_ops ops)) as Fc. rewrite W in Fc. cbn [List.length] in Fc.
        assert (Lc : (List.length (chain_ops ops) <= List.length ops)%nat).
        { apply chain_ops_length. }
        pose proof (error_bits_bound c (uw ops) (fl_got (flow_of ops))) as Eb.
        pose proof (sum_bits_bound (slot_word c (uw ops) i) (seq 0 12)) as Sb. rewrite seq_length in Sb.
        unfold pw_range in R. rewrite Len in R.
        rewrite c23_count by (unfold is_u64; lia). rewrite sum_frames by exact Hst. rewrite error_bits_snoc. change (2 ^ 64) with two64. rewrite Z.mod_small by lia.
        lia.
      * intro H. rewrite map_app, flat_map_app. cbn [map flat_map]. rewrite app_nil_r, ferr_app. apply eqc_all. apply X9.
        intro Hin. apply H. apply in_or_app. left. exact Hin.
  - (* clean *)
    destruct G as (G1 & G2 & G3). destruct X6 as (io & q & k & Hi & Hk).
    destruct (pw_clean _ _ _ _ _ lim pct next Hi G1 G2 G3) as (l' & io' & q' & k' & E & Hi' & Hp & Hc & Hr). unfold pw_link.
    cbn [pw_chain pw_errors ch_emu ch_queue ch_link]. rewrite E. cbn [bind].
    eexists _, _. split; [reflexivity|]. intros _.
    constructor; rewrite ?chain_ops_snoc, ?flow_snoc, ?words_snoc; cbn [flow_step pw_chain pw_errors ch_emu ch_queue ch_link]; auto; try lia.
    + exists io', q', k'. split; [exact Hi'|]. intro H. apply Forall_app in H as [_ H]. inversion H as [|? ? H' _]; subst. exfalso. apply H'. exact I.
    + destruct X7 as [C1 C2]. rewrite Hp. split; [|exact C2]. destruct C1 as (A & B & C). unfold consistent. rewrite Hc, Hr. auto.
    + rewrite reported_snoc by exact X0. exact X8.
    + intro H. apply X9. intro Hin. apply H. apply in_or_app. left. exact Hin.
  - (* request *)
    destruct X6 as (io & q & k & Hi & Hk).
    destruct (pw_request _ _ _ _ _ dr Hi G) as (l' & y & E & Hi' & Hc). unfold pw_link. cbn [pw_chain pw_errors ch_emu ch_queue ch_link].
    rewrite E. cbn [bind]. eexists _, _. split; [reflexivity|]. intros _.
    constructor; rewrite ?chain_ops_snoc, ?flow_snoc, ?words_snoc; cbn [flow_step pw_chain pw_errors ch_emu ch_queue ch_link]; auto; try lia.
    + exists io, q, k. split; [exact Hi'|]. intro H. apply Forall_app in H as [H _]. auto.
    + rewrite Hc. exact X7.
    + rewrite reported_snoc by exact X0. exact X8.
    + intro H. apply X9. intro Hin. apply H. apply in_or_app. left. exact Hin.
  - (* restart *)
    destruct X6 as (io & q & k & Hi & Hk). specialize (D eq_refl).
    destruct (pw_restart _ _ _ _ _ Hi) as (l' & io' & q' & E & Hi' & Hc). unfold pw_link. cbn [pw_chain pw_errors ch_emu ch_queue ch_link].
    rewrite E. cbn [bind pw_chain pw_errors ch_emu ch_queue ch_link].
    pose proof (i_gen _ _ _ _ _ X1) as Wg. rewrite Hframes in Wg.
    destruct (pw_begin _ _ Wg) as (e' & Ee & Ie). rewrite Ee. cbn [bind].
    rewrite D in X2. inversion X2 as [Q|]; subst.
    eexists _, _. split; [reflexivity|]. intros _.
    constructor; rewrite ?chain_ops_snoc, ?flow_snoc, ?words_snoc; cbn [flow_step fl_next fl_waiting fl_got pw_chain pw_errors ch_emu ch_queue ch_link app map increasing]; rewrite ?D; auto.
    + rewrite (Nat.mul_comm 12). exact Ie.
    + lia.
    + exists io', q', 0%nat. auto.
    + rewrite Hc. cbn. split; [|reflexivity]. repeat split; lia.
    + rewrite reported_snoc by exact X0. cbn [errst_start Check_model.es_count]. unfold error_bits. cbn [map sum]. lia.
    + intro H. exfalso. apply H. apply in_or_app. right. left. reflexivity.
  - (* get_info *)
    eexists _, _. split; [reflexivity|]. intros _.
    constructor; rewrite ?chain_ops_snoc, ?app_nil_r; cbn [pw_chain pw_errors ch_emu ch_queue ch_link]; auto; try lia.
    + rewrite reported_snoc by exact X0. cbn [Check_model.es_count]. destruct X8 as (C1 & C2 & C3). lia.
Qed.

Lemma prun_snoc : forall ops o s, prun s (ops ++ [o]) = (do (s', ys) <- prun s ops; do (s'', y) <- pstep s' o; Ok (s'', ys ++ [y])).
Proof.
  induction ops as [|p ops IH]; intros o s; cbn [app pw_run].
  - cbn [bind]. destruct (pstep s o) as [[s' y]|]; reflexivity.
  - destruct (pstep s p) as [[s1 y1]|]; [|reflexivity]. cbn [bind]. rewrite IH.
    destruct (prun s1 ops) as [[s2 ys]|]; [|reflexivity]. cbn [bind]. destruct (pstep s2 o) as [[s3 y3]|]; reflexivity.
Qed.

Definition good_pwib_call (o : pwib_op) : Prop := match o with PwChain p => good_call p | PwInfo => True end.

Lemma refused_dec (ys : list pwib_out) : {In (PwOut (OutWrite false)) ys} + {~ In (PwOut (OutWrite false)) ys}.
Proof.
  induction ys as [|y ys [IH|IH]]; [right; intros []|left; right; exact IH|].
  destruct y as [[[]| |]|]; try (right; intros [H|H]; [discriminate|exact (IH H)]). left. left. reflexivity.
Qed.

Lemma winv_run : forall ops s0 ws g, gen_words (em_tables c) used0 gen_new = Ok (ws, g) -> pw_new c g n = Ok s0 ->
  Forall good_pwib_call ops -> drained (em_dropouts c) (chain_ops ops) -> pw_range ops ->
  (exists s ys, prun s0 ops = Ok (s, ys) /\ (~ In (PwOut (OutWrite false)) ys -> winv ops ys s)) \/
  (exists m s ys, (m <= List.length ops)%nat /\ prun s0 (firstn m ops) = Ok (s, ys) /\ In (PwOut (OutWrite false)) ys).
Proof.
  induction ops as [|o ops IH] using rev_ind; intros s0 ws g W E0 G D R.
  - left. exists s0, []. split; [reflexivity|]. intros _. exact (winv_new ws g s0 W E0).
  - apply Forall_app in G as [G Go]. inversion Go as [|? ? Go' _]; subst.
    assert (D12 : drained (em_dropouts c) (chain_ops ops) /\ (o = PwChain XRestart -> fl_waiting (flow_of ops) = [])).
    { rewrite chain_ops_snoc in D. destruct o as [p|].
      - destruct (drained_prefix _ _ _ D) as [D1 D2]. split; [exact D1|]. intro E. injection E as ->. apply D2. reflexivity.
      - rewrite app_nil_r in D. split; [exact D|discriminate]. }
    destruct D12 as [D1 D2].
    assert (R1 : pw_range ops) by (unfold pw_range in *; rewrite app_length in R; cbn [List.length] in R; lia).
    destruct (IH s0 ws g W E0 G D1 R1) as [(s & ys & E & H)|(m & s & ys & Hm & E & H)].
    2:{ right. exists m, s, ys. rewrite app_length, firstn_app. replace (m - List.length ops)%nat with 0%nat by lia.
        cbn [firstn]. rewrite app_nil_r. repeat split; try assumption. lia. }
    destruct (refused_dec ys) as [Hin|Hnin].
    { right. exists (List.length ops), s, ys. rewrite app_length, firstn_app, Nat.sub_diag, firstn_all. cbn [firstn]. rewrite app_nil_r.
      repeat split; try assumption. lia. }
    destruct (winv_step ops ys s o (H Hnin) R Go' D2) as (s' & y & Es & Hs).
    left. exists s', (ys ++ [y]). split.
    + rewrite prun_snoc, E. cbn [bind]. rewrite Es. reflexivity.
    + intros Hni. apply Hs. intros ->. apply Hni. apply in_or_app. right. left. reflexivity.
Qed.

Lemma firstn_prun : forall ops m s s' ys, prun s ops = Ok (s', ys) -> exists s'', prun s (firstn m ops) = Ok (s'', firstn m ys).
Proof.
  induction ops as [|o ops IH]; intros m s s' ys E.
  - cbn in E. injection E as <- <-. rewrite !firstn_nil. exists s. reflexivity.
  - destruct m as [|m]; [exists s; reflexivity|]. cbn [pw_run] in E. destruct (pstep s o) as [[s1 y]|] eqn:E1; [|discriminate]. cbn [bind] in E.
    destruct (prun s1 ops) as [[s2 ys']|] eqn:E2; [|discriminate]. cbn [bind] in E. injection E as <- <-.
    destruct (IH m s1 s2 ys' E2) as (s3 & E3). exists s3. cbn [firstn pw_run]. rewrite E1. cbn [bind]. rewrite E3. reflexivity.
Qed.

Lemma winv_after ops s0 ws g s ys : gen_words (em_tables c) used0 gen_new = Ok (ws, g) -> pw_new c g n = Ok s0 ->
  Forall good_pwib_call ops -> drained (em_dropouts c) (chain_ops ops) -> pw_range ops -> prun s0 ops = Ok (s, ys) ->
  ~ In (PwOut (OutWrite false)) ys -> winv ops ys s.
Proof.
  intros W E0 G D R E Hni. destruct (winv_run ops s0 ws g W E0 G D R) as [(s1 & ys1 & E1 & H)|(m & s1 & ys1 & _ & E1 & H)].
  - rewrite E in E1. injection E1 as <- <-. apply H. exact Hni.
  - exfalso. destruct (firstn_prun ops m s0 s ys E) as (s2 & E2). rewrite E1 in E2. injection E2 as _ ->.
    apply Hni. rewrite <- (firstn_skipn m ys). apply in_or_app. left. exact H.
Qed.

(** ** Answers *)
Lemma pw_classify u l b e : classify running (map (sel u) l) b e = answer c t0 running l b e.
Proof.
  destruct l as [|i l]; [reflexivity|]. unfold classify, answer.
  assert (E1 : oldest_ts (map (sel u) (i :: l)) = slot_time c t0 i) by (cbn [map oldest_ts]; apply (pw_slot_ts ff stride c t0 Htick)).
  assert (E2 : newest_ts (map (sel u) (i :: l)) = slot_time c t0 (last (i :: l) 0%nat)).
  { destruct (exists_last (l := i :: l)) as (a & z & ->); [discriminate|]. unfold newest_ts. rewrite map_app, rev_app_distr. cbn [map rev app oldest_ts].
    rewrite last_last. apply (pw_slot_ts ff stride c t0 Htick). }
  rewrite E1, E2. cbn [map]. destruct ((slot_time c t0 i <=? b) && _); [reflexivity|].
  destruct (b <? slot_time c t0 i); [reflexivity|]. destruct running; reflexivity.
Qed.

Lemma pw_answer ops ys s : winv ops ys s ->
  exists k, (k <= List.length (fl_got (flow_of ops)))%nat /\ (Forall (fun o => ~ is_clean o) (chain_ops ops) -> k = 0%nat) /\
  forall dr, rq_begin dr <= rq_end dr ->
  exists s' f, pstep s (PwChain (XRequest dr)) =
      Ok (s', PwOut (OutReply (answer c t0 running (skipn k (fl_got (flow_of ops))) (rq_begin dr) (rq_end dr)) f)) /\
    match answer c t0 running (skipn k (fl_got (flow_of ops))) (rq_begin dr) (rq_end dr) with
    | kFound => f = Some (mk_fragment (create_fragment_header lk dr)
                            (window_bytes (map (sel (uw ops)) (fl_got (flow_of ops))) (rq_begin dr) (rq_end dr)))
    | kNotYet => f = None
    | kNotFound => exists fr, f = Some fr /\ fg_bytes fr = [] /\ Z.testbit (h_error_bits (fg_header fr)) dnf = true
    end.
Proof.
  intros X. set (got := fl_got _). destruct (w_link _ _ _ X) as (io & q & k & Hi & Hk). exists k.
  split; [rewrite <- (map_length (sel (uw ops))); apply (i_kle _ _ _ _ _ _ _ _ Hi)|]. split; [exact Hk|]. intros dr Hdr.
  pose proof (i_items _ _ _ _ _ _ _ _ Hi) as Eq. fold got in Eq. rewrite skipn_map in Eq.
  destruct (inv_right_answer dnf lk 25 12 n running Hdnf ltac:(lia) Hn _ _ _ _ _ dr Hi Hdr) as (fo & st' & Ea & _ & Hm).
  cbn [pw_step]. unfold pw_link, link_step. rewrite Ea. cbn [bind]. rewrite Eq, pw_classify in *.
  eexists _, _. split; [reflexivity|].
  destruct (answer c t0 running (skipn k got) (rq_begin dr) (rq_end dr)) eqn:An.
  - rewrite <- (pw_classify (uw ops)), <- Eq in An. unfold classify in An. destruct (q_items q) as [|x l] eqn:El; [discriminate|].
    destruct ((oldest_ts (x :: l) <=? rq_begin dr) && (rq_end dr <=? newest_ts (x :: l))) eqn:Ew.
    2:{ destruct (rq_begin dr <? oldest_ts (x :: l)); [discriminate|destruct running; discriminate]. }
    apply andb_true_iff in Ew as [W1 W2]. apply Z.leb_le in W1, W2.
    destruct (inv_served dnf lk 25 12 n running ltac:(lia) Hn _ _ _ _ _ dr Hi Hdr) as (st2 & E2);
      [rewrite El; discriminate|rewrite El; lia|rewrite El; lia|].
    rewrite Ea in E2. injection E2 as -> _. reflexivity.
  - exact Hm.
  - exact Hm.
Qed.
End Protowib.
