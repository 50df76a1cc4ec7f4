(** The link behind an emulated source, seen as a link with a history of its own. *)
From Coq Require Import String ZArith List Bool Lia.
From Verif Require Import Base_model Bytes_model Bytes_proofs Codec_model Codec_spec Ebg_model Ebg_spec Ebg_proofs Emu_model
  Emu_spec Emu_proofs Ring_model Ring_spec Ring_proofs Elem_model Lb_model Float_model Registry_model Request_model Request_spec
  Request_proofs Cleanup_spec Check_model Check_spec Check_proofs Link_model Link_spec Link_proofs Chain_model Chain_spec Chain_proofs Chain_proofs2 Chain_proofs3
  Keep_model Keep_spec Keep_proofs Sustain_spec Sustain_proofs.
Import ListNotations.
Open Scope Z_scope.

(** * Facts about the flow alone *)
Lemma flow_facts : forall d ops, drained d ops ->
  increasing (fl_got (flow_run d ops) ++ fl_waiting (flow_run d ops)) /\
  Forall (fun i => (i < fl_next (flow_run d ops))%nat) (fl_got (flow_run d ops) ++ fl_waiting (flow_run d ops)) /\
  (fl_next (flow_run d ops) <= List.length ops)%nat.
Proof.
  intros d ops. induction ops as [|o ops IH] using rev_ind; intros D.
  - cbn. repeat split; auto.
  - destruct (drained_prefix _ _ _ D) as [D1 D2]. destruct (IH D1) as (I1 & I2 & I3). rewrite flow_snoc, app_length. cbn [List.length]. destruct o as [room| |limit pct next|dr|]; cbn [flow_step].
    + cbn [fl_got fl_waiting fl_next]. rewrite app_assoc.
      assert (Ext : Forall (fun i => (i < S (fl_next (flow_run d ops)))%nat) (fl_got (flow_run d ops) ++ fl_waiting (flow_run d ops))) by (eapply Forall_impl; [|exact I2]; cbn beta; intros; lia).
      destruct (creates d (fl_next (flow_run d ops)) && room).
      * split; [|split; [|lia]].
        -- apply increasing_app. split; [exact I1|]. split; [cbn; auto|]. eapply Forall_impl; [|exact I2]. intros i Hi. constructor; [exact Hi|constructor].
        -- apply Forall_app. split; [exact Ext|]. constructor; [lia|constructor].
      * rewrite app_nil_r. split; [exact I1|]. split; [exact Ext|lia].
    + destruct (fl_waiting (flow_run d ops)) as [|i w] eqn:W; [rewrite W in *; repeat split; auto; lia|]. cbn [fl_got fl_waiting fl_next].
      rewrite <- app_assoc. cbn [app]. split; [exact I1|]. split; [exact I2|lia].
    + repeat split; auto; lia.
    + repeat split; auto; lia.
    + cbn [fl_got fl_waiting fl_next]. rewrite (D2 eq_refl). cbn. repeat split; auto; lia.
Qed.

Section Project.
Variable d : list bool.
Variable sel : nat -> elem.

(** What an operation does to the link. *)
Definition at_link (w : flow) (o : chain_op) : list link_op :=
  match o with
  | XProduce _ => []
  | XConsume => match fl_waiting w with [] => [] | i :: _ => [LArrive (sel i)] end
  | XClean limit pct next => [LClean limit pct next]
  | XRequest dr => [LRequest dr]
  | XRestart => [LRestart]
  end.
Fixpoint lops_from (w : flow) (ops : list chain_op) : list link_op :=
  match ops with [] => [] | o :: r => at_link w o ++ lops_from (flow_step d w o) r end.
Definition flow_from (w : flow) (ops : list chain_op) : flow := fold_left (flow_step d) ops w.
Definition start_flow : flow := mk_flow 0 [] [].

Lemma lops_app : forall a b w, lops_from w (a ++ b) = lops_from w a ++ lops_from (flow_from w a) b.
Proof. induction a as [|o a IH]; intros b w; [reflexivity|]. cbn [app lops_from flow_from fold_left]. rewrite IH, app_assoc. reflexivity. Qed.

Lemma lops_snoc : forall ops o, lops_from start_flow (ops ++ [o]) = lops_from start_flow ops ++ at_link (flow_run d ops) o.
Proof. intros ops o. rewrite lops_app. cbn [lops_from]. rewrite app_nil_r. reflexivity. Qed.

Lemma lops_received : forall ops, received (lops_from start_flow ops) = map sel (fl_got (flow_run d ops)).
Proof.
  induction ops as [|o ops IH] using rev_ind; [reflexivity|]. rewrite lops_snoc, flow_snoc. destruct o as [room| |limit pct next|dr|]; cbn [at_link flow_step].
  - rewrite app_nil_r. cbn [fl_got]. exact IH.
  - destruct (fl_waiting (flow_run d ops)) as [|i w]; [rewrite app_nil_r; exact IH|]. unfold received in *. rewrite received_snoc_gen, IH. cbn [fl_got]. rewrite map_app. reflexivity.
  - unfold received in *. rewrite received_snoc_gen. exact IH.
  - unfold received in *. rewrite received_snoc_gen. exact IH.
  - unfold received. rewrite received_snoc_gen. reflexivity.
Qed.

Lemma at_link_one : forall w o, at_link w o = [] \/ exists x, at_link w o = [x].
Proof. intros w o. destruct o as [room| |limit pct next|dr|]; cbn; eauto. destruct (fl_waiting w); eauto. Qed.

Lemma lops_split : forall ops w a b, lops_from w ops = a ++ b ->
  exists a' b', ops = a' ++ b' /\ lops_from w a' = a /\ lops_from (flow_from w a') b' = b.
Proof.
  induction ops as [|o ops IH]; intros w a b E.
  - cbn in E. symmetry in E. apply app_eq_nil in E as [-> ->]. exists [], []. auto.
  - destruct a as [|x a].
    + exists [], (o :: ops). auto.
    + cbn [lops_from] in E. destruct (at_link_one w o) as [Z|(y & Z)]; rewrite Z in E; cbn [app] in E.
      * destruct (IH _ (x :: a) b E) as (a' & b' & -> & E1 & E2). exists (o :: a'), b'. split; [reflexivity|]. split; [cbn [lops_from]; rewrite Z; exact E1|exact E2].
      * injection E as -> E. destruct (IH _ a b E) as (a' & b' & -> & E1 & E2). exists (o :: a'), b'. split; [reflexivity|]. split; [cbn [lops_from]; rewrite Z, E1; reflexivity|exact E2].
Qed.

Lemma quiet_back : forall b w, Forall (fun o => ~ link_interrupts o) (lops_from w b) -> Forall (fun o => ~ chain_interrupts o) b.
Proof.
  induction b as [|o b IH]; intros w H; [constructor|]. cbn [lops_from] in H. apply Forall_app in H as [H1 H2]. constructor; [|eapply IH; exact H2].
  destruct o as [room| |limit pct next|dr|]; cbn in *; auto; inversion H1; subst; auto.
Qed.

Lemma lops_paced : forall m ops, chain_paced d m ops -> link_paced m (lops_from start_flow ops).
Proof.
  intros m ops H a b c E Q. destruct (lops_split _ _ _ _ E) as (a' & r & -> & Ea & Er). destruct (lops_split _ _ _ _ Er) as (b' & c' & -> & Eb & _).
  rewrite <- Ea at 2. assert (X : a ++ b = lops_from start_flow (a' ++ b')) by (rewrite lops_app, Ea, Eb; reflexivity). rewrite X, !lops_received, !map_length.
  apply (H a' b' c' eq_refl). eapply quiet_back. rewrite Eb. exact Q.
Qed.

Lemma lops_cleans : forall ops w l p next, In (LClean l p next) (lops_from w ops) -> In (XClean l p next) ops.
Proof.
  induction ops as [|o ops IH]; intros w l p next H; [contradiction|]. cbn [lops_from] in H. apply in_app_or in H as [H|H]; [|right; eapply IH; exact H]. left.
  destruct o as [room| |limit pct nx|dr|]; cbn in H; try contradiction.
  - destruct (fl_waiting w); [contradiction|]. destruct H as [H|[]]. discriminate.
  - destruct H as [H|[]]. congruence.
  - destruct H as [H|[]]. discriminate.
  - destruct H as [H|[]]. discriminate.
Qed.

Lemma lops_proper_op : forall ops w, (forall i, e_num (sel i) = 12) -> Forall good_call ops -> Forall (proper_op 12) (lops_from w ops).
Proof.
  induction ops as [|o ops IH]; intros w Hs H; [constructor|]. inversion H as [|? ? G H']; subst. cbn [lops_from]. apply Forall_app. split; [|apply IH; assumption].
  destruct o as [room| |limit pct next|dr|]; cbn in *; auto.
  destruct (fl_waiting w); [constructor|]. constructor; [apply Hs|constructor].
Qed.
End Project.

Section Chain.
Variable p1 p2 stride : nat.
Variable c : emu_conf.
Variable t0 dnf n : Z.
Variable lk : link.
Variable resets running : bool.
Hypothesis F : fields_ok p1 p2 stride.
Hypothesis Hsize : em_size c = (12 * stride)%nat.
Hypothesis Hsrc : (em_size c <= List.length (em_source c))%nat.
Hypothesis Hcount : Z.of_nat (List.length (em_source c) / em_size c) < two32.
Hypothesis Hdrops : em_dropouts c <> [].
Hypothesis Htab : tables_ok (em_tables c).
Hypothesis Et0 : starts_at c t0.
Hypothesis Ht0 : 0 <= t0.
Hypothesis Htick : 0 < em_tick c.
Hypothesis Hdnf : 0 <= dnf.
Hypothesis Hn : 2 <= n <= 2 ^ 24.

Notation dur := (em_tick c * 12).
Notation sel := (slot_elem c p1 p2 stride t0).
Notation flow_of := (flow_run (em_dropouts c)).
Notation cstep := (chain_step p1 p2 stride c dnf lk resets running).
Notation crun := (chain_run p1 p2 stride c dnf lk resets running).
Notation lstep := (link_step dnf lk dur (em_tick c) resets running).
Notation lrun := (link_run dnf lk dur (em_tick c) resets running).
Notation lops := (lops_from (em_dropouts c) sel start_flow).

Lemma lops_proper : forall ops, Forall good_call ops -> drained (em_dropouts c) ops -> Chain_proofs2.in_range c t0 ops -> proper_history (em_tick c) 12 (lops ops).
Proof.
  intros ops G D R. split; [apply lops_proper_op; auto|]. intros k.
  destruct (lops_split _ _ ops start_flow (firstn k (lops ops)) (skipn k (lops ops)) (eq_sym (firstn_skipn k _))) as (a & b & E & Ea & _).
  rewrite <- Ea, lops_received.
  assert (Da : drained (em_dropouts c) a). { intros u v Eu. apply (D u (v ++ b)). rewrite E, Eu, <- app_assoc. reflexivity. }
  destruct (flow_facts _ _ Da) as (I1 & I2 & I3). apply increasing_app in I1 as [I1 _]. apply Forall_app in I2 as [I2 _].
  apply (slots_wf p1 p2 stride c t0 Ht0 Htick _ (fl_next (flow_of a)) I1 I2). unfold Chain_proofs2.in_range in R. rewrite E, app_length in R.
  assert (Z.of_nat (fl_next (flow_of a)) * (12 * em_tick c) <= Z.of_nat (List.length a + List.length b) * (12 * em_tick c)) by (apply Z.mul_le_mono_nonneg_r; lia). lia.
Qed.

(** One operation of the chain is what it does to the link. *)
Lemma step_at_link : forall ops s o s' y, cinv p1 p2 stride c t0 n resets ops s -> cstep s o = Ok (s', y) ->
  exists ys, lrun (ch_link s) (at_link sel (flow_of ops) o) = Ok (ch_link s', ys) /\ (In (OutWrite false) ys <-> y = OutWrite false).
Proof.
  intros ops s o s' y X E. pose proof (x_queue _ _ _ _ _ _ _ _ _ X) as Q.
  assert (OL : forall lo (s1 s2 : chain) z, on_link c dnf lk resets running lo s1 = Ok (s2, z) -> lrun (ch_link s1) [lo] = Ok (ch_link s2, [z])).
  { intros lo s1 s2 z H. unfold on_link in H. cbn [link_run]. destruct (lstep (ch_link s1) lo) as [[l1 z1]|]; [|discriminate]. cbn [bind] in *. injection H as <- <-. reflexivity. }
  assert (One : forall z : link_out, In (OutWrite false) [z] <-> z = OutWrite false) by (intros z; cbn; intuition).
  destruct o as [room| |limit pct next|dr|]; cbn [chain_step at_link] in *.
  - destruct (emu_slot c room (ch_emu s)) as [[[py|] e']|]; [| |discriminate]; cbn [bind] in E.
    + destruct (fake_timestamps _ _ _ _ _ _); [|discriminate]. cbn [bind] in E. injection E as <- <-. exists []. split; [reflexivity|]. cbn. split; [tauto|discriminate].
    + injection E as <- <-. exists []. split; [reflexivity|]. cbn. split; [tauto|discriminate].
  - destruct (ch_queue s) as [|mm ms] eqn:Qs.
    + inversion Q as [W|]; subst. injection E as <- <-. exists []. split; [reflexivity|]. cbn. split; [tauto|discriminate].
    + inversion Q as [|? i ? w V Q' Z1 W]; subst. rewrite V in E. cbn [bind] in E. exists [y]. split; [|apply One]. apply OL in E. exact E.
  - exists [y]. split; [apply OL; exact E|apply One].
  - exists [y]. split; [apply OL; exact E|apply One].
  - destruct (on_link c dnf lk resets running LRestart s) as [[s1 y1]|] eqn:E1; [|discriminate]. cbn [bind] in E. destruct (emu_begin c _); [|discriminate]. cbn [bind] in E. injection E as <- <-.
    exists [y1]. split; [apply OL in E1; exact E1|apply One].
Qed.

Lemma lrun_split : forall a b s s2 ys, lrun s (a ++ b) = Ok (s2, ys) ->
  exists s1 ys1 ys2, lrun s a = Ok (s1, ys1) /\ lrun s1 b = Ok (s2, ys2) /\ ys = ys1 ++ ys2.
Proof.
  induction a as [|o a IH]; intros b s s2 ys H.
  - exists s, [], ys. auto.
  - cbn [app link_run] in *. destruct (lstep s o) as [[s3 y3]|]; [|discriminate]. cbn [bind] in *. destruct (lrun s3 (a ++ b)) as [[s4 ys4]|] eqn:E; [|discriminate]. cbn [bind] in H.
    injection H as <- <-. destruct (IH _ _ _ _ E) as (s1 & ys1 & ys2 & E1 & E2 & ->). exists s1, (y3 :: ys1), ys2. rewrite E1. auto.
Qed.

Lemma chain_as_link : forall ops s0 l0 l lys used ws g, gen_words (em_tables c) used gen_new = Ok (ws, g) -> chain_new c g n = Ok s0 -> link_new n = Ok l0 ->
  Forall good_call ops -> drained (em_dropouts c) ops -> Chain_proofs2.in_range c t0 ops ->
  lrun l0 (lops ops) = Ok (l, lys) -> ~ In (OutWrite false) lys ->
  exists s ys, crun s0 ops = Ok (s, ys) /\ ~ In (OutWrite false) ys /\ ch_link s = l.
Proof.
  induction ops as [|o ops IH] using rev_ind; intros s0 l0 l lys used ws g W E0 El G D R EL NR.
  - exists s0, []. split; [reflexivity|]. split; [intros []|]. unfold chain_new in E0. rewrite El in E0. cbn [bind] in E0. destruct (emu_begin c g); [|discriminate]. cbn [bind] in E0. injection E0 as <-.
    cbn in EL. injection EL as <- _. reflexivity.
  - apply Forall_app in G as [G Go]. inversion Go as [|? ? Go' _]; subst. destruct (drained_prefix _ _ _ D) as [D1 D2]. pose proof (in_range_mono stride c t0 Hsize Hsrc Htick _ _ R) as R1.
    rewrite lops_snoc in EL. destruct (lrun_split _ _ _ _ _ EL) as (l1 & ys1 & ys2 & L1 & L2 & ->).
    destruct (IH s0 l0 l1 ys1 used ws g W E0 El G D1 R1 L1) as (s & ys & E & NI & <-). { intro H. apply NR. apply in_or_app. left. exact H. }
    pose proof (cinv_after p1 p2 stride c t0 dnf n lk resets running F Hsize Hsrc Hcount Hdrops Htab Et0 Ht0 Htick Hdnf Hn ops s0 used ws g s ys W E0 G D1 R1 E NI) as X.
    destruct (cinv_step p1 p2 stride c t0 dnf n lk resets running F Hsize Hsrc Hcount Hdrops Htab Et0 Ht0 Htick Hdnf Hn ops s o X R Go' D2) as (s' & y & Es & _).
    destruct (step_at_link ops s o s' y X Es) as (ys' & L3 & I3). rewrite L3 in L2. injection L2 as <- <-.
    exists s', (ys ++ [y]). split; [rewrite crun_snoc, E; cbn [bind]; rewrite Es; reflexivity|]. split; [|reflexivity].
    intros H. apply in_app_or in H as [H|[H|[]]]; [exact (NI H)|]. apply NR. apply in_or_app. right. apply I3. exact H.
Qed.
End Chain.
