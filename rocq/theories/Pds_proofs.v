(** The emulated photon detector link, whatever its buffer. *)
From Coq Require Import String ZArith List Bool Lia.
From Verif Require Import Base_model Bytes_model Bytes_proofs Codec_model Codec_spec Ebg_model Ebg_spec Ebg_proofs Emu_model
  Emu_spec Emu_proofs Elem_model Lb_model Float_model Registry_model Request_model Request_spec
  Request_proofs Cleanup_model Cleanup_spec Check_model Check_spec Link_model Chain_model Chain_spec Chain_proofs Chain_proofs2 Pds_model Pds_spec.
Import ListNotations.
Open Scope Z_scope.

Section Pds.
Context {B : Type}.
Variable buf : lb elem B.
Variable flush_buf : B -> res B.
Variable clean : Z -> float32 -> Z -> B -> registry -> pop_stats -> res (B * registry * pop_stats).
Variable p1 p2 stride : nat.
Variable c : emu_conf.
Variable t0 dnf : Z.
Variable lk : link.
Variable running : bool.
Variable N : nat.
Hypothesis F : fields_ok p1 p2 stride.
Hypothesis Hsize : em_size c = (12 * stride)%nat.
Hypothesis Hsrc : (em_size c <= length (em_source c))%nat.
Hypothesis Hcount : Z.of_nat (length (em_source c) / em_size c) < two32.
Hypothesis Hdrops : em_dropouts c <> [].
Hypothesis Htab : tables_ok (em_tables c).
Hypothesis Et0 : starts_at c t0.
Hypothesis Ht0 : 0 <= t0.
Hypothesis Htick : 0 < em_tick c.
Hypothesis HN : t0 + Z.of_nat N * (12 * em_tick c) < two64.

Notation sel := (slot_elem c p1 p2 stride t0).
Variable room : list nat -> bool.
Variable keep : Z -> float32 -> Z -> list nat -> list nat.
Variable seen : Z -> list elem -> list elem.
Variable good : chain_op -> Prop.
Variable holds : B -> list elem -> Prop.

Definition wfs (l : list nat) : Prop := increasing l /\ Forall (fun i => (i < N)%nat) l.

Definition reply_ok (l : list nat) (dr : request) (k : code) (f : option fragment) : Prop :=
  match answer c t0 running l (rq_begin dr) (rq_end dr) with
  | kFound => OutReply k f = OutReply kFound (Some (mk_fragment (create_fragment_header lk dr)
                    (window_bytes (seen (rq_begin dr) (map sel l)) (rq_begin dr) (rq_end dr))))
  | kNotYet => OutReply k f = OutReply kNotYet None
  | kNotFound => exists fr, OutReply k f = OutReply kNotFound (Some fr) /\ mirrors lk dr (fg_header fr) /\ fg_bytes fr = [] /\
                   Z.testbit (h_error_bits (fg_header fr)) dnf = true
  end.

Hypothesis H_write : forall b l i, wfs (l ++ [i]) -> holds b (map sel l) ->
  exists b', lb_write buf (sel i) b = Ok (b', room l) /\ holds b' (map sel (if room l then l ++ [i] else l)).
Hypothesis H_clean : forall b l limit pct next reg p, wfs l -> holds b (map sel l) -> good (XClean limit pct next) ->
  exists b' reg' p', clean limit pct next b reg p = Ok (b', reg', p') /\ holds b' (map sel (keep limit pct next l)).
Hypothesis H_keep : forall limit pct next l w, increasing (l ++ w) ->
  increasing (keep limit pct next l ++ w) /\ incl (keep limit pct next l) l.
Hypothesis H_flush : forall b l, wfs l -> holds b (map sel l) -> exists b', flush_buf b = Ok b' /\ holds b' [].
Hypothesis H_request : forall b l dr missing st, wfs l -> holds b (map sel l) -> good (XRequest dr) ->
  exists k f st', data_request dnf lk (em_tick c) buf running missing b dr st = Ok (k, f, st') /\ reply_ok l dr k f.

Notation pstep := (pds_step buf flush_buf clean p1 p2 stride c dnf lk running).
Notation prun := (pds_run buf flush_buf clean p1 p2 stride c dnf lk running).
Notation dev := (device c room keep).
Notation flow_of := (flow_run (em_dropouts c)).
Notation ok_out := (right_out c t0 room keep seen p1 p2 stride dnf lk running).

Lemma device_snoc ops o : dev (ops ++ [o]) = device_step c room keep (dev ops) o.
Proof. unfold device. rewrite fold_left_app. reflexivity. Qed.

Lemma device_flow ops : fst (dev ops) = flow_of ops.
Proof.
  induction ops as [|o ops IH] using rev_ind; [reflexivity|]. rewrite device_snoc, flow_snoc. cbn [device_step fst]. rewrite IH. reflexivity.
Qed.

Record pinv (ops : list chain_op) (s : pds B) : Prop := mk_pinv {
  y_emu : exists used, Emu_proofs.inv c t0 used (fl_next (flow_of ops)) (pd_emu s);
  y_queue : Forall2 (fun m i => view p1 p2 stride m = Ok (sel i)) (pd_queue s) (fl_waiting (flow_of ops));
  y_inc : increasing (stored c room keep ops ++ fl_waiting (flow_of ops));
  y_lt : Forall (fun i => (i < fl_next (flow_of ops))%nat) (stored c room keep ops ++ fl_waiting (flow_of ops));
  y_next : (fl_next (flow_of ops) <= length ops)%nat;
  y_buf : holds (pd_buf s) (map sel (stored c room keep ops))
}.

Lemma Forall_below a b l : (a <= b)%nat -> Forall (fun i => (i < a)%nat) l -> Forall (fun i => (i < b)%nat) l.
Proof. intros H. apply Forall_impl. intros; lia. Qed.

Lemma pinv_step ops s o : pinv ops s -> (S (length ops) <= N)%nat -> good o ->
  (o = XRestart -> fl_waiting (flow_of ops) = []) ->
  exists s' y, pstep s o = Ok (s', y) /\ ok_out ops o y /\ pinv (ops ++ [o]) s'.
Proof.
  intros [X1 X2 X3 X4 X5 X6] R G D.
  assert (Rb : t0 + Z.of_nat (S (fl_next (flow_of ops))) * (12 * em_tick c) < two64) by nia.
  assert (Len : List.length (ops ++ [o]) = S (List.length ops)) by (rewrite app_length; cbn; lia).
  assert (Fo : fst (dev ops) = flow_of ops) by apply device_flow.
  assert (Wst : wfs (stored c room keep ops)).
  { split; [apply increasing_app in X3; apply X3|]. apply Forall_app in X4 as [X4 _]. apply (Forall_below (fl_next (flow_of ops))); [lia|exact X4]. }
  assert (Sn : stored c room keep (ops ++ [o]) =
    match o with
    | XConsume => match fl_waiting (flow_of ops) with i :: _ => if room (stored c room keep ops) then stored c room keep ops ++ [i] else stored c room keep ops | [] => stored c room keep ops end
    | XClean limit pct next => keep limit pct next (stored c room keep ops)
    | XRestart => []
    | _ => stored c room keep ops
    end).
  { unfold stored at 1. rewrite device_snoc. cbn [device_step snd]. rewrite Fo. reflexivity. }
  destruct o as [rm| |limit pct next|dr|]; cbn [pds_step].
  - (* produce *)
    destruct X1 as (used & X1).
    destruct (one_slot c (size_pos p1 p2 stride c F Hsize Hsrc) Hsrc Hcount Hdrops Htab t0 used _ (pd_emu s) rm X1) as (e' & E & X1'). rewrite E. cbn [bind].
    unfold slot. destruct (creates (em_dropouts c) (fl_next (flow_of ops))) eqn:Cr.
    + cbn [py_ts py_data py_pushed]. destruct (stamp_view p1 p2 stride F c t0 Hsize Hsrc Ht0 Htick (fl_next (flow_of ops))) as (m & Em & Vm).
      { unfold slot_time. lia. }
      rewrite Z.mod_small by nia. change (t0 + Z.of_nat (fl_next (flow_of ops)) * (12 * em_tick c)) with (slot_time c t0 (fl_next (flow_of ops))).
      rewrite Em. cbn [bind]. eexists _, _. split; [reflexivity|]. split; [reflexivity|].
      constructor; rewrite ?Sn, ?flow_snoc; cbn [flow_step fl_next fl_waiting pd_emu pd_queue pd_buf].
      * exists used. exact X1'.
      * rewrite Cr. apply Forall2_app; [exact X2|]. destruct rm; cbn [andb]; [|constructor]. constructor; [exact Vm|constructor].
      * rewrite Cr, app_assoc. apply increasing_app. split; [exact X3|]. destruct rm; cbn [andb].
        -- split; [repeat constructor|]. eapply Forall_impl; [|exact X4]. intros i Hi. constructor; [exact Hi|constructor].
        -- split; [exact I|]. eapply Forall_impl; [|exact X4]. intros i Hi. constructor.
      * rewrite Cr, app_assoc. apply Forall_app. split; [apply (Forall_below (fl_next (flow_of ops))); [lia|exact X4]|].
        destruct rm; cbn [andb]; [|constructor]. constructor; [lia|constructor].
      * rewrite Len. lia.
      * exact X6.
    + eexists _, _. split; [reflexivity|]. split; [reflexivity|].
      constructor; rewrite ?Sn, ?flow_snoc; cbn [flow_step fl_next fl_waiting pd_emu pd_queue pd_buf]; rewrite ?Cr; cbn [andb]; rewrite ?app_nil_r.
      * exists used. exact X1'.
      * exact X2.
      * exact X3.
      * apply (Forall_below (fl_next (flow_of ops))); [lia|exact X4].
      * rewrite Len. lia.
      * exact X6.
  - (* consume *)
    destruct (pd_queue s) as [|m ms] eqn:Q.
    + destruct (fl_waiting (flow_of ops)) as [|i w] eqn:W; [|inversion X2]. eexists _, _. split; [reflexivity|].
      split; [cbn [right_out]; rewrite Fo, W; reflexivity|].
      constructor; rewrite ?Sn, ?flow_snoc; cbn [flow_step]; rewrite ?W; auto; try lia.
      rewrite Q. constructor.
    + destruct (fl_waiting (flow_of ops)) as [|i w] eqn:W; [inversion X2|]. inversion X2 as [|? ? ? ? V X2']; subst. rewrite V. cbn [bind daphne_check].
      assert (E3 : stored c room keep ops ++ i :: w = (stored c room keep ops ++ [i]) ++ w) by (rewrite <- app_assoc; reflexivity).
      assert (Wn : wfs (stored c room keep ops ++ [i])).
      { rewrite E3 in X3, X4. split; [apply increasing_app in X3; apply X3|]. apply Forall_app in X4 as [X4 _].
        apply (Forall_below (fl_next (flow_of ops))); [lia|exact X4]. }
      destruct (H_write _ _ _ Wn X6) as (b' & Eb & Hb). rewrite Eb. cbn [bind]. eexists _, _. split; [reflexivity|].
      split; [cbn [right_out]; rewrite Fo, W; reflexivity|].
      constructor; rewrite ?Sn, ?flow_snoc; cbn [flow_step]; rewrite ?W; cbn [fl_next fl_waiting pd_emu pd_queue pd_buf]; auto; try lia.
      * destruct (room (stored c room keep ops)); [rewrite <- E3; exact X3|]. apply increasing_app in X3 as (A1 & A2 & A3). destruct A2 as [_ A2].
        apply increasing_app. split; [exact A1|]. split; [exact A2|]. eapply Forall_impl; [|exact A3]. intros j Hj. inversion Hj; assumption.
      * destruct (room (stored c room keep ops)); [rewrite <- E3; exact X4|]. apply Forall_app in X4 as [A1 A2]. inversion A2; subst.
        apply Forall_app. split; assumption.
  - (* clean *)
    destruct (H_clean (pd_buf s) _ limit pct next (ck_reg (pd_check s)) (pd_pops s) Wst X6 G) as (b' & reg' & p' & E & Hb). rewrite E. cbn [bind].
    eexists _, _. split; [reflexivity|]. split; [reflexivity|]. destruct (H_keep limit pct next _ _ X3) as [K1 K2].
    constructor; rewrite ?Sn, ?flow_snoc; cbn [flow_step pd_emu pd_queue pd_buf]; auto; try lia.
    apply Forall_app in X4 as [A1 A2]. apply Forall_app. split; [|exact A2]. rewrite Forall_forall in *. intros j Hj. apply A1, K2, Hj.
  - (* request *)
    destruct (H_request (pd_buf s) _ dr (has_error "MISSING_FRAMES" (ck_reg (pd_check s))) (pd_stats s) Wst X6 G) as (k & f & st' & E & Hr). rewrite E. cbn [bind].
    eexists _, _. split; [reflexivity|]. split; [exact Hr|].
    constructor; rewrite ?Sn, ?flow_snoc; cbn [flow_step pd_emu pd_queue pd_buf]; auto; lia.
  - (* restart *)
    specialize (D eq_refl). destruct (H_flush (pd_buf s) _ Wst X6) as (b' & E & Hb). rewrite E. cbn [bind].
    destruct X1 as (used & X1).
    destruct (begin_chain p1 p2 stride c t0 F Hsize Hsrc Hdrops Et0 _ _ (i_gen _ _ _ _ _ X1)) as (e' & Ee & Ie). rewrite Ee. cbn [bind].
    rewrite D in X2. inversion X2 as [Q|]; subst.
    eexists _, _. split; [reflexivity|]. split; [reflexivity|].
    constructor; rewrite ?Sn, ?flow_snoc; cbn [flow_step fl_next fl_waiting pd_emu pd_queue pd_buf app map increasing]; rewrite ?D; auto; try lia.
    + eauto.
    + constructor.
Qed.

Lemma prun_snoc : forall ops o s, prun s (ops ++ [o]) = (do (s', ys) <- prun s ops; do (s'', y) <- pstep s' o; Ok (s'', ys ++ [y])).
Proof.
  induction ops as [|p ops IH]; intros o s; cbn [app pds_run].
  - cbn [bind]. destruct (pstep s o) as [[s' y]|]; reflexivity.
  - destruct (pstep s p) as [[s1 y1]|]; [|reflexivity]. cbn [bind]. rewrite IH.
    destruct (prun s1 ops) as [[s2 ys]|]; [|reflexivity]. cbn [bind]. destruct (pstep s2 o) as [[s3 y3]|]; reflexivity.
Qed.

Lemma pinv_new used ws g b s0 : gen_words (em_tables c) used gen_new = Ok (ws, g) -> holds b [] -> pds_new c g b = Ok s0 -> pinv [] s0.
Proof.
  intros W Hb E. unfold pds_new in E. destruct (begin_chain p1 p2 stride c t0 F Hsize Hsrc Hdrops Et0 used g (ex_intro _ ws W)) as (e & Ee & Ie).
  rewrite Ee in E. cbn [bind] in E. injection E as <-.
  constructor; cbn [pd_emu pd_queue pd_buf flow_run fold_left fl_next fl_waiting stored device snd app map length increasing]; auto.
  exists used. exact Ie.
Qed.

Lemma pinv_run : forall ops s0, pinv [] s0 -> Forall good ops -> drained (em_dropouts c) ops -> (length ops <= N)%nat ->
  exists s ys, prun s0 ops = Ok (s, ys) /\ pinv ops s /\ length ys = length ops /\
    forall m o y, nth_error ops m = Some o -> nth_error ys m = Some y -> ok_out (firstn m ops) o y.
Proof.
  induction ops as [|o ops IH] using rev_ind; intros s0 I0 G D R.
  - exists s0, []. split; [reflexivity|]. split; [exact I0|]. split; [reflexivity|]. intros [|m]; discriminate.
  - apply Forall_app in G as [G Go]. inversion Go as [|? ? Go' _]; subst. destruct (drained_prefix _ _ _ D) as [D1 D2].
    rewrite app_length in R. cbn [length] in R.
    destruct (IH s0 I0 G D1 ltac:(lia)) as (s & ys & E & H & L & A).
    destruct (pinv_step ops s o H ltac:(lia) Go' D2) as (s' & y & Es & Hy & Hs).
    exists s', (ys ++ [y]). rewrite prun_snoc, E. cbn [bind]. rewrite Es. split; [reflexivity|]. split; [exact Hs|].
    split; [rewrite !app_length, L; reflexivity|]. intros m o' y' Ho Hy'.
    destruct (Nat.lt_ge_cases m (length ops)) as [Lt|Ge].
    + rewrite nth_error_app1 in Ho by exact Lt. rewrite nth_error_app1 in Hy' by lia.
      rewrite firstn_app. replace (m - length ops)%nat with 0%nat by lia. cbn [firstn]. rewrite app_nil_r. apply A; assumption.
    + assert (m = length ops). { assert (m < length (ops ++ [o]))%nat by (apply nth_error_Some; congruence). rewrite app_length in *. cbn [length] in *. lia. }
      subst m. rewrite nth_error_app2, Nat.sub_diag in Ho by lia. rewrite nth_error_app2, L, Nat.sub_diag in Hy' by lia.
      cbn in Ho, Hy'. injection Ho as <-. injection Hy' as <-. rewrite firstn_app, Nat.sub_diag, firstn_all. cbn [firstn]. rewrite app_nil_r. exact Hy.
Qed.
End Pds.
