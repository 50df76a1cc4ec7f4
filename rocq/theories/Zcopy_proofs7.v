(** Recording from a buffer without alignment (latency_buffer_alignment_size 0). *)
From Coq Require Import ZArith List Bool Lia ZifyBool.
From Verif Require Import Base_model Ring_model Ring_spec Ring_proofs Record_model Record_spec Record_proofs Record_proofs2 Zcopy_model Zcopy_spec
  Zcopy_proofs Zcopy_proofs2 Zcopy_proofs3.
Import ListNotations.
Open Scope Z_scope.

Section Unaligned.
Context {E : Type}.
Variable ts : E -> Z.
Variable limit : Z.
Variable quota : Z -> Z.
Variable n P chunk addr0 : Z.

Notation zrec_step := (zrec_step ts P chunk 0 addr0).
Notation zstep := (zstep ts limit quota P chunk 0 addr0).
Notation zrun := (zrun ts limit quota P chunk 0 addr0).
Notation zst := (@zstate E).

Definition stuck (s : zst) : Prop :=
  core_ok n (z_core s) /\ z_file s = [] /\
  match z_pc s with
  | ZIdle => True
  | ZSet _ | ZSkip _ | ZClose => z_wp s = None
  | ZTop | ZWait | ZBegin => z_wp s = None /\ s_next (z_core s) = 0
  | ZFinal => z_wp s = None
  | _ => False
  end.

Lemma stuck_step : forall s a s', stuck s -> zstep s a = Some s' -> stuck s'.
Proof.
  intros s a s' (K & F & W) H. destruct (step_cases _ _ _ _ _ _ _ _ _ _ H) as (Hc & [(c' & He & -> & _)|[(_ & Ep & ->)|(ex & ret & _ & Hr)]]).
  - destruct (env_cases ts limit quota n _ _ Hc K He) as (K' & N & _). split; [exact K'|]. split; [exact F|].
    cbn [lifted z_pc z_wp z_core]. rewrite N. exact W.
  - split; [apply with_next_ok, K|]. split; [exact F|]. cbn. auto.
  - split; [destruct (rec_core _ _ _ _ _ _ _ _ _ Hr) as (R & _); exact (core_cases n _ _ K R)|].
    unfold Zcopy_model.zrec_step in Hr. destruct (z_pc s) eqn:Ep; try discriminate; try contradiction; cbv zeta in Hr.
    + destruct ex; [injection Hr as <-; split; [exact F|exact (proj1 W)]|]. destruct (_ || _); injection Hr as <-; (split; [exact F|]); cbn; [exact W|rewrite Ep; exact W].
    + destruct (_ && _); [|discriminate]. injection Hr as <-. split; [exact F|]. destruct W as [W1 W2]. rewrite W2. cbn. auto.
    + destruct (_ =? _); injection Hr as <-; (split; [exact F|]); cbn; [exact W|exact (proj1 W)].
    + destruct (s_mem _ _); injection Hr as <-; (split; [exact F|]); cbn; [|rewrite Ep]; exact W.
    + cbn in Hr. injection Hr as <-. split; [exact F|]. cbn. rewrite Ep. exact W.
    + rewrite W in Hr. injection Hr as <-. split; [exact F|]. cbn. auto.
    + injection Hr as <-. split; [exact F|]. cbn. auto.
Qed.

Lemma stuck_run : forall acts s s', stuck s -> zrun s acts = Some s' -> stuck s'.
Proof.
  induction acts as [|a acts IH]; intros s s' K H; cbn in H; [injection H as <-; exact K|].
  destruct (zstep s a) as [s1|] eqn:E1; [|discriminate]. apply (IH s1); [eapply stuck_step; eassumption|exact H].
Qed.

Lemma stuck_init : supported_size n -> stuck (zinit n).
Proof. intros Hn. split; [split; [apply base_init, Hn|intros _; reflexivity]|]. cbn. auto. Qed.

Lemma unaligned_file : forall acts s, supported_size n -> zrun (zinit n) acts = Some s -> z_file s = [].
Proof. intros acts s Hn H. apply (stuck_run acts _ _ (stuck_init Hn) H). Qed.

Lemma unaligned_crash : forall acts s ret, supported_size n -> zrun (zinit n) acts = Some s ->
  s_crashed (z_core s) = false -> z_pc s = ZTop -> s_requested (z_core s) = false -> zstored s <> [] ->
  exists s', zrun s (repeat (ZRec false ret) 5) = Some s' /\ s_crashed (z_core s') = true.
Proof.
  intros acts s ret Hn H Hc Ep Hq Hs. destruct (stuck_run acts _ _ (stuck_init Hn) H) as ((Hb & HI) & F & W). rewrite Ep in W. destruct W as [W N0].
  specialize (HI Hq). pose proof (begin_index _ _ (b_holds _ _ Hb)) as B.
  assert (L : (s_popped (z_core s) < length (s_all (z_core s)))%nat).
  { unfold zstored in Hs. destruct (Nat.lt_ge_cases (s_popped (z_core s)) (length (s_all (z_core s)))) as [L|L]; [exact L|]. rewrite skipn_all2 in Hs by exact L. congruence. }
  replace (Z.of_nat (length (skipn (s_popped (z_core s)) (s_all (z_core s)))) =? 0) with false in B by (symmetry; apply Z.eqb_neq; rewrite skipn_length; lia).
  pose proof (index_not_end _ _ 0 (b_holds _ _ Hb)) as NE.
  assert (M : s_mem (z_core s) ((r_read (s_ring (z_core s)) + 0) mod r_size (s_ring (z_core s))) = nth_error (s_all (z_core s)) (s_popped (z_core s))).
  { rewrite Z.add_0_r, (b_read _ _ Hb), (b_size _ _ Hb), Z.mod_mod by (destruct Hn; lia). apply (b_mem _ _ Hb); [exact L|]. pose proof (stored_le n (z_core s) Hb). destruct Hn; lia. }
  destruct (nth_error (s_all (z_core s)) (s_popped (z_core s))) as [e|] eqn:Ee; [|apply nth_error_None in Ee; lia].
  set (i := (r_read (s_ring (z_core s)) + 0) mod r_size (s_ring (z_core s))) in *. set (s1 := goto s ZWait). set (s2 := goto s1 ZBegin).
  assert (E1 : zstep s (ZRec false ret) = Some s1) by (unfold Zcopy_model.zstep; rewrite Hc; unfold Zcopy_model.zrec_step; rewrite Ep, Hq; reflexivity).
  assert (E2 : zstep s1 (ZRec false ret) = Some s2).
  { unfold Zcopy_model.zstep. cbn [s1 goto z_core]. rewrite Hc. unfold Zcopy_model.zrec_step. cbn [s1 goto z_core z_pc]. unfold mutex_free. rewrite HI, Hq, N0. reflexivity. }
  assert (E3 : exists s3, zstep s2 (ZRec false ret) = Some s3 /\ z_core s3 = z_core s /\ z_pc s3 = ZSet i).
  { unfold Zcopy_model.zstep. cbn [s2 s1 goto z_core]. rewrite Hc. unfold Zcopy_model.zrec_step. cbn [s2 s1 goto z_core z_pc]. rewrite B, NE. eexists. split; [reflexivity|]. auto. }
  destruct E3 as (s3 & E3 & C3 & P3).
  assert (E4 : exists s4, zstep s3 (ZRec false ret) = Some s4 /\ s_crashed (z_core s4) = false /\ z_pc s4 = ZSkip i).
  { unfold Zcopy_model.zstep. rewrite C3, Hc. unfold Zcopy_model.zrec_step. rewrite P3, C3, M. eexists. split; [reflexivity|]. cbn. rewrite C3. auto. }
  destruct E4 as (s4 & E4 & C4 & P4).
  exists (zcrash s4). split; [|reflexivity]. cbn [repeat Zcopy_model.zrun]. rewrite E1, E2, E3, E4. unfold Zcopy_model.zstep. rewrite C4. unfold Zcopy_model.zrec_step. rewrite P4. reflexivity.
Qed.
End Unaligned.
