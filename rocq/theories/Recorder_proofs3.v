(** Proofs about the life of a recorder: what is in the files. *)
From Coq Require Import String ZArith List Bool Arith Lia.
From Verif Require Import Base_model File_model File_spec File_proofs Recorder_model Recorder_spec Recorder_proofs Recorder_proofs2.
Import ListNotations.
Open Scope nat_scope.

Lemma written_app : forall a b, written (a ++ b) = written a ++ written b.
Proof. induction a as [|[bs|] a IH]; intros b; cbn [app written]; rewrite ?IH, <- ?app_assoc; auto. Qed.
Lemma written_map : forall r, written (map OWrite r) = concat r.
Proof. induction r as [|e r IH]; cbn; congruence. Qed.
Lemma written_finished : forall rs ops, finished rs ops -> written ops = concat (concat (rev rs)).
Proof.
  induction 1 as [|rs ops r F IH|rs ops F IH]; cbn [rev].
  - reflexivity.
  - rewrite !written_app, written_map, IH, !concat_app. cbn. now rewrite !app_nil_r.
  - rewrite concat_app, IH. cbn. now rewrite app_nil_r.
Qed.
Lemma flushed_last : forall rs ops, finished rs ops -> ops = [] \/ exists ops', ops = ops' ++ [OFlush].
Proof. induction 1; auto. right. exists (ops ++ map OWrite r). now rewrite app_assoc. Qed.
Lemma all_true : forall l, forallb (fun b => b) l = true <-> Forall (eq true) l.
Proof.
  induction l as [|b l IH]; cbn; split; intros H; auto.
  - apply andb_true_iff in H as [-> H]. constructor; [reflexivity|]. now apply IH.
  - inversion H; subst. now apply IH.
Qed.

Section Proofs.
Variable enc : codec -> list Z -> list Z.
Variable d : device.
Notation done := (done d).

(** The file exists. *)
Lemma sync_some : forall x, (exists f, fst x = Some f) -> exists f, fst (sync d x) = Some f.
Proof. intros x H. unfold sync. destruct (w_buf (snd x)); auto. destruct (dev_write _ _ _ _ _); cbn; eauto. Qed.
Lemma put_some : forall bs x, (exists f, fst x = Some f) -> exists f, fst (put d bs x) = Some f.
Proof.
  induction bs as [|b bs IH]; intros x H; cbn [put]; auto. destruct (w_bad (snd x)); auto.
  assert (G : exists f, fst (if length (w_buf (snd x)) =? w_size (snd x) then sync d x else x) = Some f) by (destruct (_ =? _); auto using sync_some).
  destruct (w_bad _); auto.
Qed.
Lemma ops_some : forall ops x, (exists f, fst x = Some f) -> exists f, fst (snd (w_ops d ops x)) = Some f.
Proof.
  induction ops as [|[bs|] ops IH]; intros x H; cbn [w_ops snd]; auto.
  - apply IH. unfold w_write. destruct (negb _); auto. cbn [snd]. destruct (w_codec (snd x)); try (now apply put_some); destruct (w_bad (snd x)); cbn; auto.
  - apply IH. unfold w_flush. cbn [fst snd]. destruct (w_bad _); cbn; auto. now apply sync_some.
Qed.
Lemma close_some : forall x, (exists f, fst x = Some f) -> exists f, fst (w_close enc d x) = Some f.
Proof. intros x H. unfold w_close. cbn [fst snd]. destruct (w_codec _); apply sync_some; auto; apply put_some; auto. Qed.

Lemma fresh_winv : forall g c old, winv_ c old [] (Some old, fresh_w g c).
Proof. intros. constructor; cbn; auto. Qed.

(** No write refused, enough room: the stream is good and has taken everything. *)
Lemma no_fail : forall ops old acc x, winv_ CNone old acc x -> w_bad (snd x) = false -> Forall (eq true) (fst (w_ops d ops x)) ->
  length (acc ++ written ops) <= d_room d ->
  w_bad (snd (snd (w_ops d ops x))) = false /\ winv_ CNone old (acc ++ written ops) (snd (w_ops d ops x)).
Proof.
  induction ops as [|[bs|] ops IH]; intros old acc x V B F R; cbn [w_ops fst snd written] in *.
  - rewrite app_nil_r. auto.
  - rewrite (write_none d bs old acc x V) in *. cbn [fst snd] in *. inversion F as [|? ? F1 F2]; subst.
    destruct (put_inv d bs old acc x V) as (k & V1 & K). assert (B1 : w_bad (snd (put d bs x)) = false) by (destruct (w_bad (snd (put d bs x))); [discriminate|reflexivity]).
    specialize (K B1). rewrite K in V1. rewrite app_assoc in *. now apply IH.
  - assert (R1 : length acc <= d_room d) by (rewrite app_length in R; lia).
    destruct (flush_good d old acc x V B R1) as (P1 & P2 & P3 & P4). apply IH; auto. now apply flush_inv.
Qed.

(** A flushed stream has everything on disk. *)
Lemma flushed_content : forall g old rs ops, finished rs ops -> Forall (eq true) (fst (done g CNone old ops)) -> length (written ops) <= d_room d ->
  content (fst (snd (done g CNone old ops))) = over (written ops) old.
Proof.
  intros g old rs ops F T R. destruct (flushed_last _ _ F) as [-> |(ops' & ->)]; [reflexivity|].
  rewrite done_snoc in *. cbn [fst snd w_ops] in *. rewrite app_nil_r in T. rewrite written_app in *. cbn [written] in *. rewrite app_nil_r in *.
  destruct (no_fail ops' old [] (Some old, fresh_w g CNone) (fresh_winv g CNone old) eq_refl T R) as [B V].
  cbn [app] in V. exact (proj1 (flush_good d old (written ops') _ V B R)).
Qed.
Lemma closed_content : forall g old ops, Forall (eq true) (fst (done g CNone old ops)) -> length (written ops) <= d_room d ->
  content (fst (w_close enc d (snd (done g CNone old ops)))) = over (written ops) old.
Proof.
  intros g old ops T R. destruct (no_fail ops old [] (Some old, fresh_w g CNone) (fresh_winv g CNone old) eq_refl T R) as [B V].
  apply close_good; [exact V|exact R].
Qed.
Lemma closed_compressed : forall g c old ops, c <> CNone -> 0 < cf_size g -> length (enc c (written ops)) <= d_room d ->
  content (fst (w_close enc d (snd (done g c old ops)))) = over (enc c (written ops)) old.
Proof.
  intros g c old ops N S R. assert (C : cinv c old [] (Some old, fresh_w g c)) by (constructor; auto using fresh_winv).
  destruct (cinv_ops d c ops N old [] _ C) as [_ C1]. cbn [app] in C1. now apply cinv_close.
Qed.

(** Whatever failed: a prefix. *)
Lemma prefix_content : forall g old ops, exists n, content (fst (snd (done g CNone old ops))) = over (firstn n (written ops)) old.
Proof.
  intros g old ops. destruct (ops_prefix d ops old [] [] _ (fresh_winv g CNone old) ltac:(auto) ltac:(exists 0; auto)) as (acc & V & _ & k & K). cbn [app] in K.
  exists (Nat.min (w_off (snd (snd (done g CNone old ops)))) k). unfold Recorder_proofs.done. rewrite (v_disk _ _ _ V), K, firstn_firstn. reflexivity.
Qed.
Lemma prefix_closed : forall g old ops, exists n, content (fst (w_close enc d (snd (done g CNone old ops)))) = over (firstn n (written ops)) old.
Proof.
  intros g old ops. destruct (ops_prefix d ops old [] [] _ (fresh_winv g CNone old) ltac:(auto) ltac:(exists 0; auto)) as (acc & V & _ & k & K). cbn [app] in K.
  unfold Recorder_proofs.done. set (x := snd (w_ops d ops (Some old, fresh_w g CNone))) in *.
  assert (C : w_codec (snd x) = CNone) by exact (v_none _ _ _ V).
  assert (V1 : winv_ CNone old acc (fst x, set_fd_direct false (snd x))) by (apply set_fd_inv; now rewrite <- surjective_pairing).
  pose proof (sync_inv d old acc _ V1) as V2. unfold w_close. cbn [fst snd]. change (w_codec (set_fd_direct false (snd x))) with (w_codec (snd x)). rewrite C. cbn [fst].
  rewrite (v_disk _ _ _ V2), K, firstn_firstn. eauto.
Qed.

(** Served settings: nothing refused. *)
Lemma aligned_finished : forall al rs ops n, 0 < al -> finished rs ops -> Forall (fun r => length (concat r) mod al = 0) rs -> n mod al = 0 -> flushes_aligned al n ops.
Proof.
  assert (WR : forall al r n ops, flushes_aligned al n (map OWrite r ++ ops) <-> flushes_aligned al (n + length (concat r)) ops).
  { intros al. induction r as [|e r IH]; intros n ops; cbn [map concat app flushes_aligned length].
    - now rewrite Nat.add_0_r.
    - rewrite IH, app_length. now rewrite Nat.add_assoc. }
  assert (AP : forall al a b n, flushes_aligned al n (a ++ b) <-> flushes_aligned al n a /\ flushes_aligned al (n + length (written a)) b).
  { intros al. induction a as [|[bs|] a IH]; intros b n; cbn [app flushes_aligned written length].
    - rewrite Nat.add_0_r. tauto.
    - rewrite IH, app_length, Nat.add_assoc. tauto.
    - rewrite IH. tauto. }
  assert (ML : forall al rs ops, 0 < al -> finished rs ops -> Forall (fun r => length (concat r) mod al = 0) rs -> length (written ops) mod al = 0).
  { intros al rs ops A F. induction F as [|rs ops r F IH|rs ops F IH]; intros G.
    - cbn. apply Nat.mod_0_l. lia.
    - inversion G as [|? ? G1 G2]; subst. rewrite !written_app, written_map. cbn [written]. rewrite app_nil_r, app_length, Nat.add_mod by lia.
      rewrite (IH G2), G1. cbn. apply Nat.mod_0_l. lia.
    - inversion G; subst. auto. }
  intros al rs ops n A F. revert n. induction F as [|rs ops r F IH|rs ops F IH]; intros n G N.
  - exact I.
  - inversion G as [|? ? G1 G2]; subst. rewrite AP, WR. cbn [flushes_aligned]. split; [now apply IH|]. split; [|exact I].
    rewrite Nat.add_mod, (Nat.add_mod n) by lia. rewrite N, G1, (ML al rs ops A F G2). cbn. rewrite !Nat.mod_0_l by lia. reflexivity.
  - inversion G; subst. now apply IH.
Qed.
Lemma served_ops : forall g old ops, 0 < cf_size g -> length (written ops) <= d_room d ->
  (cf_direct g = true -> 0 < d_align d /\ cf_size g mod d_align d = 0 /\ flushes_aligned (d_align d) 0 ops) ->
  Forall (eq true) (fst (done g CNone old ops)).
Proof.
  intros g old ops S R D. apply (ops_good d (cf_direct g) ops old [] (Some old, fresh_w g CNone)); auto using fresh_winv.
  - constructor; cbn; auto; try lia. intros T. destruct (D T) as (A1 & A2 & _). rewrite Nat.mod_0_l by lia. auto.
  - intros T. cbn. now destruct (D T).
Qed.

(** ** In the terms of the invariant *)
Notation inv := (inv enc d).
Notation run := (rec_run enc d).
Definition settled_log (log : list event) : Prop := match current log with Some (CConf _ _ _) | Some CDestroy => False | _ => True end.

Lemma inv_files : forall s log, inv s log -> settled_log log -> exists m, files_ok enc d (view_of log) (y_disk s) m /\
  (current log = None -> running log = false -> m = Idle).
Proof.
  intros s log [C T F B Q] N. unfold settled_log in N. unfold todo_ok in T. destruct (y_todo s) as [[[g a b| | |] rest]|]; cbn in C; rewrite C in N; try contradiction.
  - destruct T as (_ & _ & [(j & _ & _ & _ & T)|[_ T]]); eexists; (split; [exact T|]); congruence.
  - destruct T as (T & _). eexists. split; [exact T|]. congruence.
  - destruct T as (T & R). eexists. split; [exact T|]. intros _ X. now apply mode_ready, R.
Qed.

Lemma shape_written : forall m rs ops, shape m rs ops -> exists rest, concat (concat (rev rs)) = written ops ++ rest /\ (m = Idle -> rest = []).
Proof.
  intros [| |pend] rs ops H.
  - exists []. rewrite app_nil_r, (written_finished _ _ H). auto.
  - destruct H as (rs' & -> & F). exists []. cbn [rev]. rewrite concat_app, (written_finished _ _ F). cbn. rewrite !app_nil_r. auto.
  - destruct H as (r & rs' & ops' & -> & F & ->). exists (concat pend). cbn [rev]. rewrite written_app, written_map, (written_finished _ _ F), !concat_app.
    cbn [concat]. rewrite app_nil_r, concat_app, app_assoc. split; [reflexivity|discriminate].
Qed.

Lemma codec_none : forall a, codec_of a = Some CNone -> a = "None"%string.
Proof.
  intros a. unfold codec_of. destruct (String.eqb_spec a "zstd"); [discriminate|]. destruct (String.eqb_spec a "lzma"); [discriminate|].
  destruct (String.eqb_spec a "zlib"); [discriminate|]. destruct (String.eqb_spec a "None"); [auto|discriminate].
Qed.

Lemma recording_ok : forall s log p q, inv s log -> settled_log log -> v_files (view_of log) p = Some q -> q_warned q = false ->
  0 < cf_size (q_conf q) -> length (image enc q) <= d_room d ->
  (q_over q = true \/ (cf_alg (q_conf q) = "None"%string /\ current log = None /\ running log = false)) ->
  exists old, (q_removed q = true -> old = []) /\ k_fs (y_disk s) p = Some (over (image enc q) old).
Proof.
  intros s log p q I N V W S R2 H. destruct (inv_files s log I N) as (m & [A P] & M).
  assert (DEC : v_active (view_of log) = Some p \/ v_active (view_of log) <> Some p).
  { destruct (v_active (view_of log)) as [p'|]; [|right; discriminate]. destruct (Nat.eq_dec p' p) as [-> |]; [auto|right; congruence]. }
  destruct DEC as [E|E].
  - unfold active_ok in A. rewrite E in A. destruct A as (q0 & c & old & ops & A1 & A2 & A3 & A4 & (A5 & A5' & A5'') & A6 & A7).
    rewrite V in A1. injection A1 as <-. exists old. split; [exact A5'|]. destruct H as [H|(H1 & H2 & H3)]; [congruence|]. rewrite (M H2 H3) in A7. cbn [shape] in A7.
    unfold image in *. rewrite H1 in *. cbn in A5. injection A5 as <-. change (codec_of "None") with (Some CNone) in *. cbn iota in *.
    assert (T : Forall (eq true) (fst (done (q_conf q) CNone old ops))).
    { apply all_true. rewrite W in A5''. now destruct (forallb _ _). }
    assert (EV : concat (everything q) = written ops) by (symmetry; apply (written_finished _ _ A7)). rewrite EV in *.
    assert (FS : k_fs (y_disk s) p = fst (world_of (y_disk s))) by (unfold world_of, the_file; now rewrite A3).
    rewrite FS, A6. pose proof (flushed_content (q_conf q) old _ ops A7 T R2) as C.
    destruct (ops_some ops (Some old, fresh_w (q_conf q) CNone)) as [f X]; [cbn; eauto|]. unfold Recorder_proofs.done in *. rewrite X in *. cbn in C. now rewrite C.
  - destruct (P p q V E) as (P1 & P2 & c & old & ops & (A5 & A5' & A5'') & P4 & P5). exists old. split; [exact A5'|]. rewrite P5.
    assert (EV : concat (everything q) = written ops) by (symmetry; apply (written_finished _ _ P4)). unfold image in *. rewrite A5 in *. rewrite EV in *.
    destruct (close_some (snd (done (q_conf q) c old ops))) as [f X]; [apply ops_some; cbn; eauto|]. rewrite X. f_equal. change f with (content (Some f)). rewrite <- X.
    destruct c; try (apply closed_compressed; auto; discriminate). apply closed_content; auto.
    apply all_true. rewrite W in A5''. now destruct (forallb _ _).
Qed.

Lemma prefix_ok : forall s log p q, inv s log -> settled_log log -> v_files (view_of log) p = Some q -> cf_alg (q_conf q) = "None"%string ->
  exists old n, (q_removed q = true -> old = []) /\ k_fs (y_disk s) p = Some (over (firstn n (concat (everything q))) old).
Proof.
  intros s log p q I N V H1. destruct (inv_files s log I N) as (m & [A P] & M).
  assert (DEC : v_active (view_of log) = Some p \/ v_active (view_of log) <> Some p).
  { destruct (v_active (view_of log)) as [p'|]; [|right; discriminate]. destruct (Nat.eq_dec p' p) as [-> |]; [auto|right; congruence]. }
  destruct DEC as [E|E].
  - unfold active_ok in A. rewrite E in A. destruct A as (q0 & c & old & ops & A1 & A2 & A3 & A4 & (A5 & A5' & A5'') & A6 & A7).
    rewrite V in A1. injection A1 as <-. rewrite H1 in A5. cbn in A5. injection A5 as <-. destruct (shape_written _ _ _ A7) as (rest & EV & _).
    assert (FS : k_fs (y_disk s) p = fst (world_of (y_disk s))) by (unfold world_of, the_file; now rewrite A3).
    destruct (prefix_content (q_conf q) old ops) as [n C]. exists old, (Nat.min n (length (written ops))). split; [exact A5'|]. rewrite FS, A6.
    destruct (ops_some ops (Some old, fresh_w (q_conf q) CNone)) as [f X]; [cbn; eauto|]. unfold Recorder_proofs.done in *. rewrite X in *. cbn in C. rewrite C. do 2 f_equal.
    unfold everything. rewrite EV, firstn_app. replace (Nat.min n (length (written ops)) - length (written ops)) with 0 by lia. cbn [firstn]. rewrite app_nil_r.
    rewrite <- firstn_firstn, firstn_all. reflexivity.
  - destruct (P p q V E) as (P1 & P2 & c & old & ops & (A5 & A5' & A5'') & P4 & P5). rewrite H1 in A5. cbn in A5. injection A5 as <-.
    destruct (prefix_closed (q_conf q) old ops) as [n C]. exists old, n. split; [exact A5'|]. rewrite P5.
    destruct (close_some (snd (done (q_conf q) CNone old ops))) as [f X]; [apply ops_some; cbn; eauto|]. rewrite X in *. cbn in C. rewrite C. unfold everything.
    now rewrite (written_finished _ _ P4).
Qed.

Lemma no_warning_ok : forall s log p q, inv s log -> settled_log log -> v_files (view_of log) p = Some q -> served d q -> q_warned q = false.
Proof.
  intros s log p q I N V (H1 & H2 & H3 & H4). destruct (inv_files s log I N) as (m & [A P] & _).
  assert (G : forall c old ops m, good_rec d q c old ops -> shape m (q_runs q) ops -> q_warned q = false).
  { intros c old ops m' (A5 & A5' & ->) SH. rewrite H1 in A5. cbn in A5. injection A5 as <-. apply negb_false_iff, all_true.
    assert (NF : forall rs ops, finished rs ops -> (exists rs', rs = q_runs q /\ rs' = rs) -> length (written ops) <= d_room d -> Forall (eq true) (fst (done (q_conf q) CNone old ops))).
    { intros rs o F (_ & -> & _) R. inversion F as [E1 E2|rs0 o0 r F0 E1 E2|rs0 o0 F0 E1]; subst.
      - constructor.
      - rewrite app_assoc, done_snoc. cbn [fst w_ops]. rewrite app_nil_r. apply served_ops; auto.
        + rewrite app_assoc, written_app in R. cbn [written] in R. now rewrite app_nil_r in R.
        + intros D. destruct (H4 D) as (D1 & D2 & D3). split; [exact D1|]. split; [exact D2|]. rewrite <- E1 in D3. cbn [tl] in D3.
          pose proof (aligned_finished (d_align d) rs0 o0 0 D1 F0 D3 (Nat.mod_0_l (d_align d) ltac:(lia))) as AF. revert AF. generalize 0. clear. induction o0 as [|[bs|] o0 IH]; intros n; cbn [app flushes_aligned]; auto.
          * intros _. revert n. induction r as [|e r IH]; intros n; cbn; auto.
          * intros [X Y]. auto.
      - apply served_ops; auto. intros D. destruct (H4 D) as (D1 & D2 & D3). rewrite <- E1 in D3. cbn [tl] in D3. split; [exact D1|]. split; [exact D2|].
        apply (aligned_finished _ rs0); auto. apply Nat.mod_0_l. lia. }
    destruct (shape_written _ _ _ SH) as (rest & EV & _). unfold everything in H3. rewrite EV, app_length in H3.
    destruct m' as [| |pend]; cbn [shape] in SH.
    - apply (NF (q_runs q)); eauto. lia.
    - destruct SH as (rs' & E & F). apply (NF (q_runs q)); eauto; [|lia]. rewrite E. now constructor.
    - destruct SH as (r & rs' & ops' & E & F & ->). apply served_ops; auto; [lia|]. intros D. destruct (H4 D) as (D1 & D2 & D3). rewrite E in D3. cbn [tl] in D3.
      split; [exact D1|]. split; [exact D2|]. pose proof (aligned_finished (d_align d) rs' ops' 0 D1 F D3 (Nat.mod_0_l (d_align d) ltac:(lia))) as AF.
      revert AF. generalize 0. clear. induction ops' as [|[bs|] o0 IH]; intros n; cbn [app flushes_aligned]; auto.
      * intros _. revert n. induction r as [|e r IH]; intros n; cbn; auto.
      * intros [X Y]. auto. }
  assert (DEC : v_active (view_of log) = Some p \/ v_active (view_of log) <> Some p).
  { destruct (v_active (view_of log)) as [p'|]; [|right; discriminate]. destruct (Nat.eq_dec p' p) as [-> |]; [auto|right; congruence]. }
  destruct DEC as [E|E].
  - unfold active_ok in A. rewrite E in A. destruct A as (q0 & c & old & ops & A1 & A2 & A3 & A4 & A5 & A6 & A7). rewrite V in A1. injection A1 as <-. eapply G; eauto.
  - destruct (P p q V E) as (P1 & P2 & c & old & ops & A5 & P4 & P5). apply (G c old ops Idle); auto.
Qed.
End Proofs.
