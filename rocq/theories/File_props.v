(** Properties C37 (file writer and reader), C38 (file source buffer) and C51 (raw recorder). *)
From Coq Require Import String ZArith List Bool Lia.
From Verif Require Import Base_model File_model File_spec File_proofs.
Import ListNotations.
Open Scope Z_scope.

(** A device with blocks of four bytes; a stand-in for a compressor (reversal). *)
Notation ex_dev := (mk_dev 4 100).
Notation ex_enc := (fun c bs => match c with CNone => bs | _ => 99 :: rev bs end).
Notation ex_dec := (fun c bs => match c with CNone => bs | _ => rev (tl bs) end).

Lemma open_good enc d can size alg direct x x1 : w_do_open enc d can size alg direct x = (Opened, x1) ->
  exists c, codec_of alg = Some c /\ snd x1 = mk_w true direct direct 0 size [] c [] false /\ fst x1 = Some (content (fst x1)).
Proof.
  unfold w_do_open. destruct (negb can); [discriminate|]. destruct (codec_of alg) as [c|]; [|discriminate]. intros E. injection E as <-.
  exists c. auto.
Qed.

Lemma opened_inv d can enc size direct x x1 : w_do_open enc d can size "None" direct x = (Opened, x1) ->
  winv_ CNone (content (fst x1)) [] x1 /\ snd x1 = mk_w true direct direct 0 size [] CNone [] false.
Proof.
  intros E. destruct (open_good _ _ _ _ _ _ _ _ E) as (c & C & S & _). cbn in C. injection C as <-. split; [|exact S].
  destruct x1 as [f w]. cbn [snd fst] in *. subst w. constructor; auto.
Qed.

(** C37. Whatever was in the file when it was opened, after any sequence of writes and flushes (uncompressed) and a
    close every write has returned true and the file holds exactly the bytes written, in order, followed by the rest
    of the old file if that was longer -- provided the device has room and, under O_DIRECT, the buffer size is a
    multiple of the block size and flushes happen at multiples of it. *)
Theorem C37_written : forall enc d can size direct x x1 ops,
  w_do_open enc d can size "None" direct x = (Opened, x1) -> (0 < size)%nat -> direct_ok d direct size ops ->
  (length (written ops) <= d_room d)%nat ->
  let r := w_ops d ops x1 in
  Forall (eq true) (fst r) /\ content (fst (w_close enc d (snd r))) = over (written ops) (content (fst x1)).
Proof.
  intros enc d can size direct x x1 ops E S0 D R r. destruct (opened_inv _ _ _ _ _ _ _ E) as [V S]. 
  assert (G : good d x1).
  { rewrite (surjective_pairing x1), S. constructor; cbn [snd w_bad w_size w_buf w_fd_direct w_off length]; auto; [lia|].
    intros T. destruct (D T) as (A1 & A2 & _). rewrite Nat.mod_0_l by lia. auto. }
  destruct (ops_good d direct ops _ [] x1 V G) as (F & V1 & G1).
  - now rewrite S.
  - now rewrite S.
  - intros T. destruct (D T) as (_ & _ & A). exact A.
  - exact R.
  - split; [exact F|]. apply close_good; [exact V1|exact R].
Qed.
Print Assumptions C37_written.
(** Buffer of eight bytes, blocks of four, O_DIRECT, one aligned flush, an old file that is longer. *)
Notation ex_ops := [OWrite [1; 2; 3]; OWrite [4; 5; 6; 7; 8; 9; 10; 11; 12]; OFlush; OWrite []; OWrite [13]].
Example C37_written_ex :
  let x1 := snd (w_do_open ex_enc ex_dev true 8 "None" true (Some (repeat 7 15), w_new)) in
  direct_ok ex_dev true 8 ex_ops /\
  fst (w_ops ex_dev ex_ops x1) = [true; true; true; true] /\
  fst (w_close ex_enc ex_dev (snd (w_ops ex_dev ex_ops x1))) = Some [1; 2; 3; 4; 5; 6; 7; 8; 9; 10; 11; 12; 13; 7; 7].
Proof. vm_compute. repeat split; lia. Qed.

(** C37. In every run, whatever fails, the file holds at every moment a prefix of the bytes written over the old
    content: nothing is reordered, repeated or invented. *)
Theorem C37_always_prefix : forall enc d can size direct x x1 ops,
  w_do_open enc d can size "None" direct x = (Opened, x1) ->
  exists k, content (fst (snd (w_ops d ops x1))) = over (firstn k (written ops)) (content (fst x1)).
Proof.
  intros enc d can size direct x x1 ops E. destruct (opened_inv _ _ _ _ _ _ _ E) as [V S].
  destruct (ops_prefix d ops _ [] [] x1 V ltac:(auto) ltac:(exists 0%nat; auto)) as (acc & V1 & _ & k & K). cbn [app] in K.
  exists (Nat.min (w_off (snd (snd (w_ops d ops x1)))) k). rewrite (v_disk _ _ _ V1), K, firstn_firstn. reflexivity.
Qed.
Print Assumptions C37_always_prefix.
Example C37_always_prefix_ex :
  let x1 := snd (w_do_open ex_enc (mk_dev 4 10) true 4 "None" false (None, w_new)) in
  w_ops (mk_dev 4 10) [OWrite [1; 2; 3]; OWrite [4; 5; 6; 7; 8; 9; 10; 11; 12; 13]; OWrite [14]] x1 =
  ([true; false; false], (Some [1; 2; 3; 4; 5; 6; 7; 8], mk_w true false false 8 4 [9; 10; 11; 12] CNone [] true)).
Proof. vm_compute. reflexivity. Qed.

(** C37. Once a write has failed all later ones report failure. *)
Theorem C37_failure_is_sticky : forall d ops x, w_open (snd x) = true ->
  exists a b, fst (w_ops d ops x) = repeat true a ++ repeat false b.
Proof. exact ops_sticky. Qed.
Print Assumptions C37_failure_is_sticky.
Example C37_failure_is_sticky_ex :
  fst (w_ops (mk_dev 4 3) [OWrite [1; 2; 3]; OFlush; OWrite [4; 5; 6; 7; 8]; OWrite []; OFlush; OWrite [9]]
    (snd (w_do_open ex_enc (mk_dev 4 3) true 4 "None" false (None, w_new)))) = [true; false; false; false].
Proof. vm_compute. reflexivity. Qed.

(** C37. A flush on a writer whose writes have not failed makes everything written durable (if there is room), also
    under O_DIRECT and at any position. *)
Theorem C37_flush_durable : forall enc d can size direct x x1 ops,
  w_do_open enc d can size "None" direct x = (Opened, x1) -> (length (written ops) <= d_room d)%nat ->
  let r := w_ops d ops x1 in w_bad (snd (snd r)) = false ->
  content (fst (w_flush d (snd r))) = over (written ops) (content (fst x1)).
Proof.
  intros enc d can size direct x x1 ops E R r B. destruct (opened_inv _ _ _ _ _ _ _ E) as [V S].
  destruct (ops_prefix d ops _ [] [] x1 V ltac:(auto) ltac:(exists 0%nat; auto)) as (acc & V1 & N & _).
  specialize (N B). cbn [app] in N. subst acc. exact (proj1 (flush_good d _ _ _ V1 B R)).
Qed.
Print Assumptions C37_flush_durable.
Example C37_flush_durable_ex :
  let r := w_ops ex_dev [OWrite [1; 2; 3; 4; 5]; OWrite [6]] (snd (w_do_open ex_enc ex_dev true 8 "None" true (None, w_new))) in
  w_bad (snd (snd r)) = false /\ fst (snd r) = Some [] /\ fst (w_flush ex_dev (snd r)) = Some [1; 2; 3; 4; 5; 6].
Proof. vm_compute. auto. Qed.

(** C37 (finding). Under O_DIRECT, after a flush at a position that is not a multiple of the block size, the next
    write longer than the buffer fails, and with it (C37_failure_is_sticky) all later ones: flush leaves the file
    offset unaligned and switches O_DIRECT on again. *)
Theorem C37_direct_broken_by_flush : forall enc d can size x x1 ops bs,
  w_do_open enc d can size "None" true x = (Opened, x1) -> (0 < size)%nat -> (length (written ops) <= d_room d)%nat ->
  let r := w_ops d ops x1 in w_bad (snd (snd r)) = false ->
  (length (written ops) mod d_align d <> 0)%nat -> (size < length bs)%nat ->
  fst (w_write d bs (w_flush d (snd r))) = false.
Proof.
  intros enc d can size x x1 ops bs E S0 R r B M L. destruct (opened_inv _ _ _ _ _ _ _ E) as [V S].
  destruct (ops_prefix d ops _ [] [] x1 V ltac:(auto) ltac:(exists 0%nat; auto)) as (acc & V1 & N & _).
  specialize (N B). cbn [app] in N. subst acc. fold r in V1. pose proof (flush_good d _ _ _ V1 B R) as (_ & P2 & P3 & P4).
  pose proof (flush_inv d _ _ _ V1) as V2. destruct (flush_conf d (snd r)) as (C1 & _ & C3).
  assert (K : w_size (snd (snd r)) = size /\ w_use_direct (snd (snd r)) = true).
  { unfold r. clear -S. assert (G : w_size (snd x1) = size /\ w_use_direct (snd x1) = true) by (rewrite S; auto). clear S. revert x1 G.
    induction ops as [|[b|] ops IH]; intros x1 [G1 G2]; cbn [w_ops fst snd]; auto.
    - apply IH. unfold w_write. destruct (w_open (snd x1)); cbn [negb snd fst]; auto. destruct (put_conf d b x1) as (C1 & C2 & _).
      destruct (w_codec (snd x1)); [split; congruence| | |]; destruct (w_bad (snd x1)); auto.
    - apply IH. destruct (flush_conf d x1) as (C1 & C2 & _). split; congruence. }
  destruct K as [K1 K2]. rewrite (write_none d bs _ _ _ V2). cbn [fst]. rewrite (surjective_pairing (w_flush d (snd r))).
  rewrite direct_unaligned; auto; congruence.
Qed.
Print Assumptions C37_direct_broken_by_flush.
Example C37_direct_broken_by_flush_ex :
  let x1 := snd (w_do_open ex_enc ex_dev true 4 "None" true (None, w_new)) in
  w_ops ex_dev [OWrite [1; 2; 3; 4; 5]; OFlush; OWrite [6; 7; 8; 9; 10; 11; 12]; OWrite [13]] x1 =
  ([true; false; false], (Some [1; 2; 3; 4; 5], mk_w true true true 5 4 [6; 7; 8; 9] CNone [] true)).
Proof. vm_compute. reflexivity. Qed.

(** C37. With a compressor: every write returns true and close leaves the compressed form of everything written. *)
Theorem C37_compressed : forall enc d can size alg c direct x x1 ops,
  w_do_open enc d can size alg direct x = (Opened, x1) -> codec_of alg = Some c -> c <> CNone -> (0 < size)%nat ->
  (length (enc c (written ops)) <= d_room d)%nat ->
  let r := w_ops d ops x1 in
  Forall (eq true) (fst r) /\ content (fst (w_close enc d (snd r))) = over (enc c (written ops)) (content (fst x1)).
Proof.
  intros enc d can size alg c direct x x1 ops E C N S0 R r. destruct (open_good _ _ _ _ _ _ _ _ E) as (c' & C' & S & _).
  assert (c' = c) by congruence. subst c'.
  assert (V : cinv c (content (fst x1)) [] x1) by (destruct x1 as [f w]; cbn [snd fst] in *; subst w; constructor; cbn; auto; constructor; auto).
  destruct (cinv_ops d c ops N _ [] x1 V) as [F V1]. cbn [app] in V1. split; [exact F|]. now apply cinv_close.
Qed.
Print Assumptions C37_compressed.
Example C37_compressed_ex :
  let x1 := snd (w_do_open ex_enc ex_dev true 4 "zstd" true (Some [5], w_new)) in
  let r := w_ops ex_dev [OWrite [1; 2; 3; 4; 5]; OFlush; OWrite [6; 7]] x1 in
  fst r = [true; true] /\ fst (w_close ex_enc ex_dev (snd r)) = Some [99; 7; 6; 5; 4; 3; 2; 1].
Proof. vm_compute. auto. Qed.

(** C37. Reading elements of any size from a file: the complete elements in order, then one failure that delivers the
    incomplete rest, then failures. *)
Theorem C37_read : forall dec size n bytes r, (0 < size)%nat -> r_do_open dec (Some bytes) "None" r_new = (Opened, r) ->
  fst (r_reads size n r) = map (kth_read size bytes) (seq 0 n).
Proof.
  intros dec size n bytes r S0 E. cbn in E. injection E as <-. apply (reads_all size bytes S0 n 0). lia.
Qed.
Print Assumptions C37_read.
Example C37_read_ex : fst (r_reads 3 4 (snd (r_do_open ex_dec (Some [1; 2; 3; 4; 5; 6; 7]) "None" r_new))) =
  [(true, [1; 2; 3]); (true, [4; 5; 6]); (false, [7]); (false, [])].
Proof. vm_compute. reflexivity. Qed.

(** C37. Round trip through a codec whose decompressor inverts the compressor, on a file that was not longer than the
    result. *)
Theorem C37_round_trip : forall enc dec d can wsize alg c direct x x1 ops size n r,
  w_do_open enc d can wsize alg direct x = (Opened, x1) -> codec_of alg = Some c -> (0 < wsize)%nat -> (0 < size)%nat ->
  (forall b, dec c (enc c b) = b) -> (c = CNone -> direct_ok d direct wsize ops) ->
  let stored := match c with CNone => written ops | _ => enc c (written ops) end in
  (length stored <= d_room d)%nat -> (length (content (fst x1)) <= length stored)%nat ->
  r_do_open dec (Some (content (fst (w_close enc d (snd (w_ops d ops x1)))))) alg r_new = (Opened, r) ->
  Forall (eq true) (fst (w_ops d ops x1)) /\ fst (r_reads size n r) = map (kth_read size (written ops)) (seq 0 n).
Proof.
  intros enc dec d can wsize alg c direct x x1 ops size n r E C W0 S0 DE D stored R L O.
  assert (OV : over stored (content (fst x1)) = stored) by (unfold over; rewrite skipn_all2 by exact L; apply app_nil_r).
  destruct c.
  - assert (A : alg = "None"%string).
    { unfold codec_of in C. repeat match type of C with (if ?b then _ else _) = _ => destruct b eqn:? end; try discriminate.
      now apply String.eqb_eq. }
    subst alg. destruct (C37_written enc d can wsize direct x x1 ops E W0 (D eq_refl) R) as [F K]. split; [exact F|].
    rewrite K in O. fold stored in O. rewrite OV in O. exact (C37_read dec size n stored r S0 O).
  - destruct (C37_compressed enc d can wsize alg CZstd direct x x1 ops E C ltac:(discriminate) W0 R) as [F K]. split; [exact F|].
    rewrite K in O. fold stored in O. rewrite OV in O. unfold r_do_open in O. rewrite C in O. cbn [r_new r_open] in O. injection O as <-.
    unfold stored. rewrite DE. apply (reads_all size _ S0 n 0). lia.
  - destruct (C37_compressed enc d can wsize alg CLzma direct x x1 ops E C ltac:(discriminate) W0 R) as [F K]. split; [exact F|].
    rewrite K in O. fold stored in O. rewrite OV in O. unfold r_do_open in O. rewrite C in O. cbn [r_new r_open] in O. injection O as <-.
    unfold stored. rewrite DE. apply (reads_all size _ S0 n 0). lia.
  - destruct (C37_compressed enc d can wsize alg CZlib direct x x1 ops E C ltac:(discriminate) W0 R) as [F K]. split; [exact F|].
    rewrite K in O. fold stored in O. rewrite OV in O. unfold r_do_open in O. rewrite C in O. cbn [r_new r_open] in O. injection O as <-.
    unfold stored. rewrite DE. apply (reads_all size _ S0 n 0). lia.
Qed.
Print Assumptions C37_round_trip.
Example C37_round_trip_ex :
  let x1 := snd (w_do_open ex_enc ex_dev true 4 "lzma" true (Some [5], w_new)) in
  let f := fst (w_close ex_enc ex_dev (snd (w_ops ex_dev [OWrite [1; 2; 3]; OWrite [4; 5]] x1))) in
  f = Some [99; 5; 4; 3; 2; 1] /\
  fst (r_reads 2 4 (snd (r_do_open ex_dec f "lzma" r_new))) = [(true, [1; 2]); (true, [3; 4]); (false, [5]); (false, [])].
Proof. vm_compute. auto. Qed.

(** C37. A writer or reader that is not open refuses; an unknown algorithm or an unusable path is reported and leaves
    it not open; a reader that is open refuses to be opened again. *)
Theorem C37_not_open : forall enc dec d can size alg direct x f r bs rsize,
  w_open (snd x) = false ->
  (fst (w_do_open enc d can size alg direct x) = Opened <-> can = true /\ codec_of alg <> None) /\
  w_open (snd (snd (w_do_open enc d can size alg direct x))) = (can && match codec_of alg with Some _ => true | None => false end) /\
  fst (w_write d bs x) = false /\ snd (w_write d bs x) = x /\
  (r_open r = false -> fst (r_read rsize r) = (false, []) /\
     (fst (r_do_open dec f alg r) = Opened <-> f <> None /\ codec_of alg <> None)) /\
  (r_open r = true -> fst (r_do_open dec f alg r) <> Opened /\ snd (r_do_open dec f alg r) = r).
Proof.
  intros enc dec d can size alg direct x f r bs rsize O. unfold w_do_open, w_write, r_read, r_do_open. rewrite O.
  split; [|split; [|split; [|split; [|split]]]]; auto.
  - destruct can; cbn [negb]; [|cbn; split; [discriminate|intros [? _]; discriminate]].
    destruct (codec_of alg) as [c|]; cbn [fst]; split; try discriminate; auto; try (split; [auto|discriminate]). intros [_ N]; congruence.
  - destruct can; cbn [negb andb snd]; auto. destruct (codec_of alg); cbn; auto.
  - intros ->. cbn [negb]. split; auto. destruct f as [c|]; [|cbn; split; [discriminate|intros [N _]; congruence]].
    destruct (codec_of alg) as [[| | |]|]; cbn [fst]; split; intros; try discriminate; auto; try (split; discriminate). destruct H; congruence.
  - intros ->. destruct f as [c|]; [|split; [discriminate|auto]]. destruct (codec_of alg) as [[| | |]|]; (split; [discriminate|auto]).
Qed.
Print Assumptions C37_not_open.
Example C37_not_open_ex :
  fst (w_do_open ex_enc ex_dev true 4 "gzip" true (None, w_new)) = BadAlgorithm /\
  fst (r_do_open ex_dec (Some [1]) "None" (snd (r_do_open ex_dec (Some [1]) "None" r_new))) = AlreadyOpen.
Proof. vm_compute. auto. Qed.

(** ** C38 *)

(** C38. A first read succeeds exactly if the file can be opened; it warns -- without failing -- about a file over the
    limit and about an incomplete last element; it holds all bytes of the file, and counts the complete chunks (none
    if the chunk size is not positive). *)
Theorem C38_read : forall limit chunk f,
  match f with
  | None => fsb_read f (fsb_new limit chunk) = (FThrow, fsb_new limit chunk)
  | Some bytes =>
      let n := Z.of_nat (length bytes) in
      exists s w1 w2, fsb_read f (fsb_new limit chunk) = (FRead w1 w2, s) /\ fs_buffer s = bytes /\
        (w1 = true <-> n > limit) /\
        (0 < chunk < 2147483648 -> w2 = negb (n mod chunk =? 0) /\
           (n / chunk < 2147483648 -> fs_count s * chunk <= n < (fs_count s + 1) * chunk)) /\
        (chunk <= 0 -> w2 = false /\ fs_count s = 0)
  end.
Proof.
  intros limit chunk [bytes|]; [|reflexivity]. cbn zeta. unfold fsb_read, fsb_new. cbn [fs_open fs_limit fs_chunk fs_count fs_buffer].
  eexists _, _, _. split; [reflexivity|]. cbn [fs_buffer fs_count]. split; [apply app_nil_r|].
  pose proof (Zle_0_nat (length bytes)) as P. set (n := Z.of_nat (length bytes)) in *. split; [destruct (Z.gtb_spec n limit); split; intros; try congruence; lia|].
  split.
  - intros C. destruct (Z.gtb_spec chunk 0); [|lia]. cbn [andb]. rewrite Z.rem_mod_nonneg, Z.quot_div_nonneg by lia.
    pose proof (Z.mod_pos_bound n chunk ltac:(lia)) as B. assert (I : forall z, 0 <= z < 2147483648 -> i32 z = z).
    { intros z Hz. unfold i32, two32. rewrite Z.mod_small by lia. lia. }
    rewrite I by lia. split.
    + destruct (Z.gtb_spec (n mod chunk) 0), (Z.eqb_spec (n mod chunk) 0); try reflexivity; lia.
    + intros D. pose proof (Z.div_pos n chunk P ltac:(lia)). rewrite I by lia. pose proof (Z.div_mod n chunk ltac:(lia)). nia.
  - intros C. destruct (Z.gtb_spec chunk 0); [lia|]. auto.
Qed.
Print Assumptions C38_read.
Example C38_read_ex : fsb_read (Some [1; 2; 3; 4; 5; 6; 7]) (fsb_new 5 3) = (FRead true true, mk_fsb 5 3 2 [1; 2; 3; 4; 5; 6; 7] true).
Proof. vm_compute. reflexivity. Qed.

(** C38. The same object cannot read twice: the second call throws and changes nothing; a failed call can be repeated. *)
Theorem C38_second_read_throws : forall limit chunk f f2,
  let r := fsb_read f (fsb_new limit chunk) in
  (fst r <> FThrow -> fsb_read f2 (snd r) = (FThrow, snd r)) /\
  (fst r = FThrow -> fsb_read f2 (snd r) = fsb_read f2 (fsb_new limit chunk)).
Proof. intros limit chunk [b|] f2; cbn; split; auto; intros; try congruence; discriminate. Qed.
Print Assumptions C38_second_read_throws.
Example C38_second_read_throws_ex :
  fst (fsb_read (Some [9]) (snd (fsb_read (Some [1; 2]) (fsb_new 10 2)))) = FThrow /\
  fs_buffer (snd (fsb_read (Some [9]) (snd (fsb_read None (fsb_new 10 2))))) = [9].
Proof. vm_compute. auto. Qed.

(** C38 (finding): the limit does not limit. *)
Theorem C38_limit_enforced_refuted : exists limit chunk bytes,
  Z.of_nat (length bytes) > limit /\ fst (fsb_read (Some bytes) (fsb_new limit chunk)) <> FThrow.
Proof. exists 1, 1, [1; 2]. vm_compute. split; [reflexivity|discriminate]. Qed.
Print Assumptions C38_limit_enforced_refuted.

(** ** C51 *)

(** C51. In every run of the recorder, whatever the queue delivers and whichever writes fail: the elements taken are
    the first n offered; exactly these are counted; exactly these are passed to the writer, in order; and either they
    are all of them and every write succeeded, or the last one taken is the first whose write failed. *)
Theorem C51_run : forall d evs s x y, rc_since s = i32 y ->
  exists n, (n <= length (pops evs))%nat /\
    let q := rec_run d evs s x in
    let r := w_ops d (map OWrite (firstn n (pops evs))) x in
    rc_popped (fst q) = rc_popped s ++ firstn n (pops evs) /\
    rc_total (fst q) = i32 (Z.of_nat n) /\ rc_since (fst q) = i32 (y + Z.of_nat n) /\
    snd q = w_flush d (snd r) /\
    ((n = length (pops evs) /\ fst r = repeat true n) \/ (exists m, n = S m /\ fst r = repeat true m ++ [false])).
Proof.
  intros d evs s x y Y. destruct (rec_loop_any d evs (mk_rec 0 (rc_since s) (rc_popped s)) x 0 y eq_refl Y) as (n & L & P1 & P2 & P3 & P4 & P5).
  exists n. split; [exact L|]. cbn zeta in *. unfold rec_run. cbn [fst snd]. rewrite P1, P2, P3, P4. cbn [rc_popped]. auto.
Qed.
Print Assumptions C51_run.
Example C51_run_ex :
  let x1 := snd (rec_conf ex_enc (mk_dev 4 6) true 3 "None" false (Some [9; 9], w_new)) in
  let q := rec_run (mk_dev 4 6) [RPop [1; 2]; RTimeout; RPop [3; 4]; RPop [5; 6]; RPop [7; 8]; RPop [9; 9]; RPop [4]] (mk_rec 5 1 [[0]]) x1 in
  fst q = mk_rec 5 6 [[0]; [1; 2]; [3; 4]; [5; 6]; [7; 8]; [9; 9]] /\ fst (snd q) = Some [1; 2; 3; 4; 5; 6] /\ w_bad (snd (snd q)) = true.
Proof. vm_compute. auto. Qed.

Lemma rec_runs_ops d runs : forall s x y, rc_since s = i32 y -> Forall (eq true) (fst (w_ops d (concat (map run_ops runs)) x)) ->
  snd (rec_runs d runs s x) = snd (w_ops d (concat (map run_ops runs)) x) /\
  rc_popped (fst (rec_runs d runs s x)) = rc_popped s ++ concat (map pops runs).
Proof.
  induction runs as [|evs runs IH]; intros s x y Y A; cbn [rec_runs map concat].
  - cbn. now rewrite app_nil_r.
  - cbn [map concat] in A. unfold run_ops in A at 1. rewrite <- app_assoc in A. rewrite ops_app in A. cbn [fst] in A. apply Forall_app in A as [A1 A2].
    pose proof (rec_loop_good d evs (mk_rec 0 (rc_since s) (rc_popped s)) x 0 y eq_refl Y A1) as E.
    unfold rec_run. rewrite E. cbn [fst snd]. unfold run_ops at 1. rewrite <- app_assoc, ops_app. cbn [app w_ops snd fst] in *.
    destruct (IH (mk_rec (i32 (0 + Z.of_nat (length (pops evs)))) (i32 (y + Z.of_nat (length (pops evs)))) (rc_popped s ++ pops evs)) _ _ eq_refl A2) as [I1 I2].
    cbn [rc_popped] in *. rewrite I1, I2, <- app_assoc. auto.
Qed.

(** C51. The file written by any number of runs after one configuration holds all elements the queue delivered, in
    order and nothing else (an old output file is gone), without O_DIRECT or with every run ending at a multiple of
    the block size, while the device has room. *)
Theorem C51_file : forall enc d can size direct x x1 runs s y,
  rec_conf enc d can size "None" direct x = (Opened, x1) -> (0 < size)%nat -> rc_since s = i32 y ->
  direct_ok d direct size (concat (map run_ops runs)) -> (length (concat (concat (map pops runs))) <= d_room d)%nat ->
  let q := rec_runs d runs s x1 in
  rc_popped (fst q) = rc_popped s ++ concat (map pops runs) /\
  content (fst (w_close enc d (snd q))) = concat (concat (map pops runs)).
Proof.
  intros enc d can size direct x x1 runs s y E S0 Y D R q.
  assert (W : written (concat (map run_ops runs)) = concat (concat (map pops runs))).
  { clear. induction runs as [|evs runs IH]; cbn [map concat]; auto. rewrite concat_app, <- IH. unfold run_ops at 1.
    rewrite <- app_assoc. induction (pops evs) as [|e l IHl]; [reflexivity|]. cbn [map concat]. rewrite <- app_assoc, <- IHl. reflexivity. }
  unfold rec_conf in E. set (x0 := if w_open (snd x) then (None, snd (w_close enc d x)) else (None, snd x)) in *.
  assert (N : content (fst x1) = []).
  { unfold w_do_open in E. assert (F0 : fst x0 = None) by (unfold x0; now destruct (w_open (snd x))).
    assert (O0 : w_open (snd x0) = false) by (unfold x0; destruct (w_open (snd x)) eqn:O; cbn; auto). rewrite O0 in E.
    destruct (negb can); [discriminate|]. cbn [codec_of String.eqb] in E. cbn in E. injection E as <-. cbn. now rewrite F0. }
  destruct (C37_written enc d can size direct x0 x1 (concat (map run_ops runs)) E S0 D) as [F K]; [now rewrite W|].
  destruct (rec_runs_ops d runs s x1 y Y F) as [I1 I2]. split; [exact I2|]. unfold q. rewrite I1, K, W, N. unfold over. rewrite skipn_nil, app_nil_r. reflexivity.
Qed.
Print Assumptions C51_file.
Example C51_file_ex :
  let x1 := snd (rec_conf ex_enc ex_dev true 4 "None" true (Some [9; 9; 9; 9; 9; 9; 9; 9; 9], w_new)) in
  let q := rec_runs ex_dev [[RPop [1; 2; 3; 4]; RTimeout; RPop [5; 6; 7; 8]]; [RTimeout]; [RPop [9; 10; 11; 12]]] (mk_rec 0 0 []) x1 in
  direct_ok ex_dev true 4 (concat (map run_ops [[RPop [1; 2; 3; 4]; RTimeout; RPop [5; 6; 7; 8]]; [RTimeout]; [RPop [9; 10; 11; 12]]])) /\
  fst q = mk_rec 1 3 [[1; 2; 3; 4]; [5; 6; 7; 8]; [9; 10; 11; 12]] /\
  fst (w_close ex_enc ex_dev (snd q)) = Some [1; 2; 3; 4; 5; 6; 7; 8; 9; 10; 11; 12].
Proof. vm_compute. repeat split; auto. Qed.

(** C51 (finding). Under O_DIRECT (the default) a second run after a first one that did not end at a block boundary
    loses data, although the device has room. *)
Theorem C51_second_run_refuted : exists d size runs x1 s, (0 < size)%nat /\ (size mod d_align d = 0)%nat /\
  rec_conf (fun _ b => b) d true size "None" true (None, w_new) = (Opened, x1) /\
  (length (concat (concat (map pops runs))) <= d_room d)%nat /\
  content (fst (w_close (fun _ b => b) d (snd (rec_runs d runs s x1)))) <> concat (concat (map pops runs)) /\
  rc_popped (fst (rec_runs d runs s x1)) <> concat (map pops runs).
Proof.
  exists (mk_dev 4 100), 4%nat, [[RPop [1; 2; 3]]; [RPop [4; 5; 6]; RPop [7; 8; 9]; RPop [10; 11; 12]]],
    (Some [], mk_w true true true 0 4 [] CNone [] false), (mk_rec 0 0 []).
  vm_compute. repeat split; try lia; discriminate.
Qed.
Print Assumptions C51_second_run_refuted.
