(** C47: the hit list of the scalar code. *)
From Coq Require Import ZArith Lia List Bool ZifyBool Arith.
From Verif Require Import Base_model Frugal_model Frugal_spec Frugal_proofs Expand_model Expand_spec Expand_proofs Expand_props
  Hits_model Hits_spec Hits_proofs Hits_proofs2 Hits_proofs3 Hits_props Hits_spec2.
Import ListNotations.
Open Scope Z_scope.

Definition small (h : hit) : Prop :=
  0 <= fst (fst h) <= 32767 /\ 0 <= snd (fst h) <= 32767 /\ 0 <= snd h <= 32767.
Lemma read_channel : forall i hs rest l, 0 <= Z.of_nat i < 96 -> Forall small hs -> read_hits rest = Some l ->
  read_hits (flat_map (hit_words i) hs ++ rest)
  = Some (map (fun h : hit => (Z.of_nat i, fst (fst h), snd (fst h), snd h)) hs ++ l).
Proof.
  intros i hs rest l Hi F R. induction F as [|[[t c] tv] hs (S1 & S2 & S3) F IH]; [exact R|].
  cbn [fst snd] in S1, S2, S3. cbn [flat_map hit_words app map fst snd].
  rewrite !u16_id by lia. cbn [read_hits]. replace (Z.of_nat i =? 65535) with false by lia. rewrite IH. reflexivity.
Qed.
Lemma read_channels : forall (f : nat -> list hit) n a, (a + n <= 96)%nat -> (forall i, (i < 96)%nat -> Forall small (f i)) ->
  read_hits (concat (map (fun i => flat_map (hit_words i) (f i)) (seq a n)) ++ repeat MAGIC 4)
  = Some (flat_map (fun i => map (fun h : hit => (Z.of_nat i, fst (fst h), snd (fst h), snd h)) (f i)) (seq a n)).
Proof.
  intros f. induction n as [|n IH]; intros a L F; [reflexivity|]. cbn [seq map concat flat_map]. rewrite <- app_assoc.
  apply read_channel; [lia|apply F; lia|]. apply IH; [lia|exact F].
Qed.
Lemma naive_channel_count : forall ss p abs itime n, (length (snd (naive_channel p abs itime n ss)) <= length ss)%nat.
Proof.
  induction ss as [|s ss IH]; intros p abs itime n; cbn [naive_channel]; [cbn; lia|].
  assert (length (snd (naive_step p abs itime n s)) <= 1)%nat as L.
  { unfold naive_step. destruct (5 * _ * _ <? _); destruct (negb _ && negb _); cbn; lia. }
  destruct (naive_step p abs itime n s) as [n' h]. specialize (IH p ((abs + 1) mod 8)%nat (itime + 1) n').
  destruct (naive_channel p ((abs + 1) mod 8) (itime + 1) n' ss) as [n'' hs]. cbn [snd] in *. rewrite app_length. cbn [length]. lia.
Qed.
Lemma results_by_index : forall (cs : list chan) (g : nat * chan -> chan * list hit), length cs = 96%nat ->
  combine (seq 0 96) (map g (combine (seq 0 96) cs)) = map (fun i => (i, g (i, nth i cs chan0))) (seq 0 96).
Proof.
  intros cs g L. rewrite <- L. clear L.
  assert (forall a l, combine (seq a (length l)) (map g (combine (seq a (length l)) l))
                      = map (fun i => (i, g (i, nth (i - a) l chan0))) (seq a (length l))) as H.
  { intros a l. revert a. induction l as [|c l IH]; intros a; [reflexivity|]. cbn [length seq combine map]. rewrite IH.
    rewrite Nat.sub_diag. cbn [nth]. f_equal. apply map_ext_in. intros i I. apply in_seq in I.
    replace (i - a)%nat with (S (i - S a)) by lia. reflexivity. }
  rewrite H. apply map_ext. intros i. rewrite Nat.sub_0_r. reflexivity.
Qed.

(** The words written by the scalar code for a superchunk are exactly its hits, channel by channel in the order of the ticks
    and without loss (zero charge included), followed by the end mark; there are at most 4612 of them. *)
Theorem C47_scalar_hit_list : forall p cs abs mem, params_ok p -> is_bytes mem -> (abs < 8)%nat -> length cs = 96%nat ->
  (forall i, (i < 96)%nat -> chan_ok (nth i cs chan0) /\ run_ok p abs (nth i cs chan0) (channel_samples (expand_collection mem) i)) ->
  let out := snd (process_window_naive p (cs, abs) (expand_collection mem)) in
  read_hits out = Some (flat_map (fun i => map (fun h : hit => (Z.of_nat i, fst (fst h), snd (fst h), snd h))
      (snd (naive_channel p abs 0 (nth i cs chan0) (channel_samples (expand_collection mem) i)))) (seq 0 96)) /\
  (length out <= 4612)%nat.
Proof.
  intros p cs abs mem P B A L HI. unfold process_window_naive. cbn [fst snd].
  rewrite results_by_index by exact L. rewrite map_map. cbn [fst snd].
  set (f := fun i => snd (naive_channel p abs 0 (nth i cs chan0) (channel_samples (expand_collection mem) i))).
  assert (forall i, (length (f i) <= 12)%nat) as C.
  { intros i. unfold f. etransitivity; [apply naive_channel_count|]. unfold channel_samples. rewrite map_length, seq_length. lia. }
  split.
  - apply (read_channels f 96 0 ltac:(lia)). intros i Li. destruct (HI i Li) as [H1 H2].
    pose proof (naive_channel_ok _ p abs 0 _ A P H1 (channel_samples_range mem i B Li) H2) as N.
    unfold channel_samples in N at 1. rewrite map_length, seq_length in N.
    eapply Forall_impl; [|exact N]. unfold small. cbn beta. lia.
  - change (concat _) with (concat (map (fun i => flat_map (hit_words i) (f i)) (seq 0 96))).
    rewrite app_length. cbn [length repeat].
    assert (forall n a, (length (concat (map (fun i => flat_map (hit_words i) (f i)) (seq a n))) <= 48 * n)%nat) as G.
    { induction n as [|n IH]; intros a; [cbn; lia|]. cbn [seq map concat]. rewrite app_length. specialize (IH (S a)).
      assert (forall hs, length (flat_map (hit_words a) hs) = 4 * length hs)%nat as E.
      { induction hs as [|[[t c] tv] hs IHh]; [reflexivity|]. cbn [flat_map hit_words app length]. rewrite IHh. lia. }
      rewrite E. specialize (C a). lia. }
    specialize (G 96%nat 0%nat). lia.
Qed.
Print Assumptions C47_scalar_hit_list.

Example C47_scalar_hit_list_hypotheses_ex : exists cs abs, let mem := mem_at pulse_chunks 0 in
  params_ok coll_params /\ is_bytes mem /\ (abs < 8)%nat /\ length cs = 96%nat /\
  forall i, (i < 96)%nat -> chan_ok (nth i cs chan0) /\ run_ok coll_params abs (nth i cs chan0) (channel_samples (expand_collection mem) i).
Proof.
  destruct C47_vectorised_equals_scalar_ex as (w & cs & B & A & _ & _ & L & H). exists cs, (abs_time w).
  split; [exact coll_params_ok|]. split; [exact B|]. split; [exact A|]. split; [exact L|]. intros i Li. apply H. exact Li.
Qed.
(** Runs with charge 400 and 300 ticks that began in earlier superchunks end in every channel. *)
Example C47_scalar_hit_list_ex :
  let c := init_chan (100, 97, 103) in
  let cs := repeat (mkChan (trk c) (prev c) 1 400 300) 96 in
  read_hits (snd (process_window_naive coll_params (cs, 0%nat) (repeat (repeat 0 32) 72)))
  = Some (map (fun i => (Z.of_nat i, 0, 400, 300)) (seq 0 96)).
Proof. vm_compute. reflexivity. Qed.
