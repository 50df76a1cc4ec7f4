(** C47, C48, C61: hit finding. *)
From Coq Require Import ZArith Lia List Bool ZifyBool Arith.
From Verif Require Import Base_model Frugal_model Frugal_spec Frugal_proofs Expand_model Expand_spec Expand_proofs Expand_props
  Hits_model Hits_spec Hits_proofs Hits_proofs2 Hits_proofs3.
Import ListNotations.
Open Scope Z_scope.

(** * C47: vectorised and scalar hit finding *)
Lemma naive_step_ok : forall p abs itime n s, (abs < 8)%nat -> params_ok p -> chan_ok n -> 0 <= s < 4096 -> step_ok p abs n s ->
  chan_ok (fst (naive_step p abs itime n s)) /\
  Forall (fun h => fst (fst h) = itime /\ 0 <= snd (fst h) <= 32767 /\ 0 <= snd h <= 32767) (snd (naive_step p abs itime n s)).
Proof.
  intros p abs itime n s A P K Hs OK. split.
  - pose proof (lane_agrees p abs itime (mkChan (trk n) (prev n) (- was_over n) (charge n) (tover n)) n s A P K eq_refl Hs OK) as L.
    destruct (naive_step p abs itime n s) as [n' hs]. destruct (lane_all _ _ _ _). apply L.
  - destruct K as (_ & _ & _ & K1 & K2). unfold naive_step. destruct (5 * _ * _ <? _).
    + destruct (negb _ && negb true) eqn:E; [rewrite andb_comm in E; discriminate|constructor].
    + destruct (negb _ && negb false); [|constructor]. constructor; [|constructor]. cbn [fst snd]. auto.
Qed.
Lemma naive_channel_ok : forall ss p abs itime n, (abs < 8)%nat -> params_ok p -> chan_ok n -> Forall (fun s => 0 <= s < 4096) ss ->
  run_ok p abs n ss ->
  Forall (fun h => itime <= fst (fst h) < itime + Z.of_nat (length ss) /\ 0 <= snd (fst h) <= 32767 /\ 0 <= snd h <= 32767)
         (snd (naive_channel p abs itime n ss)).
Proof.
  induction ss as [|s ss IH]; intros p abs itime n A P K F R; cbn [naive_channel]; [constructor|].
  inversion F as [|? ? F1 F2]; subst. cbn [run_ok] in R. destruct R as [R1 R2].
  destruct (naive_step_ok p abs itime n s A P K F1 R1) as [N1 N2].
  assert (fst (naive_step p abs 0 n s) = fst (naive_step p abs itime n s)) as TI.
  { unfold naive_step. destruct (5 * _ * _ <? _); destruct (negb _ && negb _); reflexivity. }
  rewrite TI in R2. destruct (naive_step p abs itime n s) as [n' h]. cbn [fst snd] in *.
  specialize (IH p ((abs + 1) mod 8)%nat (itime + 1) n' ltac:(apply Nat.mod_upper_bound; lia) P N1 F2 R2).
  destruct (naive_channel p ((abs + 1) mod 8) (itime + 1) n' ss) as [n'' hs]. cbn [snd] in *.
  apply Forall_app. split.
  - eapply Forall_impl; [|exact N2]. cbn beta. cbn [length]. lia.
  - eapply Forall_impl; [|exact IH]. cbn beta. cbn [length]. lia.
Qed.

Lemma channel_samples_lane : forall mem r l, is_bytes mem -> (r < 6)%nat -> (l < 16)%nat ->
  map (fun ss => nth l ss 0) (register_samples (expand_collection mem) r) = channel_samples (expand_collection mem) (16 * r + l).
Proof.
  intros mem r l B Lr Ll. unfold register_samples, channel_samples. rewrite map_map. apply map_ext_in. intros k Ik. apply in_seq in Ik.
  unfold lanes_of. rewrite (nth_map_ex nat Z _ (seq 0 16) l 0%nat) by (rewrite seq_length; exact Ll). rewrite seq_nth by exact Ll.
  cbn [Nat.add]. destruct (C45_message mem (16 * r + l) k B ltac:(lia) ltac:(lia)) as [M1 M2].
  replace ((16 * r + l) mod 16)%nat with l in M2 by (apply (Nat.mod_unique _ 16 r); lia).
  replace ((16 * r + l) / 16)%nat with r in M2 by (apply (Nat.div_unique _ 16 _ l); lia).
  rewrite M1, M2. reflexivity.
Qed.
Lemma channel_samples_range : forall mem i, is_bytes mem -> (i < 96)%nat ->
  Forall (fun s => 0 <= s < 4096) (channel_samples (expand_collection mem) i).
Proof.
  intros mem i B Li. apply Forall_forall. intros x I. unfold channel_samples in I. apply in_map_iff in I.
  destruct I as (k & <- & Ik). apply in_seq in Ik. destruct (C45_message mem i k B Li ltac:(lia)) as [M _]. rewrite M.
  pose proof (wib_adc_range mem (464 * k) (Z.to_nat (collection_index_to_channel (Z.of_nat i))) B).
  rewrite i16_id by (unfold is_i16; lia). assumption.
Qed.
Lemma register_samples_range : forall mem r, is_bytes mem -> (r < 6)%nat ->
  Forall (fun ss => length ss = 16%nat /\ Forall (fun s => 0 <= s < 4096) ss) (register_samples (expand_collection mem) r).
Proof.
  intros mem r B Lr. apply (register_samples_shape (fun i t => wib_adc mem (464 * t) (Z.to_nat (chan_of i)))
    ltac:(intros; apply wib_adc_range, B) mem 0 r); [|exact Lr].
  split; [exact B|]. intros i k Li Lk. reflexivity.
Qed.

(** For every superchunk and every state in which the quantities are in range, the vectorised code leaves the same state as
    the scalar code in all 96 channels, and the primitives decoded from its hit list are those of the scalar hits with
    non-zero charge. [run_ok]: at every tick the filter output is not between the largest threshold the vectorised code can
    hold and the scalar threshold, and the time over threshold is below 32767. *)
Theorem C47_vectorised_equals_scalar : forall p w cs mem ts, params_ok p -> is_bytes mem -> (abs_time w < 8)%nat ->
  length (regs w) = 6%nat -> (forall r, (r < 6)%nat -> length (nth r (regs w) []) = 16%nat) -> length cs = 96%nat ->
  (forall i, (i < 96)%nat -> same (lane w i) (nth i cs chan0) /\ chan_ok (nth i cs chan0) /\
     run_ok p (abs_time w) (nth i cs chan0) (channel_samples (expand_collection mem) i)) ->
  let '(w', out) := process_window_avx2 p w (expand_collection mem) in
  let '((cs', abs'), _) := process_window_naive p (cs, abs_time w) (expand_collection mem) in
  abs_time w' = abs' /\ length (regs w') = 6%nat /\ (forall r, (r < 6)%nat -> length (nth r (regs w') []) = 16%nat) /\
  length cs' = 96%nat /\
  (forall i, (i < 96)%nat -> same (lane w' i) (nth i cs' chan0) /\ chan_ok (nth i cs' chan0)) /\
  exists tps, decode_hits (length out) ts out = Ok tps /\ all_known tps /\
    forall i, (i < 96)%nat -> filter (fun q => channel q =? chan_of i) tps
      = map (fun h => make_prim ts (Z.of_nat i) (fst (fst h)) (snd (fst h)) (snd h))
            (filter visible (snd (naive_channel p (abs_time w) 0 (nth i cs chan0) (channel_samples (expand_collection mem) i)))).
Proof.
  intros p w cs mem ts P B A L6 L16 LC HI. unfold process_window_avx2, process_window_naive. cbn [fst snd].
  set (reg := fun r => avx2_register p (abs_time w) 0 (nth r (regs w) []) (register_samples (expand_collection mem) r)).
  set (nch := fun i => naive_channel p (abs_time w) 0 (nth i cs chan0) (channel_samples (expand_collection mem) i)).
  assert (forall i, (i < 96)%nat -> (i / 16 < 6)%nat /\ (i mod 16 < 16)%nat /\ (16 * (i / 16) + i mod 16 = i)%nat) as DM.
  { intros i Li. split; [apply Nat.div_lt_upper_bound; lia|]. split; [apply Nat.mod_upper_bound; lia|].
    symmetry. apply Nat.div_mod. lia. }
  assert (forall r, (r < 6)%nat -> length (fst (reg r)) = 16%nat /\ Forall group_wf (snd (reg r)) /\ (length (snd (reg r)) <= 12)%nat /\
    forall l, (l < 16)%nat -> same (nth l (fst (reg r)) chan0) (fst (nch (16 * r + l)%nat)) /\ chan_ok (fst (nch (16 * r + l)%nat)) /\
                              lane_hits l (snd (reg r)) = filter visible (snd (nch (16 * r + l)%nat))) as REG.
  { intros r Lr. set (lanes := nth r (regs w) []). set (sss := register_samples (expand_collection mem) r).
    set (ns := map (fun l => nth (16 * r + l) cs chan0) (seq 0 16)).
    assert (length ns = 16%nat) as LN by (unfold ns; rewrite map_length, seq_length; reflexivity).
    assert (length lanes = 16%nat) as LL by (apply L16, Lr).
    assert (forall l, (l < 16)%nat -> nth l ns chan0 = nth (16 * r + l) cs chan0) as NN.
    { intros l Ll. unfold ns. rewrite (nth_map_ex nat chan _ (seq 0 16) l 0%nat) by (rewrite seq_length; exact Ll).
      rewrite seq_nth by exact Ll. reflexivity. }
    assert (forall l, (l < 16)%nat -> lane w (16 * r + l) = nth l lanes chan0) as LA.
    { intros l Ll. unfold lane, lanes.
      replace ((16 * r + l) mod 16)%nat with l by (apply (Nat.mod_unique _ 16 r); lia).
      replace ((16 * r + l) / 16)%nat with r by (apply (Nat.div_unique _ 16 _ l); lia). reflexivity. }
    assert (forall l, (l < 16)%nat -> map (fun ss => nth l ss 0) sss = channel_samples (expand_collection mem) (16 * r + l)) as SL
      by (intros l Ll; apply channel_samples_lane; assumption).
    pose proof (register_samples_range mem r B Lr) as SS. fold sss in SS.
    pose proof (register_agrees sss p (abs_time w) 0 lanes ns A P LL) as RA.
    assert (Forall2 same lanes ns) as F2.
    { apply (Forall2_from_nth _ _ _ _ _ chan0 chan0); [lia|]. intros l Ll. rewrite NN, <- LA by lia. apply HI. lia. }
    assert (Forall chan_ok ns) as FO.
    { apply (Forall_from_nth _ _ _ chan0). rewrite LN. intros l Ll. rewrite NN by exact Ll. apply HI. lia. }
    specialize (RA F2 FO SS).
    assert (forall l, (l < 16)%nat -> run_ok p (abs_time w) (nth l ns chan0) (map (fun ss => nth l ss 0) sss)) as RO.
    { intros l Ll. rewrite NN, SL by exact Ll. apply HI. lia. }
    specialize (RA RO).
    pose proof (register_shape sss p (abs_time w) 0 lanes LL ltac:(eapply Forall_impl; [|exact SS]; cbn beta; tauto)) as RS.
    assert (length sss = 12%nat) as L12 by (unfold sss, register_samples; rewrite map_length, seq_length; reflexivity).
    unfold reg. fold lanes sss. destruct (avx2_register p (abs_time w) 0 lanes sss) as [lanes' gs]. cbn [fst snd].
    destruct RA as [RA1 RA2]. destruct RS as (_ & RS2 & RS3 & RS4).
    assert (forall l, (l < 16)%nat -> same (nth l lanes' chan0) (fst (nch (16 * r + l)%nat)) /\ chan_ok (fst (nch (16 * r + l)%nat)) /\
                              lane_hits l gs = filter visible (snd (nch (16 * r + l)%nat))) as LAST.
    { intros l Ll. specialize (RA2 l Ll). rewrite NN, SL in RA2 by exact Ll. unfold nch.
      destruct (naive_channel p (abs_time w) 0 (nth (16 * r + l) cs chan0) (channel_samples (expand_collection mem) (16 * r + l))).
      exact RA2. }
    split; [exact RA1|]. split; [|split; [lia|exact LAST]].
    rewrite Forall_forall in RS2, RS4. apply Forall_forall. intros g Ig.
    split; [apply RS2, Ig|]. intros l Ll.
    destruct (Z.eq_dec (nth l (snd (fst g)) 0) 0) as [E|N].
    - split; [lia|]. intros N. contradiction.
    - assert (In (fst (fst g), nth l (snd (fst g)) 0, nth l (snd g) 0) (lane_hits l gs)) as IH.
      { unfold lane_hits. apply in_flat_map. exists g. split; [exact Ig|].
        apply Z.eqb_neq in N. rewrite N. left. reflexivity. }
      destruct (LAST l Ll) as (_ & _ & LH). rewrite LH in IH. apply filter_In in IH. destruct IH as [IH _].
      destruct (HI (16 * r + l)%nat ltac:(lia)) as (_ & H2 & H3).
      pose proof (naive_channel_ok _ p (abs_time w) 0 _ A P H2 (channel_samples_range mem (16 * r + l) B ltac:(lia)) H3) as NB.
      fold (nch (16 * r + l)%nat) in NB. rewrite Forall_forall in NB. specialize (NB _ IH). cbn [fst snd] in NB.
      unfold channel_samples in NB. rewrite map_length, seq_length in NB. lia. }
  assert (forall i, (i < 96)%nat -> nth i (map fst (map (fun x => naive_channel p (abs_time w) 0 (snd x) (channel_samples (expand_collection mem) (fst x)))
                                        (combine (seq 0 96) cs))) chan0 = fst (nch i)) as NC.
  { intros i Li. rewrite map_map.
    rewrite (nth_map_ex (nat * chan) chan _ (combine (seq 0 96) cs) i (0%nat, chan0)) by (rewrite combine_length, seq_length; lia).
    rewrite combine_nth by (rewrite seq_length; lia). cbn [fst snd]. rewrite seq_nth by lia. reflexivity. }
  assert (forall r, (r < 6)%nat -> nth r (map fst (map reg (seq 0 6))) [] = fst (reg r)) as NR.
  { intros r Lr. rewrite map_map. rewrite (nth_map_ex nat (list chan) _ (seq 0 6) r 0%nat) by (rewrite seq_length; exact Lr).
    rewrite seq_nth by exact Lr. reflexivity. }
  change (map (fun ireg => avx2_register p (abs_time w) 0 (nth ireg (regs w) []) (register_samples (expand_collection mem) ireg)) (seq 0 6))
    with (map reg (seq 0 6)).
  cbn [abs_time regs]. split; [reflexivity|]. split; [rewrite !map_length, seq_length; reflexivity|]. split.
  { intros r Lr. rewrite NR by exact Lr. apply REG, Lr. }
  split; [rewrite !map_length, combine_length, seq_length; lia|]. split.
  - intros i Li. rewrite NC by exact Li. unfold lane. cbn [regs]. destruct (DM i Li) as (D1 & D2 & D3). rewrite NR by exact D1.
    destruct (REG _ D1) as (_ & _ & _ & R). destruct (R _ D2) as (R1 & R2 & _). rewrite D3 in R1, R2. split; assumption.
  - apply (decode_window reg (fun i => snd (nch i)) ts). intros r Lr. destruct (REG r Lr) as (_ & R1 & R2 & R3).
    split; [exact R1|]. split; [exact R2|]. intros l Ll. apply R3, Ll.
Qed.
Print Assumptions C47_vectorised_equals_scalar.

(** The parameters of the collection planes: firwin_int(7, 0.1, 64) and a zero, WIBFrameProcessor.hpp 99-100 and 554-571. *)
Definition coll_params : params := mkParams [1; 6; 15; 20; 15; 6; 1; 0] 6 5.
Lemma coll_params_ok : params_ok coll_params.
Proof. unfold params_ok. cbn. lia. Qed.

(** Without the condition on the threshold the two differ. After 1080 samples alternating 100 counts below and above the
    pedestal, twelve samples far above it end in a hit of the vectorised code and in none of the scalar code. *)
Definition wide_noise : list Z := concat (repeat [900; 1100] 540) ++ repeat 1511 12 ++ repeat 1000 12.
Theorem C47_wide_noise_differs :
  let c := init_chan (1000, 997, 1003) in
  let n := naive_channel coll_params 0 0 c wide_noise in
  let a := avx2_register coll_params 0 0 (repeat c 16) (map (fun s => repeat s 16) wide_noise) in
  filter visible (snd n) = [] /\ lane_hits 3 (snd a) <> [].
Proof. vm_compute. split; [reflexivity|discriminate]. Qed.
Print Assumptions C47_wide_noise_differs.

(** * C48: hits and trigger primitives *)
(** From a fresh start, over any number of superchunks: the run does not fail, and for every superchunk and every entry of the
    channel map the primitives are exactly one for each maximal run over threshold that ends in it and has non-zero charge.
    Conditions at every tick: the filter output fits 16 bits, the distance of the quartiles is at most [sigma_max] (102) or
    the filter output at most 5 * sigma_max * 2^e, the run is shorter than 32767 ticks. *)
Theorem C48_primitives : forall p chunks, params_ok p -> chunks <> [] -> Forall (fun c => is_bytes (snd c)) chunks ->
  (forall i t, (i < 96)%nat -> (t < 12 * length chunks)%nat ->
     tick_ok p (start_pedestal chunks) (fun i => stream chunks (chan_of i)) i t) ->
  exists st out, tpg_run p None chunks = Ok (st, out) /\ length out = length chunks /\
    forall k, (k < length chunks)%nat -> all_known (nth k out []) /\ forall i, (i < 96)%nat ->
      let ends := hit_ends (taps p) (tap_exponent p) (start_pedestal chunks i) (stream chunks (chan_of i)) in
      let len t := Z.of_nat (run_length (taps p) (tap_exponent p) (start_pedestal chunks i) (stream chunks (chan_of i)) t) in
      let integral := run_charge (taps p) (tap_exponent p) (start_pedestal chunks i) (stream chunks (chan_of i)) in
      map prim_tuple (filter (fun q => channel q =? chan_of i) (nth k out []))
      = flat_map (fun t => if ends t && negb (integral t =? 0)
           then [expected_primitive (ts_at chunks k) (chan_of i) (Z.of_nat t - Z.of_nat (12 * k)) (len t) (integral t)] else [])
          (seq (12 * k) 12).
Proof.
  intros p chunks P NE B K.
  assert (tpg_run p None chunks = tpg_run p (Some (init_window (expand_collection (mem_at chunks 0)))) chunks) as E.
  { destruct chunks as [|[ts mem] rest]; [contradiction|]. cbn [tpg_run]. unfold find_collection_hits.
    change (mem_at ((ts, mem) :: rest) 0) with mem. reflexivity. }
  rewrite E. clear E.
  change (forall i t, (i < 96)%nat -> (t < 12 * length chunks)%nat -> tick_ok p (ped_ chunks) (S_ chunks) i t) in K.
  destruct (tpg_stretch p P chunks B (length chunks) 0 _ eq_refl (start_winv p chunks B) K) as (st & out & R & L & H).
  cbn [skipn] in R. exists st, out. split; [exact R|]. split; [exact L|]. exact H.
Qed.
Print Assumptions C48_primitives.

Lemma run_length_run : forall tp e ped S t, (run_length tp e ped S t <= t)%nat /\
  (forall u, (t - run_length tp e ped S t <= u < t)%nat -> over tp e ped S u = true) /\
  ((t - run_length tp e ped S t)%nat = 0%nat \/ over tp e ped S (t - run_length tp e ped S t - 1)%nat = false).
Proof.
  intros tp e ped S t. induction t as [|t (IH1 & IH2 & IH3)]; cbn [run_length]; [split; [lia|]; split; [intros; lia|left; reflexivity]|].
  destruct (over tp e ped S t) eqn:E.
  - cbn [Nat.sub]. split; [lia|]. split; [|exact IH3].
    intros u Hu. destruct (Nat.eq_dec u t) as [->|N]; [exact E|]. apply IH2. lia.
  - split; [lia|]. split; [intros; lia|]. right. rewrite Nat.sub_0_r. replace (Datatypes.S t - 1)%nat with t by lia. exact E.
Qed.

(** Consecutive superchunks: the primitive of a run starts at the time stamp of its first tick over threshold, also if the
    run began in an earlier superchunk. *)
Theorem C48_start_time : forall p chunks ts0, params_ok p -> chunks <> [] -> Forall (fun c => is_bytes (snd c)) chunks ->
  (forall i t, (i < 96)%nat -> (t < 12 * length chunks)%nat ->
     tick_ok p (start_pedestal chunks) (fun i => stream chunks (chan_of i)) i t) ->
  (forall k, (k < length chunks)%nat -> ts_at chunks k = (ts0 + 300 * Z.of_nat k) mod 2 ^ 64) ->
  exists st out, tpg_run p None chunks = Ok (st, out) /\
    forall k i q, (k < length chunks)%nat -> (i < 96)%nat -> In q (nth k out []) -> channel q = chan_of i ->
      let over := over (taps p) (tap_exponent p) (start_pedestal chunks i) (stream chunks (chan_of i)) in
      exists first stop, (first < stop)%nat /\ (12 * k <= stop < 12 * k + 12)%nat /\ over stop = false /\
        (forall t, (first <= t < stop)%nat -> over t = true) /\ (first = 0%nat \/ over (first - 1)%nat = false) /\
        time_start q = (ts0 + 25 * Z.of_nat first) mod 2 ^ 64 /\ time_over_threshold q = 25 * Z.of_nat (stop - first).
Proof.
  intros p chunks ts0 P NE B K Hts. destruct (C48_primitives p chunks P NE B K) as (st & out & R & _ & H).
  exists st, out. split; [exact R|]. intros k i q Hk Hi Hq Hch ov.
  destruct (H k Hk) as [_ Hki]. specialize (Hki i Hi). cbv zeta in Hki.
  assert (In (prim_tuple q) (map prim_tuple (filter (fun q => channel q =? chan_of i) (nth k out [])))) as I.
  { apply in_map. apply filter_In. split; [exact Hq|]. apply Z.eqb_eq. exact Hch. }
  rewrite Hki in I. apply in_flat_map in I. destruct I as (t & It & I). apply in_seq in It.
  set (len := run_length (taps p) (tap_exponent p) (start_pedestal chunks i) (stream chunks (chan_of i)) t) in *.
  destruct (hit_ends _ _ _ _ t) eqn:He; cbn [andb] in I; [|destruct I].
  destruct (run_charge _ _ _ _ t =? 0); cbn [negb] in I; [destruct I|]. destruct I as [I|[]].
  unfold hit_ends in He. apply andb_prop in He. destruct He as [He1 He2]. apply negb_true_iff in He1. apply Nat.ltb_lt in He2.
  fold len in He2.
  destruct (run_length_run (taps p) (tap_exponent p) (start_pedestal chunks i) (stream chunks (chan_of i)) t) as (L1 & L2 & L3).
  fold len in L1, L2, L3.
  exists (t - len)%nat, t. split; [lia|]. split; [lia|]. split; [exact He1|]. split; [exact L2|]. split; [exact L3|].
  pose proof (f_equal (fun x => fst (fst (fst (fst (fst x))))) I) as I1. pose proof (f_equal (fun x => snd (fst (fst (fst x)))) I) as I3.
  unfold prim_tuple, expected_primitive in I1, I3. cbn [fst snd] in I1, I3. rewrite <- I1, <- I3, (Hts k Hk). split.
  - rewrite Zplus_mod_idemp_l. f_equal. lia.
  - lia.
Qed.
Print Assumptions C48_start_time.

(** Whatever the state and the input, the hit list of a superchunk fits the 100000 words of the buffer. *)
Theorem C48_output_fits : forall p w input, (forall r, (r < 6)%nat -> length (nth r (regs w) []) = 16%nat) ->
  (length (snd (process_window_avx2 p w input)) <= 4672)%nat.
Proof.
  intros p w input L. unfold process_window_avx2. cbn [snd].
  set (reg := fun r => avx2_register p (abs_time w) 0 (nth r (regs w) []) (register_samples input r)).
  assert (forall r, (r < 6)%nat -> Forall group_shape (snd (reg r)) /\ (length (snd (reg r)) <= 12)%nat) as R.
  { intros r Lr. pose proof (register_shape (register_samples input r) p (abs_time w) 0 _ (L r Lr)) as S.
    assert (Forall (fun ss : list Z => length ss = 16%nat) (register_samples input r)) as F.
    { unfold register_samples. apply Forall_map, Forall_forall. intros. unfold lanes_of. rewrite map_length, seq_length. reflexivity. }
    specialize (S F). unfold reg. destruct (avx2_register _ _ _ _ _). cbn [snd].
    unfold register_samples in S. rewrite map_length, seq_length in S. tauto. }
  rewrite app_length, repeat_length.
  assert (forall n a, (a + n <= 6)%nat ->
    (length (concat (map (fun x => flat_map (group_words (fst x)) (snd (snd x))) (combine (seq a n) (map reg (seq a n))))) <= 768 * n)%nat) as G.
  { induction n as [|n IH]; intros a La; [cbn; lia|]. cbn [seq map combine concat fst snd]. rewrite app_length.
    specialize (IH (S a) ltac:(lia)). destruct (R a ltac:(lia)) as [R1 R2].
    assert (length (flat_map (group_words a) (snd (reg a))) = 64 * length (snd (reg a)))%nat as E.
    { clear R2. induction R1 as [|g l A R1 IH1]; [reflexivity|]. cbn [flat_map length]. rewrite app_length, group_words_length, IH1 by exact A. lia. }
    lia. }
  specialize (G 6%nat 0%nat ltac:(lia)).
  apply (Nat.add_le_mono _ (768 * 6) 64 64 G). lia.
Qed.
Print Assumptions C48_output_fits.

(** The scalar code on its own: the same specification, for every stretch of ticks. *)
Theorem C48_scalar_hits : forall p ped0 s n, params_ok p -> 0 <= ped0 < 4096 -> (forall t, 0 <= s t < 4096) ->
  (forall t, (t < n)%nat -> is_i16 (filtered (taps p) (tap_exponent p) ped0 s t) /\
                            Z.of_nat (run_length (taps p) (tap_exponent p) ped0 s t) < 32767) ->
  snd (naive_channel p 0 0 (init_chan (ped0, ped0 - 3, ped0 + 3)) (map s (seq 0 n)))
  = flat_map (fun t => if hit_ends (taps p) (tap_exponent p) ped0 s t
       then [(Z.of_nat t, run_charge (taps p) (tap_exponent p) ped0 s t, Z.of_nat (run_length (taps p) (tap_exponent p) ped0 s t))] else [])
      (seq 0 n).
Proof.
  intros p ped0 s n P Hp Hs K.
  pose proof (naive_stretch p ped0 s P Hp Hs n 0 0 _ (inv_start p ped0 s)) as N.
  specialize (N ltac:(intros k Lk; apply K; lia)). change (0 mod 8)%nat with 0%nat in N.
  destruct (naive_channel p 0 0 (init_chan (ped0, ped0 - 3, ped0 + 3)) (map s (seq 0 n))) as [c hs]. destruct N as [_ ->].
  cbn [snd]. unfold spec_hits. apply flat_map_ext_in. intros t _. destruct (hit_ends _ _ _ _ t); [|reflexivity].
  change (Z.of_nat 0) with 0. rewrite Z.sub_0_r, Z.add_0_l. reflexivity.
Qed.
Print Assumptions C48_scalar_hits.

(** A hit with charge zero: found by the scalar code and by the specification, but no primitive is made of it. *)
Definition quiet : list Z :=
  [97] ++ repeat 98 11 ++ repeat 100 12 ++ repeat 99 11 ++ repeat 100 11 ++ repeat 101 11 ++ repeat 100 11 ++ repeat 101 11 ++ repeat 102 11
  ++ repeat 101 11 ++ repeat 98 11 ++ repeat 101 8 ++ [102; 101; 101] ++ repeat 102 11 ++ repeat 101 11 ++ repeat 102 11 ++ repeat 103 11
  ++ repeat 102 21 ++ [103] ++ repeat 102 15.
Theorem C48_zero_charge_hit_lost :
  let c := init_chan (100, 97, 103) in
  snd (naive_channel coll_params 0 0 c quiet) = [(197, 0, 7)] /\
  lane_hits 5 (snd (avx2_register coll_params 0 0 (repeat c 16) (map (fun s => repeat s 16) quiet))) = [].
Proof. vm_compute. split; reflexivity. Qed.
Print Assumptions C48_zero_charge_hit_lost.

(** * C61: range of the filter *)
(** With non-negative taps of sum at most 2^e the filter output fits 16 bits as long as no sample is more than 32768 / 2^e
    (512) below the pedestal. *)
Theorem C61_filter_in_range : forall tp e ped0 s t, 0 <= e <= 12 ->
  (forall j, 0 <= nth j tp 0) -> fold_right Z.add 0 (map (fun j => nth j tp 0) (seq 0 7)) <= 2 ^ e ->
  (forall k, (k < t)%nat -> - (32768 / 2 ^ e) <= signal e ped0 s k) ->
  is_i16 (filtered tp e ped0 s t).
Proof.
  intros tp e ped0 s t E T S D.
  set (x := fun j => if (8 <=? t + j)%nat then signal e ped0 s (t + j - 8) else 0).
  assert (1 <= 2 ^ e <= 4096) as PE.
  { split; [change 1 with (2 ^ 0)|change 4096 with (2 ^ 12)]; apply Z.pow_le_mono_r; lia. }
  pose proof (Z.mul_div_le 32768 (2 ^ e) ltac:(lia)). pose proof (Z.mul_div_le 32767 (2 ^ e) ltac:(lia)).
  assert (0 <= 32768 / 2 ^ e) by (apply Z.div_pos; lia). assert (0 <= 32767 / 2 ^ e) by (apply Z.div_pos; lia).
  set (lo := 32768 / 2 ^ e) in *. set (hi := 32767 / 2 ^ e) in *.
  assert (forall j, (j < 7)%nat -> - lo <= x j <= hi) as X.
  { intros j Lj. unfold x. destruct (8 <=? t + j)%nat eqn:C; [|lia]. apply Nat.leb_le in C. split; [apply D; lia|].
    unfold signal. fold hi. lia. }
  assert (forall l, (forall j, In j l -> (j < 7)%nat) ->
    - (lo * fold_right Z.add 0 (map (fun j => nth j tp 0) l)) <= fold_right Z.add 0 (map (fun j => nth j tp 0 * x j) l)
      <= hi * fold_right Z.add 0 (map (fun j => nth j tp 0) l)) as G.
  { induction l as [|j l IH]; intros HL; [cbn; lia|]. cbn [map fold_right].
    specialize (IH ltac:(intros k Ik; apply HL; right; exact Ik)). pose proof (X j ltac:(apply HL; left; reflexivity)).
    pose proof (T j). split; nia. }
  specialize (G (seq 0 7) ltac:(intros j I; apply in_seq in I; lia)).
  unfold filtered. change (map _ (seq 0 7)) with (map (fun j => nth j tp 0 * x j) (seq 0 7)).
  set (sum := fold_right Z.add 0 (map (fun j => nth j tp 0) (seq 0 7))) in *.
  set (r := fold_right Z.add 0 (map (fun j => nth j tp 0 * x j) (seq 0 7))) in *. clearbody sum r lo hi.
  unfold is_i16. nia.
Qed.
Print Assumptions C61_filter_in_range.

(** A deeper undershoot wraps: the samples never exceed the pedestal, the specification has no hit, both versions of the code
    report one. *)
Definition undershoot : list Z := repeat 1000 12 ++ repeat 100 9 ++ repeat 1000 15.
Theorem C61_undershoot_hit :
  let c := init_chan (1000, 997, 1003) in
  Forall (fun s => s <= 1000) undershoot /\
  forallb (fun t => negb (hit_ends (taps coll_params) 6 1000 (fun t => nth t undershoot 0) t)) (seq 0 36) = true /\
  snd (naive_channel coll_params 0 0 c undershoot) <> [] /\
  lane_hits 0 (snd (avx2_register coll_params 0 0 (repeat c 16) (map (fun s => repeat s 16) undershoot))) <> [].
Proof.
  split; [repeat constructor; lia|]. split; [vm_compute; reflexivity|]. split; vm_compute; discriminate.
Qed.
Print Assumptions C61_undershoot_hit.

(** * Examples *)
(** Superchunks of constant bytes 17 * k, that is all samples 273 * k: a pulse of 273 counts in the second of four. *)
Definition flat_chunks (ts0 : Z) (ks : list Z) : list (Z * memory) :=
  map (fun x => ((ts0 + 300 * Z.of_nat (fst x)) mod 2 ^ 64, (fun _ => 17 * snd x) : memory)) (combine (seq 0 (length ks)) ks).
Lemma flat_adc : forall k off c, 0 <= k < 16 -> wib_adc (fun _ => 17 * k) off c = 273 * k.
Proof.
  intros k off c H. unfold wib_adc.
  assert (17 * k mod 16 = k) as M by (replace (17 * k) with (k + k * 16) by lia; rewrite Z.mod_add, Z.mod_small; lia).
  assert (17 * k / 16 = k) as D by (replace (17 * k) with (k + k * 16) by lia; rewrite Z.div_add, Z.div_small; lia).
  destruct ((c mod 8) mod 4)%nat as [|[|[|n]]]; rewrite ?M, ?D; lia.
Qed.
Lemma flat_stream : forall ts0 ks ch t, Forall (fun k => 0 <= k < 16) ks ->
  stream (flat_chunks ts0 ks) ch t = 273 * nth (t / 12) ks 0.
Proof.
  intros ts0 ks ch t F. unfold stream, mem_at. generalize (t / 12)%nat. intros n.
  set (m := snd (nth n (flat_chunks ts0 ks) (0, zero_mem))).
  assert (m = (fun _ => 17 * nth n ks 0)) as E.
  { unfold m, flat_chunks. destruct (Nat.lt_ge_cases n (length ks)) as [L|L].
    - rewrite (nth_map_ex (nat * Z) (Z * memory) _ _ n (0%nat, 0)) by (rewrite combine_length, seq_length; lia).
      cbn [snd]. rewrite combine_nth by (rewrite seq_length; reflexivity). reflexivity.
    - rewrite nth_overflow by (rewrite map_length, combine_length, seq_length; lia). rewrite (nth_overflow ks) by exact L. reflexivity. }
  rewrite E. apply flat_adc. destruct (Nat.lt_ge_cases n (length ks)) as [L|L].
  - rewrite Forall_forall in F. apply F, nth_In, L.
  - rewrite nth_overflow by exact L. lia.
Qed.
Lemma est_ext : forall ped0 s s', (forall t, s t = s' t) -> forall t, est ped0 s t = est ped0 s' t.
Proof. intros ped0 s s' E t. induction t as [|t IH]; [reflexivity|]. cbn [est]. rewrite IH, E. reflexivity. Qed.
Lemma filtered_ext : forall tp e ped0 s s', (forall t, s t = s' t) -> forall t, filtered tp e ped0 s t = filtered tp e ped0 s' t.
Proof.
  intros tp e ped0 s s' E t. unfold filtered. f_equal. apply map_ext. intros j. destruct (8 <=? t + j)%nat; [|reflexivity].
  unfold signal. rewrite E, (est_ext _ _ _ E). reflexivity.
Qed.
Lemma over_ext : forall tp e ped0 s s', (forall t, s t = s' t) -> forall t, over tp e ped0 s t = over tp e ped0 s' t.
Proof. intros. unfold over, limit. erewrite filtered_ext, est_ext by eassumption. reflexivity. Qed.
Lemma run_length_ext : forall tp e ped0 s s', (forall t, s t = s' t) -> forall t, run_length tp e ped0 s t = run_length tp e ped0 s' t.
Proof. intros tp e ped0 s s' E t. induction t as [|t IH]; [reflexivity|]. cbn [run_length]. rewrite IH, (over_ext _ _ _ _ _ E). reflexivity. Qed.
Lemma hit_ends_ext : forall tp e ped0 s s', (forall t, s t = s' t) -> forall t, hit_ends tp e ped0 s t = hit_ends tp e ped0 s' t.
Proof. intros. unfold hit_ends. erewrite over_ext, run_length_ext by eassumption. reflexivity. Qed.
Lemma run_charge_ext : forall tp e ped0 s s', (forall t, s t = s' t) -> forall t, run_charge tp e ped0 s t = run_charge tp e ped0 s' t.
Proof.
  intros tp e ped0 s s' E t. unfold run_charge. rewrite (run_length_ext _ _ _ _ _ E). do 2 f_equal. apply map_ext.
  intros k. rewrite (filtered_ext _ _ _ _ _ E). reflexivity.
Qed.

Definition pulse_chunks : list (Z * memory) := flat_chunks 7777 [3; 4; 3; 3].
Definition pulse (t : nat) : Z := 273 * nth (t / 12) [3; 4; 3; 3] 0.
Lemma pulse_stream : forall ch t, stream pulse_chunks ch t = pulse t.
Proof. intros. apply flat_stream. repeat constructor; lia. Qed.
Lemma pulse_pedestal : forall i, start_pedestal pulse_chunks i = 819.
Proof. intros i. unfold start_pedestal. change (mem_at pulse_chunks 0) with (fun _ : nat => 17 * 3). apply flat_adc. lia. Qed.
Lemma pulse_ticks : forall i t, (t < 48)%nat -> tick_ok coll_params (start_pedestal pulse_chunks) (fun i => stream pulse_chunks (chan_of i)) i t.
Proof.
  intros i t L. unfold tick_ok. rewrite pulse_pedestal.
  rewrite (filtered_ext _ _ _ _ _ (pulse_stream (chan_of i))), (run_length_ext _ _ _ _ _ (pulse_stream (chan_of i))),
    (est_ext _ _ _ (pulse_stream (chan_of i))).
  assert (forallb (fun t =>
     (-32768 <=? filtered (taps coll_params) 6 819 pulse t) && (filtered (taps coll_params) 6 819 pulse t <=? 32767) &&
     (Z.of_nat (run_length (taps coll_params) 6 819 pulse t) <? 32767) && (width (est 819 pulse (S t)) <=? sigma_max coll_params)) (seq 0 48) = true) as C
    by (vm_compute; reflexivity).
  rewrite forallb_forall in C. specialize (C t ltac:(apply in_seq; lia)).
  apply andb_prop in C. destruct C as [C C4]. apply andb_prop in C. destruct C as [C C3]. apply andb_prop in C. destruct C as [C1 C2].
  apply Z.leb_le in C1, C2, C4. apply Z.ltb_lt in C3. unfold is_i16. change (tap_exponent coll_params) with 6.
  split; [split; assumption|]. split; [assumption|]. left. exact C4.
Qed.
Example C48_primitives_ex : exists st out, tpg_run coll_params None pulse_chunks = Ok (st, out) /\
  forall i, (i < 96)%nat -> map (fun tps => map prim_tuple (filter (fun q => channel q =? chan_of i) tps)) out
    = [[]; []; [expected_primitive 8377 (chan_of i) 6 14 3199]; []].
Proof.
  destruct (C48_primitives coll_params pulse_chunks coll_params_ok) as (st & out & R & L & H).
  - discriminate.
  - unfold pulse_chunks, flat_chunks. cbn [length seq combine map fst snd].
    repeat constructor; cbn [snd]; lia.
  - intros i t Li Lt. apply pulse_ticks. exact Lt.
  - exists st, out. split; [exact R|]. intros i Li. change (length pulse_chunks) with 4%nat in L, H.
    destruct out as [|o0 [|o1 [|o2 [|o3 [|]]]]]; try discriminate L. clear L R.
    assert (forall k, (k < 4)%nat -> map prim_tuple (filter (fun q => channel q =? chan_of i) (nth k [o0; o1; o2; o3] []))
      = flat_map (fun t => if hit_ends (taps coll_params) 6 819 pulse t && negb (run_charge (taps coll_params) 6 819 pulse t =? 0)
           then [expected_primitive (ts_at pulse_chunks k) (chan_of i) (Z.of_nat t - Z.of_nat (12 * k))
                   (Z.of_nat (run_length (taps coll_params) 6 819 pulse t)) (run_charge (taps coll_params) 6 819 pulse t)] else [])
          (seq (12 * k) 12)) as G.
    { intros k Lk. destruct (H k Lk) as [_ Hk]. specialize (Hk i Li). cbv zeta in Hk. rewrite Hk. rewrite pulse_pedestal.
      apply flat_map_ext_in. intros t _. change (tap_exponent coll_params) with 6.
      rewrite (hit_ends_ext _ _ _ _ _ (pulse_stream (chan_of i))), (run_charge_ext _ _ _ _ _ (pulse_stream (chan_of i))),
        (run_length_ext _ _ _ _ _ (pulse_stream (chan_of i))). reflexivity. }
    clear H. generalize (chan_of i) G. clear G. intros ch G. cbn [map].
    pose proof (G 0%nat ltac:(lia)) as G0. pose proof (G 1%nat ltac:(lia)) as G1. pose proof (G 2%nat ltac:(lia)) as G2.
    pose proof (G 3%nat ltac:(lia)) as G3. cbn [nth] in G0, G1, G2, G3. rewrite G0, G1, G2, G3. vm_compute. reflexivity.
Qed.
(** The hypotheses of C47 hold at a fresh start for the first of these superchunks. *)
Example C47_vectorised_equals_scalar_ex : exists w cs, let mem := mem_at pulse_chunks 0 in
  is_bytes mem /\ (abs_time w < 8)%nat /\ length (regs w) = 6%nat /\ (forall r, (r < 6)%nat -> length (nth r (regs w) []) = 16%nat) /\
  length cs = 96%nat /\
  forall i, (i < 96)%nat -> same (lane w i) (nth i cs chan0) /\ chan_ok (nth i cs chan0) /\
     run_ok coll_params (abs_time w) (nth i cs chan0) (channel_samples (expand_collection mem) i).
Proof.
  assert (Forall (fun c => is_bytes (snd c)) pulse_chunks) as B.
  { unfold pulse_chunks, flat_chunks. cbn [length seq combine map fst snd]. repeat constructor; cbn [snd]; lia. }
  destruct (start_winv coll_params pulse_chunks B) as (W1 & W2 & W3 & W4).
  set (w := init_window (expand_collection (mem_at pulse_chunks 0))) in *. clearbody w.
  exists w, (map (fun i => scalar (lane w i)) (seq 0 96)).
  split; [apply mem_at_bytes, B|]. split; [rewrite W1; cbn; lia|]. split; [exact W2|]. split; [exact W3|].
  split; [rewrite map_length, seq_length; reflexivity|]. intros i Li.
  rewrite (nth_map_ex nat chan _ (seq 0 96) i 0%nat) by (rewrite seq_length; exact Li). rewrite seq_nth by exact Li. cbn [Nat.add].
  split; [apply same_scalar|]. specialize (W4 i Li).
  pose proof (fun t => pulse_ticks i t) as T.
  split.
  - apply (inv_chan_ok coll_params (ped_ pulse_chunks i) (S_ pulse_chunks i) coll_params_ok (ped_range pulse_chunks B i Li) (S_range pulse_chunks B i) 0); [exact W4|].
    cbn. lia.
  - rewrite W1.
    assert (channel_samples (expand_collection (mem_at pulse_chunks 0)) i = map (S_ pulse_chunks i) (seq 0 12)) as E.
    { unfold channel_samples. apply map_ext_in. intros k Ik. apply in_seq in Ik.
      destruct (C45_message (mem_at pulse_chunks 0) i k (mem_at_bytes pulse_chunks B 0) Li ltac:(lia)) as [M _]. rewrite M.
      destruct (chunk_at_k pulse_chunks B 0) as [_ C]. rewrite (proj1 (chan_of_index i Li)). rewrite C by lia.
      cbn [Nat.mul Nat.add]. pose proof (S_range pulse_chunks B i k). apply i16_id. unfold is_i16. lia. }
    rewrite E.
    apply (stretch_run_ok coll_params (ped_ pulse_chunks i) (S_ pulse_chunks i) coll_params_ok (ped_range pulse_chunks B i Li) (S_range pulse_chunks B i) 12 0 _ W4).
    intros k Lk. apply (T k). lia.
Qed.
Example C48_scalar_hits_ex :
  snd (naive_channel coll_params 0 0 (init_chan (819, 816, 822)) (map pulse (seq 0 48))) <> [] /\
  forallb (fun t => let f := filtered (taps coll_params) 6 819 pulse t in
                    (-32768 <=? f) && (f <=? 32767)) (seq 0 48) = true.
Proof. vm_compute. split; [discriminate|reflexivity]. Qed.
Example C61_filter_in_range_ex :
  (forall j, 0 <= nth j (taps coll_params) 0) /\
  fold_right Z.add 0 (map (fun j => nth j (taps coll_params) 0) (seq 0 7)) = 64 /\
  forallb (fun k => - (32768 / 2 ^ 6) <=? signal 6 819 pulse k) (seq 0 48) = true.
Proof.
  split; [|split; vm_compute; reflexivity].
  intros j. do 8 (destruct j; [cbn; lia|]). cbn. destruct j; lia.
Qed.
