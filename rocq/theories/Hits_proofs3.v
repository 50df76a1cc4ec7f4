(** Hit list and decoder; runs over superchunks. *)
From Coq Require Import ZArith Lia List Bool ZifyBool Arith.
From Verif Require Import Base_model Frugal_model Frugal_spec Frugal_proofs Expand_model Expand_spec Expand_proofs Expand_props
  Hits_model Hits_spec Hits_proofs Hits_proofs2.
Import ListNotations.
Open Scope Z_scope.

(** * Decoder *)
Definition group_shape (g : group) : Prop := length (snd (fst g)) = 16%nat /\ length (snd g) = 16%nat.
Definition group_wf (g : group) : Prop :=
  group_shape g /\ forall l, (l < 16)%nat -> 0 <= nth l (snd (fst g)) 0 <= 65535 /\
    (nth l (snd (fst g)) 0 <> 0 -> 0 <= fst (fst g) <= 65535 /\ 0 <= nth l (snd g) 0 <= 65535).
Definition group_prims (ts : Z) (r : nat) (g : group) : list prim :=
  flat_map (fun l => if nth l (snd (fst g)) 0 =? 0 then []
                     else [make_prim ts (16 * Z.of_nat r + Z.of_nat l) (fst (fst g)) (nth l (snd (fst g)) 0) (nth l (snd g) 0)])
           (seq 0 16).

Lemma u16_id : forall z, 0 <= z <= 65535 -> u16 z = z.
Proof. intros z H. unfold u16, two16. apply Z.mod_small. lia. Qed.

Lemma group_words_length : forall r g, group_shape g -> length (group_words r g) = 64%nat.
Proof.
  intros r [[t c] tv] [H1 H2]. cbn [fst snd] in *. unfold group_words.
  rewrite !app_length, !map_length, repeat_length, seq_length, H1, H2. reflexivity.
Qed.
Lemma group_words_nth : forall r t c tv l, length c = 16%nat -> length tv = 16%nat -> (l < 16)%nat -> forall rest,
  nth l (group_words r (t, c, tv) ++ rest) 0 = u16 (16 * Z.of_nat r + Z.of_nat l) /\
  nth (16 + l) (group_words r (t, c, tv) ++ rest) 0 = u16 t /\
  nth (32 + l) (group_words r (t, c, tv) ++ rest) 0 = u16 (nth l c 0) /\
  nth (48 + l) (group_words r (t, c, tv) ++ rest) 0 = u16 (nth l tv 0).
Proof.
  intros r t c tv l H1 H2 L rest. unfold group_words. rewrite <- !app_assoc.
  set (w1 := map _ (seq 0 16)). set (w2 := repeat (u16 t) 16). set (w3 := map u16 c). set (w4 := map u16 tv).
  assert (length w1 = 16%nat) as L1 by reflexivity. assert (length w2 = 16%nat) as L2 by reflexivity.
  assert (length w3 = 16%nat) as L3 by (unfold w3; rewrite map_length; exact H1).
  assert (length w4 = 16%nat) as L4 by (unfold w4; rewrite map_length; exact H2).
  split; [|split; [|split]].
  - rewrite app_nth1 by lia. unfold w1.
    rewrite (nth_map_ex nat Z _ (seq 0 16) l 0%nat) by (rewrite seq_length; lia). rewrite seq_nth by lia. reflexivity.
  - rewrite app_nth2 by lia. rewrite L1. replace (16 + l - 16)%nat with l by lia. rewrite app_nth1 by lia.
    unfold w2. rewrite (nth_indep _ 0 (u16 t)) by (rewrite repeat_length; lia). apply nth_repeat.
  - rewrite app_nth2 by lia. rewrite L1. rewrite app_nth2 by lia. rewrite L2. replace (32 + l - 16 - 16)%nat with l by lia.
    rewrite app_nth1 by lia. unfold w3. rewrite (nth_map_ex Z Z _ c l 0) by lia. reflexivity.
  - rewrite app_nth2 by lia. rewrite L1. rewrite app_nth2 by lia. rewrite L2. rewrite app_nth2 by lia. rewrite L3.
    replace (48 + l - 16 - 16 - 16)%nat with l by lia.
    rewrite app_nth1 by lia. unfold w4. rewrite (nth_map_ex Z Z _ tv l 0) by lia. reflexivity.
Qed.

Lemma flat_map_ext_in : forall (A B : Type) (f g : A -> list B) l, (forall x, In x l -> f x = g x) -> flat_map f l = flat_map g l.
Proof. intros A B f g l H. rewrite !flat_map_concat_map. f_equal. apply map_ext_in, H. Qed.

Lemma decode_groups : forall ts gl fuel, (length gl < fuel)%nat ->
  Forall (fun x => (fst x < 6)%nat /\ group_wf (snd x)) gl ->
  decode_hits fuel ts (flat_map (fun x => group_words (fst x) (snd x)) gl ++ repeat MAGIC 64)
  = Ok (flat_map (fun x => group_prims ts (fst x) (snd x)) gl).
Proof.
  intros ts gl. induction gl as [|[r g] gl IH]; intros fuel L F.
  - destruct fuel as [|fuel]; [lia|]. reflexivity.
  - destruct fuel as [|fuel]; [cbn in L; lia|].
    inversion F as [|? ? [R W] F']; subst. cbn [fst snd] in R, W.
    cbn [flat_map fst snd]. rewrite <- app_assoc.
    set (rest := flat_map _ gl ++ repeat MAGIC 64).
    destruct g as [[t c] tv]. destruct W as [[S1 S2] W]. cbn [fst snd] in S1, S2, W.
    pose proof (group_words_length r (t, c, tv) (conj S1 S2)) as GL.
    pose proof (fun l Hl => group_words_nth r t c tv l S1 S2 Hl rest) as GN.
    set (w := group_words r (t, c, tv) ++ rest) in *.
    assert (64 <= length w)%nat as LW by (unfold w; rewrite app_length, GL; lia).
    assert (skipn 64 w = rest) as SK.
    { unfold w. rewrite skipn_app, GL. rewrite (skipn_all2 (group_words r (t, c, tv))) by lia. reflexivity. }
    assert (flat_map (fun i =>
              if negb (nth (32 + i) w 0 =? 0) && negb (nth i w 0 =? MAGIC)
              then [make_prim ts (nth i w 0) (nth (16 + i) w 0) (nth (32 + i) w 0) (nth (48 + i) w 0)] else []) (seq 0 16)
            = group_prims ts r (t, c, tv)) as HD.
    { unfold group_prims. cbn [fst snd]. apply flat_map_ext_in. intros l Il. apply in_seq in Il.
      destruct (GN l ltac:(lia)) as (G1 & G2 & G3 & G4). rewrite G1, G2, G3, G4.
      destruct (W l ltac:(lia)) as [W1 W2]. rewrite (u16_id (16 * Z.of_nat r + Z.of_nat l)) by lia.
      rewrite (u16_id (nth l c 0)) by exact W1.
      destruct (nth l c 0 =? 0) eqn:Z0; [reflexivity|].
      destruct (W2 ltac:(lia)) as [W3 W4]. rewrite (u16_id t), (u16_id (nth l tv 0)) by lia.
      unfold MAGIC. replace (16 * Z.of_nat r + Z.of_nat l =? 65535) with false by lia. reflexivity. }
    cbn [decode_hits]. clearbody w. destruct w as [|x w']; [cbn in LW; lia|].
    destruct (GN 0%nat ltac:(lia)) as [G0 _]. cbn [nth] in G0.
    rewrite u16_id in G0 by lia. assert ((x =? MAGIC) = false) as XM by (unfold MAGIC; lia). rewrite XM.
    replace (length (x :: w') <? 64)%nat with false by (symmetry; apply Nat.ltb_ge; exact LW).
    rewrite SK. unfold rest. rewrite IH; [|cbn in L; lia|exact F']. cbn [bind].
    f_equal. f_equal. exact HD.
Qed.

(** * Shape of the hit list *)
Lemma mul_epi64_length : forall v k, length (mul_epi64 v k) = 16%nat.
Proof. intros. reflexivity. Qed.
Lemma register_shape : forall sss p abs itime lanes, length lanes = 16%nat -> Forall (fun ss => length ss = 16%nat) sss ->
  let '(lanes', gs) := avx2_register p abs itime lanes sss in
  length lanes' = 16%nat /\ Forall group_shape gs /\ (length gs <= length sss)%nat /\
  Forall (fun g => itime <= fst (fst g) < itime + Z.of_nat (length sss)) gs.
Proof.
  induction sss as [|ss sss IH]; intros p abs itime lanes L F; cbn [avx2_register].
  - cbn. auto.
  - inversion F as [|? ? F1 F2]; subst.
    assert (let '(l', g) := avx2_step p abs itime lanes ss in length l' = 16%nat /\ Forall group_shape g /\ (length g <= 1)%nat /\
            Forall (fun g => fst (fst g) = itime) g) as ST.
    { unfold avx2_step.
      set (front := map2 (lane_filter p abs) lanes ss).
      assert (length front = 16%nat) as LF by (unfold front; rewrite map2_length; lia).
      set (back := map2 _ (map (fun x => fst (fst x)) front) (combine (map snd front) (mul_epi64 (mul_epi64 _ _) _))).
      assert (length back = 16%nat) as LB.
      { unfold back. rewrite map2_length; rewrite !map_length; [exact LF|].
        rewrite combine_length, mul_epi64_length, map_length, LF. reflexivity. }
      destruct (existsb _ back).
      - rewrite map_length. split; [exact LB|]. split; [|split; [cbn; lia|repeat constructor]].
        constructor; [|constructor]. split; cbn [fst snd]; rewrite map_length; exact LB.
      - rewrite map_length. split; [exact LB|]. split; [constructor|]. split; [cbn; lia|constructor]. }
    destruct (avx2_step p abs itime lanes ss) as [l1 g1]. destruct ST as (ST1 & ST2 & ST3 & ST4).
    specialize (IH p ((abs + 1) mod 8)%nat (itime + 1) l1 ST1 F2).
    destruct (avx2_register p ((abs + 1) mod 8) (itime + 1) l1 sss) as [l2 g2]. destruct IH as (I1 & I2 & I3 & I4).
    split; [exact I1|]. split; [apply Forall_app; auto|]. split; [rewrite app_length; cbn [length]; lia|].
    apply Forall_app. split.
    + eapply Forall_impl; [|exact ST4]. cbn beta. cbn [length]. lia.
    + eapply Forall_impl; [|exact I4]. cbn beta. cbn [length]. lia.
Qed.

(** * One window *)
Definition chan_of (i : nat) : Z := nth i collection_index_to_chan 0.

Lemma chan_of_index : forall i, (i < 96)%nat -> collection_index_to_channel (Z.of_nat i) = chan_of i /\ 0 <= chan_of i < 256.
Proof.
  intros i L. split.
  - unfold collection_index_to_channel. apply table_lookup_in; [exact L|reflexivity].
  - apply nth_in_range; [reflexivity|exact L].
Qed.
Lemma chan_of_inj : forall i j, (i < 96)%nat -> (j < 96)%nat -> chan_of i = chan_of j -> i = j.
Proof.
  intros i j Li Lj E.
  assert (NoDup collection_index_to_chan) as N.
  { assert (forallb (fun x => (count_occ Z.eq_dec collection_index_to_chan x <=? 1)%nat) collection_index_to_chan = true) as C
      by (vm_compute; reflexivity).
    apply (NoDup_count_occ Z.eq_dec). intros x.
    destruct (in_dec Z.eq_dec x collection_index_to_chan) as [I|I].
    - rewrite forallb_forall in C. specialize (C x I). apply Nat.leb_le in C. exact C.
    - apply (count_occ_not_In Z.eq_dec) in I. rewrite I. lia. }
  apply (proj1 (NoDup_nth collection_index_to_chan 0) N i j Li Lj E).
Qed.

(** The scalar state a lane stands for. *)
Definition scalar (a : chan) : chan := mkChan (trk a) (prev a) (- was_over a) (charge a) (tover a).
Lemma same_scalar : forall a, same a (scalar a).
Proof. intros []. unfold same, scalar. cbn. rewrite Z.opp_involutive. reflexivity. Qed.
Lemma same_inj : forall a n, same a n -> n = scalar a.
Proof. intros a []. unfold same, scalar. cbn. intros ->. cbn. rewrite Z.opp_involutive. reflexivity. Qed.

(** Primitives of a window: those of channel i are its visible hits. *)
Lemma filter_flat_map : forall (A B : Type) (f : B -> bool) (g : A -> list B) l,
  filter f (flat_map g l) = flat_map (fun x => filter f (g x)) l.
Proof. intros A B f g l. induction l as [|x l IH]; cbn; [reflexivity|]. rewrite filter_app, IH. reflexivity. Qed.
Lemma flat_map_one : forall (B : Type) (f : nat -> list B) n a k, (a <= k < a + n)%nat -> (forall j, (a <= j < a + n)%nat -> j <> k -> f j = []) ->
  flat_map f (seq a n) = f k.
Proof.
  intros B f n. induction n as [|n IH]; intros a k L Z; [lia|]. cbn [seq flat_map].
  destruct (Nat.eq_dec a k) as [->|N].
  - replace (flat_map f (seq (S k) n)) with (@nil B); [apply app_nil_r|].
    symmetry. assert (forall j, In j (seq (S k) n) -> f j = []) as E by (intros j I; apply in_seq in I; apply Z; lia).
    revert E. generalize (seq (S k) n). intros l E. induction l as [|x l IH2]; [reflexivity|].
    cbn. rewrite (E x) by (left; reflexivity). apply IH2. intros j I. apply E. right. exact I.
  - rewrite (Z a) by lia. cbn [app]. apply IH; [lia|]. intros j Lj Nj. apply Z; lia.
Qed.
Lemma flat_map_nil : forall (A B : Type) (f : A -> list B) l, (forall x, In x l -> f x = []) -> flat_map f l = [].
Proof. intros A B f l E. induction l as [|x l IH]; [reflexivity|]. cbn. rewrite (E x) by (left; reflexivity). apply IH. intros y I. apply E. right. exact I. Qed.

Lemma make_prim_channel : forall ts r l e c tv, (r < 6)%nat -> (l < 16)%nat ->
  channel (make_prim ts (16 * Z.of_nat r + Z.of_nat l) e c tv) = chan_of (16 * r + l).
Proof.
  intros. unfold make_prim. cbn [channel]. replace (16 * Z.of_nat r + Z.of_nat l) with (Z.of_nat (16 * r + l)) by lia.
  destruct (chan_of_index (16 * r + l) ltac:(lia)) as [-> B]. apply u16_id. lia.
Qed.
Lemma group_prims_channel : forall ts r g i, (r < 6)%nat -> (i < 96)%nat ->
  filter (fun q => channel q =? chan_of i) (group_prims ts r g)
  = if (r =? i / 16)%nat then map (fun h => make_prim ts (Z.of_nat i) (fst (fst h)) (snd (fst h)) (snd h)) (lane_hits (i mod 16) [g]) else [].
Proof.
  intros ts r g i Lr Li. unfold group_prims. rewrite filter_flat_map.
  assert (i = 16 * (i / 16) + i mod 16)%nat as EI by (apply Nat.div_mod; lia).
  assert (i mod 16 < 16)%nat as M by (apply Nat.mod_upper_bound; lia).
  assert (forall l, (l < 16)%nat -> filter (fun q => channel q =? chan_of i)
            (if nth l (snd (fst g)) 0 =? 0 then []
             else [make_prim ts (16 * Z.of_nat r + Z.of_nat l) (fst (fst g)) (nth l (snd (fst g)) 0) (nth l (snd g) 0)])
          = if (16 * r + l =? i)%nat then
             (if nth l (snd (fst g)) 0 =? 0 then []
             else [make_prim ts (Z.of_nat i) (fst (fst g)) (nth l (snd (fst g)) 0) (nth l (snd g) 0)]) else []) as E.
  { intros l Ll. destruct (nth l (snd (fst g)) 0 =? 0); [destruct (16 * r + l =? i)%nat; reflexivity|].
    cbn [filter]. rewrite make_prim_channel by assumption. destruct (16 * r + l =? i)%nat eqn:EQ.
    - apply Nat.eqb_eq in EQ. rewrite EQ, Z.eqb_refl. repeat f_equal. lia.
    - apply Nat.eqb_neq in EQ. replace (chan_of (16 * r + l) =? chan_of i) with false; [reflexivity|].
      symmetry. apply Z.eqb_neq. intros X. apply EQ. apply chan_of_inj; [lia|exact Li|exact X]. }
  destruct (r =? i / 16)%nat eqn:ER.
  - apply Nat.eqb_eq in ER. rewrite (flat_map_one _ _ 16 0 (i mod 16)); [|lia|].
    + rewrite E by exact M. replace (16 * r + i mod 16 =? i)%nat with true by (symmetry; apply Nat.eqb_eq; lia).
      unfold lane_hits. cbn [flat_map]. rewrite app_nil_r. destruct (nth (i mod 16) (snd (fst g)) 0 =? 0); reflexivity.
    + intros l Ll N. rewrite E by lia. replace (16 * r + l =? i)%nat with false by (symmetry; apply Nat.eqb_neq; lia). reflexivity.
  - apply Nat.eqb_neq in ER. apply flat_map_nil. intros l Il. apply in_seq in Il. rewrite E by lia.
    replace (16 * r + l =? i)%nat with false by (symmetry; apply Nat.eqb_neq; lia). reflexivity.
Qed.

Definition all_known (tps : list prim) : Prop := forall q, In q tps -> exists i, (i < 96)%nat /\ channel q = chan_of i.

(** Decoding the output of six registers whose lanes carry the hits [hs]. *)
Lemma decode_window : forall (reg : nat -> list chan * list group) (hs : nat -> list hit) ts,
  (forall r, (r < 6)%nat -> Forall group_wf (snd (reg r)) /\ (length (snd (reg r)) <= 12)%nat /\
     forall l, (l < 16)%nat -> lane_hits l (snd (reg r)) = filter visible (hs (16 * r + l)%nat)) ->
  let out := concat (map (fun x => flat_map (group_words (fst x)) (snd (snd x))) (combine (seq 0 6) (map reg (seq 0 6)))) ++ repeat MAGIC 64 in
  (length out <= 4672)%nat /\
  exists tps, decode_hits (length out) ts out = Ok tps /\ all_known tps /\
    forall i, (i < 96)%nat -> filter (fun q => channel q =? chan_of i) tps
      = map (fun h => make_prim ts (Z.of_nat i) (fst (fst h)) (snd (fst h)) (snd h)) (filter visible (hs i)).
Proof.
  intros reg hs ts RW' out. subst out.
  set (gl := flat_map (fun r => map (fun g => (r, g)) (snd (reg r))) (seq 0 6)).
  assert (concat (map (fun x => flat_map (group_words (fst x)) (snd (snd x))) (combine (seq 0 6) (map reg (seq 0 6))))
          = flat_map (fun x => group_words (fst x) (snd x)) gl) as OUT.
  { unfold gl. generalize (seq 0 6). intros l. induction l as [|r l IH]; [reflexivity|].
    cbn [map combine concat fst snd]. rewrite IH. cbn [flat_map]. rewrite flat_map_app. f_equal.
    generalize (snd (reg r)). intros gs. induction gs as [|g gs IHg]; [reflexivity|]. cbn. rewrite IHg. reflexivity. }
  rewrite OUT. clear OUT.
  assert (Forall (fun x => (fst x < 6)%nat /\ group_wf (snd x)) gl) as WF.
  { apply Forall_forall. intros [r g] I. unfold gl in I. apply in_flat_map in I. destruct I as (r' & I1 & I2).
    apply in_map_iff in I2. destruct I2 as (g' & E & I2). injection E as -> ->. apply in_seq in I1. cbn [fst snd].
    split; [lia|]. destruct (RW' r ltac:(lia)) as (F & _). rewrite Forall_forall in F. apply F, I2. }
  assert (length gl <= 72)%nat as LG.
  { assert (forall n a, (a + n <= 6)%nat -> (length (flat_map (fun r => map (fun g => (r, g)) (snd (reg r))) (seq a n)) <= 12 * n)%nat) as G.
    { induction n as [|n IH]; intros a La; [cbn; lia|]. cbn [seq flat_map]. rewrite app_length, map_length.
      specialize (IH (S a) ltac:(lia)). destruct (RW' a ltac:(lia)) as (_ & L & _). lia. }
    specialize (G 6%nat 0%nat ltac:(lia)). exact G. }
  assert (length (flat_map (fun x => group_words (fst x) (snd x)) gl) = 64 * length gl)%nat as LW.
  { clear LG. induction WF as [|[r g] l' [A B] WF IH]; [reflexivity|]. cbn [flat_map length fst snd].
    rewrite app_length, group_words_length, IH by apply B. lia. }
  split.
  - rewrite app_length, repeat_length, LW. lia.
  - exists (flat_map (fun x => group_prims ts (fst x) (snd x)) gl). split; [|split].
    + apply decode_groups; [|exact WF]. rewrite app_length, repeat_length, LW. lia.
    + intros q I. apply in_flat_map in I. destruct I as ([r g] & I1 & I2). cbn [fst snd] in I2.
      rewrite Forall_forall in WF. destruct (WF _ I1) as [Lr _]. cbn [fst] in Lr.
      unfold group_prims in I2. apply in_flat_map in I2. destruct I2 as (l & I3 & I4). apply in_seq in I3.
      destruct (nth l (snd (fst g)) 0 =? 0); [destruct I4|]. destruct I4 as [<-|[]].
      exists (16 * r + l)%nat. split; [lia|]. apply make_prim_channel; lia.
    + intros i Li. rewrite filter_flat_map. unfold gl.
      assert (i / 16 < 6)%nat as D by (apply Nat.div_lt_upper_bound; lia).
      assert (i mod 16 < 16)%nat as M by (apply Nat.mod_upper_bound; lia).
      destruct (RW' (i / 16)%nat D) as (_ & _ & R). pose proof (R (i mod 16)%nat M) as R2.
      replace (16 * (i / 16) + i mod 16)%nat with i in R2 by (apply Nat.div_mod; lia). rewrite <- R2.
      assert (forall r, (r < 6)%nat -> forall gs, flat_map (fun x : nat * group => filter (fun q => channel q =? chan_of i) (group_prims ts (fst x) (snd x)))
                (map (fun g => (r, g)) gs)
              = if (r =? i / 16)%nat then map (fun h => make_prim ts (Z.of_nat i) (fst (fst h)) (snd (fst h)) (snd h)) (lane_hits (i mod 16) gs) else []) as G.
      { intros r Lr gs. induction gs as [|g gs IH]; [destruct (r =? i / 16)%nat; reflexivity|].
        cbn [map flat_map fst snd]. rewrite IH. rewrite group_prims_channel by assumption.
        destruct (r =? i / 16)%nat; [|reflexivity]. rewrite <- map_app. f_equal.
        rewrite <- lane_hits_app. reflexivity. }
      assert (forall l, (forall r, In r l -> (r < 6)%nat) ->
              flat_map (fun x : nat * group => filter (fun q => channel q =? chan_of i) (group_prims ts (fst x) (snd x)))
                (flat_map (fun r => map (fun g => (r, g)) (snd (reg r))) l)
              = flat_map (fun r => if (r =? i / 16)%nat then map (fun h => make_prim ts (Z.of_nat i) (fst (fst h)) (snd (fst h)) (snd h)) (lane_hits (i mod 16) (snd (reg r))) else []) l) as GG.
      { intros l. induction l as [|r l IH]; intros Hl; [reflexivity|]. cbn [flat_map]. rewrite flat_map_app.
        rewrite G by (apply Hl; left; reflexivity). rewrite IH by (intros x Ix; apply Hl; right; exact Ix). reflexivity. }
      rewrite GG by (intros r I; apply in_seq in I; lia).
      rewrite (flat_map_one _ _ 6 0 (i / 16)); [rewrite Nat.eqb_refl; reflexivity|lia|].
      intros j Lj Nj. apply Nat.eqb_neq in Nj. rewrite Nj. reflexivity.
Qed.

Section Run.
Variable p : params.
Hypothesis P : params_ok p.
Variable ped : nat -> Z.
Variable S : nat -> nat -> Z.
Hypothesis Hped : forall i, (i < 96)%nat -> 0 <= ped i < 4096.
Hypothesis HS : forall i t, 0 <= S i t < 4096.

(** Conditions on channel i at tick t: the filter fits 16 bits, the threshold as well or does not matter, the run is short
    enough. *)
Definition tick_ok (i t : nat) : Prop :=
  is_i16 (filtered (taps p) (tap_exponent p) (ped i) (S i) t) /\
  Z.of_nat (run_length (taps p) (tap_exponent p) (ped i) (S i) t) < 32767 /\
  (width (est (ped i) (S i) (Datatypes.S t)) <= sigma_max p \/
   filtered (taps p) (tap_exponent p) (ped i) (S i) t <= 5 * sigma_max p * 2 ^ tap_exponent p).

Definition lane (w : window_state) (i : nat) : chan := nth (i mod 16) (nth (i / 16) (regs w) []) chan0.
Definition winv (t : nat) (w : window_state) : Prop :=
  abs_time w = (t mod 8)%nat /\ length (regs w) = 6%nat /\ (forall r, (r < 6)%nat -> length (nth r (regs w) []) = 16%nat) /\
  forall i, (i < 96)%nat -> inv p (ped i) (S i) t (scalar (lane w i)).
Definition H (i t n : nat) : list hit := spec_hits p (ped i) (S i) t n 0.

Lemma hits_bounds : forall i t n h, (i < 96)%nat -> (n <= 100)%nat -> (forall k, (k < n)%nat -> tick_ok i (t + k)) ->
  In h (H i t n) -> 0 <= fst (fst h) < Z.of_nat n /\ 0 <= snd (fst h) <= 32767 /\ 0 <= snd h <= 32767.
Proof.
  intros i t n h Li Ln K I. unfold H, spec_hits in I. apply in_flat_map in I. destruct I as (k & I1 & I2).
  apply in_seq in I1. destruct (hit_ends _ _ _ _ k); [|destruct I2]. destruct I2 as [<-|[]]. cbn [fst snd].
  pose proof (charge_bounds p (ped i) (S i) P (Hped i Li) (HS i) k).
  destruct (K (k - t)%nat ltac:(lia)) as (_ & K2 & _). replace (t + (k - t))%nat with k in K2 by lia. lia.
Qed.

(** Samples of register r of an expanded superchunk whose samples are those of ticks t .. t + 11. *)
Definition chunk_at (mem : memory) (t : nat) : Prop :=
  is_bytes mem /\ forall i k, (i < 96)%nat -> (k < 12)%nat -> wib_adc mem (464 * k) (Z.to_nat (chan_of i)) = S i (t + k)%nat.

Lemma register_samples_lane : forall mem t r l, chunk_at mem t -> (r < 6)%nat -> (l < 16)%nat ->
  map (fun ss => nth l ss 0) (register_samples (expand_collection mem) r) = map (S (16 * r + l)) (seq t 12).
Proof.
  intros mem t r l [B C] Lr Ll. unfold register_samples. rewrite map_map.
  apply (nth_ext _ _ 0 0); [rewrite !map_length, !seq_length; reflexivity|].
  rewrite map_length, seq_length. intros k Lk.
  rewrite (nth_map_ex nat Z _ (seq 0 12) k 0%nat) by (rewrite seq_length; exact Lk).
  rewrite (nth_map_ex nat Z _ (seq t 12) k 0%nat) by (rewrite seq_length; exact Lk).
  rewrite !seq_nth by exact Lk. cbn [Nat.add]. unfold lanes_of.
  rewrite (nth_map_ex nat Z _ (seq 0 16) l 0%nat) by (rewrite seq_length; exact Ll). rewrite seq_nth by exact Ll. cbn [Nat.add].
  destruct (C45_message mem (16 * r + l) k B ltac:(lia) Lk) as [_ M].
  replace ((16 * r + l) mod 16)%nat with l in M by (apply (Nat.mod_unique _ 16 r); lia).
  replace ((16 * r + l) / 16)%nat with r in M by (apply (Nat.div_unique _ 16 _ l); lia).
  rewrite M. rewrite (proj1 (chan_of_index (16 * r + l) ltac:(lia))). rewrite C by lia.
  specialize (HS (16 * r + l) (t + k)). apply i16_id. unfold is_i16. lia.
Qed.
Lemma register_samples_shape : forall mem t r, chunk_at mem t -> (r < 6)%nat ->
  Forall (fun ss => length ss = 16%nat /\ Forall (fun s => 0 <= s < 4096) ss) (register_samples (expand_collection mem) r).
Proof.
  intros mem t r C Lr. pose proof (fun l => register_samples_lane mem t r l C Lr) as RL.
  apply (Forall_from_nth _ _ _ []). intros k Lk.
  assert (length (register_samples (expand_collection mem) r) = 12%nat) as L12
    by (unfold register_samples; rewrite map_length, seq_length; reflexivity).
  assert (length (nth k (register_samples (expand_collection mem) r) []) = 16%nat) as L16.
  { unfold register_samples. rewrite L12 in Lk.
    rewrite (nth_map_ex nat (list Z) _ (seq 0 12) k 0%nat) by (rewrite seq_length; exact Lk).
    unfold lanes_of. rewrite map_length, seq_length. reflexivity. }
  split; [exact L16|]. apply (Forall_from_nth _ _ _ 0). rewrite L16. intros l Ll.
  specialize (RL l Ll). apply (f_equal (fun x => nth k x 0)) in RL.
  rewrite (nth_map_ex (list Z) Z _ _ k []) in RL by exact Lk. rewrite RL.
  rewrite (nth_map_ex nat Z _ (seq t 12) k 0%nat) by (rewrite seq_length; lia). apply HS.
Qed.

(** One register over the superchunk. *)
Lemma register_window : forall w mem t r, winv t w -> chunk_at mem t -> (r < 6)%nat ->
  (forall i k, (i < 96)%nat -> (k < 12)%nat -> tick_ok i (t + k)) ->
  let '(lanes', gs) := avx2_register p (abs_time w) 0 (nth r (regs w) []) (register_samples (expand_collection mem) r) in
  length lanes' = 16%nat /\ Forall group_wf gs /\ (length gs <= 12)%nat /\
  forall l, (l < 16)%nat -> inv p (ped (16 * r + l)) (S (16 * r + l)) (t + 12) (scalar (nth l lanes' chan0)) /\
                            lane_hits l gs = filter visible (H (16 * r + l) t 12).
Proof.
  intros w mem t r (W1 & W2 & W3 & W4) C Lr K.
  set (lanes := nth r (regs w) []). set (sss := register_samples (expand_collection mem) r).
  pose proof (W3 r Lr) as LL. fold lanes in LL.
  assert (forall l, (l < 16)%nat -> nth l (map scalar lanes) chan0 = scalar (lane w (16 * r + l))) as NL.
  { intros l Ll. rewrite (nth_map_ex chan chan scalar lanes l chan0) by lia. unfold lane.
    replace ((16 * r + l) mod 16)%nat with l by (apply (Nat.mod_unique _ 16 r); lia).
    replace ((16 * r + l) / 16)%nat with r by (apply (Nat.div_unique _ 16 _ l); lia). reflexivity. }
  assert (forall l, (l < 16)%nat -> inv p (ped (16 * r + l)) (S (16 * r + l)) t (nth l (map scalar lanes) chan0)) as IL.
  { intros l Ll. rewrite NL by exact Ll. apply W4. lia. }
  assert (forall l, (l < 16)%nat -> map (fun ss => nth l ss 0) sss = map (S (16 * r + l)) (seq t 12)) as SL.
  { intros l Ll. apply (register_samples_lane mem t r l C Lr Ll). }
  assert (forall l k, (l < 16)%nat -> (t <= k < t + 12)%nat -> tick_ok (16 * r + l) k) as KL.
  { intros l k Ll Lk. replace k with (t + (k - t))%nat by lia. apply K; lia. }
  pose proof (register_agrees sss p (abs_time w) 0 lanes (map scalar lanes)) as RA.
  assert (abs_time w < 8)%nat as AB by (rewrite W1; apply Nat.mod_upper_bound; lia).
  assert (Forall2 same lanes (map scalar lanes)) as F2.
  { clear. induction lanes; cbn; constructor; [apply same_scalar|assumption]. }
  assert (Forall chan_ok (map scalar lanes)) as FO.
  { apply (Forall_from_nth _ _ _ chan0). rewrite map_length, LL. intros l Ll.
    apply (inv_chan_ok p (ped (16 * r + l)) (S (16 * r + l)) P (Hped (16 * r + l) ltac:(lia)) (HS _) t); [apply IL, Ll|].
    destruct (KL l t Ll ltac:(lia)) as (_ & K2 & _). lia. }
  pose proof (register_samples_shape mem t r C Lr) as SS.
  specialize (RA AB P LL F2 FO SS).
  assert (forall l, (l < 16)%nat -> run_ok p (abs_time w) (nth l (map scalar lanes) chan0) (map (fun ss => nth l ss 0) sss)) as RO.
  { intros l Ll. rewrite SL by exact Ll. rewrite W1.
    apply (stretch_run_ok p (ped (16 * r + l)) (S (16 * r + l)) P (Hped (16 * r + l) ltac:(lia)) (HS _)); [apply IL, Ll|].
    intros k Lk. apply (KL l k Ll Lk). }
  specialize (RA RO).
  pose proof (register_shape sss p (abs_time w) 0 lanes LL) as RS.
  assert (Forall (fun ss : list Z => length ss = 16%nat) sss) as SS' by (eapply Forall_impl; [|exact SS]; cbn beta; tauto).
  specialize (RS SS').
  assert (length sss = 12%nat) as L12 by (unfold sss, register_samples; rewrite map_length, seq_length; reflexivity).
  destruct (avx2_register p (abs_time w) 0 lanes sss) as [lanes' gs].
  destruct RA as [RA1 RA2]. destruct RS as (_ & RS2 & RS3 & RS4).
  assert (forall l, (l < 16)%nat -> inv p (ped (16 * r + l)) (S (16 * r + l)) (t + 12) (scalar (nth l lanes' chan0)) /\
                            lane_hits l gs = filter visible (H (16 * r + l) t 12)) as LAST.
  { intros l Ll. specialize (RA2 l Ll). rewrite SL in RA2 by exact Ll. rewrite W1 in RA2.
    pose proof (naive_stretch p (ped (16 * r + l)) (S (16 * r + l)) P (Hped (16 * r + l) ltac:(lia)) (HS _) 12 t 0
                  (nth l (map scalar lanes) chan0) (IL l Ll)) as NS.
    specialize (NS ltac:(intros k Lk; destruct (KL l k Ll Lk) as (K1 & K2 & _); auto)).
    destruct (naive_channel p (t mod 8) 0 (nth l (map scalar lanes) chan0) (map (S (16 * r + l)) (seq t 12))) as [n' hs].
    destruct RA2 as (A1 & A2 & A3). destruct NS as [N1 ->]. apply same_inj in A1. rewrite <- A1. split; [exact N1|exact A3]. }
  split; [exact RA1|]. split; [|split; [lia|exact LAST]].
  rewrite Forall_forall in RS2, RS4. apply Forall_forall. intros g Ig.
  specialize (RS2 g Ig). specialize (RS4 g Ig). cbn beta in RS4. split; [exact RS2|]. intros l Ll.
  destruct (Z.eq_dec (nth l (snd (fst g)) 0) 0) as [E|N].
  - split; [lia|]. intros N. contradiction.
  - assert (In (fst (fst g), nth l (snd (fst g)) 0, nth l (snd g) 0) (lane_hits l gs)) as IH.
    { unfold lane_hits. apply in_flat_map. exists g. split; [exact Ig|].
      apply Z.eqb_neq in N. rewrite N. left. reflexivity. }
    destruct (LAST l Ll) as [_ LH]. rewrite LH in IH. apply filter_In in IH. destruct IH as [IH _].
    apply (hits_bounds (16 * r + l) t 12) in IH; [|lia|lia|intros k Lk; apply K; lia].
    cbn [fst snd] in IH. lia.
Qed.

(** Process a superchunk and decode. *)
Lemma window_prims : forall w mem t ts, winv t w -> chunk_at mem t ->
  (forall i k, (i < 96)%nat -> (k < 12)%nat -> tick_ok i (t + k)) ->
  let '(w', out) := process_window_avx2 p w (expand_collection mem) in
  winv (t + 12) w' /\ (length out <= 4672)%nat /\
  exists tps, decode_hits (length out) ts out = Ok tps /\ all_known tps /\
    forall i, (i < 96)%nat -> filter (fun q => channel q =? chan_of i) tps
      = map (fun h => make_prim ts (Z.of_nat i) (fst (fst h)) (snd (fst h)) (snd h)) (filter visible (H i t 12)).
Proof.
  intros w mem t ts W C K. pose proof (fun r Lr => register_window w mem t r W C Lr K) as RW.
  unfold process_window_avx2.
  set (reg := fun r => avx2_register p (abs_time w) 0 (nth r (regs w) []) (register_samples (expand_collection mem) r)) in *.
  assert (forall r, (r < 6)%nat -> length (fst (reg r)) = 16%nat /\ Forall group_wf (snd (reg r)) /\ (length (snd (reg r)) <= 12)%nat /\
    forall l, (l < 16)%nat -> inv p (ped (16 * r + l)) (S (16 * r + l)) (t + 12) (scalar (nth l (fst (reg r)) chan0)) /\
                            lane_hits l (snd (reg r)) = filter visible (H (16 * r + l) t 12)) as RW'.
  { intros r Lr. specialize (RW r Lr). fold (reg r) in RW. destruct (reg r). exact RW. }
  clear RW. change (map (fun ireg => avx2_register p (abs_time w) 0 (nth ireg (regs w) []) (register_samples (expand_collection mem) ireg)) (seq 0 6))
    with (map reg (seq 0 6)).
  split.
  - destruct W as (W1 & W2 & W3 & W4). unfold winv. cbn [abs_time regs].
    split; [rewrite W1, Nat.add_mod_idemp_l by lia; reflexivity|]. split; [rewrite !map_length, seq_length; reflexivity|].
    assert (forall r, (r < 6)%nat -> nth r (map fst (map reg (seq 0 6))) [] = fst (reg r)) as NR.
    { intros r Lr. rewrite map_map. rewrite (nth_map_ex nat (list chan) _ (seq 0 6) r 0%nat) by (rewrite seq_length; exact Lr).
      rewrite seq_nth by exact Lr. reflexivity. }
    split.
    + intros r Lr. rewrite NR by exact Lr. apply RW', Lr.
    + intros i Li. assert (i / 16 < 6)%nat as D by (apply Nat.div_lt_upper_bound; lia).
      assert (i mod 16 < 16)%nat as M by (apply Nat.mod_upper_bound; lia).
      unfold lane. cbn [regs]. rewrite NR by exact D. destruct (RW' (i / 16)%nat D) as (_ & _ & _ & R).
      destruct (R (i mod 16)%nat M) as [R1 _]. replace (16 * (i / 16) + i mod 16)%nat with i in R1 by (apply Nat.div_mod; lia).
      exact R1.
  - apply decode_window. intros r Lr. destruct (RW' r Lr) as (_ & R1 & R2 & R3). split; [exact R1|]. split; [exact R2|].
    intros l Ll. apply R3, Ll.
Qed.
End Run.

(** * A run over superchunks *)
Definition zero_mem : memory := fun _ => 0.
Definition mem_at (chunks : list (Z * memory)) (k : nat) : memory := snd (nth k chunks (0, zero_mem)).
Definition ts_at (chunks : list (Z * memory)) (k : nat) : Z := fst (nth k chunks (0, zero_mem)).
(** Sample t of channel ch, start pedestal of entry i of the channel map. *)
Definition stream (chunks : list (Z * memory)) (ch : Z) (t : nat) : Z := wib_adc (mem_at chunks (t / 12)) (464 * (t mod 12)) (Z.to_nat ch).
Definition start_pedestal (chunks : list (Z * memory)) (i : nat) : Z :=
  wib_adc (mem_at chunks 0) (464 * (i / 16)) (Z.to_nat (chan_of (i mod 16))).

Definition prim_tuple (q : prim) : primitive :=
  (time_start q, time_peak q, time_over_threshold q, channel q, adc_integral q, adc_peak q).

Lemma make_prim_tuple : forall ts i e c tv, (i < 96)%nat ->
  prim_tuple (make_prim ts (Z.of_nat i) e c tv) = expected_primitive ts (chan_of i) e tv c.
Proof.
  intros ts i e c tv L. unfold prim_tuple, make_prim, expected_primitive.
  cbn [time_start time_peak time_over_threshold channel adc_integral adc_peak].
  destruct (chan_of_index i L) as [-> B]. rewrite u16_id by lia. unfold u64.
  change (2 ^ 64) with two64. rewrite (Zplus_mod_idemp_r (25 * (e - tv)) ts two64), (Zplus_mod_idemp_r (25 * e) ts two64).
  rewrite (Z.mul_comm tv 25). reflexivity.
Qed.

Section Whole.
Variable p : params.
Hypothesis P : params_ok p.
Variable chunks : list (Z * memory).
Hypothesis B : Forall (fun c => is_bytes (snd c)) chunks.

Lemma mem_at_bytes : forall k, is_bytes (mem_at chunks k).
Proof.
  intros k. unfold mem_at. destruct (Nat.lt_ge_cases k (length chunks)) as [L|L].
  - rewrite Forall_forall in B. apply B, nth_In, L.
  - rewrite nth_overflow by exact L. intros x. cbn [snd]. unfold zero_mem. lia.
Qed.

Definition S_ (i t : nat) : Z := stream chunks (chan_of i) t.
Definition ped_ (i : nat) : Z := start_pedestal chunks i.
Lemma S_range : forall i t, 0 <= S_ i t < 4096.
Proof. intros. apply wib_adc_range, mem_at_bytes. Qed.
Lemma ped_range : forall i, (i < 96)%nat -> 0 <= ped_ i < 4096.
Proof. intros. apply wib_adc_range, mem_at_bytes. Qed.
Lemma chunk_at_k : forall k, chunk_at S_ (mem_at chunks k) (12 * k).
Proof.
  intros k. split; [apply mem_at_bytes|]. intros i j Li Lj. unfold S_, stream.
  replace ((12 * k + j) / 12)%nat with k by (apply (Nat.div_unique _ 12 _ j); lia).
  replace ((12 * k + j) mod 12)%nat with j by (apply (Nat.mod_unique _ 12 k); lia). reflexivity.
Qed.

Lemma start_winv : winv p ped_ S_ 0 (init_window (expand_collection (mem_at chunks 0))).
Proof.
  unfold winv, init_window. cbn [abs_time regs].
  set (cs := map init_chan (set_state (expand_collection (mem_at chunks 0)))).
  assert (length cs = 96%nat) as LC by (unfold cs, set_state; rewrite !map_length, seq_length; reflexivity).
  assert (forall r, (r < 6)%nat -> nth r (map (fun r => firstn 16 (skipn (16 * r) cs)) (seq 0 6)) [] = firstn 16 (skipn (16 * r) cs)) as NR.
  { intros r Lr. rewrite (nth_map_ex nat (list chan) _ (seq 0 6) r 0%nat) by (rewrite seq_length; exact Lr).
    rewrite seq_nth by exact Lr. reflexivity. }
  split; [reflexivity|]. split; [rewrite map_length, seq_length; reflexivity|]. split.
  - intros r Lr. rewrite NR by exact Lr. rewrite firstn_length, skipn_length, LC. lia.
  - intros i Li. assert (i / 16 < 6)%nat as D by (apply Nat.div_lt_upper_bound; lia).
    assert (i mod 16 < 16)%nat as M by (apply Nat.mod_upper_bound; lia).
    unfold lane. cbn [regs]. rewrite NR by exact D.
    assert (nth (i mod 16) (firstn 16 (skipn (16 * (i / 16)) cs)) chan0 = nth i cs chan0) as E.
    { assert (forall (l : list chan) a n m, (m < n)%nat -> nth m (firstn n (skipn a l)) chan0 = nth (a + m) l chan0) as G.
      { clear. intros l a. revert l. induction a as [|a IH]; intros l n m L.
        - cbn [skipn Nat.add]. revert n m L. induction l as [|x l IH]; intros n m L; [rewrite firstn_nil; destruct m; reflexivity|].
          destruct n as [|n]; [lia|]. destruct m as [|m]; [reflexivity|]. cbn [firstn nth]. apply IH. lia.
        - destruct l as [|x l]; [cbn [skipn]; rewrite firstn_nil; destruct m; reflexivity|]. cbn [skipn Nat.add nth]. apply IH, L. }
      rewrite G by exact M. f_equal. symmetry. apply Nat.div_mod. lia. }
    rewrite E. unfold cs. rewrite (nth_map_ex _ _ init_chan _ i (0, 0, 0)).
    2:{ unfold set_state. rewrite map_length, seq_length. exact Li. }
    pose proof (C49_pedestal_source (mem_at chunks 0) i (mem_at_bytes 0) Li) as PS. cbv zeta in PS. rewrite PS.
    rewrite (proj1 (chan_of_index (i mod 16) ltac:(lia))).
    fold (start_pedestal chunks i). fold (ped_ i).
    pose proof (inv_start p (ped_ i) (S_ i)) as I. exact I.
Qed.

Lemma tpg_stretch : forall n k w,
  (k + n = length chunks)%nat -> winv p ped_ S_ (12 * k) w ->
  (forall i t, (i < 96)%nat -> (t < 12 * length chunks)%nat -> tick_ok p ped_ S_ i t) ->
  exists st out, tpg_run p (Some w) (skipn k chunks) = Ok (st, out) /\ length out = n /\
    forall j, (j < n)%nat -> all_known (nth j out []) /\ forall i, (i < 96)%nat ->
      map prim_tuple (filter (fun q => channel q =? chan_of i) (nth j out []))
      = flat_map (fun e => if hit_ends (taps p) (tap_exponent p) (ped_ i) (S_ i) e &&
                              negb (run_charge (taps p) (tap_exponent p) (ped_ i) (S_ i) e =? 0)
           then [expected_primitive (ts_at chunks (k + j)) (chan_of i) (Z.of_nat e - Z.of_nat (12 * (k + j)))
                   (Z.of_nat (run_length (taps p) (tap_exponent p) (ped_ i) (S_ i) e))
                   (run_charge (taps p) (tap_exponent p) (ped_ i) (S_ i) e)] else []) (seq (12 * (k + j)) 12).
Proof.
  induction n as [|n IH]; intros k w L W K.
  - rewrite skipn_all2 by lia. exists (Some w), []. split; [reflexivity|]. split; [reflexivity|]. intros j Lj. lia.
  - assert (k < length chunks)%nat as Lk by lia.
    assert (skipn k chunks = nth k chunks (0, zero_mem) :: skipn (S k) chunks) as SK.
    { revert Lk. clear. revert k. induction chunks as [|c l IHl]; intros [|k] Lk; cbn in Lk; try lia; [reflexivity|].
      cbn [skipn nth]. apply IHl. lia. }
    rewrite SK. destruct (nth k chunks (0, zero_mem)) as [ts mem] eqn:EK.
    assert (mem = mem_at chunks k) as EM by (unfold mem_at; rewrite EK; reflexivity).
    assert (ts = ts_at chunks k) as ET by (unfold ts_at; rewrite EK; reflexivity).
    cbn [tpg_run]. unfold find_collection_hits.
    pose proof (window_prims p P ped_ S_ ped_range S_range w mem (12 * k) ts W) as WP.
    rewrite EM in WP at 1. specialize (WP (chunk_at_k k)).
    specialize (WP ltac:(intros i j Li Lj; apply K; lia)).
    destruct (process_window_avx2 p w (expand_collection mem)) as [w' out]. destruct WP as (W' & _ & tps & D & KN & F).
    replace (12 * k + 12)%nat with (12 * S k)%nat in W' by lia.
    destruct (IH (S k) w' ltac:(lia) W' K) as (st & outs & R & LO & HO).
    rewrite D. cbn [bind fst snd]. rewrite R. cbn [bind fst snd].
    exists st, (tps :: outs). split; [reflexivity|]. split; [cbn; lia|]. intros j Lj. destruct j as [|j].
    + cbn [nth]. split; [exact KN|]. intros i Li. rewrite F by exact Li. rewrite map_map. rewrite Nat.add_0_r. rewrite <- ET.
      unfold H, spec_hits. rewrite filter_flat_map.
      rewrite flat_map_concat_map, concat_map, map_map, <- flat_map_concat_map.
      apply flat_map_ext_in. intros e _. destruct (hit_ends _ _ _ _ e); [|reflexivity].
      cbn [filter]. unfold visible. cbn [fst snd andb]. destruct (run_charge _ _ _ _ e =? 0); [reflexivity|].
      cbn [negb map fst snd]. rewrite make_prim_tuple by exact Li. repeat f_equal.
    + cbn [nth]. destruct (HO j ltac:(lia)) as [KN' HO']. split; [exact KN'|].
      replace (k + S j)%nat with (S k + j)%nat by lia. exact HO'.
Qed.
End Whole.
