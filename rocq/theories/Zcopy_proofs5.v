From Coq Require Import ZArith List Bool Lia ZifyBool.
From Verif Require Import Base_model Ring_model Ring_spec Ring_proofs Record_model Record_spec Record_proofs Record_proofs2 Zcopy_model Zcopy_spec
  Zcopy_proofs Zcopy_proofs2 Zcopy_proofs3 Zcopy_proofs4.
Import ListNotations.
Open Scope Z_scope.

Section Proofs.
Context {E : Type}.
Variable ts : E -> Z.
Variable limit : Z.
Variable quota : Z -> Z.
Variable n P chunk align addr0 : Z.
Hypothesis HP : 0 < P.
Hypothesis Hn : 2 <= n.
Hypothesis Hchunk : 0 <= chunk.
Hypothesis Halign : align <> 0.

Notation zrec_step := (zrec_step ts P chunk align addr0).
Notation zstep := (zstep ts limit quota P chunk align addr0).
Notation zrun := (zrun ts limit quota P chunk align addr0).
Notation aligned := (aligned n P align addr0).
Notation first_aligned := (first_aligned n P align addr0).
Notation core_ok := (core_ok n).
Notation lap := (n * P).
Notation zst := (@zstate E).
Notation Inv := (Inv ts n P align addr0).
Notation at_ := (at_ ts n P addr0).
Notation filed := (filed n P align addr0).
Notation ends := (ends n P addr0).

Lemma zrun_app : forall a b s s1, zrun s a = Some s1 -> zrun s (a ++ b) = zrun s1 b.
Proof.
  induction a as [|x a IH]; intros b s s1 H; cbn in *; [congruence|].
  destruct (zstep s x) as [s2|]; [|discriminate]. apply IH. exact H.
Qed.

Lemma rec_one : forall s ex ret s', s_crashed (z_core s) = false -> zrec_step ex ret s = Some s' -> zstep s (ZRec ex ret) = Some s'.
Proof. intros s ex ret s' Hc H. unfold Zcopy_model.zstep. rewrite Hc. exact H. Qed.

Lemma run_cons : forall s a s1 acts, zstep s a = Some s1 -> zrun s (a :: acts) = zrun s1 acts.
Proof. intros s a s1 acts H. cbn. rewrite H. reflexivity. Qed.

(* --- reaching the endless search --- *)
Lemma skip_run : forall r s j, core_ok (z_core s) -> s_crashed (z_core s) = false ->
  (s_popped (z_core s) <= j)%nat -> (j + S r = length (s_all (z_core s)))%nat ->
  (forall i, (j <= i < length (s_all (z_core s)))%nat -> ~ aligned i) -> z_pc s = ZSkip (Z.of_nat j mod n) ->
  exists s', zrun s (repeat (ZRec false 0) (S r)) = Some s' /\ z_pc s' = ZSkip it_end.
Proof.
  induction r as [|r IH]; intros s j Hk Hc Hj Hr Hal Hpc.
  all: pose proof Hk as (Hb & _); pose proof (h_len _ _ (b_holds _ _ Hb)) as HL; rewrite skipn_length, (b_size _ _ Hb) in HL.
  all: set (k := Z.of_nat j - Z.of_nat (s_popped (z_core s))).
  all: assert (Z.of_nat j mod n = (r_read (s_ring (z_core s)) + k) mod r_size (s_ring (z_core s))) as Ej
    by (rewrite (b_size _ _ Hb), (b_read _ _ Hb), Zplus_mod_idemp_l; f_equal; lia).
  all: assert (((addr0 + Z.of_nat j mod n * P) mod align =? 0) = false) as Ea
    by (specialize (Hal j ltac:(lia)); unfold Zcopy_spec.aligned in Hal; lia).
  all: pose proof (incr_index _ _ k (b_holds _ _ Hb)) as Hi; rewrite skipn_length in Hi; specialize (Hi ltac:(lia)); rewrite <- Ej in Hi.
  - replace (k + 1 <? Z.of_nat (length (s_all (z_core s)) - s_popped (z_core s))) with false in Hi by lia.
    eexists. split.
    + cbn [repeat]. erewrite run_cons; [reflexivity|]. apply rec_one; [exact Hc|]. unfold Zcopy_model.zrec_step. rewrite Hpc, Ea.
      replace (align =? 0) with false by lia. cbn [negb]. rewrite Hi, good_end. reflexivity.
    + reflexivity.
  - replace (k + 1 <? Z.of_nat (length (s_all (z_core s)) - s_popped (z_core s))) with true in Hi by lia.
    pose proof (good_index _ _ (k + 1) (b_holds _ _ Hb)) as Hg. rewrite skipn_length in Hg. rewrite (b_size _ _ Hb) in Hg.
    specialize (Hg ltac:(lia)). replace (k + 1 <? Z.of_nat (length (s_all (z_core s)) - s_popped (z_core s))) with true in Hg by lia.
    rewrite (b_size _ _ Hb) in Hi.
    assert ((r_read (s_ring (z_core s)) + (k + 1)) mod n = Z.of_nat (S j) mod n) as Ej'
      by (rewrite (b_read _ _ Hb), Zplus_mod_idemp_l; f_equal; lia).
    rewrite Ej' in *.
    destruct (IH (goto s (ZSkip (Z.of_nat (S j) mod n))) (S j)) as (s' & R1 & R2).
    + exact Hk.
    + exact Hc.
    + cbn. lia.
    + cbn [goto z_core]. lia.
    + intros i Hi'. apply Hal. cbn [goto z_core] in Hi'. lia.
    + reflexivity.
    + exists s'. split; [|exact R2]. change (repeat (ZRec false 0) (S (S r))) with (@ZRec E false 0 :: repeat (ZRec false 0) (S r)).
      erewrite run_cons; [exact R1|]. apply rec_one; [exact Hc|]. unfold Zcopy_model.zrec_step. rewrite Hpc, Ea.
      replace (align =? 0) with false by lia. cbn [negb]. rewrite Hi, Hg. reflexivity.
Qed.

Lemma reach_hang_lemma : forall acts s, supported_size n -> zrun (zinit n) acts = Some s -> positive ts (s_all (z_core s)) ->
  s_crashed (z_core s) = false -> z_pc s = ZBegin -> (s_popped (z_core s) < length (s_all (z_core s)))%nat ->
  (forall i, (s_popped (z_core s) <= i < length (s_all (z_core s)))%nat -> ~ aligned i) ->
  exists s', zrun s (repeat (ZRec false 0) (length (zstored s) + 2)) = Some s' /\ z_pc s' = ZSkip it_end.
Proof.
  intros acts s Hs H Hp Hc Hpc Hlt Hal.
  destruct (J_run ts limit quota n P chunk align addr0 Hn acts (zinit n) s H Hp) as (HJ & Hk); [split; [apply base_init; exact Hs|reflexivity]|exact I|].
  pose proof Hk as (Hb & _).
  assert (length (zstored s) = length (s_all (z_core s)) - s_popped (z_core s))%nat as El by (unfold zstored; apply skipn_length).
  pose proof (stored_le n _ Hb) as HL.
  destruct (nth_error (s_all (z_core s)) (s_popped (z_core s))) as [e|] eqn:Ee; [|apply nth_error_None in Ee; lia].
  set (p := s_popped (z_core s)) in *. set (i := Z.of_nat p mod n).
  set (s1 := mk_z (z_core s) (ZSet i) (z_wp s) (z_endp s) (z_open s) (z_file s) (z_counted s) (z_warnings s) (z_short s)
                  (z_lost s) (if z_open s then p else z_oldest s)).
  assert (zstep s (ZRec false 0) = Some s1) as E1.
  { apply rec_one; [exact Hc|]. unfold Zcopy_model.zrec_step. rewrite Hpc, (begin_index _ _ (b_holds _ _ Hb)), skipn_length. fold p.
    replace (Z.of_nat (length (s_all (z_core s)) - p) =? 0) with false by lia.
    rewrite (index_not_end _ _ _ (b_holds _ _ Hb)). unfold s1. do 2 f_equal.
    f_equal. rewrite Z.add_0_r, (b_size _ _ Hb), (b_read _ _ Hb). fold p. rewrite Z.mod_mod by lia. reflexivity. }
  set (s2 := goto_next s1 (ts e) (ZSkip i)).
  assert (zstep s1 (ZRec false 0) = Some s2) as E2.
  { apply rec_one; [exact Hc|]. unfold Zcopy_model.zrec_step. cbn [s1 z_pc z_core]. unfold i.
    rewrite (b_mem _ _ Hb) by lia. rewrite Ee. reflexivity. }
  destruct (skip_run (length (s_all (z_core s)) - p - 1) s2 p) as (s' & R1 & R2).
  - exact (step_core ts limit quota n P chunk align addr0 _ _ _ E2 (step_core ts limit quota n P chunk align addr0 _ _ _ E1 Hk)).
  - exact Hc.
  - cbn. lia.
  - cbn [s2 goto_next s1 z_core with_next s_all]. lia.
  - exact Hal.
  - reflexivity.
  - exists s'. split; [|exact R2]. rewrite El.
    replace (length (s_all (z_core s)) - p + 2)%nat with (S (S (S (length (s_all (z_core s)) - p - 1)))) by lia.
    cbn [repeat]. rewrite (run_cons _ _ _ _ E1), (run_cons _ _ _ _ E2). exact R1.
Qed.

(* --- progress of one pass --- *)
Variable ret : Z.
Hypothesis Hret : chunk <= ret /\ n * P <= ret.
Notation go := (@ZRec E false ret).

Lemma copy_run : forall m s a nx k, s_crashed (z_core s) = false -> z_pc s = ZCopy a (Z.of_nat m) nx k ->
  exists s', zrun s (repeat go (S m)) = Some s' /\ z_pc s' = ZAfter k /\ z_core s' = z_core s /\ z_endp s' = z_endp s /\
    z_open s' = z_open s /\ z_short s' = z_short s /\ z_lost s' = z_lost s /\ z_oldest s' = z_oldest s /\
    length (z_file s') = (length (z_file s) + m)%nat.
Proof.
  induction m as [|m IH]; intros s a nx k Hc Hpc.
  - eexists. split; [cbn [repeat]; erewrite run_cons; [reflexivity|]; apply rec_one; [exact Hc|]; unfold Zcopy_model.zrec_step; rewrite Hpc; cbn; reflexivity|].
    cbn. repeat split. lia.
  - set (s1 := mk_z (z_core s) (ZCopy (a + 1) (Z.of_nat m) nx k) (z_wp s) (z_endp s) (z_open s) (z_file s ++ [byte_at P addr0 s a])
                    (z_counted s) (z_warnings s) (z_short s) (z_lost s) (z_oldest s)).
    assert (zstep s go = Some s1) as E1.
    { apply rec_one; [exact Hc|]. unfold Zcopy_model.zrec_step. rewrite Hpc. destruct (0 <? Z.of_nat (S m)) eqn:Em; [|lia].
      unfold s1. do 3 f_equal. lia. }
    destruct (IH s1 (a + 1) nx k Hc eq_refl) as (s' & R1 & R2 & R3 & R4 & R5 & R6 & R7 & R8 & R9).
    exists s'. change (repeat go (S (S m))) with (go :: repeat go (S m)). rewrite (run_cons _ _ _ _ E1).
    repeat split; try assumption. rewrite R9. cbn [s1 z_file]. rewrite app_length. cbn. lia.
Qed.

Definition amount (s : zst) (W : Z) : Z :=
  let w := addr0 + W mod lap in
  if w + chunk <? z_endp s then chunk
  else if z_endp s <? w then (if w + chunk <? addr0 + lap then chunk else lap - W mod lap) else 0.

Record good (s : zst) : Prop := {
  g_inv : Inv s; g_ord : ordered_data ts (s_all (z_core s)); g_crash : s_crashed (z_core s) = false;
  g_lost : z_lost s = false; g_short : z_short s = false; g_open : z_open s = true }.

Definition frame (s s' : zst) : Prop :=
  s_all (z_core s') = s_all (z_core s) /\ s_popped (z_core s') = s_popped (z_core s) /\ s_cpc (z_core s') = s_cpc (z_core s) /\
  z_oldest s' = z_oldest s.
Lemma frame_trans : forall a b c, frame a b -> frame b c -> frame a c.
Proof. intros a b c (A1 & A2 & A3 & A4) (B1 & B2 & B3 & B4). repeat split; congruence. Qed.

Lemma zwrite_full : forall (s : zst) a len p, z_open s = true -> z_short s = false -> 0 <= len <= ret ->
  z_pc (zwrite s a len ret p) = p len /\ z_short (zwrite s a len ret p) = false.
Proof.
  intros s a len p Ho Hs Hl. unfold zwrite. cbn. rewrite Ho, Hs. replace (Z.min (Z.max ret 0) len) with len by lia.
  split; [reflexivity|]. cbn. lia.
Qed.

(* one round of the chunk loop *)
Lemma round : forall s k W, good s -> z_pc s = ZChunk k -> (k < 100)%nat -> at_ s W -> ends s W W ->
  exists m s', zrun s (repeat go m) = Some s' /\ good s' /\ z_pc s' = ZChunk (S k) /\ z_endp s' = z_endp s /\ frame s s' /\
    Z.of_nat (length (z_file s')) = Z.of_nat (length (z_file s)) + amount s W.
Proof.
  intros s k W [Gi Go Gc Gl Gs Gop] Hpc Hk A N.
  pose proof (lap_pos n P HP Hn) as HL. pose proof (Z.mod_pos_bound W lap HL) as BW.
  assert (end_of_buffer P addr0 s = addr0 + lap) as Heob.
  { unfold end_of_buffer. destruct Gi as ((Hb & _) & _). rewrite (b_size _ _ Hb). reflexivity. }
  pose proof A as (A1 & A2 & A3 & A4 & A5).
  assert (exists m1 s1, zrun s (repeat go m1) = Some s1 /\ z_pc s1 = ZAfter k /\ z_core s1 = z_core s /\ z_endp s1 = z_endp s /\
    z_open s1 = true /\ z_short s1 = false /\ z_lost s1 = false /\ z_oldest s1 = z_oldest s /\
    Z.of_nat (length (z_file s1)) = Z.of_nat (length (z_file s)) + amount s W) as (m1 & s1 & R1 & R2 & R3 & R4 & R5 & R6 & R7 & R8 & R9).
  { assert (forall len nx, 0 <= len <= ret -> amount s W = len ->
      zrec_step false ret s = Some (zwrite s (addr0 + W mod lap) len ret (fun m => ZCopy (addr0 + W mod lap) m nx k)) ->
      exists m1 s1, zrun s (repeat go m1) = Some s1 /\ z_pc s1 = ZAfter k /\ z_core s1 = z_core s /\ z_endp s1 = z_endp s /\
        z_open s1 = true /\ z_short s1 = false /\ z_lost s1 = false /\ z_oldest s1 = z_oldest s /\
        Z.of_nat (length (z_file s1)) = Z.of_nat (length (z_file s)) + amount s W) as Wr.
    { intros len nx Hl Ha Hst.
      destruct (zwrite_full s (addr0 + W mod lap) len (fun m => ZCopy (addr0 + W mod lap) m nx k) Gop Gs Hl) as (X1 & X2).
      set (s0 := zwrite s (addr0 + W mod lap) len ret (fun m => ZCopy (addr0 + W mod lap) m nx k)) in *.
      destruct (copy_run (Z.to_nat len) s0 (addr0 + W mod lap) nx k) as (s1 & R1 & R2 & R3 & R4 & R5 & R6 & R7 & R8 & R9).
      - exact Gc.
      - rewrite X1, Z2Nat.id by lia. reflexivity.
      - exists (S (S (Z.to_nat len))), s1.
        change (repeat go (S (S (Z.to_nat len)))) with (go :: repeat go (S (Z.to_nat len))).
        rewrite (run_cons _ _ _ _ (rec_one _ _ _ _ Gc Hst)). split; [exact R1|].
        split; [exact R2|]. split; [exact R3|]. split; [exact R4|]. split; [rewrite R5; exact Gop|]. split; [congruence|].
        split; [rewrite R7; exact Gl|]. split; [exact R8|]. rewrite R9, Ha. change (z_file s0) with (z_file s). lia. }
    unfold Zcopy_model.zrec_step in Wr. rewrite Hpc, A2, Heob in Wr. replace (k <? 100)%nat with true in Wr by lia.
    unfold amount in Wr |- *. cbv zeta in Wr |- *.
    destruct (addr0 + W mod lap + chunk <? z_endp s) eqn:E1.
    - apply (Wr chunk (addr0 + W mod lap + chunk)); [lia| |]; reflexivity.
    - destruct (z_endp s <? addr0 + W mod lap) eqn:E2.
      + destruct (addr0 + W mod lap + chunk <? addr0 + lap) eqn:E3.
        * apply (Wr chunk (addr0 + W mod lap + chunk)); [lia| |]; reflexivity.
        * apply (Wr (lap - W mod lap) addr0); [lia|reflexivity|].
          replace (addr0 + lap - (addr0 + W mod lap)) with (lap - W mod lap) by lia. reflexivity.
      + exists 1%nat, (goto s (ZAfter k)). split.
        * cbn [repeat]. erewrite run_cons; [reflexivity|]. apply rec_one; [exact Gc|]. unfold Zcopy_model.zrec_step.
          rewrite Hpc, A2, E1, E2. replace (k <? 100)%nat with true by lia. reflexivity.
        * cbn. repeat split; try assumption. lia. }
  assert (Inv s1) as Gi1.
  { refine (run_inv ts limit quota n P chunk align addr0 HP Hn Hchunk Halign _ _ _ R1 _ Gi). rewrite R3. exact Go. }
  pose proof Gi1 as (Hk1 & HI1). destruct (HI1 R7) as (HP1 & _). unfold pc_ok in HP1. rewrite R2 in HP1.
  destruct HP1 as (W1 & A' & F' & N'). pose proof (at_range ts n P addr0 HP _ _ A') as (Q1 & Q2 & Q3). pose proof A' as (B1 & B2 & (G1 & (e & G2 & G3) & G4) & _).
  set (s2 := goto_next s1 (ts e) (ZChunk (S k))).
  assert (zstep s1 go = Some s2) as E2.
  { apply rec_one; [rewrite R3; exact Gc|]. unfold Zcopy_model.zrec_step. rewrite R2, B2.
    replace (addr0 + W1 mod lap - addr0) with (W1 mod lap) by lia. unfold total in Q2.
    rewrite (mem_pos n P HP Hn _ _ (proj1 Hk1) Q1), G2 by lia. reflexivity. }
  exists (m1 + 1)%nat, s2. split; [|split; [|split; [reflexivity|split; [exact R4|split; [|exact R9]]]]].
  - rewrite repeat_app, (zrun_app _ _ _ _ R1). cbn [repeat]. rewrite (run_cons _ _ _ _ E2). reflexivity.
  - split; try assumption.
    + refine (step_inv ts limit quota n P chunk align addr0 HP Hn Hchunk Halign _ _ _ E2 _ Gi1). cbn. rewrite R3. exact Go.
    + cbn. rewrite R3. exact Go.
    + cbn. rewrite R3. exact Gc.
  - unfold frame. cbn. rewrite R3. repeat split. exact R8.
Qed.

Lemma first_aligned_unique : forall o a b, first_aligned o a -> first_aligned o b -> a = b.
Proof.
  intros o a b (A1 & A2 & A3) (B1 & B2 & B3).
  destruct (Nat.lt_trichotomy a b) as [L|[Eq|L]]; [|exact Eq|].
  - exfalso. exact (B3 a ltac:(lia) A2).
  - exfalso. exact (A3 b ltac:(lia) B2).
Qed.

(* the byte position reached, as a function of the file *)
Lemma reached_pos : forall s W k0, good s -> filed s W -> first_aligned (z_oldest s) k0 -> W = Z.of_nat k0 * P + Z.of_nat (length (z_file s)).
Proof.
  intros s W k0 [Gi Go Gc Gl Gs Gop] F Hf. destruct (F Gop Gs) as (k1 & F1 & F2 & F3 & F4).
  pose proof (first_aligned_unique _ _ _ Hf F1) as ->. rewrite F4, bytes_length. lia.
Qed.

Lemma rounds : forall r s k W ke k0, good s -> z_pc s = ZChunk k -> (k + r = 100)%nat -> at_ s W -> filed s W ->
  first_aligned (z_oldest s) k0 -> 0 <= ke < total s -> W <= ke * P -> ke - W / P <= n - 2 -> z_endp s = addr0 + ke mod n * P ->
  exists m s', zrun s (repeat go m) = Some s' /\ good s' /\ z_pc s' = ZTop /\ frame s s' /\
    let L := Z.of_nat (length (z_file s)) in let L' := Z.of_nat (length (z_file s')) in
    L <= L' /\
    (ke * P - chunk <= written_to P k0 s' \/
     (if z_endp s <? addr0 + W mod lap then L + (Z.of_nat r - 1) * chunk <= L' else L + Z.of_nat r * chunk <= L')).
Proof.
  induction r as [|r IH]; intros s k W ke k0 G Hpc Hr A F Hf K1 K2 K3 K4.
  - exists 1%nat, (goto s ZTop). split.
    + cbn [repeat]. erewrite run_cons; [reflexivity|]. apply rec_one; [apply G|]. unfold Zcopy_model.zrec_step. rewrite Hpc.
      replace (k <? 100)%nat with false by lia. reflexivity.
    + split; [|split; [reflexivity|split; [repeat split|]]].
      * destruct G as [Gi Go Gc Gl Gs Gop]. split; try assumption.
        refine (step_inv ts limit quota n P chunk align addr0 HP Hn Hchunk Halign s go (goto s ZTop) _ Go Gi).
        apply rec_one; [exact Gc|]. unfold Zcopy_model.zrec_step. rewrite Hpc. replace (k <? 100)%nat with false by lia. reflexivity.
      * cbv zeta. cbn [goto z_file]. change (Z.of_nat 0) with 0. split; [lia|]. right. destruct (_ <? _); lia.
  - assert (ends s W W) as N by (exists ke; auto).
    destruct (round s k W G Hpc ltac:(lia) A N) as (m1 & s1 & R1 & G1 & R2 & R3 & R4 & R5).
    pose proof G1 as [Gi1 Go1 Gc1 Gl1 Gs1 Gop1]. destruct Gi1 as (Hk1 & HI1). destruct (HI1 Gl1) as (HP1 & _).
    unfold pc_ok in HP1. rewrite R2 in HP1. destruct HP1 as (W1 & A' & F' & N'). destruct R4 as (T1 & T2 & T3 & T4).
    assert (first_aligned (z_oldest s1) k0) as Hf1 by (rewrite T4; exact Hf).
    pose proof (reached_pos s W k0 G F Hf) as EW. pose proof (reached_pos s1 W1 k0 G1 F' Hf1) as EW1.
    assert (W1 = W + amount s W) as EW' by lia.
    pose proof (lap_pos n P HP Hn) as HL. pose proof (Z.mod_pos_bound W lap HL) as BW.
    pose proof (Z.mod_pos_bound ke n ltac:(lia)) as BK. assert (ke mod n * P <= (n - 1) * P) as BK' by nia.
    destruct (ends_cases ts n P addr0 HP Hn s W A N) as (ke' & K1' & K2' & K3' & K4').
    assert (ke' mod n * P = ke mod n * P) as Ek by lia.
    assert (ke' = ke) as ->.
    { pose proof (at_range ts n P addr0 HP _ _ A) as (Q1 & _).
      assert (ke' mod n = ke mod n) as Em by nia.
      assert (W / P <= ke') by (apply Z.div_le_upper_bound; [lia|]; destruct K4' as [X|X]; lia).
      assert (W / P <= ke) by (apply Z.div_le_upper_bound; lia).
      destruct (Z.lt_trichotomy ke' ke) as [L|[Eq|L]]; [|exact Eq|].
      - exfalso. apply (mod_neq n ke' ke); lia.
      - exfalso. apply (mod_neq n ke ke'); lia. }
    assert (0 <= amount s W /\ W + amount s W <= ke * P) as (Am & Bm).
    { unfold amount. cbv zeta. destruct (_ <? z_endp s) eqn:E1; [lia|]. destruct (z_endp s <? _) eqn:E2; [|lia]. destruct (_ <? addr0 + lap) eqn:E3; lia. }
    destruct (IH s1 (S k) W1 ke k0 G1 R2 ltac:(lia) A' F' Hf1) as (m2 & s' & S1 & S2 & S3 & S4 & S5).
    + unfold total in *. rewrite T1. exact K1.
    + lia.
    + pose proof (at_range ts n P addr0 HP _ _ A) as (Q1 & _). rewrite EW'. pose proof (div_step P HP W (amount s W) Q1 Am). lia.
    + rewrite R3. exact K4.
    + exists (m1 + m2)%nat, s'. split; [rewrite repeat_app, (zrun_app _ _ _ _ R1); exact S1|]. split; [exact S2|]. split; [exact S3|].
      split; [apply (frame_trans s s1 s'); [repeat split; assumption|exact S4]|]. cbv zeta in *.
      destruct S5 as (S5 & S6). split; [lia|].
      destruct S6 as [S6|S6]; [left; exact S6|].
      rewrite R3 in S6. unfold amount in EW', R5, Am, Bm. cbv zeta in *.
      destruct (addr0 + W mod lap + chunk <? z_endp s) eqn:E1.
      * (* a whole chunk before the newest element *)
        right. replace (z_endp s <? addr0 + W mod lap) with false by lia.
        assert (W1 mod lap = W mod lap + chunk) as Em by (rewrite EW'; apply (lap_add n P HP Hn); lia).
        rewrite Em in S6. replace (z_endp s <? addr0 + (W mod lap + chunk)) with false in S6 by lia. lia.
      * destruct (z_endp s <? addr0 + W mod lap) eqn:E2.
        -- right. destruct (addr0 + W mod lap + chunk <? addr0 + lap) eqn:E3.
           ++ assert (W1 mod lap = W mod lap + chunk) as Em by (rewrite EW'; apply (lap_add n P HP Hn); lia).
              rewrite Em in S6. replace (z_endp s <? addr0 + (W mod lap + chunk)) with true in S6 by lia. lia.
           ++ assert (W1 mod lap = 0) as Em by (rewrite EW'; apply (lap_end n P HP Hn); lia).
              rewrite Em in S6. replace (z_endp s <? addr0 + 0) with false in S6 by nia. lia.
        -- left. unfold written_to. destruct K4' as [X|X]; lia.
Qed.

Lemma pass_lemma : forall acts s k0, supported_size n -> zrun (zinit n) acts = Some s -> ordered_data ts (s_all (z_core s)) ->
  s_crashed (z_core s) = false -> z_lost s = false -> z_short s = false -> z_open s = true ->
  z_pc s = ZTop -> z_wp s <> None -> s_cpc (z_core s) = CIdle -> s_requested (z_core s) = false ->
  first_aligned (z_oldest s) k0 ->
  exists m s', zrun s (repeat go m) = Some s' /\ z_pc s' = ZTop /\ zstored s' = zstored s /\ z_oldest s' = z_oldest s /\
    (newest P s - chunk <= written_to P k0 s' \/
     Z.of_nat (length (z_file s)) + 99 * chunk <= Z.of_nat (length (z_file s'))).
Proof.
  intros acts s k0 Hs H Ho Hc Hl Hsh Hop Hpc Hw Hcp Hrq Hf.
  pose proof (run_inv ts limit quota n P chunk align addr0 HP Hn Hchunk Halign _ _ _ H Ho (init_inv ts n P align addr0 Hs)) as Hi.
  assert (good s) as G by (split; assumption).
  pose proof Hi as (Hk & HI). destruct (HI Hl) as (HP1 & _). unfold pc_ok in HP1. rewrite Hpc in HP1.
  destruct HP1 as [((B & _) & _)|(W & A & F)]; [congruence|].
  pose proof A as (A1 & A2 & A3 & A4 & A5).
  set (s3 := mk_z (z_core s) (ZChunk 0) (z_wp s) (match back (s_ring (z_core s)) with Some i => addr0 + i * P | None => 0 end)
                  (z_open s) (z_file s) (z_counted s) (z_warnings s) (z_short s) (z_lost s) (z_oldest s)).
  assert (zrun s [go; go; go] = Some s3) as R0.
  { rewrite (run_cons _ _ (goto s ZWait)).
    2:{ apply rec_one; [exact Hc|]. unfold Zcopy_model.zrec_step. rewrite Hpc, Hrq. reflexivity. }
    rewrite (run_cons _ _ (goto s ZBack)).
    2:{ apply rec_one; [exact Hc|]. unfold Zcopy_model.zrec_step. cbn [goto z_pc z_core]. unfold mutex_free. rewrite Hcp, Hrq. cbn [negb andb].
        replace (s_next (z_core s) =? 0) with false by lia. reflexivity. }
    erewrite run_cons; [reflexivity|]. apply rec_one; [exact Hc|]. reflexivity. }
  assert (Inv s3) as Gi3 by (exact (run_inv ts limit quota n P chunk align addr0 HP Hn Hchunk Halign _ _ _ R0 Ho Hi)).
  assert (good s3) as G3 by (split; assumption).
  pose proof (at_range ts n P addr0 HP _ _ A) as (Q1 & Q2 & Q3). pose proof Hk as (Hb & _). pose proof (stored_le n _ Hb) as HL.
  destruct (rounds 100 s3 0%nat W (total s - 1) k0 G3 eq_refl eq_refl A F Hf) as (m & s' & S1 & S2 & S3 & S4 & S5).
  - unfold total in *. cbn [s3 z_core]. lia.
  - exact A5.
  - unfold total in *. lia.
  - cbn [s3 z_endp]. rewrite (back_index _ _ (b_holds _ _ Hb)).
    + do 2 f_equal. rewrite (b_size _ _ Hb), (b_read _ _ Hb), skipn_length, Zplus_mod_idemp_l. f_equal. unfold total in *. lia.
    + intros X. apply (f_equal (@length E)) in X. rewrite skipn_length in X. cbn in X. unfold total in *. lia.
  - exists (3 + m)%nat, s'. split; [|split; [exact S3|split; [|split]]].
    + rewrite repeat_app. change (repeat go 3) with [go; go; go]. rewrite (zrun_app _ _ _ _ R0). exact S1.
    + unfold zstored. destruct S4 as (X1 & X2 & _). rewrite X1, X2. reflexivity.
    + apply S4.
    + cbv zeta in S5. change (z_file s3) with (z_file s) in S5. destruct S5 as (_ & [S5|S5]); [left; exact S5|right].
      destruct (z_endp s3 <? addr0 + W mod lap); lia.
Qed.
End Proofs.
