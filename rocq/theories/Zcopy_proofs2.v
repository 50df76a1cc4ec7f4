From Coq Require Import ZArith List Bool Lia ZifyBool.
From Verif Require Import Base_model Ring_model Ring_spec Ring_proofs Record_model Record_spec Record_proofs Zcopy_model Zcopy_spec Zcopy_proofs.
Import ListNotations.
Open Scope Z_scope.

Section Proofs.
Context {E : Type}.
Variable ts : E -> Z.
Variable limit : Z.
Variable quota : Z -> Z.
Variable n P chunk align addr0 : Z.
Hypothesis HP : 0 < P.
Hypothesis Hn : 2 <= n.
Hypothesis Hchunk : 0 <= chunk.
Hypothesis Halign : align <> 0.

Notation clean_step := (clean_step ts limit quota).
Notation astep := (Record_model.astep ts (fun _ => 0) limit quota).
Notation zrec_step := (zrec_step ts P chunk align addr0).
Notation zstep := (zstep ts limit quota P chunk align addr0).
Notation zrun := (zrun ts limit quota P chunk align addr0).
Notation byte_at := (byte_at P addr0).
Notation byte_of := (byte_of P).
Notation bytes := (bytes P).
Notation aligned := (aligned n P align addr0).
Notation first_aligned := (first_aligned n P align addr0).
Notation guard := (guard ts).
Notation held := (held ts).
Notation core_ok := (core_ok n).
Notation lap := (n * P).
Notation zst := (@zstate E).

Definition total (s : zst) : Z := Z.of_nat (length (s_all (z_core s))).

Definition filed (s : zst) (hi : Z) : Prop := z_open s = true -> z_short s = false ->
  exists k0, first_aligned (z_oldest s) k0 /\ Z.of_nat k0 * P <= hi /\ hi <= total s * P /\
    z_file s = bytes (s_all (z_core s)) (Z.of_nat k0 * P) (Z.to_nat (hi - Z.of_nat k0 * P)).
Definition nofile (s : zst) : Prop := z_open s = true -> z_file s = [].
Definition at_ (s : zst) (W : Z) : Prop :=
  0 <= W /\ z_wp s = Some (addr0 + W mod lap) /\ guard (z_core s) (Z.to_nat (W / P)) /\ 1 <= s_next (z_core s) /\
  W <= (total s - 1) * P.
Definition ends (s : zst) (W hi : Z) : Prop := exists ke,
  0 <= ke < total s /\ hi <= ke * P /\ ke - W / P <= n - 2 /\ z_endp s = addr0 + ke mod n * P.
Definition before (s : zst) : Prop := z_wp s = None /\ nofile s.

Definition pc_ok (s : zst) : Prop :=
  let c := z_core s in
  match z_pc s with
  | ZIdle => z_open s = true -> z_wp s = None /\ z_file s = []
  | ZTop | ZWait | ZFinal => before s /\ s_next c = 0 \/ exists W, at_ s W /\ filed s W
  | ZBegin => before s /\ quiet c
  | ZSet i => before s /\ quiet c /\ (s_popped c < length (s_all c))%nat /\ i = Z.of_nat (s_popped c) mod n /\
              (z_open s = true -> z_oldest s = s_popped c)
  | ZSkip i => before s /\ exists g j, held c g /\ (z_open s = true -> z_oldest s = g) /\ (g <= j < length (s_all c))%nat /\
              i = Z.of_nat j mod n /\ forall j', (g <= j' < j)%nat -> ~ aligned j'
  | ZBack => exists W, at_ s W /\ filed s W
  | ZChunk _ | ZAfter _ => exists W, at_ s W /\ filed s W /\ ends s W W
  | ZCopy a m nx _ => exists W len d, at_ s W /\ ends s W (W + len) /\ 0 <= d /\ 0 <= m /\ d + m <= len /\
              (if z_open s then z_short s = false -> d + m = len else m = 0) /\ filed s (W + d) /\ a = addr0 + W mod lap + d /\ W mod lap + len <= lap /\
              (nx = addr0 + W mod lap + len \/ W mod lap + len = lap /\ nx = addr0)
  | ZCopyLast a m => exists W len d, at_ s W /\ len = (W / P + 1) * P - W /\ 0 <= d /\ 0 <= m /\ d + m <= len /\
              (if z_open s then z_short s = false -> d + m = len else m = 0) /\ filed s (W + d) /\ a = addr0 + W mod lap + d
  | ZClose => before s \/ exists W hi, at_ s W /\ filed s hi /\ W <= hi /\ hi mod P = 0
  end.

Definition closed_ok (s : zst) : Prop := z_open s = false -> z_short s = false ->
  exists k0 m, (m = 0%nat \/ first_aligned (z_oldest s) k0) /\ (k0 + m <= length (s_all (z_core s)))%nat /\
    z_file s = bytes (s_all (z_core s)) (Z.of_nat k0 * P) (Z.to_nat (Z.of_nat m * P)).

Definition Inv (s : zst) : Prop := core_ok (z_core s) /\ (z_lost s = false -> pc_ok s /\ closed_ok s).

(* positions *)
Lemma guard_lt : forall c g, guard c g -> (s_popped c <= g < length (s_all c))%nat.
Proof. intros c g (G1 & (e & G2 & _) & _). assert (g < length (s_all c))%nat by (apply nth_error_Some; congruence). lia. Qed.

Lemma at_range : forall s W, at_ s W -> 0 <= W /\ 0 <= W / P < total s /\ Z.of_nat (s_popped (z_core s)) <= W / P.
Proof.
  intros s W (H0 & _ & G & _ & _). apply guard_lt in G. assert (0 <= W / P) by (apply Z.div_pos; lia).
  unfold total. lia.
Qed.

Lemma lap_pos : 0 < lap. Proof. nia. Qed.

(* the newest element is in this lap or the next one *)
Lemma ends_cases : forall s W, at_ s W -> ends s W W -> exists ke, 0 <= ke < total s /\ ke - W / P <= n - 2 /\
  z_endp s = addr0 + ke mod n * P /\
  (W <= ke * P /\ ke * P = W - W mod lap + ke mod n * P /\ W mod lap <= ke mod n * P \/
   ke * P = W - W mod lap + lap + ke mod n * P /\ ke mod n * P < W mod lap).
Proof.
  intros s W HA (ke & H1 & H2 & H3 & H4). destruct (at_range _ _ HA) as (R1 & R2 & R3).
  exists ke. split; [exact H1|]. split; [exact H3|]. split; [exact H4|].
  pose proof lap_pos as HL.
  pose proof (Z.div_mod W lap ltac:(lia)) as DW. pose proof (Z.mod_pos_bound W lap HL) as BW.
  pose proof (Z.div_mod ke n ltac:(lia)) as DK. pose proof (Z.mod_pos_bound ke n ltac:(lia)) as BK.
  pose proof (Z.div_mod W P ltac:(lia)) as DP. pose proof (Z.mod_pos_bound W P HP) as BP.
  set (qw := W / lap) in *. set (ow := W mod lap) in *. set (qk := ke / n) in *. set (rk := ke mod n) in *.
  assert (ke * P = lap * qk + rk * P) as EK by (rewrite DK; ring).
  assert (0 <= rk * P < lap) as BR by nia.
  assert (ke * P <= W + (n - 2) * P) as HU.
  { assert (ke <= W / P + (n - 2)) as X by lia. assert (ke * P <= (W / P + (n - 2)) * P) by (apply Z.mul_le_mono_nonneg_r; lia). lia. }
  assert (ke * P < W + lap) as HU' by lia.
  assert (qk = qw \/ qk = qw + 1) as [Eq|Eq].
  { assert (qw <= qk) by (apply Z.lt_succ_r; apply (Z.mul_lt_mono_pos_l lap); lia).
    assert (qk < qw + 2) by (apply (Z.mul_lt_mono_pos_l lap); lia). lia. }
  - left. rewrite Eq in EK. lia.
  - right. rewrite Eq in EK. rewrite Z.mul_add_distr_l in EK. lia.
Qed.

(* steps of the producer and of the clean-up *)
Definition lifted (s : zst) (c : rstate E) : zst :=
  mk_z c (z_pc s) (z_wp s) (z_endp s) (z_open s) (z_file s) (z_counted s) (z_warnings s) (z_short s) (z_lost s) (z_oldest s).

Lemma filed_env : forall s c' l hi, s_all c' = s_all (z_core s) ++ l -> filed s hi -> filed (lifted s c') hi.
Proof.
  intros s c' l hi HA F Ho Hs. destruct (F Ho Hs) as (k0 & F1 & F2 & F3 & F4). exists k0.
  split; [exact F1|]. split; [exact F2|]. unfold total in *. cbn [lifted z_core z_file z_oldest].
  split; [rewrite HA, app_length; nia|]. rewrite HA. rewrite bytes_app; [exact F4|exact HP|nia|nia].
Qed.

Lemma at_env : forall s c' W, s_crashed (z_core s) = false -> core_ok (z_core s) -> env ts limit quota (z_core s) c' ->
  at_ s W -> at_ (lifted s c') W.
Proof.
  intros s c' W Hcr Hk He (A1 & A2 & A3 & A4 & A5). repeat split; try assumption.
  - cbn. apply (guard_env _ _ _ _ _ _ _ Hcr Hk He A3).
  - cbn. apply (guard_env _ _ _ _ _ _ _ Hcr Hk He A3).
  - cbn. apply (guard_env _ _ _ _ _ _ _ Hcr Hk He A3).
  - cbn. destruct (env_cases _ _ _ _ _ _ Hcr Hk He) as (_ & -> & _). exact A4.
  - destruct (env_all _ _ _ _ _ Hcr He) as (l & HA). unfold total in *. cbn [lifted z_core]. rewrite HA, app_length. nia.
Qed.

Lemma ends_env : forall s c' l W hi, s_all c' = s_all (z_core s) ++ l -> ends s W hi -> ends (lifted s c') W hi.
Proof.
  intros s c' l W hi HA (ke & H1 & H2 & H3 & H4). exists ke. unfold total in *. cbn [lifted z_core z_endp].
  rewrite HA, app_length. repeat split; try assumption; lia.
Qed.

Lemma env_inv : forall s c', s_crashed (z_core s) = false -> env ts limit quota (z_core s) c' ->
  ordered_data ts (s_all c') -> Inv s -> Inv (lifted s c').
Proof.
  intros s c' Hcr He Ho (Hk & HI).
  destruct (env_cases _ _ _ _ _ _ Hcr Hk He) as (Hk' & Hnx & _).
  destruct (env_all _ _ _ _ _ Hcr He) as (l & HA).
  split; [exact Hk'|]. intros Hl. cbn in Hl. destruct (HI Hl) as (HPc & HC). split.
  - assert (forall x, In x (s_all (z_core s)) -> 1 <= ts x) as Hpos.
    { intros x Hx. apply Ho. rewrite HA. apply in_or_app. left. exact Hx. }
    unfold pc_ok in *. cbn [lifted z_pc z_core].
    destruct (z_pc s).
    + exact HPc.
    + destruct HPc as [[B N]|(W & A & F)]; [left; split; [exact B|congruence]|right; exists W; split; [apply at_env; assumption|apply (filed_env s c' l); assumption]].
    + destruct HPc as [[B N]|(W & A & F)]; [left; split; [exact B|congruence]|right; exists W; split; [apply at_env; assumption|apply (filed_env s c' l); assumption]].
    + destruct HPc as (B & Q). split; [exact B|]. apply (quiet_env _ _ _ _ _ _ Hcr Hk He Hpos Q).
    + destruct HPc as (B & Q & L & I & O'). destruct (quiet_env _ _ _ _ _ _ Hcr Hk He Hpos Q) as (Q' & Ep).
      split; [exact B|]. split; [exact Q'|]. rewrite Ep, HA, app_length. split; [lia|]. split; [exact I|exact O'].
    + destruct HPc as (B & g & j & H & O' & J & I & N). split; [exact B|]. exists g, j.
      split; [apply (held_env _ _ _ _ _ _ _ Hcr Hk He H)|]. split; [exact O'|]. rewrite HA, app_length. split; [lia|]. split; [exact I|exact N].
    + destruct HPc as (W & A & F). exists W. split; [apply at_env; assumption|apply (filed_env s c' l); assumption].
    + destruct HPc as (W & A & F & N). exists W. split; [apply at_env; assumption|]. split; [apply (filed_env s c' l); assumption|apply (ends_env s c' l); assumption].
    + destruct HPc as (W & len & d & A & N & D1 & D2 & D3 & D4 & F & R). exists W, len, d.
      split; [apply at_env; assumption|]. split; [apply (ends_env s c' l); assumption|].
      repeat split; try assumption; try apply R. apply (filed_env s c' l); assumption.
    + destruct HPc as (W & A & F & N). exists W. split; [apply at_env; assumption|]. split; [apply (filed_env s c' l); assumption|apply (ends_env s c' l); assumption].
    + destruct HPc as [[B N]|(W & A & F)]; [left; split; [exact B|congruence]|right; exists W; split; [apply at_env; assumption|apply (filed_env s c' l); assumption]].
    + destruct HPc as (W & len & d & A & N & D1 & D2 & D3 & D4 & F & R). exists W, len, d.
      split; [apply at_env; assumption|]. 
      repeat split; try assumption. apply (filed_env s c' l); assumption.
    + destruct HPc as [B|(W & hi & A & F & R)]; [left; exact B|]. right. exists W, hi. split; [apply at_env; assumption|].
      split; [apply (filed_env s c' l); assumption|exact R].
  - intros Hop Hsh. destruct (HC Hop Hsh) as (k0 & m & C1 & C2 & C3). exists k0, m. cbn [lifted z_core z_file z_oldest]. split; [exact C1|].
    rewrite HA, app_length. split; [lia|]. rewrite bytes_app; [exact C3|exact HP|nia|nia].
Qed.

(* steps of the recording thread *)
Lemma with_next_ok : forall (c : rstate E) v, core_ok c -> core_ok (with_next c v).
Proof. intros c v (Hb & Hq). split; [apply (base_same n c); auto|exact Hq]. Qed.

Lemma closed_same : forall s s', (z_short s' = false -> z_short s = false) -> z_open s' = z_open s -> z_file s' = z_file s -> s_all (z_core s') = s_all (z_core s) ->
  (z_open s = false -> z_oldest s' = z_oldest s) -> closed_ok s -> closed_ok s'.
Proof.
  intros s s' H0 H1 H2 H3 H4 C Ho Hs. rewrite H1 in Ho. destruct (C Ho (H0 Hs)) as (k0 & m & C1 & C2 & C3). exists k0, m.
  rewrite H2, H3, (H4 Ho). auto.
Qed.

Lemma filed_same : forall s s' hi, (z_short s' = false -> z_short s = false) -> z_open s' = z_open s -> z_file s' = z_file s -> s_all (z_core s') = s_all (z_core s) ->
  z_oldest s' = z_oldest s -> filed s hi -> filed s' hi.
Proof.
  intros s s' hi H0 H1 H2 H3 H4 F Ho Hs. rewrite H1 in Ho. destruct (F Ho (H0 Hs)) as (k0 & F1 & F2). exists k0.
  unfold total in *. rewrite H2, H3, H4. auto.
Qed.

Lemma div_step : forall W d, 0 <= W -> 0 <= d -> W / P <= (W + d) / P.
Proof. intros. apply Z.div_le_mono; lia. Qed.

Lemma at_move : forall s W len (p : zpc) v, ordered_data ts (s_all (z_core s)) -> at_ s W -> 0 <= len ->
  W + len <= (total s - 1) * P -> v = addr0 + (W + len) mod lap -> at_ (goto_wp s v p) (W + len).
Proof.
  intros s W len p v Ho A Hl Hr Hv. pose proof (at_range _ _ A) as (R1 & R2 & R3). destruct A as (A1 & A2 & A3 & A4 & A5).
  pose proof (div_step W len R1 Hl).
  assert ((W + len) / P < total s) by (apply Z.div_lt_upper_bound; nia).
  split; [lia|]. split; [cbn; rewrite Hv; reflexivity|]. split; [|split; [exact A4|exact Hr]].
  cbn [goto_wp z_core]. apply (guard_mono ts _ _ _ Ho A3). unfold total in *. lia.
Qed.

Lemma wp_move : forall W len, 0 <= len -> W mod lap + len <= lap ->
  forall nx, (nx = addr0 + W mod lap + len \/ W mod lap + len = lap /\ nx = addr0) ->
  (if nx =? addr0 + lap then addr0 else nx) = addr0 + (W + len) mod lap.
Proof.
  intros W len Hl Hb nx Hx. pose proof lap_pos as HL.
  destruct (Z.eq_dec (W mod lap + len) lap) as [Ee|Hne].
  - rewrite (lap_end n P HP Hn _ _ Ee). destruct Hx as [->|[_ ->]]; destruct (_ =? _) eqn:X; lia.
  - rewrite (lap_add n P HP Hn) by lia. destruct Hx as [->|[X _]]; [|lia]. destruct (_ =? _) eqn:X; lia.
Qed.

Lemma append_filed : forall s p W d (g : zpc), core_ok (z_core s) -> at_ s W -> 0 <= d -> W + d < total s * P ->
  p = addr0 + (W + d) mod lap -> filed s (W + d) ->
  filed (mk_z (z_core s) g (z_wp s) (z_endp s) (z_open s) (z_file s ++ [byte_at s p]) (z_counted s) (z_warnings s)
              (z_short s) (z_lost s) (z_oldest s)) (W + (d + 1)).
Proof.
  intros s p W d g (Hb & _) A Hd Hlt Hp F Ho Hs. cbn in Ho, Hs. pose proof (at_range _ _ A) as (R1 & R2 & R3).
  destruct (F Ho Hs) as (k0 & F1 & F2 & F3 & F4). exists k0. unfold total in *. cbn [z_core z_oldest z_file].
  split; [exact F1|]. split; [lia|]. split; [lia|].
  pose proof (div_step W d R1 Hd).
  assert ((W + d) / P < Z.of_nat (length (s_all (z_core s)))) by (apply Z.div_lt_upper_bound; lia).
  rewrite Hp, (byte_at_pos n P addr0 HP Hn s (W + d) Hb) by lia.
  replace (Z.to_nat (W + (d + 1) - Z.of_nat k0 * P)) with (S (Z.to_nat (W + d - Z.of_nat k0 * P))) by lia.
  rewrite bytes_snoc, F4. do 3 f_equal. lia.
Qed.

(* result of the write call *)
Lemma zwrite_fields : forall (s : zst) a len ret p, let s' := zwrite s a len ret p in
  z_core s' = z_core s /\ z_wp s' = z_wp s /\ z_endp s' = z_endp s /\ z_open s' = z_open s /\ z_file s' = z_file s /\
  z_lost s' = z_lost s /\ z_oldest s' = z_oldest s /\
  (0 <= len -> exists m, z_pc s' = p m /\ 0 <= m <= len /\
     (if z_open s then z_short s' = false -> m = len else m = 0)) /\
  (z_short s' = false -> z_short s = false).
Proof.
  intros s a len ret p. unfold zwrite. cbn. repeat split.
  - intros Hl. eexists. split; [reflexivity|]. split; [lia|]. destruct (z_open s); cbn; [intros H|]; lia.
  - intros H. destruct (z_short s); [discriminate|reflexivity].
Qed.

Lemma chunk_ok : forall s k len ret nx W a, core_ok (z_core s) -> 0 <= len ->
  at_ s W -> filed s W -> closed_ok s -> ends s W (W + len) -> W mod lap + len <= lap -> a = addr0 + W mod lap ->
  (nx = addr0 + W mod lap + len \/ W mod lap + len = lap /\ nx = addr0) ->
  Inv (zwrite s a len ret (fun m => ZCopy a m nx k)).
Proof.
  intros s k len ret nx W a Hk Hl A F C N B Ea X.
  destruct (zwrite_fields s a len ret (fun m => ZCopy a m nx k)) as (E1 & E2 & E3 & E4 & E5 & E6 & E7 & E8 & E9).
  destruct (E8 Hl) as (m & Em & Bm & Hm).
  set (s' := zwrite s a len ret (fun m => ZCopy a m nx k)) in *.
  split; [rewrite E1; exact Hk|]. intros Hlost. split.
  - unfold pc_ok. rewrite Em. exists W, len, 0.
    split; [unfold at_, total in *; rewrite E1, E2; exact A|].
    split; [unfold ends, total in *; rewrite E1, E3; exact N|].
    split; [lia|]. split; [lia|]. split; [lia|]. split; [rewrite E4; destruct (z_open s); lia|].
    split; [rewrite Z.add_0_r; apply (filed_same s); first [assumption|congruence]|]. split; [lia|]. split; [lia|exact X].
  - apply (closed_same s); first [assumption|congruence|intros; congruence].
Qed.

Lemma rec_core : forall ex ret s s', zrec_step ex ret s = Some s' ->
  (z_core s' = z_core s \/ (exists v, z_core s' = with_next (z_core s) v) \/ z_core s' = crash (z_core s)) /\
  (z_short s' = false -> z_short s = false) /\ (z_lost s' = false -> z_lost s = false).
Proof.
  intros ex ret s s' H. unfold Zcopy_model.zrec_step in H.
  destruct (z_pc s); repeat match type of H with
  | None = Some _ => discriminate H
  | Some _ = Some _ => injection H as <-
  | (if ?b then _ else _) = Some _ => destruct b
  | (match ?b with Some _ => _ | None => _ end) = Some _ => destruct b
  | (let i := _ in _) = Some _ => cbv zeta in H
  end; (split; [|split]); cbn [zwrite goto goto_next goto_wp zcrash z_core z_lost z_short]; auto; try (now right; left; eexists); try discriminate;
  try (destruct (z_short s); [discriminate|reflexivity]).
Qed.

Lemma core_cases : forall c c' : rstate E, core_ok c -> c' = c \/ (exists v, c' = with_next c v) \/ c' = crash c -> core_ok c'.
Proof.
  intros c c' Hk [->|[(v & ->)| ->]]; [exact Hk|apply with_next_ok; exact Hk|].
  destruct Hk as (Hb & Hq). split; [apply (base_same n c); auto|exact Hq].
Qed.

Lemma crash_inv : forall s, Inv s -> Inv (zcrash s).
Proof.
  intros s (Hk & HI). split; [apply (core_cases (z_core s)); auto|]. intros Hl. exact (HI Hl).
Qed.

Lemma rec_inv : forall ex ret s s', zrec_step ex ret s = Some s' -> ordered_data ts (s_all (z_core s)) -> Inv s -> Inv s'.
Proof.
  intros ex ret s s' H Ho Hinv. pose proof Hinv as (Hk & HI). pose proof Hk as (Hb & Hq).
  destruct (rec_core _ _ _ _ H) as (Hc & Hms & Hml). pose proof (core_cases _ _ Hk Hc) as Hk'.
  split; [exact Hk'|]. intros Hl'. destruct (HI (Hml Hl')) as (HPc & HC). clear HI Hinv Hms Hml Hc Hk'.
  assert (r_size (s_ring (z_core s)) = n) as Hsz by (apply Hb).
  assert (end_of_buffer P addr0 s = addr0 + lap) as Heob by (unfold end_of_buffer; rewrite Hsz; reflexivity).
  unfold Zcopy_model.zrec_step in H. unfold pc_ok in HPc. destruct (z_pc s) as [| | | |i|i| |k|a m nx k|k| |a m|] eqn:Epc.
  - discriminate.
  - destruct ex; [injection H as <-; split; [exact HPc|exact HC]|].
    destruct (negb (s_requested (z_core s)) || (s_next (z_core s) =? 0)); injection H as <-; split; try exact HC; unfold pc_ok.
    + exact HPc.
    + rewrite Epc. exact HPc.
  - destruct (mutex_free (z_core s) && negb (s_requested (z_core s))) eqn:Em; [|discriminate]. injection H as <-.
    assert (s_cpc (z_core s) = CIdle) as Ecp by (apply Hq; destruct (s_requested (z_core s)); [lia|reflexivity]).
    split; [|exact HC]. unfold pc_ok. cbn [goto z_pc z_core].
    destruct (s_next (z_core s) =? 0) eqn:En.
    + destruct HPc as [(B & N)|(W & A & F)]; [|destruct A as (_ & _ & _ & A & _); lia].
      split; [exact B|]. split; [exact N|]. intros k Hkk. congruence.
    + destruct HPc as [(B & N)|(W & A & F)]; [lia|]. exists W. split; [exact A|exact F].
  - destruct HPc as (B & Q). rewrite (begin_index _ _ (b_holds _ _ Hb)) in H. rewrite skipn_length in H.
    destruct (Z.of_nat (length (s_all (z_core s)) - s_popped (z_core s)) =? 0) eqn:El.
    + rewrite Z.eqb_refl in H. injection H as <-. split; [|exact HC]. left. split; [exact B|apply Q].
    + rewrite (index_not_end _ _ _ (b_holds _ _ Hb)) in H. injection H as <-. split.
      * unfold pc_ok. cbn [z_pc z_core]. split; [exact B|]. split; [exact Q|]. split; [lia|]. split.
        -- rewrite Z.add_0_r, Hsz, (b_read _ _ Hb). rewrite Z.mod_mod by lia. reflexivity.
        -- cbn. intros ->. reflexivity.
      * apply (closed_same s); auto. cbn. intros ->. reflexivity.
  - destruct HPc as (B & (Q1 & Q2) & L & I & O'). 
    assert (s_mem (z_core s) i = nth_error (s_all (z_core s)) (s_popped (z_core s))) as Hmem.
    { rewrite I. apply (b_mem _ _ Hb); [lia|]. pose proof (stored_le n _ Hb). lia. }
    rewrite Hmem in H. destruct (nth_error (s_all (z_core s)) (s_popped (z_core s))) as [e|] eqn:Ee; [|apply nth_error_None in Ee; lia].
    injection H as <-. split; [|exact HC]. unfold pc_ok. cbn [goto_next z_pc z_core]. split; [exact B|].
    exists (s_popped (z_core s)), (s_popped (z_core s)). cbn. split; [|split; [exact O'|]].
    + split; [reflexivity|]. split; [exists e; split; [exact Ee|reflexivity]|exact Q2].
    + split; [lia|]. split; [exact I|]. intros j' Hj. lia.
  - destruct HPc as (B & g & j & Hh & O' & J & I & N). destruct (align =? 0) eqn:Ea; [lia|].
    destruct ((addr0 + i * P) mod align =? 0) eqn:Eal; cbn [negb] in H.
    + injection H as <-. split; [|exact HC]. exists (Z.of_nat j * P).
      assert (Z.of_nat j * P / P = Z.of_nat j) as Edj by (apply Z.div_mul; lia).
      split.
      * split; [nia|]. split; [cbn; do 2 f_equal; rewrite I; rewrite Z.mul_mod_distr_r by lia; reflexivity|].
        split; [|split].
        -- cbn [goto_wp z_core]. rewrite Edj, Nat2Z.id. apply (guard_mono ts _ g j Ho (held_guard _ _ _ Hh)). lia.
        -- cbn. destruct Hh as (_ & (e & H1 & H2) & _). rewrite H2. apply Ho. eapply nth_error_In; exact H1.
        -- unfold total. cbn [goto_wp z_core]. nia.
      * intros Hop Hsh. exists j. cbn [goto_wp z_core z_oldest z_file]. specialize (O' Hop). rewrite O'. split; [|split; [lia|split]].
        -- split; [lia|]. split; [|exact N]. unfold Zcopy_spec.aligned. rewrite <- I. lia.
        -- unfold total. cbn [goto_wp z_core]. nia.
        -- rewrite Z.sub_diag. destruct B as (_ & B). rewrite (B Hop). reflexivity.
    + destruct (it_good (s_ring (z_core s)) (it_incr (s_ring (z_core s)) i)) eqn:Eg; injection H as <-.
      * split; [|exact HC]. unfold pc_ok. cbn [goto z_pc z_core]. split; [exact B|]. exists g, (S j).
        pose proof (stored_le n _ Hb). destruct Hh as (Hh1 & Hh2).
        destruct (base_incr n (z_core s) j Hb ltac:(lia) ltac:(lia)) as [Ei|(Hj & Ei)].
        -- rewrite <- I in Ei. rewrite Ei, good_end in Eg. discriminate.
        -- rewrite <- I in Ei. split; [split; assumption|]. split; [exact O'|]. split; [lia|]. split; [exact Ei|].
           intros j' Hj'. destruct (Nat.eq_dec j' j) as [->|]; [|apply N; lia].
           unfold Zcopy_spec.aligned. rewrite <- I. lia.
      * cbn in Hl'. discriminate.
  - destruct HPc as (W & A & F). injection H as <-. split; [|exact HC]. exists W.
    pose proof (at_range _ _ A) as (R1 & R2 & R3). split; [exact A|]. split; [exact F|].
    pose proof A as (A1 & A2 & A3 & A4 & A5). pose proof (stored_le n _ Hb) as HL.
    unfold total in *.
    rewrite (back_index _ _ (b_holds _ _ Hb)).
    + exists (Z.of_nat (length (s_all (z_core s))) - 1). unfold total. cbn [z_core z_endp].
      split; [lia|]. split; [exact A5|]. split; [lia|].
      do 2 f_equal. rewrite Hsz, (b_read _ _ Hb), skipn_length, Zplus_mod_idemp_l. f_equal. lia.
    + intros X. apply (f_equal (@length E)) in X. rewrite skipn_length in X. cbn in X. lia.
  - destruct HPc as (W & A & F & N). pose proof A as (A1 & A2 & A3 & A4 & A5).
    destruct (k <? 100)%nat eqn:Ek.
    + rewrite A2 in H. pose proof lap_pos as HL. pose proof (Z.mod_pos_bound W lap HL) as BW.
      destruct (ends_cases s W A N) as (ke & K1 & K2 & K3 & K4).
      pose proof (Z.mod_pos_bound ke n ltac:(lia)) as BK. assert (ke mod n * P <= (n - 1) * P) by nia.
      assert (Z.of_nat 0 <= ke mod n * P) by nia.
      destruct (addr0 + W mod lap + chunk <? z_endp s) eqn:E1; [|destruct (z_endp s <? addr0 + W mod lap) eqn:E2].
      * injection H as <-.
        assert (Inv (zwrite s (addr0 + W mod lap) chunk ret (fun m => ZCopy (addr0 + W mod lap) m (addr0 + W mod lap + chunk) k))) as (_ & X).
        { apply (chunk_ok _ k chunk ret _ W); auto; try lia. exists ke. split; [lia|]. split; [lia|]. split; [lia|exact K3]. }
        exact (X Hl').
      * rewrite Heob in H.
        destruct (addr0 + W mod lap + chunk <? addr0 + lap) eqn:E3; injection H as <-.
        -- assert (Inv (zwrite s (addr0 + W mod lap) chunk ret (fun m => ZCopy (addr0 + W mod lap) m (addr0 + W mod lap + chunk) k))) as (_ & X).
           { apply (chunk_ok _ k chunk ret _ W); auto; try lia. exists ke. split; [lia|]. split; [lia|]. split; [lia|exact K3]. }
           exact (X Hl').
        -- assert (Inv (zwrite s (addr0 + W mod lap) (addr0 + lap - (addr0 + W mod lap)) ret (fun m => ZCopy (addr0 + W mod lap) m addr0 k))) as (_ & X).
           { apply (chunk_ok _ k _ ret _ W); auto; try lia. exists ke. split; [lia|]. split; [lia|]. split; [lia|exact K3]. }
           exact (X Hl').
      * injection H as <-. split; [|exact HC]. exists W. auto.
    + injection H as <-. split; [|exact HC]. right. exists W. auto.
  - destruct HPc as (W & len & d & A & N & D1 & D2 & D3 & D4 & F & Ea & B & X).
    pose proof N as (ke & K1 & K2 & K3 & K4). pose proof lap_pos as HL. pose proof (Z.mod_pos_bound W lap HL) as BW.
    destruct (0 <? m) eqn:Em; injection H as <-.
    + destruct (z_open s) eqn:Eo; [|lia]. split.
      * exists W, len, (d + 1). split; [exact A|]. split; [exact N|].
        cbn [z_open]. split; [lia|]. split; [lia|]. split; [lia|]. split; [cbn; lia|].
        split; [|split; [lia|split; [lia|exact X]]].
        rewrite <- Eo. apply append_filed; try assumption; [nia|]. rewrite (lap_add n P HP Hn) by lia. lia.
      * intros Hop. cbn in Hop. discriminate.
    + assert (W + len <= (total s - 1) * P) as Hr by nia. assert (m = 0) by lia. subst m.
      split; [|exact HC]. exists (W + len).
      split; [apply at_move; try assumption; [lia|]; rewrite Heob; apply wp_move; try assumption; lia|].
      split.
      * intros Hop Hsh. destruct (z_open s) eqn:Eo; [|cbn in Hop; congruence]. cbn in Hsh. specialize (D4 Hsh). replace len with d by lia. apply F; assumption.
      * exists ke. unfold total. cbn. split; [exact K1|]. split; [exact K2|]. split; [|exact K4].
        pose proof (at_range _ _ A) as (R1 & _). pose proof (div_step W len R1 ltac:(lia)). lia.
  - destruct HPc as (W & A & F & N). pose proof (at_range _ _ A) as (R1 & R2 & R3). pose proof A as (A1 & A2 & A3 & A4 & A5).
    rewrite A2 in H. replace (addr0 + W mod lap - addr0) with (W mod lap) in H by lia.
    unfold total in R2. rewrite (mem_pos n P HP Hn _ _ Hb R1) in H by lia.
    destruct A3 as (G1 & (e & G2 & G3) & G4). rewrite G2 in H. injection H as <-. split; [|exact HC].
    exists W. split; [|split; [exact F|exact N]].
    split; [lia|]. split; [exact A2|]. split; [|split; [|exact A5]].
    + split; [exact G1|]. split; [exists e; split; [exact G2|cbn; lia]|exact G4].
    + cbn. apply Ho. eapply nth_error_In; exact G2.
  - destruct HPc as [(B & N)|(W & A & F)].
    + destruct B as (B1 & B2). rewrite B1 in H. injection H as <-. split; [|exact HC]. left. split; assumption.
    + pose proof (at_range _ _ A) as (R1 & R2 & R3). pose proof A as (A1 & A2 & A3 & A4 & A5).
      rewrite A2 in H. unfold frame_start in H. replace (addr0 + W mod lap - addr0) with (W mod lap) in H by lia.
      pose proof (Z.div_mod (W mod lap) P ltac:(lia)) as D1. rewrite (pos_off n P HP Hn) in D1.
      pose proof (Z.div_mod W P ltac:(lia)) as D2. pose proof (Z.mod_pos_bound W P HP) as BP.
      assert (addr0 + W mod lap / P * P = addr0 + W mod lap - W mod P) as Ef by lia. rewrite Ef in H.
      destruct (addr0 + W mod lap - W mod P =? addr0 + W mod lap) eqn:E1; injection H as <-.
      * split; [|exact HC]. right. exists W, W. split; [exact A|]. split; [exact F|]. split; lia.
      * set (len := addr0 + W mod lap - W mod P + P - (addr0 + W mod lap)) in *.
        destruct (zwrite_fields s (addr0 + W mod lap) len ret (fun m => ZCopyLast (addr0 + W mod lap) m)) as (E2 & E3 & E4 & E5 & E6 & E7 & E8 & E9 & E10).
        destruct (E9 ltac:(lia)) as (m & Em & Bm & Hm). split.
        -- unfold pc_ok. rewrite Em. exists W, len, 0. split; [unfold at_, total in *; rewrite E2, E3; exact A|].
           split; [lia|]. split; [lia|]. split; [lia|]. split; [lia|]. split; [rewrite E5; destruct (z_open s); lia|].
           split; [rewrite Z.add_0_r; apply (filed_same s); first [assumption|congruence]|lia].
        -- apply (closed_same s); first [assumption|congruence|intros; congruence].
  - destruct HPc as (W & len & d & A & N & D1 & D2 & D3 & D4 & F & Ea).
    pose proof (at_range _ _ A) as (R1 & R2 & R3). pose proof lap_pos as HL. pose proof (Z.mod_pos_bound W lap HL) as BW.
    destruct (0 <? m) eqn:Em; injection H as <-.
    + destruct (z_open s) eqn:Eo; [|lia]. split.
      * exists W, len, (d + 1). split; [exact A|]. split; [exact N|].
        cbn [z_open]. split; [lia|]. split; [lia|]. split; [lia|]. split; [cbn; lia|].
        split; [|lia].
        rewrite <- Eo. apply append_filed; try assumption; [nia|].
        assert ((W + d) / P = W / P) as Ed. { symmetry. apply (Z.div_unique (W + d) P (W / P) (W mod P + d)); [|pose proof (Z.div_mod W P ltac:(lia)); lia].
          left. pose proof (Z.div_mod W P ltac:(lia)). pose proof (Z.mod_pos_bound W P HP). lia. }
        rewrite Ea. enough ((W + d) mod lap = W mod lap + d) by lia.
        rewrite !(pos_split n P HP Hn). rewrite Ed.
        pose proof (Z.div_mod W P ltac:(lia)). pose proof (Z.div_mod (W + d) P ltac:(lia)). rewrite Ed in *. lia.
      * intros Hop. cbn in Hop. discriminate.
    + assert (m = 0) by lia. subst m. split; [|exact HC]. right.
      exists W, (W + len). split; [exact A|]. split; [|split; [lia|]].
      * intros Hop Hsh. destruct (z_open s) eqn:Eo; [|cbn in Hop; congruence]. cbn in Hsh. specialize (D4 Hsh). replace len with d by lia. apply F; assumption.
      * replace (W + len) with ((W / P + 1) * P) by lia. apply Z.mod_mul. lia.
  - injection H as <-. split; [unfold pc_ok; cbn; discriminate|]. intros _ Hsh. cbn in Hsh. cbn [z_core z_file z_oldest with_next s_all].
    destruct (z_open s) eqn:Eo.
    + destruct HPc as [(B1 & B2)|(W & hi & A & F & Hw & Hm)].
      * exists 0%nat, 0%nat. split; [left; reflexivity|]. split; [lia|]. rewrite (B2 Eo). reflexivity.
      * destruct (F Eo Hsh) as (k0 & F1 & F2 & F3 & F4). unfold total in F3.
        pose proof (Z.div_mod hi P ltac:(lia)) as Dh. rewrite Hm in Dh.
        assert (Z.of_nat k0 <= hi / P) by nia. assert (hi / P <= Z.of_nat (length (s_all (z_core s)))) by nia.
        exists k0, (Z.to_nat (hi / P) - k0)%nat. split; [right; exact F1|]. split; [lia|].
        rewrite F4. f_equal. f_equal. rewrite Nat2Z.inj_sub by lia. rewrite Z2Nat.id by lia. lia.
    + destruct (HC Eo Hsh) as (k0 & m & C). exists k0, m. exact C.
Qed.
End Proofs.
