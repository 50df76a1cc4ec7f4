From Coq Require Import ZArith List Bool Lia ZifyBool.
From Verif Require Import Base_model Ring_model Ring_spec Ring_proofs Record_model Record_spec Record_proofs Record_proofs2 Zcopy_model Zcopy_spec
  Zcopy_proofs Zcopy_proofs2 Zcopy_proofs3.
Import ListNotations.
Open Scope Z_scope.

Section Proofs.
Context {E : Type}.
Variable ts : E -> Z.
Variable limit : Z.
Variable quota : Z -> Z.
Variable n P chunk align addr0 : Z.
Hypothesis HP : 0 < P.
Hypothesis Hn : 2 <= n.
Hypothesis Hchunk : 0 <= chunk.
Hypothesis Halign : align <> 0.

Notation clean_step := (clean_step ts limit quota).
Notation astep := (Record_model.astep ts (fun _ => 0) limit quota).
Notation zrec_step := (zrec_step ts P chunk align addr0).
Notation zstep := (zstep ts limit quota P chunk align addr0).
Notation zrun := (zrun ts limit quota P chunk align addr0).
Notation aligned := (aligned n P align addr0).
Notation first_aligned := (first_aligned n P align addr0).
Notation guard := (guard ts).
Notation core_ok := (core_ok n).
Notation lap := (n * P).
Notation zst := (@zstate E).
Notation Inv := (Inv ts n P align addr0).
Notation at_ := (at_ ts n P addr0).
Notation filed := (filed n P align addr0).
Notation ends := (ends n P addr0).

(* --- no null dereference --- *)
Lemma env_clean_ok : forall c a c', 0 <= limit -> (forall o, 0 < o -> quota o < o) -> core_ok c -> clean_ok c ->
  match a with ZWrite x => astep c (AWrite x) = Some c' | ZClean => clean_step c = Some c' | _ => False end -> clean_ok c'.
Proof.
  intros s a s' Hlim Hq (Hb & _) [Hc Hk] H. destruct a as [x| | |]; try contradiction.
  - unfold Record_model.astep in H. rewrite Hc in H.
    destruct (write x (s_ring s)) as [[r [|]]|] eqn:Ew; [| |exfalso; exact (write_not_crash n s x Hb Ew)]; injection H as <-; split; cbn.
    + reflexivity.
    + rewrite app_length. cbn [length]. destruct (s_cpc s); try exact I; lia.
    + reflexivity.
    + exact Hk.
  - unfold Record_model.clean_step in H. destruct (s_cpc s) as [| |[|k]|k|] eqn:Ec.
    + destruct (limit <? occupancy (s_ring s)); injection H as <-; split; cbn; rewrite ?Ec; auto.
    + destruct (s_running s =? 0); [|discriminate].
      rewrite (occupancy_base _ _ Hb) in H.
      destruct (limit <? Z.of_nat (length (s_all s) - s_popped s)) eqn:El; injection H as <-; split; cbn; auto.
      specialize (Hq (Z.of_nat (length (s_all s) - s_popped s)) ltac:(lia)). lia.
    + injection H as <-; split; cbn; [exact Hc|lia].
    + rewrite (base_front _ _ Hb) in H.
      destruct (nth_error (s_all s) (s_popped s)) as [y|] eqn:Ey; [|apply nth_error_None in Ey; lia].
      destruct (ts y <? s_next s); injection H as <-; split; cbn; auto; lia.
    + destruct (pop 1 (s_ring s)) as [r|] eqn:Epop.
      * injection H as <-. split; cbn; [exact Hc|lia].
      * exfalso. destruct (pop_ok 1 _ _ (b_holds _ _ Hb)) as (r' & E1 & _); [rewrite skipn_length; lia|]. congruence.
    + rewrite (base_front _ _ Hb) in H.
      destruct (nth_error (s_all s) (s_popped s)) as [y|] eqn:Ey; [|apply nth_error_None in Ey; lia].
      injection H as <-; split; cbn; auto.
Qed.

Lemma rec_no_crash : forall ex ret s s', zrec_step ex ret s = Some s' -> Inv s -> z_lost s = false ->
  s_crashed (z_core s) = false -> s_crashed (z_core s') = false.
Proof.
  intros ex ret s s' H (Hk & HI) Hl Hc. destruct (HI Hl) as (HPc & _). clear HI. pose proof Hk as (Hb & _).
  unfold Zcopy_model.zrec_step in H. unfold pc_ok in HPc. destruct (z_pc s) as [| | | |i|i| |k|a m nx k|k| |a m|] eqn:Epc.
  - discriminate.
  - destruct ex; [injection H as <-; exact Hc|]. destruct (_ || _); injection H as <-; exact Hc.
  - destruct (_ && _); [|discriminate]. injection H as <-. exact Hc.
  - destruct (_ =? _); injection H as <-; exact Hc.
  - destruct HPc as (_ & _ & L & I & _). pose proof (stored_le n _ Hb).
    rewrite I, (b_mem _ _ Hb) in H by lia.
    destruct (nth_error (s_all (z_core s)) (s_popped (z_core s))) eqn:Ee; [injection H as <-; exact Hc|apply nth_error_None in Ee; lia].
  - destruct (align =? 0) eqn:Ea; [lia|]. destruct (negb _); [destruct (it_good _ _)|]; injection H as <-; exact Hc.
  - injection H as <-. exact Hc.
  - destruct HPc as (W & (_ & A & _) & _). rewrite A in H.
    destruct (_ <? _)%nat; [|injection H as <-; exact Hc].
    destruct (_ <? _); [|destruct (_ <? _); [destruct (_ <? _)|]]; injection H as <-; exact Hc.
  - destruct (_ <? _); injection H as <-; exact Hc.
  - destruct HPc as (W & A & _). pose proof (at_range ts n P addr0 HP _ _ A) as (R1 & R2 & R3). destruct A as (_ & A & (G1 & (e & G2 & _) & _) & _).
    rewrite A in H. replace (addr0 + W mod lap - addr0) with (W mod lap) in H by lia. unfold total in R2.
    rewrite (mem_pos n P HP Hn _ _ Hb R1), G2 in H by lia. injection H as <-. exact Hc.
  - destruct (z_wp s); [destruct (_ =? _)|]; injection H as <-; exact Hc.
  - destruct (_ <? _); injection H as <-; exact Hc.
  - injection H as <-. exact Hc.
Qed.

Lemma no_crash_run : forall acts s s', 0 <= limit -> (forall o, 0 < o -> quota o < o) -> zrun s acts = Some s' ->
  ordered_data ts (s_all (z_core s')) -> Inv s -> clean_ok (z_core s) -> z_lost s' = false -> clean_ok (z_core s').
Proof.
  induction acts as [|a acts IH]; intros s s' Hlim Hq H Ho Hi Hk Hl; cbn in H; [injection H as <-; exact Hk|].
  destruct (zstep s a) as [s1|] eqn:E1; [|discriminate].
  assert (ordered_data ts (s_all (z_core s1))) as Ho1.
  { destruct (run_all _ _ _ _ _ _ _ _ _ _ H) as [l El]. rewrite El in Ho. exact (ordered_prefix _ _ _ Ho). }
  assert (Inv s1) as Hi1 by (exact (step_inv ts limit quota n P chunk align addr0 HP Hn Hchunk Halign _ _ _ E1 Ho1 Hi)).
  assert (forall z acts', zrun z acts' = Some s' -> z_lost z = false) as Hlost.
  { intros z acts'. revert z. induction acts' as [|b acts' IHa]; intros z Hz; cbn in Hz; [injection Hz as <-; exact Hl|].
    destruct (zstep z b) as [z1|] eqn:Ez; [|discriminate]. specialize (IHa _ Hz).
    destruct (step_cases _ _ _ _ _ _ _ _ _ _ Ez) as (_ & [(c' & _ & -> & _)|[(_ & _ & ->)|(ex & ret & _ & Hr)]]); try exact IHa.
    apply (rec_core _ _ _ _ _ _ _ _ _ Hr). exact IHa. }
  apply (IH s1 s' Hlim Hq H Ho Hi1); [|exact Hl].
  assert (z_lost s = false) as Hls. { apply (Hlost s (a :: acts)). cbn. rewrite E1. exact H. }
  destruct (step_cases _ _ _ _ _ _ _ _ _ _ E1) as (Hc & [(c' & _ & -> & He)|[(_ & _ & ->)|(ex & ret & _ & Hr)]]).
  - cbn. exact (env_clean_ok _ _ _ Hlim Hq (proj1 Hi) Hk He).
  - exact Hk.
  - pose proof (rec_no_crash _ _ _ _ Hr Hi Hls Hc) as Hc'. destruct Hk as (_ & Hk). split; [exact Hc'|].
    destruct (rec_core _ _ _ _ _ _ _ _ _ Hr) as ([->|[(v & ->)|Ec]] & _); try exact Hk. rewrite Ec in Hc'. discriminate.
Qed.

Lemma no_crash_lemma : forall acts s, supported_size n -> 0 <= limit -> (forall o, 0 < o -> quota o < o) ->
  zrun (zinit n) acts = Some s -> ordered_data ts (s_all (z_core s)) -> z_lost s = false -> s_crashed (z_core s) = false.
Proof.
  intros acts s Hs Hlim Hq H Ho Hl.
  apply (no_crash_run acts (zinit n) s Hlim Hq H Ho); [apply init_inv; exact Hs|split; cbn; auto|exact Hl].
Qed.

(* --- no aligned element --- *)
Definition J (s : zst) : Prop :=
  let c := z_core s in
  match z_pc s with
  | ZBegin => quiet c
  | ZSet i => quiet c /\ (s_popped c < length (s_all c))%nat /\ i = Z.of_nat (s_popped c) mod n
  | ZSkip i => no_pop c /\ (exists e, nth_error (s_all c) (s_popped c) = Some e /\ s_next c <= ts e) /\ (i = it_end -> s_next c = 0)
  | _ => True
  end.

Definition positive (l : list E) : Prop := forall x, In x l -> 1 <= ts x.

Lemma skip_env : forall c c', s_crashed c = false -> core_ok c -> env ts limit quota c c' ->
  no_pop c -> (exists e, nth_error (s_all c) (s_popped c) = Some e /\ s_next c <= ts e) ->
  no_pop c' /\ s_popped c' = s_popped c /\ s_next c' = s_next c /\ (exists e, nth_error (s_all c') (s_popped c') = Some e /\ s_next c' <= ts e).
Proof.
  intros c c' Hcr Hk He Hp (e & G1 & G2).
  destruct (env_cases _ _ _ _ _ _ Hcr Hk He) as (_ & Hx & [((l & HA) & Hpo & Hc)|((k & Hc) & _)]); [|exfalso; exact (Hp k Hc)].
  split; [|split; [exact Hpo|split; [exact Hx|]]].
  - intros k Hk'. destruct (Hc k Hk') as [Ho|(x & Hx' & Hlt)]; [exact (Hp k Ho)|]. rewrite G1 in Hx'. injection Hx' as ->. lia.
  - exists e. rewrite HA, Hpo, Hx. split; [apply nth_app_some; exact G1|exact G2].
Qed.

Lemma J_step : forall s a s', zstep s a = Some s' -> positive (s_all (z_core s)) -> core_ok (z_core s) -> J s -> J s'.
Proof.
  intros s a s' H Hpos Hk HJ. pose proof Hk as (Hb & Hq).
  destruct (step_cases _ _ _ _ _ _ _ _ _ _ H) as (Hcr & [(c' & He & -> & _)|[(_ & _ & ->)|(ex & ret & _ & Hr)]]).
  - unfold J in *. cbn [lifted z_pc z_core]. destruct (z_pc s); auto.
    + apply (quiet_env ts limit quota n _ _ Hcr Hk He Hpos HJ).
    + destruct HJ as (Q & L & I). destruct (quiet_env ts limit quota n _ _ Hcr Hk He Hpos Q) as (Q' & Ep).
      destruct (env_all _ _ _ _ _ Hcr He) as (l & HA). split; [exact Q'|]. rewrite Ep, HA, app_length. split; [lia|exact I].
    + destruct HJ as (J1 & J2 & J3). destruct (skip_env _ _ Hcr Hk He J1 J2) as (X1 & _ & X2 & X3). split; [exact X1|]. split; [exact X3|].
      rewrite X2. exact J3.
  - exact I.
  - unfold Zcopy_model.zrec_step in Hr. unfold J in HJ. destruct (z_pc s) as [| | | |i|i| |k|a' m nx k|k| |a' m|] eqn:Epc.
    + discriminate.
    + destruct ex; [injection Hr as <-; exact I|]. destruct (_ || _); injection Hr as <-; [exact I|]. unfold J. rewrite Epc. exact I.
    + destruct (mutex_free (z_core s) && negb (s_requested (z_core s))) eqn:Em; [|discriminate]. injection Hr as <-.
      assert (s_cpc (z_core s) = CIdle) as Ecp by (apply Hq; destruct (s_requested (z_core s)); [lia|reflexivity]).
      unfold J. cbn [goto z_pc z_core]. destruct (s_next (z_core s) =? 0) eqn:E0; [|exact I]. split; [lia|]. intros k Hk'. congruence.
    + rewrite (begin_index _ _ (b_holds _ _ Hb)), skipn_length in Hr.
      destruct (Z.of_nat (length (s_all (z_core s)) - s_popped (z_core s)) =? 0) eqn:El.
      * rewrite Z.eqb_refl in Hr. injection Hr as <-. exact I.
      * rewrite (index_not_end _ _ _ (b_holds _ _ Hb)) in Hr. injection Hr as <-. unfold J. cbn [z_pc z_core].
        split; [exact HJ|]. split; [lia|]. rewrite Z.add_0_r, (b_size _ _ Hb), (b_read _ _ Hb). rewrite Z.mod_mod by lia. reflexivity.
    + destruct HJ as ((Q1 & Q2) & L & Ei). pose proof (stored_le n _ Hb).
      rewrite Ei, (b_mem _ _ Hb) in Hr by lia.
      destruct (nth_error (s_all (z_core s)) (s_popped (z_core s))) as [e|] eqn:Ee; [|apply nth_error_None in Ee; lia].
      injection Hr as <-. unfold J. cbn [goto_next z_pc z_core with_next s_all s_popped s_next]. split; [exact Q2|]. split.
      * exists e. split; [exact Ee|lia].
      * intros X. pose proof (base_n _ _ Hb). pose proof (Z.mod_pos_bound (Z.of_nat (s_popped (z_core s))) n ltac:(lia)).
        unfold it_end, max_u32 in X. lia.
    + destruct HJ as (J1 & (e & J2 & J2') & J3). destruct (align =? 0); [injection Hr as <-; unfold J; cbn; rewrite Epc; eauto|].
      destruct (negb _); [|injection Hr as <-; exact I].
      destruct (it_good (s_ring (z_core s)) (it_incr (s_ring (z_core s)) i)) eqn:Eg; injection Hr as <-; unfold J; cbn [goto z_pc z_core with_next s_all s_popped s_next s_cpc].
      * split; [exact J1|]. split; [eauto|]. intros X. rewrite X, good_end in Eg. discriminate.
      * split; [exact J1|]. split; [|reflexivity]. exists e. split; [exact J2|]. specialize (Hpos e ltac:(eapply nth_error_In; exact J2)). lia.
    + injection Hr as <-. exact I.
    + destruct (_ <? _)%nat; [|injection Hr as <-; exact I]. destruct (z_wp s); [|injection Hr as <-; unfold J; cbn; rewrite Epc; exact I].
      destruct (_ <? _); [|destruct (_ <? _); [destruct (_ <? _)|]]; injection Hr as <-; exact I.
    + destruct (_ <? _); injection Hr as <-; exact I.
    + destruct (z_wp s); [destruct (s_mem _ _)|]; injection Hr as <-; unfold J; cbn; rewrite ?Epc; exact I.
    + destruct (z_wp s); [destruct (_ =? _)|]; injection Hr as <-; exact I.
    + destruct (_ <? _); injection Hr as <-; exact I.
    + injection Hr as <-. exact I.
Qed.

Lemma step_core : forall s a s', zstep s a = Some s' -> core_ok (z_core s) -> core_ok (z_core s').
Proof.
  intros s a s' H Hk. destruct (step_cases _ _ _ _ _ _ _ _ _ _ H) as (Hcr & [(c' & He & -> & _)|[(_ & _ & ->)|(ex & ret & _ & Hr)]]).
  - apply (env_cases _ _ _ _ _ _ Hcr Hk He).
  - cbn. apply (with_next_ok n); exact Hk.
  - destruct (rec_core _ _ _ _ _ _ _ _ _ Hr) as (Hc & _). exact (core_cases n _ _ Hk Hc).
Qed.

Lemma J_run : forall acts s s', zrun s acts = Some s' -> positive (s_all (z_core s')) -> core_ok (z_core s) -> J s ->
  J s' /\ core_ok (z_core s').
Proof.
  induction acts as [|a acts IH]; intros s s' H Hp Hk HJ; cbn in H; [injection H as <-; auto|].
  destruct (zstep s a) as [s1|] eqn:E1; [|discriminate]. destruct (run_all _ _ _ _ _ _ _ _ _ _ H) as [l El].
  destruct (step_all _ _ _ _ _ _ _ _ _ _ E1) as [l1 El1].
  apply (IH s1 s' H Hp).
  - exact (step_core _ _ _ E1 Hk).
  - apply (J_step s a s1 E1); [|exact Hk|exact HJ]. intros x Hx. apply Hp. rewrite El, El1. apply in_or_app. left. apply in_or_app. left. exact Hx.
Qed.

Definition stuck (s : zst) : Prop := z_pc s = ZSkip it_end.

Lemma write_stored : forall c x c', core_ok c -> s_crashed c = false -> astep c (AWrite x) = Some c' ->
  skipn (s_popped c') (s_all c') = firstn (Z.to_nat (n - 1)) (skipn (s_popped c) (s_all c) ++ [x]).
Proof.
  intros c x c' (Hb & _) Hc H. pose proof (h_len _ _ (b_holds _ _ Hb)) as HL. rewrite (b_size _ _ Hb) in HL.
  pose proof (b_le _ _ Hb) as Hle.
  unfold Record_model.astep in H. rewrite Hc in H.
  destruct (write x (s_ring c)) as [[r [|]]|] eqn:Ew; injection H as <-; cbn [s_popped s_all].
  - pose proof (base_awrite n c x r Hb Ew) as Hb'. pose proof (h_len _ _ (b_holds _ _ Hb')) as HL'.
    rewrite (b_size _ _ Hb') in HL'. cbn [s_popped s_all] in HL'.
    assert (skipn (s_popped c) (s_all c ++ [x]) = skipn (s_popped c) (s_all c) ++ [x]) as Hsk.
    { rewrite skipn_app. replace (s_popped c - length (s_all c))%nat with O by lia. reflexivity. }
    rewrite Hsk. symmetry. apply firstn_all2. rewrite <- Hsk. lia.
  - assert (Z.of_nat (length (skipn (s_popped c) (s_all c))) = n - 1) as Hfull.
    { destruct (Z.eq_dec (Z.of_nat (length (skipn (s_popped c) (s_all c)))) (n - 1)) as [|Hne]; [assumption|].
      destruct (write_ok _ _ x (b_holds _ _ Hb)) as (r' & E1 & _); [rewrite (b_size _ _ Hb); lia|]. congruence. }
    rewrite <- Hfull, Nat2Z.id. rewrite firstn_app, Nat.sub_diag, firstn_all. cbn. rewrite app_nil_r. reflexivity.
  - exfalso. exact (write_not_crash n c x Hb Ew).
Qed.

Lemma zarrivals_cons : forall (a : zaction (E := E)) acts, zarrivals (a :: acts) = zarrivals [a] ++ zarrivals acts.
Proof. intros [] acts; reflexivity. Qed.

Lemma stuck_step : forall s a s', (addr0 + it_end * P) mod align <> 0 -> zstep s a = Some s' ->
  core_ok (z_core s) -> J s -> stuck s ->
  stuck s' /\ z_file s' = z_file s /\ s_popped (z_core s') = s_popped (z_core s) /\
  zstored s' = firstn (Z.to_nat (n - 1)) (zstored s ++ zarrivals [a]).
Proof.
  intros s a s' Hal H Hk HJ Hst. unfold J in HJ. rewrite Hst in HJ. destruct HJ as (J1 & J2 & _). pose proof Hk as (Hb & _).
  assert (firstn (Z.to_nat (n - 1)) (zstored s ++ []) = zstored s) as Hsame.
  { rewrite app_nil_r. apply firstn_all2. pose proof (h_len _ _ (b_holds _ _ Hb)) as HL. rewrite (b_size _ _ Hb) in HL. unfold zstored. lia. }
  destruct (step_cases _ _ _ _ _ _ _ _ _ _ H) as (Hcr & [(c' & He & -> & Hm)|[(_ & Ep & _)|(ex & ret & -> & Hr)]]).
  - destruct (skip_env _ _ Hcr Hk He J1 J2) as (_ & Xp & _). split; [exact Hst|]. split; [reflexivity|]. split; [exact Xp|].
    destruct a as [x| | |]; try contradiction.
    + exact (write_stored _ _ _ Hk Hcr Hm).
    + cbn [zarrivals]. rewrite Hsame. unfold zstored. cbn [lifted z_core]. rewrite Xp. f_equal.
      unfold Record_model.clean_step in Hm. destruct (s_cpc (z_core s)) as [| |[|k]|k|]; repeat match type of Hm with
      | None = Some _ => discriminate Hm
      | Some _ = Some _ => injection Hm as <-
      | (if ?b then _ else _) = Some _ => destruct b
      end; try reflexivity.
      * destruct (deref_opt _ _) as [[y|]|]; [destruct (ts y <? _)| |]; injection Hm as <-; reflexivity.
      * destruct (pop 1 _); injection Hm as <-; reflexivity.
      * destruct (deref_opt _ _) as [[y|]|]; injection Hm as <-; reflexivity.
  - rewrite Hst in Ep. discriminate.
  - cbn [zarrivals]. rewrite Hsame. unfold Zcopy_model.zrec_step in Hr. rewrite Hst in Hr.
    destruct (align =? 0) eqn:Ea; [lia|]. destruct ((addr0 + it_end * P) mod align =? 0) eqn:Eb; [lia|]. cbn [negb] in Hr.
    rewrite incr_end, good_end in Hr. injection Hr as <-. split; [reflexivity|]. split; [reflexivity|]. split; reflexivity.
Qed.

Lemma stuck_run : forall acts s s', (addr0 + it_end * P) mod align <> 0 -> zrun s acts = Some s' ->
  positive (s_all (z_core s')) -> core_ok (z_core s) -> J s -> stuck s ->
  stuck s' /\ z_file s' = z_file s /\ s_popped (z_core s') = s_popped (z_core s) /\
  zstored s' = firstn (Z.to_nat (n - 1)) (zstored s ++ zarrivals acts).
Proof.
  induction acts as [|a acts IH]; intros s s' Hal H Hp Hk HJ Hst; cbn in H.
  - injection H as <-. split; [exact Hst|]. split; [reflexivity|]. split; [reflexivity|]. cbn [zarrivals]. rewrite app_nil_r.
    symmetry. apply firstn_all2. destruct Hk as (Hb & _). pose proof (h_len _ _ (b_holds _ _ Hb)) as HL. rewrite (b_size _ _ Hb) in HL. unfold zstored. lia.
  - destruct (zstep s a) as [s1|] eqn:E1; [|discriminate].
    destruct (stuck_step _ _ _ Hal E1 Hk HJ Hst) as (S1 & S2 & S3 & S4).
    destruct (run_all _ _ _ _ _ _ _ _ _ _ H) as [l El]. destruct (step_all _ _ _ _ _ _ _ _ _ _ E1) as [l1 El1].
    assert (J s1) as HJ1.
    { apply (J_step s a s1 E1); [|exact Hk|exact HJ]. intros x Hx. apply Hp. rewrite El, El1. apply in_or_app. left. apply in_or_app. left. exact Hx. }
    destruct (IH s1 s' Hal H Hp (step_core _ _ _ E1 Hk) HJ1 S1) as (T1 & T2 & T3 & T4).
    split; [exact T1|]. split; [congruence|]. split; [congruence|]. rewrite T4, S4, (zarrivals_cons a acts), app_assoc. apply firstn_twice.
Qed.

Lemma hang_lemma : forall acts s acts' s', supported_size n -> (addr0 + it_end * P) mod align <> 0 ->
  zrun (zinit n) acts = Some s -> z_pc s = ZSkip it_end -> zrun s acts' = Some s' ->
  positive (s_all (z_core s')) ->
  z_pc s' = ZSkip it_end /\ z_file s' = z_file s /\ s_popped (z_core s') = s_popped (z_core s) /\
  zstored s' = firstn (Z.to_nat (n - 1)) (zstored s ++ zarrivals acts').
Proof.
  intros acts s acts' s' Hs Hal H Hst H' Hp. destruct (run_all _ _ _ _ _ _ _ _ _ _ H') as [l El].
  destruct (J_run acts (zinit n) s H) as (HJ & Hk).
  - intros x Hx. apply Hp. rewrite El. apply in_or_app. left. exact Hx.
  - split; [apply base_init; exact Hs|reflexivity].
  - exact I.
  - exact (stuck_run acts' s s' Hal H' Hp Hk HJ Hst).
Qed.
End Proofs.
