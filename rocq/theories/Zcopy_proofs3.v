From Coq Require Import ZArith List Bool Lia ZifyBool.
From Verif Require Import Base_model Ring_model Ring_spec Ring_proofs Record_model Record_spec Record_proofs Record_proofs2 Zcopy_model Zcopy_spec
  Zcopy_proofs Zcopy_proofs2.
Import ListNotations.
Open Scope Z_scope.

Section Stream.
Context {E : Type}.
Variable P : Z.
Hypothesis HP : 0 < P.
Notation byte_of := (@byte_of E P).
Notation bytes := (@bytes E P).

Lemma bytes_split : forall l lo a b, bytes l lo (a + b) = bytes l lo a ++ bytes l (lo + Z.of_nat a) b.
Proof.
  intros l lo a b. unfold Zcopy_proofs.bytes. rewrite seq_app, map_app. f_equal. cbn [Nat.add].
  rewrite <- (Nat.add_0_r a) at 1. generalize 0%nat as c. induction b as [|b IH]; intros c; [reflexivity|].
  cbn [seq map]. f_equal; [f_equal; lia|]. rewrite <- IH. do 2 f_equal. lia.
Qed.

Lemma bytes_one : forall (l : list E) x, bytes (l ++ [x]) (Z.of_nat (length l) * P) (Z.to_nat P) = bytes_of P x.
Proof.
  intros l x. unfold Zcopy_proofs.bytes, bytes_of. apply map_ext_in. intros k Hk. apply in_seq in Hk.
  unfold Zcopy_proofs.byte_of. rewrite Z.add_comm.
  rewrite Z.div_add by lia. rewrite Z.mod_add by lia. rewrite Z.div_small, Z.mod_small by lia.
  rewrite Z.add_0_l, Nat2Z.id, nth_error_app2 by lia. rewrite Nat.sub_diag. reflexivity.
Qed.

Lemma stream_bytes : forall l, stream P l = bytes l 0 (Z.to_nat (Z.of_nat (length l) * P)).
Proof.
  intros l. induction l as [|x l IH] using rev_ind; [reflexivity|].
  unfold stream in *. rewrite flat_map_app. cbn [flat_map]. rewrite app_nil_r, IH.
  rewrite app_length. cbn [length].
  replace (Z.to_nat (Z.of_nat (length l + 1) * P)) with (Z.to_nat (Z.of_nat (length l) * P) + Z.to_nat P)%nat by nia.
  rewrite bytes_split. rewrite bytes_app by (try exact HP; nia). f_equal.
  rewrite Z.add_0_l, Z2Nat.id by nia. symmetry. apply bytes_one.
Qed.

Lemma bytes_skip : forall l k lo len, 0 <= lo -> bytes (skipn k l) lo len = bytes l (Z.of_nat k * P + lo) len.
Proof.
  intros l k lo len Hlo. unfold Zcopy_proofs.bytes. apply map_ext. intros j. unfold Zcopy_proofs.byte_of.
  rewrite nth_skipn. replace (Z.of_nat k * P + lo + Z.of_nat j) with (lo + Z.of_nat j + Z.of_nat k * P) by lia.
  rewrite Z.div_add, Z.mod_add by lia.
  assert (0 <= (lo + Z.of_nat j) / P) by (apply Z.div_pos; lia).
  replace (Z.to_nat ((lo + Z.of_nat j) / P + Z.of_nat k)) with (k + Z.to_nat ((lo + Z.of_nat j) / P))%nat by lia. reflexivity.
Qed.

Lemma bytes_firstn : forall l lo a b, (a <= b)%nat -> firstn a (bytes l lo b) = bytes l lo a.
Proof.
  intros l lo a b H. replace b with (a + (b - a))%nat by lia. rewrite bytes_split, firstn_app, bytes_length, Nat.sub_diag.
  cbn [firstn]. rewrite app_nil_r. apply firstn_all2. rewrite bytes_length. lia.
Qed.

Lemma bytes_stream : forall l k len, (k <= length l)%nat -> Z.of_nat k * P + Z.of_nat len <= Z.of_nat (length l) * P ->
  bytes l (Z.of_nat k * P) len = firstn len (stream P (skipn k l)).
Proof.
  intros l k len Hk H. rewrite stream_bytes, bytes_firstn.
  - rewrite bytes_skip by lia. f_equal. lia.
  - rewrite skipn_length. nia.
Qed.

Lemma bytes_whole : forall l k m, (k + m <= length l)%nat ->
  bytes l (Z.of_nat k * P) (Z.to_nat (Z.of_nat m * P)) = stream P (firstn m (skipn k l)).
Proof.
  intros l k m H. rewrite stream_bytes. rewrite firstn_length, skipn_length. replace (Nat.min m (length l - k)) with m by lia.
  rewrite <- (bytes_app P HP (firstn m (skipn k l)) (skipn m (skipn k l)) 0).
  - rewrite firstn_skipn, bytes_skip by lia. f_equal. lia.
  - lia.
  - rewrite firstn_length, skipn_length. nia.
Qed.
End Stream.

Section Proofs.
Context {E : Type}.
Variable ts : E -> Z.
Variable limit : Z.
Variable quota : Z -> Z.
Variable n P chunk align addr0 : Z.
Hypothesis HP : 0 < P.
Hypothesis Hn : 2 <= n.
Hypothesis Hchunk : 0 <= chunk.
Hypothesis Halign : align <> 0.

Notation clean_step := (clean_step ts limit quota).
Notation astep := (Record_model.astep ts (fun _ => 0) limit quota).
Notation zrec_step := (zrec_step ts P chunk align addr0).
Notation zstep := (zstep ts limit quota P chunk align addr0).
Notation zrun := (zrun ts limit quota P chunk align addr0).
Notation aligned := (aligned n P align addr0).
Notation first_aligned := (first_aligned n P align addr0).
Notation guard := (guard ts).
Notation core_ok := (core_ok n).
Notation lap := (n * P).
Notation zst := (@zstate E).
Notation Inv := (Inv ts n P align addr0).
Notation at_ := (at_ ts n P addr0).
Notation filed := (filed n P align addr0).
Notation bytes := (@bytes E P).

(* one step: producer or clean-up, start, or recording *)
Lemma step_cases : forall s a s', zstep s a = Some s' -> s_crashed (z_core s) = false /\
  ((exists c', env ts limit quota (z_core s) c' /\ s' = lifted s c' /\
      match a with ZWrite x => astep (z_core s) (AWrite x) = Some c' | ZClean => clean_step (z_core s) = Some c' | _ => False end) \/
   (a = ZStart /\ z_pc s = ZIdle /\ s' = mk_z (with_next (z_core s) 0) ZTop None 0 (z_open s) (z_file s) 0 (z_warnings s)
                                                   (z_short s) (z_lost s) (z_oldest s)) \/
   (exists ex ret, a = ZRec ex ret /\ zrec_step ex ret s = Some s')).
Proof.
  intros s a s' H. unfold Zcopy_model.zstep in H. destruct (s_crashed (z_core s)) eqn:Hc; [discriminate|]. split; [reflexivity|].
  destruct a as [x| | |ex ret].
  - left. destruct (astep (z_core s) (AWrite x)) as [c'|] eqn:E1; [|discriminate]. injection H as <-. exists c'.
    split; [left; exists x; exact E1|]. split; reflexivity.
  - left. destruct (clean_step (z_core s)) as [c'|] eqn:E1; [|discriminate]. injection H as <-. exists c'.
    split; [right; exact E1|]. split; reflexivity.
  - right. left. destruct (z_pc s); try discriminate. injection H as <-. auto.
  - right. right. exists ex, ret. auto.
Qed.

Lemma rec_all : forall ex ret s s', zrec_step ex ret s = Some s' -> s_all (z_core s') = s_all (z_core s).
Proof.
  intros ex ret s s' H. destruct (rec_core _ _ _ _ _ _ _ _ _ H) as ([->|[(v & ->)| ->]] & _); reflexivity.
Qed.

Lemma step_all : forall s a s', zstep s a = Some s' -> exists l, s_all (z_core s') = s_all (z_core s) ++ l.
Proof.
  intros s a s' H. destruct (step_cases _ _ _ H) as (Hc & [(c' & He & -> & _)|[(_ & _ & ->)|(ex & ret & _ & Hr)]]).
  - exact (env_all _ _ _ _ _ Hc He).
  - exists []. rewrite app_nil_r. reflexivity.
  - exists []. rewrite app_nil_r. exact (rec_all _ _ _ _ Hr).
Qed.

Lemma run_all : forall acts s s', zrun s acts = Some s' -> exists l, s_all (z_core s') = s_all (z_core s) ++ l.
Proof.
  induction acts as [|a acts IH]; intros s s' H; cbn in H.
  - injection H as <-. exists []. rewrite app_nil_r. reflexivity.
  - destruct (zstep s a) as [s1|] eqn:E1; [|discriminate].
    destruct (step_all _ _ _ E1) as [l1 H1]. destruct (IH _ _ H) as [l2 H2].
    exists (l1 ++ l2). rewrite H2, H1, app_assoc. reflexivity.
Qed.

Lemma ordered_prefix : forall l l', ordered_data ts (l ++ l') -> ordered_data ts l.
Proof.
  intros l l' [H1 H2]. split.
  - intros x Hx. apply H1. apply in_or_app. left. exact Hx.
  - intros i j x y Hij Hx Hy. apply (H2 i j x y Hij); apply nth_app_some; assumption.
Qed.

Lemma start_inv : forall s, z_pc s = ZIdle -> Inv s ->
  Inv (mk_z (with_next (z_core s) 0) ZTop None 0 (z_open s) (z_file s) 0 (z_warnings s) (z_short s) (z_lost s) (z_oldest s)).
Proof.
  intros s Ep (Hk & HI). split; [apply (with_next_ok n); exact Hk|]. intros Hl. cbn in Hl. destruct (HI Hl) as (HPc & HC). split.
  - left. split; [|reflexivity]. split; [reflexivity|]. intros Ho. cbn in Ho. unfold pc_ok in HPc. rewrite Ep in HPc. apply HPc. exact Ho.
  - intros Ho Hs. exact (HC Ho Hs).
Qed.

Lemma step_inv : forall s a s', zstep s a = Some s' -> ordered_data ts (s_all (z_core s')) -> Inv s -> Inv s'.
Proof.
  intros s a s' H Ho Hi. destruct (step_cases _ _ _ H) as (Hc & [(c' & He & -> & _)|[(_ & Ep & ->)|(ex & ret & _ & Hr)]]).
  - eapply env_inv; eassumption.
  - apply start_inv; assumption.
  - rewrite (rec_all _ _ _ _ Hr) in Ho. eapply rec_inv; [exact HP|exact Hn|exact Hchunk|exact Halign|exact Hr|exact Ho|exact Hi].
Qed.

Lemma run_inv : forall acts s s', zrun s acts = Some s' -> ordered_data ts (s_all (z_core s')) -> Inv s -> Inv s'.
Proof.
  induction acts as [|a acts IH]; intros s s' H Ho Hi; cbn in H; [injection H as <-; exact Hi|].
  destruct (zstep s a) as [s1|] eqn:E1; [|discriminate]. apply (IH s1 s' H Ho). apply (step_inv s a s1 E1); [|exact Hi].
  destruct (run_all _ _ _ H) as [l Hl]. rewrite Hl in Ho. exact (ordered_prefix _ _ Ho).
Qed.

Lemma init_inv : supported_size n -> Inv (zinit n).
Proof.
  intros Hs. split; [split; [apply base_init; exact Hs|reflexivity]|]. intros _. split.
  - intros _. split; reflexivity.
  - intros Ho. discriminate.
Qed.

Lemma marker_ok : forall s W hi k0 len, ordered_data ts (s_all (z_core s)) -> at_ s W -> W <= hi -> hi = Z.of_nat k0 * P + len ->
  forall i x, (k0 <= i)%nat -> nth_error (s_all (z_core s)) i = Some x ->
  (i < s_popped (z_core s))%nat \/ ts x < s_next (z_core s) -> (Z.of_nat i + 1 - Z.of_nat k0) * P <= len.
Proof.
  intros s W hi k0 len Ho A Hw Hh i x Hi Hx Hm. pose proof (at_range ts n P addr0 HP _ _ A) as (R1 & R2 & R3).
  destruct A as (_ & _ & (G1 & (e & G2 & G3) & _) & _).
  assert (Z.of_nat i < W / P) as Hlt.
  { destruct Hm as [Hm|Hm]; [lia|].
    destruct (Nat.lt_ge_cases i (Z.to_nat (W / P))) as [L|L]; [lia|].
    pose proof (proj2 Ho _ _ _ _ L G2 Hx). lia. }
  pose proof (Z.mul_div_le W P HP). nia.
Qed.

Lemma contiguous_lemma : forall acts s, supported_size n -> zrun (zinit n) acts = Some s ->
  ordered_data ts (s_all (z_core s)) -> z_short s = false -> z_lost s = false ->
  if z_open s then
    match z_wp s with
    | None => z_file s = []
    | Some _ => exists k0, first_aligned (z_oldest s) k0 /\
        z_file s = firstn (length (z_file s)) (stream P (skipn k0 (s_all (z_core s)))) /\
        forall i x, (k0 <= i)%nat -> nth_error (s_all (z_core s)) i = Some x ->
          (i < s_popped (z_core s))%nat \/ ts x < s_next (z_core s) ->
          (Z.of_nat i + 1 - Z.of_nat k0) * P <= Z.of_nat (length (z_file s))
    end
  else exists k0 m, (m = 0%nat \/ first_aligned (z_oldest s) k0) /\
    z_file s = stream P (firstn m (skipn k0 (s_all (z_core s)))).
Proof.
  intros acts s Hs H Ho Hsh Hl. destruct (run_inv _ _ _ H Ho (init_inv Hs)) as (Hk & HI). destruct (HI Hl) as (HPc & HC).
  destruct (z_open s) eqn:Eo.
  - assert (forall W hi, at_ s W -> filed s hi -> W <= hi -> z_wp s <> None /\ exists k0, first_aligned (z_oldest s) k0 /\
        z_file s = firstn (length (z_file s)) (stream P (skipn k0 (s_all (z_core s)))) /\
        forall i x, (k0 <= i)%nat -> nth_error (s_all (z_core s)) i = Some x ->
          (i < s_popped (z_core s))%nat \/ ts x < s_next (z_core s) ->
          (Z.of_nat i + 1 - Z.of_nat k0) * P <= Z.of_nat (length (z_file s))) as Main.
    { intros W hi A F Hw. split; [destruct A as (_ & A & _); congruence|].
      destruct (F Eo Hsh) as (k0 & F1 & F2 & F3 & F4). exists k0. split; [exact F1|].
      assert (Z.of_nat (length (z_file s)) = hi - Z.of_nat k0 * P) as EL by (rewrite F4, bytes_length; lia).
      unfold total in F3. split.
      - rewrite <- (bytes_stream P HP); [rewrite F4 at 1; f_equal; lia|nia|nia].
      - apply (marker_ok s W hi k0 _ Ho A Hw). lia. }
    assert (before s -> z_wp s = None /\ z_file s = []) as Bef by (intros (B1 & B2); auto).
    assert (forall X : Prop, (z_wp s = None /\ z_file s = []) \/ (z_wp s <> None /\ X) -> match z_wp s with None => z_file s = [] | Some _ => X end) as Fin.
    { intros X [(B1 & B2)|(B1 & B2)]; [rewrite B1; exact B2|destruct (z_wp s); [exact B2|congruence]]. }
    apply Fin. unfold pc_ok in HPc. destruct (z_pc s).
    + left. auto.
    + destruct HPc as [(B & _)|(W & A & F)]; [left; auto|right; apply (Main W W A F); lia].
    + destruct HPc as [(B & _)|(W & A & F)]; [left; auto|right; apply (Main W W A F); lia].
    + left. apply Bef. apply HPc.
    + left. apply Bef. apply HPc.
    + left. apply Bef. apply HPc.
    + destruct HPc as (W & A & F). right; apply (Main W W A F); lia.
    + destruct HPc as (W & A & F & _). right; apply (Main W W A F); lia.
    + destruct HPc as (W & len & d & A & _ & D & _ & _ & _ & F & _). right; apply (Main W _ A F); lia.
    + destruct HPc as (W & A & F & _). right; apply (Main W W A F); lia.
    + destruct HPc as [(B & _)|(W & A & F)]; [left; auto|right; apply (Main W W A F); lia].
    + destruct HPc as (W & len & d & A & _ & D & _ & _ & _ & F & _). right; apply (Main W _ A F); lia.
    + destruct HPc as [B|(W & hi & A & F & Hw & _)]; [left; auto|right; apply (Main W hi A F Hw)].
  - destruct (HC Eo Hsh) as (k0 & m & C1 & C2 & C3). exists k0, m. split; [exact C1|]. rewrite C3. apply bytes_whole; assumption.
Qed.

(* a closed file is never written again *)
Lemma closed_step : forall s a s', z_open s = false -> z_file s = z_file s ->
  (match z_pc s with ZCopy _ m _ _ | ZCopyLast _ m => m <= 0 | _ => True end) -> zstep s a = Some s' ->
  z_open s' = false /\ z_file s' = z_file s /\ (match z_pc s' with ZCopy _ m _ _ | ZCopyLast _ m => m <= 0 | _ => True end).
Proof.
  intros s a s' Ho _ Hm H. destruct (step_cases _ _ _ H) as (Hc & [(c' & He & -> & _)|[(_ & Ep & ->)|(ex & ret & _ & Hr)]]).
  - cbn. auto.
  - cbn. auto.
  - unfold Zcopy_model.zrec_step in Hr. destruct (z_pc s) eqn:Epc; repeat match type of Hr with
    | None = Some _ => discriminate Hr
    | Some _ = Some _ => injection Hr as <-
    | (if ?b then _ else _) = Some _ => destruct b eqn:?
    | (match ?b with Some _ => _ | None => _ end) = Some _ => destruct b
    | (let i := _ in _) = Some _ => cbv zeta in Hr
    end; unfold zwrite; cbn [goto goto_next goto_wp zcrash z_open z_file z_pc]; rewrite ?Ho, ?Epc; cbn; auto; try (repeat split; auto; lia).
    all: destruct (s_next (z_core s) =? 0); auto.
Qed.

Lemma closed_run : forall acts s s', z_open s = false ->
  (match z_pc s with ZCopy _ m _ _ | ZCopyLast _ m => m <= 0 | _ => True end) -> zrun s acts = Some s' ->
  z_open s' = false /\ z_file s' = z_file s.
Proof.
  induction acts as [|a acts IH]; intros s s' Ho Hm H; cbn in H; [injection H as <-; auto|].
  destruct (zstep s a) as [s1|] eqn:E1; [|discriminate].
  destruct (closed_step _ _ _ Ho eq_refl Hm E1) as (H1 & H2 & H3). destruct (IH s1 s' H1 H3 H) as (H4 & H5). split; congruence.
Qed.

(* the write pointer stays aligned *)
Definition al (v : Z) : Prop := v mod align = 0.
Definition al_ok (s : zst) : Prop :=
  (forall w, z_wp s = Some w -> al w) /\ (match z_pc s with ZCopy a m nx k => nx = end_of_buffer P addr0 s \/ al nx | _ => True end).

Lemma al_step : forall s a s', al addr0 -> al chunk -> al_ok s -> zstep s a = Some s' -> al_ok s'.
Proof.
  intros s a s' H0 Hc (A1 & A2) H.
  assert (forall x y, al x -> al y -> al (x + y)) as Hadd.
  { unfold al. intros x y Hx Hy. rewrite Z.add_mod by exact Halign. rewrite Hx, Hy. apply Z.mod_0_l. exact Halign. }
  destruct (step_cases _ _ _ H) as (Hcr & [(c' & He & -> & Hk)|[(_ & Ep & ->)|(ex & ret & _ & Hr)]]).
  - split; [exact A1|]. cbn [lifted z_pc]. destruct (z_pc s); auto. destruct A2 as [->|A2]; [left|right; exact A2].
    unfold end_of_buffer. cbn [lifted z_core]. do 2 f_equal.
    destruct a as [x| | |]; try contradiction.
    + unfold Record_model.astep in Hk. rewrite Hcr in Hk.
      destruct (write x (s_ring (z_core s))) as [[r b]|] eqn:Ew; [|injection Hk as <-; reflexivity].
      assert (r_size r = r_size (s_ring (z_core s))) as Er.
      { unfold write in Ew. destruct (negb _); [destruct (r_slots _ _); [discriminate|]|]; injection Ew as <- _; reflexivity. }
      destruct b; injection Hk as <-; symmetry; exact Er.
    + unfold Record_model.clean_step in Hk.
      destruct (s_cpc (z_core s)) as [| |[|k']|k'|]; repeat match type of Hk with
      | None = Some _ => discriminate Hk
      | Some _ = Some _ => injection Hk as <-
      | (if ?b then _ else _) = Some _ => destruct b
      end; try reflexivity.
      * destruct (deref_opt _ _) as [[y|]|]; [destruct (ts y <? _)| |]; injection Hk as <-; reflexivity.
      * destruct (pop 1 (s_ring (z_core s))) as [r|] eqn:Ew; injection Hk as <-; [|reflexivity].
        cbn [pop] in Ew. unfold popFront in Ew. destruct (_ =? _); [discriminate|]. destruct (r_slots _ _); [|discriminate].
        injection Ew as <-. reflexivity.
      * destruct (deref_opt _ _) as [[y|]|]; injection Hk as <-; reflexivity.
  - split; cbn; [discriminate|exact I].
  - unfold Zcopy_model.zrec_step in Hr. destruct (z_pc s) as [| | | |i|i| |k|a' m nx k|k| |a' m|] eqn:Epc.
    8: { destruct (k <? 100)%nat; [|injection Hr as <-; split; cbn; auto].
         destruct (z_wp s) as [w|] eqn:Ew; [|injection Hr as <-; split; cbn; [rewrite Ew; discriminate|rewrite Epc; exact I]].
         destruct (w + chunk <? z_endp s); [|destruct (z_endp s <? w); [destruct (w + chunk <? end_of_buffer P addr0 s)|]]; injection Hr as <-;
           split; cbn [zwrite goto z_wp z_pc]; rewrite ?Ew; try (intros w' [= <-]; apply A1; reflexivity); try exact I; right;
           try exact H0; apply Hadd; try exact Hc; apply A1; reflexivity. }
    8: { destruct (0 <? m); injection Hr as <-; split; cbn [goto_wp z_wp z_pc]; auto.
         intros w [= <-]. destruct (nx =? end_of_buffer P addr0 s) eqn:En; [exact H0|]. destruct A2 as [A2|A2]; [lia|exact A2]. }
    6: { destruct (align =? 0); [injection Hr as <-; split; cbn; [exact A1|rewrite Epc; exact I]|].
         destruct ((addr0 + i * P) mod align =? 0) eqn:Ea; cbn [negb] in Hr.
         - injection Hr as <-. split; cbn; [|exact I]. intros w [= <-]. unfold al. lia.
         - destruct (it_good _ _); injection Hr as <-; split; cbn; auto. }
    all: repeat match type of Hr with
      | None = Some _ => discriminate Hr
      | Some _ = Some _ => injection Hr as <-
      | (if ?b then _ else _) = Some _ => destruct b
      | (match ?b with Some _ => _ | None => _ end) = Some _ => destruct b eqn:?
      | (let i := _ in _) = Some _ => cbv zeta in Hr
      end; split; cbn [zwrite goto goto_next goto_wp zcrash z_wp z_pc]; rewrite ?Epc; auto; try congruence.
    all: try (rewrite Heqo; exact A1). all: try (destruct (s_next (z_core s) =? 0); exact I).
Qed.

Lemma aligned_lemma : forall acts s w, al addr0 -> al chunk -> zrun (zinit n) acts = Some s -> z_wp s = Some w -> al w.
Proof.
  intros acts s w H0 Hc H. enough (al_ok s) as (A & _) by (apply A).
  assert (al_ok (zinit n)) as Hi by (split; cbn; [discriminate|exact I]).
  revert Hi H. generalize (@zinit E n). induction acts as [|a acts IH]; intros z Hi H; cbn in H; [injection H as <-; exact Hi|].
  destruct (zstep z a) as [s1|] eqn:E1; [|discriminate]. apply (IH s1); [|exact H]. exact (al_step _ _ _ H0 Hc Hi E1).
Qed.
End Proofs.
