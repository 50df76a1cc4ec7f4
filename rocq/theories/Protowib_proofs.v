(** Proofs about the emulated WIB source: the bytes of an element. *)
From Coq Require Import String ZArith List Bool Lia.
From Verif Require Import Base_model Bytes_model Bytes_proofs Ebg_model Ebg_spec Ebg_proofs Emu_model
  Emu_spec Emu_proofs Elem_model Request_spec Check_model Check_spec Link_model Chain_model Chain_spec Chain_proofs Protowib_model Protowib_spec.
Import ListNotations.
Open Scope Z_scope.

Lemma skipn_add {A} a b (l : list A) : skipn a (skipn b l) = skipn (b + a) l.
Proof. revert l. induction b as [|b IH]; intros [|x l]; cbn [skipn Nat.add]; auto. now rewrite skipn_nil. Qed.

Section Blocks.
Variable ff : frame_format.
Variable stride : nat.
Definition sized (b : list Z) : Prop := List.length b = stride.

Lemma concat_length (bl : list (list Z)) : Forall sized bl -> List.length (concat bl) = (List.length bl * stride)%nat.
Proof.
  induction 1 as [|b bl Hb _ IH]; [reflexivity|]. cbn [concat List.length]. rewrite app_length, IH, Hb. lia.
Qed.

Lemma firstn_block a b (r : list Z) : List.length a = b -> firstn b (a ++ r) = a.
Proof. intros <-. rewrite firstn_app, Nat.sub_diag, firstn_all. cbn [firstn]. apply app_nil_r. Qed.
Lemma skipn_block a b (r : list Z) : List.length a = b -> skipn b (a ++ r) = r.
Proof. intros <-. rewrite skipn_app, Nat.sub_diag, skipn_all. reflexivity. Qed.

Lemma rd_block a b r i : Forall sized a -> sized b -> List.length a = i -> rd (i * stride) stride (concat (a ++ b :: r)) = Ok b.
Proof.
  unfold sized. intros Ha Hb <-. rewrite concat_app. cbn [concat]. pose proof (concat_length a Ha) as L.
  rewrite rd_ok by (rewrite !app_length; lia). rewrite skipn_block by exact L. rewrite firstn_block by exact Hb. reflexivity.
Qed.

Lemma wr_block a b b' r i : Forall sized a -> sized b -> sized b' -> List.length a = i ->
  wr (i * stride) b' (concat (a ++ b :: r)) = Ok (concat (a ++ b' :: r)).
Proof.
  unfold sized. intros Ha Hb Hb' <-. rewrite !concat_app. cbn [concat]. pose proof (concat_length a Ha) as L.
  rewrite wr_ok by (rewrite !app_length; lia). rewrite firstn_block by exact L. do 2 f_equal. f_equal.
  rewrite Hb'. rewrite <- Hb at 2. rewrite <- L, <- app_length, app_assoc. apply skipn_block. reflexivity.
Qed.

Lemma on_frame_block f a b r i : Forall sized a -> sized b -> sized (f b) -> List.length a = i ->
  on_frame stride f i (concat (a ++ b :: r)) = Ok (concat ((a ++ [f b]) ++ r)).
Proof.
  intros Ha Hb Hf Hi. unfold on_frame. rewrite (rd_block a b r i Ha Hb Hi). cbn [bind].
  rewrite (wr_block a b (f b) r i Ha Hb Hf Hi), <- app_assoc. reflexivity.
Qed.

Variable limit : Z.
Variable ok : list Z -> Prop.
Hypothesis L : lawful ff stride limit ok.

Fixpoint stamped_blocks (ts off : Z) (bl : list (list Z)) : list (list Z) :=
  match bl with [] => [] | b :: r => ff_set ff ts b :: stamped_blocks (ts + off) off r end.

Lemma stamp_blocks off : 0 <= off -> limit <= two64 -> forall bl a ts, Forall sized a -> Forall sized bl -> Forall ok bl ->
  0 <= ts -> ts + Z.of_nat (List.length bl) * off < limit ->
  stamp_frames ff stride (List.length bl) (List.length a) ts off (concat (a ++ bl)) = Ok (concat (a ++ stamped_blocks ts off bl)) /\
  Forall sized (stamped_blocks ts off bl).
Proof.
  intros Ho Hl. induction bl as [|b bl IH]; intros a ts Ha Hb Hok Ht Hlim; cbn [stamp_frames List.length stamped_blocks].
  - split; [reflexivity|constructor].
  - inversion Hb as [|? ? Hb1 Hb2]; subst. inversion Hok as [|? ? Ho1 Ho2]; subst. cbn [List.length] in Hlim.
    destruct (lf_set _ _ _ _ L ts b Hb1 Ho1) as [S1 S2]; [nia|].
    rewrite (on_frame_block _ a b bl _ Ha Hb1 S1 eq_refl). cbn [bind].
    unfold u64. rewrite Z.mod_small by nia.
    destruct (IH (a ++ [ff_set ff ts b]) (ts + off)) as [E1 E2]; auto; try lia.
    { apply Forall_app. split; auto. }
    rewrite app_length in E1. cbn [List.length] in E1. rewrite Nat.add_1_r in E1. rewrite E1, <- app_assoc. split; [reflexivity|].
    constructor; assumption.
Qed.

Fixpoint marked_blocks (ws : list Z) (bl : list (list Z)) : list (list Z) :=
  match bl with [] => [] | b :: r => ff_set_errors ff (nth 0 ws 0) b :: marked_blocks (tl ws) r end.

Lemma mark_blocks : forall bl a ws0 ws, List.length ws0 = List.length a -> List.length ws = List.length bl ->
  Forall sized a -> Forall sized bl ->
  mark_frames ff stride (List.length bl) (List.length a) (ws0 ++ ws) (concat (a ++ bl)) = Ok (concat (a ++ marked_blocks ws bl)) /\
  Forall sized (marked_blocks ws bl).
Proof.
  induction bl as [|b bl IH]; intros a ws0 ws L0 Lw Ha Hb; cbn [mark_frames List.length marked_blocks].
  - split; [reflexivity|constructor].
  - inversion Hb as [|? ? Hb1 Hb2]; subst. destruct ws as [|w ws]; [discriminate|]. cbn [List.length] in Lw.
    rewrite nth_error_app2 by lia. replace (List.length a - List.length ws0)%nat with 0%nat by lia. cbn [nth_error nth tl].
    destruct (lf_errors _ _ _ _ L w b Hb1) as (S1 & _ & _).
    rewrite (on_frame_block _ a b bl _ Ha Hb1 S1 eq_refl). cbn [bind].
    destruct (IH (a ++ [ff_set_errors ff w b]) (ws0 ++ [w]) ws) as [E1 E2]; auto.
    { rewrite !app_length. cbn. lia. }
    { apply Forall_app. split; auto. }
    rewrite app_length in E1. cbn [List.length] in E1. rewrite Nat.add_1_r in E1. rewrite <- !app_assoc in E1. cbn [app] in E1.
    rewrite <- app_assoc. cbn [app]. rewrite E1. split; [reflexivity|]. constructor; assumption.
Qed.

Lemma view_blocks : forall bl a, Forall sized a -> Forall sized bl ->
  pw_frames ff stride (concat (a ++ bl)) (List.length bl) (List.length a) = Ok (map (fun b => mk_frame (ff_get ff b) b) bl).
Proof.
  induction bl as [|b bl IH]; intros a Ha Hb; cbn [pw_frames List.length map]; [reflexivity|].
  inversion Hb as [|? ? Hb1 Hb2]; subst. rewrite (rd_block a b bl _ Ha Hb1 eq_refl). cbn [bind].
  specialize (IH (a ++ [b])). rewrite app_length in IH. cbn [List.length] in IH. rewrite Nat.add_1_r, <- app_assoc in IH. cbn [app] in IH.
  rewrite IH; auto. apply Forall_app. split; auto.
Qed.

Lemma split_blocks : forall k (m : list Z), List.length m = (k * stride)%nat ->
  m = concat (map (fun j => firstn stride (skipn (j * stride) m)) (seq 0 k)) /\
  Forall sized (map (fun j => firstn stride (skipn (j * stride) m)) (seq 0 k)).
Proof.
  induction k as [|k IH]; intros m Hm.
  - destruct m; [|discriminate]. split; [reflexivity|constructor].
  - cbn [seq map concat]. rewrite <- seq_shift, map_map.
    destruct (IH (skipn stride m)) as [E1 E2]; [rewrite skipn_length; lia|].
    assert (X : map (fun x => firstn stride (skipn (S x * stride) m)) (seq 0 k) =
                map (fun j => firstn stride (skipn (j * stride) (skipn stride m))) (seq 0 k)).
    { apply map_ext. intro j. rewrite skipn_add. reflexivity. }
    rewrite X, <- E1. cbn [Nat.mul skipn]. split; [symmetry; apply firstn_skipn|].
    constructor; [unfold sized; rewrite firstn_length; lia|exact E2].
Qed.
End Blocks.

Section Slots.
Variable ff : frame_format.
Variable stride : nat.
Variable limit : Z.
Variable ok : list Z -> Prop.
Variable c : emu_conf.
Variable t0 : Z.
Hypothesis L : lawful ff stride limit ok.
Hypothesis Hlim : limit <= two64.
Hypothesis Hpos : (0 < stride)%nat.
Hypothesis Hsize : em_size c = (12 * stride)%nat.
Hypothesis Hsrc : (em_size c <= List.length (em_source c))%nat.
Hypothesis Hok : forall k j, (j < 12)%nat -> ok (file_frame c stride k j).
Hypothesis Ht0 : 0 <= t0.
Hypothesis Htick : em_tick c = 25.

Lemma pw_element_length k : List.length (element (em_source c) (em_size c) k) = (12 * stride)%nat.
Proof.
  unfold element. rewrite firstn_length, skipn_length. assert (P : (0 < em_size c)%nat) by (rewrite Hsize; lia).
  pose proof (Nat.div_str_pos (List.length (em_source c)) (em_size c) ltac:(lia)) as Q.
  pose proof (Nat.mod_upper_bound k (List.length (em_source c) / em_size c) ltac:(lia)) as B.
  pose proof (Nat.mul_div_le (List.length (em_source c)) (em_size c) ltac:(lia)) as M. nia.
Qed.

Lemma combine_map_seq {A} (g : nat -> A) k : forall a, combine (seq a k) (map g (seq a k)) = map (fun j => (j, g j)) (seq a k).
Proof. induction k as [|k IH]; intro a; [reflexivity|]. cbn [seq map combine]. f_equal. apply IH. Qed.

Lemma stamped_seq off (g : nat -> list Z) k : forall ts a,
  stamped_blocks ff (ts + Z.of_nat a * off) off (map g (seq a k)) = map (fun j => ff_set ff (ts + Z.of_nat j * off) (g j)) (seq a k).
Proof.
  induction k as [|k IH]; intros ts a; [reflexivity|]. cbn [seq map stamped_blocks]. f_equal. rewrite <- IH. f_equal. lia.
Qed.

Lemma marked_seq (ws : list Z) (g : nat -> list Z) k : forall a,
  marked_blocks ff (skipn a ws) (map g (seq a k)) = map (fun j => ff_set_errors ff (nth j ws 0) (g j)) (seq a k).
Proof.
  induction k as [|k IH]; intro a; [reflexivity|]. cbn [seq map marked_blocks]. rewrite <- IH.
  assert (H1 : nth 0 (skipn a ws) 0 = nth a ws 0 /\ tl (skipn a ws) = skipn (S a) ws).
  { clear. revert ws. induction a as [|a IH]; intros [|w ws]; cbn [skipn nth tl]; auto. apply IH. }
  destruct H1 as [-> ->]. reflexivity.
Qed.

(** What the producer pushes for slot [i] is seen by the link as the specified element. *)
Lemma pw_stamp_view used i : List.length (error_words (em_tables c) (used + produced (em_dropouts c) i * 12) 12) = 12%nat ->
  slot_time c t0 i + 300 < limit ->
  exists m m', stamp_frames ff stride 12 0 (slot_time c t0 i) 25 (element (em_source c) (em_size c) (produced (em_dropouts c) i)) = Ok m /\
    mark_frames ff stride 12 0 (error_words (em_tables c) (used + produced (em_dropouts c) i * 12) 12) m = Ok m' /\
    pw_view ff stride m' = Ok (pw_slot ff stride c t0 used i).
Proof.
  intros Lw Ht. set (k := produced (em_dropouts c) i) in *. set (ws := error_words _ _ _) in *.
  destruct (split_blocks stride 12 _ (pw_element_length k)) as [E1 E2].
  change (map (fun j => firstn stride (skipn (j * stride) (element (em_source c) (em_size c) k))) (seq 0 12))
    with (map (file_frame c stride k) (seq 0 12)) in E1, E2. set (bl := map (file_frame c stride k) (seq 0 12)) in *.
  assert (T : slot_time c t0 i = t0 + Z.of_nat i * 300) by (unfold slot_time; rewrite Htick; lia).
  assert (Ob : Forall ok bl). { apply Forall_map. apply Forall_forall. intros j Hj. apply in_seq in Hj. apply Hok. lia. }
  assert (Lb : List.length bl = 12%nat) by (unfold bl; rewrite map_length, seq_length; reflexivity).
  destruct (stamp_blocks ff stride limit ok L 25 ltac:(lia) Hlim bl [] (slot_time c t0 i) ltac:(constructor) E2 Ob) as [S1 S2]; [lia|rewrite Lb; lia|].
  rewrite Lb in S1. cbn [List.length app] in S1. rewrite <- E1 in S1. eexists. rewrite S1.
  assert (Ls : List.length (stamped_blocks ff (slot_time c t0 i) 25 bl) = 12%nat).
  { rewrite <- Lb. clear. generalize (slot_time c t0 i). induction bl as [|b l IH]; intro t; cbn [stamped_blocks List.length]; auto. }
  destruct (mark_blocks ff stride limit ok L (stamped_blocks ff (slot_time c t0 i) 25 bl) [] [] ws eq_refl ltac:(lia) ltac:(constructor) S2) as [M1 M2].
  rewrite Ls in M1. cbn [List.length app] in M1. eexists. split; [reflexivity|]. split; [exact M1|].
  unfold pw_view.
  assert (Lm : List.length (marked_blocks ff ws (stamped_blocks ff (slot_time c t0 i) 25 bl)) = 12%nat).
  { rewrite <- Ls. clear. generalize (stamped_blocks ff (slot_time c t0 i) 25 bl). generalize ws. intros w l. revert w.
    induction l as [|b l IH]; intro w; cbn [marked_blocks List.length]; auto. }
  pose proof (view_blocks ff stride _ [] ltac:(constructor) M2) as V. rewrite Lm in V. cbn [List.length app] in V. rewrite V. cbn [bind].
  unfold pw_slot. do 2 f_equal. unfold bl.
  pose proof (stamped_seq 25 (file_frame c stride k) 12 (slot_time c t0 i) 0) as X. rewrite Z.mul_0_l, Z.add_0_r in X. rewrite X.
  pose proof (marked_seq ws (fun j => ff_set ff (slot_time c t0 i + Z.of_nat j * 25) (file_frame c stride k j)) 12 0) as Y. cbn [skipn] in Y. rewrite Y.
  rewrite map_map. apply map_ext_in. intros j Hj. apply in_seq in Hj. unfold pw_slot_frame. fold k.
  replace (t0 + (Z.of_nat i * 12 + Z.of_nat j) * 25) with (slot_time c t0 i + Z.of_nat j * 25) by lia.
  assert (Ff : List.length (file_frame c stride k j) = stride).
  { rewrite Forall_forall in E2. apply E2. unfold bl. apply in_map. apply in_seq. lia. }
  destruct (lf_set _ _ _ _ L (slot_time c t0 i + Z.of_nat j * 25) (file_frame c stride k j) Ff (Hok k j ltac:(lia)) ltac:(lia)) as [A1 A2].
  destruct (lf_errors _ _ _ _ L (nth j ws 0) _ A1) as (_ & B2 & _). rewrite B2, A2. reflexivity.
Qed.

Lemma pw_slot_ts used i : e_ts (pw_slot ff stride c t0 used i) = slot_time c t0 i.
Proof. clear - Htick. unfold pw_slot. cbn [e_ts e_frames seq map pw_slot_frame f_ts]. unfold slot_time. rewrite Htick. cbn [Z.of_nat]. lia. Qed.

Lemma pw_slots_wf used l (bound : nat) : increasing l -> Forall (fun i => (i < bound)%nat) l -> t0 + Z.of_nat bound * 300 < two64 ->
  wf 25 (map (pw_slot ff stride c t0 used) l).
Proof.
  clear - Htick Ht0.
  intros I Hb B. split.
  - apply Forall_map. eapply Forall_impl; [|exact Hb]. intros i Hi. cbn beta in Hi.
    split; [discriminate|]. rewrite pw_slot_ts. change (e_num (pw_slot ff stride c t0 used i)) with 12. unfold slot_time. rewrite Htick. split; [lia|].
    split; [|lia]. intros k f Hf. unfold pw_slot in Hf. cbn [e_frames] in Hf. rewrite nth_error_map in Hf.
    destruct (nth_error (seq 0 12) k) as [j|] eqn:Ej; [|discriminate]. cbn [option_map] in Hf. injection Hf as <-.
    assert (k < 12)%nat by (rewrite <- (seq_length 12 0); apply nth_error_Some; congruence).
    rewrite (nth_error_nth' _ 0%nat) in Ej by (rewrite seq_length; assumption). rewrite seq_nth in Ej by assumption. injection Ej as <-.
    cbn [pw_slot_frame f_ts Nat.add]. lia.
  - intros i j x y f Hij Hx Hy Hf. rewrite nth_error_map in Hx, Hy.
    destruct (nth_error l i) as [a|] eqn:Ea; [|discriminate]. destruct (nth_error l j) as [b|] eqn:Eb; [|discriminate].
    cbn [option_map] in Hx, Hy. injection Hx as <-. injection Hy as <-. rewrite pw_slot_ts.
    pose proof (increasing_nth l I i j a b Hij Ea Eb) as Lt. unfold pw_slot in Hf. cbn [e_frames] in Hf.
    apply in_map_iff in Hf as (k & <- & Hk). apply in_seq in Hk. cbn [pw_slot_frame f_ts]. unfold slot_time. rewrite Htick. lia.
Qed.

(** The error fields of a received element are the words. *)
Lemma set_bits_mod w : set_bits (w mod 65536) = set_bits w.
Proof.
  unfold set_bits. do 2 f_equal. apply filter_ext_in. intros j Hj. apply in_map_iff in Hj as (k & <- & Hk). apply in_seq in Hk.
  change 65536 with (2 ^ 16). apply Z.mod_pow2_bits_low. lia.
Qed.

Lemma slot_errors used i : slot_time c t0 i + 300 < limit ->
  map (fun f => ff_errors ff (f_bytes f)) (e_frames (pw_slot ff stride c t0 used i)) = map (fun j => slot_word c used i j mod 65536) (seq 0 12).
Proof.
  intro Ht. unfold pw_slot. cbn [e_frames]. rewrite map_map. apply map_ext_in. intros j Hj. apply in_seq in Hj. cbn [pw_slot_frame f_bytes].
  assert (T : slot_time c t0 i = t0 + Z.of_nat i * 300) by (unfold slot_time; rewrite Htick; lia).
  destruct (split_blocks stride 12 _ (pw_element_length (produced (em_dropouts c) i))) as [_ E2].
  assert (Ff : List.length (file_frame c stride (produced (em_dropouts c) i) j) = stride).
  { rewrite Forall_forall in E2. apply E2. apply (in_map (fun j => firstn stride (skipn (j * stride) (element (em_source c) (em_size c) (produced (em_dropouts c) i))))). apply in_seq. lia. }
  destruct (lf_set _ _ _ _ L (t0 + (Z.of_nat i * 12 + Z.of_nat j) * 25) _ Ff (Hok _ j ltac:(lia)) ltac:(lia)) as [A1 _].
  apply (lf_errors _ _ _ _ L _ _ A1).
Qed.

Lemma slot_bits used i : slot_time c t0 i + 300 < limit ->
  sum (map (fun f => set_bits (ff_errors ff (f_bytes f))) (e_frames (pw_slot ff stride c t0 used i))) =
  sum (map (fun j => set_bits (slot_word c used i j)) (seq 0 12)).
Proof.
  intro Ht. rewrite <- (map_map (fun f => ff_errors ff (f_bytes f)) set_bits), (slot_errors used i Ht), map_map. f_equal. apply map_ext. intro j.
  apply set_bits_mod.
Qed.
End Slots.
