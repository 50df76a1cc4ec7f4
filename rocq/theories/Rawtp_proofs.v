From Coq Require Import ZArith List Bool Lia ZifyBool.
From Verif Require Import Base_model Bytes_model Bytes_proofs Rawtp_model Rawtp_spec.
Import ListNotations.
Open Scope Z_scope.

Lemma malloc_length junk n : length (malloc junk n) = n.
Proof. unfold malloc. now rewrite map_length, seq_length. Qed.

Lemma wr_mid a b c bs : length b = length bs -> wr (length a) bs (a ++ b ++ c) = Ok (a ++ bs ++ c).
Proof.
  intros H. rewrite wr_ok by (rewrite !app_length; lia). f_equal. rewrite firstn_app, firstn_all, Nat.sub_diag. cbn [firstn].
  rewrite app_nil_r. f_equal. f_equal. rewrite app_assoc. replace (length a + length bs)%nat with (length (a ++ b)) by (rewrite app_length; lia).
  rewrite skipn_app, skipn_all, Nat.sub_diag. reflexivity.
Qed.

Lemma rd_mid a b c : rd (length a) (length b) (a ++ b ++ c) = Ok b.
Proof.
  rewrite <- (Nat.add_0_r (length a)), rd_app_r, rd_app_l by lia. apply rd_all.
Qed.

Lemma rd2 i m : (i + 2 <= length m)%nat -> rd i 2 m = Ok [byte_at m i; byte_at m (S i)].
Proof.
  intros H. pose proof (rd_ok i 2 m H) as R. destruct (rd_nth _ _ _ _ R) as [L N]. rewrite R. f_equal.
  apply list_ext; [exact L|]. rewrite L. intros j Hj. rewrite N by assumption. unfold byte_at.
  rewrite (nth_error_nth' m 0) by lia. destruct j as [|[|j]]; [rewrite Nat.add_0_r| |lia]; cbn [nth_error]; auto.
  now rewrite Nat.add_1_r.
Qed.

Definition shape (a b c d e : list Z) := length a = 18%nat /\ length b = 2%nat /\ length c = 16%nat /\ length d = 4%nat.
Lemma shape_of m : (40 <= length m)%nat -> exists a b c d e, m = a ++ b ++ c ++ d ++ e /\ shape a b c d e.
Proof.
  intros H. exists (firstn 18 m), (firstn 2 (skipn 18 m)), (firstn 16 (skipn 2 (skipn 18 m))),
    (firstn 4 (skipn 16 (skipn 2 (skipn 18 m)))), (skipn 4 (skipn 16 (skipn 2 (skipn 18 m)))).
  split; [now rewrite !firstn_skipn|]. unfold shape. rewrite !firstn_length, !skipn_length. lia.
Qed.

Lemma set_nhits_shape n a b c d e : shape a b c d e ->
  set_nhits n (a ++ b ++ c ++ d ++ e) = Ok (a ++ le 2 n ++ c ++ le 4 n ++ e).
Proof.
  intros (Ha & Hb & Hc & Hd). unfold set_nhits.
  replace (a ++ b ++ c ++ d ++ e) with ((a ++ b ++ c) ++ d ++ e) by now rewrite <- !app_assoc.
  replace 36%nat with (length (a ++ b ++ c)) by (rewrite !app_length; lia).
  rewrite wr_mid by (rewrite le_length; lia). cbn [bind]. rewrite <- !app_assoc.
  replace 18%nat with (length a) by lia. rewrite wr_mid by (rewrite le_length; lia). reflexivity.
Qed.

Lemma set_nhits_crash n m : (length m < 40)%nat -> set_nhits n m = Crash.
Proof. intros H. unfold set_nhits. rewrite wr_crash; [reflexivity|rewrite le_length; lia]. Qed.

Lemma nhits_shape n a c r : length a = 18%nat -> get_nhits (a ++ le 2 n ++ c ++ r) = Ok (n mod 65536).
Proof.
  intros Ha. unfold get_nhits. replace 18%nat with (length a) by lia. replace 2%nat with (length (le 2 n)) at 1 by apply le_length.
  rewrite rd_mid. cbn [bind]. now rewrite unle_le.
Qed.

Lemma set_nhits_ok n m : (40 <= length m)%nat -> exists m', set_nhits n m = Ok m' /\ length m' = length m /\
  get_frame_size m' = Ok (24 + Z.to_nat (n mod 65536) * 12)%nat.
Proof.
  intros H. destruct (shape_of m H) as (a & b & c & d & e & -> & S). rewrite (set_nhits_shape n a b c d e S).
  exists (a ++ le 2 n ++ c ++ le 4 n ++ e). split; [reflexivity|]. destruct S as (Ha & Hb & Hc & Hd). split.
  - rewrite !app_length, !le_length. lia.
  - unfold get_frame_size. rewrite nhits_shape by assumption. reflexivity.
Qed.

(** C31 *)
Lemma c31_size n m m' : set_nhits n m = Ok m' -> get_frame_size m' = Ok (24 + 12 * Z.to_nat (n mod 65536))%nat.
Proof.
  intros H. destruct (Nat.le_gt_cases 40 (length m)) as [Hl|Hl].
  - destruct (set_nhits_ok n m Hl) as (x & S & _ & G). rewrite S in H. injection H as <-. rewrite G. f_equal. lia.
  - rewrite set_nhits_crash in H by assumption. discriminate.
Qed.

Lemma c31_bounds n k junk : set_nhits n (malloc junk (24 + 12 * k)) <> Crash <-> (2 <= k)%nat.
Proof.
  split.
  - intros H. destruct (Nat.le_gt_cases 2 k); auto. elim H. apply set_nhits_crash. rewrite malloc_length. lia.
  - intros H. destruct (set_nhits_ok n (malloc junk (24 + 12 * k))) as (x & -> & _); [rewrite malloc_length; lia|discriminate].
Qed.

Lemma set_nhits_nth n m m' i : set_nhits n m = Ok m' ->
  nth_error m' i = if (18 <=? i)%nat && (i <? 20)%nat then nth_error (le 2 n) (i - 18)
                   else if (36 <=? i)%nat && (i <? 40)%nat then nth_error (le 4 n) (i - 36) else nth_error m i.
Proof.
  unfold set_nhits. destruct (wr 36 (le 4 n) m) as [m1|] eqn:W1; [|discriminate]. cbn [bind]. intros W2.
  rewrite (nth_wr _ _ _ _ i W2), (nth_wr _ _ _ _ i W1), !le_length. reflexivity.
Qed.

(** unpack, new format *)
Lemma unpack2_ok junk pre bs post n : (2 <= n)%nat -> Z.of_nat n < 65536 -> length bs = (24 + 12 * n)%nat ->
  unpack2 junk (pre ++ bs ++ post) (Z.of_nat n) (length pre) = Ok bs.
Proof.
  intros H2 Hn Hl. unfold unpack2. rewrite Nat2Z.id.
  destruct (set_nhits_ok (Z.of_nat n) (malloc junk (24 + n * 12))) as (m1 & -> & L1 & G1); [rewrite malloc_length; lia|].
  cbn [bind]. rewrite G1. cbn [bind]. rewrite Z.mod_small, Nat2Z.id by lia. rewrite malloc_length in L1.
  replace (24 + n * 12)%nat with (length bs) in * by lia. rewrite rd_mid. cbn [bind]. apply wr_all. lia.
Qed.

Lemma unpack2_short junk src n off : (n < 2)%nat -> unpack2 junk src (Z.of_nat n) off = Crash.
Proof. intros H. unfold unpack2. rewrite Nat2Z.id, set_nhits_crash by (rewrite malloc_length; lia). reflexivity. Qed.

(** the marker *)
Lemma marker_iff w : length w = 4%nat -> all_bytes w -> (unle w =? 3735928559) = true <-> w = marker.
Proof.
  intros L B. split.
  - intros E. apply Z.eqb_eq in E. rewrite <- (le_unle w B), L, E. reflexivity.
  - intros ->. reflexivity.
Qed.

Lemma word3 pre sub post : length sub = 12%nat -> rd (length pre + 8) 4 (pre ++ sub ++ post) = Ok (skipn 8 sub).
Proof.
  intros H. rewrite rd_app_r, rd_app_l by lia. rewrite rd_ok by lia. f_equal. apply firstn_all2. rewrite skipn_length. lia.
Qed.

Lemma concat12 (l : list (list Z)) : Forall (fun h => length h = 12%nat) l -> length (concat l) = (length l * 12)%nat.
Proof. induction 1 as [|h l H1 H2 IH]; cbn [concat length]; auto. rewrite app_length, IH, H1. lia. Qed.

Lemma all_bytes_skipn n l : all_bytes l -> all_bytes (skipn n l).
Proof. intros H. apply Forall_forall. intros x Hx. unfold all_bytes in H. rewrite Forall_forall in H. apply H.
  rewrite <- (firstn_skipn n l). apply in_or_app. now right. Qed.

Lemma count_ok pre last post : length last = 12%nat -> ends_with_marker last ->
  forall subs done fuel, Forall (fun h => length h = 12%nat) done -> Forall (fun h => length h = 12%nat) subs ->
  Forall all_bytes subs -> Forall (fun h => ~ ends_with_marker h) subs -> (length subs < fuel)%nat ->
  count_subframes fuel (pre ++ concat done ++ concat subs ++ last ++ post) (length pre) (S (length done)) = Ok (S (length done + length subs)).
Proof.
  intros Hl Hm. induction subs as [|s subs IH]; intros done fuel Hd Hs Hb Hn Hf; (destruct fuel as [|fuel]; [cbn [length] in Hf; lia|]); cbn [count_subframes concat].
  - rewrite app_nil_l. replace (length pre + (S (length done) - 1) * 12)%nat with (length (pre ++ concat done)) by (rewrite app_length, concat12 by assumption; lia).
    rewrite app_assoc, word3 by assumption. cbn [bind]. rewrite Hm. cbn [length]. rewrite Nat.add_0_r. reflexivity.
  - apply Forall_cons_iff in Hs as [Hs1 Hs]. apply Forall_cons_iff in Hb as [Hb1 Hb]. apply Forall_cons_iff in Hn as [Hn1 Hn].
    rewrite <- app_assoc.
    replace (length pre + (S (length done) - 1) * 12)%nat with (length (pre ++ concat done)) by (rewrite app_length, concat12 by assumption; lia).
    replace (pre ++ concat done ++ s ++ concat subs ++ last ++ post) with ((pre ++ concat done) ++ s ++ concat subs ++ last ++ post) at 1 by now rewrite <- app_assoc.
    rewrite word3 by assumption. cbn [bind].
    destruct (unle (skipn 8 s) =? 3735928559) eqn:E.
    + exfalso. apply Hn1. unfold ends_with_marker. apply marker_iff; auto; [rewrite skipn_length; lia|now apply all_bytes_skipn].
    + specialize (IH (done ++ [s]) fuel). rewrite concat_app in IH. cbn [concat] in IH. rewrite app_nil_r, app_length, <- app_assoc in IH. cbn [length] in IH, Hf.
      rewrite Nat.add_1_r in IH. rewrite IH; auto.
      * cbn [length]. f_equal. lia.
      * apply Forall_app. auto.
      * lia.
Qed.

Lemma le2_lohi k : Z.of_nat k < 65536 -> le 2 (Z.of_nat k) = [lo k; hi k].
Proof. intros H. cbn [le]. unfold lo, hi. do 2 f_equal. apply Z.mod_small. Z.div_mod_to_equations; lia. Qed.
Lemma le4_lohi k : Z.of_nat k < 65536 -> le 4 (Z.of_nat k) = [lo k; hi k; 0; 0].
Proof. intros H. cbn [le]. unfold lo, hi. f_equal. f_equal; [|f_equal; [|f_equal]]; Z.div_mod_to_equations; lia. Qed.

Lemma unpack1_ok junk pre head hits ped post : well_formed (Old head hits ped) ->
  unpack1 junk (pre ++ file_bytes (Old head hits ped) ++ post) (length pre) = Ok (frame_of (Old head hits ped)).
Proof.
  intros (Lh & Lp & L2 & L65 & L12 & Bh & Bp & Bs & Mp & Mh & Ms & _). unfold unpack1. cbn [file_bytes].
  assert (Hc : length (concat hits) = (length hits * 12)%nat) by now apply concat12.
  pose proof (count_ok pre ped post Lp Mp (head :: hits) [] (S (length (pre ++ (head ++ concat hits ++ ped) ++ post)))) as C.
  cbn [concat app length] in C. rewrite <- !app_assoc in *. rewrite C; clear C; auto.
  2: { rewrite !app_length, Hc. lia. }
  cbn [bind]. change (0 + S (length hits))%nat with (S (length hits)).
  destruct (Nat.ltb_spec (S (S (length hits))) 2); [lia|].
  replace (S (S (length hits)) - 2)%nat with (length hits) by lia. replace (S (S (length hits)) - 1)%nat with (S (length hits)) by lia.
  rewrite <- Lh at 1. rewrite rd_mid. cbn [bind].
  replace (length pre + S (length hits) * 12)%nat with (length (pre ++ head ++ concat hits)) by (rewrite !app_length; lia).
  replace (pre ++ head ++ concat hits ++ ped ++ post) with ((pre ++ head ++ concat hits) ++ ped ++ post) at 1 by now rewrite <- !app_assoc.
  rewrite <- Lp at 1. rewrite rd_mid. cbn [bind].
  replace (length pre + 12)%nat with (length (pre ++ head)) by (rewrite app_length; lia). rewrite <- Hc.
  replace (pre ++ head ++ concat hits ++ ped ++ post) with ((pre ++ head) ++ concat hits ++ ped ++ post) by now rewrite <- !app_assoc.
  rewrite rd_mid. cbn [bind].
  destruct (set_nhits_ok (Z.of_nat (length hits)) (malloc junk (24 + length (concat hits)))) as (m1 & -> & S1 & G1); [rewrite malloc_length; lia|].
  cbn [bind]. rewrite G1. cbn [bind]. rewrite Z.mod_small, Nat2Z.id by lia. rewrite malloc_length in S1.
  replace (24 + length hits * 12)%nat with (length (head ++ ped ++ concat hits)) by (rewrite !app_length; lia).
  rewrite rd_all. cbn [bind]. rewrite wr_all by (rewrite !app_length; lia). cbn [bind].
  destruct hits as [|h1 [|h2 rest]]; [cbn [length] in L2; lia|cbn [length] in L2; lia|].
  apply Forall_cons_iff in L12 as [L121 L12]. apply Forall_cons_iff in L12 as [L122 _].
  set (k := length (h1 :: h2 :: rest)) in *.
  pose proof (set_nhits_shape (Z.of_nat k) (head ++ firstn 6 ped) (firstn 2 (skipn 6 ped)) (skipn 2 (skipn 6 ped) ++ h1) (firstn 4 h2) (skipn 4 h2 ++ concat rest)) as S.
  replace (head ++ ped ++ concat (h1 :: h2 :: rest)) with
    ((head ++ firstn 6 ped) ++ firstn 2 (skipn 6 ped) ++ (skipn 2 (skipn 6 ped) ++ h1) ++ firstn 4 h2 ++ skipn 4 h2 ++ concat rest).
  - rewrite S.
    + f_equal. cbn [frame_of]. fold k. rewrite le2_lohi, le4_lohi by assumption.
      assert (Sk : skipn 2 (skipn 6 ped) = skipn 8 ped).
      { do 8 (destruct ped as [|? ped]; [discriminate|]). reflexivity. }
      rewrite Sk. rewrite <- !app_assoc. reflexivity.
    + unfold shape. rewrite !app_length, !firstn_length, !skipn_length. lia.
  - cbn [concat]. rewrite <- !app_assoc.
    rewrite (app_assoc (firstn 4 h2)), firstn_skipn. rewrite (app_assoc (firstn 2 _)), firstn_skipn. rewrite (app_assoc (firstn 6 _)), firstn_skipn. reflexivity.
Qed.

Lemma frame_length b : well_formed b -> length (frame_of b) = length (file_bytes b).
Proof.
  destruct b as [bs|head hits ped]; cbn [frame_of file_bytes]; auto.
  intros (Lh & Lp & L2 & L65 & L12 & _). rewrite !app_length, firstn_length, skipn_length. cbn [length].
  destruct hits as [|h1 [|h2 rest]]; [cbn [length] in L2; lia|cbn [length] in L2; lia|].
  apply Forall_cons_iff in L12 as [L121 L12]. apply Forall_cons_iff in L12 as [L122 _].
  cbn [concat]. rewrite !app_length, skipn_length. cbn [length]. lia.
Qed.

Lemma block_length b : well_formed b -> exists n, length (file_bytes b) = (24 + n * 12)%nat.
Proof.
  destruct b as [bs|head hits ped]; cbn [well_formed file_bytes].
  - intros (n & H2 & Hn & Hl & _). exists n. lia.
  - intros (Lh & Lp & L2 & L65 & L12 & _). exists (length hits). rewrite !app_length, concat12 by assumption. lia.
Qed.

Lemma byte_app_l a b i : (i < length a)%nat -> byte_at (a ++ b) i = byte_at a i.
Proof. intros H. unfold byte_at. now apply app_nth1. Qed.
Lemma byte_app_r a b i : byte_at (a ++ b) (length a + i) = byte_at b i.
Proof. unfold byte_at. rewrite app_nth2 by lia. f_equal. lia. Qed.
Lemma byte_firstn n a i : (i < n)%nat -> byte_at (firstn n a) i = byte_at a i.
Proof.
  intros H. unfold byte_at. revert a i H. induction n as [|n IH]; intros [|x a] i H; try lia; cbn [firstn].
  - reflexivity.
  - destruct i; cbn [nth]; auto. apply IH. lia.
Qed.

Lemma header_obj junk pre b post : (24 <= length b)%nat -> exists o,
  (do h <- rd (length pre) 24 (pre ++ b ++ post); wr 0 h (malloc junk 40)) = Ok o /\
  length o = 40%nat /\ forall i, (i < 24)%nat -> byte_at o i = byte_at b i.
Proof.
  intros H. rewrite <- (Nat.add_0_r (length pre)), rd_app_r, rd_app_l by lia. rewrite rd_ok by lia. cbn [bind skipn].
  rewrite wr_ok by (rewrite malloc_length, firstn_length; lia).
  exists (firstn 24 b ++ skipn (length (firstn 24 b)) (malloc junk 40)). split; [reflexivity|]. split.
  - rewrite app_length, skipn_length, malloc_length, firstn_length. lia.
  - intros i Hi. rewrite byte_app_l by (rewrite firstn_length; lia). now apply byte_firstn.
Qed.

Lemma next_header junk src off o : (do h <- rd off 24 src; wr 0 h (malloc junk 40)) = Ok o -> length o = 40%nat ->
  next_frame junk src off =
  (do f <- (if byte_at o 20 + 256 * byte_at o 21 =? 48879 then unpack2 junk src (byte_at o 18 + 256 * byte_at o 19) off else unpack1 junk src off);
   do size <- get_frame_size f; Ok (f, (off + size)%nat)).
Proof.
  intros H L. unfold next_frame. destruct (rd off 24 src) as [h|]; [|discriminate]. cbn [bind] in *. rewrite H. cbn [bind].
  unfold get_nhits, get_padding_3. rewrite !rd2 by lia. cbn [bind unle]. rewrite !Z.mul_0_r, !Z.add_0_r. reflexivity.
Qed.

Lemma frame_size_of f n : (20 <= length f)%nat -> byte_at f 18 + 256 * byte_at f 19 = Z.of_nat n -> get_frame_size f = Ok (24 + n * 12)%nat.
Proof.
  intros L H. unfold get_frame_size, get_nhits. rewrite rd2 by lia. cbn [bind unle]. rewrite Z.mul_0_r, Z.add_0_r, H, Nat2Z.id. reflexivity.
Qed.

Lemma byte_range l i : all_bytes l -> 0 <= byte_at l i < 256.
Proof.
  intros H. unfold byte_at. destruct (Nat.lt_ge_cases i (length l)) as [Hi|Hi].
  - unfold all_bytes in H. rewrite Forall_forall in H. apply H. now apply nth_In.
  - rewrite nth_overflow by assumption. lia.
Qed.

Lemma next_ok junk pre b post : well_formed b ->
  next_frame junk (pre ++ file_bytes b ++ post) (length pre) = Ok (frame_of b, (length pre + length (file_bytes b))%nat).
Proof.
  intros W. destruct (block_length b W) as [n Hn]. destruct (header_obj junk pre (file_bytes b) post) as (o & Ho & Lo & Bo); [lia|].
  rewrite (next_header _ _ _ o Ho Lo). rewrite !Bo by lia.
  destruct b as [bs|head hits ped].
  - destruct W as (k & H2 & Hk & Hl & _ & B1 & B2 & B3 & B4). cbn [file_bytes frame_of] in *. rewrite B1, B2, B3, B4.
    change (239 + 256 * 190 =? 48879) with true. cbn match.
    assert (K : Z.of_nat k mod 256 + 256 * (Z.of_nat k / 256) = Z.of_nat k) by (Z.div_mod_to_equations; lia).
    rewrite K, unpack2_ok by assumption. cbn [bind]. rewrite (frame_size_of bs k) by (try lia; now rewrite B1, B2).
    cbn [bind]. do 3 f_equal. lia.
  - pose proof W as W'. destruct W' as (Lh & Lp & L2 & L65 & L12 & Bh & Bp & Bs & _ & _ & _ & Tag).
    destruct hits as [|h1 [|h2 rest]]; [cbn [length] in L2; lia|cbn [length] in L2; lia|].
    specialize (Tag h1 eq_refl). apply Forall_cons_iff in L12 as [L121 L12]. apply Forall_cons_iff in Bs as [Bs1 _].
    assert (E : forall i, (i < 12)%nat -> byte_at (file_bytes (Old head (h1 :: h2 :: rest) ped)) (12 + i) = byte_at h1 i).
    { intros i Hi. cbn [file_bytes concat]. rewrite <- Lh at 1. rewrite byte_app_r, <- app_assoc. apply byte_app_l. lia. }
    change 21%nat with (12 + 9)%nat. change 20%nat with (12 + 8)%nat. rewrite !E by lia.
    destruct (byte_at h1 8 + 256 * byte_at h1 9 =? 48879) eqn:T.
    { exfalso. apply Tag. pose proof (byte_range h1 8 Bs1). pose proof (byte_range h1 9 Bs1). split; lia. }
    rewrite unpack1_ok by assumption. cbn [bind]. pose proof (frame_length _ W) as FL.
    rewrite (frame_size_of _ n).
    + cbn [bind]. do 3 f_equal. lia.
    + rewrite FL, Hn. lia.
    + assert (length (h1 :: h2 :: rest) = n) as <-.
      { cbn [file_bytes] in Hn. rewrite !app_length, concat12 in Hn by (constructor; auto). lia. }
      cbn [frame_of]. set (k := length (h1 :: h2 :: rest)) in *.
      assert (L6 : length (head ++ firstn 6 ped) = 18%nat) by (rewrite app_length, firstn_length; lia).
      rewrite <- !app_assoc, app_assoc. cbn [app]. rewrite <- (Nat.add_0_r 18), <- L6 at 1. rewrite byte_app_r.
      replace 19%nat with (length (head ++ firstn 6 ped) + 1)%nat by lia. rewrite byte_app_r.
      unfold byte_at. cbn [nth]. unfold lo, hi. Z.div_mod_to_equations; lia.
Qed.


Definition file (bl : list block) : list Z := concat (map file_bytes bl).

Lemma file_size bl : Forall well_formed bl -> exists n, length (file bl) = (n * 12)%nat.
Proof.
  unfold file. induction 1 as [|b bl W _ (n & IH)]; cbn [map concat].
  - exists O. reflexivity.
  - destruct (block_length b W) as [k Hk]. exists (2 + k + n)%nat. rewrite app_length. lia.
Qed.

(** Frames from block [i] on, wrapping at the end. *)
Lemma produce_ok junk bl : Forall well_formed bl -> bl <> [] -> forall k i, (i <= length bl)%nat ->
  produce junk (file bl) k (length (file (firstn i bl))) =
  Ok (map (fun j => frame_of (nth ((i + j) mod length bl) bl (New []))) (seq 0 k)).
Proof.
  intros W Hne. assert (Hlen : (0 < length bl)%nat) by (destruct bl; [congruence|cbn [length]; lia]).
  assert (P : forall k i, (i < length bl)%nat ->
    (forall i, (i <= length bl)%nat -> produce junk (file bl) k (length (file (firstn i bl))) =
       Ok (map (fun j => frame_of (nth ((i + j) mod length bl) bl (New []))) (seq 0 k))) ->
    (do r <- next_frame junk (file bl) (length (file (firstn i bl))); do rest <- produce junk (file bl) k (snd r); Ok (fst r :: rest)) =
    Ok (map (fun j => frame_of (nth ((i + j) mod length bl) bl (New []))) (seq 0 (S k)))).
  { intros k i Hi IH.
    destruct (nth_split bl (New []) Hi) as (pre & post & E & Lp). set (b := nth i bl (New [])) in *.
    assert (Wb : well_formed b). { rewrite Forall_forall in W. apply W. now apply nth_In. }
    assert (F1 : file bl = file (firstn i bl) ++ file_bytes b ++ file post).
    { rewrite E at 1. unfold file. rewrite map_app, concat_app. cbn [map concat]. do 3 f_equal. rewrite E.
      rewrite firstn_app, <- Lp, Nat.sub_diag. cbn [firstn]. rewrite app_nil_r, firstn_all. reflexivity. }
    assert (F2 : length (file (firstn (S i) bl)) = (length (file (firstn i bl)) + length (file_bytes b))%nat).
    { rewrite E. rewrite <- Lp. rewrite !firstn_app. replace (S (length pre) - length pre)%nat with 1%nat by lia.
      rewrite Nat.sub_diag, firstn_all, (firstn_all2 pre) by lia. cbn [firstn]. unfold file.
      rewrite app_nil_r, map_app, concat_app, app_length. cbn [map concat]. now rewrite app_nil_r. }
    rewrite F1 at 1. rewrite next_ok by assumption. cbn [bind fst snd]. rewrite <- F2, IH by lia. cbn [bind].
    cbn [seq map]. rewrite Nat.add_0_r, Nat.mod_small by assumption. do 2 f_equal.
    rewrite <- seq_shift, map_map. apply map_ext. intros j. do 3 f_equal. lia. }
  induction k as [|k IH]; intros i Hi; [reflexivity|]. cbn [produce].
  destruct (file_size bl W) as [n Hn].
  destruct (Nat.eq_dec i (length bl)) as [->|Hni].
  - rewrite firstn_all. rewrite Hn, Nat.div_mul, Nat.eqb_refl by lia. cbv zeta match.
    pose proof (P k O Hlen IH) as P0. cbn [firstn] in P0. change (length (file [])) with O in P0. rewrite P0. f_equal.
    apply map_ext. intros j. do 2 f_equal. replace (length bl + j)%nat with (j + 1 * length bl)%nat by lia.
    rewrite Nat.mod_add by lia. reflexivity.
  - assert (Hlt : (i < length bl)%nat) by lia. rewrite Hn, Nat.div_mul by lia.
    replace (length (file (firstn i bl)) =? n * 12)%nat with false; [now apply P|].
    symmetry. apply Nat.eqb_neq. rewrite <- Hn. rewrite <- (firstn_skipn i bl) at 2. unfold file. rewrite map_app, concat_app, app_length.
    assert (L1 : length (skipn i bl) = (length bl - i)%nat) by apply skipn_length.
    rewrite <- (firstn_skipn i bl) in W. apply Forall_app in W as [_ W].
    destruct (skipn i bl) as [|b r] eqn:Es; [cbn [length] in L1; lia|]. apply Forall_cons_iff in W as [Wb _].
    destruct (block_length b Wb) as [q Hq]. cbn [map concat]. rewrite app_length. lia.
Qed.

(** No marker: the scan leaves the buffer. *)
Lemma count_crash src off : (forall i, rd (off + i * 12 + 8) 4 src <> Ok marker) -> all_bytes src ->
  forall fuel n, count_subframes fuel src off (S n) = Crash.
Proof.
  intros H B. induction fuel as [|fuel IH]; intros n; cbn [count_subframes]; auto.
  destruct (rd (off + (S n - 1) * 12 + 8) 4 src) as [w|] eqn:E; auto. cbn [bind].
  destruct (rd_nth _ _ _ _ E) as [L N].
  destruct (unle w =? 3735928559) eqn:M; [|apply IH]. exfalso. apply (H n). replace (S n - 1)%nat with n in E by lia.
  rewrite E. f_equal. apply marker_iff; auto. apply Forall_forall. intros x Hx. apply In_nth_error in Hx as [i Hi].
  assert (i < 4)%nat by (rewrite <- L; apply nth_error_Some; congruence). rewrite N in Hi by assumption.
  unfold all_bytes in B. rewrite Forall_forall in B. apply B. now apply nth_error_In in Hi.
Qed.

(** Fuel is never what ends the scan. *)
Lemma count_fuel src off : forall f1 f2 n, (length src < f1 + n)%nat -> (length src < f2 + n)%nat ->
  count_subframes f1 src off (S n) = count_subframes f2 src off (S n).
Proof.
  induction f1 as [|f1 IH]; intros f2 n H1 H2.
  - destruct f2 as [|f2]; auto. cbn [count_subframes]. rewrite rd_crash by lia. reflexivity.
  - destruct f2 as [|f2]; cbn [count_subframes].
    + rewrite rd_crash by lia. reflexivity.
    + destruct (rd _ 4 src) as [w|]; auto. cbn [bind]. destruct (unle w =? 3735928559); auto. apply IH; lia.
Qed.

Lemma next_no_marker junk src off h : rd off 24 src = Ok h -> all_bytes src -> ~ (byte_at h 20 = 239 /\ byte_at h 21 = 190) ->
  (forall i, rd (off + i * 12 + 8) 4 src <> Ok marker) -> next_frame junk src off = Crash.
Proof.
  intros R B T M. unfold rd in R. destruct (Nat.leb_spec (off + 24) (length src)); [|discriminate]. assert (Eh : h = firstn 24 (skipn off src)) by congruence. clear R. subst h.
  set (pre := firstn off src). set (b := skipn off src).
  assert (Lpre : length pre = off) by (unfold pre; rewrite firstn_length; lia).
  destruct (header_obj junk pre b []) as (o & Ho & Lo & Bo). { unfold b. rewrite skipn_length. lia. }
  rewrite app_nil_r, Lpre in Ho. unfold pre, b in Ho. rewrite firstn_skipn in Ho.
  rewrite (next_header _ _ _ o Ho Lo). rewrite !Bo by lia. rewrite !byte_firstn in T by lia. fold b in T.
  assert (Bb : all_bytes b) by now apply all_bytes_skipn.
  destruct (byte_at b 20 + 256 * byte_at b 21 =? 48879) eqn:E.
  - exfalso. apply T. pose proof (byte_range b 20 Bb). pose proof (byte_range b 21 Bb). split; lia.
  - unfold unpack1. rewrite count_crash by assumption. reflexivity.
Qed.

Lemma next_short junk src off h n : rd off 24 src = Ok h -> byte_at h 20 = 239 -> byte_at h 21 = 190 ->
  byte_at h 18 + 256 * byte_at h 19 = Z.of_nat n -> (n < 2)%nat -> next_frame junk src off = Crash.
Proof.
  intros R T1 T2 N H2. unfold rd in R. destruct (Nat.leb_spec (off + 24) (length src)); [|discriminate]. assert (Eh : h = firstn 24 (skipn off src)) by congruence. clear R. subst h.
  set (pre := firstn off src). set (b := skipn off src).
  assert (Lpre : length pre = off) by (unfold pre; rewrite firstn_length; lia).
  destruct (header_obj junk pre b []) as (o & Ho & Lo & Bo). { unfold b. rewrite skipn_length. lia. }
  rewrite app_nil_r, Lpre in Ho. unfold pre, b in Ho. rewrite firstn_skipn in Ho.
  rewrite (next_header _ _ _ o Ho Lo). rewrite !Bo by lia. rewrite !byte_firstn in * by lia. fold b in T1, T2, N.
  rewrite T1, T2, N. change (239 + 256 * 190 =? 48879) with true. cbn match. rewrite unpack2_short by assumption. reflexivity.
Qed.

(** An old-format block without hits is taken for a new-format one. *)
Lemma next_empty_old junk pre head ped rest n : length head = 12%nat -> length ped = 12%nat -> ends_with_marker ped ->
  byte_at ped 6 + 256 * byte_at ped 7 = Z.of_nat n -> (2 <= n)%nat -> Z.of_nat n < 65536 -> (12 * n <= length rest)%nat ->
  next_frame junk (pre ++ head ++ ped ++ rest) (length pre) =
  Ok (head ++ ped ++ firstn (12 * n) rest, (length pre + 24 + 12 * n)%nat).
Proof.
  intros Lh Lp M N H2 H65 Hr.
  set (bs := head ++ ped ++ firstn (12 * n) rest). set (post := skipn (12 * n) rest).
  assert (Lb : length bs = (24 + 12 * n)%nat). { unfold bs. rewrite !app_length, firstn_length. lia. }
  assert (E : pre ++ head ++ ped ++ rest = pre ++ bs ++ post).
  { unfold bs, post. rewrite <- !app_assoc, firstn_skipn. reflexivity. }
  rewrite E. destruct (header_obj junk pre bs post) as (o & Ho & Lo & Bo); [lia|].
  rewrite (next_header _ _ _ o Ho Lo). rewrite !Bo by lia.
  assert (P : forall i, (i < 12)%nat -> byte_at bs (12 + i) = byte_at ped i).
  { intros i Hi. unfold bs. replace (12 + i)%nat with (length head + i)%nat by lia. rewrite byte_app_r. apply byte_app_l. lia. }
  assert (T : byte_at ped 8 = 239 /\ byte_at ped 9 = 190).
  { unfold ends_with_marker in M. do 12 (destruct ped as [|? ped]; [discriminate|]). cbn [skipn] in M. injection M as -> -> -> _. split; reflexivity. }
  destruct T as [T1 T2]. change 21%nat with (12 + 9)%nat. change 20%nat with (12 + 8)%nat. change 19%nat with (12 + 7)%nat.
  change 18%nat with (12 + 6)%nat. rewrite !P by lia. rewrite T1, T2, N. change (239 + 256 * 190 =? 48879) with true. cbn match.
  rewrite unpack2_ok by assumption. cbn [bind]. rewrite (frame_size_of bs n).
  - cbn [bind]. do 2 f_equal. lia.
  - lia.
  - change 19%nat with (12 + 7)%nat. change 18%nat with (12 + 6)%nat. rewrite !P by lia. exact N.
Qed.

Lemma set_nhits_effect n m m' : set_nhits n m = Ok m' ->
  rd 18 2 m' = Ok (le 2 n) /\ rd 36 4 m' = Ok (le 4 n) /\
  forall i, ~ (18 <= i < 20)%nat -> ~ (36 <= i < 40)%nat -> nth_error m' i = nth_error m i.
Proof.
  intros H. split; [|split].
  - unfold set_nhits in H. destruct (wr 36 (le 4 n) m) as [m1|]; [|discriminate]. apply rd_wr_same in H. now rewrite le_length in H.
  - unfold set_nhits in H. destruct (wr 36 (le 4 n) m) as [m1|] eqn:W; [|discriminate]. cbn [bind] in H.
    rewrite (rd_wr_other _ _ _ _ 36 4 H) by (rewrite le_length; lia). apply rd_wr_same in W. now rewrite le_length in W.
  - intros i H1 H2. rewrite (set_nhits_nth _ _ _ i H).
    destruct (Nat.leb_spec 18 i), (Nat.ltb_spec i 20), (Nat.leb_spec 36 i), (Nat.ltb_spec i 40); cbn [andb]; auto; lia.
Qed.
