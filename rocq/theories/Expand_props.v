(** C45 and C49: ADC expansion and pedestal initialisation. *)
From Coq Require Import ZArith Lia List Bool Arith Permutation.
From Verif Require Import Base_model Expand_model Expand_spec Expand_proofs.
Import ListNotations.
Open Scope Z_scope.

(** Entry i of the collection registers is the ADC value of the channel of the map, for every frame. *)
Theorem C45_collection : forall mem off i, is_bytes mem -> 0 <= i < 96 ->
  uint16_at (fst (get_frame_divided_adcs mem off)) (Z.to_nat i) = wib_adc mem off (Z.to_nat (collection_index_to_channel i)).
Proof.
  intros mem off i H L. rewrite collection_word by (try assumption; lia).
  rewrite <- (table_lookup_in _ 95) by (try reflexivity; change (length collection_index_to_chan) with 96%nat; lia).
  rewrite Z2Nat.id by lia. reflexivity.
Qed.
Print Assumptions C45_collection.

Theorem C45_induction : forall mem off i, is_bytes mem -> 0 <= i < 160 ->
  uint16_at (snd (get_frame_divided_adcs mem off)) (Z.to_nat i) = wib_adc mem off (Z.to_nat (induction_index_to_channel i)).
Proof.
  intros mem off i H L. rewrite induction_word by (try assumption; lia).
  rewrite <- (table_lookup_in _ 159) by (try reflexivity; change (length induction_index_to_chan) with 160%nat; lia).
  rewrite Z2Nat.id by lia. reflexivity.
Qed.
Print Assumptions C45_induction.

(** Together the two maps list every channel exactly once. *)
Definition zseq (n : nat) : list Z := map Z.of_nat (seq 0 n).
Fixpoint remove_one (x : Z) (l : list Z) : option (list Z) :=
  match l with
  | [] => None
  | y :: t => if x =? y then Some t else match remove_one x t with Some t' => Some (y :: t') | None => None end
  end.
Fixpoint permutation_of (a b : list Z) : bool :=
  match a with
  | [] => match b with [] => true | _ => false end
  | x :: t => match remove_one x b with Some b' => permutation_of t b' | None => false end
  end.
Lemma remove_one_perm : forall x l l', remove_one x l = Some l' -> Permutation (x :: l') l.
Proof.
  intros x l. induction l as [|y t IH]; intros l' E; [discriminate|]. cbn in E.
  destruct (x =? y) eqn:C.
  - apply Z.eqb_eq in C. injection E as <-. subst. apply Permutation_refl.
  - destruct (remove_one x t) as [t'|]; [|discriminate]. injection E as <-.
    apply perm_trans with (y :: x :: t'); [apply perm_swap|apply perm_skip, IH; reflexivity].
Qed.
Lemma permutation_of_perm : forall a b, permutation_of a b = true -> Permutation a b.
Proof.
  induction a as [|x t IH]; intros b E; cbn in E.
  - destruct b; [apply perm_nil|discriminate].
  - destruct (remove_one x b) as [b'|] eqn:R; [|discriminate].
    apply perm_trans with (x :: b'); [apply perm_skip, IH, E|apply remove_one_perm, R].
Qed.
Theorem C45_every_channel_once :
  Permutation (map collection_index_to_channel (zseq 96) ++ map induction_index_to_channel (zseq 160)) (zseq 256).
Proof. apply permutation_of_perm. vm_compute. reflexivity. Qed.
Print Assumptions C45_every_channel_once.

(** Indices out of range give -1; indices in range never do. *)
Theorem C45_out_of_range : forall i,
  (collection_index_to_channel i = -1 <-> ~ 0 <= i < 96) /\ (induction_index_to_channel i = -1 <-> ~ 0 <= i < 160) /\
  (collection_index_to_offline i = -1 <-> ~ 0 <= i < 96) /\ (induction_index_to_offline i = -1 <-> ~ 0 <= i < 160).
Proof.
  assert (forall t n limit, length t = n -> Z.of_nat n = limit + 1 -> forallb (fun x => 0 <=? x) t = true ->
          forall i, table_lookup t limit i = -1 <-> ~ 0 <= i < Z.of_nat n) as G.
  { intros t n limit L E F i. rewrite forallb_forall in F. unfold table_lookup.
    destruct (i <? 0) eqn:A; [apply Z.ltb_lt in A; cbn; split; lia|].
    destruct (limit <? i) eqn:B; [apply Z.ltb_lt in B; cbn; split; lia|].
    apply Z.ltb_ge in A, B. cbn [orb]. split; [|lia]. intros N.
    assert (Z.to_nat i < length t)%nat as I by lia.
    specialize (F _ (nth_In t 0 I)). cbn beta in F. lia. }
  intros i. repeat split; try (apply (G _ 96%nat); vm_compute; reflexivity);
    try (apply (G _ 160%nat); vm_compute; reflexivity).
Qed.
Print Assumptions C45_out_of_range.

(** The offline numbers are those of the wires; and the collection tables hold exactly the collection channels. *)
Theorem C45_offline_numbers : forall i,
  (0 <= i < 96 -> is_collection (collection_index_to_channel i) = true /\ collection_index_to_offline i = wire_of (collection_index_to_channel i)) /\
  (0 <= i < 160 -> is_collection (induction_index_to_channel i) = false /\ induction_index_to_offline i = wire_of (induction_index_to_channel i)).
Proof.
  assert (G : forall (f : Z -> bool) n, forallb f (zseq n) = true -> forall i, 0 <= i < Z.of_nat n -> f i = true).
  { intros f n F i Hi. rewrite forallb_forall in F. apply F. unfold zseq. apply in_map_iff. exists (Z.to_nat i). split; [lia|]. apply in_seq. lia. }
  intros i. split; intros Hi.
  - assert (X : (is_collection (collection_index_to_channel i) && (collection_index_to_offline i =? wire_of (collection_index_to_channel i)))%bool = true)
      by (apply (G (fun i => is_collection (collection_index_to_channel i) && (collection_index_to_offline i =? wire_of (collection_index_to_channel i)))%bool 96%nat); [vm_compute; reflexivity|exact Hi]).
    apply andb_true_iff in X as [X1 X2]. apply Z.eqb_eq in X2. auto.
  - assert (X : (negb (is_collection (induction_index_to_channel i)) && (induction_index_to_offline i =? wire_of (induction_index_to_channel i)))%bool = true)
      by (apply (G (fun i => negb (is_collection (induction_index_to_channel i)) && (induction_index_to_offline i =? wire_of (induction_index_to_channel i)))%bool 160%nat); [vm_compute; reflexivity|exact Hi]).
    apply andb_true_iff in X as [X1 X2]. apply Z.eqb_eq in X2. apply negb_true_iff in X1. auto.
Qed.
Print Assumptions C45_offline_numbers.
Example C45_offline_numbers_ex : collection_index_to_channel 12 = 208 /\ collection_index_to_offline 12 = 264 /\ induction_index_to_channel 3 = 3 /\ induction_index_to_offline 3 = 229.
Proof. vm_compute. repeat split; reflexivity. Qed.

(** Finding: a number is not the number of one wire of the link; the collection plane and the first induction plane share 40 of them. *)
Theorem C45_offline_numbers_shared :
  NoDup (map collection_index_to_offline (zseq 96)) /\ NoDup (map induction_index_to_offline (zseq 160)) /\
  Permutation (map collection_index_to_offline (zseq 96)) (zseq 48 ++ map (fun x => 240 + x) (zseq 48)) /\
  Permutation (map induction_index_to_offline (zseq 160)) (zseq 40 ++ map (fun x => 200 + x) (zseq 40) ++ map (fun x => 960 + x) (zseq 40) ++ map (fun x => 1160 + x) (zseq 40)).
Proof.
  assert (P1 : Permutation (map collection_index_to_offline (zseq 96)) (zseq 48 ++ map (fun x => 240 + x) (zseq 48))) by (apply permutation_of_perm; vm_compute; reflexivity).
  assert (P2 : Permutation (map induction_index_to_offline (zseq 160)) (zseq 40 ++ map (fun x => 200 + x) (zseq 40) ++ map (fun x => 960 + x) (zseq 40) ++ map (fun x => 1160 + x) (zseq 40)))
    by (apply permutation_of_perm; vm_compute; reflexivity).
  assert (D : forall l : list Z, forallb (fun p => fst p <? snd p) (combine l (tl l)) = true -> NoDup l).
  { intros l. induction l as [|a [|b l] IH]; intros H; [constructor|repeat constructor; intros []|]. cbn in H. apply andb_true_iff in H as [H1 H2]. apply Z.ltb_lt in H1. constructor; [|apply IH; exact H2].
    assert (Q : forall l b, forallb (fun p => fst p <? snd p) (combine (b :: l) l) = true -> forall x, In x (b :: l) -> b <= x).
    { clear. intros l. induction l as [|c l IH]; intros b H x [<-|Hx]; try lia; [contradiction|]. cbn in H. apply andb_true_iff in H as [H1 H2]. apply Z.ltb_lt in H1. specialize (IH c H2 x Hx). lia. }
    intros Hin. specialize (Q l b H2 a Hin). lia. }
  split; [|split; [|split; [exact P1|exact P2]]].
  - eapply Permutation_NoDup; [apply Permutation_sym; exact P1|]. apply D. vm_compute. reflexivity.
  - eapply Permutation_NoDup; [apply Permutation_sym; exact P2|]. apply D. vm_compute. reflexivity.
Qed.
Print Assumptions C45_offline_numbers_shared.


(** The collection-only expansion gives the same six registers. *)
Theorem C45_collection_only : forall mem off, get_frame_collection_adcs mem off = fst (get_frame_divided_adcs mem off).
Proof. intros. rewrite divided_positions, collection_positions. cbn [fst]. f_equal. Qed.
Print Assumptions C45_collection_only.

(** The plain expansion holds all 256 channels, block by block and pair of segments by pair of segments. *)
Theorem C45_all : forall mem off i j p, is_bytes mem -> (i < 4)%nat -> (j < 4)%nat -> (p < 16)%nat ->
  uint16_at (get_frame_all_adcs mem off) (64 * i + 16 * j + p)
  = wib_adc mem off (64 * i + 16 * j + 8 * ((p mod 8) / 4) + 4 * (p / 8) + p mod 4).
Proof.
  intros mem off i j p H Hi Hj Hp. fold (pair_channel i j p). rewrite <- (frame_expanded_word mem off i j p H Hi Hj Hp).
  unfold uint16_at, get_frame_all_adcs, frame_all.
  replace ((64 * i + 16 * j + p) / 16)%nat with (4 * i + j)%nat by (apply (Nat.div_unique _ 16 _ p); lia).
  replace ((64 * i + 16 * j + p) mod 16)%nat with p by (apply (Nat.mod_unique _ 16 (4 * i + j)); lia).
  set (g := fun r => frame_expanded mem off (r / 4)%nat (r mod 4)%nat).
  rewrite (nth_indep _ [] (g O)) by (rewrite map_length, seq_length; lia).
  rewrite map_nth, seq_nth by lia. unfold g.
  replace ((0 + (4 * i + j)) / 4)%nat with i by (apply (Nat.div_unique _ 4 _ j); lia).
  replace ((0 + (4 * i + j)) mod 4)%nat with j by (apply (Nat.mod_unique _ 4 i); lia).
  reflexivity.
Qed.
Print Assumptions C45_all.

(** In an expanded superchunk the two accessors find sample [itime] of channel [ichan] where it was put. *)
Theorem C45_message : forall mem ichan itime, is_bytes mem -> (ichan < 96)%nat -> (itime < 12)%nat ->
  uint16_at (expand_collection mem) (get16_index ichan itime)
    = wib_adc mem (464 * itime) (Z.to_nat (collection_index_to_channel (Z.of_nat ichan)))
  /\ word16 (ichan mod 16) (nth (get256_index 6 (ichan / 16) itime) (expand_collection mem) [])
    = wib_adc mem (464 * itime) (Z.to_nat (collection_index_to_channel (Z.of_nat ichan))).
Proof.
  intros mem ichan itime H L Lt.
  assert (ichan / 16 < 6)%nat as D by (apply Nat.div_lt_upper_bound; lia).
  assert (ichan mod 16 < 16)%nat as M by (apply Nat.mod_upper_bound; lia).
  assert (ichan = 16 * (ichan / 16) + ichan mod 16)%nat as E by (apply Nat.div_mod; lia).
  assert (itime / 12 = 0)%nat as T by (apply Nat.div_small; lia).
  assert (itime mod 12 = itime)%nat as T' by (apply Nat.mod_small; lia).
  assert (uint16_at (expand_collection mem) (16 * (itime + 12 * (ichan / 16)) + ichan mod 16)
          = wib_adc mem (464 * itime) (Z.to_nat (collection_index_to_channel (Z.of_nat ichan)))) as G.
  { unfold expand_collection. rewrite message_uint16 by assumption. rewrite <- E, collection_word by assumption.
    unfold collection_index_to_channel. rewrite table_lookup_in; [reflexivity|exact L|reflexivity]. }
  split; rewrite <- G.
  - f_equal. unfold get16_index, frames_per_msg. rewrite T, T'. change (0 * (32 * 6 * 12) / 2)%nat with 0%nat. lia.
  - unfold uint16_at, get256_index, frames_per_msg. rewrite T, T'.
    replace ((16 * (itime + 12 * (ichan / 16)) + ichan mod 16) / 16)%nat with (itime + 12 * (ichan / 16))%nat
      by (apply (Nat.div_unique _ 16 _ (ichan mod 16)); lia).
    replace ((16 * (itime + 12 * (ichan / 16)) + ichan mod 16) mod 16)%nat with (ichan mod 16)%nat
      by (apply (Nat.mod_unique _ 16 (itime + 12 * (ichan / 16))); lia).
    f_equal. f_equal. lia.
Qed.
Print Assumptions C45_message.

Theorem C45_message_induction : forall mem w itime, is_bytes mem -> (w < 160)%nat -> (itime < 12)%nat ->
  word16 (w mod 16) (nth (get256_index 10 (w / 16) itime) (expand_induction mem) [])
    = wib_adc mem (464 * itime) (Z.to_nat (induction_index_to_channel (Z.of_nat w))).
Proof.
  intros mem w itime H L Lt.
  assert (w / 16 < 10)%nat as D by (apply Nat.div_lt_upper_bound; lia).
  assert (w mod 16 < 16)%nat as M by (apply Nat.mod_upper_bound; lia).
  assert (w = 16 * (w / 16) + w mod 16)%nat as E by (apply Nat.div_mod; lia).
  unfold get256_index, frames_per_msg. rewrite (Nat.div_small itime), (Nat.mod_small itime) by lia.
  replace (0 * 10 * 12 + 12 * (w / 16) + itime)%nat with (itime + 12 * (w / 16))%nat by lia.
  unfold expand_induction. rewrite message_registers_nth by lia.
  replace ((itime + 12 * (w / 16)) / 12)%nat with (w / 16)%nat by (apply (Nat.div_unique _ 12 _ itime); lia).
  replace ((itime + 12 * (w / 16)) mod 12)%nat with itime by (apply (Nat.mod_unique _ 12 (w / 16)); lia).
  change (uint16_at (snd (get_frame_divided_adcs mem (464 * itime))) w
          = wib_adc mem (464 * itime) (Z.to_nat (induction_index_to_channel (Z.of_nat w)))).
  rewrite induction_word by assumption.
  unfold induction_index_to_channel. rewrite table_lookup_in; [reflexivity|exact L|reflexivity].
Qed.
Print Assumptions C45_message_induction.

(** The loads of a frame reach 8 bytes beyond its end (so beyond the superchunk for its last frame), but never change the
    result: it only depends on the 464 bytes of the frame. *)
Theorem C45_load_beyond_frame :
  fold_right max 0%nat (map (fun o => o + 32)%nat frame_loads) = (frame_size + 8)%nat /\
  forall mem mem' off, is_bytes mem -> is_bytes mem' ->
    (forall k, (k < frame_size)%nat -> mem (off + k)%nat = mem' (off + k)%nat) ->
    forall w, ((w < 96)%nat -> uint16_at (fst (get_frame_divided_adcs mem off)) w = uint16_at (fst (get_frame_divided_adcs mem' off)) w)
           /\ ((w < 160)%nat -> uint16_at (snd (get_frame_divided_adcs mem off)) w = uint16_at (snd (get_frame_divided_adcs mem' off)) w).
Proof.
  split; [vm_compute; reflexivity|]. intros mem mem' off H H' E w. split; intros L.
  - rewrite !collection_word by assumption. apply wib_adc_inside; [|exact E].
    pose proof (nth_in_range collection_index_to_chan w eq_refl L). lia.
  - rewrite !induction_word by assumption. apply wib_adc_inside; [|exact E].
    pose proof (nth_in_range induction_index_to_chan w eq_refl L). lia.
Qed.
Print Assumptions C45_load_beyond_frame.

(** Example: a frame whose bytes all differ from their neighbours. *)
Definition ex_mem : memory := fun k => Z.of_nat k * 37 mod 256.
Lemma ex_mem_bytes : is_bytes ex_mem.
Proof. intros k. apply Z.mod_pos_bound. lia. Qed.
Example C45_collection_ex : is_bytes ex_mem /\
  map (fun i => uint16_at (fst (get_frame_divided_adcs ex_mem 464)) i) [0; 4; 12; 95]%nat = [552; 3507; 696; 2099].
Proof. split; [exact ex_mem_bytes|]. vm_compute. reflexivity. Qed.

(** Whatever the memory holds, an expanded message fills the array of registers the caller gives, no more and no less: 6 or 10
    registers of 32 bytes for each of the 12 frames. *)
Theorem C45_message_fits : forall mem,
  length (expand_collection mem) = (6 * 12)%nat /\ length (expand_induction mem) = (10 * 12)%nat /\
  Forall (fun r => length r = 32%nat) (expand_collection mem) /\ Forall (fun r => length r = 32%nat) (expand_induction mem).
Proof.
  intros mem. split; [|split; [|split]].
  - unfold expand_collection, message_registers. rewrite map_length, seq_length. reflexivity.
  - unfold expand_induction, message_registers. rewrite map_length, seq_length. reflexivity.
  - apply (message_registers_fit 6). intros f. rewrite divided_positions. cbn [fst]. apply interp_fits. vm_compute. reflexivity.
  - apply (message_registers_fit 10). intros f. rewrite divided_positions. cbn [snd]. apply interp_fits. vm_compute. reflexivity.
Qed.
Print Assumptions C45_message_fits.
Example C45_message_fits_ex : word16 15 (nth 119 (expand_induction ex_mem) []) = 27.
Proof. unfold expand_induction. rewrite message_registers_nth by lia. vm_compute. reflexivity. Qed.

(** * Pedestals *)
(** Channel j gets its pedestal from register 0 at tick j / 16, that is from channel j mod 16 of the map. *)
Theorem C49_pedestal_source : forall mem j, is_bytes mem -> (j < 96)%nat ->
  let s := wib_adc mem (464 * (j / 16)) (Z.to_nat (collection_index_to_channel (Z.of_nat (j mod 16)))) in
  nth j (set_state (expand_collection mem)) (0, 0, 0) = (s, s - 3, s + 3).
Proof.
  intros mem j H L s. rewrite set_state_nth by exact L.
  assert (j / 16 < 6)%nat as D by (apply Nat.div_lt_upper_bound; lia).
  assert (j mod 16 < 16)%nat as M by (apply Nat.mod_upper_bound; lia).
  assert (uint16_at (expand_collection mem) j = s) as E.
  { replace j with (16 * (j / 16 + 12 * 0) + j mod 16)%nat at 1 by (pose proof (Nat.div_mod j 16); lia).
    unfold expand_collection. rewrite message_uint16 by lia. cbn [Nat.mul Nat.add].
    rewrite collection_word by (try assumption; lia). unfold s, collection_index_to_channel.
    rewrite table_lookup_in; [reflexivity| |reflexivity]. change (length collection_index_to_chan) with 96%nat. lia. }
  rewrite E. pose proof (wib_adc_range mem (464 * (j / 16)) (Z.to_nat (collection_index_to_channel (Z.of_nat (j mod 16)))) H) as R.
  fold s in R. unfold i16, two16. rewrite !Z.mod_small by lia. f_equal; [f_equal|]; lia.
Qed.
Print Assumptions C49_pedestal_source.

(** The pedestal is the channel's own first sample for all messages exactly if the channel is in the first register. *)
Theorem C49_own_sample_iff : forall j, (j < 96)%nat ->
  (forall mem, is_bytes mem ->
     fst (fst (nth j (set_state (expand_collection mem)) (0, 0, 0)))
     = wib_adc mem 0 (Z.to_nat (collection_index_to_channel (Z.of_nat j))))
  <-> (j < 16)%nat.
Proof.
  intros j L. split.
  - intros A. destruct (Nat.lt_ge_cases j 16) as [?|G]; [assumption|exfalso].
    (* all bytes of the first frame zero, all others 255 *)
    set (mem := fun k => if (k <? 464)%nat then 0 else 255).
    assert (is_bytes mem) as B by (intros k; unfold mem; destruct (k <? 464)%nat; lia).
    specialize (A mem B). rewrite C49_pedestal_source in A by assumption. cbn [fst] in A.
    assert (forall c, (c < 256)%nat -> wib_adc mem 0 c = 0) as Z0.
    { intros c Lc. rewrite (wib_adc_inside mem (fun _ => 0) 0 c Lc).
      - unfold wib_adc. destruct ((c mod 8) mod 4)%nat as [|[|[|n]]]; reflexivity.
      - intros k Lk. unfold mem, frame_size in *. apply Nat.ltb_lt in Lk. cbn [Nat.add]. rewrite Lk. reflexivity. }
    assert (forall t c, (0 < t)%nat -> (c < 256)%nat -> wib_adc mem (464 * t) c = 4095) as Z1.
    { intros t c Lt Lc. rewrite (wib_adc_inside mem (fun _ => 255) (464 * t) c Lc).
      - unfold wib_adc. destruct ((c mod 8) mod 4)%nat as [|[|[|n]]]; reflexivity.
      - intros k Lk. unfold mem. destruct (464 * t + k <? 464)%nat eqn:C; [apply Nat.ltb_lt in C; lia|reflexivity]. }
    assert (0 < j / 16)%nat as D by (apply (Nat.div_le_lower_bound j 16 1); lia).
    assert (forall i, (i < 96)%nat -> (Z.to_nat (collection_index_to_channel (Z.of_nat i)) < 256)%nat) as R.
    { intros i Li. unfold collection_index_to_channel. rewrite table_lookup_in; [|exact Li|reflexivity].
      pose proof (nth_in_range collection_index_to_chan i eq_refl Li). lia. }
    rewrite Z0 in A by (apply R; exact L).
    rewrite Z1 in A; [discriminate|exact D|]. apply R. pose proof (Nat.mod_upper_bound j 16). lia.
  - intros S mem B. rewrite C49_pedestal_source by assumption. cbn [fst].
    rewrite Nat.div_small, Nat.mod_small by lia. reflexivity.
Qed.
Print Assumptions C49_own_sample_iff.

Example C49_pedestal_source_ex : is_bytes ex_mem /\
  nth 20 (set_state (expand_collection ex_mem)) (0, 0, 0) = (3507, 3504, 3510) /\
  wib_adc ex_mem 0 (Z.to_nat (collection_index_to_channel 20)) = 3475.
Proof. split; [exact ex_mem_bytes|]. split; [rewrite C49_pedestal_source by (exact ex_mem_bytes || lia)|]; vm_compute; reflexivity. Qed.
