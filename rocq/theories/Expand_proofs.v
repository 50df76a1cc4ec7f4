(** Lemmas on the ADC expansion. *)
From Coq Require Import ZArith Lia List Bool Arith.
From Verif Require Import Base_model Expand_model Expand_spec.
Import ListNotations.
Open Scope Z_scope.

Definition all_bytes : list Z := map Z.of_nat (seq 0 256).
Lemma all_bytes_in : forall b, 0 <= b < 256 -> In b all_bytes.
Proof.
  intros b H. unfold all_bytes. apply in_map_iff. exists (Z.to_nat b). split; [lia|].
  apply in_seq. lia.
Qed.
Lemma two_bytes : forall (P : Z -> Z -> bool),
  forallb (fun a => forallb (P a) all_bytes) all_bytes = true ->
  forall a b, 0 <= a < 256 -> 0 <= b < 256 -> P a b = true.
Proof.
  intros P H a b Ha Hb. rewrite forallb_forall in H.
  specialize (H a (all_bytes_in a Ha)). rewrite forallb_forall in H. apply H, all_bytes_in, Hb.
Qed.

(** The two kinds of 16-bit lanes. *)
Lemma even_lane : forall a b, 0 <= a < 256 -> 0 <= b < 256 ->
  Z.lor (Z.land a 15) (Z.land a 240) = a /\ Z.lor (Z.land b 15) (Z.land 0 240) = b mod 16.
Proof.
  intros a b Ha Hb.
  assert (H := two_bytes (fun a b => (Z.lor (Z.land a 15) (Z.land a 240) =? a)
                                     && (Z.lor (Z.land b 15) (Z.land 0 240) =? b mod 16))).
  specialize (H ltac:(vm_compute; reflexivity) a b Ha Hb).
  apply andb_true_iff in H. rewrite !Z.eqb_eq in H. exact H.
Qed.
Definition odd_lo (a b : Z) : Z := Z.lor (Z.land (lo8 (Z.shiftr (a + 256 * b) 4)) 15) (Z.land (lo8 (Z.shiftl (b + 256 * 0) 4 mod 65536)) 240).
Definition odd_hi (a b : Z) : Z := Z.lor (Z.land (hi8 (Z.shiftr (a + 256 * b) 4)) 15) (Z.land (hi8 (Z.shiftl (b + 256 * 0) 4 mod 65536)) 240).
Lemma odd_lane : forall a b, 0 <= a < 256 -> 0 <= b < 256 -> odd_lo a b + 256 * odd_hi a b = a / 16 + 16 * b.
Proof.
  intros a b Ha Hb.
  assert (H := two_bytes (fun a b => odd_lo a b + 256 * odd_hi a b =? a / 16 + 16 * b)).
  specialize (H ltac:(vm_compute; reflexivity) a b Ha Hb). apply Z.eqb_eq in H. exact H.
Qed.

(** The channel at position p of the pair j of block i. *)
Definition pair_channel (i j p : nat) : nat := 64 * i + 16 * j + 8 * ((p mod 8) / 4) + 4 * (p / 8) + p mod 4.

Lemma nth_load256 : forall mem off k, (k < 32)%nat -> nth k (load256 mem off) 0 = mem (off + k)%nat.
Proof.
  intros. unfold load256. rewrite (nth_indep _ 0 (mem (off + 0)%nat)) by (rewrite map_length, seq_length; lia).
  rewrite (map_nth (fun i => mem (off + i)%nat)). rewrite seq_nth by lia. reflexivity.
Qed.

Lemma load256_bytes : forall mem off, is_bytes mem -> exists b : nat -> Z,
  is_bytes b /\ load256 mem off = map b (seq 0 32) /\ (forall k, b k = mem (off + k)%nat).
Proof.
  intros mem off H. exists (fun k => mem (off + k)%nat). split; [intro; apply H|]. split; reflexivity.
Qed.

Definition expand_bytes (b : nat -> Z) : list Z :=
  let raw := permutevar8x32 (map b (seq 0 32)) [0;1;2;0;3;4;5;0]%nat in
  let lo := shuffle_epi8 0 raw shuffle_mask_lo in
  let hi := shuffle_epi8 0 raw shuffle_mask_hi in
  or_si256 (and_si256 (blend_epi16 lo (srli_epi16 lo 4) 0xaa) (set1_epi16 0x0f0f))
           (and_si256 (blend_epi16 hi (slli_epi16 hi 4) 0xaa) (set1_epi16 0xf0f0)).

(** Value of the position p of a pair, from its 24 bytes. *)
Definition pair_adc (b : nat -> Z) (p : nat) : Z :=
  let byte k := b (12 * (p / 8) + 2 * k + (p mod 8) / 4)%nat in
  match (p mod 4)%nat with
  | O => byte 0%nat + 256 * (byte 1%nat mod 16)
  | 1%nat => byte 1%nat / 16 + 16 * byte 2%nat
  | 2%nat => byte 3%nat + 256 * (byte 4%nat mod 16)
  | _ => byte 4%nat / 16 + 16 * byte 5%nat
  end.

Definition even_lo (a : Z) : Z := Z.lor (Z.land a 15) (Z.land a 240).
Definition even_hi (b : Z) : Z := Z.lor (Z.land b 15) (Z.land 0 240).
Definition lane_bytes (b : nat -> Z) (p : nat) : list Z :=
  let byte k := b (12 * (p / 8) + 2 * k + (p mod 8) / 4)%nat in
  match (p mod 4)%nat with
  | O => [even_lo (byte 0%nat); even_hi (byte 1%nat)]
  | 1%nat => [odd_lo (byte 1%nat) (byte 2%nat); odd_hi (byte 1%nat) (byte 2%nat)]
  | 2%nat => [even_lo (byte 3%nat); even_hi (byte 4%nat)]
  | _ => [odd_lo (byte 4%nat) (byte 5%nat); odd_hi (byte 4%nat) (byte 5%nat)]
  end.

Lemma expand_bytes_lanes : forall b, expand_bytes b = flat_map (lane_bytes b) (seq 0 16).
Proof.
  intros b. cbv -[Z.land Z.lor Z.add Z.mul Z.shiftl Z.shiftr Z.div Z.modulo]. reflexivity.
Qed.

Lemma lane_bytes_value : forall b p, is_bytes b -> (p < 16)%nat ->
  word16 0 (lane_bytes b p) = pair_adc b p /\ length (lane_bytes b p) = 2%nat.
Proof.
  intros b p H L. unfold lane_bytes, pair_adc, word16. cbv zeta.
  destruct (p mod 4)%nat as [|[|[|n]]]; (split; [|reflexivity]); cbn [nth Nat.mul Nat.add];
    unfold even_lo, even_hi; rewrite ?odd_lane by apply H; try reflexivity;
    rewrite (proj1 (even_lane _ _ (H _) (H O))), (proj2 (even_lane _ _ (H O) (H _))); reflexivity.
Qed.

Lemma expand_word16 : forall b p, is_bytes b -> (p < 16)%nat -> word16 p (expand_bytes b) = pair_adc b p.
Proof.
  intros b p H L. rewrite expand_bytes_lanes.
  assert (forall q, (q < 16)%nat -> word16 q (flat_map (lane_bytes b) (seq 0 16)) = word16 0 (lane_bytes b q)) as E.
  { intros q Lq. do 16 (destruct q; [reflexivity|]). lia. }
  rewrite (E p L). apply lane_bytes_value; assumption.
Qed.

Lemma expand_length : forall b, length (expand_bytes b) = 32%nat.
Proof. intros b. rewrite expand_bytes_lanes. reflexivity. Qed.

Definition pair_base (i j p : nat) : nat := pair_offset i j + (12 * (p / 8) + (p mod 8) / 4).
Definition channel_base (c : nat) : nat :=
  16 + 112 * (c / 64) + 16 + 12 * (2 * ((c mod 64) / 8 / 2) + (c mod 8) / 4) + (c mod 64) / 8 mod 2.
Lemma bases_agree : forall i j p, (i < 4)%nat -> (j < 4)%nat -> (p < 16)%nat ->
  channel_base (pair_channel i j p) = pair_base i j p /\ ((pair_channel i j p mod 8) mod 4 = p mod 4)%nat.
Proof.
  assert (forallb (fun i => forallb (fun j => forallb (fun p =>
    (channel_base (pair_channel i j p) =? pair_base i j p)%nat && ((pair_channel i j p mod 8) mod 4 =? p mod 4)%nat)
    (seq 0 16)) (seq 0 4)) (seq 0 4) = true) as E by (vm_compute; reflexivity).
  intros i j p Hi Hj Hp. rewrite forallb_forall in E. specialize (E i ltac:(apply in_seq; lia)).
  rewrite forallb_forall in E. specialize (E j ltac:(apply in_seq; lia)).
  rewrite forallb_forall in E. specialize (E p ltac:(apply in_seq; lia)).
  apply andb_prop in E. rewrite !Nat.eqb_eq in E. exact E.
Qed.
Lemma pair_adc_channel : forall mem off i j p, (i < 4)%nat -> (j < 4)%nat -> (p < 16)%nat ->
  pair_adc (fun k => mem (off + pair_offset i j + k)%nat) p = wib_adc mem off (pair_channel i j p).
Proof.
  intros mem off i j p Hi Hj Hp. destruct (bases_agree i j p Hi Hj Hp) as [B C].
  unfold pair_adc, wib_adc. cbv zeta. rewrite C.
  assert (forall k, mem (off + pair_offset i j + (12 * (p / 8) + 2 * k + p mod 8 / 4))%nat
          = mem (off + (16 + 112 * (pair_channel i j p / 64) + 16 +
                 12 * (2 * (pair_channel i j p mod 64 / 8 / 2) + pair_channel i j p mod 8 / 4) + 2 * k +
                 (pair_channel i j p mod 64 / 8) mod 2))%nat) as E.
  { intros k. f_equal. unfold channel_base, pair_base in B. lia. }
  rewrite !E. reflexivity.
Qed.
Lemma frame_expanded_is : forall mem off i j,
  frame_expanded mem off i j = expand_bytes (fun k => mem (off + pair_offset i j + k)%nat).
Proof. intros. unfold frame_expanded, expand_two_segments, expand_bytes, load256. reflexivity. Qed.

Theorem frame_expanded_word : forall mem off i j p, is_bytes mem -> (i < 4)%nat -> (j < 4)%nat -> (p < 16)%nat ->
  word16 p (frame_expanded mem off i j) = wib_adc mem off (pair_channel i j p).
Proof.
  intros mem off i j p H Hi Hj Hp. rewrite <- pair_adc_channel by assumption.
  rewrite frame_expanded_is.
  apply expand_word16; [intro; apply H|assumption].
Qed.
Lemma frame_expanded_length : forall mem off i j, length (frame_expanded mem off i j) = 32%nat.
Proof.
  intros. rewrite frame_expanded_is.
  apply expand_length.
Qed.

(** * Positions: the moves do not look at the bytes *)
(** A byte of the result is a byte of one of the sixteen expanded registers, or zero. *)
Definition position : Type := option (nat * nat * nat).
Definition interp (B : nat -> nat -> nat -> Z) (p : position) : Z :=
  match p with Some (i, j, k) => B i j k | None => 0 end.
Definition symbols (i j : nat) : list position := map (fun k => Some (i, j, k)) (seq 0 32).

Lemma frame_divided_positions : forall B,
  frame_divided 0 (fun i j => map (B i j) (seq 0 32))
  = (map (map (interp B)) (fst (frame_divided None symbols)), map (map (interp B)) (snd (frame_divided None symbols))).
Proof. intros B. vm_compute. reflexivity. Qed.

Lemma frame_collection_positions : forall B,
  frame_collection 0 (fun i j => map (B i j) (seq 0 32)) = map (map (interp B)) (frame_collection None symbols).
Proof. intros B. vm_compute. reflexivity. Qed.

Lemma list32 : forall v : list Z, length v = 32%nat -> v = map (fun k => nth k v 0) (seq 0 32).
Proof.
  intros v H. apply (nth_ext _ _ 0 0); [rewrite map_length, seq_length; exact H|].
  intros n L. rewrite H in L.
  rewrite (nth_indep (map _ _) 0 (nth 0 v 0)) by (rewrite map_length, seq_length; lia).
  rewrite (map_nth (fun k => nth k v 0)), seq_nth by lia. reflexivity.
Qed.

(** Only the registers of the four blocks and four pairs matter. *)
Lemma frame_divided_ext : forall (A : Type) (z : A) e e', (forall i j, (i < 4)%nat -> (j < 4)%nat -> e i j = e' i j) ->
  frame_divided z e = frame_divided z e'.
Proof.
  intros A z e e' H.
  assert (forall i, (i < 4)%nat -> block_divided z (e i) = block_divided z (e' i)) as B.
  { intros i L. unfold block_divided. rewrite !(H i) by lia. reflexivity. }
  unfold frame_divided. cbv [Nat.ltb Nat.leb Nat.div Nat.modulo Nat.divmod Nat.sub fst snd].
  rewrite !B by lia. reflexivity.
Qed.
Lemma frame_collection_ext : forall (A : Type) (z : A) e e', (forall i j, (i < 4)%nat -> (j < 4)%nat -> e i j = e' i j) ->
  frame_collection z e = frame_collection z e'.
Proof.
  intros A z e e' H.
  assert (forall i, (i < 4)%nat -> block_collection z (e i) = block_collection z (e' i)) as B.
  { intros i L. unfold block_collection. rewrite !(H i) by lia. reflexivity. }
  unfold frame_collection. cbv [Nat.ltb Nat.leb Nat.div Nat.modulo Nat.divmod Nat.sub fst snd].
  rewrite !B by lia. reflexivity.
Qed.

(** The two positions of 16-bit word w of the registers. *)
Definition word_position (regs : list (list position)) (w : nat) : option (nat * nat * nat) :=
  match nth (2 * (w mod 16)) (nth (w / 16) regs []) None, nth (2 * (w mod 16) + 1) (nth (w / 16) regs []) None with
  | Some (i, j, k), Some (i', j', k') =>
      if (i =? i')%nat && (j =? j')%nat && (k' =? k + 1)%nat && Nat.even k && (i <? 4)%nat && (j <? 4)%nat && (k <? 31)%nat
      then Some (i, j, (k / 2)%nat) else None
  | _, _ => None
  end.
Definition word_channel (regs : list (list position)) (w : nat) : Z :=
  match word_position regs w with Some (i, j, p) => Z.of_nat (pair_channel i j p) | None => -1 end.

Lemma uint16_at_channel : forall mem off regs w i j p, is_bytes mem -> (forall r, In r regs -> length r = 32%nat) ->
  (w / 16 < length regs)%nat -> word_position regs w = Some (i, j, p) ->
  uint16_at (map (map (interp (fun i j k => nth k (frame_expanded mem off i j) 0))) regs) w
  = wib_adc mem off (pair_channel i j p).
Proof.
  intros mem off regs w i j p H L Lw E. unfold word_position in E.
  destruct (nth (2 * (w mod 16)) (nth (w / 16) regs []) None) as [[[i1 j1] k1]|] eqn:E1; [|discriminate].
  destruct (nth (2 * (w mod 16) + 1) (nth (w / 16) regs []) None) as [[[i2 j2] k2]|] eqn:E2; [|discriminate].
  destruct (_ && _) eqn:C in E; [|discriminate]. injection E as <- <- EP. change (k1 / 2 = p)%nat in EP. subst p.
  repeat (apply andb_prop in C; destruct C as [C ?]).
  apply Nat.eqb_eq in C. rewrite ?Nat.eqb_eq, ?Nat.ltb_lt in *. subst i2 j2 k2.
  match goal with X : Nat.even k1 = true |- _ => apply Nat.even_spec in X; destruct X as [k ->] end.
  replace (2 * k / 2)%nat with k by (rewrite Nat.mul_comm, Nat.div_mul by lia; reflexivity).
  rewrite <- (frame_expanded_word mem off i1 j1 k) by (try assumption; lia).
  unfold uint16_at, word16.
  assert (In (nth (w / 16) regs []) regs) as I by (apply nth_In; exact Lw).
  assert (w mod 16 < 16)%nat as M by (apply Nat.mod_upper_bound; lia).
  specialize (L _ I).
  change (@nil Z) with (map (interp (fun i j k => nth k (frame_expanded mem off i j) 0)) []).
  rewrite map_nth.
  assert (forall q, nth q (map (interp (fun i j k => nth k (frame_expanded mem off i j) 0)) (nth (w / 16) regs [])) 0
          = interp (fun i j k => nth k (frame_expanded mem off i j) 0) (nth q (nth (w / 16) regs []) None)) as N.
  { intros q. apply (map_nth (interp (fun i j k => nth k (frame_expanded mem off i j) 0)) _ None). }
  rewrite !N, E1, E2. reflexivity.
Qed.

Lemma frame_expanded_map : forall mem off i j,
  frame_expanded mem off i j = map (fun k => nth k (frame_expanded mem off i j) 0) (seq 0 32).
Proof. intros. apply list32, frame_expanded_length. Qed.

Lemma divided_positions : forall mem off,
  get_frame_divided_adcs mem off
  = (map (map (interp (fun i j k => nth k (frame_expanded mem off i j) 0))) (fst (frame_divided None symbols)),
     map (map (interp (fun i j k => nth k (frame_expanded mem off i j) 0))) (snd (frame_divided None symbols))).
Proof.
  intros. unfold get_frame_divided_adcs. rewrite <- frame_divided_positions.
  apply frame_divided_ext. intros. apply frame_expanded_map.
Qed.
Lemma collection_positions : forall mem off,
  get_frame_collection_adcs mem off
  = map (map (interp (fun i j k => nth k (frame_expanded mem off i j) 0))) (frame_collection None symbols).
Proof.
  intros. unfold get_frame_collection_adcs. rewrite <- frame_collection_positions.
  apply frame_collection_ext. intros. apply frame_expanded_map.
Qed.

Definition regs_fit (n : nat) (regs : list (list position)) : bool :=
  (length regs =? n)%nat && forallb (fun r => (length r =? 32)%nat) regs.
Definition table_fits (regs : list (list position)) (t : list Z) : bool :=
  forallb (fun w => match word_position regs w with
                    | Some (i, j, p) => Z.of_nat (pair_channel i j p) =? nth w t 0
                    | None => false end) (seq 0 (length t)).

Lemma registers_follow_table : forall mem off regs t n w, is_bytes mem -> regs_fit n regs = true -> table_fits regs t = true ->
  length t = (16 * n)%nat -> (w < 16 * n)%nat ->
  uint16_at (map (map (interp (fun i j k => nth k (frame_expanded mem off i j) 0))) regs) w
  = wib_adc mem off (Z.to_nat (nth w t 0)).
Proof.
  intros mem off regs t n w H F T L Lw. unfold regs_fit in F. apply andb_prop in F. destruct F as [F1 F2].
  apply Nat.eqb_eq in F1. rewrite forallb_forall in F2.
  unfold table_fits in T. rewrite forallb_forall in T. specialize (T w). rewrite L in T.
  specialize (T ltac:(apply in_seq; lia)).
  destruct (word_position regs w) as [[[i j] p]|] eqn:E; [|discriminate]. apply Z.eqb_eq in T.
  rewrite <- T, Nat2Z.id. apply uint16_at_channel; try assumption.
  - intros r I. specialize (F2 r I). apply Nat.eqb_eq in F2. exact F2.
  - rewrite F1. apply Nat.div_lt_upper_bound; lia.
Qed.

(** * Messages *)
Lemma message_registers_nth : forall n f r, (r < n * 12)%nat ->
  nth r (message_registers n f) [] = nth (r / 12) (f (r mod 12)%nat) [].
Proof.
  intros n f r L. unfold message_registers, frames_per_msg.
  rewrite (nth_indep _ [] (nth (0 / 12) (f (0 mod 12)%nat) [])) by (rewrite map_length, seq_length; exact L).
  rewrite (map_nth (fun r => nth (r / 12) (f (r mod 12)%nat) [])), seq_nth by lia. reflexivity.
Qed.

Lemma message_uint16 : forall n f ireg t l, (ireg < n)%nat -> (t < 12)%nat -> (l < 16)%nat ->
  uint16_at (message_registers n f) (16 * (t + 12 * ireg) + l) = uint16_at (f t) (16 * ireg + l).
Proof.
  intros n f ireg t l Li Lt Ll. unfold uint16_at.
  replace ((16 * (t + 12 * ireg) + l) / 16)%nat with (t + 12 * ireg)%nat by (apply (Nat.div_unique _ 16 _ l); lia).
  replace ((16 * (t + 12 * ireg) + l) mod 16)%nat with l by (apply (Nat.mod_unique _ 16 (t + 12 * ireg)); lia).
  replace ((16 * ireg + l) / 16)%nat with ireg by (apply (Nat.div_unique _ 16 _ l); lia).
  replace ((16 * ireg + l) mod 16)%nat with l by (apply (Nat.mod_unique _ 16 ireg); lia).
  rewrite message_registers_nth by lia.
  replace ((t + 12 * ireg) / 12)%nat with ireg by (apply (Nat.div_unique _ 12 _ t); lia).
  replace ((t + 12 * ireg) mod 12)%nat with t by (apply (Nat.mod_unique _ 12 ireg); lia).
  reflexivity.
Qed.

Lemma wib_adc_range : forall mem off c, is_bytes mem -> 0 <= wib_adc mem off c < 4096.
Proof.
  intros mem off c H. unfold wib_adc.
  set (byte := fun k => mem (off + (16 + 112 * (c / 64) + 16 + 12 * (2 * (c mod 64 / 8 / 2) + c mod 8 / 4) + 2 * k + (c mod 64 / 8) mod 2))%nat).
  change (0 <= match ((c mod 8) mod 4)%nat with
  | O => byte 0%nat + 256 * (byte 1%nat mod 16)
  | 1%nat => byte 1%nat / 16 + 16 * byte 2%nat
  | 2%nat => byte 3%nat + 256 * (byte 4%nat mod 16)
  | _ => byte 4%nat / 16 + 16 * byte 5%nat
  end < 4096).
  assert (forall k, 0 <= byte k < 256) as B by (intros; apply H).
  clearbody byte. destruct ((c mod 8) mod 4)%nat as [|[|[|n]]].
  - pose proof (B 0%nat). pose proof (Z.mod_pos_bound (byte 1%nat) 16). lia.
  - pose proof (B 1%nat). pose proof (B 2%nat). assert (0 <= byte 1%nat / 16 < 16) by (split; [apply Z.div_pos; lia|apply Z.div_lt_upper_bound; lia]). lia.
  - pose proof (B 3%nat). pose proof (Z.mod_pos_bound (byte 4%nat) 16). lia.
  - pose proof (B 4%nat). pose proof (B 5%nat). assert (0 <= byte 4%nat / 16 < 16) by (split; [apply Z.div_pos; lia|apply Z.div_lt_upper_bound; lia]). lia.
Qed.

(** The ADC of a channel lies inside the 464 bytes of the frame. *)
Lemma wib_adc_inside : forall mem mem' off c, (c < 256)%nat -> (forall k, (k < frame_size)%nat -> mem (off + k)%nat = mem' (off + k)%nat) ->
  wib_adc mem off c = wib_adc mem' off c.
Proof.
  intros mem mem' off c L H.
  assert (forall k, (k <= 5)%nat -> mem (off + (16 + 112 * (c / 64) + 16 + 12 * (2 * (c mod 64 / 8 / 2) + c mod 8 / 4) + 2 * k + (c mod 64 / 8) mod 2))%nat
    = mem' (off + (16 + 112 * (c / 64) + 16 + 12 * (2 * (c mod 64 / 8 / 2) + c mod 8 / 4) + 2 * k + (c mod 64 / 8) mod 2))%nat) as E.
  { intros k Lk. apply H.
    assert (c / 64 < 4)%nat by (apply Nat.div_lt_upper_bound; lia).
    assert (c mod 64 < 64)%nat by (apply Nat.mod_upper_bound; lia).
    assert (c mod 64 / 8 < 8)%nat by (apply Nat.div_lt_upper_bound; lia).
    assert (c mod 64 / 8 / 2 < 4)%nat by (apply Nat.div_lt_upper_bound; lia).
    assert (c mod 8 < 8)%nat by (apply Nat.mod_upper_bound; lia).
    assert (c mod 8 / 4 < 2)%nat by (apply Nat.div_lt_upper_bound; lia).
    assert ((c mod 64 / 8) mod 2 < 2)%nat by (apply Nat.mod_upper_bound; lia).
    unfold frame_size. lia. }
  unfold wib_adc. cbv zeta. rewrite !E by lia. reflexivity.
Qed.

Lemma collection_word : forall mem off w, is_bytes mem -> (w < 96)%nat ->
  uint16_at (fst (get_frame_divided_adcs mem off)) w = wib_adc mem off (Z.to_nat (nth w collection_index_to_chan 0)).
Proof.
  intros mem off w H L. rewrite divided_positions. cbn [fst].
  apply (registers_follow_table mem off _ _ 6); try assumption; vm_compute; reflexivity.
Qed.
Lemma induction_word : forall mem off w, is_bytes mem -> (w < 160)%nat ->
  uint16_at (snd (get_frame_divided_adcs mem off)) w = wib_adc mem off (Z.to_nat (nth w induction_index_to_chan 0)).
Proof.
  intros mem off w H L. rewrite divided_positions. cbn [snd].
  apply (registers_follow_table mem off _ _ 10); try assumption; vm_compute; reflexivity.
Qed.

Lemma table_lookup_in : forall t limit i, (i < length t)%nat -> Z.of_nat (length t) = limit + 1 ->
  table_lookup t limit (Z.of_nat i) = nth i t 0.
Proof.
  intros t limit i L E. unfold table_lookup.
  destruct (Z.of_nat i <? 0) eqn:A; [apply Z.ltb_lt in A; lia|].
  destruct (limit <? Z.of_nat i) eqn:B; [apply Z.ltb_lt in B; lia|].
  cbn [orb]. rewrite Nat2Z.id. reflexivity.
Qed.

Lemma nth_in_range : forall (t : list Z) i, forallb (fun x => (0 <=? x) && (x <? 256)) t = true -> (i < length t)%nat -> 0 <= nth i t 0 < 256.
Proof.
  intros t i F L. rewrite forallb_forall in F. specialize (F _ (nth_In t 0 L)).
  apply andb_prop in F. lia.
Qed.

Lemma set_state_nth : forall regs j, (j < 96)%nat ->
  nth j (set_state regs) (0, 0, 0)
  = (i16 (uint16_at regs j), i16 (i16 (uint16_at regs j) - 3), i16 (i16 (uint16_at regs j) + 3)).
Proof.
  intros regs j L. unfold set_state.
  set (g := fun j => let ped := i16 (uint16_at regs j) in (ped, i16 (ped - 3), i16 (ped + 3))).
  rewrite (nth_indep _ (0, 0, 0) (g 0%nat)) by (rewrite map_length, seq_length; exact L).
  rewrite map_nth, seq_nth by lia. reflexivity.
Qed.

(** * Sizes *)
Lemma interp_fits : forall (n : nat) v regs, regs_fit n regs = true ->
  length (map (map (interp v)) regs) = n /\ Forall (fun r => length r = 32%nat) (map (map (interp v)) regs).
Proof.
  intros n v regs H. unfold regs_fit in H. apply andb_prop in H. destruct H as [L F].
  rewrite map_length. split; [apply Nat.eqb_eq; exact L|].
  apply Forall_forall. intros r I. apply in_map_iff in I. destruct I as (q & <- & I).
  rewrite forallb_forall in F. rewrite map_length. apply Nat.eqb_eq, F, I.
Qed.
Lemma message_registers_fit : forall n (f : nat -> list (list Z)),
  (forall k, length (f k) = n /\ Forall (fun r => length r = 32%nat) (f k)) ->
  Forall (fun r => length r = 32%nat) (message_registers n f).
Proof.
  intros n f H. apply Forall_forall. intros r I. unfold message_registers in I. apply in_map_iff in I.
  destruct I as (q & <- & I). apply in_seq in I. unfold frames_per_msg in *.
  destruct (H (q mod 12)%nat) as [L F]. rewrite Forall_forall in F. apply F, nth_In. rewrite L.
  apply Nat.div_lt_upper_bound; lia.
Qed.
