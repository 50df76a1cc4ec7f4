(** Property C84: what every configured buffer size gives. *)
From Coq Require Import ZArith List Bool Lia ZifyBool.
From Verif Require Import Base_model Ring_model Size_model Size_spec Size_proofs Settings_model.
Import ListNotations.
Open Scope Z_scope.

Lemma occupancy_ok : forall {A} n (r : ring A) l, holds n r l -> slots_of n <= 2147483648 -> occupancy r = Z.of_nat (length l).
Proof.
  intros A n r l H B. pose proof (h_read _ _ _ H) as R. pose proof (h_len _ _ _ H) as L. pose proof (at_range _ _ (Z.of_nat (length l)) R ltac:(lia)) as P.
  unfold occupancy. rewrite (h_size _ _ _ H), (h_write _ _ _ H). set (len := Z.of_nat (length l)) in *.
  assert (I : forall z, 0 <= z < 2147483648 -> i32 z = z) by (intros z Hz; unfold i32; change two32 with 4294967296; rewrite Z.mod_small by lia; lia).
  rewrite !I by lia. unfold at_ in *. destruct (r_read r + len <? slots_of n) eqn:E.
  - replace (r_read r + len - r_read r) with len by lia. replace (len <? 0) with false by lia. reflexivity.
  - destruct (_ <? 0) eqn:F; [|lia].
    assert (S : u32 n = slots_of n).
    { unfold slots_of, u32 in *. change two32 with 4294967296. change (2 ^ 32) with 4294967296 in *. destruct (n mod 4294967296 =? 0) eqn:G; lia. }
    rewrite S. unfold i32 at 2. change two32 with 4294967296. destruct (Z.eq_dec (slots_of n) 2147483648) as [Q|Q].
    + rewrite Q. change ((2147483648 + 2147483648) mod 4294967296) with 0. unfold i32. change two32 with 4294967296.
      rewrite <- (Z.mod_unique (r_read r + len - 2147483648 - r_read r + (0 - 2147483648) + 2147483648) 4294967296 (-1) (len + 2147483648)); lia.
    + rewrite Z.mod_small by lia. rewrite I by lia. lia.
Qed.

(** C84. A size from 1 for which the memory can be counted in 64 bits gives a first-in-first-out queue with room for size - 1 elements up to the size 2^32; above
    it is the size modulo 2^32 that counts. A size with remainder 1 gives a buffer that refuses every element. Every call answers as the queue does, under every history.
    The number of stored elements is reported correctly if no more than 2^31 slots are used. *)
Theorem C84_every_size :
  forall (A : Type) (asserts : bool) (element n : Z),
  0 < element -> 1 <= n -> (asserts = true -> 2 <= n) -> element * n < 2 ^ 64 ->
  exists s0 : sized A, size_new asserts element n = Ok s0 /\
  (n <= 2 ^ 32 -> room n = n - 1) /\ (n mod 2 ^ 32 = 1 -> room n = 0) /\ (n mod 2 ^ 32 <> 0 -> room n = n mod 2 ^ 32 - 1) /\
  forall ops, (fifo_run (room n) [] ops = None -> size_run s0 ops = Crash) /\
    (forall l ys, fifo_run (room n) [] ops = Some (l, ys) ->
       exists s, size_run s0 ops = Ok (s, ys) /\ (slots_of n <= 2 ^ 31 -> occupancy (z_ring s) = Z.of_nat (length l))).
Proof.
  intros A asserts element n He Hn Ha Hm.
  assert (H : @size_new A asserts element n = Ok (mk_sized (mk_ring (u32 n) (fun _ => None) 0 0 0) (cells element n))).
  { unfold size_new. destruct asserts; [|reflexivity]. specialize (Ha eq_refl). replace (n <? 2) with false by lia. reflexivity. }
  revert H. generalize (mk_sized (mk_ring (u32 n) (fun _ : Z => @None A) 0 0 0) (cells element n)). intros s0 H. exists s0. split; [exact H|]. split; [|split; [|split]].
  - intros L. unfold room, slots_of. change (2 ^ 32) with 4294967296 in *. destruct (Z.eq_dec n 4294967296) as [->|N]; [reflexivity|]. rewrite Z.mod_small by lia.
    replace (n =? 0) with false by lia. reflexivity.
  - intros E. unfold room, slots_of. rewrite E. reflexivity.
  - intros E. unfold room, slots_of. apply Z.eqb_neq in E. rewrite E. reflexivity.
  - assert (S : s0 = mk_sized (mk_ring (u32 n) (fun _ => None) 0 0 0) n).
    { unfold size_new in H. destruct (asserts && (n <? 2)); [discriminate H|]. injection H as <-. rewrite cells_enough by (assumption || lia). reflexivity. }
    intros ops. pose proof (run_ok n ops s0 []) as R. rewrite S in *. specialize (R (holds_new n)). cbn [z_cells] in R.
    specialize (R (or_introl (slots_le n Hn))). split.
    + intros E. rewrite E in R. exact R.
    + intros l ys E. rewrite E in R. destruct R as (s & R1 & R2). exists s. split; [exact R1|]. intros B. apply (occupancy_ok n); [exact R2|exact B].
Qed.

(** C84. In general: an element is put outside the memory by some history that the queue allows if and only if there is memory for fewer elements than slots
    are used, and these are more than one. *)
Theorem C84_memory_overrun :
  forall (A : Type) (x : A) (asserts : bool) (element n : Z) (s0 : sized A), 0 < element -> size_new asserts element n = Ok s0 ->
  (exists ops, fifo_run (room n) [] ops <> None /\ size_run s0 ops = Crash) <-> u64 (element * n) / element < slots_of n /\ slots_of n <> 1.
Proof.
  intros A x asserts element n s0 He H. pose proof (slots_range n) as SR.
  assert (S : s0 = mk_sized (mk_ring (u32 n) (fun _ => None) 0 0 0) (cells element n)).
  { unfold size_new in H. destruct (asserts && (n <? 2)); [discriminate H|]. injection H as <-. reflexivity. }
  change (u64 (element * n) / element) with (cells element n).
  assert (C0 : 0 <= cells element n) by (apply Z.div_pos; [apply Z.mod_pos_bound; reflexivity|exact He]). split.
  - intros (ops & F & R). pose proof (run_ok n ops s0 []) as G. rewrite S in *. specialize (G (holds_new n)). unfold enough in G. cbn [z_cells] in G.
    destruct (Z_lt_ge_dec (cells element n) (slots_of n)) as [L|L]; [destruct (Z.eq_dec (slots_of n) 1) as [D|D]; [|split; assumption]|].
    + specialize (G (or_intror D)). destruct (fifo_run (room n) [] ops) as [[l ys]|]; [|contradiction]. destruct G as (s & G & _). rewrite R in G. discriminate G.
    + assert (LE : slots_of n <= cells element n) by lia. specialize (G (or_introl LE)). destruct (fifo_run (room n) [] ops) as [[l ys]|]; [|contradiction]. destruct G as (s & G & _). rewrite R in G. discriminate G.
  - intros (L & D). exists (concat (repeat [SWrite x; SPop 1] (Z.to_nat (cells element n))) ++ [SWrite x]). split.
    + assert (P : (0 <? room n) = true) by (apply Z.ltb_lt; unfold room; lia). generalize (Z.to_nat (cells element n)). intros k. induction k as [|k IH].
      * cbn. rewrite P. discriminate.
      * cbn [repeat concat app fifo_run fifo_step length]. change (Z.of_nat 0) with 0. rewrite P. cbn [app fifo_run fifo_step length Nat.leb skipn].
        destruct (fifo_run (room n) [] _) as [[l ys]|]; [discriminate|exact IH].
    + rewrite S. apply (walks_out n (cells element n)).
      * apply holds_new.
      * reflexivity.
      * lia.
      * lia.
      * cbn [z_ring r_read]. rewrite Z2Nat.id by exact C0. lia.
      * rewrite Z2Nat.id by exact C0. lia.
Qed.

(** C84. In particular, without assertions a buffer of size 0 is accepted and its first element is put outside the memory. With assertions sizes below 2 end the
    process. *)
Theorem C84_size_zero_refuted :
  forall (A : Type) (x : A) (element : Z), 0 < element ->
  @size_new A true element 0 = Crash /\ @size_new A true element 1 = Crash /\
  exists s0, size_new false element 0 = Ok s0 /\ size_run s0 [SWrite x] = Crash /\ fifo_run (room 0) [] [SWrite x] = Some ([x], [SBool true]).
Proof.
  intros A x element He. split; [reflexivity|]. split; [reflexivity|]. eexists. split; [reflexivity|]. split; [|reflexivity]. unfold cells. rewrite Z.mul_0_r. change (u64 0) with 0. rewrite Z.div_0_l by lia. reflexivity.
Qed.

(** C84. With more than 2^31 slots the number of stored elements is misreported: after 2^31 elements. *)
Theorem C84_occupancy_of_large_buffers_refuted :
  forall (A : Type) (x : A) (asserts : bool) (element n : Z) (s0 : sized A),
  0 < element -> 1 <= n -> element * n < 2 ^ 64 -> 2 ^ 31 < slots_of n -> size_new asserts element n = Ok s0 ->
  exists ops l ys s, fifo_run (room n) [] ops = Some (l, ys) /\ size_run s0 ops = Ok (s, ys) /\ Z.of_nat (length l) = 2 ^ 31 /\ occupancy (z_ring s) <> 2 ^ 31.
Proof.
  intros A x asserts element n s0 He Hn Hm Hb H. pose proof (slots_range n) as SR. change (2 ^ 31) with 2147483648 in *.
  destruct (Z_of_nat_complete 2147483648 ltac:(lia)) as [k K]. symmetry in K.
  assert (F : forall j l, Z.of_nat (length l) + Z.of_nat j <= room n -> fifo_run (room n) l (repeat (SWrite x) j) = Some (l ++ repeat x j, repeat (SBool true) j)).
  { induction j as [|j IH]; intros l B; cbn [repeat fifo_run]; [rewrite app_nil_r; reflexivity|]. cbn [fifo_step]. replace (Z.of_nat (length l) <? room n) with true by lia.
    rewrite IH by (rewrite app_length; cbn; lia). rewrite <- app_assoc. reflexivity. }
  specialize (F k [] ltac:(unfold room; cbn; lia)). cbn [app] in F.
  assert (S : s0 = mk_sized (mk_ring (u32 n) (fun _ => None) 0 0 0) n).
  { unfold size_new in H. destruct (asserts && (n <? 2)); [discriminate H|]. injection H as <-. rewrite cells_enough by (assumption || lia). reflexivity. }
  assert (G : forall j s l, holds n (z_ring s) l -> slots_of n <= z_cells s -> r_read (z_ring s) = 0 -> Z.of_nat (length l) + Z.of_nat j <= room n ->
     exists s', size_run s (repeat (SWrite x) j) = Ok (s', repeat (SBool true) j) /\ holds n (z_ring s') (l ++ repeat x j) /\ r_read (z_ring s') = 0).
  { induction j as [|j IH]; intros s l Hs Cs Rs B; cbn [repeat size_run].
    - exists s. rewrite app_nil_r. split; [reflexivity|]. split; assumption.
    - pose proof (write_ok n _ l x Hs) as W. replace (Z.of_nat (length l) <? room n) with true in W by lia. destruct W as (r' & E & H').
      pose proof (h_read _ _ _ Hs) as R. pose proof (h_len _ _ _ Hs) as L. pose proof (at_range _ _ (Z.of_nat (length l)) R ltac:(lia)) as P. rewrite <- (h_write _ _ _ Hs) in P.
      cbn [size_step]. unfold size_write. rewrite E. replace (r_write (z_ring s) <? z_cells s) with true by lia. cbn [bind].
      assert (RR : r_read r' = 0) by (unfold write in E; destruct (negb _); [destruct (r_slots _ _); [discriminate E|]; injection E as <-; exact Rs|discriminate E]).
      destruct (IH (mk_sized r' (z_cells s)) (l ++ [x]) H' Cs RR ltac:(rewrite app_length; cbn; lia)) as (s2 & E2 & H2 & R2). rewrite E2. cbn [bind].
      exists s2. split; [reflexivity|]. rewrite <- app_assoc in H2. split; assumption. }
  destruct (G k s0 [] ltac:(rewrite S; apply holds_new) ltac:(rewrite S; apply slots_le; exact Hn) ltac:(rewrite S; reflexivity) ltac:(unfold room; cbn; lia)) as (s & R1 & R2 & R3).
  cbn [app] in R2. exists (repeat (SWrite x) k), (repeat x k), (repeat (SBool true) k), s. split; [exact F|]. split; [exact R1|]. rewrite repeat_length. split; [exact K|].
  unfold occupancy. rewrite (h_write _ _ _ R2), R3, (h_size _ _ _ R2), repeat_length, K. unfold at_. replace (0 + 2147483648 <? slots_of n) with true by lia.
  change (0 + 2147483648) with 2147483648. change (i32 2147483648) with (-2147483648). change (i32 0) with 0. change (-2147483648 - 0 <? 0) with true. cbn [Z.sub].
  unfold slots_of, i32, u32 in *. change two32 with 4294967296 in *. change (2 ^ 32) with 4294967296 in *.
  destruct (n mod 4294967296 =? 0) eqn:Z0; [replace (n mod 4294967296) with 0 by lia; vm_compute; discriminate|].
  rewrite <- (Z.mod_unique (n mod 4294967296 + 2147483648) 4294967296 1 (n mod 4294967296 - 2147483648)) by lia.
  intros X. match type of X with ?a mod ?b - _ = _ => pose proof (Z.mod_pos_bound a b ltac:(lia)) end. lia.
Qed.

(** C84. The generated sizes in a build without assertions: with slow-down factors above 250000 and up to 500000 every element is refused; with larger
    ones the first element is put outside the memory. *)
Theorem C84_generated_sizes :
  forall (A : Type) (k : handler_kind) (s element : Z) (c : link_settings) (x : A) (s0 : sized A),
  0 < element < 2 ^ 32 -> 250000 < s -> generated k s = Some c -> size_new false element (st_buffer_size c) = Ok s0 ->
  if s <=? 500000 then forall ops s1 ys, size_run s0 ops = Ok (s1, ys) -> occupancy (z_ring s1) = 0 /\ ~ In (SBool true) (map (fun p => match fst p with SWrite _ => snd p | _ => SUnit end) (combine ops ys))
  else size_run s0 [SWrite x] = Crash.
Proof.
  intros A k s element c x s0 He Hs G N.
  assert (B : st_buffer_size c = 500000 / s).
  { assert (L : latency_buffer_size s = Some (500000 / s)).
    { unfold latency_buffer_size, clock_speed_hz. replace (s =? 0) with false by lia. f_equal.
      replace (3 * 50000000) with (300 * 500000) by reflexivity. change (25 * 12) with 300. apply Z.div_mul_cancel_l; lia. }
    unfold generated in G. rewrite L in G. injection G as <-. reflexivity. }
  rewrite B in N. destruct (s <=? 500000) eqn:E.
  - assert (D : 500000 / s = 1) by (symmetry; apply (Z.div_unique 500000 s 1 (500000 - s)); lia). rewrite D in N.
    pose proof (C84_every_size A false element 1 ltac:(lia) ltac:(lia) ltac:(discriminate) ltac:(change (2 ^ 32) with 4294967296 in He; change (2 ^ 64) with 18446744073709551616; lia)) as (s0' & N' & _ & _ & _ & Q). rewrite N in N'. injection N' as <-.
    assert (F : forall ops l ys, fifo_run (room 1) ([] : list A) ops = Some (l, ys) -> l = [] /\ ~ In (SBool true) (map (fun p => match fst p with SWrite _ => snd p | _ => SUnit end) (combine ops ys))).
    { change (room 1) with 0. induction ops as [|o ops IH]; intros l ys R; cbn [fifo_run] in R.
      - injection R as <- <-. split; [reflexivity|intros []].
      - assert (T : exists y, fifo_step 0 [] o = Some ([], y) /\ (match o with SWrite _ => y | _ => SUnit end) <> SBool true \/ fifo_step 0 ([] : list A) o = None).
        { destruct o as [y| |[|j]| |]; cbn; try (eexists; left; split; [reflexivity|discriminate]). exists SUnit. right. reflexivity. }
        destruct T as (y & [[T1 T2]|T]); [|rewrite T in R; discriminate R]. rewrite T1 in R. destruct (fifo_run 0 [] ops) as [[l2 ys2]|] eqn:R2; [|discriminate R]. injection R as <- <-.
        destruct (IH _ _ eq_refl) as (-> & I). split; [reflexivity|]. cbn [combine map fst snd]. intros [X|X]; [exact (T2 X)|exact (I X)]. }
    intros ops s1 ys R. destruct (Q ops) as (Q1 & Q2). destruct (fifo_run (room 1) [] ops) as [[l ys']|] eqn:R2.
    + destruct (Q2 l ys' eq_refl) as (s' & R3 & O). rewrite R in R3. injection R3 as <- <-. destruct (F _ _ _ R2) as (-> & I). split; [exact (O ltac:(vm_compute; discriminate))|exact I].
    + rewrite (Q1 eq_refl) in R. discriminate R.
  - rewrite (Z.div_small 500000 s) in N by lia. destruct (C84_size_zero_refuted A x element ltac:(lia)) as (_ & _ & s' & N' & R & _). rewrite N in N'. injection N' as <-. exact R.
Qed.

(** Examples: sizes 4, 1 and 2^32 + 3; 2^58 superchunks of 5568 bytes (the product is a multiple of 2^64, so there is no memory at all). *)
Example C84_ex :
  let go := fun n (ops : list (size_op Z)) => match @size_new Z false 5568 n with Ok s => match size_run s ops with Ok (s', ys) => Some (ys, occupancy (z_ring s')) | Crash => None end | Crash => None end in
  go 4 [SWrite 1; SWrite 2; SWrite 3; SWrite 4; SRead; SWrite 5; SIsFull; SPop 2; SRead; SIsEmpty] =
    Some ([SBool true; SBool true; SBool true; SBool false; SElem (Some 1); SBool true; SBool true; SUnit; SElem (Some 5); SBool true], 0) /\
  go 1 [SWrite 1; SIsFull; SRead] = Some ([SBool false; SBool true; SElem None], 0) /\
  go (2 ^ 32 + 3) [SWrite 1; SWrite 2; SWrite 3] = Some ([SBool true; SBool true; SBool false], 2) /\
  go 0 [SWrite 1] = None /\ go (2 ^ 58) [SWrite 1] = None /\ go 4 [SPop 1] = None /\ @size_new Z true 5568 1 = Crash.
Proof. vm_compute. repeat split; reflexivity. Qed.
Example C84_hypotheses_ex :
  u64 (5568 * 2 ^ 58) / 5568 < slots_of (2 ^ 58) /\ slots_of (2 ^ 58) <> 1 /\ 5568 * 3000000000 < 2 ^ 64 /\ 2 ^ 31 < slots_of 3000000000 /\
  match generated DataHandler 300000, generated DataHandler 600000 with Some c, Some c' => st_buffer_size c = 1 /\ st_buffer_size c' = 0 | _, _ => False end.
Proof. vm_compute. repeat split; congruence. Qed.

Print Assumptions C84_every_size.
Print Assumptions C84_memory_overrun.
Print Assumptions C84_size_zero_refuted.
Print Assumptions C84_occupancy_of_large_buffers_refuted.
Print Assumptions C84_generated_sizes.
