(** Properties C30 and C31: the TP emulator's file parser and the raw TP object. *)
From Coq Require Import ZArith List Bool Lia.
From Verif Require Import Base_model Bytes_model Rawtp_model Rawtp_spec Rawtp_proofs.
Import ListNotations.
Open Scope Z_scope.

(** C30. Whatever the heap contained, from a file of any number of well-formed blocks in any mixture of the two
    formats, the emulator emits for every number k of turns the frames of the blocks in file order, starting again
    with the first block after the last one. *)
Theorem C30_split_at_block_boundaries : forall junk bl, Forall well_formed bl -> bl <> [] -> forall k,
  produce junk (concat (map file_bytes bl)) k 0 = Ok (map (fun j => frame_of (nth (j mod length bl) bl (New []))) (seq 0 k)).
Proof. intros junk bl W Hne k. exact (produce_ok junk bl W Hne k 0 (Nat.le_0_l _)). Qed.
Print Assumptions C30_split_at_block_boundaries.

Notation ex_new := (New (repeat 5 18 ++ [2; 0; 239; 190] ++ repeat 6 26)).
Notation ex_old := (Old (repeat 1 12) [repeat 2 12; repeat 3 12; repeat 4 12] (repeat 9 8 ++ marker)).
Example C30_well_formed_ex : Forall well_formed [ex_new; ex_old].
Proof.
  constructor; [|constructor; [|constructor]].
  - exists 2%nat. repeat split; try (cbn; lia). unfold all_bytes. repeat (constructor; [lia|]). constructor.
  - assert (B : forall z k, 0 <= z < 256 -> all_bytes (repeat z k)).
    { intros z k Hz. apply Forall_forall. intros x Hx. apply repeat_spec in Hx. lia. }
    split; [reflexivity|]. split; [reflexivity|]. split; [cbn; lia|]. split; [cbn; lia|]. split; [repeat constructor|].
    split; [apply B; lia|]. split; [apply Forall_app; split; [apply B; lia|repeat constructor; lia]|].
    split; [repeat (constructor; [apply B; lia|]); constructor|]. split; [reflexivity|]. split; [cbn; discriminate|].
    split; [repeat (constructor; [cbn; discriminate|]); constructor|].
    intros h E. injection E as <-. cbn. lia.
Qed.
Example C30_split_ex :
  produce (fun _ => 77) (concat (map file_bytes [ex_new; ex_old])) 3 0 =
  Ok [repeat 5 18 ++ [2; 0; 239; 190] ++ repeat 6 26;
      repeat 1 12 ++ repeat 9 6 ++ [3; 0] ++ marker ++ repeat 2 12 ++ [3; 0; 0; 0] ++ repeat 3 8 ++ repeat 4 12;
      repeat 5 18 ++ [2; 0; 239; 190] ++ repeat 6 26].
Proof. vm_compute. reflexivity. Qed.

(** C30. Frames of the new format are byte for byte the blocks of the file; those of the old format are not: the
    first word of the second hit is lost. *)
Theorem C30_old_format_damaged_refuted : exists b, well_formed b /\ forall junk,
  produce junk (file_bytes b) 1 0 = Ok [frame_of b] /\
  (forall head hits ped, b = Old head hits ped -> frame_of b <> head ++ (firstn 6 ped ++ [lo (length hits); hi (length hits)] ++ skipn 8 ped) ++ concat hits).
Proof.
  exists ex_old. pose proof (Forall_inv (Forall_inv_tail C30_well_formed_ex)) as W. split; [exact W|]. intros junk. split.
  - pose proof (C30_split_at_block_boundaries junk [ex_old] (Forall_cons _ W (Forall_nil _)) ltac:(discriminate) 1) as P.
    cbn [map concat seq] in P. rewrite app_nil_r in P. exact P.
  - intros head hits ped E. injection E as <- <- <-. vm_compute. discriminate.
Qed.
Print Assumptions C30_old_format_damaged_refuted.

(** C30. Wherever parsing starts, if the block is not tagged as new format and no subframe from there on ends with
    the marker, the parser reads past the end of the buffer. *)
Theorem C30_no_marker_reads_past_the_end : forall junk src off h,
  rd off 24 src = Ok h -> all_bytes src -> ~ (byte_at h 20 = 239 /\ byte_at h 21 = 190) ->
  (forall i, rd (off + i * 12 + 8) 4 src <> Ok marker) -> next_frame junk src off = Crash.
Proof. exact next_no_marker. Qed.
Print Assumptions C30_no_marker_reads_past_the_end.
Example C30_no_marker_ex : next_frame (fun _ => 0) (repeat 1 120) 12 = Crash /\ rd 12 24 (repeat 1 120) = Ok (repeat 1 24)
  /\ forall i, rd (12 + i * 12 + 8) 4 (repeat 1 120) <> Ok marker.
Proof.
  split; [vm_compute; reflexivity|]. split; [vm_compute; reflexivity|]. intros i.
  do 10 (destruct i as [|i]; [vm_compute; discriminate|]). unfold rd. destruct (Nat.leb_spec (12 + S (S (S (S (S (S (S (S (S (S i))))))))) * 12 + 8 + 4) (length (repeat 1 120))); [|discriminate].
  rewrite repeat_length in H. lia.
Qed.

(** C30. An old-format block without hits is always taken for a new-format block, because its end marker is where
    the parser looks for the tag; the unrelated bytes 6-7 of its closing subframe then decide how many bytes of the
    following blocks are emitted as its hits. *)
Theorem C30_empty_old_block_swallows_the_next : forall junk pre head ped rest n,
  length head = 12%nat -> length ped = 12%nat -> ends_with_marker ped ->
  byte_at ped 6 + 256 * byte_at ped 7 = Z.of_nat n -> (2 <= n)%nat -> Z.of_nat n < 65536 -> (12 * n <= length rest)%nat ->
  next_frame junk (pre ++ head ++ ped ++ rest) (length pre) =
  Ok (head ++ ped ++ firstn (12 * n) rest, (length pre + 24 + 12 * n)%nat).
Proof. exact next_empty_old. Qed.
Print Assumptions C30_empty_old_block_swallows_the_next.
Example C30_empty_old_ex : next_frame (fun _ => 0) (repeat 1 12 ++ ([8;8;8;8;8;8;2;0] ++ marker) ++ repeat 7 30) 0
  = Ok (repeat 1 12 ++ ([8;8;8;8;8;8;2;0] ++ marker) ++ repeat 7 24, 48%nat).
Proof. vm_compute. reflexivity. Qed.

(** C31. Whatever hit count is stored in an object of any size, the frame size reported afterwards is 24+12n, for
    the count modulo 2^16. *)
Theorem C31_reported_size : forall n m m', set_nhits n m = Ok m' ->
  get_frame_size m' = Ok (24 + 12 * Z.to_nat (n mod 65536))%nat.
Proof. exact c31_size. Qed.
Print Assumptions C31_reported_size.
Example C31_reported_size_ex : (do m <- set_nhits 65539 (repeat 7 60); get_frame_size m) = Ok 60%nat.
Proof. vm_compute. reflexivity. Qed.

(** C31. Storing any count in an object allocated for k hits stays inside the allocation exactly if k >= 2. *)
Theorem C31_store_in_bounds_iff : forall n k junk, set_nhits n (malloc junk (24 + 12 * k)) <> Crash <-> (2 <= k)%nat.
Proof. exact c31_bounds. Qed.
Print Assumptions C31_store_in_bounds_iff.
Example C31_store_ex : set_nhits 1 (malloc (fun _ => 0) 36) = Crash /\ set_nhits 2 (malloc (fun _ => 0) 48) <> Crash.
Proof. split; vm_compute; [reflexivity|discriminate]. Qed.

(** C31. It then changes the two bytes of the header field and the first four bytes of the second hit, and nothing
    else. *)
Theorem C31_store_overwrites_second_hit : forall n m m', set_nhits n m = Ok m' ->
  rd 18 2 m' = Ok (le 2 n) /\ rd 36 4 m' = Ok (le 4 n) /\
  forall i, ~ (18 <= i < 20)%nat -> ~ (36 <= i < 40)%nat -> nth_error m' i = nth_error m i.
Proof. exact set_nhits_effect. Qed.
Print Assumptions C31_store_overwrites_second_hit.
Example C31_store_overwrites_ex : set_nhits 258 (repeat 7 48) =
  Ok (repeat 7 18 ++ [2; 1] ++ repeat 7 16 ++ [2; 1; 0; 0] ++ repeat 7 8).
Proof. vm_compute. reflexivity. Qed.

(** C30/C31. So a new-format block with fewer than two hits makes the emulator write outside the allocation. *)
Theorem C31_short_block_damages_the_heap : forall junk src off h n, rd off 24 src = Ok h ->
  byte_at h 20 = 239 -> byte_at h 21 = 190 -> byte_at h 18 + 256 * byte_at h 19 = Z.of_nat n -> (n < 2)%nat ->
  next_frame junk src off = Crash.
Proof. exact next_short. Qed.
Print Assumptions C31_short_block_damages_the_heap.
Example C31_short_block_ex : next_frame (fun _ => 0) (repeat 0 18 ++ [1; 0; 239; 190] ++ repeat 0 100) 0 = Crash
  /\ next_frame (fun _ => 0) (repeat 0 18 ++ [2; 0; 239; 190] ++ repeat 0 100) 0 <> Crash.
Proof. split; vm_compute; [reflexivity|discriminate]. Qed.
