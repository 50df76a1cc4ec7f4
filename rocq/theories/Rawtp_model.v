(** Model of the raw TP object and of the TP emulator's file parser.
    /repo/include/readout/RawWIBTp.hpp (TpHeader 24-60, RawWIBTp 171-208),
    /repo/src/wib/TPEmulatorModel.hpp (unpack_tpframe_version_2 136-150, unpack_tpframe_version_1 151-196,
    run_produce 198-252). Objects are byte lists; reads and writes outside an allocation are [Crash].
    Object layout (little endian, 4-byte words): header 24 bytes with m_nhits at bytes 18-19 and m_padding_3 at
    bytes 20-21, hit k at byte 24+12k, and RawWIBTp::m_nhits (private int after m_blocks[1]) at byte 36.
    Simplification: offsets are unbounded (the code uses int: files below 2^31 bytes). *)
From Coq Require Import ZArith List Bool.
From Verif Require Import Base_model Bytes_model.
Import ListNotations.
Open Scope Z_scope.

(** RawWIBTp::get_nhits, line 203 (57). *)
Definition get_nhits (m : list Z) : res Z := do b <- rd 18 2 m; Ok (unle b).
(** get_padding_3, line 204. *)
Definition get_padding_3 (m : list Z) : res Z := do b <- rd 20 2 m; Ok (unle b).
(** RawWIBTp::set_nhits, lines 183-187 (58): first the private member, then the 16-bit header field. *)
Definition set_nhits (n : Z) (m : list Z) : res (list Z) :=
  do m1 <- wr 36 (le 4 n) m; wr 18 (le 2 n) m1.
(** get_frame_size, lines 194-197. *)
Definition get_frame_size (m : list Z) : res nat :=
  do n <- get_nhits m; Ok (24 + Z.to_nat n * 12)%nat.

(** malloc(n): [junk] is the previous content of the heap. *)
Definition malloc (junk : nat -> Z) (n : nat) : list Z := map junk (seq 0 n).

(** unpack_tpframe_version_2, lines 136-150. *)
Definition unpack2 (junk : nat -> Z) (src : list Z) (nhits : Z) (offset : nat) : res (list Z) :=
  let m0 := malloc junk (24 + Z.to_nat nhits * 12) in
  do m1 <- set_nhits nhits m0;
  do size <- get_frame_size m1;
  do bs <- rd offset size src;
  wr 0 bs m1.

(** The counting loop, lines 156-160: [n] as in the code. The source buffer ends the loop by a read outside it,
    so fuel [length src] is never exhausted. *)
Fixpoint count_subframes (fuel : nat) (src : list Z) (offset n : nat) : res nat :=
  match fuel with
  | O => Crash
  | S fuel' => do w <- rd (offset + (n - 1) * 12 + 8) 4 src;
               if unle w =? 3735928559 then Ok n else count_subframes fuel' src offset (S n)
  end.

(** unpack_tpframe_version_1, lines 151-196. A single subframe gives nhits = -1 and a memcpy of (size_t)-12 bytes. *)
Definition unpack1 (junk : nat -> Z) (src : list Z) (offset : nat) : res (list Z) :=
  do n <- count_subframes (S (length src)) src offset 1;
  if (n <? 2)%nat then Crash else
  let nhits := (n - 2)%nat in
  do head <- rd offset 12 src;
  do ped <- rd (offset + (n - 1) * 12) 12 src;
  do hits <- rd (offset + 12) (nhits * 12) src;
  let tmp := head ++ ped ++ hits in
  let m0 := malloc junk (24 + nhits * 12) in
  do m1 <- set_nhits (Z.of_nat nhits) m0;
  do size <- get_frame_size m1;
  do bs <- rd 0 size tmp;
  do m2 <- wr 0 bs m1;
  set_nhits (Z.of_nat nhits) m2.

(** One turn of the loop of run_produce, lines 219-237: the frame and the new offset. *)
Definition next_frame (junk : nat -> Z) (src : list Z) (offset : nat) : res (list Z * nat) :=
  let obj := malloc junk 40 in
  do h <- rd offset 24 src;
  do obj1 <- wr 0 h obj;
  do nhits <- get_nhits obj1;
  do padding <- get_padding_3 obj1;
  do f <- (if padding =? 48879 then unpack2 junk src nhits offset else unpack1 junk src offset);
  do size <- get_frame_size f;
  Ok (f, (offset + size)%nat).

(** run_produce, lines 198-252: [k] turns of the loop; the frames in the order they are pushed. num_elements is the
    number of whole 12-byte subframes in the file (FileSourceBuffer.hpp 66-74). *)
Fixpoint produce (junk : nat -> Z) (src : list Z) (k : nat) (offset : nat) : res (list (list Z)) :=
  match k with
  | O => Ok []
  | S k' =>
      let num_elem := (length src / 12)%nat in
      let offset := if (offset =? num_elem * 12)%nat then O else offset in
      do r <- next_frame junk src offset;
      do rest <- produce junk src k' (snd r);
      Ok (fst r :: rest)
  end.
