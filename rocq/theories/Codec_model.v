(** Models of the timestamp encodings, over the bytes of the objects.
    /repo/include/readout/RawWIBTp.hpp: TpHeader 24-55;
    /repo/include/readout/ReadoutTypes.hpp: WIB2 172-195, DAPHNE 242-263, SSP 366-383. *)
From Coq Require Import ZArith List Bool.
From Verif Require Import Base_model Bytes_model.
Import ListNotations.
Open Scope Z_scope.

(** TpHeader::get_timestamp, RawWIBTp.hpp 40-47, on the words m_timestamp_1 and m_timestamp_2. *)
Definition raw_decode (w1 w2 : Z) : Z :=
  u64 (u64 (u64 (Z.shiftr (Z.land w1 4294901760) 16 + Z.shiftl (Z.land w1 65535) 16)
            + Z.shiftl (Z.land w2 4294901760) 16)
       + Z.shiftl (Z.land w2 65535) 48).

(** TpHeader::set_timestamp, RawWIBTp.hpp 49-55: the new values of the two words. *)
Definition raw_encode (ts : Z) : Z * Z :=
  (u32 (u32 (Z.shiftl (Z.land ts 65535) 16) + Z.shiftr (Z.land ts 4294901760) 16),
   u32 (u32 (Z.shiftr (Z.land ts 281470681743360) 16) + Z.land (Z.shiftr ts 48) 65535)).

(** The words are at bytes 4 and 8 of the object (RawWIBTp.hpp 31-33: one 32-bit word of bit fields first). *)
Definition raw_get (m : list Z) : res Z :=
  do b1 <- rd 4 4 m; do b2 <- rd 8 4 m; Ok (raw_decode (unle b1) (unle b2)).
Definition raw_set (ts : Z) (m : list Z) : res (list Z) :=
  let '(w1, w2) := raw_encode ts in
  do m1 <- wr 4 (le 4 w1) m; wr 8 (le 4 w2) m1.

(** SSP: header.timestamp[0..3], 16 bits each; [o] is the position of that array in the event header
    (detdataformats, outside /repo). *)
Fixpoint ssp_get_loop (o : nat) (k : nat) (iword : nat) (ts : Z) (m : list Z) : res Z :=
  match k with
  | O => Ok ts
  | S k' => do b <- rd (o + 2 * iword) 2 m;
            ssp_get_loop o k' (S iword) (u64 (ts + u64 (Z.shiftl (unle b) (16 * Z.of_nat iword)))) m
  end.
(** get_first_timestamp, lines 366-374. *)
Definition ssp_get (o : nat) (m : list Z) : res Z := ssp_get_loop o 4 0 0 m.

Fixpoint ssp_set_loop (o : nat) (k : nat) (iword : nat) (ts : Z) (m : list Z) : res (list Z) :=
  match k with
  | O => Ok m
  | S k' => do m1 <- wr (o + 2 * iword) (le 2 (Z.land ts 65535)) m;
            ssp_set_loop o k' (S iword) (Z.shiftr ts 16) m1
  end.
(** set_first_timestamp, lines 376-383. *)
Definition ssp_set (o : nat) (ts : Z) (m : list Z) : res (list Z) := ssp_set_loop o 4 0 ts m.

(** WIB2 and DAPHNE: two 32-bit fields at positions [p1] and [p2] of the frame (the frame structs are outside
    /repo: timestamp_1/timestamp_2 and timestamp_wf_1/timestamp_wf_2). [off] is the start of the frame.
    set_first_timestamp 177-182 and 247-252; the getter of the external struct is assumed to combine the fields. *)
Definition split_set (p1 p2 off : nat) (ts : Z) (m : list Z) : res (list Z) :=
  do m1 <- wr (off + p1) (le 4 ts) m; wr (off + p2) (le 4 (Z.shiftr ts 32)) m1.
Definition split_get (p1 p2 off : nat) (m : list Z) : res Z :=
  do b1 <- rd (off + p1) 4 m; do b2 <- rd (off + p2) 4 m; Ok (unle b1 + Z.shiftl (unle b2) 32).

(** fake_timestamps, lines 184-193 and 254-263: [k] frames still to do, [i] the loop counter, [stride] 468 or 584. *)
Fixpoint fake_loop (p1 p2 stride k i : nat) (ts_next offset : Z) (m : list Z) : res (list Z) :=
  match k with
  | O => Ok m
  | S k' => do m1 <- split_set p1 p2 (i * stride) ts_next m;
            fake_loop p1 p2 stride k' (S i) (u64 (ts_next + offset)) offset m1
  end.
Definition fake_timestamps (p1 p2 stride : nat) (first offset : Z) (m : list Z) : res (list Z) :=
  fake_loop p1 p2 stride 12 0 first offset m.
