(** Specification of the ADC expansion: where the WIB frame format puts the 12 bits of each channel.
    (detdataformats WIBFrame, not part of /repo: 16 bytes header, four blocks of 16 + 8 * 12 bytes; each 12-byte segment
    holds four channels of two ADCs, interleaved bytewise.) *)
From Coq Require Import ZArith List.
Import ListNotations.
Open Scope Z_scope.

Definition is_bytes (mem : nat -> Z) : Prop := forall i, 0 <= mem i < 256.

(** Channel c of the frame starting at [off]: block c / 64, ADC (c mod 64) / 8, input c mod 8 of the ADC. *)
Definition wib_adc (mem : nat -> Z) (off c : nat) : Z :=
  let adc := ((c mod 64) / 8)%nat in
  let ch := (c mod 8)%nat in
  let segment := (2 * (adc / 2) + ch / 4)%nat in
  let byte k := mem (off + (16 + 112 * (c / 64) + 16 + 12 * segment + 2 * k + adc mod 2))%nat in
  match (ch mod 4)%nat with
  | O => byte 0%nat + 256 * (byte 1%nat mod 16)
  | 1%nat => byte 1%nat / 16 + 16 * byte 2%nat
  | 2%nat => byte 3%nat + 256 * (byte 4%nat mod 16)
  | _ => byte 4%nat / 16 + 16 * byte 5%nat
  end.

(** The wire of a channel (C45). A link has two boards of four blocks of 32 channels; the blocks of a board come in the order 1, 0, 2, 3. In every block the collection wires
    are at places 10 to 21, twelve of them; the other twenty are ten wires of the first and ten of the second induction plane. Along the block the odd wires of a plane go down, the even ones
    up. The numbers of the first induction plane run against those of the other two planes. *)
Definition wire_in_block : list Z := [4; 6; 8; 9; 7; 5; 3; 1; 3; 1; 11; 9; 7; 5; 3; 1; 0; 2; 4; 6; 8; 10; 0; 2; 0; 2; 4; 6; 8; 9; 7; 5].
Definition is_collection (channel : Z) : bool := (10 <=? channel mod 32) && (channel mod 32 <=? 21).
Definition is_first_induction (channel : Z) : bool :=
  (3 <=? channel mod 32) && (channel mod 32 <=? 7) || (24 <=? channel mod 32) && (channel mod 32 <=? 28).
Definition wire_of (channel : Z) : Z :=
  let board := channel / 128 in
  let place := nth (Z.to_nat (channel / 32 mod 4)) [1; 0; 2; 3] 0 in
  let w := nth (Z.to_nat (channel mod 32)) wire_in_block 0 in
  if is_collection channel then 240 * board + 12 * place + w
  else if is_first_induction channel then 200 * (1 - board) + 10 * (3 - place) + w
  else 960 + 200 * board + 10 * place + w.
