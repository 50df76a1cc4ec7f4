(** Property C32: the timestamp encodings round-trip. *)
From Coq Require Import ZArith List Bool Lia.
From Verif Require Import Base_model Bytes_model Codec_model Codec_spec Codec_proofs.
Import ListNotations.
Open Scope Z_scope.

(** Raw WIB TP: set then get returns the same 64-bit value, for any object content, and only the eight bytes of
    the two timestamp words change. *)
Theorem C32_raw_tp : forall m ts, (12 <= length m)%nat -> 0 <= ts < two64 ->
  exists m', raw_set ts m = Ok m' /\ raw_get m' = Ok ts /\ changes_only (within 4 8) m m'.
Proof. exact c32_raw. Qed.
Print Assumptions C32_raw_tp.
Example C32_raw_tp_ex :
  raw_set 81985529216486895 (repeat 7 16) = Ok [7;7;7;7; 171;137;239;205; 35;1;103;69; 7;7;7;7]
  /\ raw_get [7;7;7;7; 171;137;239;205; 35;1;103;69; 7;7;7;7] = Ok 81985529216486895.
Proof. split; vm_compute; reflexivity. Qed.

(** Conversely, whatever bytes an object holds, the timestamp read from it is the only one whose encoding they are. *)
Theorem C32_raw_tp_unique : forall m ts, bytes m -> raw_get m = Ok ts -> 0 <= ts < two64 /\ raw_set ts m = Ok m.
Proof. exact c32_raw_unique. Qed.
Print Assumptions C32_raw_tp_unique.
Example C32_raw_tp_unique_ex : raw_get [0;0;0;0; 1;2;3;4; 255;6;7;200] = Ok 504341615712732163
  /\ raw_set 504341615712732163 [0;0;0;0; 1;2;3;4; 255;6;7;200] = Ok [0;0;0;0; 1;2;3;4; 255;6;7;200].
Proof. split; vm_compute; reflexivity. Qed.

(** SSP: the same, wherever the timestamp array lies in the header. *)
Theorem C32_ssp : forall o ts m, (o + 8 <= length m)%nat -> 0 <= ts < two64 ->
  exists m', ssp_set o ts m = Ok m' /\ ssp_get o m' = Ok ts /\ changes_only (within o 8) m m'.
Proof. exact c32_ssp. Qed.
Print Assumptions C32_ssp.
Example C32_ssp_ex : ssp_set 2 81985529216486895 (repeat 7 12) = Ok [7;7; 239;205;171;137;103;69;35;1; 7;7]
  /\ ssp_get 2 [7;7; 239;205;171;137;103;69;35;1; 7;7] = Ok 81985529216486895.
Proof. split; vm_compute; reflexivity. Qed.

(** WIB2 and DAPHNE frames: the same, wherever the two fields lie in the frame. *)
Theorem C32_wib2_daphne : forall p1 p2 off m ts,
  (off + p1 + 4 <= length m)%nat -> (off + p2 + 4 <= length m)%nat -> (p1 + 4 <= p2 \/ p2 + 4 <= p1)%nat -> 0 <= ts < two64 ->
  exists m', split_set p1 p2 off ts m = Ok m' /\ split_get p1 p2 off m' = Ok ts /\
             changes_only (fun i => within (off + p1) 4 i \/ within (off + p2) 4 i) m m'.
Proof. exact split_set_ok. Qed.
Print Assumptions C32_wib2_daphne.
Example C32_wib2_daphne_ex : split_set 0 4 1 81985529216486895 (repeat 7 10) = Ok [7; 239;205;171;137; 103;69;35;1; 7].
Proof. vm_compute. reflexivity. Qed.

(** Distinct timestamps give distinct encodings, in each format. *)
Theorem C32_distinct : forall t1 t2 m, 0 <= t1 < two64 -> 0 <= t2 < two64 -> t1 <> t2 ->
  ((12 <= length m)%nat -> raw_set t1 m <> raw_set t2 m) /\
  (forall o, (o + 8 <= length m)%nat -> ssp_set o t1 m <> ssp_set o t2 m) /\
  (forall p1 p2 stride, fields_ok p1 p2 stride -> (stride <= length m)%nat -> split_set p1 p2 0 t1 m <> split_set p1 p2 0 t2 m).
Proof.
  intros t1 t2 m H1 H2 Hne. repeat split.
  - intros Hl E. destruct (c32_raw m t1 Hl H1) as (a & S1 & G1 & _). destruct (c32_raw m t2 Hl H2) as (b & S2 & G2 & _). congruence.
  - intros o Hl E. destruct (c32_ssp o t1 m Hl H1) as (a & S1 & G1 & _). destruct (c32_ssp o t2 m Hl H2) as (b & S2 & G2 & _). congruence.
  - intros p1 p2 stride (F1 & F2 & F3) Hl E.
    destruct (split_set_ok p1 p2 0 m t1) as (a & S1 & G1 & _); [lia|lia|assumption|assumption|].
    destruct (split_set_ok p1 p2 0 m t2) as (b & S2 & G2 & _); [lia|lia|assumption|assumption|]. congruence.
Qed.
Print Assumptions C32_distinct.
Example C32_distinct_ex : raw_set 1 (repeat 0 12) <> raw_set 65536 (repeat 0 12)
  /\ ssp_set 0 1 (repeat 0 8) <> ssp_set 0 65536 (repeat 0 8) /\ fields_ok 4 0 8.
Proof. split; [vm_compute; discriminate|split; [vm_compute; discriminate|unfold fields_ok; lia]]. Qed.

(** Faking the timestamps of an aggregated object of twelve frames: frame i reads first + i*offset modulo 2^64, and
    every byte outside the twenty-four timestamp fields keeps its value. *)
Theorem C32_fake_timestamps : forall p1 p2 stride first offset m,
  fields_ok p1 p2 stride -> length m = (12 * stride)%nat -> 0 <= first < two64 ->
  exists m', fake_timestamps p1 p2 stride first offset m = Ok m' /\
    (forall i, (i < 12)%nat -> split_get p1 p2 (i * stride) m' = Ok ((first + Z.of_nat i * offset) mod two64)) /\
    changes_only (fun x => exists i, (i < 12)%nat /\ (within (i * stride + p1) 4 x \/ within (i * stride + p2) 4 x)) m m'.
Proof.
  intros p1 p2 stride first offset m F L H. destruct (fake_loop_ok p1 p2 stride 12 F 0 first offset m) as (m' & S & G & C1 & C2); [lia|assumption|].
  exists m'. split; [exact S|]. split; [|split; [exact C1|]].
  - intros i Hi. rewrite G by lia. now rewrite Nat.sub_0_r.
  - intros x Hx. apply C2. intros (i & Hi & Hw). apply Hx. exists i. split; [lia|exact Hw].
Qed.
Print Assumptions C32_fake_timestamps.
Example C32_fake_timestamps_ex : fields_ok 8 12 468 /\
  (do m <- fake_timestamps 8 12 468 (two64 - 32) 32 (repeat 9 5616);
   do a <- split_get 8 12 0 m; do b <- split_get 8 12 468 m; do c <- split_get 8 12 (11 * 468) m; Ok [a; b; c]) = Ok [two64 - 32; 0; 320].
Proof. split; [unfold fields_ok; lia|vm_compute; reflexivity]. Qed.
