(** Model of the ADC expansion of the software trigger primitive generation.
    /repo/src/wib/tpg/FrameExpand.hpp, /repo/src/wib/tpg/FrameExpand.cpp, /repo/src/wib/tpg/ProcessingInfo.hpp.
    A 256-bit register is the list of its 32 bytes, lowest first. The AVX2 instructions are modelled after Intel's
    description. Instructions that only move bytes are polymorphic: they cannot look at the values. *)
From Coq Require Import ZArith List Bool.
From Verif Require Import Base_model.
Import ListNotations.
Open Scope Z_scope.

(** * AVX2 instructions *)
Section Moves.
Context {A : Type}.

(** The k-th group of [w] bytes. *)
Definition word (w k : nat) (v : list A) : list A := firstn w (skipn (w * k) v).

(** _mm256_permutevar8x32_epi32 with constant indices. *)
Definition permutevar8x32 (v : list A) (idx : list nat) : list A := flat_map (fun k => word 4 k v) idx.

(** _mm256_permute4x64_epi64: two bits of the constant per 64-bit word. *)
Definition permute4x64 (v : list A) (imm : Z) : list A :=
  flat_map (fun i => word 8 (Z.to_nat (Z.land (Z.shiftr imm (2 * Z.of_nat i)) 3)) v) (seq 0 4).

(** _mm256_blend_epi32: bit i of the constant selects 32-bit word i of [b]. *)
Definition blend_epi32 (a b : list A) (imm : Z) : list A :=
  flat_map (fun i => if Z.testbit imm (Z.of_nat i) then word 4 i b else word 4 i a) (seq 0 8).

(** _mm256_blend_epi16: bit i mod 8 of the constant selects 16-bit word i of [b]. *)
Definition blend_epi16 (a b : list A) (imm : Z) : list A :=
  flat_map (fun i => if Z.testbit imm (Z.of_nat (i mod 8)) then word 2 i b else word 2 i a) (seq 0 16).

(** _mm256_blendv_epi8: the top bit of each mask byte selects the byte of [b]. *)
Definition blendv_epi8 (a b : list A) (mask : list Z) : list A :=
  flat_map (fun i => if Z.testbit (nth i mask 0) 7 then word 1 i b else word 1 i a) (seq 0 32).

(** _mm256_shuffle_epi8: inside each half; an index with the top bit set gives [zero]. *)
Definition shuffle_epi8 (zero : A) (v : list A) (mask : list Z) : list A :=
  flat_map (fun i => let m := nth i mask 0 in
                     if Z.testbit m 7 then [zero] else word 1 (16 * (i / 16) + Z.to_nat (Z.land m 15)) v) (seq 0 32).
End Moves.

(** 16-bit words as two bytes, and an operation on each 16-bit word. *)
Definition lo8 (w : Z) : Z := w mod 256.
Definition hi8 (w : Z) : Z := w / 256.
Definition word16 (i : nat) (v : list Z) : Z := nth (2 * i) v 0 + 256 * nth (2 * i + 1) v 0.
Definition map_epi16 (g : Z -> Z) (v : list Z) : list Z :=
  flat_map (fun i => let w := g (word16 i v) in [lo8 w; hi8 w]) (seq 0 16).
Definition srli_epi16 (v : list Z) (n : Z) : list Z := map_epi16 (fun w => Z.shiftr w n) v.
Definition slli_epi16 (v : list Z) (n : Z) : list Z := map_epi16 (fun w => Z.shiftl w n mod 65536) v.
(** _mm256_and_si256, _mm256_or_si256, _mm256_andnot_si256, _mm256_cmpeq_epi8, _mm256_set1_epi16, _mm256_setr_epi16. *)
Definition map2 {A B C} (g : A -> B -> C) (a : list A) (b : list B) : list C := map (fun p => g (fst p) (snd p)) (combine a b).
Definition and_si256 : list Z -> list Z -> list Z := map2 Z.land.
Definition or_si256 : list Z -> list Z -> list Z := map2 Z.lor.
Definition andnot_si256 : list Z -> list Z -> list Z := map2 (fun a b => Z.land (255 - a) b).
Definition cmpeq_epi8 : list Z -> list Z -> list Z := map2 (fun a b => if a =? b then 255 else 0).
Definition setr_epi16 (l : list Z) : list Z := flat_map (fun w => [lo8 w; hi8 w]) l.
Definition set1_epi16 (w : Z) : list Z := setr_epi16 (repeat w 16).

(** * Expansion *)
(** Memory: the byte at an offset from the start of the superchunk. *)
Definition memory : Type := nat -> Z.
Definition load256 (mem : memory) (off : nat) : list Z := map (fun i => mem (off + i)%nat) (seq 0 32).

(** expand_two_segments, FrameExpand.hpp 149-234; [off]: offset of the first segment. *)
Definition shuffle_mask_lo : list Z :=
  [0;2;2;4;6;8;8;10;1;3;3;5;7;9;9;11;0;2;2;4;6;8;8;10;1;3;3;5;7;9;9;11].
Definition shuffle_mask_hi : list Z :=
  [0;255;4;255;6;255;10;255;1;255;5;255;7;255;11;255;0;255;4;255;6;255;10;255;1;255;5;255;7;255;11;255].
Definition expand_two_segments (mem : memory) (off : nat) : list Z :=
  let raw := permutevar8x32 (load256 mem off) [0;1;2;0;3;4;5;0]%nat in
  let lo := shuffle_epi8 0 raw shuffle_mask_lo in
  let hi := shuffle_epi8 0 raw shuffle_mask_hi in
  let lo_shift := srli_epi16 lo 4 in
  let hi_shift := slli_epi16 hi 4 in
  let lo_blended := blend_epi16 lo lo_shift 0xaa in
  let hi_blended := blend_epi16 hi hi_shift 0xaa in
  or_si256 (and_si256 lo_blended (set1_epi16 0x0f0f)) (and_si256 hi_blended (set1_epi16 0xf0f0)).

(** sizeof(WIBHeader) = 16; a ColdataBlock has 112 bytes, 16 of them header; a segment has 12 bytes. *)
Definition frame_size : nat := 464.
Definition segments_offset (block : nat) : nat := 16 + 112 * block + 16.
Definition pair_offset (block j : nat) : nat := segments_offset block + 24 * j.

Section Blocks.
Context {A : Type}.
Variable zero : A.

(** get_block_divided_adcs, 236-314, from the four expanded registers. *)
Definition coll_blend_mask : list Z :=
  setr_epi16 [0xffff;0xffff;0xffff;0xffff;0xffff;0xffff;0;0;0xffff;0xffff;0;0;0;0;0;0].
Definition ind_blend_mask : list Z := andnot_si256 coll_blend_mask (cmpeq_epi8 coll_blend_mask coll_blend_mask).
Definition setzero : list A := repeat zero 32.
Definition block_divided (e : nat -> list A) : list (list A) :=
  let shuffle_mask := [0;1;3;4;6;7;0;0]%nat in
  let d0 := permutevar8x32 (blendv_epi8 (e 0%nat) (e 1%nat) coll_blend_mask) shuffle_mask in
  let d1 := permutevar8x32 (blendv_epi8 (e 2%nat) (e 3%nat) coll_blend_mask) shuffle_mask in
  let d0 := blend_epi32 d0 setzero 0xc0 in
  let d1 := blend_epi32 d1 setzero 0xc0 in
  let d2 := blendv_epi8 (e 0%nat) (e 1%nat) ind_blend_mask in
  let d3 := blendv_epi8 (e 2%nat) (e 3%nat) ind_blend_mask in
  let tmp0 := permutevar8x32 (e 0%nat) [5;0;0;0;0;0;0;0]%nat in
  let tmp2 := permutevar8x32 (e 2%nat) [0;5;0;0;0;0;0;0]%nat in
  let tmp3 := permutevar8x32 (e 3%nat) [0;0;0;2;0;0;0;0]%nat in
  let tmpblend0 := blend_epi32 tmp0 (e 1%nat) 0x04 in
  let tmpblend1 := blend_epi32 tmp2 tmp3 0x08 in
  let d4 := blend_epi32 (blend_epi32 tmpblend0 tmpblend1 0xa) setzero 0xf0 in
  [d0; d1; d2; d3; d4].

(** get_frame_divided_adcs, 322-410: collection registers and induction registers. *)
Definition frame_divided (e : nat -> nat -> list A) : list (list A) * list (list A) :=
  let block i k := nth k (block_divided (e i)) [] in
  let adcs_tmp r := if (r <? 8)%nat then block (r / 2)%nat (r mod 2)%nat                (* 331-332 *)
                    else block ((r - 8) / 3)%nat (2 + (r - 8) mod 3)%nat in             (* 333-335 *)
  let quad r imm := permute4x64 (adcs_tmp r) imm in
  ([blend_epi32 (adcs_tmp 0%nat) (quad 6%nat 0x00) 0xc0; blend_epi32 (adcs_tmp 1%nat) (quad 6%nat 0x55) 0xc0;
    blend_epi32 (adcs_tmp 2%nat) (quad 6%nat 0xaa) 0xc0; blend_epi32 (adcs_tmp 3%nat) (quad 7%nat 0x00) 0xc0;
    blend_epi32 (adcs_tmp 4%nat) (quad 7%nat 0x55) 0xc0; blend_epi32 (adcs_tmp 5%nat) (quad 7%nat 0xaa) 0xc0],
   [adcs_tmp 8%nat; adcs_tmp 9%nat; adcs_tmp 11%nat; adcs_tmp 12%nat; adcs_tmp 14%nat; adcs_tmp 15%nat;
    adcs_tmp 17%nat; adcs_tmp 18%nat;
    blend_epi32 (adcs_tmp 10%nat) (permute4x64 (adcs_tmp 13%nat) 0x4f) 0xf0;
    blend_epi32 (adcs_tmp 16%nat) (permute4x64 (adcs_tmp 19%nat) 0x4f) 0xf0]).

(** get_block_collection_adcs, 421-464, and get_frame_collection_adcs, 479-531. *)
Definition coll_only_mask : list Z := setr_epi16 [0xffff;0xffff;0xffff;0xffff;0;0;0;0;0xffff;0xffff;0;0;0;0;0;0].
Definition block_collection (e : nat -> list A) : list (list A) :=
  let shuffle_mask := [0;1;3;4;6;7;0;0]%nat in
  [blend_epi32 (permutevar8x32 (blendv_epi8 (e 0%nat) (e 1%nat) coll_only_mask) shuffle_mask) setzero 0xc0;
   blend_epi32 (permutevar8x32 (blendv_epi8 (e 2%nat) (e 3%nat) coll_only_mask) shuffle_mask) setzero 0xc0].
Definition frame_collection (e : nat -> nat -> list A) : list (list A) :=
  let adcs_tmp r := nth (r mod 2) (block_collection (e (r / 2)%nat)) [] in
  let quad r imm := permute4x64 (adcs_tmp r) imm in
  [blend_epi32 (adcs_tmp 0%nat) (quad 6%nat 0x00) 0xc0; blend_epi32 (adcs_tmp 1%nat) (quad 6%nat 0x55) 0xc0;
   blend_epi32 (adcs_tmp 2%nat) (quad 6%nat 0xaa) 0xc0; blend_epi32 (adcs_tmp 3%nat) (quad 7%nat 0x00) 0xc0;
   blend_epi32 (adcs_tmp 4%nat) (quad 7%nat 0x55) 0xc0; blend_epi32 (adcs_tmp 5%nat) (quad 7%nat 0xaa) 0xc0].

(** get_block_all_adcs 467-475 and get_frame_all_adcs 534-546. *)
Definition frame_all (e : nat -> nat -> list A) : list (list A) := map (fun r => e (r / 4)%nat (r mod 4)%nat) (seq 0 16).
End Blocks.

(** The frame that starts at [off]. *)
Definition frame_expanded (mem : memory) (off : nat) (i j : nat) : list Z := expand_two_segments mem (off + pair_offset i j).
Definition get_frame_divided_adcs (mem : memory) (off : nat) : list (list Z) * list (list Z) :=
  frame_divided 0 (frame_expanded mem off).
Definition get_frame_collection_adcs (mem : memory) (off : nat) : list (list Z) := frame_collection 0 (frame_expanded mem off).
Definition get_frame_all_adcs (mem : memory) (off : nat) : list (list Z) := frame_all (frame_expanded mem off).

(** Every 256-bit load of get_frame_divided_adcs: offset from the start of the frame. *)
Definition frame_loads : list nat := flat_map (fun i => map (fun j => pair_offset i j) (seq 0 4)) (seq 0 4).

(** RegisterArray::uint16(i), 88, and uint16(i, j), 92, on an array of registers. *)
Definition uint16_at (regs : list (list Z)) (i : nat) : Z := word16 (i mod 16) (nth (i / 16) regs []).

(** expand_message_adcs(_inplace), 549-604: register iblock of frame iframe is stored at iframe + 12 * iblock. *)
Definition frames_per_msg : nat := 12.
Definition message_registers (n : nat) (frame_regs : nat -> list (list Z)) : list (list Z) :=
  map (fun r => nth (r / frames_per_msg) (frame_regs (r mod frames_per_msg)%nat) []) (seq 0 (n * frames_per_msg)).
Definition expand_collection (mem : memory) : list (list Z) :=
  message_registers 6 (fun iframe => fst (get_frame_divided_adcs mem (frame_size * iframe))).
Definition expand_induction (mem : memory) : list (list Z) :=
  message_registers 10 (fun iframe => snd (get_frame_divided_adcs mem (frame_size * iframe))).

(** WindowCollectionADCs::get256 35-42 and get16 44-57: position in the array of registers, of 16-bit words. *)
Definition get256_index (nregisters ireg itime : nat) : nat :=
  itime / 12 * nregisters * frames_per_msg + frames_per_msg * ireg + itime mod 12.
Definition get16_index (ichan itime : nat) : nat :=
  (itime / 12) * (32 * 6 * 12) / 2 + (ichan / 16 * 16 * frames_per_msg + 16 * (itime mod 12) + ichan mod 16).

(** ProcessingInfo::setState, ProcessingInfo.hpp 91-101: pedestal and the two quantiles of channel j. *)
Definition set_state (regs : list (list Z)) : list (Z * Z * Z) :=
  map (fun j => let ped := i16 (uint16_at regs j) in (ped, i16 (ped - 3), i16 (ped + 3))) (seq 0 96).

(** * Channel maps, FrameExpand.cpp 211-251 and 256-297 *)
Definition collection_offlines : list Z :=
  [12;14;16;18;23;21;20;22;19;17;15;13;264;266;268;270;0;2;4;6;11;9;8;10;7;5;3;1;275;273;272;274;
   24;26;28;30;35;33;32;34;31;29;27;25;271;269;267;265;36;38;40;42;47;45;44;46;43;41;39;37;276;278;280;282;
   252;254;256;258;263;261;260;262;259;257;255;253;287;285;284;286;240;242;244;246;251;249;248;250;247;245;243;241;283;281;279;277].
Definition collection_index_to_chan : list Z :=
  [16;17;18;19;10;11;20;21;12;13;14;15;208;209;210;211;48;49;50;51;42;43;52;53;44;45;46;47;
   202;203;212;213;80;81;82;83;74;75;84;85;76;77;78;79;204;205;206;207;112;113;114;115;106;107;116;117;
   108;109;110;111;240;241;242;243;144;145;146;147;138;139;148;149;140;141;142;143;234;235;244;245;176;177;178;179;
   170;171;180;181;172;173;174;175;236;237;238;239].
Definition induction_offlines : list Z :=
  [974;976;978;229;973;971;224;226;227;225;970;972;228;979;977;975;964;966;
   968;239;963;961;234;236;237;235;960;962;238;969;967;965;984;986;988;219;
   983;981;214;216;217;215;980;982;218;989;987;985;994;996;998;209;993;991;
   204;206;207;205;990;992;208;999;997;995;1174;1176;1178;29;1173;1171;24;26;
   27;25;1170;1172;28;1179;1177;1175;1164;1166;1168;39;1163;1161;34;36;37;35;
   1160;1162;38;1169;1167;1165;1184;1186;1188;19;1183;1181;14;16;17;15;1180;1182;
   18;1189;1187;1185;1194;1196;1198;9;1193;1191;4;6;7;5;1190;1192;8;1199;
   1197;1195;223;221;233;231;220;222;230;232;213;211;203;201;210;212;200;202;
   23;21;33;31;20;22;30;32;13;11;3;1;10;12;0;2].
Definition induction_index_to_chan : list Z :=
  [0;1;2;3;8;9;26;27;4;5;22;23;28;29;30;31;32;33;34;35;40;41;58;
   59;36;37;54;55;60;61;62;63;64;65;66;67;72;73;90;91;68;69;86;87;92;93;
   94;95;96;97;98;99;104;105;122;123;100;101;118;119;124;125;126;127;128;129;130;131;136;
   137;154;155;132;133;150;151;156;157;158;159;160;161;162;163;168;169;186;187;164;165;182;183;
   188;189;190;191;192;193;194;195;200;201;218;219;196;197;214;215;220;221;222;223;224;225;226;
   227;232;233;250;251;228;229;246;247;252;253;254;255;6;7;38;39;24;25;56;57;70;71;
   102;103;88;89;120;121;134;135;166;167;152;153;184;185;198;199;230;231;216;217;248;249].
Definition table_lookup (t : list Z) (limit index : Z) : Z :=
  if (index <? 0) || (limit <? index) then -1 else nth (Z.to_nat index) t 0.
Definition collection_index_to_offline (index : Z) : Z := table_lookup collection_offlines 95 index.
Definition induction_index_to_offline (index : Z) : Z := table_lookup induction_offlines 159 index.
Definition collection_index_to_channel (index : Z) : Z := table_lookup collection_index_to_chan 95 index.
Definition induction_index_to_channel (index : Z) : Z := table_lookup induction_index_to_chan 159 index.
