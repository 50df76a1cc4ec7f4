(** Buffer elements: aggregated frames ("superchunks").
    /repo/include/readout/ReadoutTypes.hpp, WIB 83-148, WIB2 159-219, DAPHNE 229-289. *)
From Coq Require Import ZArith List Bool.
From Verif Require Import Base_model.
Import ListNotations.
Open Scope Z_scope.

(** One frame: its timestamp and its bytes. The C++ type is a byte array of which get_timestamp()
    decodes some bytes (modelled for each type in Codec_model.v); here the two are kept side by side. *)
Record frame : Type := mk_frame { f_ts : Z; f_bytes : list Z }.

(** An element: begin()..end() (lines 121-129, 195-203, 264-272), simplified to a list of frames. *)
Record elem : Type := mk_elem { e_frames : list frame }.

(** get_first_timestamp(): timestamp of the first frame (lines 98-101, 172-175, 242-245). *)
Definition e_ts (e : elem) : Z := match e_frames e with [] => 0 | f :: _ => f_ts f end.
(** get_num_frames(): 12 for these types; here the length of the list. *)
Definition e_num (e : elem) : Z := Z.of_nat (length (e_frames e)).
(** The bytes [begin(), begin() + get_payload_size()): all frames in memory order. *)
Definition e_payload (e : elem) : list Z := flat_map f_bytes (e_frames e).

(** SSP_FRAME_STRUCT, ReadoutTypes.hpp lines 345-409: an event header followed by 1012 data bytes; a
    single frame per element whose reported size is SSP_FRAME_SIZE = 1012 counted from begin() = this
    (lines 390-404). *)
Record ssp : Type := mk_ssp { ssp_ts : Z; ssp_header : list Z; ssp_data : list Z }.
Definition ssp_frame_size : nat := 1012.
Definition ssp_elem (x : ssp) : elem :=
  mk_elem [mk_frame (ssp_ts x) (firstn ssp_frame_size (ssp_header x ++ ssp_data x))].
