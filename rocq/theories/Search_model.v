(** Models of the two ring searches.
    /repo/include/readout/models/BinarySearchQueueModel.hpp and FixedRateQueueModel.hpp *)
From Coq Require Import ZArith List Bool.
From Verif Require Import Base_model Ring_model.
Import ListNotations.
Open Scope Z_scope.

Section Search.
Context {A : Type}.
(** get_first_timestamp() of an element; operator< of all readout types compares it
    (ReadoutTypes.hpp lines 90-95, 165-170, 235-240, 301-304, 356-359). *)
Variable ts : A -> Z.
(** get_num_frames() of an element and T::expected_tick_difference. *)
Variable nframes : A -> Z.
Variable tick : Z.

(** Result of a search: an iterator index, undefined behaviour, or a loop that has not finished
    within the given number of rounds. *)
Inductive search_res : Type :=
| SFound (i : Z)
| SCrash
| SNoFuel.

(** The loop of BinarySearchQueueModel::lower_bound, lines 53-67 (unsigned int arithmetic). *)
Fixpoint bs_loop (fuel : nat) (r : ring A) (key start_index end_index : Z) : search_res :=
  match fuel with
  | O => SNoFuel
  | S fuel' =>
    let diff := if start_index <=? end_index then u32 (end_index - start_index)
                else u32 (r_size r + end_index - start_index) in
    let m0 := u32 (start_index + (u32 (diff + 1)) / 2) in
    let middle := if r_size r <=? m0 then u32 (m0 - r_size r) else m0 in
    if diff =? 0 then SFound middle
    else match r_slots r middle with
         | None => SCrash
         | Some x =>
           if key <? ts x
           then bs_loop fuel' r key start_index
                        (if negb (middle =? 0) then u32 (middle - 1) else u32 (r_size r - 1))
           else bs_loop fuel' r key middle end_index
         end
  end.

(** 33 rounds: shown sufficient for every supported size (the interval halves each round). *)
Definition bs_fuel : nat := 33.

(** BinarySearchQueueModel::lower_bound, lines 33-68. [key] is the timestamp of the argument.
    Line 59 only forms a reference to the middle slot; it is read in line 62. *)
Definition bs_lower_bound (r : ring A) (key : Z) : search_res :=
  let start_index := r_read r in
  let end_index := r_write r in
  if start_index =? end_index then SFound it_end
  else
    let end_index := if end_index =? 0 then u32 (r_size r - 1) else u32 (end_index - 1) in
    match r_slots r start_index with
    | None => SCrash
    | Some x => if key <? ts x then SFound it_end
                else bs_loop bs_fuel r key start_index end_index
    end.

(** FixedRateQueueModel::lower_bound, lines 33-59. Reading records_[readIndex_] of an empty buffer
    (line 42) is [SCrash]; so is division by zero in lines 51-53. *)
Definition fr_lower_bound (r : ring A) (key : Z) (with_errors : bool) : search_res :=
  if with_errors then bs_lower_bound r key
  else
    let start_index := r_read r in
    let occ := u64 (occupancy r) in
    match r_slots r start_index with
    | None => SCrash
    | Some x =>
      let last_ts := ts x in
      let newest_ts := u64 (last_ts + u64 (u64 (occ * tick) * nframes x)) in
      if (key <? last_ts) || (newest_ts <? key) then SFound it_end
      else if (tick =? 0) || (nframes x =? 0) then SCrash
      else
        let time_tick_diff := i64 (u64 (key - last_ts) / tick) in
        let offset := u32 (u64 time_tick_diff / nframes x) in
        let target := u32 (start_index + offset) in
        SFound (if r_size r <=? target then u32 (target - r_size r) else target)
    end.

End Search.
