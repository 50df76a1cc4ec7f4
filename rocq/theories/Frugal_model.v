(** Model of the frugal quantile tracking of the trigger primitive generation, scalar and vectorised.
    /repo/src/wib/tpg/ProcessNaive.hpp 22-39 and 85-90, /repo/src/wib/tpg/ProcessAVX2.hpp 27-77 and 170-200.
    All quantities are 16-bit signed values. *)
From Coq Require Import ZArith List Bool.
From Verif Require Import Base_model.
Import ListNotations.
Open Scope Z_scope.

(** frugal_accum_update, ProcessNaive.hpp 22-39: new (m, acc). *)
Definition frugal_accum_update (m s acc acclimit : Z) : Z * Z :=
  let acc := if m <? s then i16 (acc + 1) else acc in
  let acc := if s <? m then i16 (acc - 1) else acc in
  let '(m, acc) := if acclimit <? acc then (i16 (m + 1), 0) else (m, acc) in
  if acc <? - acclimit then (i16 (m - 1), 0) else (m, acc).

(** * One 16-bit lane of the AVX2 instructions *)
(** Masks are -1 (all ones) or 0, so the bytewise blends and the bitwise operations act on whole lanes. *)
Definition cmpgt16 (a b : Z) : Z := if b <? a then -1 else 0.
Definition cmpeq16 (a b : Z) : Z := if a =? b then -1 else 0.
Definition blendv16 (a b mask : Z) : Z := if mask <? 0 then b else a.
Definition add16 (a b : Z) : Z := i16 (a + b).
Definition sub16 (a b : Z) : Z := i16 (a - b).
(** _mm256_adds_epi16: signed saturation. *)
Definition adds16 (a b : Z) : Z := Z.max (-32768) (Z.min 32767 (a + b)).
(** _mm256_sign_epi16. *)
Definition sign16 (a b : Z) : Z := if b <? 0 then i16 (- a) else if b =? 0 then 0 else a.
Definition min16 (a b : Z) : Z := Z.min a b.
Definition mullo16 (a b : Z) : Z := i16 (a * b).
Definition srai16 (a n : Z) : Z := Z.shiftr a n.
Definition andnot16 (a b : Z) : Z := Z.land (Z.lnot a) b.

(** frugal_accum_update_avx2, ProcessAVX2.hpp 27-77, one lane: new (median, accum). *)
Definition frugal_accum_update_avx2 (median s accum acclimit mask : Z) : Z * Z :=
  let is_gt := cmpgt16 s median in
  let is_eq := cmpeq16 s median in
  let to_add := blendv16 (-1) 1 is_gt in
  let to_add := blendv16 to_add 0 is_eq in
  let to_add := Z.land to_add mask in
  let accum := add16 accum to_add in
  let is_gt := cmpgt16 accum acclimit in
  let is_lt := cmpgt16 (sign16 accum (i16 (-1 * acclimit))) acclimit in
  let to_add := blendv16 0 1 is_gt in
  let to_add := blendv16 to_add (-1) is_lt in
  let to_add := Z.land to_add mask in
  let median := adds16 median to_add in
  let need_reset := Z.land (Z.lor is_lt is_gt) mask in
  (median, blendv16 accum 0 need_reset).

(** * Pedestal and quartiles of one channel *)
Record tracker := mkTracker { median : Z; q25 : Z; q75 : Z; accum : Z; accum25 : Z; accum75 : Z }.

(** ProcessNaive.hpp 85-90. *)
Definition track_naive (t : tracker) (s : Z) : tracker :=
  let '(n25, a25) := if s <? median t then frugal_accum_update (q25 t) s (accum25 t) 10 else (q25 t, accum25 t) in
  let '(n75, a75) := if median t <? s then frugal_accum_update (q75 t) s (accum75 t) 10 else (q75 t, accum75 t) in
  let '(m, a) := frugal_accum_update (median t) s (accum t) 10 in
  mkTracker m n25 n75 a a25 a75.

(** ProcessAVX2.hpp 173-196, one lane. *)
Definition track_avx2 (t : tracker) (s : Z) : tracker :=
  let is_gt := cmpgt16 s (median t) in
  let is_eq := cmpeq16 s (median t) in
  let is_lt := Z.lxor (Z.lor is_gt is_eq) (-1) in
  let '(n25, a25) := frugal_accum_update_avx2 (q25 t) s (accum25 t) 10 is_lt in
  let '(n75, a75) := frugal_accum_update_avx2 (q75 t) s (accum75 t) 10 is_gt in
  let '(m, a) := frugal_accum_update_avx2 (median t) s (accum t) 10 (-1) in
  mkTracker m n25 n75 a a25 a75.

(** ProcessingInfo::setState and the ChanState constructor, ProcessingInfo.hpp 23-38 and 91-101. *)
Definition tracker_init (ped : Z) : tracker := mkTracker ped (i16 (ped - 3)) (i16 (ped + 3)) 0 0 0.
