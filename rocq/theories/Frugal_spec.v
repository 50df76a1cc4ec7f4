(** Specification of frugal quantile tracking, over the integers. *)
From Coq Require Import ZArith List.
Import ListNotations.
Open Scope Z_scope.

(** Smallest and largest of a start value and the samples seen. *)
Definition low (m : Z) (ss : list Z) : Z := fold_right Z.min m ss.
Definition high (m : Z) (ss : list Z) : Z := fold_right Z.max m ss.

Definition is_i16 (z : Z) : Prop := -32768 <= z <= 32767.

(** Width of a band around the centre of the estimates: three trackers; the sample moves the lower one only if below the
    centre and the upper one only if above. *)
Definition sgn (z : Z) : Z := Z.sgn z.
