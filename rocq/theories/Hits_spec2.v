(** Specification of the hit list of the scalar code: records of four words, ended by a record that starts with 65535. *)
From Coq Require Import ZArith List Bool.
Import ListNotations.
Open Scope Z_scope.

(** The records (channel, tick, charge, time over threshold) of a hit list; None if it has no end. *)
Fixpoint read_hits (words : list Z) : option (list (Z * Z * Z * Z)) :=
  match words with
  | chan :: tick :: charge :: tover :: rest =>
      if chan =? 65535 then Some []
      else match read_hits rest with Some l => Some ((chan, tick, charge, tover) :: l) | None => None end
  | _ => None
  end.
