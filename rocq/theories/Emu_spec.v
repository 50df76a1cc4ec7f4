(** What the emulator is specified to emit (C36). *)
From Coq Require Import ZArith List Bool.
From Verif Require Import Base_model Ebg_model Ebg_spec Emu_model.
Import ListNotations.
Open Scope Z_scope.

(** Does slot i produce a payload? *)
Definition creates (dropouts : list bool) (i : nat) : bool := nth (i mod length dropouts) dropouts false.

(** Payloads produced in the slots before i. *)
Definition produced (dropouts : list bool) (i : nat) : nat := length (filter (creates dropouts) (seq 0 i)).

(** Element k of the file, counted cyclically over its complete elements. *)
Definition element (source : list Z) (size k : nat) : list Z :=
  firstn size (skipn ((k mod (length source / size)) * size) source).

(** Error words [from], ..., [from + n - 1] of the generator's stream. *)
Definition error_words (t : tables) (from n : nat) : list Z :=
  skipn from (firstn (from + n) (rounds (eb_bits t) (eb_errs t) (eb_noerrs t) (from + n))).

(** What slot i emits; [used] error words were consumed before the run. *)
Definition slot (c : emu_conf) (t0 : Z) (used i : nat) (pushed : bool) : option payload :=
  if creates (em_dropouts c) i then
    let k := produced (em_dropouts c) i in
    Some (mk_payload (element (em_source c) (em_size c) k) ((t0 + Z.of_nat i * (12 * em_tick c)) mod two64)
                     (error_words (em_tables c) (used + k * em_frames c) (em_frames c)) pushed)
  else None.
