(** Model of the error bit generator, /repo/include/readout/utils/ErrorBitGenerator.hpp.
    The tables are arbitrary (the random draws of generate, lines 57-71, are not modelled: their values are); an
    access outside a table is [Crash]. *)
From Coq Require Import ZArith List Bool.
From Verif Require Import Base_model.
Import ListNotations.
Open Scope Z_scope.

(** Fields, lines 73-84: the three arrays and m_size. *)
Record tables : Type := mk_tables { eb_size : Z; eb_bits : list Z; eb_errs : list Z; eb_noerrs : list Z }.
(** The three indices, m_current_occurrence, m_occurrence_count, m_set_error_bits. *)
Record gen : Type := mk_gen { g_bits : Z; g_errs : Z; g_noerrs : Z; g_cur : Z; g_count : Z; g_set : bool }.

(** Constructor, lines 28-36. *)
Definition gen_new : gen := mk_gen 0 0 0 0 0 true.

(** Array access. *)
Definition at_ (l : list Z) (i : Z) : res Z :=
  if i <? 0 then Crash else match nth_error l (Z.to_nat i) with Some x => Ok x | None => Crash end.

(** next, lines 37-55. [Z.rem] is the C++ remainder. m_occurrence_count never passes max(m_current_occurrence,1),
    so the increment of the int cannot overflow. *)
Definition gen_next (t : tables) (g : gen) : res (Z * gen) :=
  do g1 <- (if g_count g >=? g_cur g then
              if g_set g then
                let bi := Z.rem (g_bits g + 1) (eb_size t) in
                let ei := Z.rem (g_errs g + 1) (eb_size t) in
                do cur <- at_ (eb_noerrs t) (g_noerrs g);
                Ok (mk_gen bi ei (g_noerrs g) cur 0 false)
              else
                let ni := Z.rem (g_noerrs g + 1) (eb_size t) in
                do cur <- at_ (eb_errs t) (g_errs g);
                Ok (mk_gen (g_bits g) (g_errs g) ni cur 0 true)
            else Ok g);
  let g2 := mk_gen (g_bits g1) (g_errs g1) (g_noerrs g1) (g_cur g1) (g_count g1 + 1) (g_set g1) in
  do word <- (if g_set g2 && negb (g_cur g2 =? 0) then at_ (eb_bits t) (g_bits g2) else Ok 0);
  Ok (word, g2).

(** [n] calls: the words returned, and the generator afterwards. *)
Fixpoint gen_words (t : tables) (n : nat) (g : gen) : res (list Z * gen) :=
  match n with
  | O => Ok ([], g)
  | S n' => do r <- gen_next t g; do rest <- gen_words t n' (snd r); Ok (fst r :: fst rest, snd rest)
  end.
