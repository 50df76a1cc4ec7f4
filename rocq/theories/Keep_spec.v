(** Specification of how much a link keeps (C72). *)
From Coq Require Import ZArith List Bool.
From Verif Require Import Base_model Float_model Record_model Link_model.
Import ListNotations.
Open Scope Z_scope.

(** The last [k] of a list. *)
Definition newest {A : Type} (k : nat) (l : list A) : list A := skipn (length l - k) l.

(** A clean-up of more than [limit] elements in a buffer of size [n] leaves at least [K]. *)
Definition keeps (limit : Z) (quota : Z -> Z) (n K : Z) : Prop :=
  forall o, limit < o < n -> 0 <= quota o <= o - K.

(** All clean-ups of the history use these settings. *)
Definition cleaned_with (limit : Z) (pct : float32) (ops : list link_op) : Prop :=
  forall l p next, In (LClean l p next) ops -> l = limit /\ p = pct.

(** No clean-up is going on or waiting, and no search of the recording holds it up. *)
Definition resting {E : Type} (s : rstate E) : Prop :=
  s_crashed s = false /\ s_cpc s = CIdle /\ s_requested s = false /\ s_running s = 0.

(** 0.8f, 0.1f (the generated configurations) and 0.5f (the default limit). *)
Definition f08 : float32 := (13421773, -24).
Definition f01 : float32 := (13421773, -27).
Definition f05 : float32 := (1, -1).

(** The value of a share, mantissa times a power of two, is between 0 and 1. *)
Definition share_between_0_and_1 (p : float32) : Prop := 0 <= fst p /\ fst p * 2 ^ Z.max 0 (snd p) <= 2 ^ Z.max 0 (- snd p).
