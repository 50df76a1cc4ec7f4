(** Specification: an answer without holes. *)
From Coq Require Import ZArith List Sorted.
From Verif Require Import Elem_model.
Import ListNotations.
Open Scope Z_scope.

(** A request that finds its window in gap-free data gets the frames at all the expected times of the window, each once, in order, and nothing
    else. If the window is at least one frame long, the first frame is less than one frame after its begin and the last at most one
    frame before its end; this is what FragmentConsumer.cpp 54-59 would look for if its validation was not switched off. *)
Definition no_hole (tick t0 b e : Z) (frames : list frame) : Prop :=
  StronglySorted Z.lt (map f_ts frames) /\ (forall t, In t (map f_ts frames) <-> b <= t < e /\ (tick | t - t0)) /\
  (b + tick <= e -> exists f fs g gs, frames = f :: fs /\ frames = gs ++ [g] /\ b <= f_ts f < b + tick /\ e - tick <= f_ts g < e).
