(** The latency buffer interface the request handler uses, and its three implementations.
    /repo/include/readout/concepts/LatencyBufferConcept.hpp and models/.
    Iterators are numbers (ring: index; skip list: node id), with a distinguished end(). *)
From Coq Require Import ZArith List Bool.
From Verif Require Import Base_model Ring_model Search_model SkipList_model.
Import ListNotations.
Open Scope Z_scope.

Record lb (E B : Type) : Type := mk_lb {
  lb_occupancy : B -> Z;
  lb_front : B -> res (option E);               (* null, or the element pointed to *)
  lb_back : B -> res (option E);
  lb_lower_bound : B -> Z -> bool -> search_res;
  lb_end : Z;
  lb_good : B -> Z -> bool;
  lb_deref : B -> Z -> res E;
  lb_incr : B -> Z -> Z;
  lb_pop : nat -> B -> res B;
  lb_write : E -> B -> res (B * bool)
}.
Arguments lb_occupancy {E B} _. Arguments lb_front {E B} _. Arguments lb_back {E B} _.
Arguments lb_lower_bound {E B} _. Arguments lb_end {E B} _. Arguments lb_good {E B} _.
Arguments lb_deref {E B} _. Arguments lb_incr {E B} _. Arguments lb_pop {E B} _. Arguments lb_write {E B} _.

Section Instances.
Context {E : Type}.
Variable ts nframes : E -> Z.
Variable tick : Z.

(** BinarySearchQueueModel.hpp on IterableQueueModel.hpp. *)
Definition bs_lb : lb E (ring E) :=
  mk_lb E (ring E) occupancy (fun r => deref_opt r (front r)) (fun r => deref_opt r (back r))
        (fun r k _ => bs_lower_bound ts r k) it_end it_good deref it_incr pop write.

(** FixedRateQueueModel.hpp. *)
Definition fr_lb : lb E (ring E) :=
  mk_lb E (ring E) occupancy (fun r => deref_opt r (front r)) (fun r => deref_opt r (back r))
        (fun r k we => fr_lower_bound ts nframes tick r k we) it_end it_good deref it_incr pop write.

(** SkipListLatencyBufferModel.hpp. *)
Definition sl_lb : lb E (list E) :=
  mk_lb E (list E) sl_occupancy (fun l => Ok (sl_front l)) (fun l => Ok (sl_back l))
        (fun l k _ => SFound (sl_lower_bound ts l k)) sl_end (fun _ i => sl_good i) (sl_deref ts)
        (sl_incr ts) (fun n l => Ok (sl_pop n l)) (fun x l => Ok (sl_write ts x l)).

(** The skip list as searched for PACMAN messages: set_first_timestamp() does nothing
    (/repo/include/readout/NDReadoutTypes.hpp, lines 64-67), so the search key is whatever the
    uninitialised request_element (DefaultRequestHandlerModel.hpp, line 532) happens to contain. *)
Definition pacman_lb (garbage : Z) : lb E (list E) :=
  mk_lb E (list E) sl_occupancy (fun l => Ok (sl_front l)) (fun l => Ok (sl_back l))
        (fun l _ _ => SFound (sl_lower_bound ts l garbage)) sl_end (fun _ i => sl_good i) (sl_deref ts)
        (sl_incr ts) (fun n l => Ok (sl_pop n l)) (fun x l => Ok (sl_write ts x l)).

End Instances.
