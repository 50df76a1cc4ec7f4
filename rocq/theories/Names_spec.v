(** What names and masks are expected. *)
From Coq Require Import String ZArith List.
From Verif Require Import Names_model.
Import ListNotations.
Open Scope Z_scope.

(** How many digits of the number of the link fit into the name. *)
Definition room (r : role) : Z :=
  match r with
  | Consumer | Timesync | Requests | Producer => 6
  | Recording => 5
  | Cleanup => 7
  | Post i => if i <? 10 then 1 else 0
  | TpProducer => 3
  end.
(** The number of a task is not negative. *)
Definition proper (r : role) : Prop := match r with Post i => 0 <= i < 10 | _ => True end.
Definition fits (r : role) (e : Z) : Prop := proper r /\ 0 <= e < 10 ^ room r.

(** The threads every handler has. *)
Definition of_handler (r : role) : Prop := In r [Consumer; Timesync; Requests; Recording; Cleanup].

(** What a pin file asks for. *)
Definition wanted (pins : pin_file) (cmd : list string) (name : string) (m : list Z) : Prop :=
  (exists before app after, cmd = (before ++ "--name"%string :: app :: after)%list /\ ~ In "--name"%string before /\ pins app name = Some m) \/
  ((forall before app after, cmd = (before ++ "--name"%string :: app :: after)%list -> ~ In "--name"%string before -> pins app name = None) /\ m = []).
