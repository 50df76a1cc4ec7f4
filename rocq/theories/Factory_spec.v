(** Specification of the selection: a name carries a marker if the marker is a substring of it. *)
From Coq Require Import String List.
Import ListNotations.
Open Scope string_scope.

Definition has (marker s : string) : Prop := exists a b, s = a ++ marker ++ b.
Definition lacks (markers : list string) (s : string) : Prop := forall m, In m markers -> ~ has m s.
(** First marker in the order of a list of markers. *)
Definition first_marker (order : list string) (s m : string) : Prop :=
  exists before after, order = (before ++ m :: after)%list /\ has m s /\ lacks before s.
