(** Specification of the pointers that the skip-list buffer hands out. *)
From Coq Require Import ZArith List Bool.
From Verif Require Import Lend_model.
Import ListNotations.
Open Scope Z_scope.

(** Of the nodes stored, [nd] is the newest. *)
Definition newest (s : lend) (nd : node) : Prop :=
  In nd (n_list s) /\ forall y, In y (n_list s) -> nd_ts y <= nd_ts nd.

(** No thread is inside an operation of the list. *)
Definition nobody (s : lend) : Prop :=
  n_users s = O /\ n_clean s = CIdle /\ (n_look s = KIdle \/ exists p, n_look s = KBare p).

(** At some moment of the steps [acts] from [s] the node is not stored and nobody is inside an operation. *)
Definition gone (pds keep : bool) (s : lend) (acts : list act) (nd : node) : Prop :=
  exists a b s', acts = a ++ b /\ lend_run pds keep s a = Some s' /\ nobody s' /\ ~ In nd (n_list s').

(** No further look begins in [acts]. *)
Definition one_look (acts : list act) : Prop := ~ In LOpen acts.

(** The timestamps inserted are 64-bit. *)
Definition ts64 (acts : list act) : Prop := forall t, In (AInsert t) acts -> 0 <= t < 18446744073709551616.
