(** Specification of looking for an error while the registry is being changed. *)
From Coq Require Import ZArith List Bool String.
From Verif Require Import Registry_model Registry_spec Walk_model.
Import ListNotations.
Open Scope Z_scope.

Definition the_name : string := "MISSING_FRAMES"%string.
Definition as_op (c : call) : reg_op := match c with CAdd iv => RAdd the_name iv | CTrim ts => RTrim ts end.

(** [iv] is the interval in force after the calls completed so far. *)
Definition in_force_now (s : walk) (iv : interval) : Prop := in_force (rev (map as_op (k_calls s))) the_name iv.

(** No thread is between the lock and the unlock. *)
Definition quiet (s : walk) : Prop := k_lock s = None.

(** What is in the map. *)
Definition in_map (s : walk) (iv : interval) : Prop := exists p, k_root s = Some p /\ k_heap s p = Some iv.

(** The number of live nodes below block number [n]. *)
Fixpoint nodes (h : nat -> option interval) (n : nat) : nat :=
  match n with O => O | S n' => (match h n' with Some _ => 1 | None => 0 end + nodes h n')%nat end.

(** Thread [r] takes no step in [acts]. *)
Definition not_by (r : nat) (acts : list action) : Prop := ~ In (ALook r) acts.

(** In the steps [acts] from [s] some call frees the node [p]. *)
Definition freed_during (s : walk) (acts : list action) (p : nat) : Prop :=
  exists a w b s1, acts = a ++ AWrite w :: b /\ walk_run s a = Some s1 /\
    ((exists iv, k_w s1 w = WFreeOld p iv) \/ (exists ts, k_w s1 w = WFreeTrim p ts)).

(** In some order the steps [a] end with the first step of the last call of has_error of [r] so far, taken in
    [s1]. *)
Definition began (s0 : walk) (acts : list action) (r : nat) (s1 : walk) : Prop :=
  exists a b, acts = a ++ ALook r :: b /\ walk_run s0 a = Some s1 /\
    (k_r s1 r = RIdle \/ exists f, k_r s1 r = RDone f) /\
    forall b1 b2 s2, b = b1 ++ ALook r :: b2 -> walk_run s0 (a ++ ALook r :: b1) = Some s2 ->
      exists p k, k_r s2 r = RAt p k.
