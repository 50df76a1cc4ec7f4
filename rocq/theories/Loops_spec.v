(** Specification of the readout loops (C39-C41, C50). *)
From Coq Require Import ZArith List Bool.
From Verif Require Import Base_model Ring_model Request_model Loops_model.
Import ListNotations.
Open Scope Z_scope.

Section Consume.
Context {A P : Type}.
Variable pre : P -> A -> P * A.

(** The events with the payloads as they are after pre-processing, in order of arrival. *)
Fixpoint prepared (p : P) (evs : list (@cevent A)) : list (@cevent A) :=
  match evs with
  | [] => []
  | CArrive x b :: evs' => CArrive (snd (pre p x)) b :: prepared (fst (pre p x)) evs'
  | e :: evs' => e :: prepared p evs'
  end.

(** Bookkeeping by numbers only, for a buffer of [cap] places with [level] in use. *)
Definition level_after (cap level b : nat) : nat := ((if level <? cap then S level else level) - b)%nat.

(** Is each arriving payload stored? *)
Fixpoint stored (cap level : nat) (evs : list (@cevent A)) : list bool :=
  match evs with
  | [] => []
  | CArrive _ b :: evs' => (level <? cap)%nat :: stored cap (level_after cap level b) evs'
  | CPop n :: evs' => stored cap (level - n)%nat evs'
  | _ :: evs' => stored cap level evs'
  end.

(** The clean-up never removes more than is there. *)
Fixpoint legal (cap level : nat) (evs : list (@cevent A)) : Prop :=
  match evs with
  | [] => True
  | CArrive _ b :: evs' => (b <= if level <? cap then S level else level)%nat /\ legal cap (level_after cap level b) evs'
  | CPop n :: evs' => (n <= level)%nat /\ legal cap (level - n)%nat evs'
  | _ :: evs' => legal cap level evs'
  end.

Fixpoint arrivals (evs : list (@cevent A)) : list A :=
  match evs with [] => [] | CArrive x _ :: evs' => x :: arrivals evs' | _ :: evs' => arrivals evs' end.
Fixpoint timeouts (evs : list (@cevent A)) : nat :=
  match evs with [] => O | CTimeout :: evs' => S (timeouts evs') | _ :: evs' => timeouts evs' end.

(** Elements of a list selected by booleans. *)
Definition select {X} (bs : list bool) (l : list X) : list X := map snd (filter fst (combine bs l)).

(** What post-processing is given at each arrival: the newest stored payload, unless the buffer is empty by then. *)
Fixpoint posted (cap level : nat) (newest : option A) (evs : list (@cevent A)) : list (option A) :=
  match evs with
  | [] => []
  | CArrive x b :: evs' =>
      let newest' := if (level <? cap)%nat then Some x else newest in
      (if (level_after cap level b =? 0)%nat then None else newest') :: posted cap (level_after cap level b) newest' evs'
  | CPop n :: evs' => posted cap (level - n)%nat newest evs'
  | _ :: evs' => posted cap level newest evs'
  end.

Definition refused_count (bs : list bool) : nat := length (filter negb bs).
Definition total (f : info -> Z) (is : list info) : Z := fold_right Z.add 0 (map f is).
End Consume.

Section Requests.
Context {R : Type}.
(** Requests sent to queue i. *)
Definition sends (i : nat) (acts : list (@raction R)) : list R :=
  flat_map (fun a => match a with ASend j r => if (i =? j)%nat then [r] else [] | _ => [] end) acts.
(** Those of a log that belong to queue i. *)
Definition of_queue (i : nat) (log : list (R * nat)) : list R := map fst (filter (fun x => (i =? snd x)%nat) log).
Definition is_send (a : @raction R) : bool := match a with ASend _ _ => true | _ => false end.
Definition is_stop (a : @raction R) : bool := match a with AStop => true | _ => false end.
Definition is_timesync_start (a : @raction R) : bool := match a with ATimesyncStart => true | _ => false end.
Definition is_fake (a : @raction R) : bool := match a with AFake => true | _ => false end.
End Requests.
