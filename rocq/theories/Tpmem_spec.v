(** What becomes of raw trigger primitives, in terms of the numbers of frames (C82). *)
From Coq Require Import ZArith List Bool.
From Verif Require Import Base_model Rawtp_spec Tpmem_model.
Import ListNotations.
Open Scope Z_scope.

(** A device that holds frame numbers: frames made in this run, frames in the source queue, frames stored. *)
Record device : Type := mk_device { d_made : nat; d_waiting : list nat; d_stored : list nat }.

Definition frame_no (bl : list Rawtp_spec.block) (i : nat) : list Z := frame_of (nth (i mod length bl) bl (New [])).

(** [n] places, of which one stays empty. *)
Definition d_step (bl : list Rawtp_spec.block) (n : Z) (d : device) (o : tm_op) : device * tm_out :=
  match o with
  | TProduce Pushed => (mk_device (S (d_made d)) (d_waiting d ++ [d_made d]) (d_stored d), TNone)
  | TProduce _ => (mk_device (S (d_made d)) (d_waiting d) (d_stored d), TNone)
  | TConsume => match d_waiting d with
                | [] => (d, TNone)
                | i :: q => if Z.of_nat (length (d_stored d)) <? n - 1
                            then (mk_device (d_made d) q (d_stored d ++ [i]), TTaken (frame_no bl i) true)
                            else (mk_device (d_made d) q (d_stored d), TTaken (frame_no bl i) false)
                end
  | TPop k => (mk_device (d_made d) (d_waiting d) (skipn k (d_stored d)), TNone)
  | TLook => (d, TSeen (map (frame_no bl) (d_stored d)))
  | TRestart => (mk_device 0 (d_waiting d) [], TNone)
  end.
Fixpoint d_run (bl : list Rawtp_spec.block) (n : Z) (d : device) (ops : list tm_op) : device * list tm_out :=
  match ops with
  | [] => (d, [])
  | o :: ops' => let (d', y) := d_step bl n d o in let (d'', ys) := d_run bl n d' ops' in (d'', y :: ys)
  end.
Definition d_new : device := mk_device 0 [] [].

(** No clean-up removes more than is stored. *)
Fixpoint pops_fit (bl : list Rawtp_spec.block) (n : Z) (d : device) (ops : list tm_op) : Prop :=
  match ops with
  | [] => True
  | o :: ops' => match o with TPop k => (k <= length (d_stored d))%nat | _ => True end /\ pops_fit bl n (fst (d_step bl n d o)) ops'
  end.

(** Objects alive, by origin. *)
Definition live_objects (by_new : bool) (h : heap) : nat :=
  length (filter (fun b => b_live b && Bool.eqb (b_new b) by_new) h).

Definition is_produce (o : tm_op) : bool := match o with TProduce _ => true | _ => false end.
Definition frames_made (ops : list tm_op) : nat := length (filter is_produce ops).

(** The last frame made is still in the hands of the emulator. *)
Definition unsent (ops : list tm_op) : nat :=
  match find is_produce (rev ops) with Some (TProduce TimedOut) => 1%nat | _ => 0%nat end.
