(** Specification of recording. *)
From Coq Require Import ZArith List Bool Sorted.
From Verif Require Import Base_model Ring_model Record_model.
Import ListNotations.
Open Scope Z_scope.

Section Spec.
Context {E : Type}.
Variable ts dur : E -> Z.

(** Proper data: positive timestamps and durations, 64-bit, each element starts after the end of all
    earlier ones (gaps allowed). *)
Definition proper_data (l : list E) : Prop :=
  (forall x, In x l -> 1 <= ts x /\ 0 < dur x /\ ts x + dur x < max_u64) /\
  (forall i j x y, (i < j)%nat -> nth_error l i = Some x -> nth_error l j = Some y -> ts x + dur x <= ts y).

(** The elements of [l] with from <= timestamp < to, in order of arrival. *)
Definition between (from upto : Z) (l : list E) : list E :=
  filter (fun x => (from <=? ts x) && (ts x <? upto)) l.

(** The oldest elements removed from the buffer so far. *)
Definition removed (s : rstate E) : list E := firstn (s_popped s) (s_all s).
Definition stored (s : rstate E) : list E := skipn (s_popped s) (s_all s).

(** The situation excluded in the main theorem, as a condition on a step taken in state [s]: the
    recording thread looks at front() for its first timestamp while the clean-up has decided to remove
    that element but has not yet done so. *)
Definition calm_step (s : rstate E) (a : action E) : Prop :=
  match a with
  | ARec _ => s_rpc s = RFront -> forall k, s_cpc s <> CPop k
  | _ => True
  end.

End Spec.

Section Calm.
Context {E : Type}.
Variable ts dur : E -> Z.
Variable limit : Z.
Variable quota : Z -> Z.

Fixpoint calm (s : rstate E) (acts : list (action E)) : Prop :=
  match acts with
  | [] => True
  | a :: acts' => calm_step s a /\ match astep ts dur limit quota s a with Some s' => calm s' acts' | None => True end
  end.

(** No step of the list ends the recording. *)
Definition not_expired (acts : list (action E)) : Prop := ~ In (ARec true) acts.

End Calm.

Section Spec2.
Context {E : Type}.
Variable ts dur : E -> Z.

(** Data without any order requirement. *)
Definition sane_data (l : list E) : Prop :=
  forall x, In x l -> 0 <= ts x /\ 0 < dur x /\ ts x + dur x < two64.

(** Each element of the file starts no earlier than the end of every element before it; in particular
    nothing is written twice. *)
Definition in_sequence (l : list E) : Prop := StronglySorted (fun x y => ts x + dur x <= ts y) l.

(** The elements offered to the buffer in a list of steps. *)
Fixpoint arrivals (acts : list (action E)) : list E :=
  match acts with
  | [] => []
  | AWrite x :: acts' => x :: arrivals acts'
  | _ :: acts' => arrivals acts'
  end.

(** Between two passes of the recording loop, waiting for data from [next] on, while everything stored
    is newer than that. *)
Definition behind_gap (s : rstate E) (next : Z) : Prop :=
  s_crashed s = false /\ s_rpc s = RTop /\ s_next s = next /\ next <> 0 /\
  stored s <> [] /\ (forall x, In x (stored s) -> next < ts x) /\ (forall k, s_cpc s <> CPop k).

End Spec2.

(** Looking at slot [i] again and again while the other threads run in between: what each look finds. *)
Section Looks.
Context {E : Type}.
Variable ts dur : E -> Z.
Variable limit : Z.
Variable quota : Z -> Z.

Definition by_others (acts : list (action E)) : Prop :=
  Forall (fun a => match a with AWrite _ | AClean => True | _ => False end) acts.

Fixpoint looks (s : rstate E) (i : Z) (gaps : list (list (action E))) : option (list (option E) * rstate E) :=
  match gaps with
  | [] => Some ([], s)
  | g :: gaps' =>
      match arun ts dur limit quota s g with
      | None => None
      | Some s1 => match looks s1 i gaps' with
                   | None => None
                   | Some (l, s') => Some (s_mem s1 i :: l, s')
                   end
      end
  end.

End Looks.
