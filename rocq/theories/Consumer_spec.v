(** Specification of a consumer in terms of what is pushed and the observable events. *)
From Coq Require Import ZArith List.
From Verif Require Import Consumer_model.
Import ListNotations.

Section Spec.
Context {T : Type}.

(** Elements pushed by the producers. *)
Fixpoint pushed (l : list (act T)) : list T :=
  match l with [] => [] | Push x :: r => x :: pushed r | _ :: r => pushed r end.
(** Elements the callback has seen. *)
Fixpoint called (l : list (event T)) : list T :=
  match l with [] => [] | Called x :: r => x :: called r | _ :: r => called r end.
(** Elements the callback has seen since the last start. *)
Fixpoint this_run (l : list (event T)) : list T :=
  match l with
  | [] => []
  | Started :: r => if existsb (fun e => match e with Started => true | _ => false end) r then this_run r else called r
  | _ :: r => this_run r
  end.
(** A run is started only if none is in progress: between two starts there is the return of a stop. *)
Fixpoint alternating (running : bool) (l : list (event T)) : bool :=
  match l with
  | [] => true
  | Started :: r => negb running && alternating true r
  | Called _ :: r => alternating running r
  | Stopped :: r => alternating false r
  end.
(** Callbacks happen only between a start and the return of the next stop. *)
Fixpoint inside_runs (running : bool) (l : list (event T)) : bool :=
  match l with
  | [] => true
  | Started :: r => inside_runs true r
  | Called _ :: r => running && inside_runs running r
  | Stopped :: r => inside_runs false r
  end.
End Spec.
