(** What a post-processing task is entitled to see, computed from the record of events alone. *)
From Coq Require Import ZArith List Bool.
From Verif Require Import Pipe_model.
Import ListNotations.
Open Scope nat_scope.

Section Spec.
Context {A : Type}.

(** All payloads stored so far, oldest first; for each item waiting for the task the number of the payload that was the newest when
    it was offered (None: no payload); the items the task has been called with, likewise. *)
Record ledger : Type := mkLedger { stored : list A; waiting : list (option nat); called : list (option nat) }.

Definition note (d : ledger) (e : event A) : ledger :=
  match e with
  | EStored x => mkLedger (stored d ++ [x]) (waiting d) (called d)
  | EOffer null true => mkLedger (stored d) (waiting d ++ [if null then None else Some (length (stored d) - 1)]) (called d)
  | ETaken => match waiting d with
              | [] => d
              | w :: l => mkLedger (stored d) l (called d ++ [w])
              end
  | _ => d
  end.
Definition ledger_of (log : list (event A)) : ledger := fold_left note log (mkLedger [] [] []).

(** The payload the current call is about. *)
Definition current (d : ledger) : option nat := last (called d) None.
(** Number of payloads stored after payload k. *)
Definition since (d : ledger) (k : nat) : nat := length (stored d) - 1 - k.

Definition warned (log : list (event A)) : Prop := exists null, In (EOffer null false) log.
Definition overwritten (log : list (event A)) : Prop := exists x, In (ERefused x) log.
Definition emptied (log : list (event A)) : Prop := In (ECleaned 0) log.

(** Payloads put on the input queue. *)
Definition arrivals (acts : list (action A)) : list A := flat_map (fun a => match a with AArrive x => [x] | _ => [] end) acts.
End Spec.
Arguments ledger : clear implicits.
