(** What the commands of a data link handler may be relied on to do, read off the history of commands and answers alone. *)
From Coq Require Import List Bool Arith.
From Verif Require Import Base_model Life_model.
Import ListNotations.
Open Scope nat_scope.

(** A run is on from the answer to a start (an exception about its arguments included) to the return of a stop. *)
Fixpoint running_from (b : bool) (log : list event) : bool :=
  match log with
  | [] => b
  | e :: rest => running_from (match e with EReturned (CStart _) | EThrew (CStart _) => true | EReturned CStop => false | _ => b end) rest
  end.
Definition running (log : list event) : bool := running_from false log.

(** The last conf that returned could allocate its buffer. *)
Fixpoint buffer_from (b : bool) (log : list event) : bool :=
  match log with
  | [] => b
  | e :: rest => buffer_from (match e with EReturned (CConf c) => c_alloc c | _ => b end) rest
  end.
Definition buffer (log : list event) : bool := buffer_from false log.

(** A recording has been accepted and is not over. *)
Fixpoint recording_from (b : bool) (log : list event) : bool :=
  match log with
  | [] => b
  | e :: rest => recording_from (match e with ERecord => true | ERecorded => false | _ => b end) rest
  end.
Definition recording (log : list event) : bool := recording_from false log.

(** A command has been issued and not been answered. *)
Fixpoint busy_from (b : bool) (log : list event) : bool :=
  match log with
  | [] => b
  | e :: rest => busy_from (match e with ECommand _ => true | EReturned _ | EThrew _ => false | _ => b end) rest
  end.
Definition busy (log : list event) : bool := busy_from false log.

(** The command that has been issued and not been answered. *)
Fixpoint current_from (b : option cmd) (log : list event) : option cmd :=
  match log with
  | [] => b
  | e :: rest => current_from (match e with ECommand c => Some c | EReturned _ | EThrew _ => None | _ => b end) rest
  end.
Definition current (log : list event) : option cmd := current_from None log.

(** The order of commands a module supports: start only between runs with a buffer, stop only in a run, conf only between runs and
    recordings, destruction only between runs and as the last. *)
Definition allowed (log : list event) (c : cmd) : Prop :=
  ~ In (ECommand CDestroy) log /\
  match c with
  | CConf _ => running log = false /\ recording log = false
  | CStart _ => running log = false /\ buffer log = true
  | CStop => running log = true
  | CRecord | CScrap => True
  | CDestroy => running log = false
  end.

(** Every command of the schedule is issued in the supported order, once the last one has been answered. *)
Definition orderly (s0 : life) (acts : list action) : Prop :=
  forall before c after s log, acts = before ++ ACommand c :: after -> life_run s0 before = Ok (s, log) -> busy log = false /\ allowed log c.

(** No thread of the module is at work, besides a recording. *)
Definition at_rest (s : life) : Prop :=
  (forall t, t <> Recording -> ready (f_thread s t) = true) /\ f_wait s = None /\
  (match f_pool s with Some p => o_joined p = true | None => True end) /\
  f_marker s = false /\ f_hmarker s = false /\ f_pmarker s = false /\ f_ring s = 0.

(** The module's own threads each get at least one turn, and nothing arrives. A recording's time ends at its turn. *)
Definition round (tasks : nat) (acts : list action) : Prop :=
  In AStep acts /\ (forall t, (forall i, t = Post i -> i < tasks) -> exists k, k <> 0 /\ In (AThread t k) acts) /\
  (exists k, In (AWaiting k) acts) /\ (exists b, In (APool b) acts) /\ In APoolPut acts /\
  forall a, In a acts -> match a with AArrive | ARequest | ACommand _ => False | _ => True end.

(** The threads whose work the last start found itself unable to hand over (they had not quite finished the work of the run before). *)
Fixpoint ignored_from (l : list tid) (log : list event) : list tid :=
  match log with
  | [] => l
  | e :: rest => ignored_from (match e with ECommand (CStart _) => [] | EIgnored t => t :: l | _ => l end) rest
  end.
Definition ignored (log : list event) : list tid := ignored_from [] log.

(** No command is issued in the schedule. *)
Definition no_command (acts : list action) : Prop := forall c, ~ In (ACommand c) acts.
(** How many steps the thread executing the command takes in the schedule; how many payloads arrive. *)
Definition steps (acts : list action) : nat := length (filter (fun a => match a with AStep => true | _ => false end) acts).
Definition arrivals (acts : list action) : nat := length (filter (fun a => match a with AArrive => true | _ => false end) acts).

(** How many turns the consumer gets in the schedule. *)
Definition turns (acts : list action) : nat := length (filter (fun a => match a with AThread Consumer _ => true | _ => false end) acts).
(** Whenever the consumer gets a turn there is a payload for it. *)
Definition never_short (input : nat) (acts : list action) : Prop :=
  forall p k q, acts = p ++ AThread Consumer k :: q -> turns p < input + arrivals p.

(** The first [n] of an infinite sequence of rounds. *)
Fixpoint first_rounds (rounds : nat -> list action) (n : nat) : list action :=
  match n with O => [] | S n' => first_rounds rounds n' ++ rounds n' end.
