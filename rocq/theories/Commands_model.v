(** Model of the commands in a generated configuration, /repo/python/readout/app_confgen.py 247-489, and of the application under its start and stop
    commands. How the application framework (external) hands a command to its modules is assumed: the list of patterns is gone through in
    order, a pattern addresses the modules whose whole name it matches (the empty pattern all of them) in any order, and the next one is
    addressed when the command of the one before has returned.
    What a module does between its start and the return of its stop is taken from the models of the single modules (C64, C68, C70) and
    reduced to what it puts into and takes from the queues of Gen_model.v. Left out: the command data (Settings_model.v, Gen_model.v), requests
    sent from outside, full queues (a refused message is no message here), errors thrown by commands, records. *)
From Coq Require Import String List Bool Permutation.
From Verif Require Import Factory_model Gen_model.
Import ListNotations.
Open Scope string_scope.

(** The regular expressions in use: a name, or a name followed by ".*" (std::regex_match; no generated name contains a line break). *)
Fixpoint regex_prefix (p : string) : option string :=
  if String.eqb p ".*" then Some ""
  else match p with EmptyString => None | String c r => match regex_prefix r with Some h => Some (String c h) | None => None end end.
Definition matches (p name : string) : bool :=
  if String.eqb p "" then true else match regex_prefix p with Some h => prefix h name | None => String.eqb p name end.

Inductive verb := VConf | VStart | VStop | VScrap | VRecord.

(** conf: 252-420. *)
Definition conf_patterns (n t : nat) : list string :=
  ["fake_source"] ++ map (fun i => "datahandler_" ++ num i) (data_idx n) ++ map (fun i => "sw_tp_handler_" ++ num i) (data_idx n)
  ++ map (fun i => "raw_tp_handler_" ++ num i) (tp_idx n t) ++ map (fun i => "tpset_publisher_" ++ num i) (data_idx n).
(** start: 424-440. *)
Definition start_patterns : list string :=
  ["datahandler_.*"; "fake_source"; "data_recorder_.*"; "timesync_consumer"; "fragment_consumer"; "sw_tp_handler_.*"; "raw_tp_handler_.*";
   "tpset_publisher_.*"; "errored_frame_consumer"].
(** stop: 445-460. *)
Definition stop_patterns : list string :=
  ["fake_source"; "datahandler_.*"; "data_recorder_.*"; "timesync_consumer"; "fragment_consumer"; "sw_tp_handler_.*"; "raw_tp_handler_.*";
   "tpset_publisher_.*"; "errored_frame_consumer"].
(** scrap: 465; record: 473-478. *)
Definition patterns (n t : nat) (v : verb) : list string :=
  match v with VConf => conf_patterns n t | VStart => start_patterns | VStop => stop_patterns | VScrap => [""] | VRecord => ["datahandler_.*"] end.

(** The order in which a command with these patterns reaches the modules with these names. *)
Definition dispatched (pats names order : list string) : Prop :=
  exists groups, Forall2 (fun p g => Permutation g (filter (matches p) names)) pats groups /\ order = concat groups.

(** register_command in the constructors: FakeCardReader.cpp 42-45, DataLinkHandler.cpp 32-36, DummyConsumer.cpp 29-30. [None]: the commands of
    QueueToNetwork (external). *)
Definition registered (p : plugin) (v : verb) : option bool :=
  match p with
  | FakeCardReader => Some (match v with VRecord => false | _ => true end)
  | DataLinkHandler => Some true
  | TimeSyncConsumer | FragmentConsumer | ErroredFrameConsumer => Some (match v with VStart | VStop => true | _ => false end)
  | QueueToNetwork => None
  end.

(** * The application in its runs *)

(** A module is idle; at work; at work but without the thread that reads its input, because that thread was not ready when it was given work
    (ReusableThread::set_work returns false, which every start ignores: ReadoutModel.hpp 151-156, DummyConsumer.cpp 63); stopping, its
    reading thread still at work; stopping, its reading thread through. *)
Inductive phase := Idle | Running | Lost | Stopping | Closing.

Inductive event (A : Type) :=
  | LBegin                                     (* a start command arrives *)
  | LLost (m : string)                         (* the reading thread of [m] did not get its work *)
  | LPush (m q : string) (a : A)
  | LPop (m q : string) (a : A).
Arguments LBegin {A}. Arguments LLost {A}. Arguments LPush {A}. Arguments LPop {A}.

Record app (A : Type) := mk_app {
  phase_of : string -> phase;
  queue : string -> list A;
  todo : list (verb * string);                 (* the rest of the command under way *)
  running : bool;                              (* what run control takes the state to be *)
  log : list (event A)
}.
Arguments mk_app {A}. Arguments phase_of {A}. Arguments queue {A}. Arguments todo {A}. Arguments running {A}. Arguments log {A}.

Definition upd {B} (f : string -> B) (x : string) (b : B) : string -> B := fun y => if String.eqb y x then b else f y.

Section App.
Variable ft : string.
Variable n t : nat.
Variable A : Type.
Implicit Type s : app A.

Definition names : list string := map m_name (modules ft n t).
(** Module [m] opens queue [q] for reading ([w] false) or writing messages [x]. *)
Definition opens (m q : string) (w : bool) (x : message) : Prop :=
  exists d us, In d (modules ft n t) /\ m_name d = m /\ module_uses d = Some us /\ In (q, w, x) us.
Definition plugin_is (m : string) (p : plugin) : Prop := exists d, In d (modules ft n t) /\ m_name d = m /\ m_plugin d = p.

Inductive step : app A -> app A -> Prop :=
  (** Run control sends start when CONFIGURED and stop when RUNNING (424-427, 445-448). *)
  | send_start s order : todo s = [] -> running s = false -> dispatched (patterns n t VStart) names order ->
      step s (mk_app (phase_of s) (queue s) (map (pair VStart) order) true (log s ++ [LBegin]))
  | send_stop s order : todo s = [] -> running s = true -> dispatched (patterns n t VStop) names order ->
      step s (mk_app (phase_of s) (queue s) (map (pair VStop) order) false (log s))
  (** The start of one module (DataLinkHandler.cpp 78-90, FakeCardReader.cpp 137-147, DummyConsumer.cpp 57-64), with or without its reading thread. *)
  | start_module s m r : todo s = (VStart, m) :: r ->
      step s (mk_app (upd (phase_of s) m Running) (queue s) r (running s) (log s))
  | start_lost s m r : todo s = (VStart, m) :: r ->
      step s (mk_app (upd (phase_of s) m Lost) (queue s) r (running s) (log s ++ [LLost m]))
  (** The stop of one module clears its run marker (DataLinkHandler.cpp 96, FakeCardReader.cpp 154, DummyConsumer.cpp 70). *)
  | stop_module s m r : todo s = (VStop, m) :: r -> phase_of s m = Running ->
      step s (mk_app (upd (phase_of s) m Stopping) (queue s) (todo s) (running s) (log s))
  | stop_lost s m r : todo s = (VStop, m) :: r -> phase_of s m = Lost ->
      step s (mk_app (upd (phase_of s) m Closing) (queue s) (todo s) (running s) (log s))
  (** The reading thread comes to its end: that of a handler not before its input is empty (ReadoutModel.hpp 236), that of a consumer at
      once (DummyConsumer.cpp 82). *)
  | reader_ends s m : phase_of s m = Stopping ->
      (plugin_is m DataLinkHandler -> forall q e, opens m q false (Data e) -> queue s q = []) ->
      step s (mk_app (upd (phase_of s) m Closing) (queue s) (todo s) (running s) (log s))
  (** The stop of the module returns when all its threads are ready again (ReadoutModel.hpp 163-171, DummyConsumer.cpp 71-73). *)
  | stop_returns s m r : todo s = (VStop, m) :: r -> phase_of s m = Closing ->
      step s (mk_app (upd (phase_of s) m Idle) (queue s) r (running s) (log s))
  (** A module writes to and reads from its queues. *)
  | push s m q x a : phase_of s m <> Idle -> opens m q true x ->
      step s (mk_app (phase_of s) (upd (queue s) q (queue s q ++ [a])%list) (todo s) (running s) (log s ++ [LPush m q a]))
  | pop s m q x a r : phase_of s m = Running \/ phase_of s m = Stopping -> opens m q false x -> queue s q = a :: r ->
      step s (mk_app (phase_of s) (upd (queue s) q r) (todo s) (running s) (log s ++ [LPop m q a])).

Definition initial : app A := mk_app (fun _ => Idle) (fun _ => []) [] false [].

Inductive reach : app A -> app A -> Prop :=
  | reach_refl s : reach s s
  | reach_step s s1 s2 : reach s s1 -> step s1 s2 -> reach s s2.
End App.
