(** Model of the consumer modules: /repo/plugins/DummyConsumer.cpp 57-89 (also TimeSyncConsumer, FragmentConsumer and ErroredFrameConsumer,
    whose callbacks have no effect outside the module), as a transition system of the command thread, the worker and the producers of the queue.
    The queue is unbounded and its operations are atomic; pushes happen at any time. The thread pool object accepts work only when it has
    none (this is proved of ReusableThread in Thread_props; here the worker starts at once). Callbacks do not throw. *)
From Coq Require Import ZArith List Bool.
From Verif Require Import Base_model.
Import ListNotations.
Open Scope Z_scope.

Section Consumer.
Context {T : Type}.

(** Where do_work (76-89) is: no work, loop test (79), pop (81), callback (82), counter (83). *)
Inductive wpc := WIdle | WTest | WPop | WCall (x : T) | WCount.
(** Where the command thread is: between commands; in do_start (57-62) before the counter is reset, the marker set, the work set;
    in do_stop (66-72) before the marker is cleared, in the wait loop. *)
Inductive cpc := CNone | CReset | CMark | CWork | CClear | CWait.

(** What an observer sees: start resets the counter, callbacks, stop returns. *)
Inductive event := Started | Called (x : T) | Stopped.

Record st := mk { queue : list T; marker : bool; w : wpc; c : cpc; count : Z; log : list event }.

(** m_run_marker is not initialised (DummyConsumer.hpp 55): any value. *)
Definition init (b : bool) : st := mk [] b WIdle CNone 0 [].

Inductive act := Push (x : T) | Start | Stop | Command | Worker.

(** do_work. A pop from an empty queue ends in QueueTimeoutExpired: next round. m_packets_processed is an atomic int: it wraps. *)
Definition worker (s : st) : st :=
  match w s with
  | WIdle => s
  | WTest => mk (queue s) (marker s) (if marker s then WPop else WIdle) (c s) (count s) (log s)
  | WPop => match queue s with
            | [] => mk [] (marker s) WTest (c s) (count s) (log s)
            | x :: r => mk r (marker s) (WCall x) (c s) (count s) (log s)
            end
  | WCall x => mk (queue s) (marker s) WCount (c s) (count s) (log s ++ [Called x])
  | WCount => mk (queue s) (marker s) WTest (c s) (i32 (count s + 1)) (log s)
  end.

Definition idle (s : st) : bool := match w s with WIdle => true | _ => false end.

(** The next statement of the command in progress. *)
Definition command (s : st) : st :=
  match c s with
  | CNone => s
  | CReset => mk (queue s) (marker s) (w s) CMark 0 (log s ++ [Started])
  | CMark => mk (queue s) true (w s) CWork (count s) (log s)
  | CWork => mk (queue s) (marker s) (if idle s then WTest else w s) CNone (count s) (log s)
  | CClear => mk (queue s) false (w s) CWait (count s) (log s)
  | CWait => if idle s then mk (queue s) (marker s) (w s) CNone (count s) (log s ++ [Stopped]) else s
  end.

(** A command starts when the previous one has returned; otherwise the action changes nothing. *)
Definition step (s : st) (a : act) : st :=
  match a with
  | Push x => mk (queue s ++ [x]) (marker s) (w s) (c s) (count s) (log s)
  | Start => match c s with CNone => mk (queue s) (marker s) (w s) CReset (count s) (log s) | _ => s end
  | Stop => match c s with CNone => mk (queue s) (marker s) (w s) CClear (count s) (log s) | _ => s end
  | Command => command s
  | Worker => worker s
  end.
Definition run (l : list act) (s : st) : st := fold_left step l s.
End Consumer.
Arguments wpc : clear implicits.
Arguments event : clear implicits.
Arguments st : clear implicits.
Arguments act : clear implicits.
