(** What the commands of a recorder may be relied on to do, read off the history of commands, answers, payloads, warnings and reports alone. *)
From Coq Require Import String ZArith List Bool Arith.
From Verif Require Import Base_model File_model File_spec Recorder_model.
Import ListNotations.
Open Scope nat_scope.

(** ** The history *)
(** A run is on from the return of a start to the return of a stop. *)
Fixpoint running_from (b : bool) (log : list event) : bool :=
  match log with
  | [] => b
  | e :: rest => running_from (match e with EReturned CStart => true | EReturned CStop => false | _ => b end) rest
  end.
Definition running : list event -> bool := running_from false.
(** The command that has been issued and not been answered. *)
Fixpoint current_from (b : option cmd) (log : list event) : option cmd :=
  match log with
  | [] => b
  | e :: rest => current_from (match e with ECommand c => Some c | EReturned _ | EThrew _ => None | _ => b end) rest
  end.
Definition current : list event -> option cmd := current_from None.
(** Some conf has been answered. *)
Definition configured (log : list event) : bool :=
  existsb (fun e => match e with EReturned (CConf _ _ _) | EThrew (CConf _ _ _) => true | _ => false end) log.
(** The payloads offered, and those taken from the queue. *)
Definition offered (log : list event) : list (list Z) := flat_map (fun e => match e with EOffer x => [x] | _ => [] end) log.
Definition taken (log : list event) : list (list Z) := flat_map (fun e => match e with ETake x => [x] | _ => [] end) log.
(** The payloads taken since the last start was issued. *)
Fixpoint taken_run_from (l : list (list Z)) (log : list event) : list (list Z) :=
  match log with
  | [] => l
  | e :: rest => taken_run_from (match e with ECommand CStart => [] | ETake x => l ++ [x] | _ => l end) rest
  end.
Definition taken_run : list event -> list (list Z) := taken_run_from [].
(** The sum of the reported packets since the last report. *)
Fixpoint reported (log : list event) : Z :=
  match log with [] => 0%Z | ESince v :: rest => (v + reported rest)%Z | _ :: rest => reported rest end.
(** The last start could not hand over the work. *)
Fixpoint ignored_from (b : bool) (log : list event) : bool :=
  match log with
  | [] => b
  | e :: rest => ignored_from (match e with ECommand CStart => false | EIgnored => true | _ => b end) rest
  end.
Definition ignored : list event -> bool := ignored_from false.
(** A warning was given since the last start was issued. *)
Fixpoint warned_run_from (b : bool) (log : list event) : bool :=
  match log with
  | [] => b
  | e :: rest => warned_run_from (match e with ECommand CStart => false | EWarn => true | _ => b end) rest
  end.
Definition warned_run : list event -> bool := warned_run_from false.
(** How many starts were issued. *)
Definition starts (log : list event) : nat := length (filter (fun e => match e with ECommand CStart => true | _ => false end) log).

(** ** Recordings *)
(** A recording begins when a conf returns: its settings, whether the old file could be removed, the payloads taken in each run since (newest first),
    whether a warning was given, whether it is over (another conf answered, or destruction). *)
Record recording : Type := mkRecording {
  q_conf : conf; q_removed : bool; q_runs : list (list (list Z)); q_warned : bool; q_over : bool
}.
Definition everything (q : recording) : list (list Z) := concat (rev (q_runs q)).
(** The recording of each path, and the path recorded to at present. *)
Record view : Type := mkView { v_files : nat -> option recording; v_active : option nat }.
Definition view_new : view := mkView (fun _ => None) None.

Definition set_file (v : view) (p : nat) (o : option recording) : view := mkView (fun q => if q =? p then o else v_files v q) (v_active v).
Definition change (f : recording -> recording) (v : view) : view :=
  match v_active v with None => v | Some p => set_file v p (option_map f (v_files v p)) end.
Definition finish (v : view) : view :=
  mkView (v_files (change (fun q => mkRecording (q_conf q) (q_removed q) (q_runs q) (q_warned q) true) v)) None.
Definition begin_run (q : recording) : recording := mkRecording (q_conf q) (q_removed q) ([] :: q_runs q) (q_warned q) (q_over q).
Definition add (x : list Z) (q : recording) : recording :=
  mkRecording (q_conf q) (q_removed q) (match q_runs q with [] => [[x]] | r :: rest => (r ++ [x]) :: rest end) (q_warned q) (q_over q).
Definition warn (q : recording) : recording := mkRecording (q_conf q) (q_removed q) (q_runs q) true (q_over q).
Definition view_step (v : view) (e : event) : view :=
  match e with
  | EReturned (CConf g removes _) => mkView (v_files (set_file (finish v) (cf_path g) (Some (mkRecording g removes [] false false)))) (Some (cf_path g))
  | EThrew (CConf g _ _) => set_file (finish v) (cf_path g) None
  | EReturned CDestroy => finish v
  | ECommand CStart => change begin_run v
  | ETake x => change (add x) v
  | EWarn => change warn v
  | _ => v
  end.
Definition view_of (log : list event) : view := fold_left view_step log view_new.

(** What a complete recording leaves in its file: the payloads one after the other, compressed as configured. *)
Definition image (enc : codec -> list Z -> list Z) (q : recording) : list Z :=
  match codec_of (cf_alg (q_conf q)) with
  | Some CNone => concat (everything q)
  | Some c => enc c (concat (everything q))
  | None => []
  end.
(** Settings with which nothing is refused: no compression, a buffer, and under O_DIRECT whole blocks in the buffer and in every run but the last. *)
Definition served (d : device) (q : recording) : Prop :=
  cf_alg (q_conf q) = "None"%string /\ 0 < cf_size (q_conf q) /\ length (concat (everything q)) <= d_room d /\
  (cf_direct (q_conf q) = true -> 0 < d_align d /\ cf_size (q_conf q) mod d_align d = 0 /\
     Forall (fun r => length (concat r) mod d_align d = 0) (tl (q_runs q))).

(** ** The order of commands a recorder supports *)
(** Conf and destruction between runs; start between runs, after a conf; stop at any time. *)
Definition allowed (log : list event) (c : cmd) : Prop :=
  ~ In (ECommand CDestroy) log /\
  match c with
  | CConf _ _ _ | CDestroy => running log = false
  | CStart => running log = false /\ configured log = true
  | CStop => True
  end.
Section Run.
Variable enc : codec -> list Z -> list Z.
Variable d : device.
Definition orderly (s0 : rec) (acts : list action) : Prop :=
  forall before c after s log, acts = before ++ ACommand c :: after -> rec_run enc d s0 before = Ok (s, log) -> current log = None /\ allowed log c.
(** No spurious wake-up, and before every start the worker has had three turns since the run before ended: it waits. *)
Definition settled (s0 : rec) (acts : list action) : Prop :=
  ~ In ASpurious acts /\
  forall before after, acts = before ++ ACommand CStart :: after -> exists b1 b2 s log, before = b1 ++ b2 /\ rec_run enc d s0 b1 = Ok (s, log) /\
    current log = None /\ running log = false /\ ~ In (ACommand CStart) b2 /\
    3 <= length (filter (fun a => match a with AThread => true | _ => false end) b2).
End Run.

Definition no_command (acts : list action) : Prop := forall c, ~ In (ACommand c) acts.
Definition no_conf (acts : list action) : Prop := forall g a b, ~ In (ACommand (CConf g a b)) acts.
(** How many turns the worker, the command thread get in a schedule. *)
Definition turns (acts : list action) : nat := length (filter (fun a => match a with AThread => true | _ => false end) acts).
Definition steps (acts : list action) : nat := length (filter (fun a => match a with AStep => true | _ => false end) acts).
(** How many steps monitoring has taken, three for every call of get_info. No turn of the worker falls between the reading of the packets since the last call and their reset. *)
Definition calls (acts : list action) : nat := length (filter (fun a => match a with AMonitor => true | _ => false end) acts).
Definition calm (acts : list action) : Prop := forall before after, acts = before ++ AThread :: after -> calls before mod 3 <> 2.
