(** What the commands of a fake card may be relied on to do, read off the history of commands, answers, payloads and reports alone. *)
From Coq Require Import ZArith List Bool Arith.
From Verif Require Import Base_model Ebg_model Ebg_spec Emu_model Emu_spec Rawtp_spec Feed_model.
Import ListNotations.
Open Scope nat_scope.

Section Spec.
Context {Conf St Out : Type}.
Variable begin : Conf -> option St -> res St.
Variable turn : Conf -> bool -> St -> res (option Out * St).
Notation action := (action Conf). Notation event := (event Conf Out). Notation cmd := (cmd Conf).
Notation run := (card_run begin turn).

(** ** What an emulator makes in a run, were it alone *)
(** The payloads of as many turns as [queue] is long, each with whether the queue takes it, and the state after. *)
Fixpoint makes (c : Conf) (queue : list bool) (x : St) : res (list (Out * bool) * St) :=
  match queue with
  | [] => Ok ([], x)
  | q :: rest =>
      do (o, x1) <- turn c q x; do (l, x2) <- makes c rest x1;
      Ok (match o with Some p => (p, q) :: l | None => l end, x2)
  end.
Definition alone (c : Conf) (last : option St) (queue : list bool) : res (list (Out * bool) * St) :=
  do x <- begin c last; makes c queue x.

(** The runs since the settings [c] were taken, newest first: each is some number of turns from the beginning, or nothing at all (no producer);
    and the state the last one left. *)
Inductive fed (c : Conf) : list (list (Out * bool)) -> option St -> Prop :=
| fed_none : fed c [] None
| fed_run : forall rs last queue r x, fed c rs last -> alone c last queue = Ok (r, x) -> fed c (r :: rs) (Some x)
| fed_idle : forall rs last, fed c rs last -> fed c ([] :: rs) last.
(** Settings and file are such that producing never fails. *)
Definition sound (c : Conf) : Prop := forall rs last queue, fed c rs last -> alone c last queue <> Crash.

(** ** The history *)
(** A run is on from the return of a start to the return of a stop. *)
Fixpoint running_from (b : bool) (log : list event) : bool :=
  match log with
  | [] => b
  | e :: rest => running_from (match e with EReturned CStart => true | EReturned CStop => false | _ => b end) rest
  end.
Definition running : list event -> bool := running_from false.
(** A conf has returned and no scrap has been issued since. *)
Fixpoint configured_from (b : bool) (log : list event) : bool :=
  match log with
  | [] => b
  | e :: rest => configured_from (match e with EReturned (CConf _) => true | ECommand CScrap => false | _ => b end) rest
  end.
Definition configured : list event -> bool := configured_from false.
(** The command that has been issued and not been answered. *)
Fixpoint current_from (b : option cmd) (log : list event) : option cmd :=
  match log with
  | [] => b
  | e :: rest => current_from (match e with ECommand c => Some c | EReturned _ | EThrew _ => None | _ => b end) rest
  end.
Definition current : list event -> option cmd := current_from None.
(** The settings link [i] took last. *)
Fixpoint settings_from (i : nat) (o : option Conf) (log : list event) : option Conf :=
  match log with
  | [] => o
  | e :: rest => settings_from i (match e with ESet j c => if j =? i then Some c else o | _ => o end) rest
  end.
Definition settings (i : nat) : list event -> option Conf := settings_from i None.
(** What link [i] offered to its queue in the runs since it took its settings, newest run first. A run begins with the start command. *)
Definition extend (rs : list (list (Out * bool))) (x : Out * bool) : list (list (Out * bool)) :=
  match rs with [] => [[x]] | r :: rest => (r ++ [x]) :: rest end.
Fixpoint runs_from (i : nat) (rs : list (list (Out * bool))) (log : list event) : list (list (Out * bool)) :=
  match log with
  | [] => rs
  | e :: rest =>
      runs_from i (match e with
                   | ESet j _ => if j =? i then [] else rs
                   | ECommand CStart => [] :: rs
                   | EPush j p q => if j =? i then extend rs (p, q) else rs
                   | _ => rs
                   end) rest
  end.
Definition runs (i : nat) : list event -> list (list (Out * bool)) := runs_from i [].
(** How many payloads link [i] offered; the sum of the new packets it reported. *)
Definition offered (i : nat) (log : list event) : nat :=
  length (filter (fun e => match e with EPush j _ _ => j =? i | _ => false end) log).
Fixpoint reported (i : nat) (log : list event) : Z :=
  match log with
  | [] => 0%Z
  | ENew j v :: rest => ((if (j =? i)%nat then v else 0) + reported i rest)%Z
  | _ :: rest => reported i rest
  end.
(** The links to which the last start could not hand over their work. *)
Fixpoint ignored_from (l : list nat) (log : list event) : list nat :=
  match log with
  | [] => l
  | e :: rest => ignored_from (match e with ECommand CStart => [] | EIgnored i => i :: l | _ => l end) rest
  end.
Definition ignored : list event -> list nat := ignored_from [].

(** ** The order of commands a fake card supports *)
(** Start only between runs and configured; scrap and destruction only between runs; conf between runs, or when it does nothing. Stop at any time. *)
Definition allowed (log : list event) (c : cmd) : Prop :=
  ~ In (ECommand CDestroy) log /\
  match c with
  | CConf l => (running log = false \/ configured log = true) /\ forall i k, In (i, Some k) l -> sound k
  | CScrap | CDestroy => running log = false
  | CStart => running log = false /\ configured log = true
  | CStop => True
  end.
Definition orderly (s0 : card Conf St) (acts : list action) : Prop :=
  forall before c after s log, acts = before ++ ACommand c :: after -> run s0 before = Ok (s, log) -> current log = None /\ allowed log c.

Definition no_command (acts : list action) : Prop := forall c, ~ In (ACommand c) acts.
(** How many turns the producer of link [i] gets in the schedule. *)
Definition turns (i : nat) (acts : list action) : nat := length (filter (fun a => match a with AThread j _ => j =? i | _ => false end) acts).
(** Every thread of a card of [n] links gets at least one turn, and no command is issued. *)
Definition round (n : nat) (acts : list action) : Prop :=
  In AStep acts /\ (forall i, i < n -> exists q, In (AThread i q) acts) /\ no_command acts.
End Spec.

(** ** The two kinds of emulator *)
(** The first time stamp of a run. *)
Definition start_time (c : emu_conf) : Z := (if em_t0 c >=? 0 then em_t0 c else em_get_ts c (firstn (em_size c) (em_source c)))%Z.
(** A run of the source emulator with as many turns as [queue] is long, [used] error words having been used in earlier runs with these settings:
    in every turn the slot specified (Emu_spec.v), if it is not dropped. *)
Definition raw_run (c : emu_conf) (used : nat) (queue : list bool) : list (kind_out * bool) :=
  flat_map (fun x => match slot c (start_time c) used (fst x) (snd x) with Some p => [(RawOut p, snd x)] | None => [] end) (combine (seq 0 (length queue)) queue).
(** Its runs with one and the same settings, newest first, and the error words used: every run begins with the first element of the file, the
    first entry of the dropout table and the first time stamp; only the error bits go on. *)
Inductive raw_runs (c : emu_conf) : list (list (kind_out * bool)) -> nat -> Prop :=
| raw_none : raw_runs c [] 0
| raw_next : forall rs used queue, raw_runs c rs used ->
    raw_runs c (raw_run c used queue :: rs) (used + produced (em_dropouts c) (length queue) * em_frames c).
(** A run of the TP emulator: the frames of the blocks of the file in order, again and again. *)
Definition tps_run (blocks : list block) (queue : list bool) : list (kind_out * bool) :=
  map (fun x => (TpsOut (frame_of (nth (fst x mod length blocks) blocks (New []))), snd x)) (combine (seq 0 (length queue)) queue).
(** Settings and files for which an emulator never fails (C36, C30). *)
Definition good_raw (c : emu_conf) : Prop :=
  0 < em_size c /\ em_size c <= length (em_source c) /\ (Z.of_nat (length (em_source c) / em_size c) < two32)%Z /\ em_dropouts c <> [] /\ tables_ok (em_tables c).
Definition good_tps (blocks : list block) : Prop := Forall well_formed blocks /\ blocks <> [].
(** An emulator that makes a payload in every turn of its loop. *)
Definition steady (k : kind_conf) : Prop := match k with Raw c => Forall (fun b => b = true) (em_dropouts c) | Tps _ _ => True end.
