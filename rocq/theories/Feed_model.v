(** Model of the life of a fake card under the commands conf, scrap, start, stop and its destruction, with the producer threads of its emulators.
    /repo/plugins/FakeCardReader.cpp 37-46, 76-162; /repo/include/readout/models/SourceEmulatorModel.hpp 79-221 and
    /repo/src/wib/TPEmulatorModel.hpp 78-131, 193-246, which agree on what is modelled here; utils/ReusableThread.hpp 28-119.
    What an emulator makes in one turn of its loop is a parameter (Emu_model.v has it for the one, Rawtp_model.v for the other).
    Commands come one after the other and init is done. Monitoring may ask at any time. A producer given work takes it up (Thread_model.v,
    Recorder_model.v have the lost wake-up). *)
From Coq Require Import ZArith List Bool Arith.
From Verif Require Import Base_model Ebg_model Emu_model Rawtp_model.
Import ListNotations.
Open Scope nat_scope.

Section Feed.
(** What conf gives an emulator (settings and the file's content); the variables of run_produce and of the error bit generator; a payload. *)
Variable Conf St Out : Type.
(** The beginning of run_produce, SourceEmulatorModel.hpp 159-176: from the settings and what the last run left behind (None after a conf:
    the generator is new, 113-114). *)
Variable begin : Conf -> option St -> res St.
(** One turn of its loop up to the push, 178-211; the flag says whether the queue takes the payload in time. None: nothing made in this turn. *)
Variable turn : Conf -> bool -> St -> res (option Out * St).

(** The producer thread. ReusableThread.hpp 102-119: [Off] executed and not assigned, [Given] assigned and not begun, [Late] between 109 and 110:
    executed, still assigned. In run_produce: [Head] at the condition of the loop; [Pushed], [Counted] before the increments of the two counters,
    213-214; [Rate] before the call of the limiter, 219; [Limit l] in the limiter [l], which may sleep. [f] is the file buffer that the local
    reference [source] (160) belongs to. *)
Inductive producer : Type :=
| Off | Given | Late
| Head (f : nat) (s : St) | Pushed (f : nat) (s : St) | Counted (f : nat) (s : St) | Rate (f : nat) (s : St) | Limit (f : nat) (s : St) (l : nat).
(** get_readiness, 68. *)
Definition ready (p : producer) : bool := match p with Off | Late => true | _ => false end.

(** An emulator: m_is_configured; m_file_source (an identity, and what was read into it: [Some None] if reading failed) with the settings;
    m_rate_limiter (an identity); what the last run left in m_error_bit_generator; m_packet_count and m_packet_count_tot (atomic<int>);
    the thread; whether the members declared after the thread (258-264: m_dropouts) exist. *)
Record emul : Type := mkEmul {
  e_set : bool; e_file : option (nat * option Conf); e_lim : option nat; e_last : option St;
  e_new : Z; e_tot : Z; e_thread : producer; e_alive : bool
}.
Definition emul_new : emul := mkEmul false None None None 0%Z 0%Z Off true.

Inductive cmd : Type :=
| CConf (l : list (nat * option Conf))   (* link_confs: the emulator of a queue, the settings; None: the file cannot be read *)
| CScrap | CStart | CStop | CDestroy.

(** The steps of the thread that executes a command. *)
Inductive mop : Type :=
| MConf (i : nat) (o : option Conf) | MCheck | MScrap (i : nat) | MUnset
| MMarker (b : bool) | MStart (i : nat) | MWait (i : nat) | MDrop (i : nat) | MJoin (i : nat).

(** The module: number of emulators, m_source_emus in the order of the map, m_configured, m_run_marker, the next identity, the command in progress. *)
Record card : Type := mkCard {
  k_n : nat; k_emu : nat -> emul; k_conf : bool; k_marker : bool; k_next : nat; k_todo : option (cmd * list mop)
}.
Definition card_new (n : nat) : card := mkCard n (fun _ => emul_new) false false 0 None.

Definition set_emu (s : card) (i : nat) (e : emul) : card :=
  mkCard (k_n s) (fun j => if j =? i then e else k_emu s j) (k_conf s) (k_marker s) (k_next s) (k_todo s).
Definition set_conf (s : card) (b : bool) : card := mkCard (k_n s) (k_emu s) b (k_marker s) (k_next s) (k_todo s).
Definition set_marker (s : card) (b : bool) : card := mkCard (k_n s) (k_emu s) (k_conf s) b (k_next s) (k_todo s).
Definition set_todo (s : card) (t : option (cmd * list mop)) : card := mkCard (k_n s) (k_emu s) (k_conf s) (k_marker s) (k_next s) t.
Definition fresh (s : card) : card := mkCard (k_n s) (k_emu s) (k_conf s) (k_marker s) (S (k_next s)) (k_todo s).
Definition set_thread (e : emul) (p : producer) : emul := mkEmul (e_set e) (e_file e) (e_lim e) (e_last e) (e_new e) (e_tot e) p (e_alive e).

Inductive action : Type :=
| ACommand (c : cmd)               (* the framework issues a command; only when the last one has returned *)
| AStep                            (* the thread executing the command takes its next step *)
| AThread (i : nat) (takes : bool) (* the producer thread of emulator [i] takes its next step; the queue takes a payload in time or not *)
| ATotal (i : nat) | ANew (i : nat). (* get_info, 146-147: the two counters are read one after the other *)

Inductive event : Type :=
| ECommand (c : cmd) | EReturned (c : cmd) | EThrew (c : cmd)
| ESet (i : nat) (c : Conf)                    (* an emulator takes new settings *)
| EIgnored (i : nat)                           (* set_work returned false and nobody looked *)
| EPush (i : nat) (o : Out) (taken : bool)     (* a payload is offered to the queue *)
| ETotal (i : nat) (v : Z) | ENew (i : nat) (v : Z).

(** The producer thread of emulator [i]. SourceEmulatorModel.hpp 159-221. A null or empty file buffer, a file buffer, a dropout table or a limiter
    that has been replaced or destroyed while in use, and a missing limiter are Crash. *)
Definition thread_step (s : card) (i : nat) (takes : bool) : res (card * list event) :=
  let e := k_emu s i in
  let to p := Ok (set_emu s i (set_thread e p), []) in
  match e_thread e with
  | Off => Ok (s, [])
  | Late => to Off
  | Given =>
      match e_file e with
      | Some (f, Some c) => do x <- begin c (e_last e); to (Head f x)
      | _ => Crash
      end
  | Head f x =>
      if k_marker s then
        match e_file e with
        | Some (g, Some c) =>
            if (g =? f) && e_alive e then
              do (o, x') <- turn c takes x;
              match o with
              | None => to (Rate f x')
              | Some p => Ok (set_emu s i (set_thread e (Pushed f x')), [EPush i p takes])
              end
            else Crash
        | _ => Crash
        end
      else Ok (set_emu s i (mkEmul (e_set e) (e_file e) (e_lim e) (Some x) (e_new e) (e_tot e) Late (e_alive e)), [])
  | Pushed f x => Ok (set_emu s i (mkEmul (e_set e) (e_file e) (e_lim e) (e_last e) (i32 (e_new e + 1)) (e_tot e) (Counted f x) (e_alive e)), [])
  | Counted f x => Ok (set_emu s i (mkEmul (e_set e) (e_file e) (e_lim e) (e_last e) (e_new e) (i32 (e_tot e + 1)) (Rate f x) (e_alive e)), [])
  | Rate f x => match e_lim e with Some l => to (Limit f x l) | None => Crash end
  | Limit f x l => match e_lim e with Some l' => if l' =? l then to (Head f x) else Crash | None => Crash end
  end.

(** The commands as sequences of steps: do_conf 87-120, do_scrap 122-134, do_start 135-147, do_stop 149-161; the destructor of m_source_emus. *)
Definition program (s : card) (c : cmd) : list mop :=
  match c with
  | CConf l => if k_conf s then [] else map (fun x => MConf (fst x) (snd x)) l ++ [MCheck]
  | CScrap => map MScrap (seq 0 (k_n s)) ++ [MUnset]
  | CStart => MMarker true :: map MStart (seq 0 (k_n s))
  | CStop => MMarker false :: map MWait (seq 0 (k_n s))
  | CDestroy => flat_map (fun i => [MDrop i; MJoin i]) (seq 0 (k_n s))
  end.

Inductive outcome : Type := Blocked | Threw (s : card) | Done (s : card) (ev : list event).

(** MConf, FakeCardReader.cpp 97-107 with the emulator's conf 79-121: an unknown queue, an emulator already configured and a file that cannot be
    read throw; the last after m_file_source was replaced. MCheck, 109-117. MStart, 124-131: the total is reset, the limiter replaced, the work
    handed over with set_work (ReusableThread.hpp 71-81), whose result nobody looks at. MWait, 133-138. MDrop, MJoin: the members after the thread go,
    then ~ReusableThread 37-47 waits while a task is assigned. *)
Definition mop_step (s : card) (m : mop) : outcome :=
  match m with
  | MConf i o =>
      let e := k_emu s i in
      if (i <? k_n s) && negb (e_set e) then
        match o with
        | None => Threw (fresh (set_emu s i (mkEmul false (Some (k_next s, None)) (e_lim e) (e_last e) (e_new e) (e_tot e) (e_thread e) (e_alive e))))
        | Some c => Done (fresh (set_emu s i (mkEmul true (Some (k_next s, Some c)) (e_lim e) None (e_new e) (e_tot e) (e_thread e) (e_alive e)))) [ESet i c]
        end
      else Threw s
  | MCheck => if forallb (fun i => e_set (k_emu s i)) (seq 0 (k_n s)) then Done (set_conf s true) [] else Threw s
  | MScrap i =>
      let e := k_emu s i in
      Done (set_emu s i (mkEmul false (e_file e) (e_lim e) (e_last e) (e_new e) (e_tot e) (e_thread e) (e_alive e))) []
  | MUnset => Done (set_conf s false) []
  | MMarker b => Done (set_marker s b) []
  | MStart i =>
      let e := k_emu s i in
      let p := match e_thread e with Off => Given | p => p end in
      Done (fresh (set_emu s i (mkEmul (e_set e) (e_file e) (Some (k_next s)) (e_last e) (e_new e) 0%Z p (e_alive e))))
           (match e_thread e with Off => [] | _ => [EIgnored i] end)
  | MWait i => if ready (e_thread (k_emu s i)) then Done s [] else Blocked
  | MDrop i =>
      let e := k_emu s i in
      Done (set_emu s i (mkEmul (e_set e) (e_file e) (e_lim e) (e_last e) (e_new e) (e_tot e) (e_thread e) false)) []
  | MJoin i => match e_thread (k_emu s i) with Off => Done s [] | _ => Blocked end
  end.

(** The thread executing the command. An exception ends it. *)
Definition command_step (s : card) : card * list event :=
  match k_todo s with
  | None => (s, [])
  | Some (c, []) => (set_todo s None, [EReturned c])
  | Some (c, m :: rest) =>
      match mop_step s m with
      | Blocked => (s, [])
      | Threw s' => (set_todo s' None, [EThrew c])
      | Done s' ev => (set_todo s' (Some (c, rest)), ev)
      end
  end.

Definition card_step (s : card) (a : action) : res (card * list event) :=
  match a with
  | ACommand c => match k_todo s with None => Ok (set_todo s (Some (c, program s c)), [ECommand c]) | Some _ => Ok (s, []) end
  | AStep => Ok (command_step s)
  | AThread i takes => thread_step s i takes
  | ATotal i => Ok (s, [ETotal i (e_tot (k_emu s i))])
  | ANew i =>
      let e := k_emu s i in
      Ok (set_emu s i (mkEmul (e_set e) (e_file e) (e_lim e) (e_last e) 0%Z (e_tot e) (e_thread e) (e_alive e)), [ENew i (e_new e)])
  end.

Fixpoint card_run (s : card) (acts : list action) : res (card * list event) :=
  match acts with
  | [] => Ok (s, [])
  | a :: rest => do r <- card_step s a; do q <- card_run (fst r) rest; Ok (fst q, snd r ++ snd q)
  end.
End Feed.

Arguments Off {St}. Arguments Given {St}. Arguments Late {St}. Arguments Head {St}. Arguments Pushed {St}. Arguments Counted {St}.
Arguments Rate {St}. Arguments Limit {St}. Arguments ready {St}.
Arguments mkEmul {Conf St}. Arguments e_set {Conf St}. Arguments e_file {Conf St}. Arguments e_lim {Conf St}. Arguments e_last {Conf St}.
Arguments e_new {Conf St}. Arguments e_tot {Conf St}. Arguments e_thread {Conf St}. Arguments e_alive {Conf St}. Arguments emul_new {Conf St}.
Arguments set_thread {Conf St}.
Arguments CConf {Conf}. Arguments CScrap {Conf}. Arguments CStart {Conf}. Arguments CStop {Conf}. Arguments CDestroy {Conf}.
Arguments MConf {Conf}. Arguments MCheck {Conf}. Arguments MScrap {Conf}. Arguments MUnset {Conf}. Arguments MMarker {Conf}. Arguments MStart {Conf}.
Arguments MWait {Conf}. Arguments MDrop {Conf}. Arguments MJoin {Conf}.
Arguments mkCard {Conf St}. Arguments k_n {Conf St}. Arguments k_emu {Conf St}. Arguments k_conf {Conf St}. Arguments k_marker {Conf St}.
Arguments k_next {Conf St}. Arguments k_todo {Conf St}. Arguments card_new {Conf St}.
Arguments set_emu {Conf St}. Arguments set_conf {Conf St}. Arguments set_marker {Conf St}. Arguments set_todo {Conf St}. Arguments fresh {Conf St}.
Arguments ACommand {Conf}. Arguments AStep {Conf}. Arguments AThread {Conf}. Arguments ATotal {Conf}. Arguments ANew {Conf}.
Arguments ECommand {Conf Out}. Arguments EReturned {Conf Out}. Arguments EThrew {Conf Out}. Arguments ESet {Conf Out}. Arguments EIgnored {Conf Out}.
Arguments EPush {Conf Out}. Arguments ETotal {Conf Out}. Arguments ENew {Conf Out}.
Arguments Blocked {Conf St Out}. Arguments Threw {Conf St Out}. Arguments Done {Conf St Out}.
Arguments thread_step {Conf St Out}. Arguments program {Conf St}. Arguments mop_step {Conf St Out}. Arguments command_step {Conf St Out}.
Arguments card_step {Conf St Out}. Arguments card_run {Conf St Out}.

(** The emulators of a fake card, /repo/src/CreateSourceEmulator.hpp 29-85: SourceEmulatorModel for the various element types, and
    TPEmulatorModel. Settings and file of the one as in Emu_model.v; file of the other, with what its mallocs find on the heap. *)
Inductive kind_conf : Type := Raw (c : emu_conf) | Tps (junk : nat -> Z) (file : list Z).
Inductive kind_state : Type := RawAt (s : emu_st) | TpsAt (offset : nat).
Inductive kind_out : Type := RawOut (p : payload) | TpsOut (frame : list Z).

(** SourceEmulatorModel.hpp 159-176: the generator goes on where the last run left it. TPEmulatorModel.hpp 199-208. A state that does not
    belong to the settings does not occur. *)
Definition kind_begin (c : kind_conf) (last : option kind_state) : res kind_state :=
  match c with
  | Raw c => do s <- emu_begin c (match last with Some (RawAt s) => es_gen s | _ => gen_new end); Ok (RawAt s)
  | Tps _ _ => Ok (TpsAt 0)
  end.
(** SourceEmulatorModel.hpp 178-218, without what the counters do (they are above); TPEmulatorModel.hpp 209-240. *)
Definition kind_turn (c : kind_conf) (takes : bool) (s : kind_state) : res (option kind_out * kind_state) :=
  match c, s with
  | Raw c, RawAt s => do (o, s') <- emu_slot c takes s; Ok (option_map RawOut o, RawAt s')
  | Tps junk file, TpsAt offset =>
      do r <- next_frame junk file (if offset =? List.length file / 12 * 12 then 0 else offset); Ok (Some (TpsOut (fst r)), TpsAt (snd r))
  | _, _ => Crash
  end.
