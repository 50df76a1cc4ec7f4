(** Model of the selection of front-end implementations by queue names.
    /repo/src/CreateReadout.hpp 53-164, /repo/src/CreateSourceEmulator.hpp 30-84, /repo/plugins/DataRecorder.cpp 37-81,
    /repo/plugins/DataLinkHandler.cpp 39-51. The objects are represented by their kind; their init is not modelled here. *)
From Coq Require Import String ZArith List Bool.
Import ListNotations.
Open Scope string_scope.

(** appfwk::app::QueueInfo: name in the module, instance name, direction. *)
Record qinfo := mkQ { qname : string; inst : string; dir : string }.

(** inst.find(x) != npos. *)
Definition contains (x s : string) : bool := match String.index 0 x s with Some _ => true | None => false end.

(** Implementations of ReadoutModel, CreateReadout.hpp 62-155. *)
Inductive readout := RWib | RWib2 | RPdsQueue | RPdsList | RSwTp | RSsp | RRawTp | RPacman.
(** The body of the loop, 59-160. *)
Definition readout_of_inst (i : string) : option readout :=
  if contains "wib" i && negb (contains "wib2" i) then Some RWib        (* 62 *)
  else if contains "wib2" i then Some RWib2                             (* 74 *)
  else if contains "pds_queue" i then Some RPdsQueue                    (* 86 *)
  else if contains "pds_list" i then Some RPdsList                      (* 99 *)
  else if contains "sw_tp" i then Some RSwTp                            (* 109 *)
  else if contains "ssp" i then Some RSsp                               (* 122 *)
  else if contains "raw_tp" i then Some RRawTp                          (* 133 *)
  else if contains "pacman" i then Some RPacman                         (* 146 *)
  else None.
(** createReadout, 53-164: [None] is the null pointer. *)
Fixpoint create_readout (qs : list qinfo) : option readout :=
  match qs with
  | [] => None
  | q :: rest =>
      if String.eqb (qname q) "raw_input"
      then match readout_of_inst (inst q) with Some r => Some r | None => create_readout rest end
      else create_readout rest
  end.

(** createSourceEmulator, 30-84. *)
Inductive emulator := EWib2 | EWib | EPds | ETp.
Definition create_emulator (i : string) : option emulator :=
  if contains "wib2" i then Some EWib2
  else if contains "wib" i then Some EWib
  else if contains "pds" i then Some EPds
  else if contains "tp" i then Some ETp
  else None.

(** DataRecorder::init, 37-81: [None]: DataRecorderConfigurationError (caught and rethrown). *)
Inductive recorder := CWib2 | CWib | CPds | CPacman.
Definition create_recorder (i : string) : option recorder :=
  if contains "wib2" i then Some CWib2
  else if contains "wib" i then Some CWib
  else if contains "pds" i then Some CPds
  else if contains "pacman" i then Some CPacman
  else None.

(** The element type of the raw data queue: template argument of ReadoutModel, SourceEmulatorModel, RecorderImpl; for the TP
    emulator TPEmulatorModel.hpp 272. *)
Inductive element := WIB | WIB2 | DAPHNE | SW_TP | RAW_TP | SSP | PACMAN.
Definition readout_element (r : readout) : element :=
  match r with
  | RWib => WIB | RWib2 => WIB2 | RPdsQueue => DAPHNE | RPdsList => DAPHNE | RSwTp => SW_TP | RSsp => SSP | RRawTp => RAW_TP
  | RPacman => PACMAN
  end.
Definition emulator_element (e : emulator) : element :=
  match e with EWib2 => WIB2 | EWib => WIB | EPds => DAPHNE | ETp => RAW_TP end.
Definition recorder_element (c : recorder) : element :=
  match c with CWib2 => WIB2 | CWib => WIB | CPds => DAPHNE | CPacman => PACMAN end.
