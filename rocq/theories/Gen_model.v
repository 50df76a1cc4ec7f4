(** Model of the generator of fake readout configurations, /repo/python/readout/app_confgen.py (function generate), and of the
    queues the generated modules open when they are initialised. Strings are byte strings; numbers are printed in decimal.
    Left out: capacities, the sorting of the queue list (line 105), addresses, numeric settings, start/stop/record commands. *)
From Coq Require Import String ZArith List Bool DecimalString.
From Verif Require Import Base_model Factory_model Card_model Loops_model.
Import ListNotations.
Open Scope string_scope.

(** f"{idx}". *)
Definition num (i : nat) : string := NilEmpty.string_of_uint (Nat.to_uint i).

Inductive kind := SPSC | MPMC.

Section Generate.
Variable ft : string.   (* FRONTEND_TYPE *)
Variable n t : nat.     (* NUMBER_OF_DATA_PRODUCERS, NUMBER_OF_TP_PRODUCERS *)

Definition data_idx : list nat := seq 0 n.
Definition tp_idx : list nat := seq n t.

(** queue_bare_specs, lines 54-102. *)
Definition queue_specs : list (string * kind) :=
  [("time_sync_q", MPMC); ("data_fragments_q", MPMC); ("errored_frames_q", MPMC)]
  ++ map (fun i => ("data_requests_" ++ num i, SPSC)) data_idx
  ++ map (fun i => (ft ++ "_link_" ++ num i, SPSC)) data_idx
  ++ map (fun i => ("raw_tp_link_" ++ num i, SPSC)) tp_idx
  ++ map (fun i => ("sw_tp_queue_" ++ num i, SPSC)) data_idx
  ++ [("tp_data_requests", SPSC)]
  ++ map (fun i => ("tpset_link_" ++ num i, SPSC)) data_idx.

Inductive plugin := FakeCardReader | DataLinkHandler | TimeSyncConsumer | FragmentConsumer | QueueToNetwork | ErroredFrameConsumer.
Record module := mkModule { m_name : string; m_plugin : plugin; m_queues : list qinfo }.

(** mod_specs, lines 107-233. *)
Definition fake_source : module :=
  mkModule "fake_source" FakeCardReader
    (map (fun i => mkQ ("output_" ++ num i) (ft ++ "_link_" ++ num i) "output") data_idx
     ++ map (fun i => mkQ ("output_" ++ num i) ("raw_tp_link_" ++ num i) "output") tp_idx).
Definition datahandler (i : nat) : module :=
  mkModule ("datahandler_" ++ num i) DataLinkHandler
    [mkQ "raw_input" (ft ++ "_link_" ++ num i) "input"; mkQ "timesync" "time_sync_q" "output";
     mkQ "data_requests_0" ("data_requests_" ++ num i) "input"; mkQ "data_response_0" "data_fragments_q" "output";
     mkQ "tp_out" ("sw_tp_queue_" ++ num i) "output"; mkQ "tpset_out" ("tpset_link_" ++ num i) "output";
     mkQ "errored_frames" "errored_frames_q" "output"].
Definition sw_tp_handler (i : nat) : module :=
  mkModule ("sw_tp_handler_" ++ num i) DataLinkHandler
    [mkQ "raw_input" ("sw_tp_queue_" ++ num i) "input"; mkQ "timesync" "time_sync_q" "output";
     mkQ "requests" "tp_data_requests" "input"; mkQ "fragments" "data_fragments_q" "output"].
Definition tpset_publisher (i : nat) : module :=
  mkModule ("tpset_publisher_" ++ num i) QueueToNetwork [mkQ "input" ("tpset_link_" ++ num i) "input"].
Definition raw_tp_handler (i : nat) : module :=
  mkModule ("raw_tp_handler_" ++ num i) DataLinkHandler
    [mkQ "raw_input" ("raw_tp_link_" ++ num i) "input"; mkQ "timesync" "time_sync_q" "output"].
Definition modules : list module :=
  [fake_source]
  ++ map datahandler data_idx
  ++ [mkModule "timesync_consumer" TimeSyncConsumer [mkQ "input_queue" "time_sync_q" "input"]]
  ++ [mkModule "fragment_consumer" FragmentConsumer [mkQ "input_queue" "data_fragments_q" "input"]]
  ++ map sw_tp_handler data_idx
  ++ map tpset_publisher data_idx
  ++ map raw_tp_handler tp_idx
  ++ [mkModule "errored_frame_consumer" ErroredFrameConsumer [mkQ "input_queue" "errored_frames_q" "input"]].

(** The conf command of fake_source, lines 252-283; [df] and [tf] are the contents of DATA_FILE and TP_DATA_FILE. *)
Definition fake_conf (df tf : option (list Z)) : list link :=
  map (fun i => mkLink ("output_" ++ num i) df) data_idx ++ map (fun i => mkLink ("output_" ++ num i) tf) tp_idx.

(** Recording files of the request handlers: (module, file, enable_raw_recording), lines 284-401. *)
Definition recording : list (string * string * bool) :=
  map (fun i => ("datahandler_" ++ num i, "output_" ++ num i ++ ".out", true)) data_idx
  ++ map (fun i => ("sw_tp_handler_" ++ num i, "output_" ++ num i ++ ".out", false)) data_idx
  ++ map (fun i => ("raw_tp_handler_" ++ num i, "output_" ++ num i ++ ".out", false)) tp_idx.

End Generate.

(** What is sent through a queue. *)
Inductive message := Data (e : element) | TimeSync | Request | Frag | TPSet | WIBFrame.
(** A queue a module opens: instance name, whether it writes to it, the type. *)
Definition use : Type := (string * bool * message)%type.

(** appfwk::queue_index (external): the entry of a name. *)
Fixpoint by_name (q : string) (l : list qinfo) : option qinfo :=
  match l with [] => None | x :: r => if String.eqb (qname x) q then Some x else by_name q r end.
Definition has_queue (q : string) (l : list qinfo) : bool := match by_name q l with Some _ => true | None => false end.
Definition inst_of (q : string) (l : list qinfo) : string := match by_name q l with Some x => inst x | None => "" end.

(** ReadoutModel::setup_request_response_queues (ReadoutModel.hpp 211-227): number of request/response pairs. *)
Definition request_pairs (l : list qinfo) : option nat :=
  setup (length l) (fun i => has_queue ("data_requests_" ++ num i) l) (fun i => has_queue ("data_response_" ++ num i) l) 0.

(** The queues opened by the frame processor: WIBFrameProcessor.hpp 199-213 (an absent errored_frames entry gives the empty instance name,
    which does not exist: ResourceQueueError), RAWWIBTriggerPrimitiveProcessor.hpp 49-59 (errors ignored); the others open none. *)
Definition processor_uses (r : readout) (l : list qinfo) : option (list use) :=
  match r with
  | RWib =>
      if has_queue "errored_frames" l
      then Some ((if has_queue "tp_out" l then [(inst_of "tp_out" l, true, Data SW_TP)] else [])
                 ++ (if has_queue "tpset_out" l then [(inst_of "tpset_out" l, true, TPSet)] else [])
                 ++ [(inst_of "errored_frames" l, true, WIBFrame)])%list
      else None
  | RRawTp => Some (if has_queue "tp" l then [(inst_of "tp" l, false, Data RAW_TP)] else [])
  | _ => Some []
  end.

(** DataLinkHandler::init (DataLinkHandler.cpp 40-52), createReadout and ReadoutModel::init (ReadoutModel.hpp 82-101); [None]: an exception. *)
Definition handler_uses (l : list qinfo) : option (list use) :=
  match create_readout l with
  | None => None
  | Some r =>
      match request_pairs l with
      | None => None
      | Some k =>
          if has_queue "raw_input" l && has_queue "timesync" l then
            match processor_uses r l with
            | None => None
            | Some p =>
                Some (map (fun i => (inst_of ("data_requests_" ++ num i) l, false, Request)) (seq 0 k)
                      ++ map (fun i => (inst_of ("data_response_" ++ num i) l, true, Frag)) (seq 0 k)
                      ++ [(inst_of "raw_input" l, false, Data (readout_element r)); (inst_of "timesync" l, true, TimeSync)]
                      ++ p)%list
            end
          else None
      end
  end.

(** FakeCardReader::init (FakeCardReader.cpp 48-75) with set_sink (SourceEmulatorModel.hpp 69-77). *)
Definition card_uses (l : list qinfo) : option (list use) :=
  match card_init l with
  | None => None
  | Some _ => Some (flat_map (fun q => if String.eqb (dir q) "output"
                                       then match create_emulator (inst q) with
                                            | Some e => [(inst q, true, Data (emulator_element e))]
                                            | None => []
                                            end
                                       else []) l)
  end.

(** The consumers (DummyConsumer.cpp 36-44: queue "input_queue" required) and QueueToNetwork (external, configured for TPSets). *)
Definition consumer_uses (m : message) (l : list qinfo) : option (list use) :=
  if has_queue "input_queue" l then Some [(inst_of "input_queue" l, false, m)] else None.

Definition module_uses (m : module) : option (list use) :=
  match m_plugin m with
  | FakeCardReader => card_uses (m_queues m)
  | DataLinkHandler => handler_uses (m_queues m)
  | TimeSyncConsumer => consumer_uses TimeSync (m_queues m)
  | FragmentConsumer => consumer_uses Frag (m_queues m)
  | ErroredFrameConsumer => consumer_uses WIBFrame (m_queues m)
  | QueueToNetwork => if has_queue "input" (m_queues m) then Some [(inst_of "input" (m_queues m), false, TPSet)] else None
  end.
