(** Specification of the generated application: which module may use which queue, in which direction and with which messages.
    It uses only the names of the enumerations of the model and decimal numerals. *)
From Coq Require Import String List.
From Verif Require Import Factory_model Gen_model.
Import ListNotations.
Open Scope string_scope.

(** FRONTEND_TYPE is restricted to these on the command line (app_confgen.py 497-505). *)
Definition front_ends : list string := ["wib"; "wib2"; "pds_queue"; "pds_list"].
(** The implementation, the element and the emulator of a front end. *)
Definition expected (ft : string) : readout :=
  if String.eqb ft "wib" then RWib else if String.eqb ft "wib2" then RWib2 else if String.eqb ft "pds_queue" then RPdsQueue else RPdsList.
Definition expected_element (ft : string) : element :=
  if String.eqb ft "wib" then WIB else if String.eqb ft "wib2" then WIB2 else DAPHNE.

Section Wiring.
Variable ft : string.
Variable n t : nat.
Definition data_link (i : nat) : Prop := i < n.
Definition tp_link (i : nat) : Prop := n <= i < n + t.

(** [wired m (q, w, x)]: module [m] writes ([w]) or reads messages of kind [x] to or from queue [q]. *)
Inductive wired : string -> use -> Prop :=
  | emulated_link i : data_link i -> wired "fake_source" (ft ++ "_link_" ++ num i, true, Data (expected_element ft))
  | emulated_tp_link i : tp_link i -> wired "fake_source" ("raw_tp_link_" ++ num i, true, Data RAW_TP)
  | link_in i : data_link i -> wired ("datahandler_" ++ num i) (ft ++ "_link_" ++ num i, false, Data (expected_element ft))
  | link_sync i : data_link i -> wired ("datahandler_" ++ num i) ("time_sync_q", true, TimeSync)
  | link_requests i : data_link i -> wired ("datahandler_" ++ num i) ("data_requests_" ++ num i, false, Request)
  | link_fragments i : data_link i -> wired ("datahandler_" ++ num i) ("data_fragments_q", true, Frag)
  | link_tps i : data_link i -> ft = "wib" -> wired ("datahandler_" ++ num i) ("sw_tp_queue_" ++ num i, true, Data SW_TP)
  | link_tpsets i : data_link i -> ft = "wib" -> wired ("datahandler_" ++ num i) ("tpset_link_" ++ num i, true, TPSet)
  | link_errors i : data_link i -> ft = "wib" -> wired ("datahandler_" ++ num i) ("errored_frames_q", true, WIBFrame)
  | sw_in i : data_link i -> wired ("sw_tp_handler_" ++ num i) ("sw_tp_queue_" ++ num i, false, Data SW_TP)
  | sw_sync i : data_link i -> wired ("sw_tp_handler_" ++ num i) ("time_sync_q", true, TimeSync)
  | published i : data_link i -> wired ("tpset_publisher_" ++ num i) ("tpset_link_" ++ num i, false, TPSet)
  | raw_in i : tp_link i -> wired ("raw_tp_handler_" ++ num i) ("raw_tp_link_" ++ num i, false, Data RAW_TP)
  | raw_sync i : tp_link i -> wired ("raw_tp_handler_" ++ num i) ("time_sync_q", true, TimeSync)
  | syncs : wired "timesync_consumer" ("time_sync_q", false, TimeSync)
  | fragments : wired "fragment_consumer" ("data_fragments_q", false, Frag)
  | errors : wired "errored_frame_consumer" ("errored_frames_q", false, WIBFrame).
End Wiring.
