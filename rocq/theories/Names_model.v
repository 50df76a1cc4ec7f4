(** Model of the names of the worker threads (include/readout/utils/ReusableThread.hpp 62-69 and its callers) and of
    scripts/performance/balancer.py, which sets CPU masks by thread name. *)
From Coq Require Import String Ascii ZArith List Bool.
From Verif Require Import Base_model.
Import ListNotations.
Open Scope string_scope.
Open Scope Z_scope.

(** %d of snprintf: an optional minus sign and the decimal digits; an int has at most ten. *)
Definition digit_char (d : Z) : ascii := ascii_of_nat (Z.to_nat (48 + d)).
Fixpoint decimal (fuel : nat) (z : Z) : string :=
  match fuel with
  | O => ""
  | S f => if z <? 10 then String (digit_char z) "" else decimal f (z / 10) ++ String (digit_char (z mod 10)) ""
  end.
Definition int_text (z : Z) : string := if z <? 0 then "-" ++ decimal 10 (- z) else decimal 10 z.

(** set_name, 62-69: snprintf writes at most 15 characters and the terminating zero. The id is an int; callers pass a u4. *)
Definition thread_name (name : string) (id : Z) : string := substring 0 15 (name ++ "-" ++ int_text (i32 id)).

(** The named threads. ReadoutModel.hpp 130-132, DefaultRequestHandlerModel.hpp 133-134, TaskRawDataProcessorModel.hpp 57 (std::to_string of the number of
    the task), SourceEmulatorModel.hpp 120, TPEmulatorModel.hpp 104. The worker of a recorder is named after its module with id 0 (RecorderModel.hpp 74). *)
Inductive role := Consumer | Timesync | Requests | Recording | Cleanup | Post (task : Z) | Producer | TpProducer.
Definition role_text (r : role) : string :=
  match r with
  | Consumer => "consumer" | Timesync => "timesync" | Requests => "requests" | Recording => "recording" | Cleanup => "cleanup"
  | Post i => "postprocess-" ++ decimal 20 i
  | Producer => "fakeprod" | TpProducer => "fakeprod-tp"
  end.
Definition role_name (r : role) (element : Z) : string := thread_name (role_text r) element.

(** TaskRawDataProcessorModel::conf, 54-58: the loop over the tasks names the last thread each time. [threads]: the names so far, one per task. *)
Fixpoint set_last (x : string) (l : list string) : list string :=
  match l with [] => [] | [_] => [x] | a :: r => a :: set_last x r end.
Fixpoint name_tasks (k : nat) (i : Z) (element : Z) (threads : list string) : list string :=
  match k with
  | O => threads
  | S k' => name_tasks k' (i + 1) element (set_last (role_name (Post i) element) threads)
  end.
Definition post_conf (element : Z) (threads : list string) : list string := name_tasks (length threads) 0 element threads.

(** element_id of the handlers of a generated configuration, app_confgen.py 284-401: data handlers and software trigger primitive handlers are numbered alike. *)
Inductive handler := DataH | SwTpH | RawTpH.
Definition generated_handlers (n t : nat) : list (handler * Z) :=
  map (fun i => (DataH, Z.of_nat i)) (seq 0 n) ++ map (fun i => (SwTpH, Z.of_nat i)) (seq 0 n) ++ map (fun i => (RawTpH, Z.of_nat i)) (seq n t).

(** * balancer.py: threads (58), processes (39). *)
Record thread := mk_thread { th_name : string; th_mask : list Z }.
Record process := mk_process { pr_name : string; pr_cmdline : list string; pr_threads : list thread }.
(** affinity_dict[app][thread], lines 30-35 and 69; an entry of the wrong shape raises and counts as absent. *)
Definition pin_file : Type := string -> string -> option (list Z).

(** process_name in proc.name(), line 40. *)
Definition contains (x y : string) : bool := match index 0 x y with Some _ => true | None => false end.
(** cmdline[cmdline.index('--name') + 1], line 68; [None]: ValueError or IndexError, caught in line 70. *)
Fixpoint app_name (cmd : list string) : option string :=
  match cmd with
  | [] => None
  | a :: r => if String.eqb a "--name" then match r with b :: _ => Some b | [] => None end else app_name r
  end.
(** new_aff, lines 62-71. *)
Definition new_mask (pins : pin_file) (cmd : list string) (name : string) : list Z :=
  match app_name cmd with
  | Some a => match pins a name with Some m => m | None => [] end
  | None => []
  end.

Section Balance.
(** cpu_affinity of psutil (external): the mask a thread gets for a list of CPUs (an empty list means all of them), or [None] for an error, which ends
    the script as nothing catches it in line 73. *)
Variable set_affinity : list Z -> option (list Z).

(** Lines 56-73; the flag says whether the script goes on. Threads that end meanwhile are left out. *)
Fixpoint balance_threads (pins : pin_file) (cmd : list string) (l : list thread) : list thread * bool :=
  match l with
  | [] => ([], true)
  | t :: r => match set_affinity (new_mask pins cmd (th_name t)) with
              | None => (l, false)
              | Some m => let (r', go) := balance_threads pins cmd r in (mk_thread (th_name t) m :: r', go)
              end
  end.
(** Lines 39-73. Processes that end meanwhile and other errors of psutil are left out. *)
Fixpoint balance (pins : pin_file) (target : string) (l : list process) : list process * bool :=
  match l with
  | [] => ([], true)
  | p :: r => if contains target (pr_name p)
              then let (ts, go) := balance_threads pins (pr_cmdline p) (pr_threads p) in
                   let p' := mk_process (pr_name p) (pr_cmdline p) ts in
                   if go then let (r', go') := balance pins target r in (p' :: r', go') else (p' :: r, false)
              else let (r', go') := balance pins target r in (p :: r', go')
  end.
End Balance.
