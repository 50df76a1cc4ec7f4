(** Model of the fake card reader: /repo/plugins/FakeCardReader.cpp 48-162, with the parts of the emulators it uses:
    /repo/include/readout/models/SourceEmulatorModel.hpp 79-139 and /repo/src/wib/TPEmulatorModel.hpp 78-124 (which agree on
    what is modelled here). *)
From Coq Require Import String ZArith List Bool.
From Verif Require Import Base_model Factory_model.
Import ListNotations.
Open Scope string_scope.

(** An emulator: m_is_configured; the bytes of m_file_source ([None]: null pointer). The settings other than the file are not
    modelled. *)
Record emu := mkEmu { e_conf : bool; e_data : option (list Z) }.
Definition new_emu : emu := mkEmu false None.

(** The module: m_source_emus (a map from queue name to emulator, here an association list), m_configured, and whether the
    producer threads are at work (m_run_marker; stop waits for the threads to end, FakeCardReader.cpp 149-161). *)
Record card := mkCard { c_emus : list (string * emu); c_conf : bool; c_run : bool }.

(** m_source_emus.find. *)
Fixpoint lookup (n : string) (l : list (string * emu)) : option emu :=
  match l with [] => None | (k, e) :: r => if String.eqb n k then Some e else lookup n r end.
(** m_source_emus[n]->... of a present name. *)
Fixpoint update (n : string) (f : emu -> emu) (l : list (string * emu)) : list (string * emu) :=
  match l with [] => [] | (k, e) :: r => if String.eqb n k then (k, f e) :: r else (k, e) :: update n f r end.

(** init, 48-75, starting with an empty map; [None]: ResourceQueueError. *)
Fixpoint init_emus (qs : list qinfo) (l : list (string * emu)) : option (list (string * emu)) :=
  match qs with
  | [] => Some l
  | q :: rest =>
      if negb (String.eqb (dir q) "output") then init_emus rest l
      else match lookup (qname q) l with
           | Some _ => None
           | None => match create_emulator (inst q) with
                     | None => None
                     | Some _ => init_emus rest (l ++ [(qname q, new_emu)])
                     end
           end
  end.
Definition card_init (qs : list qinfo) : option card :=
  match init_emus qs [] with Some l => Some (mkCard l false false) | None => None end.

(** LinkConfiguration: queue name and the bytes of the file it names ([None]: cannot be opened). *)
Record link := mkLink { l_queue : string; l_file : option (list Z) }.

Inductive outcome := Done | Unknown_queue (n : string) | Configured_twice (n : string) | Unreadable (n : string) | Not_all_configured.

(** The loop over link_confs, 97-107, calling the emulator's conf (SourceEmulatorModel.hpp 79-121). Replacing m_file_source while
    the producer thread holds a reference to its buffer (SourceEmulatorModel.hpp 160) is a use after free: [Crash]. *)
Fixpoint conf_links (run : bool) (ls : list link) (l : list (string * emu)) : res (outcome * list (string * emu)) :=
  match ls with
  | [] => Ok (Done, l)
  | k :: rest =>
      match lookup (l_queue k) l with
      | None => Ok (Unknown_queue (l_queue k), l)
      | Some e =>
          if e_conf e then Ok (Configured_twice (l_queue k), l)
          else if run then Crash
          else match l_file k with
               | None => Ok (Unreadable (l_queue k), update (l_queue k) (fun _ => mkEmu false (Some [])) l)
               | Some bytes => conf_links run rest (update (l_queue k) (fun _ => mkEmu true (Some bytes)) l)
               end
      end
  end.

(** do_conf, 87-120. *)
Definition do_conf (ls : list link) (c : card) : res (outcome * card) :=
  if c_conf c then Ok (Done, c)
  else do r <- conf_links (c_run c) ls (c_emus c);
       let '(o, l) := r in
       match o with
       | Done => if forallb (fun p => e_conf (snd p)) l then Ok (Done, mkCard l true (c_run c))
                 else Ok (Not_all_configured, mkCard l false (c_run c))
       | _ => Ok (o, mkCard l false (c_run c))
       end.

(** do_scrap, 122-134. *)
Definition do_scrap (c : card) : card :=
  mkCard (map (fun p => (fst p, mkEmu false (e_data (snd p)))) (c_emus c)) false (c_run c).

(** do_start, 135-147: no check that the module is configured. Each producer thread dereferences m_file_source
    (SourceEmulatorModel.hpp 160) and reads an element from its buffer (172; with a configured initial timestamp 188): a null
    pointer or an empty buffer is undefined behaviour. Starting threads that are at work hands over nothing (ReusableThread; what
    it does to their rate limiters is in Feed_model.v). *)
Definition producible (e : emu) : bool := match e_data e with Some (_ :: _) => true | _ => false end.
Definition do_start (c : card) : res card :=
  if forallb (fun p => producible (snd p)) (c_emus c) then Ok (mkCard (c_emus c) (c_conf c) true) else Crash.

(** do_stop, 149-161. *)
Definition do_stop (c : card) : card := mkCard (c_emus c) (c_conf c) false.

Inductive cmd := Conf (ls : list link) | Scrap | Start | Stop.
Definition step (m : cmd) (c : card) : res (outcome * card) :=
  match m with
  | Conf ls => do_conf ls c
  | Scrap => Ok (Done, do_scrap c)
  | Start => do c' <- do_start c; Ok (Done, c')
  | Stop => Ok (Done, do_stop c)
  end.
Fixpoint run (ms : list cmd) (c : card) : res (list outcome * card) :=
  match ms with
  | [] => Ok ([], c)
  | m :: rest => do r <- step m c; let '(o, c1) := r in do r2 <- run rest c1; let '(os, c2) := r2 in Ok (o :: os, c2)
  end.
