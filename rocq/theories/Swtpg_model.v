(** Model of the software trigger primitive generation of a WIB link as a whole: the command handling and the post-processing task of
    /repo/src/wib/WIBFrameProcessor.hpp 92-264 and 369-505, around the hit finding of Hits_model.v and the trigger primitive buffer of Tp_model.v.
    conf with enable_software_tpg has been executed once (224-235). The steps are those between which another thread can act: the post-processing
    thread (find_collection_hits), the command thread (start, stop) and the monitoring thread (get_info).
    Not modelled: a start sent during a run; the time stamp and error checks (Check_model.v); log output; m_num_hits_coll, m_new_hits, m_new_tps
    and m_num_tps_pushed, which nobody reads or which never change; the induction planes' ProcessingInfo, which nobody uses. *)
From Coq Require Import ZArith List Bool.
From Verif Require Import Base_model Expand_model Hits_model Tp_model.
Import ListNotations.
Open Scope Z_scope.

Section Swtpg.
(** The priority queue of the buffer, see Tp_model.v. *)
Variable heap : Type.
Variable h_empty : heap.
Variable h_push : prim -> heap -> heap.
Variable h_top : heap -> option prim.
Variable h_pop : heap -> heap.
(** config.tp_timeout and config.tpset_window_size, 227. *)
Variable timeout window : Z.
(** The parameters of the hit finder, 570-573. *)
Variable p : params.

(** Number of slots of m_induction_items_to_process, 230. *)
Definition induction_slots : Z := 200000.

(** Where the command thread is: no run, in start before inherited::start (172), in a run, in stop after inherited::stop (177). *)
Inductive cmd : Type := NoRun | Starting | Running | Stopping.

(** [sp_win]: the state in m_coll_tpg_pi, None while m_first_coll holds. [sp_buffers]: m_coll_primfind_dest and m_coll_taps_p point to memory.
    [sp_thread]: the post-processing thread runs. [sp_hand]: the superchunk in hand: its time stamp, the number of its hits so far (nhits)
    and the primitives still to be added. [sp_tp]: m_tphandler. [sp_dropped]: m_tps_dropped. [sp_hits]: m_coll_hits_count.
    [sp_ind]: the write index of m_induction_items_to_process; its read index stays 0 because nobody calls find_induction_hits (508-519). *)
Record proc : Type := mkProc {
  sp_cmd : cmd; sp_win : option window_state; sp_buffers : bool; sp_thread : bool; sp_hand : option (Z * Z * list prim);
  sp_tp : tpst prim heap; sp_dropped : Z; sp_hits : Z; sp_ind : Z
}.

(** After conf, 224-235; m_coll_taps_p and m_coll_primfind_dest are null, 64-65. *)
Definition configured : proc := mkProc NoRun None false false None (tp_new h_empty) 0 0 0.

(** Start is the first part of start (94-170), StartThread inherited::start (172), JoinThread inherited::stop (177), Free the rest of stop
    (178-196). Chunk takes a superchunk up to the decoded hit list; Add is one add_tp (478-486), Try the end of the task (496-504) up to
    the loop in try_sending_tpsets, Send and Finish the rest of that. The reads are those of get_info (245-247, 253). *)
Inductive act : Type :=
| Start | StartThread | JoinThread | Free
| Chunk (ts : Z) (mem : memory) | Add | Try | Send (ok : bool) | Finish (ok : bool)
| ReadTps | ReadSets | ReadDropped | ReadHits.

(** What the environment sees of it: the events of the buffer (Tp_model.v) and the other two counters. [Done] marks the end of the
    loop over the hits of a superchunk (489) and is not visible. *)
Inductive ev : Type := Tp (e : event prim) | Done | Dropped (n : Z) | Hits (n : Z).

(** [Refused]: the step cannot happen in this state; [Bad]: undefined behaviour. *)
Inductive outcome : Type := Go (s : proc) (e : list ev) | Refused | Bad.

(** An operation of the buffer on the state [s], after which the other members are changed by [f]. *)
Definition on_tp (s : proc) (a : action prim) (f : tpst prim heap -> list (event prim) -> outcome) : outcome :=
  match tp_step prim time_start heap h_empty h_push h_top h_pop timeout window a (sp_tp s) with
  | Next t e => f t e
  | Stuck => Refused
  | Fault => Bad
  end.
Definition set_tp (s : proc) (t : tpst prim heap) : proc :=
  mkProc (sp_cmd s) (sp_win s) (sp_buffers s) (sp_thread s) (sp_hand s) t (sp_dropped s) (sp_hits s) (sp_ind s).

(** IterableQueueModel::write with the read index at 0, IterableQueueModel.hpp 230-248. *)
Definition induction_write (w : Z) : Z :=
  let next := if w + 1 =? induction_slots then 0 else w + 1 in if next =? 0 then w else next.

(** The post-processing thread has no superchunk in hand. *)
Definition free_hands (s : proc) : bool :=
  match sp_hand s, tp_open (sp_tp s) with None, None => true | _, _ => false end.

Definition step (a : act) (s : proc) : outcome :=
  match a with
  | Start =>
      (* 94-170: reset of the buffer, new arrays if there are none, new ProcessingInfo, m_first_coll, counters. *)
      match sp_cmd s with
      | NoRun => on_tp s AReset (fun t e => Go (mkProc Starting None true (sp_thread s) (sp_hand s) t 0 0 (sp_ind s)) (map Tp e))
      | _ => Refused
      end
  | StartThread =>
      match sp_cmd s with
      | Starting => Go (mkProc Running (sp_win s) (sp_buffers s) true (sp_hand s) (sp_tp s) (sp_dropped s) (sp_hits s) (sp_ind s)) []
      | _ => Refused
      end
  | JoinThread =>
      (* Returns when the thread has finished its task; it has then processed all queued items (Post_model.v). *)
      match sp_cmd s, free_hands s with
      | Running, true => Go (mkProc Stopping (sp_win s) (sp_buffers s) false (sp_hand s) (sp_tp s) (sp_dropped s) (sp_hits s) (sp_ind s)) []
      | _, _ => Refused
      end
  | Free =>
      match sp_cmd s with
      | Stopping => Go (mkProc NoRun (sp_win s) false (sp_thread s) (sp_hand s) (sp_tp s) (sp_dropped s) (sp_hits s) (sp_ind s)) []
      | _ => Refused
      end
  | Chunk ts mem =>
      if negb (sp_thread s && free_hands s) then Refused
      else if negb (sp_buffers s) then Bad      (* 395: write through a null pointer *)
      else match find_collection_hits p (sp_win s) ts mem with
           | Crash => Bad
           | Ok (w, tps) => Go (mkProc (sp_cmd s) w (sp_buffers s) (sp_thread s) (Some (ts, 0, tps)) (sp_tp s) (sp_dropped s) (sp_hits s) (induction_write (sp_ind s))) []
           end
  | Add =>
      match sp_hand s with
      | Some (ts, n, q :: rest) =>
          on_tp s (AAdd q ts) (fun t e =>
            let lost := match e with [EAdd _ false] => true | _ => false end in
            Go (mkProc (sp_cmd s) (sp_win s) (sp_buffers s) (sp_thread s) (Some (ts, u32 (n + 1), rest)) t
                       (if lost then u64 (sp_dropped s + 1) else sp_dropped s) (sp_hits s) (sp_ind s)) (map Tp e))
      | _ => Refused
      end
  | Try =>
      match sp_hand s with
      | Some (ts, n, []) =>
          on_tp s (ATry ts) (fun t e =>
            Go (mkProc (sp_cmd s) (sp_win s) (sp_buffers s) (sp_thread s) None t (sp_dropped s) (i32 (sp_hits s + n)) (sp_ind s)) (Done :: map Tp e))
      | _ => Refused
      end
  | Send ok => on_tp s (ASend ok) (fun t e => Go (set_tp s t) (map Tp e))
  | Finish ok => on_tp s (AFinish ok) (fun t e => Go (set_tp s t) (map Tp e))
  | ReadTps => on_tp s AReadTps (fun t e => Go (set_tp s t) (map Tp e))
  | ReadSets => on_tp s AReadSets (fun t e => Go (set_tp s t) (map Tp e))
  | ReadDropped => Go (mkProc (sp_cmd s) (sp_win s) (sp_buffers s) (sp_thread s) (sp_hand s) (sp_tp s) 0 (sp_hits s) (sp_ind s)) [Dropped (sp_dropped s)]
  | ReadHits => Go (mkProc (sp_cmd s) (sp_win s) (sp_buffers s) (sp_thread s) (sp_hand s) (sp_tp s) (sp_dropped s) 0 (sp_ind s)) [Hits (sp_hits s)]
  end.

Fixpoint run (l : list act) (s : proc) : outcome :=
  match l with
  | [] => Go s []
  | a :: l' =>
    match step a s with
    | Go s1 e => match run l' s1 with Go s2 e' => Go s2 (e ++ e') | r => r end
    | r => r
    end
  end.

End Swtpg.
Arguments mkProc {heap}. Arguments sp_cmd {heap}. Arguments sp_win {heap}. Arguments sp_buffers {heap}. Arguments sp_thread {heap}. Arguments sp_hand {heap}.
Arguments sp_tp {heap}. Arguments sp_dropped {heap}. Arguments sp_hits {heap}. Arguments sp_ind {heap}.
Arguments Go {heap}. Arguments Refused {heap}. Arguments Bad {heap}.
Arguments configured {heap}. Arguments free_hands {heap}.
