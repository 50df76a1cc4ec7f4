(** Model of zero-copy recording interleaved with arrivals and clean-ups.
    /repo/include/readout/models/ZeroCopyRecordingRequestHandlerModel.hpp, record 59-193, conf 31-57.
    Buffer, clean-up and producer are those of Record_model.v (its own recording thread stays idle). Each step of the
    recording thread is one access to shared state; ::write copies the memory byte by byte, interleaved with everything
    else. Simplified: the payload fills the element, sizeof(ReadoutType) = fixed_payload_size = [P]; addresses do not
    overflow; the clock is the [expired] flag of the steps; the file is one descriptor, opened in conf. *)
From Coq Require Import ZArith List Bool.
From Verif Require Import Base_model Ring_model Record_model.
Import ListNotations.
Open Scope Z_scope.

Section Zcopy.
Context {E : Type}.
Variable ts : E -> Z.          (* get_first_timestamp() *)
Variable limit : Z.            (* m_pop_limit_size *)
Variable quota : Z -> Z.       (* unsigned(m_pop_size_pct * occupancy) *)
Variable P : Z.                (* fixed_payload_size *)
Variable chunk : Z.            (* m_stream_buffer_size, line 67 *)
Variable align : Z.            (* get_alignment_size(), line 68 *)
Variable addr0 : Z.            (* start_of_buffer(), line 76 *)

(** Recording thread: idle; top of the loop (82); waiting for the clean-up flag (88-90); begin() (97); storing the
    first timestamp (103); alignment test of the element at iterator i (105); back() (119); choosing what to write with
    k rounds done (122-154); copying m bytes from address a, then continuing at address nx (129, 138, 146, 178);
    updating the next timestamp (166); completing the last frame (174-184); closing the file (185). *)
Inductive zpc : Type :=
| ZIdle | ZTop | ZWait | ZBegin | ZSet (i : Z) | ZSkip (i : Z) | ZBack | ZChunk (k : nat)
| ZCopy (a m nx : Z) (k : nat) | ZAfter (k : nat) | ZFinal | ZCopyLast (a m : Z) | ZClose.

Record zstate : Type := mk_z {
  z_core : rstate E;                (* buffer, clean-up, m_next_timestamp_to_record *)
  z_pc : zpc;
  z_wp : option Z;                  (* current_write_pointer *)
  z_endp : Z;                       (* current_end_pointer *)
  z_open : bool;                    (* the file descriptor is open *)
  z_file : list (option (E * Z));   (* bytes of the file: byte number o of element e; None: memory never written *)
  z_counted : Z;                    (* bytes_written *)
  z_warnings : Z;                   (* warnings about failed writes *)
  (* history, not part of the program: *)
  z_short : bool;                   (* a ::write to the open file wrote less than asked *)
  z_lost : bool;                    (* the search for an aligned element left the buffer *)
  z_oldest : nat                    (* number of elements removed when the recording to the open file looked at begin() *)
}.

(** The producer, the clean-up, the record command, and the recording thread: [expired]: the time is over;
    [ret]: what the next ::write returns. *)
Inductive zaction : Type := ZWrite (x : E) | ZClean | ZStart | ZRec (expired : bool) (ret : Z).

Definition zinit (n : Z) : zstate := mk_z (init n) ZIdle None 0 true [] 0 0 false false 0.

Definition with_next (c : rstate E) (v : Z) : rstate E :=
  mk_rstate (s_ring c) (s_mem c) v (s_requested c) (s_running c) (s_cpc c) (s_rpc c) (s_file c) (s_crashed c)
            (s_all c) (s_popped c) (s_first c) (s_upto c).
Definition goto (s : zstate) (p : zpc) : zstate :=
  mk_z (z_core s) p (z_wp s) (z_endp s) (z_open s) (z_file s) (z_counted s) (z_warnings s) (z_short s) (z_lost s) (z_oldest s).
Definition goto_next (s : zstate) (v : Z) (p : zpc) : zstate :=
  mk_z (with_next (z_core s) v) p (z_wp s) (z_endp s) (z_open s) (z_file s) (z_counted s) (z_warnings s) (z_short s) (z_lost s) (z_oldest s).
Definition goto_wp (s : zstate) (w : Z) (p : zpc) : zstate :=
  mk_z (z_core s) p (Some w) (z_endp s) (z_open s) (z_file s) (z_counted s) (z_warnings s) (z_short s) (z_lost s) (z_oldest s).
Definition zcrash (s : zstate) : zstate :=
  mk_z (crash (z_core s)) (z_pc s) (z_wp s) (z_endp s) (z_open s) (z_file s) (z_counted s) (z_warnings s) (z_short s) (z_lost s) (z_oldest s).

(** end_of_buffer(), line 78. *)
Definition end_of_buffer (s : zstate) : Z := addr0 + r_size (s_ring (z_core s)) * P.

(** The byte at an address inside the buffer. *)
Definition byte_at (s : zstate) (a : Z) : option (E * Z) :=
  match s_mem (z_core s) ((a - addr0) / P) with Some e => Some (e, (a - addr0) mod P) | None => None end.

(** ::write(fd, a, len) returning [ret]: "failed_write |= !::write(...)" is true only for 0; -1 counts as success.
    What is copied: all of it, or less, or nothing when the descriptor is closed (the call then returns -1). *)
Definition zwrite (s : zstate) (a len ret : Z) (p : Z -> zpc) : zstate :=
  let ret' := if z_open s then ret else -1 in
  let m := Z.min (Z.max ret' 0) len in
  mk_z (z_core s) (p m) (z_wp s) (z_endp s) (z_open s) (z_file s)
       (if ret' =? 0 then z_counted s else z_counted s + len) (if ret' =? 0 then z_warnings s + 1 else z_warnings s)
       (z_short s || (z_open s && negb (m =? len))) (z_lost s) (z_oldest s).

(** Start of the frame that contains an address, lines 166 and 175. *)
Definition frame_start (a : Z) : Z := addr0 + (a - addr0) / P * P.

Definition zrec_step (expired : bool) (ret : Z) (s : zstate) : option zstate :=
  let c := z_core s in
  let eob := end_of_buffer s in
  match z_pc s with
  | ZIdle => None
  | ZTop => if expired then Some (goto s ZFinal)                                         (* 82 *)
            else if negb (s_requested c) || (s_next c =? 0) then Some (goto s ZWait) else Some s    (* 83 *)
  | ZWait => if mutex_free c && negb (s_requested c)                                     (* 88-90 *)
             then Some (goto s (if s_next c =? 0 then ZBegin else ZBack)) else None      (* 96 *)
  | ZBegin => let i := it_begin (s_ring c) in                                            (* 97 *)
              if i =? it_end then Some (goto s ZTop) 
              else Some (mk_z c (ZSet i) (z_wp s) (z_endp s) (z_open s) (z_file s) (z_counted s) (z_warnings s) (z_short s)
                              (z_lost s) (if z_open s then s_popped c else z_oldest s))   (* 98-102 *)
  | ZSet i => match s_mem c i with                                                       (* 103 *)
              | Some e => Some (goto_next s (ts e) (ZSkip i))
              | None => Some (zcrash s)
              end
  | ZSkip i =>
      if align =? 0 then Some (zcrash s)                                                 (* 105: division by zero *)
      else if negb ((addr0 + i * P) mod align =? 0) then
        let i' := it_incr (s_ring c) i in                                                (* 106 *)
        if it_good (s_ring c) i' then Some (goto s (ZSkip i'))                           (* 108 *)
        else Some (mk_z (with_next c 0) (ZSkip i') (z_wp s) (z_endp s) (z_open s) (z_file s) (z_counted s)
                        (z_warnings s) (z_short s) true (z_oldest s))                                 (* 112-113: the inner loop goes on *)
      else Some (goto_wp s (addr0 + i * P) ZBack)                                        (* 117 *)
  | ZBack => Some (mk_z c (ZChunk 0) (z_wp s)                                            (* 119: null is 0 *)
                        (match back (s_ring c) with Some i => addr0 + i * P | None => 0 end)
                        (z_open s) (z_file s) (z_counted s) (z_warnings s) (z_short s) (z_lost s) (z_oldest s))
  | ZChunk k =>
      if (k <? 100)%nat then                                                             (* 122 *)
        match z_wp s with
        | None => Some (zcrash s)
        | Some w =>
            if w + chunk <? z_endp s then Some (zwrite s w chunk ret (fun m => ZCopy w m (w + chunk) k))     (* 128-134 *)
            else if z_endp s <? w then                                                   (* 135 *)
              if w + chunk <? eob then Some (zwrite s w chunk ret (fun m => ZCopy w m (w + chunk) k))        (* 136-142 *)
              else Some (zwrite s w (eob - w) ret (fun m => ZCopy w m addr0 k))          (* 143-152 *)
            else Some (goto s (ZAfter k))
        end
      else Some (goto s ZTop)
  | ZCopy a m nx k =>
      if 0 <? m then Some (mk_z c (ZCopy (a + 1) (m - 1) nx k) (z_wp s) (z_endp s) (z_open s)
                                (z_file s ++ [byte_at s a]) (z_counted s) (z_warnings s) (z_short s) (z_lost s) (z_oldest s))
      else Some (goto_wp s (if nx =? eob then addr0 else nx) (ZAfter k))                 (* 155-157 *)
  | ZAfter k =>
      match z_wp s with
      | None => Some (zcrash s)
      | Some w => match s_mem c ((w - addr0) / P) with                                   (* 166 *)
                  | Some e => Some (goto_next s (ts e) (ZChunk (S k)))
                  | None => Some (zcrash s)
                  end
      end
  | ZFinal =>
      match z_wp s with                                                                  (* 174-176 *)
      | None => Some (goto s ZClose)
      | Some w => if frame_start w =? w then Some (goto s ZClose)
                  else Some (zwrite s w (frame_start w + P - w) ret (fun m => ZCopyLast w m))
      end
  | ZCopyLast a m =>
      if 0 <? m then Some (mk_z c (ZCopyLast (a + 1) (m - 1)) (z_wp s) (z_endp s) (z_open s)
                                (z_file s ++ [byte_at s a]) (z_counted s) (z_warnings s) (z_short s) (z_lost s) (z_oldest s))
      else Some (goto s ZClose)
  | ZClose => Some (mk_z (with_next c max_u64) ZIdle (z_wp s) (z_endp s) false (z_file s) (z_counted s)     (* 185-190 *)
                         (z_warnings s) (z_short s) (z_lost s) (z_oldest s))
  end.

Definition zstep (s : zstate) (a : zaction) : option zstate :=
  if s_crashed (z_core s) then None else
  let lift o := match o with
                | Some c => Some (mk_z c (z_pc s) (z_wp s) (z_endp s) (z_open s) (z_file s) (z_counted s) (z_warnings s)
                                       (z_short s) (z_lost s) (z_oldest s))
                | None => None
                end in
  match a with
  | ZWrite x => lift (astep ts (fun _ => 0) limit quota (z_core s) (AWrite x))
  | ZClean => lift (clean_step ts limit quota (z_core s))
  | ZStart => match z_pc s with                                                          (* 61-80 *)
              | ZIdle => Some (mk_z (with_next (z_core s) 0) ZTop None 0 (z_open s) (z_file s) 0 (z_warnings s) (z_short s) (z_lost s) (z_oldest s))
              | _ => None
              end
  | ZRec expired ret => zrec_step expired ret s
  end.

Fixpoint zrun (s : zstate) (acts : list zaction) : option zstate :=
  match acts with
  | [] => Some s
  | a :: acts' => match zstep s a with Some s' => zrun s' acts' | None => None end
  end.
End Zcopy.
