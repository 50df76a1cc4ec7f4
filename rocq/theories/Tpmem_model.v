(** The memory of raw trigger primitives, from the file to the latency buffer: every frame is a heap object of its own, handed on by
    std::unique_ptr. /repo/src/wib/TPEmulatorModel.hpp (run_produce 198-252, unpack_tpframe_version_2 136-150, _1 151-196; the bytes are
    Rawtp_model.v), the source queue, /repo/include/readout/models/ReadoutModel.hpp run_consume 228-256 and stop 173,
    /repo/include/readout/models/IterableQueueModel.hpp (Ring_model.v) and RAW_WIB_TRIGGERPRIMITIVE_STRUCT,
    /repo/include/readout/ReadoutTypes.hpp 431-473. Each call is one step (what an unsynchronised look can do is C79). *)
From Coq Require Import ZArith List Bool.
From Verif Require Import Base_model Bytes_model Ring_model Rawtp_model.
Import ListNotations.
Open Scope Z_scope.

(** A heap object: made by operator new (a RawWIBTp, 40 bytes) or by malloc, alive or not, and its bytes. A pointer is the number of
    the object; numbers are not used again. *)
Record block : Type := mk_block { b_new : bool; b_live : bool; b_bytes : list Z }.
Definition heap : Type := list block.

(** The deleter of the unique_ptr: operator delete. It is called on objects made by malloc too, which the standard does not allow; with
    the default operator new of GNU/Linux it is free(). An object that is not alive is [Crash]. *)
Definition delete (p : nat) (h : heap) : res heap :=
  match nth_error h p with
  | Some (mk_block k true bs) => Ok (firstn p h ++ mk_block k false bs :: skipn (S p) h)
  | _ => Crash
  end.
(** reset() or destruction of a unique_ptr. *)
Definition delete_opt (p : option nat) (h : heap) : res heap := match p with Some p => delete p h | None => Ok h end.
(** Use of the object. *)
Definition load (p : nat) (h : heap) : res (list Z) :=
  match nth_error h p with Some (mk_block _ true bs) => Ok bs | _ => Crash end.
(** "for (it = begin(); it != end(); ++it)" over the buffer, with a use of the frame of each element. *)
Fixpoint look (fuel : nat) (r : ring nat) (i : Z) (h : heap) : res (list (list Z)) :=
  if i =? it_end then Ok []
  else match fuel with
       | O => Crash
       | S fuel' => do p <- deref r i; do b <- load p h; do bs <- look fuel' r (it_incr r i) h; Ok (b :: bs)
       end.
(** Destruction of the source queue. *)
Fixpoint delete_all (l : list nat) (h : heap) : res heap :=
  match l with [] => Ok h | p :: l' => do h' <- delete p h; delete_all l' h' end.

(** m_payload_wrapper.rwtp, the position in the file, the source queue (oldest first), the latency buffer. *)
Record tpmem : Type := mk_tpmem {
  tm_heap : heap; tm_wrapper : option nat; tm_offset : nat; tm_queue : list nat; tm_ring : ring nat
}.

(** What becomes of a pushed payload (TPEmulatorModel.hpp 239-244): in the queue, or timed out and still with the caller, or timed out
    and destroyed by the queue. *)
Inductive push_result : Type := Pushed | TimedOut | TimedOutMoved.

Inductive tm_op : Type :=
| TProduce (r : push_result)                          (* one turn of run_produce *)
| TConsume                                            (* one turn of run_consume *)
| TPop (k : nat)                                      (* a clean-up that removes k elements *)
| TLook                                               (* anything that walks over the stored frames, for instance a recording *)
| TRestart.                                           (* stop and start: the buffer is flushed, the file is read from the start *)

Inductive tm_out : Type :=
| TNone
| TTaken (frame : list Z) (stored : bool)             (* the frame the processor saw, and whether the buffer took it *)
| TSeen (frames : list (list Z)).

Section Tpmem.
(** The file, and what the heap contains when memory is given out. *)
Variable src : list Z.
Variable junk : nat -> nat -> Z.

(** popFront with the destructor of the element, IterableQueueModel.hpp 270-282. *)
Definition drop_front (s : tpmem) : res tpmem :=
  do p <- deref (tm_ring s) (r_read (tm_ring s));
  do h <- delete p (tm_heap s);
  do r <- popFront (tm_ring s);
  Ok (mk_tpmem h (tm_wrapper s) (tm_offset s) (tm_queue s) r).
Fixpoint drop (k : nat) (s : tpmem) : res tpmem :=
  match k with O => Ok s | S k' => do s' <- drop_front s; drop k' s' end.

Definition tm_step (s : tpmem) (o : tm_op) : res (tpmem * tm_out) :=
  match o with
  | TProduce result =>
    (* lines 214-217 *)
    let off := if (tm_offset s =? (length src / 12) * 12)%nat then O else tm_offset s in
    (* line 220: the new object replaces what the wrapper still holds *)
    let h1 := tm_heap s ++ [mk_block true true (malloc (junk (length (tm_heap s))) 40)] in
    do h2 <- delete_opt (tm_wrapper s) h1;
    (* lines 221-237; release() forgets the object of line 220 (lines 143, 186), reset() takes the one of malloc *)
    do (f, off') <- next_frame (junk (length h1)) src off;
    let h3 := h2 ++ [mk_block false true f] in
    let p := length h2 in
    match result with
    | Pushed => Ok (mk_tpmem h3 None off' (tm_queue s ++ [p]) (tm_ring s), TNone)
    | TimedOut => Ok (mk_tpmem h3 (Some p) off' (tm_queue s) (tm_ring s), TNone)
    | TimedOutMoved => do h4 <- delete p h3; Ok (mk_tpmem h4 None off' (tm_queue s) (tm_ring s), TNone)
    end
  | TConsume =>
    match tm_queue s with
    | [] => Ok (s, TNone)
    | p :: q =>
      (* ReadoutModel.hpp 237-246: pop, preprocess (tp_stitch reads the frame), write; a refused payload dies with the variable *)
      do f <- load p (tm_heap s);
      do (r', ok) <- write p (tm_ring s);
      do h' <- (if ok then Ok (tm_heap s) else delete p (tm_heap s));
      Ok (mk_tpmem h' (tm_wrapper s) (tm_offset s) q r', TTaken f ok)
    end
  | TPop k => do s' <- drop k s; Ok (s', TNone)
  | TLook =>
    do fs <- look (Z.to_nat (r_size (tm_ring s))) (tm_ring s) (it_begin (tm_ring s)) (tm_heap s);
    Ok (s, TSeen fs)
  | TRestart =>
    (* ReadoutModel.hpp 173, flush of IterableQueueModel.hpp 463; run_produce begins with offset 0 (line 204) *)
    do s' <- drop (Z.to_nat (occupancy (tm_ring s))) s;
    Ok (mk_tpmem (tm_heap s') (tm_wrapper s') O (tm_queue s') (tm_ring s'), TNone)
  end.

Fixpoint tm_run (s : tpmem) (ops : list tm_op) : res (tpmem * list tm_out) :=
  match ops with
  | [] => Ok (s, [])
  | o :: ops' => do (s', y) <- tm_step s o; do (s'', ys) <- tm_run s' ops'; Ok (s'', y :: ys)
  end.

(** The loop of free_memory, IterableQueueModel.hpp 166-175. *)
Fixpoint free_elements (fuel : nat) (r : ring nat) (i : Z) (h : heap) : res heap :=
  match fuel with
  | O => Crash
  | S fuel' => if i =? r_write r then Ok h
               else do p <- deref r i; do h' <- delete p h; free_elements fuel' r (if i + 1 =? r_size r then 0 else i + 1) h'
  end.

(** Destruction of emulator, queue and buffer. *)
Definition tm_destroy (s : tpmem) : res heap :=
  do h1 <- delete_opt (tm_wrapper s) (tm_heap s);
  do h2 <- delete_all (tm_queue s) h1;
  free_elements (S (Z.to_nat (r_size (tm_ring s)))) (tm_ring s) (r_read (tm_ring s)) h2.
End Tpmem.

(** Before anything was produced. *)
Definition tm_new (n : Z) : res tpmem := do r <- ring_new n; Ok (mk_tpmem [] None O [] r).
