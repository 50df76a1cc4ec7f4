(** Model of the latency ring for every configured size, with the assertions on sizes compiled in or out (NDEBUG), and with the amount of memory
    that is asked for. /repo/include/readout/models/IterableQueueModel.hpp: constructors 74-157, allocate_memory 188-226, conf 436-461.
    The configured size is a u8 (readoutconfig.jsonnet 16-17), the size_ of the ring a uint32_t (513). Left out: reconfiguration, preallocation (Ring_model.v)
    and which allocator is used (Alloc_model.v); the allocation is taken to succeed. *)
From Coq Require Import ZArith List Bool.
From Verif Require Import Base_model Ring_model.
Import ListNotations.
Open Scope Z_scope.

Section Size.
Context {A : Type}.

(** The ring of Ring_model.v and the number of whole elements for which there is memory behind records_. *)
Record sized : Type := mk_sized { z_ring : ring A; z_cells : Z }.

(** sizeof(T) * size, lines 98, 198, 202, 206, 214 (size_t arithmetic). *)
Definition cells (element n : Z) : Z := u64 (element * n) / element.

(** A new or newly configured ring of size [n]: lines 92-107 or 439-452. "assert(size >= 2)" (104, 139, 194, 439) ends the process if assertions are on;
    size_(size), line 97, and size_ = size, line 221, drop the upper half of the number. *)
Definition size_new (asserts : bool) (element n : Z) : res sized :=
  if asserts && (n <? 2) then Crash else Ok (mk_sized (mk_ring (u32 n) (fun _ => None) 0 0 0) (cells element n)).

(** write, lines 230-248: the element is constructed in records_[writeIndex_], wherever that is. Outside the memory is [Crash]. *)
Definition size_write (x : A) (s : sized) : res (sized * bool) :=
  match write x (z_ring s) with
  | Crash => Crash
  | Ok (r, false) => Ok (mk_sized r (z_cells s), false)
  | Ok (r, true) => if r_write (z_ring s) <? z_cells s then Ok (mk_sized r (z_cells s), true) else Crash
  end.

Inductive size_op : Type := SWrite (x : A) | SRead | SPop (k : nat) | SIsEmpty | SIsFull.
Inductive size_out : Type := SBool (b : bool) | SElem (x : option A) | SUnit.

(** write 230-248, read 251-267, pop 285-290 (popping more than there is, line 273, is [Crash]: without assertions an element that does not exist is
    destroyed), isEmpty 292-295, isFull 297-308. *)
Definition size_step (s : sized) (o : size_op) : res (sized * size_out) :=
  match o with
  | SWrite x => do (s', b) <- size_write x s; Ok (s', SBool b)
  | SRead => do (r, x) <- read (z_ring s); Ok (mk_sized r (z_cells s), SElem x)
  | SPop k => do r <- pop k (z_ring s); Ok (mk_sized r (z_cells s), SUnit)
  | SIsEmpty => Ok (s, SBool (isEmpty (z_ring s)))
  | SIsFull => Ok (s, SBool (isFull (z_ring s)))
  end.

(** A history of calls. *)
Fixpoint size_run (s : sized) (ops : list size_op) : res (sized * list size_out) :=
  match ops with
  | [] => Ok (s, [])
  | o :: ops' => do (s1, y) <- size_step s o; do (s2, ys) <- size_run s1 ops'; Ok (s2, y :: ys)
  end.

End Size.
Arguments sized A : clear implicits.
Arguments size_op A : clear implicits.
Arguments size_out A : clear implicits.
