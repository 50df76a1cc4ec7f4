(** Model of the memory management of the latency ring.
    /repo/include/readout/models/IterableQueueModel.hpp: constructors 74-157, free_memory 161-186,
    allocate_memory 188-226, conf 436-461, destructor 159. Blocks are numbered; the heap lists the live
    blocks with the function that allocated them. Element values are in Ring_model.v. *)
From Coq Require Import ZArith List Bool.
From Verif Require Import Base_model.
Import ListNotations.
Open Scope Z_scope.

Inductive allocator : Type := Malloc | AlignedAlloc | MmMalloc | NumaAlloc.

(** readoutconfig::LatencyBufferConf, the fields used at lines 442-446; [cf_ok] tells whether the
    allocation function succeeds (returns non-null). *)
Record alloc_conf : Type := mk_alloc_conf {
  cf_numa : bool; cf_node : Z; cf_intrinsic : bool; cf_align : Z; cf_ok : bool
}.

Definition block : Type := nat.
Definition heap : Type := list (block * allocator).

(** records_ (None: null), numa_aware_, intrinsic_allocator_, whether readIndex_ <> writeIndex_, the heap,
    the next block number, and whether the last conf threw. Sizes do not matter here. *)
Record mem : Type := mk_mem {
  m_records : option block; m_numa : bool; m_intrinsic : bool; m_held : bool;
  m_heap : heap; m_next : block; m_failed : bool
}.

Inductive fault : Type := UseAfterFree | DoubleFree | WrongDeallocator | NullDereference.

Inductive outcome : Type := Fine (m : mem) | Fault (f : fault).

Section Alloc.
(** WITH_LIBNUMA_SUPPORT. *)
Variable libnuma : bool.
(** !std::is_trivially_destructible<T>::value. *)
Variable nontrivial : bool.

Fixpoint lookup (b : block) (h : heap) : option allocator :=
  match h with
  | [] => None
  | (b', k) :: h' => if Nat.eqb b b' then Some k else lookup b h'
  end.

Definition drop (b : block) (h : heap) : heap := filter (fun p => negb (Nat.eqb b (fst p))) h.

(** Deallocation functions: std::free takes blocks of malloc and aligned_alloc, _mm_free those of
    _mm_malloc, numa_free those of numa_alloc_onnode; all accept null. *)
Definition release (accepts : allocator -> bool) (m : mem) : outcome :=
  match m_records m with
  | None => Fine m
  | Some b =>
    match lookup b (m_heap m) with
    | None => Fault DoubleFree
    | Some k => if accepts k
                then Fine (mk_mem (m_records m) (m_numa m) (m_intrinsic m) (m_held m) (drop b (m_heap m)) (m_next m) (m_failed m))
                else Fault WrongDeallocator
    end
  end.

Definition is_malloc (k : allocator) : bool := match k with Malloc | AlignedAlloc => true | _ => false end.
Definition is_mm (k : allocator) : bool := match k with MmMalloc => true | _ => false end.
Definition is_numa (k : allocator) : bool := match k with NumaAlloc => true | _ => false end.

(** Any access to an element of records_. *)
Definition touch (m : mem) : outcome :=
  match m_records m with
  | None => Fault NullDereference
  | Some b => match lookup b (m_heap m) with None => Fault UseAfterFree | Some _ => Fine m end
  end.

(** free_memory, lines 161-186. *)
Definition free_memory (m : mem) : outcome :=
  match (if nontrivial && m_held m then touch m else Fine m) with
  | Fault f => Fault f
  | Fine m =>
    if m_intrinsic m then release is_mm m
    else if m_numa m then (if libnuma then release is_numa m else Fine m)
    else release is_malloc m
  end.

Definition got (k : allocator) (c : alloc_conf) (m : mem) : mem :=
  if cf_ok c
  then mk_mem (Some (m_next m)) (cf_numa c) (cf_intrinsic c) (m_held m) ((m_next m, k) :: m_heap m) (S (m_next m)) (m_failed m)
  else mk_mem None (cf_numa c) (cf_intrinsic c) (m_held m) (m_heap m) (m_next m) (m_failed m).

(** allocate_memory, lines 188-226. None: the exception of line 209 was thrown, nothing was set. *)
Definition allocate_memory (c : alloc_conf) (m : mem) : option mem :=
  if cf_intrinsic c && (0 <? cf_align c) then Some (got MmMalloc c m)
  else if negb (cf_intrinsic c) && (0 <? cf_align c) then Some (got AlignedAlloc c m)
  else if cf_numa c && (0 <=? cf_node c) && (cf_node c <? 8) then
    (if libnuma then Some (got NumaAlloc c m) else None)
  else if negb (cf_numa c) && negb (cf_intrinsic c) && (cf_align c =? 0) then Some (got Malloc c m)
  else Some (mk_mem (m_records m) (cf_numa c) (cf_intrinsic c) (m_held m) (m_heap m) (m_next m) (m_failed m)).

(** conf, lines 436-461. The pre-allocation (lines 455-460) leaves the indices equal. *)
Definition conf_memory (c : alloc_conf) (m : mem) : outcome :=
  match free_memory m with
  | Fault f => Fault f
  | Fine m1 =>
    match allocate_memory c m1 with
    | None => Fine (mk_mem (m_records m1) (m_numa m1) (m_intrinsic m1) (m_held m1) (m_heap m1) (m_next m1) true)
    | Some m2 =>
      let failed := match m_records m2 with None => true | Some _ => false end in
      Fine (mk_mem (m_records m2) (m_numa m2) (m_intrinsic m2) false (m_heap m2) (m_next m2) failed)
    end
  end.

(** A client: reconfigures, and stores and removes elements (any of write, read, pop, lookups touches
    records_) unless the last conf threw. [held] tells whether elements are left afterwards. *)
Inductive mem_op : Type := MConf (c : alloc_conf) | MUse (held : bool).

Definition mem_step (o : mem_op) (m : mem) : outcome :=
  match o with
  | MConf c => conf_memory c m
  | MUse held =>
    if m_failed m then Fine m
    else match touch m with
         | Fault f => Fault f
         | Fine m => Fine (mk_mem (m_records m) (m_numa m) (m_intrinsic m) held (m_heap m) (m_next m) (m_failed m))
         end
  end.

Fixpoint mem_run (ops : list mem_op) (m : mem) : outcome :=
  match ops with
  | [] => Fine m
  | o :: ops' => match mem_step o m with Fault f => Fault f | Fine m' => mem_run ops' m' end
  end.

(** The default constructor, lines 74-85, with a successful malloc. *)
Definition mem_new : mem := mk_mem (Some 0%nat) false false false [(0%nat, Malloc)] 1%nat false.

(** A life: construction, calls, destructor (line 159). *)
Definition life (ops : list mem_op) : outcome :=
  match mem_run ops mem_new with Fault f => Fault f | Fine m => free_memory m end.

End Alloc.
