(** Model of the SPSC ring [IterableQueueModel] (sequential view: one call at a time).
    /repo/include/readout/models/IterableQueueModel.hpp *)
From Coq Require Import ZArith List Bool.
From Verif Require Import Base_model.
Import ListNotations.
Open Scope Z_scope.

Section Ring.
Context {A : Type}.

(** Fields size_, records_, readIndex_, writeIndex_, overflow_ctr (lines 501, 513-518).
    [r_slots i] is the object living in records_[i]; [None] means no live object.
    Allocation flags are modelled separately in Alloc_model.v. *)
Record ring : Type := mk_ring {
  r_size : Z;
  r_slots : Z -> option A;
  r_read : Z;
  r_write : Z;
  r_overflow : Z
}.

Definition upd (f : Z -> option A) (i : Z) (v : option A) : Z -> option A :=
  fun j => if j =? i then v else f j.

(** Constructors, lines 74-120: empty ring of the given size; size_ is a uint32_t.
    The default constructor (74-85) is [ring_new 2]. *)
Definition ring_new (n : Z) : res ring :=
  if n <? 2 then Crash            (* assert(size >= 2), line 104 *)
  else Ok (mk_ring (u32 n) (fun _ => None) 0 0 0).

(** "nextRecord = cur + 1; if (nextRecord == size_) nextRecord = 0;", lines 233-236, 259-262,
    275-278, 299-302 (unsigned int arithmetic). *)
Definition next_index (n i : Z) : Z :=
  let nx := u32 (i + 1) in if nx =? n then 0 else nx.

(** write, lines 230-248. Constructing over a live object would leak it: modelled as [Crash]. *)
Definition write (x : A) (r : ring) : res (ring * bool) :=
  let nx := next_index (r_size r) (r_write r) in
  if negb (nx =? r_read r) then
    match r_slots r (r_write r) with
    | Some _ => Crash
    | None => Ok (mk_ring (r_size r) (upd (r_slots r) (r_write r) (Some x)) (r_read r) nx (r_overflow r), true)
    end
  else Ok (mk_ring (r_size r) (r_slots r) (r_read r) (r_write r) (i32 (r_overflow r + 1)), false).

(** read, lines 251-267. *)
Definition read (r : ring) : res (ring * option A) :=
  if r_read r =? r_write r then Ok (r, None)
  else match r_slots r (r_read r) with
       | None => Crash
       | Some x => Ok (mk_ring (r_size r) (upd (r_slots r) (r_read r) None)
                               (next_index (r_size r) (r_read r)) (r_write r) (r_overflow r), Some x)
       end.

(** popFront, lines 270-282; the failed assert of line 273 is [Crash]. *)
Definition popFront (r : ring) : res ring :=
  if r_read r =? r_write r then Crash
  else match r_slots r (r_read r) with
       | None => Crash
       | Some _ => Ok (mk_ring (r_size r) (upd (r_slots r) (r_read r) None)
                               (next_index (r_size r) (r_read r)) (r_write r) (r_overflow r))
       end.

(** pop(x), lines 285-290. *)
Fixpoint pop (x : nat) (r : ring) : res ring :=
  match x with
  | O => Ok r
  | S x' => match popFront r with Ok r' => pop x' r' | Crash => Crash end
  end.

(** isEmpty, lines 292-295. *)
Definition isEmpty (r : ring) : bool := r_read r =? r_write r.

(** isFull, lines 297-308. *)
Definition isFull (r : ring) : bool :=
  if negb (next_index (r_size r) (r_write r) =? r_read r) then false else true.

(** occupancy, lines 315-323 (int arithmetic). *)
Definition occupancy (r : ring) : Z :=
  let ret := i32 (r_write r) - i32 (r_read r) in
  if ret <? 0 then i32 (ret + i32 (r_size r)) else ret.

(** get_size, line 326; capacity, line 329. *)
Definition get_size (r : ring) : Z := r_size r.
Definition capacity (r : ring) : Z := r_size r - 1.

(** records_[i] used as a value. *)
Definition deref (r : ring) (i : Z) : res A :=
  match r_slots r i with Some x => Ok x | None => Crash end.

(** front, lines 397-404: null or the index of the pointed-to slot. *)
Definition front (r : ring) : option Z :=
  if r_read r =? r_write r then None else Some (r_read r).

(** back, lines 406-419. *)
Definition back (r : ring) : option Z :=
  if r_write r =? r_read r then None
  else let currentLast := i32 (r_write r) in
       Some (if currentLast =? 0 then i32 (r_size r - 1) else currentLast - 1).

(** flush, line 463. *)
Definition flush (r : ring) : res ring := pop (Z.to_nat (occupancy r)) r.

(** write_, lines 471-497: same text as write. *)
Definition write_ (x : A) (r : ring) : res (ring * bool) := write x r.

(** The pre-allocation loop of conf, lines 455-458. *)
Fixpoint prealloc (k : nat) (dflt : A) (r : ring) : res ring :=
  match k with
  | O => Ok r
  | S k' => match write_ dflt r with Ok (r', _) => prealloc k' dflt r' | Crash => Crash end
  end.

(** conf, lines 436-461, with a successful allocation (allocation itself: Alloc_model.v).
    [dflt] is a default constructed element ("T element;", line 456). overflow_ctr is kept. *)
Definition conf (n : Z) (pre : bool) (dflt : A) (r : ring) : res ring :=
  if n <? 2 then Crash
  else
    let r0 := mk_ring (u32 n) (fun _ => None) 0 0 (r_overflow r) in
    if pre then
      match prealloc (Z.to_nat (r_size r0 - 1)) dflt r0 with
      | Ok r1 => flush r1
      | Crash => Crash
      end
    else Ok r0.

(** Iterator: the state is m_index (a uint32_t), line 384. *)
Definition it_end : Z := max_u32.                       (* end, lines 431-434 *)

(** Iterator::good, lines 370-378. *)
Definition it_good (r : ring) (i : Z) : bool :=
  negb (i =? it_end) &&
  (((r_read r <=? i) && (i <? r_write r)) ||
   ((r_read r <=? i) && (r_write r <? r_read r)) ||
   ((r_write r <? r_read r) && (i <? r_read r) && (i <? r_write r))).

(** Iterator::operator++, lines 346-358. *)
Definition it_incr (r : ring) (i : Z) : Z :=
  let i1 := if it_good r i
            then let j := u32 (i + 1) in if j =? r_size r then 0 else j
            else i in
  if negb (it_good r i1) then it_end else i1.

(** begin, lines 387-395. *)
Definition it_begin (r : ring) : Z :=
  if r_read r =? r_write r then it_end else r_read r.

(** The buffer as a transition system over API calls; [ORead] etc. are the calls a client can make. *)
Inductive op : Type :=
| OWrite (x : A) | ORead | OPop (n : nat) | OFlush | OFront | OBack
| OOccupancy | OIsEmpty | OIsFull | OCapacity | OGetSize | OConf (n : Z) (pre : bool) (dflt : A).

Inductive out : Type :=
| RBool (b : bool) | RElem (x : option A) | RNum (z : Z) | RUnit.

Definition deref_opt (r : ring) (p : option Z) : res (option A) :=
  match p with
  | None => Ok None
  | Some i => match deref r i with Ok x => Ok (Some x) | Crash => Crash end
  end.

Definition step (r : ring) (o : op) : res (ring * out) :=
  match o with
  | OWrite x => do (r', b) <- write x r; Ok (r', RBool b)
  | ORead => do (r', x) <- read r; Ok (r', RElem x)
  | OPop n => do r' <- pop n r; Ok (r', RUnit)
  | OFlush => do r' <- flush r; Ok (r', RUnit)
  | OFront => do x <- deref_opt r (front r); Ok (r, RElem x)
  | OBack => do x <- deref_opt r (back r); Ok (r, RElem x)
  | OOccupancy => Ok (r, RNum (occupancy r))
  | OIsEmpty => Ok (r, RBool (isEmpty r))
  | OIsFull => Ok (r, RBool (isFull r))
  | OCapacity => Ok (r, RNum (capacity r))
  | OGetSize => Ok (r, RNum (get_size r))
  | OConf n pre d => do r' <- conf n pre d r; Ok (r', RUnit)
  end.

(** A run stops at the first crashing call (the process is gone). *)
Fixpoint run (r : ring) (ops : list op) : list (res out) * res ring :=
  match ops with
  | [] => ([], Ok r)
  | o :: ops' =>
    match step r o with
    | Crash => ([Crash], Crash)
    | Ok (r', y) => let (ys, rf) := run r' ops' in (Ok y :: ys, rf)
    end
  end.

End Ring.
Arguments ring : clear implicits.
Arguments op : clear implicits.
Arguments out : clear implicits.
