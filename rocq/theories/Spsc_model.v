(** Model of one producer thread and one consumer thread sharing the ring, one step per shared
    memory access. /repo/include/readout/models/IterableQueueModel.hpp

    The two indices are C++ atomics accessed with acquire loads and release stores. Each index has
    its modification order (the list of values ever stored); a load by the other thread may return
    any value of that order that is not older than the one this thread saw before (read coherence).
    The slots are ordinary memory; they are accessed in the global order of the steps, which is
    what the release/acquire pairs guarantee provided no two accesses race - races show up as [s_bad]. *)
From Coq Require Import ZArith List Bool.
From Verif Require Import Base_model Ring_model.
Import ListNotations.
Open Scope Z_scope.

Section Spsc.
Context {A : Type}.

(** Producer program counter, one constructor per point between two shared accesses of write(),
    lines 230-248. *)
Inductive ppc : Type :=
| PIdle
| PLoadRead (x : A) (w nx : Z)       (* writeIndex_ loaded (232), next computed (233-236) *)
| PConstruct (x : A) (w nx : Z)      (* readIndex_ loaded and differs (238) *)
| PPublish (x : A) (nx : Z).         (* object constructed (239), index not yet stored (240) *)

(** Consumer program counter for read() (251-267), popFront() (270-282), front() (397-404). *)
Inductive ccall : Type := KRead | KPopFront | KFront.
Inductive cpc : Type :=
| CIdle
| CLoadWrite (k : ccall) (i : Z)     (* readIndex_ loaded (253, 272, 399) *)
| CAccess (k : ccall) (i : Z)        (* writeIndex_ loaded and differs (254, 273, 400) *)
| CDestroy (k : ccall) (i : Z) (x : A)    (* value moved out (263) *)
| CAdvance (k : ccall) (i : Z) (x : A).   (* object destroyed (264, 280); index not yet stored (265, 281) *)

Record spsc : Type := mk_spsc {
  s_ring : ring A;                    (* the current values; indices = last of the orders below *)
  s_rmo : list Z;                     (* modification order of readIndex_ *)
  s_wmo : list Z;                     (* modification order of writeIndex_ *)
  s_seen_r : nat;                     (* position in s_rmo last seen by the producer *)
  s_seen_w : nat;                     (* position in s_wmo last seen by the consumer *)
  s_p : ppc;
  s_c : cpc;
  s_log : list (op A * out A);        (* calls and answers, in the order the calls return *)
  s_bad : bool;                       (* access to a dead slot / construction over a live object *)
  s_assert : bool                     (* assert of popFront (273) failed *)
}.

Definition spsc_init (r : ring A) : spsc :=
  mk_spsc r [r_read r] [r_write r] 0 0 PIdle CIdle [] false false.

(** Scheduler choices: start a call on an idle thread, or let a thread do its next access. The
    number selects the position in the other thread's modification order a load returns. *)
Inductive sched : Type :=
| GoProducer (j : nat)
| GoConsumer (j : nat)
| CallWrite (x : A)
| CallConsumer (k : ccall)
| CallOccupancy (j : nat).   (* consumer-side occupancy(), lines 315-323: its own index cannot
                                change between the two loads, so both loads are one step *)

Definition pick (seen j : nat) (mo : list Z) : nat := Nat.max seen (Nat.min j (length mo - 1)).

Definition set_slots (r : ring A) (f : Z -> option A) := mk_ring (r_size r) f (r_read r) (r_write r) (r_overflow r).
Definition set_read (r : ring A) i := mk_ring (r_size r) (r_slots r) i (r_write r) (r_overflow r).
Definition set_write (r : ring A) i := mk_ring (r_size r) (r_slots r) (r_read r) i (r_overflow r).
Definition set_overflow (r : ring A) i := mk_ring (r_size r) (r_slots r) (r_read r) (r_write r) i.

Definition set_bad (s : spsc) : spsc :=
  mk_spsc (s_ring s) (s_rmo s) (s_wmo s) (s_seen_r s) (s_seen_w s) (s_p s) (s_c s) (s_log s) true (s_assert s).
Definition set_assert (s : spsc) : spsc :=
  mk_spsc (s_ring s) (s_rmo s) (s_wmo s) (s_seen_r s) (s_seen_w s) (s_p s) (s_c s) (s_log s) (s_bad s) true.
(** Update of the producer side: ring, program counter, log. *)
Definition set_p (s : spsc) r p lg : spsc :=
  mk_spsc r (s_rmo s) (s_wmo s) (s_seen_r s) (s_seen_w s) p (s_c s) lg (s_bad s) (s_assert s).
Definition set_c (s : spsc) r c lg : spsc :=
  mk_spsc r (s_rmo s) (s_wmo s) (s_seen_r s) (s_seen_w s) (s_p s) c lg (s_bad s) (s_assert s).
Definition see_r (s : spsc) p : spsc :=
  mk_spsc (s_ring s) (s_rmo s) (s_wmo s) p (s_seen_w s) (s_p s) (s_c s) (s_log s) (s_bad s) (s_assert s).
Definition see_w (s : spsc) p : spsc :=
  mk_spsc (s_ring s) (s_rmo s) (s_wmo s) (s_seen_r s) p (s_p s) (s_c s) (s_log s) (s_bad s) (s_assert s).
Definition store_r (s : spsc) i : spsc :=
  mk_spsc (set_read (s_ring s) i) (s_rmo s ++ [i]) (s_wmo s) (s_seen_r s) (s_seen_w s) (s_p s) (s_c s) (s_log s) (s_bad s) (s_assert s).
Definition store_w (s : spsc) i : spsc :=
  mk_spsc (set_write (s_ring s) i) (s_rmo s) (s_wmo s ++ [i]) (s_seen_r s) (s_seen_w s) (s_p s) (s_c s) (s_log s) (s_bad s) (s_assert s).

(** Next access of the producer. *)
Definition producer_step (j : nat) (s : spsc) : spsc :=
  match s_p s with
  | PIdle => s
  | PLoadRead x w nx =>                                             (* line 238 *)
    let p := pick (s_seen_r s) j (s_rmo s) in
    let s := see_r s p in
    let r := s_ring s in
    if negb (nx =? nth p (s_rmo s) 0)
    then set_p s r (PConstruct x w nx) (s_log s)
    else set_p s (set_overflow r (i32 (r_overflow r + 1))) PIdle    (* lines 245-247 *)
               (s_log s ++ [(OWrite x, RBool false)])
  | PConstruct x w nx =>                                            (* line 239 *)
    let r := s_ring s in
    match r_slots r w with
    | Some _ => set_bad s
    | None => set_p s (set_slots r (upd (r_slots r) w (Some x))) (PPublish x nx) (s_log s)
    end
  | PPublish x nx =>                                                (* lines 240-241 *)
    let s := store_w s nx in
    set_p s (s_ring s) PIdle (s_log s ++ [(OWrite x, RBool true)])
  end.

(** Answer of a consumer call that finds the queue empty; popFront asserts (273). *)
Definition empty_log (k : ccall) : option (op A * out A) :=
  match k with
  | KRead => Some (ORead, RElem None)
  | KFront => Some (OFront, RElem None)
  | KPopFront => None
  end.

(** Next access of the consumer. *)
Definition consumer_step (j : nat) (s : spsc) : spsc :=
  match s_c s with
  | CIdle => s
  | CLoadWrite k i =>                                               (* lines 254, 273, 400 *)
    let p := pick (s_seen_w s) j (s_wmo s) in
    let s := see_w s p in
    let r := s_ring s in
    if i =? nth p (s_wmo s) 0 then
      match empty_log k with
      | Some e => set_c s r CIdle (s_log s ++ [e])
      | None => set_assert s
      end
    else set_c s r (CAccess k i) (s_log s)
  | CAccess k i =>                                                  (* lines 263, 280, 403 *)
    let r := s_ring s in
    match r_slots r i with
    | None => set_bad s
    | Some x =>
      match k with
      | KFront => set_c s r CIdle (s_log s ++ [(OFront, RElem (Some x))])
      | _ => set_c s r (CDestroy k i x) (s_log s)
      end
    end
  | CDestroy k i x =>                                               (* lines 264, 280 *)
    let r := s_ring s in
    match r_slots r i with
    | None => set_bad s
    | Some _ => set_c s (set_slots r (upd (r_slots r) i None)) (CAdvance k i x) (s_log s)
    end
  | CAdvance k i x =>                                               (* lines 265, 281 *)
    let s := store_r s (next_index (r_size (s_ring s)) i) in
    set_c s (s_ring s) CIdle
          (s_log s ++ [match k with KRead => (ORead, RElem (Some x)) | _ => (OPop 1, RUnit) end])
  end.

Definition sched_step (s : spsc) (e : sched) : spsc :=
  match e with
  | GoProducer j => producer_step j s
  | GoConsumer j => consumer_step j s
  | CallWrite x =>
    match s_p s with
    | PIdle => set_p s (s_ring s)
                 (PLoadRead x (r_write (s_ring s)) (next_index (r_size (s_ring s)) (r_write (s_ring s))))
                 (s_log s)
    | _ => s
    end
  | CallConsumer k =>
    match s_c s with
    | CIdle => set_c s (s_ring s) (CLoadWrite k (r_read (s_ring s))) (s_log s)
    | _ => s
    end
  | CallOccupancy j =>
    match s_c s with
    | CIdle =>
      let p := pick (s_seen_w s) j (s_wmo s) in
      let s := see_w s p in
      set_c s (s_ring s) CIdle
            (s_log s ++ [(OOccupancy, RNum (occupancy (set_write (s_ring s) (nth p (s_wmo s) 0))))])
    | _ => s
    end
  end.

Definition execute (s : spsc) (es : list sched) : spsc := fold_left sched_step es s.

(** A scheduler choice under which every load returns the latest value. *)
Definition latest (s : spsc) (e : sched) : Prop :=
  match e with
  | GoProducer j => (length (s_rmo s) <= j)%nat
  | GoConsumer j | CallOccupancy j => (length (s_wmo s) <= j)%nat
  | _ => True
  end.

Fixpoint all_latest (s : spsc) (es : list sched) : Prop :=
  match es with
  | [] => True
  | e :: es' => latest s e /\ all_latest (sched_step s e) es'
  end.

End Spsc.
Arguments ppc : clear implicits.
Arguments cpc : clear implicits.
Arguments spsc : clear implicits.
Arguments sched : clear implicits.
