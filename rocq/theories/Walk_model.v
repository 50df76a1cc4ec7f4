(** Model of the error registry's map while it is read without its lock.
    /repo/include/readout/FrameErrorRegistry.hpp

    The map is modelled down to its nodes. The only name the package ever registers is "MISSING_FRAMES"
    (WIBFrameProcessor.hpp line 303, WIB2FrameProcessor.hpp line 80), so the tree has at most one node,
    below the header. Threads: any number of callers of add_error and remove_errors_until (the consumer and
    the clean-up thread), any number of callers of has_error(name) (the request threads). Each step is one
    access to the tree; the order of steps is arbitrary. Simplified: steps are sequentially consistent;
    the look-ups made by add_error itself under the lock (lines 43, 46, 47) are part of the step that
    changes the tree; the log messages (lines 44, 56) are left out; a block is never used again after it is
    freed, so that every access through an old pointer is seen. *)
From Coq Require Import ZArith List Bool String.
From Verif Require Import Registry_model.
Import ListNotations.
Open Scope Z_scope.

(** The calls that take the lock: add_error (lines 41-48) with the interval, remove_errors_until (50-61). *)
Inductive call : Type := CAdd (iv : interval) | CTrim (ts : Z).

(** A writing thread: idle; before the lock (42, 52); erase (46): unlinking, freeing; insert (47);
    looking at the node (54); erase (55): freeing, after unlinking; leaving (48, 61). *)
Inductive wpc : Type :=
| WIdle
| WWait (c : call)
| WErase (iv : interval)
| WFreeOld (p : nat) (iv : interval)
| WInsert (iv : interval)
| WTrim (ts : Z)
| WFreeTrim (p : nat) (ts : Z)
| WUnlock (c : call).

(** A reading thread: find (line 64) has not begun; it has taken [p] from the header and will look at the node
    [more] more times (its key, its left child, its key again); it has returned. *)
Inductive rpc : Type := RIdle | RAt (p : nat) (more : nat) | RDone (found : bool).

Record walk : Type := mk_walk {
  k_root : option nat;               (* the node below the header of m_errors *)
  k_heap : nat -> option interval;   (* the live nodes *)
  k_next : nat;                      (* the next block *)
  k_lock : option nat;               (* m_error_map_mutex *)
  k_w : nat -> wpc;
  k_r : nat -> rpc;
  k_crashed : bool;                  (* memory of a freed node was accessed *)
  (* history, not part of the program: *)
  k_calls : list call                (* the calls completed so far, in order *)
}.

(** FrameErrorRegistry(), lines 37-39. *)
Definition walk_new : walk :=
  mk_walk None (fun _ => None) 0 None (fun _ => WIdle) (fun _ => RIdle) false [].

Definition put {A : Type} (f : nat -> A) (i : nat) (a : A) : nat -> A := fun j => if Nat.eqb j i then a else f j.

Definition set_w (s : walk) (w : nat) (p : wpc) : walk :=
  mk_walk (k_root s) (k_heap s) (k_next s) (k_lock s) (put (k_w s) w p) (k_r s) (k_crashed s) (k_calls s).
Definition set_r (s : walk) (r : nat) (p : rpc) : walk :=
  mk_walk (k_root s) (k_heap s) (k_next s) (k_lock s) (k_w s) (put (k_r s) r p) (k_crashed s) (k_calls s).
Definition set_root (s : walk) (q : option nat) : walk :=
  mk_walk q (k_heap s) (k_next s) (k_lock s) (k_w s) (k_r s) (k_crashed s) (k_calls s).
Definition free (s : walk) (p : nat) : walk :=
  mk_walk (k_root s) (put (k_heap s) p None) (k_next s) (k_lock s) (k_w s) (k_r s) (k_crashed s) (k_calls s).
Definition crash (s : walk) : walk :=
  mk_walk (k_root s) (k_heap s) (k_next s) (k_lock s) (k_w s) (k_r s) true (k_calls s).

Inductive action : Type :=
| ACall (w : nat) (c : call)         (* thread [w] calls add_error or remove_errors_until *)
| AWrite (w : nat)                   (* one step of that call *)
| ALook (r : nat).                   (* one step of has_error in thread [r]; the first one begins the call *)

(** [None]: the thread is blocked or not in a call. *)
Definition write_step (s : walk) (w : nat) : option walk :=
  match k_w s w with
  | WIdle => None
  | WWait c =>                                                     (* lines 42, 52 *)
      match k_lock s with
      | Some _ => None
      | None =>
        Some (mk_walk (k_root s) (k_heap s) (k_next s) (Some w)
                      (put (k_w s) w (match c with CAdd iv => WErase iv | CTrim ts => WTrim ts end))
                      (k_r s) (k_crashed s) (k_calls s))
      end
  | WErase iv =>                                                   (* line 46 *)
      match k_root s with
      | None => Some (set_w s w (WInsert iv))
      | Some p => Some (set_w (set_root s None) w (WFreeOld p iv))
      end
  | WFreeOld p iv => Some (set_w (free s p) w (WInsert iv))
  | WInsert iv =>                                                  (* line 47 *)
      Some (mk_walk (Some (k_next s)) (put (k_heap s) (k_next s) (Some iv)) (S (k_next s)) (k_lock s)
                    (put (k_w s) w (WUnlock (CAdd iv))) (k_r s) (k_crashed s) (k_calls s))
  | WTrim ts =>                                                    (* lines 53-58 *)
      match k_root s with
      | None => Some (set_w s w (WUnlock (CTrim ts)))
      | Some p =>
        match k_heap s p with
        | None => Some (crash s)
        | Some iv => if iv_end iv <? ts then Some (set_w (set_root s None) w (WFreeTrim p ts))
                     else Some (set_w s w (WUnlock (CTrim ts)))
        end
      end
  | WFreeTrim p ts => Some (set_w (free s p) w (WUnlock (CTrim ts)))   (* line 55 *)
  | WUnlock c =>                                                   (* lines 48, 61 *)
      Some (mk_walk (k_root s) (k_heap s) (k_next s) None (put (k_w s) w WIdle) (k_r s) (k_crashed s)
                    (k_calls s ++ [c]))
  end.

(** has_error(name), lines 63-65: std::map::find takes the root from the header and compares keys. *)
Definition look_step (s : walk) (r : nat) : walk :=
  match k_r s r with
  | RIdle | RDone _ =>
      match k_root s with
      | None => set_r s r (RDone false)
      | Some p => set_r s r (RAt p 3)
      end
  | RAt p more =>
      match k_heap s p with
      | None => crash s
      | Some _ => match more with
                  | S (S k) => set_r s r (RAt p (S k))
                  | _ => set_r s r (RDone true)
                  end
      end
  end.

Definition walk_step (s : walk) (a : action) : option walk :=
  if k_crashed s then None else
  match a with
  | ACall w c => match k_w s w with WIdle => Some (set_w s w (WWait c)) | _ => None end
  | AWrite w => write_step s w
  | ALook r => Some (look_step s r)
  end.

Fixpoint walk_run (s : walk) (acts : list action) : option walk :=
  match acts with
  | [] => Some s
  | a :: acts' => match walk_step s a with Some s' => walk_run s' acts' | None => None end
  end.
