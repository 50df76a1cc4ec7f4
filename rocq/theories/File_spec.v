(** What users of the file writer, reader and recorder rely on (C37, C38, C51). *)
From Coq Require Import String ZArith List Bool.
From Verif Require Import Base_model File_model.
Import ListNotations.
Open Scope Z_scope.

(** Everything handed to write. *)
Fixpoint written (ops : list wop) : list Z :=
  match ops with [] => [] | OWrite bs :: ops' => bs ++ written ops' | OFlush :: ops' => written ops' end.

(** New data over an old file that is not truncated. *)
Definition over (new old : list Z) : list Z := new ++ skipn (length new) old.

(** Every flush happens when a multiple of the block size has been written. *)
Fixpoint flushes_aligned (align n : nat) (ops : list wop) : Prop :=
  match ops with
  | [] => True
  | OWrite bs :: ops' => flushes_aligned align (n + length bs) ops'
  | OFlush :: ops' => (n mod align = 0)%nat /\ flushes_aligned align n ops'
  end.

(** O_DIRECT can be served: buffer of whole blocks, flushes at block boundaries. *)
Definition direct_ok (d : device) (direct : bool) (size : nat) (ops : list wop) : Prop :=
  direct = true -> (0 < d_align d)%nat /\ (size mod d_align d = 0)%nat /\ flushes_aligned (d_align d) 0 ops.

(** What the k-th read of elements of [size] bytes gives on [bytes]. *)
Definition kth_read (size : nat) (bytes : list Z) (k : nat) : bool * list Z :=
  let n := (length bytes / size)%nat in
  if (k <? n)%nat then (true, firstn size (skipn (k * size) bytes))
  else if (k =? n)%nat then (false, skipn (n * size) bytes)
  else (false, []).

(** The elements of an event list of the recorder, and its runs as operations on the writer. *)
Fixpoint pops (evs : list rec_event) : list (list Z) :=
  match evs with [] => [] | RPop e :: evs' => e :: pops evs' | RTimeout :: evs' => pops evs' end.
Definition run_ops (evs : list rec_event) : list wop := map OWrite (pops evs) ++ [OFlush].
