(** Model of the pointers that the skip-list buffer hands out: the newest element looked at by the thread that checks
    the waiting requests, while the consumer stores elements and a clean-up removes them; nothing keeps these apart.
    /repo/include/readout/models/SkipListLatencyBufferModel.hpp (write, back, pop, Iterator),
    DefaultRequestHandlerModel.hpp (check_waiting_requests, lines 446-448, cleanup, lines 415-438),
    /repo/src/daphne/DAPHNEListRequestHandler.hpp (daphne_cleanup_request, lines 59-99)

    folly::ConcurrentSkipList (external) is modelled by its documented contract: a removed node is kept until no
    accessor of the list is open, and destroyed when the last one is closed. Simplified: each operation of the list is
    one step. *)
From Coq Require Import ZArith List Bool.
From Verif Require Import Base_model SkipList_model.
Import ListNotations.
Open Scope Z_scope.

(** A node of the list: the timestamp of its element and a number of its own (its address). *)
Record node : Type := mk_node { nd_ts : Z; nd_id : nat }.

(** m_max_ts_diff, DAPHNEListRequestHandler.hpp line 103. *)
Definition max_ts_diff : Z := 10000000.

(** What the looking thread is doing: nothing; an accessor opened; the pointer obtained and the accessor still open;
    holding the pointer alone. *)
Inductive looker : Type := KIdle | KOpen | KHas (p : option node) | KBare (p : option node).

(** What it reads: the timestamp; that there is no element; memory that was freed. *)
Inductive seen : Type := Newest (t : Z) | NoElement | Freed.

(** daphne_cleanup_request: not running; accessor opened (line 66); tail read (line 67); head and difference found
    worth a removal; head removed; finished; head was null after a removal (dereferenced in line 89). *)
Inductive cleaner : Type :=
| CIdle | COpen | CTail (t : node) | CHead (t h : node) | CAgain (t : node) | CEnd | CNull.

Record lend : Type := mk_lend {
  n_list : list node;                       (* m_skip_list, in increasing order *)
  n_waste : list node;                      (* removed, not yet destroyed (folly's recycler) *)
  n_users : nat;                            (* accessors open in the consumer, in pop and in the requests *)
  n_clean : cleaner;
  n_look : looker;
  n_now : nat;                              (* the number the next node gets *)
  n_out : list seen                         (* what the looks gave, latest first *)
}.

Inductive act : Type :=
| AOpen | AClose | AInsert (t : Z) | APop
| AStart | ATail | AHead | ARemove | AAgain | AFin
| LOpen | LLast | LClose | LRead.

Section Lend.
(** The link stores photon-detector data, whose clean-up is daphne_cleanup_request (CreateReadout.hpp, lines 98-107);
    otherwise the clean-up is that of the default request handler, which calls pop (PACMANListRequestHandler.hpp,
    lines 37-57). *)
Variable pds : bool.
(** The pointer is used while its accessor is open: so does the iterator (SkipListLatencyBufferModel.hpp, lines 44-73,
    which carries its accessor); back(), lines 159-163, closes the accessor when it returns. *)
Variable keep : bool.

(** The accessors open. *)
Definition open_now (s : lend) : nat :=
  (n_users s + match n_clean s with CIdle => 0 | _ => 1 end
   + match n_look s with KOpen | KHas _ => 1 | _ => 0 end)%nat.

(** After an accessor was closed (folly: NodeRecycler::releaseRef): the last one destroys the removed nodes. *)
Definition closed (s : lend) : lend :=
  match open_now s with
  | O => mk_lend (n_list s) [] (n_users s) (n_clean s) (n_look s) (n_now s) (n_out s)
  | _ => s
  end.

Definition set_clean (c : cleaner) (s : lend) : lend :=
  mk_lend (n_list s) (n_waste s) (n_users s) c (n_look s) (n_now s) (n_out s).
Definition set_look (k : looker) (s : lend) : lend :=
  mk_lend (n_list s) (n_waste s) (n_users s) (n_clean s) k (n_now s) (n_out s).
Definition set_users (u : nat) (s : lend) : lend :=
  mk_lend (n_list s) (n_waste s) u (n_clean s) (n_look s) (n_now s) (n_out s).

(** insert (write, lines 96-105): a new node unless an equivalent element is stored. *)
Definition insert (t : Z) (s : lend) : lend :=
  mk_lend (fst (sl_write nd_ts (mk_node t (n_now s)) (n_list s))) (n_waste s) (n_users s) (n_clean s) (n_look s)
          (S (n_now s)) (n_out s).

(** remove (folly): the node with this timestamp goes to the removed ones. *)
Definition remove (t : Z) (s : lend) : lend :=
  mk_lend (filter (fun y => negb (nd_ts y =? t)) (n_list s)) (filter (fun y => nd_ts y =? t) (n_list s) ++ n_waste s)
          (n_users s) (n_clean s) (n_look s) (n_now s) (n_out s).

(** last_frame == nullptr ? ... : last_frame->get_first_timestamp(), DefaultRequestHandlerModel.hpp lines 447-448. *)
Definition read_node (s : lend) (p : option node) : seen :=
  match p with
  | None => NoElement
  | Some nd => match find (fun y => Nat.eqb (nd_id y) (nd_id nd)) (n_list s ++ n_waste s) with
               | Some y => Newest (nd_ts y)
               | None => Freed
               end
  end.

Definition step (s : lend) (a : act) : option lend :=
  match a with
  | AOpen => Some (set_users (S (n_users s)) s)
  | AClose => match n_users s with O => None | S u => Some (closed (set_users u s)) end
  | AInsert t => match n_users s with O => None | S _ => Some (insert t s) end
  | APop =>                                            (* pop_back(), SkipListLatencyBufferModel.hpp line 170 *)
    match n_users s with
    | O => None
    | S _ => if pds then None
             else Some (match sl_back (n_list s) with Some y => remove (nd_ts y) s | None => s end)
    end
  | AStart => match n_clean s with CIdle => if pds then Some (set_clean COpen s) else None | _ => None end
  | ATail => match n_clean s with                      (* DAPHNEListRequestHandler.hpp lines 67, 69, 94-96 *)
             | COpen => Some (set_clean match sl_back (n_list s) with Some t => CTail t | None => CEnd end s)
             | _ => None
             end
  | AHead => match n_clean s with                      (* lines 68-80 *)
             | CTail t =>
               Some (set_clean match sl_front (n_list s) with
                               | Some h => if max_ts_diff <? u64 (nd_ts t - nd_ts h) then CHead t h else CEnd
                               | None => CEnd
                               end s)
             | _ => None
             end
  | ARemove => match n_clean s with                    (* line 81 *)
               | CHead t h => Some (set_clean (CAgain t) (remove (nd_ts h) s))
               | _ => None
               end
  | AAgain => match n_clean s with                     (* lines 87-90, 80 *)
              | CAgain t =>
                Some (set_clean match sl_front (n_list s) with
                                | Some h => if max_ts_diff <=? u64 (nd_ts t - nd_ts h) then CHead t h else CEnd
                                | None => CNull
                                end s)
              | _ => None
              end
  | AFin => match n_clean s with CEnd => Some (closed (set_clean CIdle s)) | _ => None end
  | LOpen => match n_look s with KIdle => Some (set_look KOpen s) | _ => None end
  | LLast => match n_look s with KOpen => Some (set_look (KHas (sl_back (n_list s))) s) | _ => None end
  | LClose => match n_look s with
              | KHas p => Some (closed (set_look (if keep then KIdle else KBare p) s))
              | _ => None
              end
  | LRead =>
    let s' := fun k p => mk_lend (n_list s) (n_waste s) (n_users s) (n_clean s) k (n_now s) (read_node s p :: n_out s) in
    match n_look s with
    | KHas p => if keep then Some (s' (KHas p) p) else None
    | KBare p => if keep then None else Some (s' KIdle p)
    | _ => None
    end
  end.

Fixpoint lend_run (s : lend) (acts : list act) : option lend :=
  match acts with
  | [] => Some s
  | a :: acts' => match step s a with Some s' => lend_run s' acts' | None => None end
  end.

(** conf, lines 75-79: an empty list. *)
Definition lend0 : lend := mk_lend [] [] 0 CIdle KIdle 0 [].

End Lend.
