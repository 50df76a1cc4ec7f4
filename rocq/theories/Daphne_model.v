(** Model of the clean-up of the DAPHNE skip-list handler: /repo/src/daphne/DAPHNEListRequestHandler.hpp *)
From Coq Require Import ZArith List Bool.
From Verif Require Import Base_model SkipList_model.
Import ListNotations.
Open Scope Z_scope.

Section Daphne.
Context {A : Type}.
Variable ts : A -> Z.                     (* get_first_timestamp(), what operator< compares *)

(** m_max_ts_diff, line 103. *)
Definition max_ts_diff : Z := 10000000.

(** Accessor::remove (folly, by contract): removes the equivalent element; false if there is none. *)
Definition sl_remove (x : A) (l : list A) : list A * bool :=
  (filter (fun y => negb (ts y =? ts x)) l, existsb (fun y => ts y =? ts x) l).

Definition insert_all (xs : list A) (l : list A) : list A := fold_left (fun l x => fst (sl_insert ts x l)) xs l.

(** What a clean-up did: content, the elements removed in order, rounds of the loop. *)
Record cleaned : Type := mk_cleaned { cl_list : list A; cl_removed : list A; cl_rounds : nat }.

(** The loop, lines 78-90. Before each removal another thread may have inserted elements: [ins] gives them per round.
    None: the fuel is used up. Line 87 dereferences a null pointer when the list is empty. *)
Fixpoint daphne_loop (fuel : nat) (ins : list (list A)) (tailts : Z) (head : A) (l : list A) : option (res cleaned) :=
  match fuel with
  | O => None
  | S fuel' =>
      let l0 := insert_all (match ins with [] => [] | xs :: _ => xs end) l in
      let q := sl_remove head l0 in                                            (* 79 *)
      let removed := if snd q then [head] else [] in                           (* 80-84 *)
      match hd_error (fst q) with                                              (* 85 *)
      | None => Some Crash                                                     (* 87 *)
      | Some head' =>
          if u64 (tailts - ts head') >=? max_ts_diff                           (* 88, 78 *)
          then match daphne_loop fuel' (tl ins) tailts head' (fst q) with
               | Some (Ok c) => Some (Ok (mk_cleaned (cl_list c) (removed ++ cl_removed c) (S (cl_rounds c))))
               | o => o
               end
          else Some (Ok (mk_cleaned (fst q) removed 1))
      end
  end.

(** daphne_cleanup_request, lines 59-99: the result and whether m_pop_reqs was incremented (m_pops_count grows by the
    number of removed elements, line 90; m_num_buffer_cleanups always by one, line 98). *)
Definition daphne_cleanup (fuel : nat) (ins : list (list A)) (l : list A) : option (res (cleaned * bool)) :=
  match sl_back l, sl_front l with
  | Some tail, Some head =>
      if u64 (ts tail - ts head) >? max_ts_diff                                (* 75 *)
      then match daphne_loop fuel ins (ts tail) head l with
           | Some (Ok c) => Some (Ok (c, true))
           | Some Crash => Some Crash
           | None => None
           end
      else Some (Ok (mk_cleaned l [] 0, false))
  | _, _ => Some (Ok (mk_cleaned l [] 0, false))
  end.
End Daphne.
