(** Model of a data request on the skip-list buffer served while data keep arriving: one step per access
    of the request thread to the list.
    /repo/include/readout/models/DefaultRequestHandlerModel.hpp (data_request),
    SkipListLatencyBufferModel.hpp

    Elements arrive in any order of timestamps. Clean-ups are excluded while a request runs (C12), so no
    element is removed. Simplified: every access sees the list as it is at that moment (the operations of
    folly::ConcurrentSkipList are taken as atomic, its size is the number of elements). *)
From Coq Require Import ZArith List Bool.
From Verif Require Import Base_model SkipList_model Elem_model Request_model.
Import ListNotations.
Open Scope Z_scope.

(** The consumer stores elements (ReadoutModel.hpp, line 242; SkipListLatencyBufferModel.hpp, lines 96-105). *)
Definition l_arrive (xs : list elem) (l : list elem) : list elem :=
  fold_left (fun l x => fst (sl_write e_ts x l)) xs l.

(** One access: the arrivals since the last one, then the list as it is; afterwards what is to come. *)
Definition l_look (xss : list (list elem)) (l : list elem) : list elem * list (list elem) :=
  match xss with [] => (l, []) | xs :: rest => (l_arrive xs l, rest) end.

Section Request.
Variable dnf : Z.
Variable lk : link.
Variable tick : Z.

(** The extraction loop, DefaultRequestHandlerModel.hpp lines 546-568. good() and the dereference
    (SkipListLatencyBufferModel.hpp, lines 57, 68) concern the iterator's own node; ++ (lines 59-63) goes to
    the next node of the list as it is then. [Crash] also stands for "not finished within the fuel". *)
Fixpoint l_extract (fuel : nat) (xss : list (list elem)) (l : list elem) (it b e_w : Z) : res (list Z) :=
  match fuel with
  | O => Crash
  | S fuel' =>
    if sl_good it then
      do e <- sl_deref e_ts l it;
      if e_ts e <? e_w then
        let (l', xss') := l_look xss l in
        do rest <- l_extract fuel' xss' l' (sl_incr e_ts l' it) b e_w;
        Ok (element_bytes tick e b e_w ++ rest)
      else Ok []
    else Ok []
  end.

(** data_request, lines 504-623, with the accesses in program order. *)
Definition l_request (running : bool) (xss : list (list elem)) (l : list elem) (dr : request) (st : stats)
  : res (code * option fragment * stats) :=
  let h := create_fragment_header lk dr in
  let (l0, xss) := l_look xss l in                           (* occupancy(), line 514 *)
  if negb (sl_occupancy l0 =? 0) then
    let (l1, xss) := l_look xss l0 in                        (* front(), line 516 *)
    let (l2, xss) := l_look xss l1 in                        (* back(), line 517 *)
    match sl_front l1, sl_back l2 with
    | Some f, Some bk =>
      let last_ts := e_ts f in                               (* line 518 *)
      let newest_ts := e_ts bk in                            (* line 519 *)
      let not_yet :=
        let st' := mk_stats (st_found st) (st_bad st) (st_old st) (st_delayed st + 1) (st_uncategorized st) in
        if running then Ok (kNotYet, None, st')
        else Ok (kNotFound, Some (mk_fragment (set_dnf dnf h) []),
                 mk_stats (st_found st') (st_bad st' + 1) (st_old st') (st_delayed st') (st_uncategorized st')) in
      if (last_ts <=? rq_begin dr) && (rq_end dr <=? newest_ts) then
        let (l3, xss) := l_look xss l2 in                    (* lower_bound, lines 534-535 *)
        let it := sl_lower_bound e_ts l3 (rq_begin dr) in
        if it =? sl_end then not_yet                         (* lines 536-539 *)
        else
          (* the loop is bounded by the elements that will ever be there *)
          do bytes <- l_extract (S (length (l_arrive (concat xss) l3))) xss l3 it (rq_begin dr) (rq_end dr);
          Ok (kFound, Some (mk_fragment h bytes),
              mk_stats (st_found st + 1) (st_bad st) (st_old st) (st_delayed st) (st_uncategorized st))
      else if rq_begin dr <? last_ts then                    (* lines 570-574 *)
        Ok (kNotFound, Some (mk_fragment (set_dnf dnf h) []),
            mk_stats (st_found st) (st_bad st + 1) (st_old st + 1) (st_delayed st) (st_uncategorized st))
      else if newest_ts <? rq_end dr then not_yet            (* lines 575-577 *)
      else                                                   (* lines 578-584 *)
        Ok (kNotFound, Some (mk_fragment (set_dnf dnf h) []),
            mk_stats (st_found st) (st_bad st + 1) (st_old st) (st_delayed st) (st_uncategorized st + 1))
    | _, _ => Crash
    end
  else                                                       (* lines 605-610 *)
    Ok (kNotFound, Some (mk_fragment (set_dnf dnf h) []),
        mk_stats (st_found st) (st_bad st + 1) (st_old st) (st_delayed st) (st_uncategorized st)).

End Request.
