(** Model of request extraction and fragment headers.
    /repo/include/readout/models/DefaultRequestHandlerModel.hpp,
    /repo/include/readout/models/EmptyFragmentRequestHandlerModel.hpp *)
From Coq Require Import ZArith List Bool.
From Verif Require Import Base_model Ring_model Search_model Elem_model Lb_model.
Import ListNotations.
Open Scope Z_scope.

(** dfmessages::DataRequest (external), the fields used in lines 365-378. *)
Record request : Type := mk_request {
  rq_trigger_number : Z;
  rq_trigger_timestamp : Z;
  rq_begin : Z;
  rq_end : Z;
  rq_run : Z;
  rq_seq : Z
}.

(** daqdataformats::FragmentHeader (external), the fields set in lines 365-378. The size field is
    left out: the Fragment constructor computes it and set_header_fields does not copy it. *)
Record header : Type := mk_header {
  h_trigger_number : Z;
  h_trigger_timestamp : Z;
  h_begin : Z;
  h_end : Z;
  h_run : Z;
  h_seq : Z;
  h_system : Z; h_region : Z; h_element : Z;
  h_type : Z;
  h_error_bits : Z
}.

Record fragment : Type := mk_fragment { fg_header : header; fg_bytes : list Z }.

(** m_geoid and ReadoutType::fragment_type: identity of the link (conf, lines 110-112). *)
Record link : Type := mk_link { lk_system : Z; lk_region : Z; lk_element : Z; lk_type : Z }.

(** The counters data_request touches (lines 681-685). *)
Record stats : Type := mk_stats {
  st_found : Z; st_bad : Z; st_old : Z; st_delayed : Z; st_uncategorized : Z
}.

Inductive code : Type := kFound | kNotFound | kNotYet.   (* RequestHandlerConcept ResultCode *)

Section Handler.
(** FragmentErrorBits::kDataNotFound (external enumerator): a bit number. *)
Variable dnf : Z.
Variable lk : link.
(** ReadoutType::expected_tick_difference. *)
Variable tick : Z.

(** create_fragment_header, lines 365-378; error_bits of a fresh header is 0. *)
Definition create_fragment_header (dr : request) : header :=
  mk_header (rq_trigger_number dr) (rq_trigger_timestamp dr) (rq_begin dr) (rq_end dr)
            (rq_run dr) (rq_seq dr) (lk_system lk) (lk_region lk) (lk_element lk) (lk_type lk) 0.

(** "frag_header.error_bits |= (0x1 << kDataNotFound)", lines 383, 571, 580, 591, 607. *)
Definition set_dnf (h : header) : header :=
  mk_header (h_trigger_number h) (h_trigger_timestamp h) (h_begin h) (h_end h) (h_run h) (h_seq h)
            (h_system h) (h_region h) (h_element h) (h_type h) (Z.lor (h_error_bits h) (Z.shiftl 1 dnf)).

(** create_empty_fragment, lines 380-387. *)
Definition create_empty_fragment (dr : request) : fragment :=
  mk_fragment (set_dnf (create_fragment_header dr)) [].

(** EmptyFragmentRequestHandlerModel::issue_request, lines 40-62: the fragment it pushes. *)
Definition empty_handler_fragment (dr : request) : fragment :=
  mk_fragment (set_dnf (create_fragment_header dr)) [].

Section Extract.
Context {B : Type}.
Variable L : lb elem B.

(** The pieces taken from one element, lines 548-563. The pointers are turned into bytes when the
    Fragment is built (line 617), before the buffer can change. *)
Definition element_bytes (e : elem) (b e_w : Z) : list Z :=
  if (e_ts e <? b) || (e_w <=? u64 (e_ts e + u64 (u64 (e_num e - 1) * tick)))
  then flat_map f_bytes (filter (fun f => (b <=? f_ts f) && (f_ts f <? e_w)) (e_frames e))
  else e_payload e.

(** The extraction loop, lines 546-568. [Crash] also stands for "not finished within the fuel". *)
Fixpoint extract (fuel : nat) (buf : B) (it b e_w : Z) : res (list Z) :=
  match fuel with
  | O => Crash
  | S fuel' =>
    if lb_good L buf it then
      do e <- lb_deref L buf it;
      if e_ts e <? e_w then
        do rest <- extract fuel' buf (lb_incr L buf it) b e_w;
        Ok (element_bytes e b e_w ++ rest)
      else Ok []
    else Ok []
  end.

(** Outcome of the data availability part, lines 531-584: code, header, bytes, counters. *)
Definition availability (missing : bool) (buf : B) (dr : request) (last_ts newest_ts : Z) (s : stats)
  : res (code * header * list Z * stats) :=
  let h := create_fragment_header dr in
  if (last_ts <=? rq_begin dr) && (rq_end dr <=? newest_ts) then
    match lb_lower_bound L buf (rq_begin dr) missing with
    | SFound it =>
      if it =? lb_end L
      then Ok (kNotYet, h, [], mk_stats (st_found s) (st_bad s) (st_old s) (st_delayed s + 1) (st_uncategorized s))
      else
        do bytes <- extract (S (Z.to_nat (lb_occupancy L buf))) buf it (rq_begin dr) (rq_end dr);
        Ok (kFound, h, bytes, mk_stats (st_found s + 1) (st_bad s) (st_old s) (st_delayed s) (st_uncategorized s))
    | _ => Crash
    end
  else if rq_begin dr <? last_ts then
    Ok (kNotFound, set_dnf h, [], mk_stats (st_found s) (st_bad s + 1) (st_old s + 1) (st_delayed s) (st_uncategorized s))
  else if newest_ts <? rq_end dr then
    Ok (kNotYet, h, [], mk_stats (st_found s) (st_bad s) (st_old s) (st_delayed s + 1) (st_uncategorized s))
  else
    Ok (kNotFound, set_dnf h, [], mk_stats (st_found s) (st_bad s + 1) (st_old s) (st_delayed s) (st_uncategorized s + 1)).

(** data_request, lines 504-623. [running] is m_run_marker; [missing] is
    m_error_registry->has_error("MISSING_FRAMES"). The fragment is absent when kNotYet is returned
    (line 589). One call sees one state of the buffer; see C12 for the exclusion of clean-ups. *)
Definition data_request (running missing : bool) (buf : B) (dr : request) (s : stats)
  : res (code * option fragment * stats) :=
  if negb (lb_occupancy L buf =? 0) then
    do fo <- lb_front L buf;
    do ba <- lb_back L buf;
    match fo, ba with
    | Some f, Some bk =>
      do (c, h, bytes, s') <- availability missing buf dr (e_ts f) (e_ts bk) s;
      match c with
      | kNotYet =>
        if running then Ok (kNotYet, None, s')
        else Ok (kNotFound, Some (mk_fragment (set_dnf h) bytes),
                 mk_stats (st_found s') (st_bad s' + 1) (st_old s') (st_delayed s') (st_uncategorized s'))
      | _ => Ok (c, Some (mk_fragment h bytes), s')
      end
    | _, _ => Crash
    end
  else
    Ok (kNotFound, Some (mk_fragment (set_dnf (create_fragment_header dr)) []),
        mk_stats (st_found s) (st_bad s + 1) (st_old s) (st_delayed s) (st_uncategorized s)).

End Extract.
End Handler.
