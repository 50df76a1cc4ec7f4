(** Model of hit stitching for raw trigger primitive blocks.
    /repo/src/wib/RAWWIBTriggerPrimitiveProcessor.hpp: tp_stitch 61-120, fields 122-142.
    The fields of a hit are those of TpData (/repo/include/readout/RawWIBTp.hpp 120-126). *)
From Coq Require Import ZArith List Bool.
From Verif Require Import Base_model.
Import ListNotations.
Open Scope Z_scope.

(** One hit: m_start_time, m_end_time, m_peak_time, m_peak_adc, m_sum_adc (16 bits each), m_hit_continue (1 bit). *)
Record hit : Type := mk_hit { h_start : Z; h_end : Z; h_peak : Z; h_padc : Z; h_sum : Z; h_cont : bool }.

(** One block (RawWIBTp): get_timestamp(), m_wire_no, m_fiber_no and the first get_nhits() hits. *)
Record block : Type := mk_block { b_ts : Z; b_wire : Z; b_fiber : Z; b_hits : list hit }.

(** triggeralgs::TriggerPrimitive, the fields assigned at lines 72-81 (type and algorithm are constants).
    Times are uint64_t, adc_integral uint32_t, adc_peak uint16_t; the struct is outside /repo. *)
Record prim : Type := mk_prim {
  p_start : Z; p_peak : Z; p_tot : Z; p_channel : Z; p_sum : Z; p_padc : Z; p_detid : Z
}.

(** m_A, m_tps, m_sent_tps (lines 131-138). m_trigprims and m_frames are ints that nothing reads. *)
Record stst : Type := mk_stst { st_a : Z -> list prim; st_tps : list prim; st_sent : Z }.

Definition st_new : stst := mk_stst (fun _ => []) [] 0.

Definition tick : Z := 25.               (* m_time_tick, line 125 *)
Definition stitch_constant : Z := 1600.  (* m_stitch_constant, line 135 *)

(** Lines 71-81. *)
Definition make_prim (b : block) (h : hit) : prim :=
  let start := u64 (b_ts b + h_start h * tick) in
  mk_prim start (u64 (b_ts b + h_peak h * tick)) (u64 (h_end h * tick - start)) (b_wire b) (h_sum h) (h_padc h) (b_fiber b).

(** Lines 84-93: [p] continues [a]. *)
Definition continues (h : hit) (p a : prim) : bool :=
  (h_start h =? 0) && (u64 (p_start p - p_start a) <=? stitch_constant).

Definition merge (p a : prim) : prim :=
  let '(peak, padc) := if p_padc p >? p_padc a then (u64 (p_peak a + p_peak p), p_padc p) else (p_peak a, p_padc a) in
  mk_prim (p_start a) peak (u64 (p_tot a + p_tot p)) (p_channel a) (u32 (p_sum a + p_sum p)) padc (p_detid a).

Definition set_a (c : Z) (l : list prim) (s : stst) : stst :=
  mk_stst (fun c' => if c' =? c then l else st_a s c') (st_tps s) (st_sent s).

Definition store (p : prim) (s : stst) : stst := mk_stst (st_a s) (st_tps s ++ [p]) (u64 (st_sent s + 1)).

Definition count (s : stst) : stst := mk_stst (st_a s) (st_tps s) (u64 (st_sent s + 1)).

(** Loop body, lines 69-118. *)
Definition do_hit (b : block) (s : stst) (h : hit) : stst :=
  let c := b_wire b in
  let p := make_prim b h in
  let s1 := match st_a s c with
            | [a] => if continues h p a then set_a c [merge p a] s else set_a c [] (store a s)
            | _ => s
            end in
  if h_cont h then set_a c (st_a s1 c ++ [p]) s1
  else match st_a s1 c with
       | [a] => set_a c [] (store a s1)
       | _ => count s1
       end.

(** tp_stitch. *)
Definition tp_stitch (s : stst) (b : block) : stst := fold_left (do_hit b) (b_hits b) s.

Definition stitch_all (l : list block) : stst := fold_left tp_stitch l st_new.
