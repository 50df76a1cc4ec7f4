(** Specification: which configurations are sound, and what a clean life is. *)
From Coq Require Import ZArith List Bool.
From Verif Require Import Base_model Alloc_model.
Import ListNotations.
Open Scope Z_scope.

(** The sound combinations: the intrinsic allocator with an alignment; an alignment without NUMA; NUMA on
    a node below 8 when built with libnuma; none of the three. *)
Definition sound (libnuma : bool) (c : alloc_conf) : Prop :=
  (cf_intrinsic c = true /\ 0 < cf_align c) \/
  (cf_intrinsic c = false /\ 0 < cf_align c /\ cf_numa c = false) \/
  (cf_intrinsic c = false /\ cf_align c = 0 /\ cf_numa c = true /\ 0 <= cf_node c < 8 /\ libnuma = true) \/
  (cf_intrinsic c = false /\ cf_align c = 0 /\ cf_numa c = false).

Definition confs (ops : list mem_op) : list alloc_conf :=
  flat_map (fun o => match o with MConf c => [c] | MUse _ => [] end) ops.

(** No fault, and nothing left allocated after destruction. *)
Definition clean (o : outcome) : Prop := exists m, o = Fine m /\ m_heap m = [].

(** After a call: no fault, and either the call failed or the buffer has a live block. *)
Definition backed (m : mem) : Prop :=
  m_failed m = false -> exists b k, m_records m = Some b /\ In (b, k) (m_heap m).

Definition types_ok (c : alloc_conf) : Prop := 0 <= cf_align c /\ 0 <= cf_node c < 256.
