(** Property C06: the memory of the latency ring. *)
From Coq Require Import ZArith List Bool Lia.
From Verif Require Import Base_model Alloc_model Alloc_spec Alloc_proofs.
Import ListNotations.
Open Scope Z_scope.

(** C06. Any sequence of sound configurations and uses, whichever allocations fail: no fault, the buffer
    backed by a live block unless the last conf threw, and nothing leaked or freed twice at the end. *)
Theorem C06_sound_configurations :
  forall (libnuma nontrivial : bool) (ops : list mem_op), Forall (sound libnuma) (confs ops) ->
  (exists m, mem_run libnuma nontrivial ops mem_new = Fine m /\ backed m) /\ clean (life libnuma nontrivial ops).
Proof. exact c06_sound. Qed.
Print Assumptions C06_sound_configurations.

(** C06. A sound conf throws exactly when the allocation fails, and leaves the buffer empty. *)
Theorem C06_conf_reports_failure :
  forall (libnuma nontrivial : bool) (ops : list mem_op) (c : alloc_conf),
  Forall (sound libnuma) (confs ops) -> sound libnuma c ->
  exists m, mem_run libnuma nontrivial (ops ++ [MConf c]) mem_new = Fine m /\ m_failed m = negb (cf_ok c) /\ m_held m = false.
Proof. exact c06_conf_reports. Qed.
Print Assumptions C06_conf_reports_failure.

(** C06. Every other configuration is unsound: after any sound past, configuring it, storing an element
    (if conf did not throw) and destroying the buffer faults or leaks. *)
Theorem C06_other_configurations_corrupt :
  forall (libnuma nontrivial : bool) (ops : list mem_op) (c : alloc_conf),
  Forall (sound libnuma) (confs ops) -> Forall (fun c => cf_ok c = true) (confs ops) ->
  types_ok c -> cf_ok c = true -> ~ sound libnuma c ->
  ~ clean (life libnuma nontrivial (ops ++ [MConf c; MUse true])).
Proof. exact c06_unsound. Qed.
Print Assumptions C06_other_configurations_corrupt.

Definition numa0 := mk_alloc_conf true 0 false 0 true.
Definition intrinsic64 := mk_alloc_conf false 0 true 64 true.
Definition plain := mk_alloc_conf false 0 false 0 true.
Definition plain_failing := mk_alloc_conf false 0 false 0 false.
Definition intrinsic0 := mk_alloc_conf false 0 true 0 true.
Definition numa_aligned := mk_alloc_conf true 0 false 64 true.

Example C06_sound_example :
  Forall (sound true) [numa0; intrinsic64; plain_failing; plain] /\
  clean (life true true [MConf numa0; MUse true; MConf intrinsic64; MUse true; MConf plain_failing; MUse true; MConf plain; MUse true]).
Proof.
  split.
  - repeat constructor; unfold sound; cbn; intuition lia.
  - vm_compute. eauto.
Qed.

(** The four kinds of damage: NUMA without libnuma throws and later frees twice; the intrinsic allocator
    without alignment keeps using freed memory; NUMA with alignment frees with the wrong function, or
    leaks when built without libnuma. *)
Example C06_unsound_examples :
  life false false [MConf numa0] = Fault DoubleFree /\
  life true false [MConf intrinsic0; MUse true] = Fault UseAfterFree /\
  life true false [MConf numa_aligned; MUse true] = Fault WrongDeallocator /\
  (exists m, life false false [MConf numa_aligned; MUse true] = Fine m /\ m_heap m <> []).
Proof. vm_compute. repeat split; auto. eexists. split; [reflexivity|]. discriminate. Qed.

Example C06_unsound_hypotheses : types_ok intrinsic0 /\ cf_ok intrinsic0 = true /\ ~ sound true intrinsic0 /\ ~ sound false numa0.
Proof. unfold types_ok, sound. cbn. repeat split; try lia; intuition (try lia; try discriminate). Qed.
