(** Property C20: the error registry. *)
From Coq Require Import ZArith List Bool String.
From Verif Require Import Registry_model Registry_spec Registry_proofs.
Import ListNotations.
Open Scope Z_scope.

(** C20. has_error(name) after any history of additions and trimmings. *)
Theorem C20_has_error :
  forall (ops : list reg_op) (name : string),
    has_error name (reg_run ops) = true <-> exists iv, in_force (rev ops) name iv.
Proof. exact has_error_lemma. Qed.
Print Assumptions C20_has_error.

(** C20. has_error() without name. *)
Theorem C20_has_any_error :
  forall (ops : list reg_op),
    has_any_error (reg_run ops) = true <-> exists name, has_error name (reg_run ops) = true.
Proof. exact any_error_lemma. Qed.
Print Assumptions C20_has_any_error.

(** C20. Effect of one call on every entry: adding replaces the entry of that name only, trimming
    removes exactly the entries that end before its argument. *)
Theorem C20_effect_of_one_call :
  forall (m : registry) (o : reg_op) (name : string) (iv : interval),
    In (name, iv) (reg_step m o) <->
    match o with
    | RAdd n i => (n = name /\ i = iv) \/ (n <> name /\ In (name, iv) m)
    | RTrim ts => ts <= iv_end iv /\ In (name, iv) m
    end.
Proof. exact in_step. Qed.
Print Assumptions C20_effect_of_one_call.

(** C20. At most one interval per name. *)
Theorem C20_one_interval_per_name :
  forall (ops : list reg_op) (name : string) (iv iv' : interval),
    In (name, iv) (reg_run ops) -> In (name, iv') (reg_run ops) -> iv = iv'.
Proof. exact unique_entry. Qed.
Print Assumptions C20_one_interval_per_name.

(** A later gap of the same name survives the trimming that would have removed the first one. *)
Example C20_example :
  let gap a b := RAdd "MISSING_FRAMES" (mk_interval a b) in
  has_error "MISSING_FRAMES" (reg_run [gap 100 200; gap 500 600; RTrim 300]) = true /\
  has_error "MISSING_FRAMES" (reg_run [gap 100 200; RAdd "OTHER" (mk_interval 0 900); RTrim 201]) = false /\
  has_any_error (reg_run [gap 100 200; RAdd "OTHER" (mk_interval 0 900); RTrim 201]) = true /\
  has_error "MISSING_FRAMES" (reg_run [gap 500 600; gap 100 200; RTrim 300]) = false.
Proof. vm_compute. repeat split; reflexivity. Qed.
