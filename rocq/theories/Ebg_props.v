(** Property C34: the error bit generator. *)
From Coq Require Import ZArith List Bool Lia.
From Verif Require Import Base_model Ebg_model Ebg_spec Ebg_proofs.
Import ListNotations.
Open Scope Z_scope.

(** C34. For tables of the declared size with any contents, and any number of calls, no table is accessed outside
    its bounds and the words returned are exactly those of the rounds: quiet phase, error phase, quiet phase, ...
    with the table entries taken cyclically. *)
Theorem C34_words : forall t n, tables_ok t ->
  exists g, gen_words t n gen_new = Ok (firstn n (rounds (eb_bits t) (eb_errs t) (eb_noerrs t) n), g).
Proof. intros t n T. exact (c34_words t T n). Qed.
Print Assumptions C34_words.
Notation ex_tables := (mk_tables 3 [11; 12; 13] [1; 2; 0] [2; 0; 1]).
Example C34_words_ex : tables_ok ex_tables /\
  (do r <- gen_words ex_tables 12 gen_new; Ok (fst r)) = Ok [0; 0; 12; 12; 0; 0; 0; 11; 0; 0; 12; 12].
Proof. split; [unfold tables_ok; cbn; lia|vm_compute; reflexivity]. Qed.

Lemma entry_in l k : l <> [] -> In (entry l k) l.
Proof. intros H. apply nth_In. apply Nat.mod_upper_bound. destruct l; [congruence|discriminate]. Qed.

Lemma in_firstn {A} (x : A) n l : In x (firstn n l) -> In x l.
Proof. intros H. rewrite <- (firstn_skipn n l). apply in_or_app. now left. Qed.

(** C34. Every returned word is zero or an entry of the table of error words. *)
Theorem C34_zero_or_table_entry : forall t n ws g w, tables_ok t -> gen_words t n gen_new = Ok (ws, g) -> In w ws ->
  w = 0 \/ In w (eb_bits t).
Proof.
  intros t n ws g w T E H. destruct (C34_words t n T) as (g' & E'). rewrite E in E'. injection E' as -> _. apply in_firstn in H.
  unfold rounds in H. apply in_concat in H as (r & Hr & Hw). apply in_map_iff in Hr as (k & <- & _). unfold round in Hw.
  assert (Hne : eb_bits t <> []) by (destruct T as (T0 & T1 & _); destruct (eb_bits t); [cbn in T1; lia|discriminate]).
  apply in_app_or in Hw as [Hw|Hw]; apply repeat_spec in Hw; subst w; auto.
  destruct (entry (eb_errs t) (S k) =? 0); auto. right. now apply entry_in.
Qed.
Print Assumptions C34_zero_or_table_entry.
Example C34_zero_or_table_entry_ex : exists ws g, gen_words ex_tables 8 gen_new = Ok (ws, g) /\ In 12 ws /\ In 11 ws.
Proof. eexists _, _. split; [vm_compute; reflexivity|]. cbn. tauto. Qed.

(** C34. With error rate zero (all error lengths zero) every returned word is zero. *)
Theorem C34_rate_zero : forall t n ws g, tables_ok t -> Forall (fun x => x = 0) (eb_errs t) ->
  gen_words t n gen_new = Ok (ws, g) -> ws = repeat 0 n.
Proof.
  intros t n ws g T Z0 E. destruct (C34_words t n T) as (g' & E'). pose proof (words_length t n _ _ E) as L. cbn [fst] in L.
  rewrite E in E'. injection E' as Hw _.
  assert (Hne : eb_errs t <> []) by (destruct T as (T0 & T1 & T2 & _); destruct (eb_errs t); [cbn in T2; lia|discriminate]).
  assert (A : Forall (eq 0) ws).
  { rewrite Hw. apply Forall_forall. intros x Hx. apply in_firstn in Hx. unfold rounds in Hx. apply in_concat in Hx as (r & Hr & Hx).
    apply in_map_iff in Hr as (k & <- & _). unfold round in Hx. rewrite Forall_forall in Z0. rewrite (Z0 (entry (eb_errs t) (S k))) in Hx by now apply entry_in.
    apply in_app_or in Hx as [Hx|Hx]; apply repeat_spec in Hx; auto. }
  rewrite <- L. clear -A. induction A as [|x l <- _ IH]; cbn; [reflexivity|]. now f_equal.
Qed.
Print Assumptions C34_rate_zero.
Example C34_rate_zero_ex : (do r <- gen_words (mk_tables 2 [5; 6] [0; 0] [3; 1]) 9 gen_new; Ok (fst r)) = Ok (repeat 0 9).
Proof. vm_compute. reflexivity. Qed.

(** C34. Whatever the tables (in particular with error rate one, where all quiet lengths are zero), the first word of
    every round is zero. *)
Theorem C34_always_some_zero : forall t k n ws g, tables_ok t -> gen_words t n gen_new = Ok (ws, g) ->
  let start := length (rounds (eb_bits t) (eb_errs t) (eb_noerrs t) k) in
  (start < n)%nat -> nth_error ws start = Some 0.
Proof.
  intros t k n ws g T E start H. destruct (C34_words t n T) as (g' & E'). rewrite E in E'. injection E' as -> _.
  assert (Kn : (k < n)%nat).
  { pose proof (rounds_long t k 0) as R. fold (rounds (eb_bits t) (eb_errs t) (eb_noerrs t) k) in R. fold start in R. lia. }
  rewrite <- (Nat.add_0_r start) in *. clear E.
  assert (R : exists y, rounds (eb_bits t) (eb_errs t) (eb_noerrs t) n = rounds (eb_bits t) (eb_errs t) (eb_noerrs t) k ++ 0 :: y).
  { unfold rounds. replace n with (k + S (n - k - 1))%nat by lia. rewrite seq_app, map_app, concat_app. cbn [seq map concat Nat.add].
    unfold round at 2. rewrite (phase_rest (entry (eb_noerrs t) k)). cbn [repeat app]. eexists. reflexivity. }
  destruct R as [y R]. rewrite R. rewrite firstn_app. fold start. rewrite (firstn_all2 (rounds _ _ _ k)) by (fold start; lia).
  rewrite nth_error_app2 by (fold start; lia). fold start. replace (start + 0 - start)%nat with O by lia.
  destruct (n - start)%nat as [|d] eqn:D; [lia|]. reflexivity.
Qed.
Print Assumptions C34_always_some_zero.
Example C34_always_some_zero_ex :
  (do r <- gen_words (mk_tables 2 [5; 6] [2; 3] [0; 0]) 9 gen_new; Ok (fst r)) = Ok [0; 6; 6; 6; 0; 5; 5; 0; 6].
Proof. vm_compute. reflexivity. Qed.
