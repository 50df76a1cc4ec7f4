(** C12: clean-up against requests and recording. *)
From Coq Require Import ZArith List Bool Lia.
From Verif Require Import Base_model Guard_model Guard_spec Guard_proofs.
Import ListNotations.
Open Scope Z_scope.

(** No step removes an element while any thread is between the start and the end of its access to the
    buffer; for any number of threads and any schedule. *)
Theorem C12_no_removal_while_reading :
  forall n acts s a s', Z.of_nat n < 2147483648 -> grun (ginit n) acts = Some s ->
  gstep s a = Some s' -> g_pops s' <> g_pops s -> forall w, In w (g_threads s) -> reading w = false.
Proof. exact exclusion_lemma. Qed.
Print Assumptions C12_no_removal_while_reading.

(** The counter is the number of threads inside (so it is never negative). *)
Theorem C12_counter_is_exact :
  forall n acts s, Z.of_nat n < 2147483648 -> grun (ginit n) acts = Some s ->
  g_running s = Z.of_nat (readers s).
Proof. exact counter_lemma. Qed.
Print Assumptions C12_counter_is_exact.

(** Once a clean-up is requested the number of readers only falls. *)
Theorem C12_no_new_reader_while_requested :
  forall n acts s a s', Z.of_nat n < 2147483648 -> grun (ginit n) acts = Some s ->
  g_requested s = true -> gstep s a = Some s' -> (readers s' <= readers s)%nat.
Proof. exact no_entry_lemma. Qed.
Print Assumptions C12_no_new_reader_while_requested.

(** No wake-up is lost: whoever sleeps although it could go on is about to be notified. *)
Theorem C12_no_lost_wakeup :
  forall n acts s, Z.of_nat n < 2147483648 -> grun (ginit n) acts = Some s ->
  (g_clean s = GSleep -> readers s = 0%nat -> notification_pending s) /\
  (In WSleep (g_threads s) -> g_requested s = false -> notification_pending s).
Proof. exact wakeup_lemma. Qed.
Print Assumptions C12_no_lost_wakeup.

(** From every reachable state some continuation lets the clean-up finish (no deadlock). *)
Theorem C12_cleanup_can_finish :
  forall n acts s, Z.of_nat n < 2147483648 -> grun (ginit n) acts = Some s ->
  exists acts' s', grun s acts' = Some s' /\ g_clean s' = GIdle.
Proof. exact finish_lemma. Qed.
Print Assumptions C12_cleanup_can_finish.

(** Three threads: two inside when the clean-up is requested, the third has to wait, then the clean-up
    pops twice and the third thread enters. *)
Definition ex_guard : list gaction :=
  [GEnter 0; GEnter 1; GEnter 2; GWork 0; GWork 0; GWork 1; GClean true 0; GWork 2; GWork 1; GWork 0; GWork 0; GWork 2;
   GClean false 0; GWork 1; GWork 1; GClean false 2].
Example C12_ex :
  match grun (ginit 3) ex_guard with
  | Some s => g_clean s = GRun 2 /\ g_requested s = true /\ In WLock (g_threads s) /\
      match gstep s (GClean false 0) with Some s' => g_pops s' = S (g_pops s) | None => False end
  | None => False
  end /\
  match grun (ginit 3) (firstn 9 ex_guard) with
  | Some s => readers s = 2%nat /\ g_running s = 2 /\ g_clean s = GWoken /\ g_requested s = true
  | None => False
  end.
Proof. vm_compute. repeat split; auto. Qed.
