(** C85: what a check of the waiting requests sees on a skip list. *)
From Coq Require Import ZArith List Bool Lia.
From Verif Require Import Base_model SkipList_model Lend_model Lend_spec Lend_proofs2.
Import ListNotations.
Open Scope Z_scope.

Definition store (t : Z) : list act := [AOpen; AInsert t; AClose].
Definition look : list act := [LOpen; LLast].
Definition ended (pds keep : bool) (acts : list act) : lend :=
  match lend_run pds keep lend0 acts with Some s => s | None => lend0 end.

(** For every interleaving: the thread reads the timestamp of the element that was the newest when it asked, or finds
    no element if none was stored, except that it reads freed memory exactly if at some moment before its read the
    element was no longer stored and no thread was inside an operation of the list. *)
Theorem C85_look_exact :
  forall pds keep pre s acts s2 s3, lend_run pds keep lend0 (pre ++ [LLast]) = Some s ->
  one_look acts -> lend_run pds keep s acts = Some s2 -> step pds keep s2 LRead = Some s3 ->
  exists r, n_out s3 = r :: n_out s2 /\
    (n_list s = [] /\ r = NoElement
     \/ exists nd, newest s nd /\ (r = Newest (nd_ts nd) /\ ~ gone pds keep s acts nd
                                   \/ r = Freed /\ gone pds keep s acts nd)).
Proof. exact look_lemma. Qed.
Print Assumptions C85_look_exact.

(** A clean-up removes the element while another thread keeps an accessor open: the timestamp can still be read; it
    cannot once that accessor is closed. *)
Definition removed_in_use : list act := [LClose; AOpen; AOpen; APop; AClose].
Example C85_look_exact_ex :
  n_out (ended false false (store 7 ++ store 5 ++ look ++ removed_in_use ++ [LRead])) = [Newest 7] /\
  n_list (ended false false (store 7 ++ store 5 ++ look ++ removed_in_use)) = [mk_node 5 1] /\
  n_out (ended false false (store 7 ++ store 5 ++ look ++ removed_in_use ++ [AClose; LRead])) = [Freed] /\
  n_out (ended false false (look ++ [LClose; LRead])) = [NoElement] /\
  one_look (removed_in_use ++ [AClose]) /\
  lend_run false false lend0 ((store 7 ++ store 5 ++ [LOpen]) ++ [LLast]) <> None.
Proof.
  do 4 (split; [vm_compute; reflexivity|]). split; [|vm_compute; discriminate].
  unfold one_look. cbn. intuition discriminate.
Qed.

(** A pointer used while its accessor is open, as the iterators do, never reads freed memory. *)
Theorem C85_accessor_kept :
  forall pds acts s, lend_run pds true lend0 acts = Some s -> ~ In Freed (n_out s).
Proof. exact kept_lemma. Qed.
Print Assumptions C85_accessor_kept.

Example C85_accessor_kept_ex :
  let acts := store 7 ++ store 5 ++ look ++ [AOpen; APop; APop; AClose; LRead; LClose] in
  n_out (ended false true acts) = [Newest 7] /\ n_list (ended false true acts) = [] /\ n_waste (ended false true acts) = [].
Proof. vm_compute. auto. Qed.

(** With the clean-ups kept out, as a data request does (C12), a pointer used after its accessor was closed is good as
    well, whatever is stored meanwhile. *)
Theorem C85_cleanups_kept_out :
  forall pds keep pre s acts s2 s3, lend_run pds keep lend0 (pre ++ [LLast]) = Some s ->
  one_look acts -> ~ In APop acts -> ~ In ARemove acts -> lend_run pds keep s acts = Some s2 -> step pds keep s2 LRead = Some s3 ->
  (n_list s = [] /\ n_out s3 = NoElement :: n_out s2) \/ exists nd, newest s nd /\ n_out s3 = Newest (nd_ts nd) :: n_out s2.
Proof. exact excluded_lemma. Qed.
Print Assumptions C85_cleanups_kept_out.

Example C85_cleanups_kept_out_ex :
  let acts := LClose :: store 9 ++ store 6 in
  one_look acts /\ ~ In APop acts /\ ~ In ARemove acts /\
  n_out (ended false false (store 7 ++ look ++ acts ++ [LRead])) = [Newest 7] /\
  n_out (ended false false (look ++ acts ++ [LRead])) = [NoElement].
Proof.
  unfold one_look. cbn [In app store]. split; [intuition discriminate|]. split; [intuition discriminate|].
  split; [intuition discriminate|]. split; vm_compute; reflexivity.
Qed.

(** On photon-detector links freed memory is read only if, between the look and the read, an element was stored that is
    10000000 ticks or more newer than the one looked at. *)
Theorem C85_photon_detectors :
  forall keep pre s acts s2 s3 nd,
  ts64 (pre ++ acts) -> lend_run true keep lend0 (pre ++ [LLast]) = Some s -> newest s nd ->
  one_look acts -> lend_run true keep s acts = Some s2 -> step true keep s2 LRead = Some s3 ->
  n_out s3 = Freed :: n_out s2 -> exists t, In (AInsert t) acts /\ nd_ts nd + 10000000 <= t.
Proof. exact pds_lemma. Qed.
Print Assumptions C85_photon_detectors.

(** And the clean-up of these links never dereferences the null head, whatever arrives meanwhile. *)
Theorem C85_head_never_null :
  forall keep acts s, ts64 acts -> lend_run true keep lend0 acts = Some s -> n_clean s <> CNull.
Proof. exact null_lemma. Qed.
Print Assumptions C85_head_never_null.

(** It does happen there: an element far enough ahead arrives during the look, and a clean-up runs. *)
Definition far_cleanup : list act :=
  [LClose] ++ store 10000002 ++ [AStart; ATail; AHead; ARemove; AAgain; AFin].
Theorem C85_photon_detectors_refuted :
  exists pre s acts s2 s3, ts64 (pre ++ acts) /\ lend_run true false lend0 (pre ++ [LLast]) = Some s /\
    one_look acts /\ lend_run true false s acts = Some s2 /\ step true false s2 LRead = Some s3 /\
    n_out s3 = [Freed].
Proof.
  exists (store 1 ++ [LOpen]), (ended true false (store 1 ++ look)), far_cleanup,
    (ended true false (store 1 ++ look ++ far_cleanup)), (ended true false (store 1 ++ look ++ far_cleanup ++ [LRead])).
  split. { intros t H. cbn in H. repeat (destruct H as [H|H]; [try discriminate; inversion H; lia|]). destruct H. }
  split; [vm_compute; reflexivity|]. split; [unfold one_look; cbn; intuition discriminate|].
  split; [vm_compute; reflexivity|]. split; vm_compute; reflexivity.
Qed.
Print Assumptions C85_photon_detectors_refuted.

(** Arrivals between the steps of the clean-up: below the head, and above the tail. *)
Example C85_photon_detectors_ex :
  let acts := store 100 ++ store 10000200 ++ [AStart; ATail] ++ store 20000400 ++ [AHead] ++ store 50 ++
              [ARemove; AAgain; ARemove; AAgain; AFin] in
  map nd_ts (n_list (ended true false acts)) = [10000200; 20000400] /\ n_clean (ended true false acts) = CIdle.
Proof. vm_compute. auto. Qed.

(** On the other links a single removal by a clean-up is enough, in every state in which the pointer is held: it removes
    the newest element, the one looked at. *)
Theorem C85_one_removal_is_enough_refuted :
  forall acts s nd, lend_run false false lend0 acts = Some s -> nobody s -> n_look s = KBare (Some nd) -> newest s nd ->
  exists s', lend_run false false s [AOpen; APop; AClose; LRead] = Some s' /\ n_out s' = Freed :: n_out s.
Proof. exact pop_lemma. Qed.
Print Assumptions C85_one_removal_is_enough_refuted.

Example C85_one_removal_is_enough_ex :
  let acts := store 7 ++ store 5 ++ look ++ [LClose] in
  lend_run false false lend0 acts = Some (ended false false acts) /\ nobody (ended false false acts) /\
  n_look (ended false false acts) = KBare (Some (mk_node 7 0)) /\ newest (ended false false acts) (mk_node 7 0) /\
  n_out (ended false false (acts ++ [AOpen; APop; AClose; LRead])) = [Freed].
Proof.
  cbv zeta. split; [vm_compute; reflexivity|].
  split. { vm_compute. split; [reflexivity|]. split; [reflexivity|]. right. eexists. reflexivity. }
  split; [vm_compute; reflexivity|]. split; [|vm_compute; reflexivity].
  split; [vm_compute; auto|]. intros y H. cbn in H. destruct H as [<-|[<-|[]]]; cbn; lia.
Qed.
