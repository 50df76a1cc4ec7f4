(** Properties C04 and C05: the two searches of the latency ring. *)
From Coq Require Import ZArith List Bool Lia.
From Verif Require Import Base_model Ring_model Ring_spec Search_model Search_spec Search_proofs.
Import ListNotations.
Open Scope Z_scope.

(** C04. Binary search: end() iff nothing is at or before the key, else the newest element not newer
    than the key. It always finishes ([SNoFuel] is excluded) and touches stored slots only
    ([SCrash] is excluded). *)
Theorem C04_binary_search :
  forall (A : Type) (ts : A -> Z) (n : Z) (ops : list (op A)) (r : ring A) (q : queue A) (key : Z),
    supported_size n -> Forall supported_op ops -> reached n ops r q ->
    non_decreasing ts (q_items q) ->
    (nothing_at_or_before ts (q_items q) key /\ bs_lower_bound ts r key = SFound it_end) \/
    (exists k, newest_not_newer ts (q_items q) key k /\
       bs_lower_bound ts r key = SFound (advance k r (it_begin r))).
Proof. exact (@bs_lemma). Qed.
Print Assumptions C04_binary_search.

(** A wrapped ring of size 6 with contents 30,30,40,50,70 and several keys. *)
Example C04_example :
  let ops := [OWrite 1; OWrite 2; OWrite 30; OPop 2; OWrite 30; OWrite 40; OWrite 50; OWrite 70] in
  exists r q, reached 6 ops r q /\ q_items q = [30; 30; 40; 50; 70] /\ r_write r < r_read r /\
    bs_lower_bound (fun x => x) r 29 = SFound it_end /\
    bs_lower_bound (fun x => x) r 30 = SFound (advance 1 r (it_begin r)) /\
    bs_lower_bound (fun x => x) r 69 = SFound (advance 3 r (it_begin r)) /\
    bs_lower_bound (fun x => x) r 1000 = SFound (advance 4 r (it_begin r)).
Proof.
  cbv zeta. eexists. eexists. split.
  - eexists. split; [reflexivity|]. split; vm_compute; reflexivity.
  - vm_compute. repeat split; reflexivity.
Qed.

(** C05. On gap-free data the arithmetic lookup equals the binary search for every key before one
    element after the newest, and is end() for every key after that. *)
Theorem C05_fixed_rate_agrees :
  forall (A : Type) (ts nframes : A -> Z) (tick n : Z) (ops : list (op A)) (r : ring A) (q : queue A)
         (x0 : A) (l0 : list A) (t0 key : Z),
    supported_size n -> Forall supported_op ops -> reached n ops r q ->
    q_items q = x0 :: l0 -> 0 < tick -> 0 < nframes x0 -> 0 <= t0 ->
    equally_spaced ts (q_items q) t0 (tick * nframes x0) ->
    t0 + Z.of_nat (length (q_items q)) * (tick * nframes x0) < two64 ->
    0 <= key < two64 ->
    (key < t0 + Z.of_nat (length (q_items q)) * (tick * nframes x0) ->
       fr_lower_bound ts nframes tick r key false = bs_lower_bound ts r key) /\
    (t0 + Z.of_nat (length (q_items q)) * (tick * nframes x0) < key ->
       fr_lower_bound ts nframes tick r key false = SFound it_end).
Proof. exact (@fr_agrees_lemma). Qed.
Print Assumptions C05_fixed_rate_agrees.

(** C05. With the error flag set the fixed-rate buffer uses the binary search. *)
Theorem C05_with_errors_is_binary_search :
  forall (A : Type) (ts nframes : A -> Z) (tick : Z) (r : ring A) (key : Z),
    fr_lower_bound ts nframes tick r key true = bs_lower_bound ts r key.
Proof. exact (@fr_errors). Qed.
Print Assumptions C05_with_errors_is_binary_search.

(** C05. The boundary key: the position returned is neither end() nor a stored element. *)
Theorem C05_boundary_key :
  forall (A : Type) (ts nframes : A -> Z) (tick n : Z) (ops : list (op A)) (r : ring A) (q : queue A)
         (x0 : A) (l0 : list A) (t0 : Z),
    supported_size n -> Forall supported_op ops -> reached n ops r q ->
    q_items q = x0 :: l0 -> 0 < tick -> 0 < nframes x0 -> 0 <= t0 ->
    equally_spaced ts (q_items q) t0 (tick * nframes x0) ->
    t0 + Z.of_nat (length (q_items q)) * (tick * nframes x0) < two64 ->
    exists i, fr_lower_bound ts nframes tick r
                (t0 + Z.of_nat (length (q_items q)) * (tick * nframes x0)) false = SFound i /\
      i <> it_end /\ it_good r i = false /\ r_slots r i = None.
Proof. exact (@fr_boundary_lemma). Qed.
Print Assumptions C05_boundary_key.

(** C05. On an empty buffer the arithmetic lookup reads a slot that holds no element. *)
Theorem C05_empty_buffer_reads_dead_slot :
  forall (A : Type) (ts nframes : A -> Z) (tick n : Z) (ops : list (op A)) (r : ring A) (q : queue A) (key : Z),
    supported_size n -> Forall supported_op ops -> reached n ops r q -> q_items q = [] ->
    fr_lower_bound ts nframes tick r key false = SCrash.
Proof. exact (@fr_empty_lemma). Qed.
Print Assumptions C05_empty_buffer_reads_dead_slot.

(** Five WIB-like elements (12 frames, 25 ticks) around the wrap point of a ring of size 6. *)
Example C05_example :
  let ops := [OWrite 1; OWrite 2; OWrite 3000; OPop 2; OWrite 3300; OWrite 3600; OWrite 3900; OWrite 4200] in
  exists r q, reached 6 ops r q /\ q_items q = [3000; 3300; 3600; 3900; 4200] /\
    equally_spaced (fun x => x) (q_items q) 3000 (25 * 12) /\
    fr_lower_bound (fun x => x) (fun _ => 12) 25 r 4199 false = SFound (advance 3 r (it_begin r)) /\
    fr_lower_bound (fun x => x) (fun _ => 12) 25 r 4500 false = SFound 1 /\ it_good r 1 = false /\
    fr_lower_bound (fun x => x) (fun _ => 12) 25 r 4501 false = SFound it_end.
Proof.
  cbv zeta. eexists. eexists. split.
  - eexists. split; [reflexivity|]. split; vm_compute; reflexivity.
  - split; [reflexivity|]. split.
    + intros k x. cbn [q_items]. do 5 (destruct k as [|k]; [cbn; intros [= <-]; reflexivity|]).
      cbn. destruct k; discriminate.
    + vm_compute. repeat split; reflexivity.
Qed.

(** C05, refuted in general: with one gap (3300 missing) the arithmetic lookup returns another
    element than the newest one not newer than the key. *)
Theorem C05_gap_refuted :
  exists (ops : list (op Z)) (r : ring Z) (q : queue Z) (key : Z),
    reached 6 ops r q /\ non_decreasing (fun x => x) (q_items q) /\
    fr_lower_bound (fun x => x) (fun _ => 12) 25 r key false <> bs_lower_bound (fun x => x) r key.
Proof.
  exists [OWrite 3000; OWrite 3600; OWrite 3900; OWrite 4200]. eexists. eexists. exists 3700.
  split.
  - eexists. split; [reflexivity|]. split; vm_compute; reflexivity.
  - split.
    + intros i j x y Hij. cbn [q_items].
      do 4 (destruct i as [|i]; [cbn; intros [= <-];
        do 4 (destruct j as [|j]; [cbn; intros [= <-]; lia|]); cbn; destruct j; discriminate|]).
      cbn. destruct i; discriminate.
    + vm_compute. discriminate.
Qed.
Print Assumptions C05_gap_refuted.
