(** C25, C26: the queue of the standard library under the trigger primitive buffer. The other theorems on the buffer take the
    contract [pq_ok] of the queue as given; here it is proved of libstdc++'s heap, and the buffer is run on that heap. *)
From Coq Require Import ZArith List Bool Lia ZifyBool Sorting.Permutation Sorting.Sorted.
From Verif Require Import Base_model Tp_model Tp_spec Tp_proofs Tp_props Heap_model Heap_proofs.
Import ListNotations.
Open Scope Z_scope.

Section Ordered.
Context {T : Type}.
Variable ts : T -> Z.

(** The vectors that keep the order of the heap, as a type. *)
Definition ordered : Type := { v : list T | heap ts v }.
Definition o_elements (h : ordered) : list T := proj1_sig h.
Definition o_empty : ordered := exist _ [] (heap_run ts []).
Definition o_push (x : T) (h : ordered) : ordered :=
  exist _ (pq_insert ts x (proj1_sig h)) (proj1 (insert_ok ts (proj1_sig h) x (proj2_sig h))).
Definition o_top (h : ordered) : option T := pq_first (proj1_sig h).
Lemma remove_heap : forall v, heap ts v -> heap ts (pq_remove ts v).
Proof.
  intros v H. destruct (pq_first v) as [x|] eqn:E; [exact (proj1 (remove_ok ts v x H E))|].
  destruct v; [exact H|discriminate].
Qed.
Definition o_pop (h : ordered) : ordered := exist _ (pq_remove ts (proj1_sig h)) (remove_heap _ (proj2_sig h)).

Lemma ordered_ok : pq_ok ts o_empty o_push o_top o_pop o_elements.
Proof.
  constructor; unfold o_elements, o_push, o_top, o_pop; cbn [proj1_sig].
  - reflexivity.
  - intros t [v H]. cbn [proj1_sig]. apply (insert_ok ts v t H).
  - intros [[|x v] H]; cbn; split; congruence.
  - intros [v H] t E. cbn [proj1_sig] in *. exact (first_least ts v t H E).
  - intros [v H] t E. cbn [proj1_sig] in *. apply (remove_ok ts v t H E).
Qed.

(** The buffer does not see the difference between the heap and the heap with its proof. *)
Variable timeout window : Z.
Notation run_o := (tp_run T ts ordered o_empty o_push o_top o_pop timeout window).
Notation run_v := (tp_run T ts (list T) [] (pq_insert ts) pq_first (pq_remove ts) timeout window).
Notation step_o := (tp_step T ts ordered o_empty o_push o_top o_pop timeout window).
Notation step_v := (tp_step T ts (list T) [] (pq_insert ts) pq_first (pq_remove ts) timeout window).
Definition plain (s : tpst T ordered) : tpst T (list T) :=
  mk_tpst (proj1_sig (tp_buffer s)) (tp_seqno s) (tp_sent s) (tp_sets s) (tp_open s).
Definition plain_result (r : result T ordered) : result T (list T) :=
  match r with Next s e => Next (plain s) e | Stuck => Stuck | Fault => Fault end.

Lemma step_plain : forall a s, step_v a (plain s) = plain_result (step_o a s).
Proof.
  intros a [[v H] q n k o]. unfold plain. cbn [tp_buffer tp_seqno tp_sent tp_sets tp_open proj1_sig].
  destruct a; cbn [tp_step tp_open]; unfold add_tp, begin_set, send_tp, send_set, more, o_top; cbn [tp_buffer tp_seqno tp_sent tp_sets tp_open proj1_sig].
  - destruct o; [reflexivity|]. destruct (_ >? _); reflexivity.
  - destruct o; [reflexivity|]. destruct (pq_first v); [|reflexivity]. destruct (_ <? _); [|reflexivity]. destruct (window =? 0); reflexivity.
  - destruct o; [|reflexivity]. destruct (pq_first v); [|reflexivity]. destruct (_ <? _); reflexivity.
  - destruct o; [|reflexivity]. destruct (pq_first v); [|reflexivity]. destruct (_ <? _); reflexivity.
  - reflexivity.
  - reflexivity.
  - destruct o; reflexivity.
Qed.
Lemma run_plain : forall l s, run_v l (plain s) = plain_result (run_o l s).
Proof.
  induction l as [|a l IH]; intros s; [reflexivity|]. cbn [tp_run]. rewrite step_plain.
  destruct (step_o a s) as [s1 e| |]; cbn [plain_result]; try reflexivity.
  rewrite IH. destruct (run_o l s1); reflexivity.
Qed.
Lemma run_plain_new : forall l s e, run_v l (tp_new []) = Next s e ->
  exists s', run_o l (tp_new o_empty) = Next s' e /\ s = plain s'.
Proof.
  intros l s e H. change (tp_new []) with (plain (tp_new o_empty)) in H. rewrite run_plain in H.
  destruct (run_o l (tp_new o_empty)) as [s' e'| |]; cbn [plain_result] in H; try discriminate.
  injection H as <- <-. exists s'. split; reflexivity.
Qed.
End Ordered.

(** C25. After any pushes and pops the heap holds what was put in and not taken out; its first element is one with the least start
    time; a push adds exactly one element; a pop takes out exactly the first. *)
Theorem C25_queue_of_the_standard_library : forall (T : Type) (ts : T -> Z) (ops : list (pq_op T)),
  let v := pq_run ts ops in
  (forall x, Permutation (pq_run ts (ops ++ [PPush x])) (x :: v)) /\
  (pq_first v = None <-> v = []) /\
  (forall x, pq_first v = Some x -> Forall (fun y => ts x <= ts y) v /\ Permutation (x :: pq_run ts (ops ++ [PPop])) v).
Proof.
  intros T ts ops v. pose proof (heap_run ts ops) as H. fold v in H.
  assert (forall o, pq_run ts (ops ++ [o]) = pq_step ts v o) as E by (intros o; unfold v, pq_run; rewrite fold_left_app; reflexivity).
  split; [|split].
  - intros x. rewrite E. apply (insert_ok ts v x H).
  - destruct v; cbn; split; congruence.
  - intros x F. rewrite E. split; [exact (first_least ts v x H F)|apply (remove_ok ts v x H F)].
Qed.
Print Assumptions C25_queue_of_the_standard_library.

(** C25. Emptying the queue gives the elements in the order of their start times. *)
Fixpoint drained {T} (ts : T -> Z) (n : nat) (v : list T) : list T :=
  match n with
  | O => []
  | S n' => match pq_first v with Some x => x :: drained ts n' (pq_remove ts v) | None => [] end
  end.
Theorem C25_queue_emptied_in_order : forall (T : Type) (ts : T -> Z) (ops : list (pq_op T)),
  let v := pq_run ts ops in
  Permutation (drained ts (length v) v) v /\ StronglySorted Z.le (map ts (drained ts (length v) v)).
Proof.
  intros T ts ops v. assert (heap ts v) as H by apply heap_run. clearbody v.
  assert (forall n v, length v = n -> heap ts v -> Permutation (drained ts n v) v /\ StronglySorted Z.le (map ts (drained ts n v))) as G;
    [|apply G; [reflexivity|exact H]].
  clear v H ops. induction n as [|n IH]; intros v L H.
  - destruct v; [|discriminate]. split; constructor.
  - cbn [drained]. destruct (pq_first v) as [x|] eqn:F; [|destruct v; discriminate].
    destruct (remove_ok ts v x H F) as [H' P].
    assert (length (pq_remove ts v) = n) as L' by (apply Permutation_length in P; cbn [length] in P; lia).
    destruct (IH _ L' H') as [P2 S2]. split.
    + rewrite P2. exact P.
    + cbn [map]. constructor; [exact S2|]. apply Forall_forall. intros t I. apply in_map_iff in I. destruct I as (y & <- & I).
      pose proof (first_least ts v x H F) as M. rewrite Forall_forall in M. apply M.
      apply (Permutation_in _ P). right. apply (Permutation_in _ P2). exact I.
Qed.
Print Assumptions C25_queue_emptied_in_order.

(** C25. The buffer on that heap, with nothing assumed: accepted = still in the heap + pushed to the TP stream. *)
Theorem C25_nothing_lost_with_the_heap : forall (T : Type) (ts : T -> Z) (timeout window : Z) (l : list (action T)) s e,
  tp_run T ts (list T) [] (pq_insert ts) pq_first (pq_remove ts) timeout window l (tp_new []) = Next s e ->
  Permutation (accepted (since_reset e)) (tp_buffer s ++ pushed (since_reset e)) /\
  pushed (since_reset e) = concat (map ts_objects (sets (since_reset e))) ++ opened (tp_open s) /\
  Forall (fun x => StronglySorted Z.le (map ts (ts_objects x)) /\ Forall (fun t => ts t < ts_end x) (ts_objects x))
    (sets (since_reset e)).
Proof.
  intros T ts timeout window l s e H. apply run_plain_new in H. destruct H as (s' & H & ->).
  exact (C25_nothing_lost T _ ts _ _ _ _ _ (ordered_ok ts) timeout window l s' e H).
Qed.
Print Assumptions C25_nothing_lost_with_the_heap.

(** C26. The windows, likewise. *)
Theorem C26_windows_with_the_heap : forall (T : Type) (ts : T -> Z) (timeout window : Z), 0 < window -> 0 < timeout ->
  forall (l : list (action T)) s e,
  tp_run T ts (list T) [] (pq_insert ts) pq_first (pq_remove ts) timeout window l (tp_new []) = Next s e ->
  orderly ts timeout window (calls_since_reset l) ->
  ForallOrdPairs (fun x y => ts_end x <= ts_start y) (sets (since_reset e)) /\
  forall x, In x (sets (since_reset e)) ->
    ts_start x mod window = 0 /\ ts_end x = ts_start x + window /\ ts_objects x <> [] /\
    Permutation (ts_objects x) (filter (in_window ts x) (accepted (since_reset e))).
Proof.
  intros T ts timeout window W O l s e H Ord. apply run_plain_new in H. destruct H as (s' & H & _).
  exact (C26_windows T _ ts _ _ _ _ _ (ordered_ok ts) timeout window W O l s' e H Ord).
Qed.
Print Assumptions C26_windows_with_the_heap.

(** Nine pushes out of order, two of the same start time, and two pops. *)
Example C25_queue_ex :
  let ops := map PPush [(50, 0); (20, 1); (90, 2); (20, 3); (70, 4); (10, 5); (60, 6); (80, 7); (30, 8)] ++ [PPop; PPop] in
  pq_run fst ops = [(20, 3); (30, 8); (50, 0); (80, 7); (70, 4); (90, 2); (60, 6)] /\
  drained fst 7 (pq_run fst ops) = [(20, 3); (30, 8); (50, 0); (60, 6); (70, 4); (80, 7); (90, 2)].
Proof. vm_compute. repeat split. Qed.
Example C26_windows_with_the_heap_ex :
  match tp_run (Z * Z) fst (list (Z * Z)) [] (pq_insert fst) pq_first (pq_remove fst) 100 50 ex_calls (tp_new []) with
  | Next s e => sets (since_reset e) = [mk_tpset 100 150 0 [(101, 2); (120, 1); (149, 4)]; mk_tpset 150 200 1 [(150, 5); (153, 6)]] /\ tp_buffer s = []
  | _ => False
  end.
Proof. vm_compute. repeat split. Qed.
