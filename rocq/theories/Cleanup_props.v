(** Properties C08 (clean-up part), C16 and C17: the clean-up of the latency buffer.
    [ring_like] holds of both ring-based buffers (bs_ring_like, fr_ring_like). Buffers hold fewer than
    2^24 elements, where the float arithmetic of the share is exact enough. *)
From Coq Require Import ZArith List Bool Lia.
From Verif Require Import Base_model Ring_model Ring_spec SkipList_model SkipList_spec Lb_model Float_model Float_proofs
  Registry_model Cleanup_model Cleanup_spec Cleanup_proofs.
Import ListNotations.
Open Scope Z_scope.

(** C16. Nothing happens up to the limit; above it a prefix of the oldest goes, at most the share, all
    of it older than the next timestamp to record, and no less unless recording stops it. *)
Theorem C16_cleanup_removes_oldest :
  forall (E : Type) (ts : E -> Z) (L : lb E (ring E)), ring_like L ->
  forall (n : Z) (ops : list (op E)) (r : ring E) (q : queue E) (limit : Z) (pct : float32) (next : Z)
         (reg : registry) (st : pop_stats) (result : ring E * registry * pop_stats),
    supported_size n -> Forall supported_op ops -> reached n ops r q ->
    proper_share pct -> Z.of_nat (length (q_items q)) < 2 ^ 24 ->
    cleanup ts L limit pct next r reg st = Ok result ->
    (Z.of_nat (length (q_items q)) <= limit ->
       fst (fst result) = r /\ snd (fst result) = reg /\ ps_count (snd result) = ps_count st) /\
    (limit < Z.of_nat (length (q_items q)) ->
       exists k q', reached n (ops ++ [OPop k]) (fst (fst result)) q' /\
         trimmed ts (share pct (Z.of_nat (length (q_items q)))) next (q_items q) (q_items q') k /\
         ps_count (snd result) = ps_count st + Z.of_nat k).
Proof. exact (@c16). Qed.
Print Assumptions C16_cleanup_removes_oldest.

(** C16. Without recording (next timestamp beyond everything stored) exactly the share goes. *)
Theorem C16_exact_share_without_recording :
  forall (E : Type) (ts : E -> Z) (L : lb E (ring E)), ring_like L ->
  forall (n : Z) (ops : list (op E)) (r : ring E) (q : queue E) (limit : Z) (pct : float32) (next : Z)
         (reg : registry) (st : pop_stats) (result : ring E * registry * pop_stats),
    supported_size n -> Forall supported_op ops -> reached n ops r q ->
    proper_share pct -> limit < Z.of_nat (length (q_items q)) < 2 ^ 24 -> (forall x, In x (q_items q) -> ts x < next) ->
    cleanup ts L limit pct next r reg st = Ok result ->
    let k := Z.to_nat (share pct (Z.of_nat (length (q_items q)))) in
    exists q', reached n (ops ++ [OPop k]) (fst (fst result)) q' /\ q_items q' = skipn k (q_items q) /\
      ps_count (snd result) = ps_count st + share pct (Z.of_nat (length (q_items q))).
Proof.
  intros E ts L HL n ops r q limit pct next reg st result Hn Hops Hr Hp [Hlim Hlen] Hx Hc k.
  destruct (c16 ts L HL n ops r q limit pct next reg st result Hn Hops Hr Hp Hlen Hc) as [_ H].
  destruct (H Hlim) as (k' & q' & Hq' & Ht & Hs). pose proof (trimmed_no_recording ts _ _ _ _ _ Ht Hx) as Ek.
  assert (k = k') as -> by (unfold k; rewrite <- Ek; apply Nat2Z.id).
  exists q'. split; [exact Hq'|]. split; [exact (proj1 Ht)|]. rewrite Hs, Ek. reflexivity.
Qed.
Print Assumptions C16_exact_share_without_recording.

(** C16. The share computed in single precision: between 0 and the occupancy, and equal to
    pct * occupancy up to truncation and a relative error of 2^-24. *)
Theorem C16_share_accuracy :
  forall (pct : float32) (n : Z), proper_share pct -> 0 <= n < 2 ^ 24 ->
    2 ^ 24 * (share pct n * 2 ^ (- snd pct)) <= (2 ^ 24 + 1) * (fst pct * n) /\
    (2 ^ 24 - 1) * (fst pct * n) < 2 ^ 24 * ((share pct n + 1) * 2 ^ (- snd pct)).
Proof. exact share_accuracy. Qed.
Print Assumptions C16_share_accuracy.

(** C17. Below 100 % the clean-up never empties the buffer nor fails, and trims the error registry to
    the new oldest timestamp. *)
Theorem C17_cleanup_keeps_an_element :
  forall (E : Type) (ts : E -> Z) (L : lb E (ring E)), ring_like L ->
  forall (n : Z) (ops : list (op E)) (r : ring E) (q : queue E) (limit : Z) (pct : float32) (next : Z)
         (reg : registry) (st : pop_stats),
    supported_size n -> Forall supported_op ops -> reached n ops r q ->
    proper_share pct -> ~ full_share pct -> 0 <= limit < Z.of_nat (length (q_items q)) ->
    Z.of_nat (length (q_items q)) < 2 ^ 24 ->
    exists r' st' k x, cleanup ts L limit pct next r reg st = Ok (r', remove_errors_until (ts x) reg, st') /\
      nth_error (q_items q) k = Some x /\
      exists q', reached n (ops ++ [OPop k]) r' q' /\ q_items q' = skipn k (q_items q) /\ hd_error (q_items q') = Some x.
Proof. exact (@c17_survives). Qed.
Print Assumptions C17_cleanup_keeps_an_element.

(** C17. At exactly 100 % every effective clean-up without recording dereferences null. *)
Theorem C17_full_share_crashes :
  forall (E : Type) (ts : E -> Z) (L : lb E (ring E)), ring_like L ->
  forall (n : Z) (ops : list (op E)) (r : ring E) (q : queue E) (limit : Z) (pct : float32) (next : Z)
         (reg : registry) (st : pop_stats),
    supported_size n -> Forall supported_op ops -> reached n ops r q ->
    proper_share pct -> full_share pct -> 0 <= limit < Z.of_nat (length (q_items q)) ->
    Z.of_nat (length (q_items q)) < 2 ^ 24 -> (forall x, In x (q_items q) -> ts x < next) ->
    cleanup ts L limit pct next r reg st = Crash.
Proof. exact (@c17_crash). Qed.
Print Assumptions C17_full_share_crashes.

(** C08. The same clean-up on a skip list keeps the oldest elements and discards the newest ones. *)
Theorem C08_default_cleanup_discards_newest_of_skip_list :
  forall (E : Type) (ts : E -> Z) (ops : list (sl_op E)) (l : list E) (limit : Z) (pct : float32) (next : Z)
         (reg : registry) (st : pop_stats),
    Forall (valid_op ts) ops -> never_huge ts [] ops -> snd (sl_run ts [] ops) = l ->
    proper_share pct -> ~ full_share pct -> 0 <= limit < Z.of_nat (length l) -> Z.of_nat (length l) < 2 ^ 24 ->
    (forall x, In x l -> ts x < next) ->
    exists reg' st', cleanup ts (sl_lb ts) limit pct next l reg st =
      Ok (firstn (length l - Z.to_nat (share pct (Z.of_nat (length l)))) l, reg', st').
Proof. exact (@c08_cleanup). Qed.
Print Assumptions C08_default_cleanup_discards_newest_of_skip_list.

(** The default share 0.8f is 13421773 * 2^-24. *)
Definition pct_08 : float32 := (13421773, -24).
Definition pct_1 : float32 := (8388608, -23).

Example C16_example :
  proper_share pct_08 /\ ~ full_share pct_08 /\ share pct_08 5 = 4 /\
  exists r q, reached 8 [OWrite 10; OWrite 20; OWrite 30; OWrite 40; OWrite 50] r q /\
    (exists r' reg' st', cleanup (fun x => x) (bs_lb (fun x => x)) 3 pct_08 max_u64 r [] (mk_pop_stats 0 0 0 0) =
       Ok (r', reg', st') /\ deref_opt r' (front r') = Ok (Some 50) /\ st' = mk_pop_stats 1 4 1 1) /\
    (exists r' reg' st', cleanup (fun x => x) (bs_lb (fun x => x)) 3 pct_08 25 r [] (mk_pop_stats 0 0 0 0) =
       Ok (r', reg', st') /\ deref_opt r' (front r') = Ok (Some 30) /\ st' = mk_pop_stats 1 2 3 1) /\
    cleanup (fun x => x) (bs_lb (fun x => x)) 3 pct_1 max_u64 r [] (mk_pop_stats 0 0 0 0) = Crash.
Proof.
  split; [unfold proper_share, pct_08; cbn [fst snd]; lia|]. split; [unfold full_share; vm_compute; discriminate|].
  split; [vm_compute; reflexivity|]. eexists. eexists. split.
  - eexists. split; [reflexivity|]. split; vm_compute; reflexivity.
  - split; [|split; [|vm_compute; reflexivity]]; eexists; eexists; eexists; vm_compute; repeat split; reflexivity.
Qed.

Example C17_example : proper_share pct_1 /\ full_share pct_1 /\ share pct_1 16777215 = 16777215 /\
  share (16777215, -24) 16777215 = 16777214.
Proof.
  split; [unfold proper_share, pct_1; cbn [fst snd]; lia|]. vm_compute. repeat split; reflexivity.
Qed.

Example C08_cleanup_example :
  exists reg' st', cleanup (fun x => x) (sl_lb (fun x => x)) 3 pct_08 max_u64
    (snd (sl_run (fun x => x) [] [SWrite 30; SWrite 10; SWrite 50; SWrite 20; SWrite 40])) [] (mk_pop_stats 0 0 0 0) =
    Ok ([10], reg', st').
Proof. eexists. eexists. vm_compute. reflexivity. Qed.
