(** Properties C09, C10, C11, C56, C57 and C58: answers to data requests. *)
From Coq Require Import ZArith List Bool Lia.
From Verif Require Import Base_model Ring_model Ring_spec Search_model Search_spec SkipList_model SkipList_spec
  Elem_model Lb_model Request_model Request_spec Request_proofs.
Import ListNotations.
Open Scope Z_scope.

(** C09. Binary-search ring: the payload is exactly the stored frames of the window. *)
Theorem C09_binary_search_ring :
  forall (dnf : Z) (lk : link) (tick n : Z) (ops : list (op elem)) (r : ring elem) (q : queue elem)
         (running missing : bool) (dr : request) (s : stats),
    supported_size n -> Forall supported_op ops -> reached n ops r q ->
    0 <= tick -> wf tick (q_items q) -> q_items q <> [] ->
    oldest_ts (q_items q) <= rq_begin dr -> rq_end dr <= newest_ts (q_items q) ->
    exists s', data_request dnf lk tick (bs_lb e_ts) running missing r dr s =
      Ok (kFound, Some (mk_fragment (create_fragment_header lk dr)
                          (window_bytes (q_items q) (rq_begin dr) (rq_end dr))), s').
Proof. exact c09_bs. Qed.
Print Assumptions C09_binary_search_ring.

(** C09. Fixed-rate ring while MISSING_FRAMES is flagged: the same, gaps or not. *)
Theorem C09_fixed_rate_ring_flagged :
  forall (dnf : Z) (lk : link) (tick n : Z) (ops : list (op elem)) (r : ring elem) (q : queue elem)
         (running : bool) (dr : request) (s : stats),
    supported_size n -> Forall supported_op ops -> reached n ops r q ->
    0 <= tick -> wf tick (q_items q) -> q_items q <> [] ->
    oldest_ts (q_items q) <= rq_begin dr -> rq_end dr <= newest_ts (q_items q) ->
    exists s', data_request dnf lk tick (fr_lb e_ts e_num tick) running true r dr s =
      Ok (kFound, Some (mk_fragment (create_fragment_header lk dr)
                          (window_bytes (q_items q) (rq_begin dr) (rq_end dr))), s').
Proof. exact c09_fr_flagged. Qed.
Print Assumptions C09_fixed_rate_ring_flagged.

(** C09. Fixed-rate ring without the flag: the same on gap-free contents (C21 links flag and gaps). *)
Theorem C09_fixed_rate_ring_gap_free :
  forall (dnf : Z) (lk : link) (tick n : Z) (ops : list (op elem)) (r : ring elem) (q : queue elem)
         (x0 : elem) (l0 : list elem) (running : bool) (dr : request) (s : stats),
    supported_size n -> Forall supported_op ops -> reached n ops r q ->
    0 < tick -> wf tick (q_items q) -> q_items q = x0 :: l0 ->
    equally_spaced e_ts (q_items q) (e_ts x0) (tick * e_num x0) ->
    e_ts x0 + Z.of_nat (length (q_items q)) * (tick * e_num x0) < two64 ->
    oldest_ts (q_items q) <= rq_begin dr -> rq_begin dr <= rq_end dr -> rq_end dr <= newest_ts (q_items q) ->
    exists s', data_request dnf lk tick (fr_lb e_ts e_num tick) running false r dr s =
      Ok (kFound, Some (mk_fragment (create_fragment_header lk dr)
                          (window_bytes (q_items q) (rq_begin dr) (rq_end dr))), s').
Proof. exact c09_fr_spaced. Qed.
Print Assumptions C09_fixed_rate_ring_gap_free.

(** C10. Binary-search ring: every request gets the answer, the counters and the error bit that the
    contents dictate. No assumption on the window. *)
Theorem C10_binary_search_ring :
  forall (dnf : Z) (lk : link) (tick n : Z) (ops : list (op elem)) (r : ring elem) (q : queue elem)
         (running missing : bool) (dr : request) (s : stats),
    supported_size n -> Forall supported_op ops -> reached n ops r q -> 0 <= dnf -> wf tick (q_items q) ->
    right_answer dnf running (q_items q) dr s (data_request dnf lk tick (bs_lb e_ts) running missing r dr s).
Proof. exact c10_bs. Qed.
Print Assumptions C10_binary_search_ring.

Theorem C10_fixed_rate_ring_flagged :
  forall (dnf : Z) (lk : link) (tick n : Z) (ops : list (op elem)) (r : ring elem) (q : queue elem)
         (running : bool) (dr : request) (s : stats),
    supported_size n -> Forall supported_op ops -> reached n ops r q -> 0 <= dnf -> wf tick (q_items q) ->
    right_answer dnf running (q_items q) dr s
      (data_request dnf lk tick (fr_lb e_ts e_num tick) running true r dr s).
Proof. exact c10_fr_flagged. Qed.
Print Assumptions C10_fixed_rate_ring_flagged.

(** C10. Without the flag, on gap-free contents and for windows that are not reversed. *)
Theorem C10_fixed_rate_ring_gap_free :
  forall (dnf : Z) (lk : link) (tick n : Z) (ops : list (op elem)) (r : ring elem) (q : queue elem)
         (x0 : elem) (l0 : list elem) (running : bool) (dr : request) (s : stats),
    supported_size n -> Forall supported_op ops -> reached n ops r q -> 0 <= dnf ->
    0 < tick -> wf tick (q_items q) -> q_items q = x0 :: l0 ->
    equally_spaced e_ts (q_items q) (e_ts x0) (tick * e_num x0) ->
    e_ts x0 + Z.of_nat (length (q_items q)) * (tick * e_num x0) < two64 ->
    rq_begin dr <= rq_end dr ->
    right_answer dnf running (q_items q) dr s
      (data_request dnf lk tick (fr_lb e_ts e_num tick) running false r dr s).
Proof. exact c10_fr_spaced. Qed.
Print Assumptions C10_fixed_rate_ring_gap_free.

(** C10. Skip list: any contents, windows that are not reversed. *)
Theorem C10_skip_list :
  forall (dnf : Z) (lk : link) (tick : Z) (ops : list (sl_op elem)) (l : list elem)
         (running missing : bool) (dr : request) (s : stats),
    Forall (valid_op e_ts) ops -> never_huge e_ts [] ops -> snd (sl_run e_ts [] ops) = l ->
    0 <= dnf -> rq_begin dr <= rq_end dr ->
    right_answer dnf running l dr s (data_request dnf lk tick (sl_lb e_ts) running missing l dr s).
Proof. exact c10_sl. Qed.
Print Assumptions C10_skip_list.

(** C11. Whatever the buffer, every fragment data_request returns mirrors the request... *)
Theorem C11_data_request_header :
  forall (dnf : Z) (lk : link) (tick : Z) (B : Type) (L : lb elem B) (running missing : bool) (buf : B)
         (dr : request) (s : stats) (c : code) (fr : fragment) (s' : stats),
    data_request dnf lk tick L running missing buf dr s = Ok (c, Some fr, s') ->
    mirrors lk dr (fg_header fr).
Proof. exact (@header_mirrors). Qed.
Print Assumptions C11_data_request_header.

(** C11. ... and so do the fragments sent on time-out or end of run, and by the always-empty handler. *)
Theorem C11_empty_fragment_header :
  forall (dnf : Z) (lk : link) (dr : request),
    mirrors lk dr (fg_header (create_empty_fragment dnf lk dr)) /\
    mirrors lk dr (fg_header (empty_handler_fragment dnf lk dr)).
Proof. exact empty_headers. Qed.
Print Assumptions C11_empty_fragment_header.

(** C56. Skip list: an element that starts before the window begin contributes nothing, even when
    some of its frames lie inside the window. *)
Theorem C56_skip_list_loses_straddling_element :
  forall (dnf : Z) (lk : link) (tick : Z) (ops : list (sl_op elem)) (l : list elem)
         (running missing : bool) (dr : request) (s : stats),
    Forall (valid_op e_ts) ops -> never_huge e_ts [] ops -> snd (sl_run e_ts [] ops) = l ->
    0 <= tick -> wf tick l -> l <> [] ->
    oldest_ts l <= rq_begin dr -> rq_begin dr <= rq_end dr -> rq_end dr <= newest_ts l ->
    exists s', data_request dnf lk tick (sl_lb e_ts) running missing l dr s =
      Ok (kFound, Some (mk_fragment (create_fragment_header lk dr)
          (window_bytes (filter (fun e => rq_begin dr <=? e_ts e) l) (rq_begin dr) (rq_end dr))), s').
Proof. exact c56. Qed.
Print Assumptions C56_skip_list_loses_straddling_element.

(** C57. PACMAN: which messages are returned depends on the garbage [g] in the search key, not on the
    window; the answer is complete only if [g] does not exceed the first message of the window. *)
Theorem C57_pacman_answer_depends_on_garbage :
  forall (dnf : Z) (lk : link) (tick : Z) (ops : list (sl_op elem)) (l : list elem) (g : Z)
         (running missing : bool) (dr : request) (s : stats),
    Forall (valid_op e_ts) ops -> never_huge e_ts [] ops -> snd (sl_run e_ts [] ops) = l ->
    0 <= tick -> wf tick l -> l <> [] ->
    oldest_ts l <= rq_begin dr -> rq_end dr <= newest_ts l ->
    (g <= newest_ts l -> exists s', data_request dnf lk tick (pacman_lb e_ts g) running missing l dr s =
      Ok (kFound, Some (mk_fragment (create_fragment_header lk dr)
          (window_bytes (filter (fun e => g <=? e_ts e) l) (rq_begin dr) (rq_end dr))), s')) /\
    (newest_ts l < g -> exists s', data_request dnf lk tick (pacman_lb e_ts g) running missing l dr s =
      if running then Ok (kNotYet, None, s') else Ok (kNotFound, Some (create_empty_fragment dnf lk dr), s')).
Proof. exact c57. Qed.
Print Assumptions C57_pacman_answer_depends_on_garbage.

(** C58. SSP: of each event in the window the fragment holds the event header and the data without
    its last [length header] bytes. *)
Theorem C58_ssp_fragments_are_truncated :
  forall (dnf : Z) (lk : link) (tick n : Z) (ops : list (op elem)) (r : ring elem) (q : queue elem)
         (evs : list ssp) (running missing : bool) (dr : request) (s : stats),
    supported_size n -> Forall supported_op ops -> reached n ops r q ->
    q_items q = map ssp_elem evs -> evs <> [] -> 0 <= tick ->
    (forall i x, nth_error evs i = Some x -> 0 <= ssp_ts x /\ ssp_ts x + tick < two64 /\
       (length (ssp_header x) <= ssp_frame_size)%nat) ->
    (forall i j x y, (i < j)%nat -> nth_error evs i = Some x -> nth_error evs j = Some y -> ssp_ts x < ssp_ts y) ->
    oldest_ts (q_items q) <= rq_begin dr -> rq_end dr <= newest_ts (q_items q) ->
    exists h s', data_request dnf lk tick (bs_lb e_ts) running missing r dr s =
      Ok (kFound, Some (mk_fragment h
         (flat_map (fun x => ssp_header x ++ firstn (ssp_frame_size - length (ssp_header x)) (ssp_data x))
                   (filter (fun x => (rq_begin dr <=? ssp_ts x) && (ssp_ts x <? rq_end dr)) evs))), s').
Proof. exact c58. Qed.
Print Assumptions C58_ssp_fragments_are_truncated.

(** Elements of two frames, tick 10. *)
Definition ex_elem (t : Z) : elem := mk_elem [mk_frame t [t; 1]; mk_frame (t + 10) [t + 10; 2]].
Definition ex_link : link := mk_link 1 2 3 4.
Definition ex_request (b e : Z) : request := mk_request 77 1000 b e 5 6.
Definition ex_stats : stats := mk_stats 0 0 0 0 0.
Definition ex_ops : list (op elem) :=
  [OWrite (ex_elem 0); OWrite (ex_elem 20); OWrite (ex_elem 100); OPop 2; OWrite (ex_elem 120);
   OWrite (ex_elem 140); OWrite (ex_elem 160)].

Lemma ex_regular : forall t, 0 <= t < 1000 -> regular 10 (ex_elem t).
Proof.
  intros t Ht. unfold regular, ex_elem, e_ts, e_num. cbn. repeat split; [discriminate|lia| |unfold two64; lia].
  intros [|[|k]] f; cbn; [intros [= <-]; cbn; lia|intros [= <-]; cbn; lia|destruct k; discriminate].
Qed.

Example C09_example :
  exists r q, reached 6 ex_ops r q /\ wf 10 (q_items q) /\
    equally_spaced e_ts (q_items q) 100 (10 * 2) /\
    oldest_ts (q_items q) = 100 /\ newest_ts (q_items q) = 160 /\
    window_bytes (q_items q) 110 150 = [110; 2; 120; 1; 130; 2; 140; 1] /\
    data_request 3 ex_link 10 (fr_lb e_ts e_num 10) true false r (ex_request 110 150) ex_stats =
      Ok (kFound, Some (mk_fragment (mk_header 77 1000 110 150 5 6 1 2 3 4 0) [110; 2; 120; 1; 130; 2; 140; 1]),
          mk_stats 1 0 0 0 0).
Proof.
  eexists. eexists. split.
  - eexists. split; [reflexivity|]. split; vm_compute; reflexivity.
  - split; [|split; [|vm_compute; repeat split; reflexivity]].
    + split.
      * repeat constructor; apply ex_regular; lia.
      * intros i j x y f Hij Hx Hy Hf. cbn [q_items] in *.
        destruct i as [|[|[|[|i]]]]; destruct j as [|[|[|[|j]]]]; cbn in Hx, Hy; try lia;
          try (destruct i; discriminate); try (destruct j; discriminate);
          injection Hx as <-; injection Hy as <-; cbn in Hf |- *; unfold e_ts; cbn;
          destruct Hf as [<-|[<-|[]]]; cbn; lia.
    + intros k x. do 4 (destruct k as [|k]; [cbn; intros [= <-]; reflexivity|]). destruct k; discriminate.
Qed.

(** Too old, too new (running, then stopped), empty buffer. *)
Example C10_example :
  exists r q, reached 6 ex_ops r q /\
    data_request 3 ex_link 10 (bs_lb e_ts) true false r (ex_request 90 150) ex_stats =
      Ok (kNotFound, Some (mk_fragment (mk_header 77 1000 90 150 5 6 1 2 3 4 8) []), mk_stats 0 1 1 0 0) /\
    data_request 3 ex_link 10 (bs_lb e_ts) true false r (ex_request 110 161) ex_stats =
      Ok (kNotYet, None, mk_stats 0 0 0 1 0) /\
    data_request 3 ex_link 10 (bs_lb e_ts) false false r (ex_request 110 161) ex_stats =
      Ok (kNotFound, Some (mk_fragment (mk_header 77 1000 110 161 5 6 1 2 3 4 8) []), mk_stats 0 1 0 1 0) /\
    data_request 3 ex_link 10 (sl_lb e_ts) true false [] (ex_request 110 161) ex_stats =
      Ok (kNotFound, Some (mk_fragment (mk_header 77 1000 110 161 5 6 1 2 3 4 8) []), mk_stats 0 1 0 0 0).
Proof.
  eexists. eexists. split.
  - eexists. split; [reflexivity|]. split; vm_compute; reflexivity.
  - vm_compute. repeat split; reflexivity.
Qed.

(** C10, refuted for reversed windows: begin after end is put off as "not yet" on the fixed-rate ring
    although it passes the test for availability, but answered at once on the binary-search ring. *)
Theorem C10_reversed_window_refuted :
  exists (ops : list (op elem)) (r : ring elem) (q : queue elem) (dr : request),
    reached 6 ops r q /\ rq_end dr < rq_begin dr /\
    classify true (q_items q) (rq_begin dr) (rq_end dr) = kFound /\
    (exists s', data_request 3 ex_link 10 (fr_lb e_ts e_num 10) true false r dr ex_stats = Ok (kNotYet, None, s')) /\
    (exists h s', data_request 3 ex_link 10 (bs_lb e_ts) true false r dr ex_stats =
       Ok (kFound, Some (mk_fragment h []), s')).
Proof.
  exists ex_ops. eexists. eexists. exists (ex_request 500 150). split.
  - eexists. split; [reflexivity|]. split; vm_compute; reflexivity.
  - split; [reflexivity|]. split; [vm_compute; reflexivity|].
    split; [eexists; vm_compute; reflexivity|eexists; eexists; vm_compute; reflexivity].
Qed.
Print Assumptions C10_reversed_window_refuted.

Example C11_example :
  fg_header (create_empty_fragment 3 ex_link (ex_request 110 150)) = mk_header 77 1000 110 150 5 6 1 2 3 4 8.
Proof. reflexivity. Qed.

(** The same contents in a skip list: the frame at 110 lies in the window but is not delivered. *)
Example C56_example :
  let l := snd (sl_run e_ts [] [SWrite (ex_elem 120); SWrite (ex_elem 100); SWrite (ex_elem 160); SWrite (ex_elem 140)]) in
  window_bytes l 110 150 = [110; 2; 120; 1; 130; 2; 140; 1] /\
  data_request 3 ex_link 10 (sl_lb e_ts) true false l (ex_request 110 150) ex_stats =
    Ok (kFound, Some (mk_fragment (mk_header 77 1000 110 150 5 6 1 2 3 4 0) [120; 1; 130; 2; 140; 1]),
        mk_stats 1 0 0 0 0).
Proof. vm_compute. split; reflexivity. Qed.

(** Four PACMAN messages; the same request answered in full, in part, with nothing, and not at all. *)
Definition ex_msg (t : Z) : elem := mk_elem [mk_frame t [t]].
Example C57_example :
  let l := snd (sl_run e_ts [] [SWrite (ex_msg 10); SWrite (ex_msg 20); SWrite (ex_msg 30); SWrite (ex_msg 40)]) in
  let answer g := data_request 3 ex_link 0 (pacman_lb e_ts g) true false l (ex_request 20 40) ex_stats in
  let h := mk_header 77 1000 20 40 5 6 1 2 3 4 0 in
  answer 0 = Ok (kFound, Some (mk_fragment h [20; 30]), mk_stats 1 0 0 0 0) /\
  answer 21 = Ok (kFound, Some (mk_fragment h [30]), mk_stats 1 0 0 0 0) /\
  answer 33 = Ok (kFound, Some (mk_fragment h []), mk_stats 1 0 0 0 0) /\
  answer 41 = Ok (kNotYet, None, mk_stats 0 0 0 1 0).
Proof. vm_compute. repeat split; reflexivity. Qed.

(** An SSP event with a two-byte header: 1014 bytes in memory, 1012 in the fragment. *)
Example C58_example :
  exists r q h s', reached 4 [OWrite (ssp_elem (mk_ssp 100 [7; 8] (map Z.of_nat (seq 0 1012))));
                           OWrite (ssp_elem (mk_ssp 125 [7; 9] (map Z.of_nat (seq 0 1012))))] r q /\
    data_request 3 ex_link 25 (bs_lb e_ts) true false r (ex_request 100 125) ex_stats =
      Ok (kFound, Some (mk_fragment h ([7; 8] ++ map Z.of_nat (seq 0 1010))), s').
Proof.
  do 4 eexists. split.
  - eexists. split; [reflexivity|]. split; vm_compute; reflexivity.
  - vm_compute. reflexivity.
Qed.
