(** C78: a request answered while data keep arriving. *)
From Coq Require Import ZArith List Bool Lia.
From Verif Require Import Base_model Ring_model Ring_spec Ring_proofs Search_model Search_spec Search_proofs Elem_model
  Request_model Request_spec Request_proofs Request_props Busy_model Busy_spec Busy_proofs Busy_proofs2 Busy_proofs3.
Import ListNotations.
Open Scope Z_scope.

(** C78. Binary-search ring, any flag, any window, on hardware where relaxed loads synchronise: under every schedule
    of the consumer's steps between the accesses of the request, and whatever older index values the loads return,
    the request is answered as if the buffer had stood still at one moment of it. In particular it ends and touches
    stored elements only. *)
Theorem C78_binary_search_ring :
  forall (dnf : Z) (lk : link) (tick n : Z) (ops : list (op elem)) (r : ring elem) (q : queue elem)
         (running flag : bool) (gs : list gap) (dr : request) (s : stats),
    supported_size n -> Forall supported_op ops -> reached n ops r q -> 0 <= dnf -> 0 <= tick ->
    wf tick (contents (q_size q) (q_items q) (steps_of gs)) ->
    answered_as_at_a_moment dnf lk (q_size q) running (q_items q) gs dr s
      (busy_request true dnf lk tick (fun r k _ => bs_lower_bound e_ts r k) running gs (sh_start r flag) dr s).
Proof.
  intros dnf lk tick n ops r q running flag gs dr s Hn Hf Hr Hd Ht Hwf.
  destruct (reached_sim n ops r q Hn Hf Hr) as [H Hsz].
  destruct (busy_reply dnf lk tick _ (q_size q) (r_read r) (q_items q) flag gs true r running dr s H eq_refl Hsz Hd Ht Hwf
              (bs_fine tick _ _ _ flag gs dr Hwf)) as [X|[X _]]; [exact X|discriminate X].
Qed.
Print Assumptions C78_binary_search_ring.

(** C78. The same for the fixed-rate ring, if whenever no gap is on record the buffer has none. A gap that arrives
    after the newest timestamp was looked up does not matter, even though the arithmetic lookup comes later. *)
Theorem C78_fixed_rate_ring :
  forall (dnf : Z) (lk : link) (tick n : Z) (ops : list (op elem)) (r : ring elem) (q : queue elem)
         (running flag : bool) (gs : list gap) (dr : request) (s : stats),
    supported_size n -> Forall supported_op ops -> reached n ops r q -> 0 <= dnf -> 0 < tick ->
    wf tick (contents (q_size q) (q_items q) (steps_of gs)) ->
    gaps_on_record tick (q_size q) (q_items q) flag gs -> rq_begin dr <= rq_end dr ->
    answered_as_at_a_moment dnf lk (q_size q) running (q_items q) gs dr s
      (busy_request true dnf lk tick (fr_lower_bound e_ts e_num tick) running gs (sh_start r flag) dr s).
Proof.
  intros dnf lk tick n ops r q running flag gs dr s Hn Hf Hr Hd Ht Hwf Hg Hbe.
  destruct (reached_sim n ops r q Hn Hf Hr) as [H Hsz].
  destruct (busy_reply dnf lk tick _ (q_size q) (r_read r) (q_items q) flag gs true r running dr s H eq_refl Hsz Hd
              ltac:(lia) Hwf (fr_fine tick _ _ _ flag gs dr Ht Hwf Hg Hbe)) as [X|[X _]]; [exact X|discriminate X].
Qed.
Print Assumptions C78_fixed_rate_ring.

(** C78. That is so while the consumer works on payloads with no gap between them, or with one gap if none is on
    record yet, wherever in its work the request overtakes it. *)
Theorem C78_until_a_second_gap :
  forall (dnf : Z) (lk : link) (tick n : Z) (ops : list (op elem)) (r : ring elem) (q : queue elem)
         (running flag : bool) (gs : list gap) (x0 : elem) (l : list elem) (xs : list elem) (more : list arrival)
         (dr : request) (s : stats),
    supported_size n -> Forall supported_op ops -> reached n ops r q -> 0 <= dnf -> 0 < tick ->
    q_items q = x0 :: l -> wf tick (contents (q_size q) (q_items q) (steps_of gs)) ->
    consumer_steps (tick * e_num x0) (newest_ts (x0 :: l)) xs = steps_of gs ++ more ->
    (flag = true /\ gaps (tick * e_num x0) (newest_ts (x0 :: l)) xs = 0%nat \/
     flag = false /\ gap_free tick (q_size q) (x0 :: l) /\
       (gaps (tick * e_num x0) (newest_ts (x0 :: l)) xs <= 1)%nat) ->
    rq_begin dr <= rq_end dr ->
    answered_as_at_a_moment dnf lk (q_size q) running (q_items q) gs dr s
      (busy_request true dnf lk tick (fr_lower_bound e_ts e_num tick) running gs (sh_start r flag) dr s).
Proof.
  intros dnf lk tick n ops r q running flag gs x0 l xs more dr s Hn Hf Hr Hd Ht El Hwf Ec Hg Hbe.
  apply (C78_fixed_rate_ring dnf lk tick n ops); try assumption. rewrite El.
  apply (recorded tick (q_size q) x0 l flag gs xs more Ec Hg).
Qed.
Print Assumptions C78_until_a_second_gap.

(** C78. By the rules of the language alone (relaxed loads do not synchronise), the request is answered likewise or
    has a data race; the race needs an element stored before the newest timestamp is looked up. *)
Theorem C78_at_most_one_race :
  forall (dnf : Z) (lk : link) (tick n : Z) (ops : list (op elem)) (r : ring elem) (q : queue elem)
         (running flag : bool) (gs : list gap) (dr : request) (s : stats),
    supported_size n -> Forall supported_op ops -> reached n ops r q -> 0 <= dnf -> 0 < tick ->
    wf tick (contents (q_size q) (q_items q) (steps_of gs)) ->
    gaps_on_record tick (q_size q) (q_items q) flag gs -> rq_begin dr <= rq_end dr ->
    let reply := busy_request false dnf lk tick (fr_lower_bound e_ts e_num tick) running gs (sh_start r flag) dr s in
    answered_as_at_a_moment dnf lk (q_size q) running (q_items q) gs dr s reply \/
    (reply = Crash /\ ~ nothing_stored_before 3 gs).
Proof.
  intros dnf lk tick n ops r q running flag gs dr s Hn Hf Hr Hd Ht Hwf Hg Hbe.
  destruct (reached_sim n ops r q Hn Hf Hr) as [H Hsz].
  destruct (busy_reply dnf lk tick _ (q_size q) (r_read r) (q_items q) flag gs false r running dr s H eq_refl Hsz Hd
              ltac:(lia) Hwf (fr_fine tick _ _ _ flag gs dr Ht Hwf Hg Hbe)) as [X|(_ & X & Y)]; [left; exact X|right].
  split; [exact X|exact Y].
Qed.
Print Assumptions C78_at_most_one_race.

(** C78. The race exists whatever the buffer holds, unless it is empty or full: back() loads writeIndex_ relaxed, so an
    element published after front() is read unsynchronised. *)
Theorem C78_newest_read_unsynchronised_refuted :
  forall (dnf : Z) (lk : link) (tick n : Z) (search : ring elem -> Z -> bool -> search_res) (ops : list (op elem))
         (r : ring elem) (q : queue elem) (running flag : bool) (x : elem) (dr : request) (s : stats),
    supported_size n -> Forall supported_op ops -> reached n ops r q ->
    q_items q <> [] -> Z.of_nat (length (q_items q)) < q_size q - 1 ->
    busy_request false dnf lk tick search running [mk_gap [] 0; mk_gap [] 0; mk_gap [AStore x] 1] (sh_start r flag) dr s = Crash.
Proof.
  intros dnf lk tick n search ops r q running flag x dr s Hn Hf Hr Hne Hroom.
  destruct (reached_sim n ops r q Hn Hf Hr) as [H Hsz].
  apply (unsynchronised dnf lk tick search running (q_size q) r (q_items q)); assumption.
Qed.
Print Assumptions C78_newest_read_unsynchronised_refuted.

Definition busy_ops : list (op elem) :=
  [OWrite (ex_elem 0); OWrite (ex_elem 20); OPop 1; OWrite (ex_elem 40); OWrite (ex_elem 60); OWrite (ex_elem 80)].
Definition gap_ops : list (op elem) :=
  [OWrite (ex_elem 0); OWrite (ex_elem 20); OWrite (ex_elem 100); OWrite (ex_elem 120); OWrite (ex_elem 140)].

(** C78. A gap is on record and in the buffer, and the consumer finds another one: it erases the old record before
    it enters the new one, and has_error() takes no lock. A request in between uses the arithmetic lookup on data
    with a gap. Here it is answered "found" without the two stored frames of its window. *)
Theorem C78_second_gap_refuted :
  exists (r : ring elem) (q : queue elem) (gs : list gap) (xs : list elem) (more : list arrival) (dr : request) (fr : fragment) (s' : stats),
    reached 8 gap_ops r q /\ wf 10 (contents 8 (q_items q) (steps_of gs)) /\
    consumer_steps 20 (newest_ts (q_items q)) xs = steps_of gs ++ more /\ gaps 20 (newest_ts (q_items q)) xs = 1%nat /\
    rq_begin dr <= rq_end dr /\
    busy_request true 3 ex_link 10 (fr_lower_bound e_ts e_num 10) true gs (sh_start r true) dr ex_stats = Ok (kFound, Some fr, s') /\
    fg_bytes fr = [] /\ window_bytes (q_items q) (rq_begin dr) (rq_end dr) = [100; 1; 110; 2].
Proof.
  eexists. eexists. exists [mk_gap [] 0; mk_gap [] 0; mk_gap [] 0; mk_gap [AErase] 0], [ex_elem 300], [AInsert; AStore (ex_elem 300)].
  exists (ex_request 100 120). eexists. eexists.
  split; [eexists; split; [reflexivity|]; split; vm_compute; reflexivity|].
  split.
  { split.
    - cbn. repeat constructor; try discriminate; cbn; try lia;
      intros [|[|[|k]]] f Hf; cbn in Hf; try discriminate; injection Hf as <-; cbn; lia.
    - intros i j x y f Hij Hx Hy Hfr. cbn in Hx, Hy.
      destruct i as [|[|[|[|[|[|i]]]]]]; cbn in Hx; try discriminate; injection Hx as <-;
      destruct j as [|[|[|[|[|[|j]]]]]]; cbn in Hy; try discriminate; try lia; injection Hy as <-;
      cbn in Hfr; destruct Hfr as [<-|[<-|[]]]; cbn; lia. }
  split; [vm_compute; reflexivity|]. split; [vm_compute; reflexivity|]. split; [cbn; lia|].
  split; [vm_compute; reflexivity|]. split; vm_compute; reflexivity.
Qed.
Print Assumptions C78_second_gap_refuted.

(** Four elements stored, the ring wraps; two more arrive, one after the newest timestamp was looked up and one
    inside the extraction loop, the second after a gap. The index loads return older values in places. *)
Definition busy_gaps : list gap :=
  [mk_gap [] 0; mk_gap [AStore (ex_elem 100)] 0; mk_gap [] 1; mk_gap [AErase] 0; mk_gap [AInsert; AStore (ex_elem 200)] 1;
   mk_gap [] 0; mk_gap [] 2; mk_gap [] 2].

Example C78_example :
  match ring_new 8 with
  | Crash => False
  | Ok r0 =>
    match snd (run r0 busy_ops), snd (q_run (q_new 8) busy_ops) with
    | Ok r, Ok q =>
      map e_ts (q_items q) = [20; 40; 60; 80] /\
      map e_ts (contents 8 (q_items q) (steps_of busy_gaps)) = [20; 40; 60; 80; 100; 200] /\
      consumer_steps 20 (newest_ts (q_items q)) [ex_elem 100; ex_elem 200] = steps_of busy_gaps /\
      gaps 20 (newest_ts (q_items q)) [ex_elem 100; ex_elem 200] = 1%nat /\
      (* the window reaches past what was stored when the request began *)
      (exists h s', busy_request true 3 ex_link 10 (fr_lower_bound e_ts e_num 10) true busy_gaps (sh_start r false)
                      (ex_request 70 95) ex_stats = Ok (kFound, Some (mk_fragment h [70; 2; 80; 1; 90; 2]), s')) /\
      (* by the language rules this schedule races *)
      busy_request false 3 ex_link 10 (fr_lower_bound e_ts e_num 10) true busy_gaps (sh_start r false)
                      (ex_request 70 95) ex_stats = Crash /\
      (* one not yet there at the look-up is put off, though it arrives during the request *)
      (exists s', busy_request true 3 ex_link 10 (fr_lower_bound e_ts e_num 10) true busy_gaps (sh_start r false)
                      (ex_request 70 150) ex_stats = Ok (kNotYet, None, s')) /\
      (exists h s', busy_request true 3 ex_link 10 (fun r k _ => bs_lower_bound e_ts r k) true busy_gaps (sh_start r false)
                      (ex_request 30 65) ex_stats = Ok (kFound, Some (mk_fragment h [30; 2; 40; 1; 50; 2; 60; 1]), s'))
    | _, _ => False
    end
  end.
Proof.
  vm_compute. repeat split; eexists; try eexists; reflexivity.
Qed.

(** Its hypotheses. *)
Example C78_example_hyps : wf 10 (map ex_elem [20; 40; 60; 80; 100; 200]) /\ gap_free 10 8 (map ex_elem [20; 40; 60; 80]).
Proof.
  split; [split|split].
  - cbn. repeat constructor; try discriminate; cbn; try lia;
    intros [|[|[|k]]] f Hf; cbn in Hf; try discriminate; injection Hf as <-; cbn; lia.
  - intros i j x y f Hij Hx Hy Hfr. cbn in Hx, Hy.
    destruct i as [|[|[|[|[|[|[|i]]]]]]]; cbn in Hx; try discriminate; injection Hx as <-;
    destruct j as [|[|[|[|[|[|[|j]]]]]]]; cbn in Hy; try discriminate; try lia; injection Hy as <-;
    cbn in Hfr; destruct Hfr as [<-|[<-|[]]]; cbn; lia.
  - intros [|[|[|[|[|k]]]]] x Hx; cbn in Hx; try discriminate; injection Hx as <-; cbn; lia.
  - vm_compute. reflexivity.
Qed.
