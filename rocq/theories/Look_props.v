(** Properties of the look of the waiting-request thread at the newest element (C79). *)
From Coq Require Import ZArith List Bool Lia ZifyBool.
From Verif Require Import Base_model Look_model Look_spec Look_proofs.
Import ListNotations.
Open Scope Z_scope.

(** C79. The fields the statements below speak of: what was received is part of what was offered, in order, and what
    was removed are the removals of the schedule. *)
Theorem C79_bookkeeping :
  forall (E : Type) (ts : E -> Z) (trivial : bool) (n : Z) (acts : list (lkact E)) (s : lkst E),
    lk_run ts trivial (look_new n) acts = Some s ->
    subsequence (k_all s) (offered acts) /\ k_popped s = removals acts.
Proof.
  intros E ts trivial n acts s H. split; [exact (received_offered ts trivial n acts s H)|].
  rewrite (removed_run ts trivial acts (look_new n) s H). reflexivity.
Qed.
Print Assumptions C79_bookkeeping.

(** C79. As long as the element that was the newest when the look began has not been removed, the look gives its
    timestamp, whatever else happens meanwhile. *)
Theorem C79_exact_while_stored :
  forall (E : Type) (ts : E -> Z) (trivial : bool) (n : Z) (acts : list (lkact E)) (s s' : lkst E),
    2 <= n -> lk_run ts trivial (look_new n) acts = Some s -> lk_step ts trivial s KReadTs = Some s' ->
    (k_popped s < k_from s)%nat ->
    exists x, nth_error (k_all s) (k_from s - 1) = Some x /\ k_out s' = Newest (ts x) :: k_out s.
Proof. exact (@exact_result). Qed.
Print Assumptions C79_exact_while_stored.

(** C79. In general it gives the timestamp of an element received, no older than that; it can give anything at all
    only if nothing had ever been received when it began, if the buffer went round once meanwhile, or, for elements
    that own memory, if that element was removed. *)
Theorem C79_what_a_look_gives :
  forall (E : Type) (ts : E -> Z) (trivial : bool) (n : Z) (acts : list (lkact E)) (s s' : lkst E),
    2 <= n -> lk_run ts trivial (look_new n) acts = Some s -> lk_step ts trivial s KReadTs = Some s' ->
    exists res, k_out s' = res :: k_out s /\ (k_from s <= length (k_all s))%nat /\
      match res with
      | Newest t => exists j x, nth_error (k_all s) j = Some x /\ t = ts x /\ (k_from s <= S j)%nat /\
                      (begun s < Z.of_nat (k_from s) + n -> S j = k_from s)
      | Indeterminate => k_from s = 0%nat \/ Z.of_nat (k_from s) + n <= begun s \/
                         trivial = false /\ (k_from s <= k_popped s)%nat
      | NoElement => False
      end.
Proof. exact (@read_result). Qed.
Print Assumptions C79_what_a_look_gives.

(** C79. The look finds no element exactly if all that had been received when it began was removed by the time it
    loads the other index, and nothing newer, or newer elements in whole rounds of the buffer. *)
Theorem C79_no_element :
  forall (E : Type) (ts : E -> Z) (trivial : bool) (n : Z) (acts : list (lkact E)) (s s' : lkst E),
    2 <= n -> lk_run ts trivial (look_new n) acts = Some s -> lk_step ts trivial s KLoadR = Some s' ->
    (k_out s' = NoElement :: k_out s <-> exists k, (k_popped s = k_from s + k * Z.to_nat n)%nat).
Proof. exact (@null_result). Qed.
Print Assumptions C79_no_element.

(** C79. So with data in time order a waiting request is taken up again only if an element newer than the end of its
    window has been received, and it is if one had been when the look began. *)
Theorem C79_taken_up_again :
  forall (E : Type) (ts : E -> Z) (trivial : bool) (n : Z) (acts : list (lkact E)) (s s' : lkst E) (window_end t : Z),
    2 <= n -> lk_run ts trivial (look_new n) acts = Some s -> lk_step ts trivial s KReadTs = Some s' ->
    in_time ts (k_all s) -> hd_error (k_out s') = Some (Newest t) ->
    (window_end < newest_used 0 (Newest t) -> exists x, In x (k_all s) /\ window_end < ts x) /\
    (forall x, In x (firstn (k_from s) (k_all s)) -> window_end < ts x -> window_end < newest_used 0 (Newest t)).
Proof.
  intros E ts trivial n acts s s' we t Hn Hr Hs Hord Ho.
  destruct (read_result ts trivial n acts s s' Hn Hr Hs) as (res & Er & Hfr & Hres). rewrite Er in Ho.
  injection Ho as ->. destruct Hres as (j & x & Hj & -> & Hle & _). cbn [newest_used]. split.
  - intros H. exists x. split; [exact (nth_error_In _ _ Hj)|exact H].
  - intros y Hy Hlt. apply In_nth_error in Hy. destruct Hy as [i Hi].
    assert (i < k_from s)%nat as Hik.
    { pose proof (nth_len _ _ _ Hi) as X. rewrite firstn_length in X. lia. }
    assert (nth_error (k_all s) i = Some y) as Hi'.
    { rewrite <- Hi. clear -Hik. revert i Hik. generalize (k_from s) as m. generalize (k_all s) as l.
      induction l as [|a l IH]; intros m i H; [rewrite firstn_nil; reflexivity|].
      destruct m as [|m]; [lia|]. cbn [firstn]. destruct i as [|i]; [reflexivity|]. cbn. apply IH. lia. }
    pose proof (Hord i j y x ltac:(lia) Hi' Hj). lia.
Qed.
Print Assumptions C79_taken_up_again.

Ltac look_go N1 N2 :=
  repeat (cbn [lk_run lk_step k_look k_new k_size k_w k_r k_slots k_all k_popped k_from k_out]; unfold next_slot;
          change (0 + 1) with 1; change (1 + 1) with 2; rewrite ?N1, ?N2;
          change (1 =? 0) with false; change (2 =? 0) with false; change (2 =? 1) with false;
          change (0 =? 1) with false; change (0 =? 2) with false; change (1 =? 2) with false;
          change (0 =? 0) with true; cbv iota).

(** C79 fails for a look that begins with an empty buffer: in every buffer of three places or more it may read a
    place where nothing was ever stored. *)
Theorem C79_never_stored_refuted :
  forall (E : Type) (ts : E -> Z) (trivial : bool) (n : Z) (x y : E), 3 <= n ->
    exists s, lk_run ts trivial (look_new n)
                [KLoadW; KWrite x; KPublish; KWrite y; KPublish; KPop; KLoadR; KReadTs] = Some s /\
      k_out s = [Indeterminate].
Proof.
  intros E ts trivial n x y Hn.
  assert ((1 =? n) = false) as N1 by lia. assert ((2 =? n) = false) as N2 by lia.
  assert ((n - 1 =? 0) = false) as N3 by lia. assert ((n - 1 =? 1) = false) as N4 by lia.
  eexists. unfold look_new.
  look_go N1 N2. split; [reflexivity|]. cbn [k_out k_slots].
  unfold put. destruct trivial; rewrite ?N3, ?N4; reflexivity.
Qed.
Print Assumptions C79_never_stored_refuted.

(** C79 fails for raw trigger primitives, which own their frame: in every buffer of three places or more a look may
    use the frame of an element the clean-up removes. *)
Theorem C79_removed_element_used_refuted :
  forall (E : Type) (ts : E -> Z) (n : Z) (x y : E), 3 <= n ->
    exists s, lk_run ts false (look_new n)
                [KWrite x; KPublish; KLoadW; KLoadR; KWrite y; KPublish; KPop; KReadTs] = Some s /\
      k_all s = [x; y] /\ k_out s = [Indeterminate].
Proof.
  intros E ts n x y Hn.
  assert ((1 =? n) = false) as N1 by lia. assert ((2 =? n) = false) as N2 by lia.
  eexists. unfold look_new. look_go N1 N2. split; [reflexivity|]. split; reflexivity.
Qed.
Print Assumptions C79_removed_element_used_refuted.

(** A look overtaken by writes and removals on a buffer of three places. *)
Example C79_example :
  option_map (fun s => (k_out s, k_all s, k_popped s))
    (lk_run (fun z : Z => z) true (look_new 3)
       [KWrite 10; KPublish; KWrite 20; KPublish; KLoadW; KLoadR; KPop; KWrite 30; KPublish; KWrite 40; KReadTs;
        KLoadW; KPop; KPop; KLoadR; KLoadW; KLoadR])
  = Some ([NoElement; NoElement; Newest 20], [10; 20; 30], 3%nat).
Proof. vm_compute. reflexivity. Qed.

Example C79_example_in_time : in_time (fun z : Z => z) [10; 20; 30].
Proof.
  intros i j x y H Hx Hy.
  destruct i as [|[|[|[|i]]]]; try discriminate Hx; destruct j as [|[|[|[|j]]]]; try discriminate Hy; try lia;
    injection Hx as <-; injection Hy as <-; discriminate.
Qed.

Example C79_example_overtaken :
  option_map (fun s => (k_out s, k_from s))
    (lk_run (fun z : Z => z) true (look_new 3)
       [KWrite 10; KPublish; KLoadW; KLoadR; KWrite 20; KPublish; KPop; KWrite 30; KPublish; KPop; KWrite 40; KPublish; KReadTs])
  = Some ([Newest 40], 1%nat).
Proof. vm_compute. reflexivity. Qed.
