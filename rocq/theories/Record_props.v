(** C18 and C19: recording while data arrives and the buffer is cleaned up. *)
From Coq Require Import ZArith List Bool Lia Sorted.
From Verif Require Import Base_model Ring_model Ring_spec Record_model Record_spec Record_proofs Record_proofs2 Record_proofs3.
Import ListNotations.
Open Scope Z_scope.

(** A concrete readout: elements are their own timestamps and last 10 ticks. *)
Definition ex_ts (x : Z) : Z := x.
Definition ex_dur (x : Z) : Z := 10.
Definition ex_quota (o : Z) : Z := o / 2.
Notation ex_run := (arun ex_ts ex_dur 2 ex_quota).
Definition rsteps (k : nat) : list (action Z) := repeat (ARec false) k.
Definition csteps (k : nat) : list (action Z) := repeat AClean k.

(** Data 10, 20; recording writes both; more data; a clean-up in the middle of a recording pass; end. *)
Definition ex_schedule : list (action Z) :=
  [AWrite 10; AWrite 20; AStart] ++ rsteps 10 ++ [AWrite 30; AWrite 45; AWrite 55] ++ csteps 2 ++
  rsteps 6 ++ csteps 6 ++ rsteps 40 ++ [ARec true].

Definition ex_end : rstate Z := match ex_run (init 8) ex_schedule with Some s => s | None => init 8 end.

(** Whatever the interleaving of arrivals, clean-ups and the recording, as long as the recording does
    not take its starting point from an element that is being removed at that very moment: the file
    holds exactly the accepted elements from the starting timestamp up to some timestamp, in order of
    arrival; and while the recording runs every element of that range that is removed from the buffer
    has been written first. *)
Theorem C18_recording_is_gapless :
  forall (E : Type) (ts dur : E -> Z) limit quota n (acts : list (action E)) s,
  supported_size n -> arun ts dur limit quota (init n) acts = Some s ->
  proper_data ts dur (s_all s) -> calm ts dur limit quota (init n) acts ->
  match s_first s with
  | None => s_file s = []
  | Some t =>
      exists u, s_upto s <= u /\ (s_rpc s = RIdle -> u = s_upto s) /\
        s_file s = between ts t u (s_all s) /\
        (s_rpc s <> RIdle -> forall x, In x (removed s) -> t <= ts x -> In x (s_file s))
  end.
Proof. exact (@recorded_lemma). Qed.
Print Assumptions C18_recording_is_gapless.

Lemma nth5 : forall (l : list Z) i x, nth_error l i = Some x -> (i < length l)%nat.
Proof. intros l i x H. apply nth_error_Some. congruence. Qed.

Example C18_recording_is_gapless_ex :
  ex_run (init 8) ex_schedule = Some ex_end /\ proper_data ex_ts ex_dur (s_all ex_end) /\
  calm ex_ts ex_dur 2 ex_quota (init 8) ex_schedule /\
  s_first ex_end = Some 10 /\ s_upto ex_end = 65 /\ s_file ex_end = [10; 20; 30; 45; 55] /\
  s_all ex_end = [10; 20; 30; 45; 55] /\ s_popped ex_end = 2%nat.
Proof.
  split; [vm_compute; reflexivity|]. split; [|split].
  - assert (s_all ex_end = [10; 20; 30; 45; 55]) as -> by (vm_compute; reflexivity). split.
    + intros x [<-|[<-|[<-|[<-|[<-|[]]]]]]; unfold ex_ts, ex_dur, max_u64; lia.
    + intros i j x y Hij Hx Hy. pose proof (nth5 _ _ _ Hy) as Hj. cbn [length] in Hj. unfold ex_ts, ex_dur.
      destruct i as [|[|[|[|i]]]]; destruct j as [|[|[|[|[|j]]]]]; try lia; cbn in Hx, Hy;
        try injection Hx as <-; try injection Hy as <-; lia.
  - vm_compute. repeat split; intros; try discriminate; congruence.
  - vm_compute. repeat split; reflexivity.
Qed.

(** Under every interleaving without exception, the file contains only accepted elements, each
    starting at or after the end of the ones before it (so none is repeated or out of order). *)
Theorem C18_file_in_sequence :
  forall (E : Type) (ts dur : E -> Z) limit quota n (acts : list (action E)) s,
  arun ts dur limit quota (init n) acts = Some s -> sane_data ts dur (s_all s) ->
  in_sequence ts dur (s_file s) /\ (forall x, In x (s_file s) -> In x (s_all s)).
Proof. exact (@in_sequence_lemma). Qed.
Print Assumptions C18_file_in_sequence.

(** One undisturbed pass writes everything stored from the next timestamp on, provided an element at or
    before that timestamp is still stored (and not more than the 1000 chunks of one pass). *)
Theorem C18_recording_catches_up :
  forall (E : Type) (ts dur : E -> Z) limit quota n (acts : list (action E)) s N,
  supported_size n -> arun ts dur limit quota (init n) acts = Some s ->
  proper_data ts dur (s_all s) -> s_crashed s = false -> s_rpc s = RTop -> s_cpc s = CIdle ->
  s_requested s = false -> s_next s = N -> N <> 0 ->
  (exists x, In x (stored s) /\ ts x <= N) -> (length (stored s) <= 1000)%nat ->
  exists m s', arun ts dur limit quota s (repeat (ARec false) m) = Some s' /\ s_rpc s' = RTop /\
    stored s' = stored s /\ s_file s' = s_file s ++ filter (fun x => N <=? ts x) (stored s).
Proof. exact (@catches_up_lemma). Qed.
Print Assumptions C18_recording_catches_up.

(** State reached after 10, 20 were recorded and 30, 45 arrived. *)
Definition ex_mid : rstate Z :=
  match ex_run (init 8) ([AWrite 10; AWrite 20; AStart] ++ rsteps 15 ++ [AWrite 30; AWrite 45]) with Some s => s | None => init 8 end.
Example C18_recording_catches_up_ex :
  s_rpc ex_mid = RTop /\ s_cpc ex_mid = CIdle /\ s_requested ex_mid = false /\ s_crashed ex_mid = false /\
  s_next ex_mid = 30 /\ stored ex_mid = [10; 20; 30; 45] /\ s_file ex_mid = [10; 20] /\
  filter (fun x => 30 <=? ex_ts x) (stored ex_mid) = [30; 45].
Proof. vm_compute. repeat split; reflexivity. Qed.

(** No step dereferences a null pointer if the clean-up share is below one. *)
Theorem C18_no_null_dereference :
  forall (E : Type) (ts dur : E -> Z) limit quota n (acts : list (action E)) s,
  supported_size n -> 0 <= limit -> (forall o, 0 < o -> quota o < o) ->
  arun ts dur limit quota (init n) acts = Some s -> proper_data ts dur (s_all s) ->
  calm ts dur limit quota (init n) acts -> s_crashed s = false.
Proof. exact (@no_crash_lemma). Qed.
Print Assumptions C18_no_null_dereference.

Example C18_no_null_dereference_ex : forall o, 0 < o -> ex_quota o < o.
Proof. intros o Ho. unfold ex_quota. apply Z.div_lt; lia. Qed.

(** The code reads the element several times (its timestamp, its bytes while they are copied to the
    file, its timestamp and number of frames again). Whenever the recording thread is at one of these
    reads, however often it looks at the slot and whatever the producer and the clean-up do before each
    look, every look finds the same element, the one that is written to the file; and if it is one
    that is written, it is still in the buffer after the last look. *)
Theorem C18_element_is_not_torn :
  forall (E : Type) (ts dur : E -> Z) limit quota n (acts : list (action E)) s i,
  supported_size n -> arun ts dur limit quota (init n) acts = Some s ->
  proper_data ts dur (s_all s) -> calm ts dur limit quota (init n) acts ->
  (exists k, s_rpc s = RDeref i k) \/ (exists e k, s_rpc s = RUpd e i k) ->
  exists e, s_mem s i = Some e /\ In e (s_all s) /\
    (forall e' k, s_rpc s = RUpd e' i k -> e' = e) /\
    forall gaps l s', Forall by_others gaps -> looks ts dur limit quota s i gaps = Some (l, s') ->
      proper_data ts dur (s_all s') ->
      l = repeat (Some e) (length gaps) /\ s_rpc s' = s_rpc s /\ (s_next s <= ts e -> In e (stored s')).
Proof. exact (@not_torn_lemma). Qed.
Print Assumptions C18_element_is_not_torn.

(** In a ring of four slots: 10 is recorded, 20 is being read; three looks, before which the clean-up
    removes 10, new data fills the ring, one arrival is refused, and the clean-up stops at 20. *)
Definition read_schedule : list (action Z) := [AWrite 10; AWrite 20; AStart] ++ rsteps 11 ++ [AWrite 30].
Definition read_gaps : list (list (action Z)) := [csteps 4; [AWrite 40; AWrite 50]; csteps 2 ++ [AWrite 50]].
Definition ex_reading : rstate Z := match ex_run (init 4) read_schedule with Some s => s | None => init 4 end.
Example C18_element_is_not_torn_ex :
  ex_run (init 4) read_schedule = Some ex_reading /\ s_rpc ex_reading = RDeref 1 1 /\
  calm ex_ts ex_dur 2 ex_quota (init 4) read_schedule /\ s_next ex_reading = 20 /\ Forall by_others read_gaps /\
  match looks ex_ts ex_dur 2 ex_quota ex_reading 1 read_gaps with
  | Some (l, s') => l = [Some 20; Some 20; Some 20] /\ s_all s' = [10; 20; 30; 40] /\ stored s' = [20; 30; 40]
  | None => False
  end.
Proof.
  split; [vm_compute; reflexivity|]. split; [vm_compute; reflexivity|].
  split; [vm_compute; repeat split; intros; try discriminate; congruence|].
  split; [vm_compute; reflexivity|]. split; [|vm_compute; repeat split; reflexivity].
  unfold read_gaps, by_others. repeat (apply Forall_cons || apply Forall_nil || exact I).
Qed.

(** The excluded interleaving: the clean-up compares the front element before the record command and
    pops it after the recording has taken its timestamp as the starting point. On gap-free data the
    recording then writes nothing at all, whatever happens until its time is over. *)
Definition race : list (action Z) :=
  [AWrite 10; AWrite 20; AWrite 30] ++ csteps 3 ++ [AStart] ++ rsteps 2 ++ csteps 1 ++ rsteps 1 ++ csteps 2 ++ rsteps 4.

Theorem C18_start_race_refuted :
  exists acts s, ex_run (init 8) acts = Some s /\ s_all s = [10; 20; 30] /\ s_rpc s = RTop /\ s_file s = [] /\
    s_first s = Some 10 /\ removed s = [10] /\
    forall acts' s', not_expired acts' -> (forall x, In x (arrivals acts') -> 10 < x) ->
      ex_run s acts' = Some s' -> s_file s' = [].
Proof.
  exists race.
  destruct (ex_run (init 8) race) as [s|] eqn:Er; [|vm_compute in Er; discriminate].
  exists s. split; [reflexivity|].
  assert (s = match ex_run (init 8) race with Some s => s | None => init 8 end) as Es by (rewrite Er; reflexivity).
  assert (s_all s = [10; 20; 30] /\ s_rpc s = RTop /\ s_file s = [] /\ s_first s = Some 10 /\ removed s = [10] /\
          behind_gap ex_ts s 10) as (H1 & H2 & H3 & H4 & H5 & H6).
  { rewrite Es. clear. vm_compute. repeat split; try reflexivity; try discriminate.
    intros x [<-|[<-|[]]]; reflexivity. }
  repeat split; try assumption.
  intros acts' s' Hex Hx Hr.
  destruct (stall_lemma ex_ts ex_dur 2 ex_quota 8 race s 10 acts' s' ltac:(unfold supported_size; lia) Er H6 Hex Hx Hr) as [Hf _].
  rewrite Hf. exact H3.
Qed.
Print Assumptions C18_start_race_refuted.

(** C19: once everything older than a gap has been removed, the recording neither writes anything nor
    lets the clean-up remove anything until its time is over; the buffer fills up and refuses data. *)
Theorem C19_gap_stalls_recording_and_cleanup :
  forall (E : Type) (ts dur : E -> Z) limit quota n (acts : list (action E)) s N acts' s',
  supported_size n -> arun ts dur limit quota (init n) acts = Some s ->
  behind_gap ts s N -> not_expired acts' -> (forall x, In x (arrivals acts') -> N < ts x) ->
  arun ts dur limit quota s acts' = Some s' ->
  s_file s' = s_file s /\ s_next s' = N /\ s_popped s' = s_popped s /\
  stored s' = firstn (Z.to_nat (n - 1)) (stored s ++ arrivals acts').
Proof. exact (@stall_lemma). Qed.
Print Assumptions C19_gap_stalls_recording_and_cleanup.

(** The situation is reached: 10 and 20 recorded, a gap, then a clean-up that removes 10 and 20. *)
Definition gap_schedule : list (action Z) :=
  [AWrite 10; AWrite 20; AStart] ++ rsteps 15 ++ [AWrite 100; AWrite 110] ++ csteps 8.
Definition ex_gap : rstate Z := match ex_run (init 5) gap_schedule with Some s => s | None => init 5 end.
Definition after_gap : list (action Z) := [AWrite 120] ++ rsteps 9 ++ [AWrite 130; AWrite 140] ++ csteps 5 ++ [AWrite 150] ++ csteps 2.
Example C19_gap_reached :
  ex_run (init 5) gap_schedule = Some ex_gap /\ behind_gap ex_ts ex_gap 30 /\ s_file ex_gap = [10; 20] /\
  match ex_run ex_gap after_gap with
  | Some s' => s_file s' = [10; 20] /\ stored s' = [100; 110; 120; 130] /\ s_next s' = 30
  | None => False
  end.
Proof.
  vm_compute. repeat split; try reflexivity; try discriminate.
  intros x [<-|[<-|[]]]; reflexivity.
Qed.
