(** With a queue as long as the buffer, for every size: the schedule that misleads the task. *)
From Coq Require Import ZArith List Bool Lia ZifyBool.
From Verif Require Import Base_model Ring_model Ring_spec Ring_proofs Pipe_model Pipe_spec Pipe_proofs.
Import ListNotations.
Open Scope Z_scope.

Section Sharp.
Context {A : Type}.
Variable f : nat -> A.
Variable n : Z.
Hypothesis Hn : 3 <= n <= 2147483648.

Definition store_one (x : A) : list (action A) := AArrive x :: repeat AConsumer 5.
Definition rounds (l : list nat) : list (action A) := flat_map (fun i => store_one (f i) ++ [AClean 1]) l.
Definition rounds_log (l : list nat) : list (event A) := flat_map (fun i => [EStored (f i); EOffer false true; ECleaned 1]) l.

Lemma run_app : forall a b (s s1 s2 : pipe A) l1 l2, pipe_run s a = Ok (s1, l1) -> pipe_run s1 b = Ok (s2, l2) -> pipe_run s (a ++ b) = Ok (s2, l1 ++ l2).
Proof.
  induction a as [|x a IH]; intros b s s1 s2 l1 l2 H1 H2; cbn in *; [injection H1 as <- <-; exact H2|].
  destruct (act s x) as [[t e]|] eqn:E; [|discriminate]. cbn [bind fst snd] in *. destruct (pipe_run t a) as [[u g]|] eqn:E1; [|discriminate].
  cbn [bind fst snd] in H1. injection H1 as <- <-. rewrite (IH b t u s2 g l2 E1 H2). cbn. rewrite app_assoc. reflexivity.
Qed.

Lemma store_ok : forall r l m Q P w x, holds r l -> (length l <= 1)%nat -> r_size r = n -> (length Q < P)%nat ->
  exists r' m' i, pipe_run (mkPipe [] r m CTest Q P w Running) (store_one x) = Ok (mkPipe [] r' m' CTest (Q ++ [Some i]) P w Running, [EStored x; EOffer false true]) /\
    holds r' (l ++ [x]) /\ r_size r' = n.
Proof.
  intros r l m Q P w x H Hl Hr HQ. destruct (write_ok r l x H) as (r' & W & H' & S' & _); [lia|].
  assert (l ++ [x] <> []) as N by (destruct l; discriminate). pose proof (back_index _ _ H' N) as B.
  eexists r', _, _. split; [|split; [exact H'|congruence]].
  unfold store_one. cbn [repeat pipe_run act bind fst snd]. unfold consumer_step at 1, set_consumer, set_ring. cbn [p_consumer p_input p_ring p_mem p_queue p_places p_worker p_command set_consumer marker app bind fst snd orb].
  unfold consumer_step at 1, set_consumer, set_ring. cbn [p_consumer p_input p_ring p_mem p_queue p_places p_worker p_command set_consumer app bind fst snd].
  unfold consumer_step at 1, set_consumer, set_ring. cbn [p_consumer p_input p_ring p_mem p_queue p_places p_worker p_command set_consumer app]. rewrite W. cbn [bind fst snd set_ring set_consumer p_consumer p_input p_ring p_mem p_queue p_places p_worker p_command app].
  unfold consumer_step at 1, set_consumer, set_ring. cbn [p_consumer p_input p_ring p_mem p_queue p_places p_worker p_command set_consumer app bind fst snd]. rewrite B.
  unfold consumer_step at 1, set_consumer, set_ring. cbn [p_consumer p_input p_ring p_mem p_queue p_places p_worker p_command set_consumer app bind fst snd].
  replace (P <=? length Q)%nat with false by (symmetry; apply Nat.leb_gt; lia). cbn [negb app]. reflexivity.
Qed.

Lemma round_ok : forall r y m Q P w x, holds r [y] -> r_size r = n -> (length Q < P)%nat ->
  exists r' m' i, pipe_run (mkPipe [] r m CTest Q P w Running) (store_one x ++ [AClean 1]) =
      Ok (mkPipe [] r' m' CTest (Q ++ [Some i]) P w Running, [EStored x; EOffer false true; ECleaned 1]) /\
    holds r' [x] /\ r_size r' = n.
Proof.
  intros r y m Q P w x H Hr HQ. destruct (store_ok r [y] m Q P w x H ltac:(cbn; lia) Hr HQ) as (r1 & m1 & i & R & H1 & S1).
  destruct (pop_ok 1 r1 _ H1 ltac:(cbn; lia)) as (r2 & E2 & H2 & S2 & _). cbn [app skipn] in H1, H2.
  exists r2, m1, i. split; [|split; [exact H2|congruence]].
  change [EStored x; EOffer false true; ECleaned 1] with ([EStored x; EOffer false true] ++ [@ECleaned A 1]). eapply run_app; [exact R|].
  cbn [pipe_run act p_ring]. rewrite (occupancy_ok _ _ H1). cbn [length]. change (Z.of_nat 1 <=? Z.of_nat 2) with true. cbv iota.
  rewrite E2. cbn [bind fst snd set_ring p_input p_consumer p_queue p_places p_worker p_command]. rewrite (occupancy_ok _ _ H2). reflexivity.
Qed.

Lemma rounds_ok : forall l r y m Q P w, holds r [y] -> r_size r = n -> (length Q + length l <= P)%nat ->
  exists r' m' Q' z, pipe_run (mkPipe [] r m CTest Q P w Running) (rounds l) = Ok (mkPipe [] r' m' CTest Q' P w Running, rounds_log l) /\
    holds r' [z] /\ r_size r' = n.
Proof.
  induction l as [|x l IH]; intros r y m Q P w H Hr HQ.
  - exists r, m, Q, y. split; [reflexivity|]. auto.
  - cbn [length] in HQ. destruct (round_ok r y m Q P w (f x) H Hr ltac:(lia)) as (r1 & m1 & i & R & H1 & S1).
    destruct (IH r1 (f x) m1 (Q ++ [Some i]) P w H1 S1 ltac:(rewrite app_length; cbn; lia)) as (r2 & m2 & Q2 & z & R2 & H2 & S2).
    exists r2, m2, Q2, z. split; [|auto]. change (rounds (x :: l)) with ((store_one (f x) ++ [AClean 1]) ++ rounds l).
    change (rounds_log (x :: l)) with ([EStored (f x); EOffer false true; ECleaned 1] ++ rounds_log l). eapply run_app; eassumption.
Qed.

Definition misled (m : nat) : list (action A) :=
  [AStart] ++ store_one (f 0) ++ [AWorker; AWorker] ++ rounds (seq 1 (m - 1)) ++ [AArrive (f m)] ++ repeat AConsumer 3.
Definition misled_log (m : nat) : list (event A) :=
  [EStored (f 0); EOffer false true; ETaken] ++ rounds_log (seq 1 (m - 1)) ++ [EStored (f m)].

Lemma misled_run : forall q s0, n <= Z.of_nat q -> pipe_new n q = Ok s0 ->
  exists s i, pipe_run s0 (misled (Z.to_nat n)) = Ok (s, misled_log (Z.to_nat n)) /\ p_worker s = WBusy (Some i).
Proof.
  intros q s0 Hq N. unfold pipe_new in N. destruct (ring_new n) as [r0|] eqn:Er; [|discriminate]. cbn [bind] in N. destruct (2 <=? q)%nat; [|discriminate]. injection N as <-.
  assert (H0 : holds r0 [] /\ r_size r0 = n).
  { unfold ring_new in Er. destruct (n <? 2) eqn:E2; [discriminate|]. assert (U : u32 n = n) by (apply u32_small; change two32 with 4294967296; lia). rewrite U in Er. injection Er as <-.
    split; [apply holds_new; unfold supported_size; lia|reflexivity]. }
  destruct H0 as [H0 S0]. assert (P0 : (length (@nil (option Z)) < q - 1)%nat) by (cbn [length]; lia). assert (P1 : (length (@nil A) <= 1)%nat) by (cbn; lia).
  destruct (store_ok r0 [] (fun _ => None) [] (q - 1) WTest (f 0) H0 P1 S0 P0) as (r1 & m1 & i & R1 & H1 & S1).
  cbn [app] in R1, H1.
  destruct (rounds_ok (seq 1 (Z.to_nat n - 1)) r1 (f 0) m1 [] (q - 1) (WBusy (Some i)) H1 S1) as (r2 & m2 & Q2 & z & R2 & H2 & S2); [rewrite seq_length; cbn [length]; lia|].
  destruct (write_ok r2 [z] (f (Z.to_nat n)) H2) as (r3 & E3 & H3 & S3 & _); [cbn [length]; lia|].
  eexists. exists i. unfold misled, misled_log. split.
  - change ([EStored (f 0); EOffer false true; ETaken] ++ rounds_log (seq 1 (Z.to_nat n - 1)) ++ [EStored (f (Z.to_nat n))])
      with ([] ++ [EStored (f 0); EOffer false true] ++ [ETaken] ++ rounds_log (seq 1 (Z.to_nat n - 1)) ++ [EStored (f (Z.to_nat n))]).
    eapply run_app; [reflexivity|]. cbn [p_input p_ring p_mem p_consumer p_queue p_places p_worker].
    eapply run_app; [exact R1|]. eapply run_app; [reflexivity|]. cbn [p_input p_ring p_mem p_consumer p_queue p_places p_worker p_command].
    eapply run_app; [exact R2|].
    cbn [repeat app pipe_run act bind fst snd]. unfold consumer_step at 1, set_consumer, set_ring. cbn [p_consumer p_input p_ring p_mem p_queue p_places p_worker p_command set_consumer marker app bind fst snd orb].
    unfold consumer_step at 1, set_consumer, set_ring. cbn [p_consumer p_input p_ring p_mem p_queue p_places p_worker p_command set_consumer app bind fst snd].
    unfold consumer_step at 1, set_consumer, set_ring. cbn [p_consumer p_input p_ring p_mem p_queue p_places p_worker p_command set_consumer app]. rewrite E3. cbn [bind fst snd app]. reflexivity.
  - reflexivity.
Qed.

Lemma rounds_ledger : forall l d, fold_left note (rounds_log l) d =
  mkLedger (stored d ++ map f l) (waiting d ++ map (fun i => Some i) (seq (length (stored d)) (length l))) (called d).
Proof.
  induction l as [|x l IH]; intros d; cbn [rounds_log flat_map].
  - destruct d. cbn. rewrite !app_nil_r. reflexivity.
  - rewrite fold_left_app. cbn [fold_left note stored waiting called]. rewrite IH. cbn [stored waiting called map length seq]. rewrite !app_length, <- !app_assoc. cbn [length app].
    replace (length (stored d) + 1 - 1)%nat with (length (stored d)) by lia. replace (length (stored d) + 1)%nat with (S (length (stored d))) by lia. reflexivity.
Qed.

Lemma misled_ledger : forall m, (1 <= m)%nat -> stored (ledger_of (misled_log m)) = map f (seq 0 (m + 1)) /\ called (ledger_of (misled_log m)) = [Some 0%nat].
Proof.
  intros m Hm. unfold misled_log, ledger_of. rewrite !fold_left_app. cbn [fold_left note stored waiting called app length Nat.sub].
  rewrite rounds_ledger. cbn [stored called app]. split; [|reflexivity].
  replace (m + 1)%nat with (1 + (m - 1) + 1)%nat by lia. rewrite !seq_app, !map_app. cbn [Nat.add seq map app]. replace (S (m - 1)) with m by lia. reflexivity.
Qed.

Lemma rounds_harmless : forall l e, In e (rounds_log l) -> (exists x, e = EStored x) \/ e = EOffer false true \/ e = ECleaned 1.
Proof. intros l e H. apply in_flat_map in H as (i & _ & H). cbn in H. destruct H as [<-|[<-|[<-|[]]]]; eauto. Qed.

Lemma misled_harmless : forall m, ~ warned (misled_log m) /\ ~ overwritten (misled_log m) /\ ~ emptied (misled_log m).
Proof.
  intros m. assert (K : forall e, In e (misled_log m) -> e = ETaken \/ (exists x, e = EStored x) \/ e = EOffer false true \/ e = ECleaned 1).
  { intros e H. unfold misled_log in H. apply in_app_or in H as [H|H]; [cbn in H; destruct H as [<-|[<-|[<-|[]]]]; eauto|].
    apply in_app_or in H as [H|H]; [right; eapply rounds_harmless; eassumption|]. cbn in H. destruct H as [<-|[]]. eauto. }
  split; [|split].
  - intros [b H]. destruct (K _ H) as [D|[[x D]|[D|D]]]; discriminate D.
  - intros [b H]. destruct (K _ H) as [D|[[x D]|[D|D]]]; discriminate D.
  - intros H. destruct (K _ H) as [D|[[x D]|[D|D]]]; discriminate D.
Qed.

Lemma misled_arrivals : forall m, (1 <= m)%nat -> arrivals (misled m) = map f (seq 0 (m + 1)).
Proof.
  intros m Hm. unfold arrivals, misled. rewrite !flat_map_app. cbn [flat_map app store_one repeat].
  set (g := fun a : action A => match a with AArrive x => [x] | _ => [] end).
  assert (H : forall l, flat_map g (rounds l) = map f l) by (induction l as [|x l IH]; [reflexivity|]; cbn; f_equal; exact IH).
  rewrite H. replace (m + 1)%nat with (1 + (m - 1) + 1)%nat by lia. rewrite !seq_app, !map_app. cbn [Nat.add seq map app]. replace (S (m - 1)) with m by lia. reflexivity.
Qed.
End Sharp.
