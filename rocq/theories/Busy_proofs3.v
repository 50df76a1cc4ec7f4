(** Gaps on record while the consumer works, and the unsynchronised look at the newest element. *)
From Coq Require Import ZArith List Bool Lia ZifyBool.
From Verif Require Import Base_model Ring_model Ring_spec Ring_proofs Search_model Search_spec Search_proofs Elem_model
  Lb_model Lb_proofs Request_model Request_spec Request_proofs Busy_model Busy_spec Busy_proofs Busy_proofs2.
Import ListNotations.
Open Scope Z_scope.

Lemma contents_full : forall n steps l, n - 1 <= Z.of_nat (length l) -> contents n l steps = l.
Proof.
  induction steps as [|[| |x] steps IH]; intros l H; cbn [contents]; auto.
  destruct (Z.of_nat (length l) <? n - 1) eqn:E; [lia|]. apply IH. exact H.
Qed.

Lemma no_gap_no_erase : forall d xs prev, gaps d prev xs = 0%nat -> ~ In AErase (consumer_steps d prev xs).
Proof.
  intros d. induction xs as [|x xs IH]; intros prev H; [intros []|]. cbn [gaps consumer_steps] in *.
  destruct (e_ts x =? prev + d); [|lia]. intros [X|X]; [discriminate|]. apply (IH (e_ts x)); [exact H|exact X].
Qed.

Lemma on_record_stays : forall steps, ~ In AErase steps -> on_record true steps = true.
Proof.
  induction steps as [|[| |x] steps IH]; intros H; cbn [on_record]; try reflexivity.
  - exfalso. apply H. left. reflexivity.
  - apply IH. intros X. apply H. right. exact X.
  - apply IH. intros X. apply H. right. exact X.
Qed.

Lemma newest_app : forall l x, newest_ts (l ++ [x]) = e_ts x.
Proof. intros l x. unfold newest_ts. rewrite rev_app_distr. reflexivity. Qed.

Lemma gap_free_app : forall tick n x0 l x, gap_free tick n (x0 :: l) ->
  e_ts x = newest_ts (x0 :: l) + tick * e_num x0 -> gap_free tick n ((x0 :: l) ++ [x]).
Proof.
  intros tick n x0 l x [Hsp Hov] Hx. cbn [app gap_free]. split; [|exact Hov].
  intros k y Hy. destruct (Nat.lt_ge_cases k (length (x0 :: l))) as [Hk|Hk].
  - apply Hsp. change (x0 :: l ++ [x]) with ((x0 :: l) ++ [x]) in Hy. rewrite nth_error_app1 in Hy by exact Hk. exact Hy.
  - change (x0 :: l ++ [x]) with ((x0 :: l) ++ [x]) in Hy. rewrite nth_error_app2 in Hy by exact Hk.
    assert (k = length (x0 :: l)) as ->.
    { assert (nth_error [x] (k - length (x0 :: l)) <> None) as X by congruence. apply nth_error_Some in X. cbn [length] in *. lia. }
    rewrite Nat.sub_diag in Hy. cbn in Hy. injection Hy as <-. rewrite Hx.
    destruct (nth_error (x0 :: l) (length (x0 :: l) - 1)) as [z|] eqn:Ez; [|apply nth_error_None in Ez; cbn [length] in Ez; lia].
    rewrite (newest_last _ _ Ez). rewrite (Hsp _ _ Ez). cbn [length] in *.
    replace (Z.of_nat (S (length l) - 1)) with (Z.of_nat (length l)) by lia.
    replace (Z.of_nat (S (length l))) with (Z.of_nat (length l) + 1) by lia. ring.
Qed.

Lemma first_gap_recorded : forall tick n d xs prev l before after,
  match l with [] => False | x0 :: _ => d = tick * e_num x0 end ->
  gap_free tick n l -> newest_ts l = prev \/ n - 1 <= Z.of_nat (length l) -> (gaps d prev xs <= 1)%nat ->
  consumer_steps d prev xs = before ++ after -> on_record false before = false ->
  gap_free tick n (contents n l before).
Proof.
  intros tick n d. induction xs as [|x xs IH]; intros prev l before after Hd Hg Hp Hc E Hr.
  - cbn [consumer_steps] in E. destruct before; [|discriminate]. exact Hg.
  - cbn [consumer_steps gaps] in *. destruct (e_ts x =? prev + d) eqn:Ex.
    + cbn [app] in E. destruct before as [|a before]; [exact Hg|]. cbn [app] in E. injection E as <- E.
      cbn [contents on_record] in *. destruct (Z.of_nat (length l) <? n - 1) eqn:El.
      * destruct Hp as [Hp|Hp]; [|lia]. destruct l as [|x0 l]; [destruct Hd|].
        eapply (IH (e_ts x)); try eassumption.
        -- apply gap_free_app; [exact Hg|]. rewrite Hp, <- Hd. lia.
        -- left. apply newest_app.
      * eapply (IH (e_ts x)); try eassumption. right. lia.
    + cbn [app] in E. destruct before as [|a before]; [exact Hg|]. cbn [app] in E. injection E as <- E.
      destruct before as [|a before]; [exact Hg|]. cbn [app] in E. injection E as <- E.
      cbn [on_record] in Hr. rewrite on_record_stays in Hr; [discriminate|].
      intros X. assert (In AErase (before ++ after)) as Y by (apply in_or_app; left; exact X).
      rewrite <- E in Y. destruct Y as [Y|Y]; [discriminate|]. apply (no_gap_no_erase d xs (e_ts x)); [lia|exact Y].
Qed.

(** With a gap on record and none arriving, or none on record and at most one arriving, the record is right
    throughout. *)
Lemma recorded : forall tick n x0 l flag gs xs more, consumer_steps (tick * e_num x0) (newest_ts (x0 :: l)) xs = steps_of gs ++ more ->
  (flag = true /\ gaps (tick * e_num x0) (newest_ts (x0 :: l)) xs = 0%nat \/
   flag = false /\ gap_free tick n (x0 :: l) /\ (gaps (tick * e_num x0) (newest_ts (x0 :: l)) xs <= 1)%nat) ->
  gaps_on_record tick n (x0 :: l) flag gs.
Proof.
  intros tick n x0 l flag gs xs more E H before after Eb Hr. rewrite Eb, <- app_assoc in E.
  destruct H as [[-> Hz]|(-> & Hg & Hc)].
  - rewrite on_record_stays in Hr; [discriminate|]. intros X. apply (no_gap_no_erase _ _ _ Hz). rewrite E.
    apply in_or_app. left. exact X.
  - apply (first_gap_recorded tick n (tick * e_num x0) xs (newest_ts (x0 :: l)) (x0 :: l) before (after ++ more)); auto.
Qed.

(** An element published between front() and back(): its content is read without synchronisation. *)
Lemma unsynchronised : forall dnf lk tick search running n r (l : list elem) x flag dr st, holds r l -> r_size r = n ->
  l <> [] -> Z.of_nat (length l) < n - 1 ->
  busy_request false dnf lk tick search running [mk_gap [] 0; mk_gap [] 0; mk_gap [AStore x] 1] (sh_start r flag) dr st = Crash.
Proof.
  intros dnf lk tick search running n r l x flag dr st H Hn Hne Hroom.
  destruct (write_ok r l x H ltac:(lia)) as (r' & Ew & H' & Hs' & _).
  unfold busy_request, load, sh_start. cbn [next_gap arrive_all g_arrivals g_pick bind sh_seen sh_hist length Nat.sub Nat.min Nat.max].
  cbn [sh_nth sh_hist nth_error bind].
  rewrite (occupancy_ok _ _ H). destruct (Z.of_nat (length l) =? 0) eqn:E0; [destruct l; [congruence|cbn in E0; lia]|].
  cbn [negb next_gap arrive_all g_arrivals g_pick bind sh_seen sh_hist length Nat.sub Nat.min Nat.max sh_nth nth_error orb sh_flag sh_acq].
  unfold arrive, sh_now. cbn [sh_nth sh_hist length Nat.sub nth_error bind]. rewrite Ew.
  cbn [bind arrive_all sh_nth sh_hist length Nat.sub nth_error app sh_seen sh_flag sh_acq Nat.max Nat.min orb].
  assert (l ++ [x] <> []) as Hne2 by (destruct l; discriminate).
  rewrite (back_index _ _ H' Hne2). unfold front. rewrite (holds_empty_iff _ _ H), E0.
  cbn [use_opt]. unfold use. cbn [sh_nth sh_acq sh_hist nth_error bind].
  destruct (deref r (r_read r)) as [y|]; [|reflexivity]. cbn [bind].
  assert (r_read r' = r_read r) as Hrd.
  { unfold write in Ew. destruct (negb _); [|discriminate]. destruct (r_slots r (r_write r)); [discriminate|]. injection Ew as <-. reflexivity. }
  unfold deref. rewrite Hrd, Hs'. rewrite app_length. cbn [length].
  rewrite (h_slots _ _ H) by (rewrite Nat2Z.inj_add; lia).
  assert (nth_error l (Z.to_nat (Z.of_nat (length l + 1) - 1)) = None) as ->; [apply nth_error_None; lia|reflexivity].
Qed.
