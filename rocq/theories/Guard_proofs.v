From Coq Require Import ZArith List Bool Lia ZifyBool.
From Verif Require Import Base_model Ring_proofs Guard_model Guard_spec.
Import ListNotations.
Open Scope Z_scope.

Definition b2n (b : bool) : nat := if b then 1%nat else 0%nat.

Lemma setw_count : forall f l i w w', nth_error l i = Some w ->
  (length (filter f (setw l i w')) + b2n (f w) = length (filter f l) + b2n (f w'))%nat.
Proof.
  induction l as [|y l IH]; intros i w w' H; destruct i; cbn in *; try discriminate.
  - injection H as ->. destruct (f w), (f w'); cbn; lia.
  - specialize (IH i w w' H). destruct (f y); cbn; lia.
Qed.

Lemma setw_length : forall l i w, length (setw l i w) = length l.
Proof. induction l as [|y l IH]; intros [|i] w; cbn; auto. Qed.

Lemma setw_in : forall l i w w', nth_error l i = Some w -> In w' (setw l i w').
Proof.
  induction l as [|y l IH]; intros [|i] w w' H; cbn in *; try discriminate; [left; reflexivity|].
  right. eapply IH. exact H.
Qed.

Lemma setw_keep : forall l i w w' x, nth_error l i = Some w -> x <> w -> In x l -> In x (setw l i w').
Proof.
  induction l as [|y l IH]; intros [|i] w w' x H Hne Hx; cbn in *; try discriminate.
  - injection H as ->. destruct Hx as [->|Hx]; [congruence|right; exact Hx].
  - destruct Hx as [->|Hx]; [left; reflexivity|right; eapply IH; eassumption].
Qed.

Lemma setw_from : forall l i w' x, In x (setw l i w') -> x = w' \/ In x l.
Proof.
  induction l as [|y l IH]; intros [|i] w' x H; cbn in *; [contradiction|contradiction| |].
  - destruct H as [H|H]; auto.
  - destruct H as [H|H]; auto. destruct (IH i w' x H); auto.
Qed.

Lemma wake_count : forall l, length (filter reading (wake l)) = length (filter reading l).
Proof. induction l as [|[] l IH]; cbn; auto. Qed.

Lemma wake_nth : forall l i, nth_error (wake l) i = match nth_error l i with Some WSleep => Some WLock | x => x end.
Proof.
  induction l as [|y l IH]; intros [|i]; cbn; auto. destruct y; reflexivity.
Qed.

Lemma wake_nosleep : forall l, ~ In WSleep (wake l).
Proof. induction l as [|y l IH]; cbn; [auto|]. intros [H|H]; [destruct y; discriminate|auto]. Qed.

Lemma wake_length : forall l, length (wake l) = length l.
Proof. intros. apply map_length. Qed.

Record ginv (n : nat) (s : gstate) : Prop := {
  gi_len : length (g_threads s) = n;
  gi_count : g_running s = Z.of_nat (readers s);
  gi_req : g_requested s = match g_clean s with GIdle | GNotify => false | _ => true end;
  gi_excl : gfree s = false -> g_running s = 0;
  gi_wakec : g_clean s = GSleep -> g_running s = 0 -> In WNotifyOut (g_threads s);
  gi_wakew : In WSleep (g_threads s) -> g_requested s = false -> g_clean s = GNotify
}.

Lemma readers_le : forall s, (readers s <= length (g_threads s))%nat.
Proof.
  intros s. unfold readers. induction (g_threads s) as [|y l IH]; cbn; [lia|]. destruct (reading y); cbn; lia.
Qed.

Lemma ginv_init : forall n, ginv n (ginit n).
Proof.
  intros n. unfold ginit. split; cbn; try reflexivity; try discriminate.
  - apply repeat_length.
  - unfold readers. cbn. induction n; cbn; auto.
  - intros H. apply repeat_spec in H. discriminate.
Qed.

Lemma ginv_step : forall n s a s', Z.of_nat n < 2147483648 -> ginv n s -> gstep s a = Some s' -> ginv n s'.
Proof.
  intros n s a s' Hn [Hl Hc Hr He Hw Hs] H.
  assert (Z.of_nat (readers s) < 2147483648) as Hsm by (pose proof (readers_le s); lia).
  destruct a as [i|i|i|over k|]; cbn [gstep] in H.
  - destruct (nth_error (g_threads s) i) as [[]|] eqn:Ei; try discriminate. injection H as <-.
    pose proof (setw_count reading _ _ _ WLock Ei) as Hcnt. cbn in Hcnt.
    split; cbn; unfold readers; cbn; try assumption.
    + rewrite setw_length. exact Hl.
    + unfold readers in Hc. lia.
    + intros H1 H2. eapply setw_keep; [exact Ei|discriminate|]. apply Hw; assumption.
    + intros H1. apply Hs. destruct (setw_from _ _ _ _ H1) as [X|X]; [discriminate|exact X].
  - unfold gwork in H. destruct (nth_error (g_threads s) i) as [[]|] eqn:Ei; try discriminate.
    + (* WLock *)
      destruct (gfree s) eqn:Ef; [|discriminate]. destruct (g_requested s) eqn:Er; injection H as <-.
      * pose proof (setw_count reading _ _ _ WSleep Ei) as Hcnt. cbn in Hcnt.
        split; cbn; unfold readers; cbn; try assumption.
        -- rewrite setw_length. exact Hl.
        -- unfold readers in Hc. lia.
        -- intros X. exfalso. unfold gfree in *. cbn in X. congruence.
        -- intros H1 H2. eapply setw_keep; [exact Ei|discriminate|]. apply Hw; assumption.
        -- intros _ X. discriminate X.
      * pose proof (setw_count reading _ _ _ WNotifyIn Ei) as Hcnt. cbn in Hcnt.
        assert (i32 (g_running s + 1) = g_running s + 1) as Hi.
        { apply i32_small. pose proof (readers_le (mk_gstate (setw (g_threads s) i WNotifyIn) 0 false GIdle 0)) as X.
          unfold readers in *. cbn in X. rewrite setw_length in X. lia. }
        split; cbn; unfold readers; cbn; try assumption.
        -- rewrite setw_length. exact Hl.
        -- rewrite Hi. unfold readers in Hc. lia.
        -- unfold gfree in Ef. cbn. intros X. destruct (g_clean s); cbn in X; discriminate.
        -- rewrite Hi. intros H1 H2. lia.
        -- intros H1 H2. destruct (setw_from _ _ _ _ H1) as [X|X]; [discriminate|]. apply Hs; [exact X|reflexivity].
    + (* WNotifyIn *)
      injection H as <-.
      assert (nth_error (wake (g_threads s)) i = Some WNotifyIn) as Ei' by (rewrite wake_nth, Ei; reflexivity).
      pose proof (setw_count reading _ _ _ WIn Ei') as Hcnt. cbn in Hcnt. rewrite wake_count in Hcnt.
      split; cbn; unfold readers; cbn; try assumption.
      * rewrite setw_length, wake_length. exact Hl.
      * unfold readers in Hc. lia.
      * destruct (g_clean s); assumption.
      * unfold gfree in *. cbn. destruct (g_clean s); cbn in *; assumption.
      * intros H1. destruct (g_clean s); discriminate.
      * intros H1. destruct (setw_from _ _ _ _ H1) as [X|X]; [discriminate|]. exfalso. exact (wake_nosleep _ X).
    + (* WIn *)
      destruct (gfree s) eqn:Ef; [|discriminate]. injection H as <-.
      pose proof (setw_count reading _ _ _ WNotifyOut Ei) as Hcnt. cbn in Hcnt.
      assert (i32 (g_running s - 1) = g_running s - 1) as Hi by (apply i32_small; unfold readers in *; lia).
      split; cbn; unfold readers; cbn; try assumption.
      * rewrite setw_length. exact Hl.
      * rewrite Hi. unfold readers in Hc. lia.
      * unfold gfree in *. cbn. intros X. congruence.
      * intros H1 H2. eapply setw_in. exact Ei.
      * intros H1. destruct (setw_from _ _ _ _ H1) as [X|X]; [discriminate|]. apply Hs. exact X.
    + (* WNotifyOut *)
      injection H as <-.
      assert (nth_error (wake (g_threads s)) i = Some WNotifyOut) as Ei' by (rewrite wake_nth, Ei; reflexivity).
      pose proof (setw_count reading _ _ _ WOut Ei') as Hcnt. cbn in Hcnt. rewrite wake_count in Hcnt.
      split; cbn; unfold readers; cbn; try assumption.
      * rewrite setw_length, wake_length. exact Hl.
      * unfold readers in Hc. lia.
      * destruct (g_clean s); assumption.
      * unfold gfree in *. cbn. destruct (g_clean s); cbn in *; assumption.
      * intros H1. destruct (g_clean s); discriminate.
      * intros H1. destruct (setw_from _ _ _ _ H1) as [X|X]; [discriminate|]. exfalso. exact (wake_nosleep _ X).
  - destruct (nth_error (g_threads s) i) as [[]|] eqn:Ei; try discriminate. injection H as <-.
    pose proof (setw_count reading _ _ _ WLock Ei) as Hcnt. cbn in Hcnt.
    split; cbn; unfold readers; cbn; try assumption.
    + rewrite setw_length. exact Hl.
    + unfold readers in Hc. lia.
    + intros H1 H2. eapply setw_keep; [exact Ei|discriminate|]. apply Hw; assumption.
    + intros H1. apply Hs. destruct (setw_from _ _ _ _ H1) as [X|X]; [discriminate|exact X].
  - unfold gclean in H. destruct (g_clean s) as [| | |[|j]| |] eqn:Ec; try discriminate.
    + rewrite Hr in H. destruct over; cbn [andb negb] in H; injection H as <-.
      * destruct (g_running s =? 0) eqn:E0; split; cbn; try assumption; try reflexivity; try discriminate; try lia.
      * split; rewrite ?Ec; try assumption.
    + injection H as <-. destruct (g_running s =? 0) eqn:E0; split; cbn; try assumption; try reflexivity; try discriminate; try lia.
      all: intros H1 H2; rewrite H2 in Hr; discriminate.
    + injection H as <-. unfold gfree in He. rewrite Ec in He.
      split; cbn; try assumption; try discriminate.
      intros H1 H2. rewrite H2 in Hr. discriminate.
    + injection H as <-. unfold gfree in He. rewrite Ec in He.
      split; cbn; try assumption; try discriminate.
      intros H1 H2. rewrite H2 in Hr. discriminate.
    + injection H as <-. unfold gfree in He. rewrite Ec in He.
      split; cbn; try assumption; try discriminate; reflexivity.
    + injection H as <-. unfold gfree in He. rewrite Ec in He.
      split; cbn; try assumption; try discriminate.
      * rewrite wake_length. exact Hl.
      * rewrite Hc. unfold readers. cbn. rewrite wake_count. reflexivity.
      * intros H1. exfalso. exact (wake_nosleep _ H1).
  - destruct (g_clean s) eqn:Ec; try discriminate. injection H as <-.
    split; cbn; try assumption; try discriminate.
    intros H1 H2. rewrite H2 in Hr. discriminate.
Qed.

Lemma ginv_run : forall acts n s s', Z.of_nat n < 2147483648 -> ginv n s -> grun s acts = Some s' -> ginv n s'.
Proof.
  induction acts as [|a acts IH]; intros n s s' Hn Hi H; cbn in H.
  - injection H as <-. exact Hi.
  - destruct (gstep s a) as [s1|] eqn:E; [|discriminate]. apply IH with s1; try assumption. eapply ginv_step; eassumption.
Qed.

Lemma reach : forall n acts s, Z.of_nat n < 2147483648 -> grun (ginit n) acts = Some s -> ginv n s.
Proof. intros n acts s Hn H. eapply ginv_run; [exact Hn|apply ginv_init|exact H]. Qed.

Lemma no_readers : forall s, readers s = 0%nat -> forall w, In w (g_threads s) -> reading w = false.
Proof.
  intros s H w Hw. destruct (reading w) eqn:E; [|reflexivity].
  unfold readers in H. apply length_zero_iff_nil in H.
  assert (In w (filter reading (g_threads s))) as X by (apply filter_In; auto). rewrite H in X. contradiction.
Qed.

Lemma exclusion_lemma : forall n acts s a s', Z.of_nat n < 2147483648 -> grun (ginit n) acts = Some s ->
  gstep s a = Some s' -> g_pops s' <> g_pops s -> forall w, In w (g_threads s) -> reading w = false.
Proof.
  intros n acts s a s' Hn H Hst Hp. pose proof (reach n acts s Hn H) as [Hl Hc Hr He Hw Hs].
  apply no_readers.
  assert (gfree s = false) as Hf.
  { destruct a as [i|i|i|over k|]; cbn [gstep] in Hst.
    - destruct (nth_error (g_threads s) i) as [[]|]; try discriminate; injection Hst as <-; cbn in Hp; congruence.
    - unfold gwork in Hst. destruct (nth_error (g_threads s) i) as [[]|]; try discriminate.
      + destruct (gfree s); [|discriminate]. destruct (g_requested s); injection Hst as <-; cbn in Hp; congruence.
      + injection Hst as <-; cbn in Hp; congruence.
      + destruct (gfree s); [|discriminate]. injection Hst as <-; cbn in Hp; congruence.
      + injection Hst as <-; cbn in Hp; congruence.
    - destruct (nth_error (g_threads s) i) as [[]|]; try discriminate; injection Hst as <-; cbn in Hp; congruence.
    - unfold gclean, gfree in *. destruct (g_clean s) as [| | |[|j]| |]; try discriminate; try reflexivity.
      + destruct (over && negb (g_requested s)); [|destruct over]; injection Hst as <-; cbn in Hp; congruence.
      + injection Hst as <-; cbn in Hp; congruence.
    - destruct (g_clean s); try discriminate. injection Hst as <-; cbn in Hp; congruence. }
  specialize (He Hf). lia.
Qed.

Lemma counter_lemma : forall n acts s, Z.of_nat n < 2147483648 -> grun (ginit n) acts = Some s ->
  g_running s = Z.of_nat (readers s).
Proof. intros n acts s Hn H. apply (reach n acts s Hn H). Qed.

Lemma wakeup_lemma : forall n acts s, Z.of_nat n < 2147483648 -> grun (ginit n) acts = Some s ->
  (g_clean s = GSleep -> readers s = 0%nat -> notification_pending s) /\
  (In WSleep (g_threads s) -> g_requested s = false -> notification_pending s).
Proof.
  intros n acts s Hn H. pose proof (reach n acts s Hn H) as [Hl Hc Hr He Hw Hs]. split.
  - intros H1 H2. right. left. apply Hw; [exact H1|lia].
  - intros H1 H2. right. right. apply Hs; assumption.
Qed.

(* the clean-up can always be brought to its end *)
Definition weight (w : wpc) : nat := match w with WNotifyIn => 3 | WIn => 2 | WNotifyOut => 1 | _ => 0 end.
Fixpoint total (l : list wpc) : nat := match l with [] => 0 | w :: l' => weight w + total l' end.

Lemma setw_total : forall l i w w', nth_error l i = Some w ->
  (total (setw l i w') + weight w = total l + weight w')%nat.
Proof.
  induction l as [|y l IH]; intros [|i] w w' H; cbn in *; try discriminate.
  - injection H as ->. lia.
  - specialize (IH i w w' H). lia.
Qed.

Lemma wake_total : forall l, total (wake l) = total l.
Proof. induction l as [|[] l IH]; cbn; auto. Qed.

Lemma total_zero : forall l, total l = 0%nat -> forall w, In w l -> weight w = 0%nat.
Proof.
  induction l as [|y l IH]; intros H w Hw; [contradiction|]. cbn in *. destruct Hw as [<-|Hw]; [lia|]. apply IH; [lia|exact Hw].
Qed.

Lemma busy_thread : forall l, (0 < total l)%nat -> exists i w, nth_error l i = Some w /\ (0 < weight w)%nat.
Proof.
  induction l as [|y l IH]; cbn; intros H; [lia|]. destruct (weight y) eqn:E.
  - destruct IH as (i & w & H1 & H2); [lia|]. exists (S i), w. auto.
  - exists 0%nat, y. split; [reflexivity|lia].
Qed.

Lemma grun_app : forall a b s s1, grun s a = Some s1 -> grun s (a ++ b) = grun s1 b.
Proof.
  induction a as [|x a IH]; intros b s s1 H; cbn in *.
  - injection H as ->. reflexivity.
  - destruct (gstep s x); [|discriminate]. apply IH. exact H.
Qed.

Lemma finish_run : forall k s, g_clean s = GRun k -> exists acts s', grun s acts = Some s' /\ g_clean s' = GIdle.
Proof.
  induction k as [|k IH]; intros s H.
  - exists [GClean false 0; GClean false 0; GClean false 0]. cbn. unfold gclean at 1. rewrite H. cbn.
    eexists. split; reflexivity.
  - destruct (IH (mk_gstate (g_threads s) (g_running s) (g_requested s) (GRun k) (S (g_pops s))) eq_refl) as (acts & s' & H1 & H2).
    exists (GClean false 0 :: acts), s'. split; [|exact H2]. cbn. unfold gclean. rewrite H. exact H1.
Qed.

Lemma finish_wait : forall m n s, Z.of_nat n < 2147483648 -> ginv n s -> total (g_threads s) = m ->
  g_clean s = GSleep \/ g_clean s = GWoken -> exists acts s', grun s acts = Some s' /\ g_clean s' = GIdle.
Proof.
  induction m as [m IH] using (well_founded_induction lt_wf). intros n s Hn Hi Hm Hc.
  destruct (Nat.eq_dec m 0) as [->|Hne].
  - assert (readers s = 0%nat) as Hz.
    { unfold readers. apply length_zero_iff_nil. destruct (filter reading (g_threads s)) as [|w f] eqn:Ef; [reflexivity|].
      assert (In w (filter reading (g_threads s))) as X by (rewrite Ef; left; reflexivity). apply filter_In in X. destruct X as [X1 X2].
      pose proof (total_zero _ Hm w X1). destruct w; cbn in *; discriminate. }
    pose proof (gi_count _ _ Hi) as Hcnt. rewrite Hz in Hcnt.
    destruct Hc as [Hc|Hc].
    + pose proof (gi_wakec _ _ Hi Hc Hcnt) as X. pose proof (total_zero _ Hm _ X). discriminate.
    + destruct (finish_run 0 (mk_gstate (g_threads s) (g_running s) (g_requested s) (GRun 0) (g_pops s)) eq_refl) as (acts & s' & H1 & H2).
      exists (GClean false 0 :: acts), s'. split; [|exact H2]. cbn. unfold gclean. rewrite Hc, Hcnt. rewrite Hcnt in H1. exact H1.
  - destruct (busy_thread (g_threads s)) as (i & w & Hw & Hpos); [lia|].
    assert (exists s1, gstep s (GWork i) = Some s1 /\ (total (g_threads s1) < m)%nat /\ (g_clean s1 = GSleep \/ g_clean s1 = GWoken)) as (s1 & E1 & Hlt & Hc1).
    { cbn [gstep]. unfold gwork. rewrite Hw. assert (gfree s = true) as Hf by (unfold gfree; destruct Hc as [->| ->]; reflexivity).
      rewrite Hf.
      destruct w; cbn in Hpos; try lia; eexists; (split; [reflexivity|]); cbn.
      - pose proof (setw_total (wake (g_threads s)) i WNotifyIn WIn) as X. rewrite wake_nth, Hw, wake_total in X. specialize (X eq_refl). cbn in X.
        split; [lia|]. destruct Hc as [->| ->]; auto.
      - pose proof (setw_total (g_threads s) i WIn WNotifyOut Hw) as X. cbn in X. split; [lia|exact Hc].
      - pose proof (setw_total (wake (g_threads s)) i WNotifyOut WOut) as X. rewrite wake_nth, Hw, wake_total in X. specialize (X eq_refl). cbn in X.
        split; [lia|]. destruct Hc as [->| ->]; auto. }
    destruct (IH (total (g_threads s1)) Hlt n s1 Hn) as (acts & s' & H1 & H2).
    + eapply ginv_step; eassumption.
    + reflexivity.
    + exact Hc1.
    + exists (GWork i :: acts), s'. split; [|exact H2]. cbn [grun]. rewrite E1. exact H1.
Qed.

Lemma finish_lemma : forall n acts s, Z.of_nat n < 2147483648 -> grun (ginit n) acts = Some s ->
  exists acts' s', grun s acts' = Some s' /\ g_clean s' = GIdle.
Proof.
  intros n acts s Hn H. pose proof (reach n acts s Hn H) as Hi. destruct (g_clean s) as [| | |k| |] eqn:Ec.
  - exists [], s. split; [reflexivity|exact Ec].
  - eapply finish_wait; eauto.
  - eapply finish_wait; eauto.
  - eapply finish_run; eauto.
  - exists [GClean false 0; GClean false 0]. cbn. unfold gclean at 1. rewrite Ec. cbn. eexists. split; reflexivity.
  - exists [GClean false 0]. cbn. unfold gclean at 1. rewrite Ec. eexists. split; reflexivity.
Qed.

(* nobody starts reading while a clean-up is requested *)
Lemma no_entry_lemma : forall n acts s a s', Z.of_nat n < 2147483648 -> grun (ginit n) acts = Some s ->
  g_requested s = true -> gstep s a = Some s' -> (readers s' <= readers s)%nat.
Proof.
  intros n acts s a s' Hn H Hreq Hst. pose proof (reach n acts s Hn H) as [Hl Hc Hr He Hw Hs]. unfold readers.
  destruct a as [i|i|i|over k|]; cbn [gstep] in Hst.
  - destruct (nth_error (g_threads s) i) as [[]|] eqn:Ei; try discriminate. injection Hst as <-. cbn.
    pose proof (setw_count reading _ _ _ WLock Ei) as X. cbn in X. lia.
  - unfold gwork in Hst. destruct (nth_error (g_threads s) i) as [[]|] eqn:Ei; try discriminate.
    + destruct (gfree s); [|discriminate]. rewrite Hreq in Hst. injection Hst as <-. cbn.
      pose proof (setw_count reading _ _ _ WSleep Ei) as X. cbn in X. lia.
    + injection Hst as <-. cbn. pose proof (setw_count reading (wake (g_threads s)) i WNotifyIn WIn) as X.
      rewrite wake_nth, Ei, wake_count in X. specialize (X eq_refl). cbn in X. lia.
    + destruct (gfree s); [|discriminate]. injection Hst as <-. cbn.
      pose proof (setw_count reading _ _ _ WNotifyOut Ei) as X. cbn in X. lia.
    + injection Hst as <-. cbn. pose proof (setw_count reading (wake (g_threads s)) i WNotifyOut WOut) as X.
      rewrite wake_nth, Ei, wake_count in X. specialize (X eq_refl). cbn in X. lia.
  - destruct (nth_error (g_threads s) i) as [[]|] eqn:Ei; try discriminate. injection Hst as <-. cbn.
    pose proof (setw_count reading _ _ _ WLock Ei) as X. cbn in X. lia.
  - unfold gclean in Hst. destruct (g_clean s) as [| | |[|j]| |]; try discriminate.
    + destruct (over && negb (g_requested s)); [|destruct over]; injection Hst as <-; cbn; lia.
    + injection Hst as <-. cbn. lia.
    + injection Hst as <-. cbn. lia.
    + injection Hst as <-. cbn. lia.
    + injection Hst as <-. cbn. lia.
    + injection Hst as <-. cbn. rewrite wake_count. lia.
  - destruct (g_clean s); try discriminate. injection Hst as <-. cbn. lia.
Qed.
