From Coq Require Import ZArith List Bool Lia ZifyBool.
From Verif Require Import Base_model Ring_model Ring_spec Ring_proofs Search_model Elem_model Lb_model Float_model Float_proofs
  Registry_model Request_model Request_spec Request_proofs Cleanup_model Cleanup_spec Cleanup_proofs Check_model Link_model Link_spec Link_proofs
  Keep_model Keep_spec Keep_proofs Sustain_spec.
Import ListNotations.
Open Scope Z_scope.

(** * The link *)
Section Link.
Variable dnf : Z.
Variable lk : link.
Variable tick nf n : Z.
Variable resets running : bool.
Hypothesis Hdnf : 0 <= dnf.
Hypothesis Htick : 0 < tick.
Hypothesis Hnf : 0 < nf.
Hypothesis Hdur : tick * nf < two64.
Hypothesis Hsize : 2 <= n <= 2 ^ 24.
Variable limit : Z.
Variable pct : float32.
Variable m : nat.
Hypothesis Hlimit : 0 <= limit.
Hypothesis Habs : absorbs limit (share pct) m.
Hypothesis Hroom : limit + Z.of_nat m <= n - 1.

Notation lstep := (link_step dnf lk (tick * nf) tick resets running).
Notation lrun := (link_run dnf lk (tick * nf) tick resets running).
Notation inv := (inv tick nf n).

Lemma accepted : forall s arr iops q k e, inv s arr iops q k -> wf tick (arr ++ [e]) -> e_num e = nf ->
  Z.of_nat (length (q_items q)) < n - 1 ->
  exists s' q', lstep s (LArrive e) = Ok (s', OutWrite true) /\ inv s' (arr ++ [e]) (iops ++ [OWrite e]) q' k.
Proof.
  intros s arr iops q k e Hi Hw He Hl.
  destruct (inv_arrive dnf lk tick nf n resets running Htick Hnf Hdur Hsize s arr iops q k e Hi Hw He) as (s' & b & Es & H).
  assert (b = true) as ->.
  { pose proof (reached_sim n iops _ q (sup_n n Hsize) (i_sup _ _ _ _ _ _ _ _ Hi) (i_reach _ _ _ _ _ _ _ _ Hi)) as Hs.
    assert (exists e' r' , write e' (ls_ring s) = Ok (r', b)) as (e' & r' & Ew).
    { unfold link_step in Es. destruct (timestamp_check _ _ _ _ _) as [e' c']. destruct (write e' (ls_ring s)) as [[r' b']|] eqn:Ew; [|discriminate].
      cbn [bind] in Es. injection Es as _ <-. eauto. }
    destruct Hs as [Hh Hz]. pose proof (i_qsize _ _ _ _ _ _ _ _ Hi) as Q.
    destruct (write_ok (ls_ring s) (q_items q) e' Hh) as (r1 & E1 & _); [lia|]. rewrite E1 in Ew. congruence. }
  destruct (H eq_refl) as (q' & H'). eauto.
Qed.

Lemma wf_below : forall l x, wf tick l -> Forall (fun e => e_num e = nf) l -> In x l -> e_ts x < max_u64.
Proof.
  intros l x [H _] N I. rewrite Forall_forall in H, N. destruct (H x I) as (_ & _ & _ & B). rewrite (N x I) in B. unfold max_u64. unfold two64 in *. nia.
Qed.

Lemma clean_absorbs : forall s arr iops q k s', inv s arr iops q k -> proper_share pct -> ~ full_share pct ->
  lstep s (LClean limit pct max_u64) = Ok (s', OutNone) -> Z.of_nat (length arr - k) <= limit + Z.of_nat m ->
  exists iops' q' k', inv s' arr iops' q' k' /\ Z.of_nat (length arr - k') <= limit.
Proof.
  intros s arr iops q k s' Hi Hp Hf Es Ho.
  destruct (inv_clean dnf lk tick nf n resets running Hsize s arr iops q k limit pct max_u64 Hi Hlimit Hp Hf) as (s1 & iops' & q' & k' & E1 & Hi').
  rewrite Es in E1. injection E1 as <-. exists iops', q', k'. split; [exact Hi'|].
  pose proof (sizes tick nf n Hsize _ _ _ _ _ Hi) as Hlen. pose proof (sup_n n Hsize) as Hn.
  destruct (reached_sim n iops _ q Hn (i_sup _ _ _ _ _ _ _ _ Hi) (i_reach _ _ _ _ _ _ _ _ Hi)) as [Hh Hs].
  destruct (reached_sim n iops' _ q' Hn (i_sup _ _ _ _ _ _ _ _ Hi') (i_reach _ _ _ _ _ _ _ _ Hi')) as [Hh' _].
  unfold link_step in Es.
  destruct (cleanup_holds e_ts (fr_lb e_ts e_num tick) (fr_ring_like e_ts e_num tick) limit pct max_u64 _ _ (ck_reg (ls_check s)) (ls_pops s) Hh Hp Hlen) as [C1 C2].
  pose proof (i_items _ _ _ _ _ _ _ _ Hi) as I1. pose proof (i_items _ _ _ _ _ _ _ _ Hi') as I2.
  assert (N1 : length (q_items q) = (length arr - k)%nat) by (rewrite I1; apply skipn_length).
  assert (N2 : length (q_items q') = (length arr - k')%nat) by (rewrite I2; apply skipn_length).
  destruct (Z.le_gt_cases (Z.of_nat (length (q_items q))) limit) as [G|G].
  - destruct (C1 G) as (st' & E & _). rewrite E in Es. cbn [bind] in Es. injection Es as Es. rewrite <- Es in Hh'. cbn [ls_ring] in Hh'.
    pose proof (holds_unique _ _ _ Hh Hh') as U. rewrite U in N1, G. lia.
  - destruct (C2 ltac:(lia)) as (j & r' & Ep & (T1 & T2 & T3 & _ & T5) & M).
    destruct (nth_error (q_items q) j) as [x|] eqn:Ex; [|rewrite M in Es; discriminate]. destruct M as (st' & M & _). rewrite M in Es. cbn [bind] in Es. injection Es as Es.
    rewrite <- Es in Hh'. cbn [ls_ring] in Hh'. destruct (pop_ok j _ _ Hh T2) as (r1 & E4 & H1 & _). rewrite Ep in E4. injection E4 as <-.
    pose proof (holds_unique _ _ _ H1 Hh') as U. pose proof (skipn_length j (q_items q)) as N3. rewrite U in N3.
    destruct T5 as [T5|(y & Hy & Hge)].
    + pose proof (Habs (Z.of_nat (length (q_items q))) ltac:(lia)). lia.
    + exfalso. assert (I : In y arr). { assert (x = y) as <- by congruence. apply nth_error_In in Ex. rewrite I1 in Ex. rewrite <- (firstn_skipn k arr). apply in_or_app. right. exact Ex. }
      pose proof (wf_below arr y (i_wf _ _ _ _ _ _ _ _ Hi) (i_num _ _ _ _ _ _ _ _ Hi) I). lia.
Qed.

(** The last stretch without an interruption. *)
Definition sinv (ops : list link_op) (s : link_state) : Prop :=
  exists iops q k a b, inv s (received ops) iops q k /\ ops = a ++ b /\ Forall (fun o => ~ link_interrupts o) b /\
    (length (received a) <= length (received ops))%nat /\
    Z.of_nat (length (received ops) - k) <= limit + Z.of_nat (length (received ops) - length (received a)).

Lemma paced_prefix : forall (A : Type) (f : list A -> nat) i k ops o, paced f i k (ops ++ [o]) -> paced f i k ops.
Proof. intros A f i k ops o H a b c E Q. apply (H a b (c ++ [o])); [|exact Q]. rewrite E, <- !app_assoc. reflexivity. Qed.

Lemma not_refused : forall ops s0, link_new n = Ok s0 -> proper_history tick nf ops -> cleaned_with limit pct ops -> unheld ops -> link_paced m ops ->
  exists s ys, lrun s0 ops = Ok (s, ys) /\ ~ In (OutWrite false) ys /\ sinv ops s.
Proof.
  induction ops as [|o ops IH] using rev_ind; intros s0 E0 Hp Hc Hu Hm.
  - exists s0, []. split; [reflexivity|]. split; [intros []|]. exists [], (q_new n), 0%nat, [], []. split; [apply inv_new, E0; assumption|].
    split; [reflexivity|]. split; [constructor|]. cbn. lia.
  - destruct (proper_prefix tick nf ops o Hp) as (P1 & P2 & P3).
    destruct (IH s0 E0 P1) as (s & ys & E & Hn & iops & q & k & a & b & Hi & Eab & Qb & La & Ho).
    { intros l p next H. apply (Hc l p next). apply in_or_app. left. exact H. }
    { intros l p next H. apply (Hu l p next). apply in_or_app. left. exact H. }
    { eapply paced_prefix. exact Hm. }
    assert (Mid : (length (received ops) <= length (received a) + m)%nat).
    { rewrite Eab at 1. apply (Hm a b [o]); [rewrite Eab, <- app_assoc; reflexivity|exact Qb]. }
    pose proof (i_items _ _ _ _ _ _ _ _ Hi) as I1.
    assert (N1 : length (q_items q) = (length (received ops) - k)%nat) by (rewrite I1; apply skipn_length).
    assert (Fin : forall s' y, lstep s o = Ok (s', y) -> y <> OutWrite false -> sinv (ops ++ [o]) s' ->
      exists s ys, lrun s0 (ops ++ [o]) = Ok (s, ys) /\ ~ In (OutWrite false) ys /\ sinv (ops ++ [o]) s).
    { intros s' y Es Hy Hs. exists s', (ys ++ [y]). split; [rewrite link_run_snoc, E; cbn [bind]; rewrite Es; reflexivity|]. split; [|exact Hs].
      intros H. apply in_app_or in H as [H|[H|[]]]; [apply Hn; exact H|congruence]. }
    assert (Rc : received (ops ++ [o]) = match o with LArrive e => received ops ++ [e] | LRestart => [] | _ => received ops end).
    { unfold received. rewrite received_snoc_gen. destruct o; reflexivity. }
    destruct o as [e|l p next|dr|].
    + assert (Nx : (length (received ops) + 1 <= length (received a) + m)%nat).
      { assert (X : (length (received (a ++ b ++ [LArrive e])) <= length (received a) + m)%nat).
        { apply (Hm a (b ++ [LArrive e]) []); [rewrite app_nil_r, Eab, <- app_assoc; reflexivity|]. apply Forall_app. split; [exact Qb|]. constructor; [intros []|constructor]. }
        rewrite app_assoc, <- Eab, Rc, app_length in X. exact X. }
      unfold received in P3. rewrite received_snoc_gen in P3. fold (received ops) in P3.
      destruct (accepted s _ _ _ _ e Hi P3 P2) as (s' & q' & Es & Hi'); [lia|].
      apply (Fin s' _ Es); [discriminate|]. exists (iops ++ [OWrite e]), q', k, a, (b ++ [LArrive e]). rewrite Rc. split; [exact Hi'|]. split; [rewrite Eab, <- app_assoc; reflexivity|].
      split; [apply Forall_app; split; [exact Qb|constructor; [intros []|constructor]]|]. rewrite app_length. cbn [length]. pose proof (i_kle _ _ _ _ _ _ _ _ Hi). lia.
    + destruct (Hc l p next) as [-> ->]; [apply in_or_app; right; left; reflexivity|]. rewrite (Hu limit pct next) in * by (apply in_or_app; right; left; reflexivity).
      destruct P2 as (Q1 & Q2 & Q3).
      destruct (inv_clean dnf lk tick nf n resets running Hsize s _ iops q k limit pct max_u64 Hi Q1 Q2 Q3) as (s3 & _ & _ & _ & E3 & _).
      destruct (clean_absorbs s _ iops q k s3 Hi Q2 Q3 E3 ltac:(lia)) as (iops' & q' & k' & Hi' & Hl').
      apply (Fin s3 _ E3); [discriminate|]. exists iops', q', k', (ops ++ [LClean limit pct max_u64]), []. rewrite Rc. split; [exact Hi'|]. split; [rewrite app_nil_r; reflexivity|].
      split; [constructor|]. lia.
    + destruct (inv_right_answer dnf lk tick nf n running Hdnf Htick Hsize s _ _ _ _ dr Hi P2) as (fo & st' & Er & _).
      assert (Es : exists y, lstep s (LRequest dr) = Ok (mk_link_state (ls_ring s) (ls_check s) (ls_pops s) st', OutReply (fst y) (snd y))).
      { unfold link_step. rewrite Er. cbn [bind]. eexists (_, _). reflexivity. }
      destruct Es as (y & Es). apply (Fin _ _ Es); [discriminate|]. exists iops, q, k, a, (b ++ [LRequest dr]). rewrite Rc. split.
      { destruct Hi as [H1 H2 H3 H4 H5 H6 H7 H8 H9]. split; cbn [ls_ring ls_check]; assumption. }
      split; [rewrite Eab, <- app_assoc; reflexivity|]. split; [apply Forall_app; split; [exact Qb|constructor; [intros []|constructor]]|]. lia.
    + destruct (inv_step dnf lk tick nf n resets running Hdnf Htick Hnf Hdur Hsize s _ _ _ _ LRestart Hi I) as (s' & y & Es & H).
      { unfold received in P3. rewrite received_snoc_gen in P3. exact P3. }
      assert (Hy : y <> OutWrite false).
      { unfold link_step in Es. destruct (flush (ls_ring s)); [|discriminate]. cbn [bind] in Es. injection Es as _ <-. discriminate. }
      destruct (H Hy) as (iops' & q' & k' & Hi'). apply (Fin s' y Es Hy). exists iops', q', k', (ops ++ [LRestart]), []. rewrite Rc. split; [exact Hi'|].
      split; [rewrite app_nil_r; reflexivity|]. split; [constructor|]. cbn. lia.
Qed.
End Link.
