From Coq Require Import ZArith List Bool Lia ZifyBool.
From Verif Require Import Base_model Ring_model Ring_spec Ring_proofs Search_model Elem_model Lb_model Float_model Float_proofs
  Registry_model Request_model Request_spec Request_proofs Cleanup_model Cleanup_spec Cleanup_proofs Check_model Link_model Link_spec Link_proofs
  Record_model Record_spec Keep_model Keep_spec.
From Verif Require Record_proofs Record_proofs2.
Import ListNotations.
Open Scope Z_scope.

Ltac splits := repeat match goal with |- _ /\ _ => split end.

(** * Every schedule of arrivals, clean-ups and recordings *)
Section Kept.
Context {E : Type}.
Variable ts dur : E -> Z.
Variable limit : Z.
Variable quota : Z -> Z.
Variable n K : Z.
Hypothesis HK0 : 0 <= K.
Hypothesis HK : keeps limit quota n K.

Notation astep := (astep ts dur limit quota).
Notation arun := (arun ts dur limit quota).
Notation base := Record_proofs.base.

Definition pending (c : cpc) : nat := match c with CLoop k => k | CPop k => S k | _ => O end.
Definition kept (s : rstate E) : Prop := (s_popped s + pending (s_cpc s) <= length (s_all s) - Z.to_nat K)%nat \/ (s_popped s = 0 /\ pending (s_cpc s) = 0)%nat.

Lemma kept_step : forall s a s', base n s -> kept s -> astep s a = Some s' -> kept s'.
Proof.
  intros s a s' Hb Hk H. unfold Record_model.astep in H. destruct (s_crashed s) eqn:Hc; [discriminate|]. unfold kept in *.
  destruct a as [x| | |ex].
  - destruct (write x (s_ring s)) as [[r [|]]|]; injection H as <-; cbn; rewrite ?app_length; cbn; lia.
  - unfold clean_step in H. pose proof (Record_proofs2.occupancy_base _ _ Hb) as Ho. destruct (s_cpc s) as [| |[|k]|k|] eqn:Ec.
    + destruct (limit <? occupancy (s_ring s)); injection H as <-; cbn; rewrite ?Ec; cbn in *; lia.
    + destruct (s_running s =? 0); [|discriminate]. destruct (Z.ltb_spec limit (occupancy (s_ring s))); injection H as <-; cbn in *; [|lia].
      left. pose proof (h_len _ _ (Record_proofs.b_holds _ _ Hb)) as HL. rewrite skipn_length, (Record_proofs.b_size _ _ Hb) in HL.
      specialize (HK (occupancy (s_ring s)) ltac:(lia)). pose proof (Record_proofs.b_le _ _ Hb). lia.
    + injection H as <-. cbn in *. lia.
    + destruct (deref_opt (s_ring s) (front (s_ring s))) as [[x|]|]; [destruct (ts x <? s_next s)|..]; injection H as <-; cbn in *; rewrite ?Ec; cbn; lia.
    + destruct (pop 1 (s_ring s)); injection H as <-; cbn in *; rewrite ?Ec; cbn; lia.
    + destruct (deref_opt (s_ring s) (front (s_ring s))) as [[x|]|]; injection H as <-; cbn in *; rewrite ?Ec; cbn; lia.
  - destruct (s_rpc s); try discriminate. injection H as <-. cbn. exact Hk.
  - unfold rec_step in H. destruct (s_rpc s); try discriminate;
      repeat match type of H with
      | context [match ?e with _ => _ end] => destruct e; try discriminate
      end; injection H as <-; cbn; exact Hk.
Qed.

Lemma kept_run : forall acts s s', base n s -> kept s -> arun s acts = Some s' -> kept s'.
Proof.
  induction acts as [|a acts IH]; intros s s' Hb Hk H; cbn in H; [injection H as <-; exact Hk|].
  destruct (astep s a) as [s1|] eqn:E1; [|discriminate]. apply (IH s1); [eapply Record_proofs.base_step; eassumption|eapply kept_step; eassumption|exact H].
Qed.

Lemma kept_lemma : forall acts s, supported_size n -> arun (init n) acts = Some s -> (s_popped s <= length (s_all s) - Z.to_nat K)%nat.
Proof.
  intros acts s Hn H. destruct (kept_run acts (init n) s (Record_proofs.base_init n Hn)) as [A|[A _]]; [right; split; reflexivity|exact H|lia|lia].
Qed.
End Kept.

(** * Clean-ups that never happen *)
Section Never.
Context {E : Type}.
Variable ts dur : E -> Z.
Variable limit : Z.
Variable quota : Z -> Z.
Variable n : Z.
Hypothesis Hnone : forall o, limit < o < n -> quota o <= 0.

Notation astep := (astep ts dur limit quota).
Notation arun := (arun ts dur limit quota).
Notation base := Record_proofs.base.

Definition idle (s : rstate E) : Prop := (s_cpc s = CIdle \/ s_cpc s = CWait \/ s_cpc s = CLoop 0 \/ s_cpc s = CEnd) /\ s_popped s = 0%nat.

Lemma idle_step : forall s a s', base n s -> idle s -> astep s a = Some s' ->
  idle s' /\ s_all s' = firstn (Z.to_nat (n - 1)) (s_all s ++ arrivals [a]).
Proof.
  intros s a s' Hb [I1 I2] H. pose proof (h_len _ _ (Record_proofs.b_holds _ _ Hb)) as HL. rewrite I2 in HL. cbn [skipn] in HL.
  rewrite (Record_proofs.b_size _ _ Hb) in HL. assert (F : firstn (Z.to_nat (n - 1)) (s_all s) = s_all s) by (apply firstn_all2; lia).
  unfold Record_model.astep in H. destruct (s_crashed s) eqn:Hc; [discriminate|]. unfold idle in *.
  destruct a as [x| | |ex]; cbn [arrivals]; rewrite ?app_nil_r, ?F.
  - pose proof (Record_proofs.b_holds _ _ Hb) as Hh. rewrite I2 in Hh. cbn [skipn] in Hh. pose proof (h_len _ _ Hh) as HL'. rewrite (Record_proofs.b_size _ _ Hb) in HL'.
    destruct (Z.lt_ge_cases (Z.of_nat (length (s_all s))) (n - 1)) as [L|L].
    + destruct (write_ok _ _ x Hh) as (r & Ew & _); [rewrite (Record_proofs.b_size _ _ Hb); lia|]. rewrite Ew in H. injection H as <-. cbn. split; [auto|].
      rewrite firstn_all2; [reflexivity|]. rewrite app_length. cbn. lia.
    + destruct (write_full _ _ x Hh) as (r & Ew & _); [rewrite (Record_proofs.b_size _ _ Hb); lia|]. rewrite Ew in H. injection H as <-. cbn. split; [auto|].
      rewrite firstn_app. replace (Z.to_nat (n - 1) - length (s_all s))%nat with 0%nat by lia. cbn. rewrite app_nil_r. symmetry. exact F.
  - unfold clean_step in H. pose proof (Record_proofs2.occupancy_base _ _ Hb) as Ho. rewrite I2 in Ho. destruct I1 as [I1|[I1|[I1|I1]]]; rewrite I1 in H.
    + destruct (_ <? _); injection H as <-; cbn; splits; auto 6.
    + destruct (_ =? _); [|discriminate]. destruct (Z.ltb_spec limit (occupancy (s_ring s))); injection H as <-; cbn; [|splits; auto 6].
      replace (Z.to_nat (quota (occupancy (s_ring s)))) with 0%nat.
      { splits; auto 6. } specialize (Hnone (occupancy (s_ring s)) ltac:(lia)). lia.
    + injection H as <-; cbn; splits; auto 6.
    + destruct (deref_opt _ _) as [[y|]|]; injection H as <-; cbn; splits; auto 6.
  - destruct (s_rpc s); try discriminate. injection H as <-. cbn. auto.
  - unfold rec_step in H. destruct (s_rpc s); try discriminate;
      repeat match type of H with
      | context [match ?e with _ => _ end] => destruct e; try discriminate
      end; injection H as <-; cbn; auto.
Qed.

Lemma firstn_more : forall (T : Type) (a b : list T) k, firstn k (firstn k a ++ b) = firstn k (a ++ b).
Proof.
  intros T a b k. destruct (Nat.le_ge_cases (length a) k) as [L|L]; [rewrite (firstn_all2 a) by lia; reflexivity|].
  rewrite !firstn_app, firstn_firstn, Nat.min_id, firstn_length. replace (k - min k (length a))%nat with 0%nat by lia. replace (k - length a)%nat with 0%nat by lia. reflexivity.
Qed.

Lemma idle_run : forall acts s s', base n s -> idle s -> arun s acts = Some s' ->
  idle s' /\ s_all s' = firstn (Z.to_nat (n - 1)) (s_all s ++ arrivals acts).
Proof.
  induction acts as [|a acts IH]; intros s s' Hb Hi H.
  - cbn in H. injection H as <-. split; [exact Hi|]. cbn. rewrite app_nil_r, firstn_all2; [reflexivity|].
    pose proof (h_len _ _ (Record_proofs.b_holds _ _ Hb)) as HL. destruct Hi as [_ I2]. rewrite I2, (Record_proofs.b_size _ _ Hb) in HL. cbn [skipn] in HL. lia.
  - cbn [Record_model.arun] in H. destruct (astep s a) as [s1|] eqn:E1; [|discriminate]. destruct (idle_step s a s1 Hb Hi E1) as [I1 A1].
    destruct (IH s1 s' (Record_proofs.base_step _ _ _ _ _ _ _ _ Hb E1) I1 H) as [I2 A2]. split; [exact I2|]. rewrite A2, A1, firstn_more.
    replace (arrivals (a :: acts)) with (arrivals [a] ++ arrivals acts) by (destruct a; reflexivity). rewrite app_assoc. reflexivity.
Qed.

Lemma fill_run : forall x k, supported_size n -> Z.of_nat k < n ->
  exists s, arun (init n) (repeat (AWrite x) k) = Some s /\ s_all s = repeat x k /\ s_popped s = 0%nat /\ s_cpc s = CIdle /\
    s_crashed s = false /\ s_next s = max_u64 /\ s_running s = 0 /\ s_requested s = false /\ s_rpc s = RIdle.
Proof.
  intros x. induction k as [|k IH]; intros Hn Hk; [exists (init n); cbn; repeat split; reflexivity|].
  destruct IH as (s & R & A & Pp & C & Cr & N & Ru & Rq & Rp); [exact Hn|lia|].
  assert (Hb : base n s) by (eapply Record_proofs2.base_run; [apply Record_proofs.base_init, Hn|exact R]).
  pose proof (Record_proofs.b_holds _ _ Hb) as Hh. rewrite Pp in Hh. cbn [skipn] in Hh.
  destruct (write_ok _ _ x Hh) as (r & Ew & _); [rewrite (Record_proofs.b_size _ _ Hb), A, repeat_length; lia|].
  cbn [repeat]. rewrite (repeat_cons k (AWrite x)).
  eexists. split; [rewrite (Record_proofs2.arun_app _ _ _ _ _ _ _ _ R); cbn [Record_model.arun]; unfold Record_model.astep; rewrite Cr, Ew; reflexivity|].
  cbn. rewrite A. repeat split; auto. symmetry. apply repeat_cons.
Qed.
End Never.

(** * An undisturbed clean-up *)
Section Clean.
Context {E : Type}.
Variable ts dur : E -> Z.
Variable limit : Z.
Variable quota : Z -> Z.
Variable n : Z.

Notation astep := (astep ts dur limit quota).
Notation arun := (arun ts dur limit quota).
Notation base := Record_proofs.base.

Lemma arun_more : forall a b s s1, arun s a = Some s1 -> arun s (a ++ b) = arun s1 b.
Proof. intros. eapply Record_proofs2.arun_app. eassumption. Qed.

Lemma loop_clean : forall k s, base n s -> s_crashed s = false -> s_cpc s = CLoop k -> (k < length (stored s))%nat ->
  (forall x, In x (stored s) -> ts x < s_next s) ->
  exists s', arun s (repeat AClean (2 * k + 2)) = Some s' /\ s_crashed s' = false /\ s_cpc s' = CIdle /\ s_requested s' = false /\
    s_running s' = s_running s /\ s_next s' = s_next s /\ s_rpc s' = s_rpc s /\ s_file s' = s_file s /\ s_all s' = s_all s /\ s_popped s' = (s_popped s + k)%nat.
Proof.
  induction k as [|k IH]; intros s Hb Hc Ep Hk Ht.
  - cbn [Nat.mul Nat.add repeat Record_model.arun]. unfold Record_model.astep at 1. rewrite Hc. unfold clean_step at 1. rewrite Ep.
    unfold Record_model.astep. cbn [s_crashed set_cpc]. rewrite Hc. unfold clean_step. cbn [s_cpc set_cpc s_ring].
    rewrite (Record_proofs.base_front _ _ Hb). unfold stored in Hk. rewrite skipn_length in Hk.
    destruct (nth_error (s_all s) (s_popped s)) as [y|] eqn:Ey; [|apply nth_error_None in Ey; lia].
    eexists. split; [reflexivity|]. cbn. repeat split; auto; lia.
  - replace (repeat (@AClean E) (2 * S k + 2)) with (@AClean E :: @AClean E :: repeat (@AClean E) (2 * k + 2)) by (replace (2 * S k + 2)%nat with (S (S (2 * k + 2))) by lia; reflexivity).
    cbn [Record_model.arun].
    unfold stored in Hk, Ht. rewrite skipn_length in Hk.
    destruct (nth_error (s_all s) (s_popped s)) as [y|] eqn:Ey; [|apply nth_error_None in Ey; lia].
    assert (Hy : ts y < s_next s) by (apply Ht; rewrite (skipn_cons_nth _ _ _ Ey); left; reflexivity).
    set (s1 := set_cpc s (s_requested s) (CPop k)).
    assert (E1 : astep s AClean = Some s1).
    { unfold Record_model.astep. rewrite Hc. unfold clean_step. rewrite Ep, (Record_proofs.base_front _ _ Hb), Ey. destruct (Z.ltb_spec (ts y) (s_next s)); [reflexivity|lia]. }
    rewrite E1. assert (Hb1 : base n s1) by (eapply Record_proofs.base_step; eassumption).
    destruct (pop_ok 1 (s_ring s1) _ (Record_proofs.b_holds _ _ Hb1)) as (r & Er & _); [cbn; rewrite skipn_length; lia|].
    destruct (astep s1 AClean) as [s2|] eqn:E2.
    2:{ exfalso. unfold Record_model.astep in E2. cbn [s_crashed s1 set_cpc] in E2. rewrite Hc in E2. unfold clean_step in E2. cbn [s_cpc s1 set_cpc] in E2. destruct (pop 1 _); discriminate. }
    assert (Hb2 : base n s2) by (eapply Record_proofs.base_step; eassumption).
    unfold Record_model.astep in E2. cbn [s_crashed s1 set_cpc] in E2. rewrite Hc in E2. unfold clean_step in E2. cbn [s_cpc s1 set_cpc] in E2.
    rewrite Er in E2. injection E2 as <-.
    match goal with |- context [Record_model.arun _ _ _ _ ?x _] => destruct (IH x) as (s' & A & A1 & A2 & A3 & A4 & A5 & A6 & A7 & A8 & A9) end; [exact Hb2|exact Hc|reflexivity|..].
    + unfold stored. cbn [s_popped s_all s1 set_cpc]. rewrite skipn_length. lia.
    + intros x Hx. apply Ht. unfold stored in Hx. cbn [s_popped s_all s1 set_cpc] in Hx. rewrite (skipn_cons_nth _ _ _ Ey). right. exact Hx.
    + exists s'. cbn in *. repeat split; auto. lia.
Qed.

Lemma clean_leaves : forall acts s, supported_size n -> arun (init n) acts = Some s -> resting s ->
  limit < Z.of_nat (length (stored s)) -> 0 <= quota (Z.of_nat (length (stored s))) < Z.of_nat (length (stored s)) ->
  (forall x, In x (stored s) -> ts x < s_next s) ->
  exists m s', arun s (repeat AClean m) = Some s' /\ resting s' /\ s_all s' = s_all s /\ s_file s' = s_file s /\ s_next s' = s_next s /\
    stored s' = skipn (Z.to_nat (quota (Z.of_nat (length (stored s))))) (stored s).
Proof.
  intros acts s Hn H (R1 & R2 & R3 & R4) Hl Hq Ht.
  assert (Hb : base n s) by (eapply Record_proofs2.base_run; [apply Record_proofs.base_init, Hn|exact H]).
  pose proof (Record_proofs2.occupancy_base _ _ Hb) as Ho. assert (L : length (stored s) = (length (s_all s) - s_popped s)%nat) by (unfold stored; apply skipn_length).
  set (k := Z.to_nat (quota (Z.of_nat (length (stored s))))) in *.
  set (s1 := set_cpc s true CWait). set (s2 := set_cpc s1 true (CLoop k)).
  assert (E1 : astep s AClean = Some s1). { unfold Record_model.astep. rewrite R1. unfold clean_step. rewrite R2. destruct (Z.ltb_spec limit (occupancy (s_ring s))); [reflexivity|lia]. }
  assert (E2 : astep s1 AClean = Some s2).
  { unfold Record_model.astep. cbn [s_crashed s1 set_cpc]. rewrite R1. unfold clean_step. cbn [s_cpc s1 set_cpc s_running s_ring]. rewrite R4. cbn [Z.eqb].
    destruct (Z.ltb_spec limit (occupancy (s_ring s))); [|lia]. unfold s2, k. rewrite Ho, L. reflexivity. }
  assert (Hb2 : base n s2) by (eapply Record_proofs.base_step; [eapply Record_proofs.base_step; eassumption|eassumption]).
  destruct (loop_clean k s2 Hb2) as (s' & A & A1 & A2 & A3 & A4 & A5 & A6 & A7 & A8 & A9); [exact R1|reflexivity|change (stored s2) with (stored s); unfold k; lia|exact Ht|].
  exists (S (S (2 * k + 2))), s'. split.
  { change (repeat (@AClean E) (S (S (2 * k + 2)))) with (@AClean E :: @AClean E :: repeat (@AClean E) (2 * k + 2)). cbn [Record_model.arun]. rewrite E1, E2. exact A. }
  cbn in *. split; [unfold resting; repeat split; auto; congruence|]. repeat split; auto.
  unfold stored. rewrite A8, A9. symmetry. apply skipn_skipn.
Qed.
End Clean.

(** * The link *)
Section Reach.
Variable dnf : Z.
Variable lk : link.
Variable tick nf n : Z.
Variable resets running : bool.
Hypothesis Hdnf : 0 <= dnf.
Hypothesis Htick : 0 < tick.
Hypothesis Hnf : 0 < nf.
Hypothesis Hdur : tick * nf < two64.
Hypothesis Hsize : 2 <= n <= 2 ^ 24.
Variable limit : Z.
Variable pct : float32.
Variable K : Z.
Hypothesis HK0 : 0 <= K.
Hypothesis HK : keeps limit (share pct) n K.

Notation lstep := (link_step dnf lk (tick * nf) tick resets running).
Notation lrun := (link_run dnf lk (tick * nf) tick resets running).
Notation inv := (inv tick nf n).

(** The ring after a history: what it holds, without any condition on the data. *)
Lemma clean_keeps : forall s arr iops q k next s', inv s arr iops q k -> (k <= length arr - Z.to_nat K)%nat ->
  0 <= limit -> proper_share pct -> ~ full_share pct -> lstep s (LClean limit pct next) = Ok (s', OutNone) ->
  exists iops' q' k', inv s' arr iops' q' k' /\ (k' <= length arr - Z.to_nat K)%nat.
Proof.
  intros s arr iops q k next s' Hi Hk Hl Hp Hf Es.
  destruct (inv_clean dnf lk tick nf n resets running Hsize s arr iops q k limit pct next Hi Hl Hp Hf) as (s1 & iops' & q' & k' & E1 & Hi').
  rewrite Es in E1. injection E1 as <-. exists iops', q', k'. split; [exact Hi'|].
  pose proof (sizes tick nf n Hsize _ _ _ _ _ Hi) as Hlen. pose proof (sup_n n Hsize) as Hn.
  destruct (reached_sim n iops _ q Hn (i_sup _ _ _ _ _ _ _ _ Hi) (i_reach _ _ _ _ _ _ _ _ Hi)) as [Hh Hs].
  destruct (reached_sim n iops' _ q' Hn (i_sup _ _ _ _ _ _ _ _ Hi') (i_reach _ _ _ _ _ _ _ _ Hi')) as [Hh' _].
  pose proof (h_len _ _ Hh) as HL. rewrite Hs, (i_qsize _ _ _ _ _ _ _ _ Hi) in HL.
  unfold link_step in Es.
  destruct (cleanup_holds e_ts (fr_lb e_ts e_num tick) (fr_ring_like e_ts e_num tick) limit pct next _ _ (ck_reg (ls_check s)) (ls_pops s) Hh Hp Hlen) as [C1 C2].
  pose proof (i_items _ _ _ _ _ _ _ _ Hi) as I1. pose proof (i_items _ _ _ _ _ _ _ _ Hi') as I2.
  pose proof (i_kle _ _ _ _ _ _ _ _ Hi) as L1. pose proof (i_kle _ _ _ _ _ _ _ _ Hi') as L2.
  assert (N1 : length (q_items q) = (length arr - k)%nat) by (rewrite I1; apply skipn_length).
  assert (N2 : length (q_items q') = (length arr - k')%nat) by (rewrite I2; apply skipn_length).
  destruct (Z.le_gt_cases (Z.of_nat (length (q_items q))) limit) as [G|G].
  - destruct (C1 G) as (st' & E & _). rewrite E in Es. cbn [bind] in Es. injection Es as Es. rewrite <- Es in Hh'. cbn [ls_ring] in Hh'.
    pose proof (holds_unique _ _ _ Hh Hh') as U. rewrite U in N1. lia.
  - destruct (C2 ltac:(lia)) as (j & r' & Ep & (T1 & T2 & T3 & _) & M). specialize (HK (Z.of_nat (length (q_items q))) ltac:(lia)).
    destruct (nth_error (q_items q) j) as [x|] eqn:Ex; [|rewrite M in Es; discriminate]. destruct M as (st' & M & _). rewrite M in Es. cbn [bind] in Es. injection Es as Es.
    rewrite <- Es in Hh'. cbn [ls_ring] in Hh'. destruct (pop_ok j _ _ Hh T2) as (r1 & E4 & H1 & _). rewrite Ep in E4. injection E4 as <-.
    pose proof (holds_unique _ _ _ H1 Hh') as U. pose proof (skipn_length j (q_items q)) as N3. rewrite U in N3. lia.
Qed.

Lemma kept_after : forall ops s0 s ys, link_new n = Ok s0 -> proper_history tick nf ops -> cleaned_with limit pct ops ->
  lrun s0 ops = Ok (s, ys) -> ~ In (OutWrite false) ys ->
  exists iops q k, inv s (received ops) iops q k /\ (k <= length (received ops) - Z.to_nat K)%nat.
Proof.
  induction ops as [|o ops IH] using rev_ind; intros s0 s ys E0 Hp Hc E Hn.
  - cbn in E. injection E as <- <-. exists [], (q_new n), 0%nat. split; [apply inv_new, E0|cbn; lia].
  - destruct (proper_prefix tick nf ops o Hp) as (P1 & P2 & P3).
    rewrite link_run_snoc in E. destruct (lrun s0 ops) as [[s1 ys1]|] eqn:E1; [|discriminate]. cbn [bind] in E.
    destruct (lstep s1 o) as [[s2 y]|] eqn:E2; [|discriminate]. cbn [bind] in E. injection E as <- <-.
    destruct (IH s0 s1 ys1 E0 P1) as (iops & q & k & Hi & Hk); auto.
    { intros l p next H. apply (Hc l p next). apply in_or_app. left. exact H. }
    { intro H. apply Hn. apply in_or_app. left. exact H. }
    assert (Hy : y <> OutWrite false) by (intro H; apply Hn; apply in_or_app; right; rewrite H; left; reflexivity).
    unfold received in *. rewrite received_snoc_gen in *. destruct o as [e|l p next|dr|].
    + destruct (inv_arrive dnf lk tick nf n resets running Htick Hnf Hdur Hsize s1 _ _ _ _ e Hi P3 P2) as (s' & b & Es & H).
      rewrite E2 in Es. injection Es as -> ->. destruct b; [|congruence]. destruct (H eq_refl) as (q' & H').
      eexists _, q', k. split; [exact H'|]. rewrite app_length. cbn. lia.
    + destruct (Hc l p next) as [-> ->]; [apply in_or_app; right; left; reflexivity|]. destruct P2 as (Q1 & Q2 & Q3).
      destruct (inv_clean dnf lk tick nf n resets running Hsize s1 _ iops q k limit pct next Hi Q1 Q2 Q3) as (s3 & iops' & q' & k' & E3 & _).
      rewrite E2 in E3. injection E3 as <- ->. eapply clean_keeps; eassumption.
    + destruct (inv_right_answer dnf lk tick nf n running Hdnf Htick Hsize s1 _ _ _ _ dr Hi P2) as (fo & st' & E & _). unfold link_step in E2. rewrite E in E2. cbn [bind] in E2.
      injection E2 as <- <-. exists iops, q, k. split; [|exact Hk]. destruct Hi as [H1 H2 H3 H4 H5 H6 H7 H8 H9]. split; cbn [ls_ring ls_check]; assumption.
    + destruct (inv_step dnf lk tick nf n resets running Hdnf Htick Hnf Hdur Hsize s1 _ _ _ _ LRestart Hi I) as (s' & y' & Es & H); [exact P3|].
      rewrite E2 in Es. injection Es as <- <-. destruct (H Hy) as (iops' & q' & k' & Hi'). exists iops', q', k'. split; [exact Hi'|].
      pose proof (i_kle _ _ _ _ _ _ _ _ Hi') as L. cbn in L |- *. lia.
Qed.

Lemma newest_skip : forall (T : Type) (l : list T) k m, (k <= length l - m)%nat -> newest m (skipn k l) = newest m l.
Proof. intros T l k m H. unfold newest. rewrite skipn_length, skipn_skipn. f_equal. lia. Qed.

Lemma reach_lemma : forall ops s0 s ys dr, link_new n = Ok s0 -> proper_history tick nf ops -> cleaned_with limit pct ops ->
  lrun s0 ops = Ok (s, ys) -> ~ In (OutWrite false) ys ->
  received ops <> [] -> rq_begin dr <= rq_end dr ->
  oldest_ts (newest (Z.to_nat K) (received ops)) <= rq_begin dr -> newest (Z.to_nat K) (received ops) <> [] ->
  rq_end dr <= newest_ts (received ops) ->
  exists s', lstep s (LRequest dr) = Ok (s', OutReply kFound (Some (mk_fragment (create_fragment_header lk dr)
                                                (window_bytes (received ops) (rq_begin dr) (rq_end dr))))).
Proof.
  intros ops s0 s ys dr E0 Hp Hc E Hn Hne Hdr Hb HK1 He.
  destruct (kept_after ops s0 s ys E0 Hp Hc E Hn) as (iops & q & k & Hi & Hk).
  pose proof (i_items _ _ _ _ _ _ _ _ Hi) as I1. set (arr := received ops) in *.
  assert (L : (k < length arr)%nat).
  { destruct (Nat.lt_ge_cases k (length arr)) as [L|L]; [exact L|]. exfalso. assert (Z.to_nat K = 0 \/ length arr = 0)%nat as [Z0|Z0] by lia.
    - apply HK1. unfold newest. rewrite Z0, Nat.sub_0_r. apply skipn_all.
    - apply Hne. destruct arr; [reflexivity|discriminate]. }
  assert (Hw : wf tick (q_items q)) by (rewrite I1; apply wf_skipn; apply (i_wf _ _ _ _ _ _ _ _ Hi)).
  destruct (nth_error arr k) as [x|] eqn:Ex; [|apply nth_error_None in Ex; lia].
  pose proof (skipn_cons_nth arr k x Ex) as Sk.
  destruct (inv_served dnf lk tick nf n running Htick Hsize s arr iops q k dr Hi Hdr) as (st' & Ea).
  - rewrite I1, Sk. discriminate.
  - rewrite I1, Sk. cbn [oldest_ts]. etransitivity; [|exact Hb]. unfold newest in Hb, HK1 |- *.
    set (j := (length arr - Z.to_nat K)%nat) in *. destruct (nth_error arr j) as [y|] eqn:Ey.
    + rewrite (skipn_cons_nth arr j y Ey). cbn [oldest_ts].
      pose proof (wf_non_decreasing tick _ (i_wf _ _ _ _ _ _ _ _ Hi)) as M. exact (M k j x y Hk Ex Ey).
    + exfalso. apply HK1. apply skipn_all2. apply nth_error_None. exact Ey.
  - rewrite I1. replace (newest_ts (skipn k arr)) with (newest_ts arr); [exact He|].
    clear -L. unfold newest_ts. rewrite <- (firstn_skipn k arr) at 1. rewrite rev_app_distr.
    destruct (rev (skipn k arr)) as [|z l] eqn:Er; [|reflexivity]. apply (f_equal (@length _)) in Er. rewrite rev_length, skipn_length in Er. cbn in Er. lia.
  - unfold link_step. rewrite Ea. cbn [bind]. eexists. reflexivity.
Qed.
End Reach.
