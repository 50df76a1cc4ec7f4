(** Proofs about the pointers that the skip-list buffer hands out: looks and clean-ups. *)
From Coq Require Import ZArith List Bool Lia ZifyBool Arith.
From Verif Require Import Base_model SkipList_model SkipList_spec SkipList_proofs Lend_model Lend_spec Lend_proofs.
Import ListNotations.
Open Scope Z_scope.

Lemma look_closed : forall s, n_look (closed s) = n_look s.
Proof. intros s. unfold closed. destruct (open_now s); reflexivity. Qed.
Lemma list_closed : forall s, n_list (closed s) = n_list s.
Proof. intros s. unfold closed. destruct (open_now s); reflexivity. Qed.
Lemma clean_closed : forall s, n_clean (closed s) = n_clean s.
Proof. intros s. unfold closed. destruct (open_now s); reflexivity. Qed.
Lemma out_closed : forall s, n_out (closed s) = n_out s.
Proof. intros s. unfold closed. destruct (open_now s); reflexivity. Qed.

(** Takes a step apart. *)
Ltac cases E :=
  repeat match type of E with
         | match ?x with _ => _ end = _ => destruct x eqn:?; try discriminate
         end; inversion E; subst; clear E.

(** During one look the pointer stays what it is. *)
Lemma same_pointer : forall pds keep acts s s' p, n_look s = KHas p -> one_look acts ->
  lend_run pds keep s acts = Some s' -> n_look s' = KHas p \/ n_look s' = KBare p \/ n_look s' = KIdle.
Proof.
  intros pds keep acts s s' p K. assert (H : n_look s = KHas p \/ n_look s = KBare p \/ n_look s = KIdle) by auto.
  clear K. revert s H. induction acts as [|a acts IH]; intros s H O R; cbn in R; [inversion R; subst; exact H|].
  destruct (step pds keep s a) as [s1|] eqn:E; [|discriminate].
  apply (IH s1); [|intros I; apply O; right; exact I|exact R].
  assert (a <> LOpen) by (intros ->; apply O; left; reflexivity). clear IH R O.
  destruct a; try congruence; cbn in E; cases E; rewrite ?look_closed; cbn; auto;
    try (destruct (sl_back (n_list s)); cbn; exact H);
    destruct H as [H|[H|H]]; rewrite H in *; try discriminate;
    try match goal with Q : KHas _ = KHas _ |- _ => inversion Q; subst; destruct keep; auto end;
    try match goal with Q : KBare _ = KBare _ |- _ => inversion Q; subst; auto end; cbn in *; auto.
Qed.

Lemma look_lemma : forall pds keep pre s acts s2 s3, lend_run pds keep lend0 (pre ++ [LLast]) = Some s ->
  one_look acts -> lend_run pds keep s acts = Some s2 -> step pds keep s2 LRead = Some s3 ->
  exists r, n_out s3 = r :: n_out s2 /\
    (n_list s = [] /\ r = NoElement
     \/ exists nd, newest s nd /\ (r = Newest (nd_ts nd) /\ ~ gone pds keep s acts nd
                                   \/ r = Freed /\ gone pds keep s acts nd)).
Proof.
  intros pds keep pre s acts s2 s3 R0 O R E.
  assert (G : good pds s) by (eapply good_run; [apply good0|exact R0]).
  assert (T : tidy s) by (eapply (run_inv pds keep tidy (tidy_step pds keep)); [|exact R0]; intros _; reflexivity).
  assert (K : n_look s = KHas (sl_back (n_list s))).
  { rewrite run_app in R0. destruct (lend_run pds keep lend0 pre) as [s0|]; [|discriminate]. cbn in R0.
    destruct (n_look s0); inversion R0; subst. reflexivity. }
  assert (P := same_pointer _ _ _ _ _ _ K O R).
  assert (B := back_newest pds s G).
  assert (G2 := good_run _ _ _ _ _ G R).
  exists (read_node s2 (sl_back (n_list s))). split.
  - cbn in E. destruct P as [P|[P|P]]; rewrite P in E; try discriminate; destruct keep; inversion E; reflexivity.
  - destruct (sl_back (n_list s)) as [nd|]; [right|left; split; [exact B|reflexivity]].
    exists nd. split; [exact B|]. destruct (track pds keep acts s s2 nd G T (proj1 B) R) as [[I N]|[N Go]].
    + left. split; [|exact N]. apply (read_in pds); assumption.
    + right. split; [|exact Go]. apply (read_out pds keep acts s); try assumption. apply B.
Qed.

(** With the accessor kept. *)
Lemma kept_lemma : forall pds acts s, lend_run pds true lend0 acts = Some s -> ~ In Freed (n_out s).
Proof.
  intros pds acts s R.
  enough (good pds s /\ (forall p, n_look s <> KBare p) /\ (forall nd, n_look s = KHas (Some nd) -> In nd (all s)) /\
          ~ In Freed (n_out s)) by tauto.
  refine (run_inv pds true (fun s => good pds s /\ (forall p, n_look s <> KBare p) /\
    (forall nd, n_look s = KHas (Some nd) -> In nd (all s)) /\ ~ In Freed (n_out s)) _ acts lend0 s _ R).
  2: { split; [apply good0|]. split; [discriminate|]. split; [discriminate|]. intros []. }
  clear. intros s a s' (G & NB & I & F) E. split; [eapply good_step; eassumption|].
  assert (St := E).
  assert (HI : forall nd, n_look s = KHas (Some nd) -> n_look s' = KHas (Some nd) -> In nd (all s')).
  { intros nd K K'. destruct (step_all _ _ _ _ _ nd G St (I nd K)) as [H|[(_ & _ & [H|[p H]]) _]]; [exact H| |]; congruence. }
  assert (Q : (n_look s' = n_look s /\ n_out s' = n_out s) \/ In a [LOpen; LLast; LClose; LRead]).
  { destruct a; cbn in E; cbn [In]; auto 10; left; cases E; rewrite ?look_closed, ?out_closed; cbn; auto.
    destruct (sl_back (n_list s)); cbn; auto. }
  destruct Q as [[Q1 Q2]|Q].
  { rewrite Q1, Q2. split; [exact NB|]. split; [|exact F]. intros nd Hk. apply HI; congruence. }
  cbn [In] in Q. destruct Q as [<-|[<-|[<-|[<-|[]]]]]; cbn in E.
  - cases E. cbn. split; [discriminate|]. split; [discriminate|exact F].
  - cases E. cbn. split; [discriminate|]. split; [|exact F]. intros nd K. inversion K as [K1].
    assert (B := back_newest pds s G). rewrite K1 in B. apply in_or_app. left. apply B.
  - cases E. rewrite ?look_closed, ?out_closed. cbn. split; [discriminate|]. split; [discriminate|exact F].
  - cases E. cbn. split; [discriminate|]. split; [intros nd Hk; apply HI; [congruence|exact Hk]|].
    intros [H|H]; [|exact (F H)]. destruct p as [nd|]; [|discriminate].
    change (read_node s (Some nd) = Freed) in H. rewrite (read_in pds s nd G (I nd eq_refl)) in H. discriminate.
Qed.

(** The clean-up of photon-detector data. *)
Definition clean_ok (s : lend) : Prop :=
  match n_clean s with
  | CTail t | CAgain t => In t (n_list s)
  | CHead t h => In t (n_list s) /\ nd_ts h + max_ts_diff <= nd_ts t
  | CNull => False
  | _ => True
  end.
Definition range_ok (s : lend) : Prop := forall y, In y (n_list s) -> 0 <= nd_ts y < 18446744073709551616.

Lemma front_le : forall (l : list node) h t, incr nd_ts l -> sl_front l = Some h -> In t l -> nd_ts h <= nd_ts t.
Proof.
  intros [|x l] h t Hi F I; [destruct I|]. destruct Hi as [H _]. cbn in F. inversion F. subst h. destruct I as [->|I]; [lia|].
  specialize (H t I). lia.
Qed.
Lemma front_in : forall (l : list node) h, sl_front l = Some h -> In h l.
Proof. intros [|x l] h F; inversion F. left. reflexivity. Qed.

Lemma diff_exact : forall t h, 0 <= t < 18446744073709551616 -> 0 <= h < 18446744073709551616 -> h <= t -> u64 (t - h) = t - h.
Proof. intros t h Ht Hh L. unfold u64, two64. apply Z.mod_small. lia. Qed.

Lemma clean_step : forall keep s a s', good true s -> clean_ok s -> range_ok s ->
  (forall t, a = AInsert t -> 0 <= t < 18446744073709551616) -> step true keep s a = Some s' -> clean_ok s' /\ range_ok s'.
Proof.
  intros keep s a s' G C R A E. unfold clean_ok, range_ok in *.
  destruct a; cbn in E; try (cases E; rewrite ?clean_closed, ?list_closed; cbn; split; [assumption||exact I|assumption]).
  - (* insert *)
    cases E. cbn. split.
    + destruct (n_clean s); try exact C; [| |].
      * apply insert_keeps; [apply G|exact C].
      * split; [apply insert_keeps; [apply G|apply C]|apply C].
      * apply insert_keeps; [apply G|exact C].
    + intros y Hy. apply insert_in in Hy; [|apply G]. destruct Hy as [->|Hy]; [cbn; auto|auto].
  - destruct (n_users s); discriminate.
  - (* tail *)
    cases E. cbn. assert (B := back_newest true s G). destruct (sl_back (n_list s)); [split; [apply B|exact R]|auto].
  - (* head *)
    cases E. cbn. try rewrite Heqc in C. split; [|exact R].
    destruct (sl_front (n_list s)) as [h|] eqn:F; [|exact I].
    assert (L := front_le _ _ _ (g_incr _ _ G) F C).
    rewrite diff_exact by (auto using front_in).
    destruct (max_ts_diff <? nd_ts t - nd_ts h) eqn:D; [|exact I]. split; [exact C|lia].
  - (* remove *)
    cases E. cbn. try rewrite Heqc in C. destruct C as [C D]. split.
    + apply filter_In. split; [exact C|]. unfold max_ts_diff in D. apply negb_true_iff. lia.
    + intros y Hy. apply filter_In in Hy. apply R. tauto.
  - (* again *)
    cases E. cbn. try rewrite Heqc in C. split; [|exact R].
    destruct (sl_front (n_list s)) as [h|] eqn:F.
    + assert (L := front_le _ _ _ (g_incr _ _ G) F C).
      rewrite diff_exact by (auto using front_in).
      destruct (max_ts_diff <=? nd_ts t - nd_ts h) eqn:D; [|exact I]. split; [exact C|lia].
    + destruct (n_list s); [destruct C|discriminate].
  - destruct (n_look s); try discriminate; destruct keep; try discriminate; inversion E; cbn; auto.
Qed.

Lemma clean_run : forall keep acts s s', good true s -> clean_ok s -> range_ok s -> ts64 acts ->
  lend_run true keep s acts = Some s' -> clean_ok s' /\ range_ok s'.
Proof.
  intros keep. induction acts as [|a acts IH]; intros s s' G C R T E; cbn in E; [inversion E; subst; auto|].
  destruct (step true keep s a) as [s1|] eqn:St; [|discriminate].
  destruct (clean_step keep s a s1 G C R) as [C1 R1]; [intros t ->; apply T; left; reflexivity|exact St|].
  eapply IH; [eapply good_step; eassumption|exact C1|exact R1|intros t I; apply T; right; exact I|exact E].
Qed.

(** Nodes stored later were stored at first or inserted since. *)
Lemma step_list : forall keep s a s' y, good true s -> step true keep s a = Some s' -> In y (n_list s') ->
  In y (n_list s) \/ a = AInsert (nd_ts y).
Proof.
  intros keep s a s' y G E I. destruct a; cbn in E; cases E; rewrite ?list_closed in I; cbn in I; auto.
  - apply insert_in in I; [|apply G]. destruct I as [->|I]; auto.
  - apply filter_In in I. tauto.
Qed.

Lemma step_leaves : forall keep s a s' y, good true s -> step true keep s a = Some s' -> In y (n_list s) ->
  In y (n_list s') \/ exists t h, n_clean s = CHead t h /\ nd_ts h = nd_ts y.
Proof.
  intros keep s a s' y G E I. destruct a; cbn in E; cases E; rewrite ?list_closed; cbn; auto.
  - left. apply insert_keeps; [apply G|exact I].
  - rewrite filter_In. destruct (nd_ts y =? nd_ts h) eqn:Q; [right; exists t, h; split; [auto|lia]|left; auto].
Qed.

Lemma far_lemma : forall keep acts s s' nd, good true s -> clean_ok s -> range_ok s -> ts64 acts -> newest s nd ->
  lend_run true keep s acts = Some s' ->
  In nd (n_list s') \/ exists t, In (AInsert t) acts /\ nd_ts nd + max_ts_diff <= t.
Proof.
  intros keep acts s s' nd G C R T N E.
  enough (H : (forall y, In y (n_list s') -> In y (n_list s) \/ In (AInsert (nd_ts y)) acts) /\
              (In nd (n_list s') \/ exists t, In (AInsert t) acts /\ nd_ts nd + max_ts_diff <= t)) by tauto.
  revert s' T E. induction acts as [|a acts IH] using rev_ind; intros s' T E.
  - cbn in E. inversion E. subst. split; [auto|]. left. apply N.
  - rewrite run_app in E. destruct (lend_run true keep s acts) as [s1|] eqn:R1; [|discriminate]. cbn in E.
    destruct (step true keep s1 a) as [s2|] eqn:St; [|discriminate]. inversion E. subst s2. clear E.
    assert (T1 : ts64 acts) by (intros t I; apply T, in_or_app; auto).
    assert (G1 := good_run _ _ _ _ _ G R1).
    destruct (clean_run keep acts s s1 G C R T1 R1) as [C1 _].
    destruct (IH s1 T1 eq_refl) as [IH1 IH2]. split.
    + intros y I. destruct (step_list _ _ _ _ _ G1 St I) as [H|H].
      * destruct (IH1 y H); [auto|right; apply in_or_app; auto].
      * right. apply in_or_app. right. left. exact H.
    + destruct IH2 as [I|(t & I & L)]; [|right; exists t; split; [apply in_or_app; auto|exact L]].
      destruct (step_leaves _ _ _ _ _ G1 St I) as [H|(t & h & K & Q)]; [left; exact H|right].
      unfold clean_ok in C1. rewrite K in C1. destruct C1 as [C1 D].
      destruct (IH1 t C1) as [H|H].
      * destruct N as [_ N]. specialize (N t H). unfold max_ts_diff in D. lia.
      * exists (nd_ts t). split; [apply in_or_app; auto|lia].
Qed.

Lemma pds_lemma : forall keep pre s acts s2 s3 nd,
  ts64 (pre ++ acts) -> lend_run true keep lend0 (pre ++ [LLast]) = Some s -> newest s nd ->
  one_look acts -> lend_run true keep s acts = Some s2 -> step true keep s2 LRead = Some s3 ->
  n_out s3 = Freed :: n_out s2 -> exists t, In (AInsert t) acts /\ nd_ts nd + max_ts_diff <= t.
Proof.
  intros keep pre s acts s2 s3 nd T R0 N O R E F.
  assert (T0 : ts64 (pre ++ [LLast])).
  { intros t I. apply T. apply in_app_iff in I. destruct I as [I|[I|[]]]; [apply in_or_app; auto|discriminate]. }
  assert (TA : ts64 acts) by (intros t I; apply T, in_or_app; auto).
  assert (G : good true s) by (eapply good_run; [apply good0|exact R0]).
  destruct (clean_run keep _ _ _ (good0 true) I ltac:(intros y []) T0 R0) as [C Rg].
  destruct (look_lemma _ _ _ _ _ _ _ R0 O R E) as (r & Hr & [[HE _]|(nd' & N' & D)]).
  - destruct N as [N _]. rewrite HE in N. destruct N.
  - rewrite F in Hr. inversion Hr. subst r. destruct D as [[D _]|[_ (a & b & s' & Ea & Ra & _ & NI)]]; [discriminate|].
    assert (nd' = nd) as ->.
    { assert (Q : forall l, incr nd_ts l -> forall x y, In x l -> In y l -> nd_ts x = nd_ts y -> x = y).
      { induction l as [|w l IH]; intros Hi x y Hx Hy Q; [destruct Hx|]. destruct Hi as [H1 H2].
        destruct Hx as [->|Hx], Hy as [->|Hy]; auto; [specialize (H1 y Hy)|specialize (H1 x Hx)]; lia. }
      apply (Q (n_list s)); [apply G|apply N'|apply N|].
      destruct N as [N1 N2], N' as [N1' N2']. specialize (N2 _ N1'). specialize (N2' _ N1). lia. }
    assert (TB : ts64 a) by (intros t It; apply TA; subst acts; apply in_or_app; auto).
    destruct (far_lemma keep a s s' nd G C Rg TB N Ra) as [H|(t & It & L)]; [contradiction|].
    exists t. split; [subst acts; apply in_or_app; auto|exact L].
Qed.

Lemma null_lemma : forall keep acts s, ts64 acts -> lend_run true keep lend0 acts = Some s -> n_clean s <> CNull.
Proof.
  intros keep acts s T R. destruct (clean_run keep acts _ _ (good0 true) I ltac:(intros y []) T R) as [C _].
  unfold clean_ok in C. intros K. rewrite K in C. exact C.
Qed.

Lemma pop_lemma : forall acts s nd, lend_run false false lend0 acts = Some s -> nobody s ->
  n_look s = KBare (Some nd) -> newest s nd ->
  exists s', lend_run false false s [AOpen; APop; AClose; LRead] = Some s' /\ n_out s' = Freed :: n_out s.
Proof.
  intros acts s nd R N K W.
  assert (G : good false s) by (eapply good_run; [apply good0|exact R]).
  assert (B := back_newest false s G).
  destruct s as [l w u c k n o]. cbn in K. subst k. destruct N as (U & Cl & _). cbn in U, Cl. subst u c.
  cbn [lend_run step set_users n_users n_list n_waste n_clean n_look n_now n_out].
  cbn [n_list] in B. destruct (sl_back l) as [y|] eqn:Y; [|destruct W as [W _]; cbn in B, W; subst l; destruct W].
  unfold remove, closed, open_now. cbn [n_list n_waste n_users n_clean n_look n_now n_out set_users Nat.add].
  eexists. split; [reflexivity|]. cbn [n_out]. f_equal. unfold read_node. cbn [n_list n_waste].
  rewrite app_nil_r. destruct (find _ _) as [z|] eqn:F; [|reflexivity]. exfalso.
  apply find_some in F. destruct F as [F1 F2]. apply Nat.eqb_eq in F2. apply filter_In in F1. destruct F1 as [F1 F3].
  destruct W as [W1 W2], B as [B1 B2]. cbn [n_list] in *.
  assert (z = nd) as -> by (apply (g_uniq _ _ G); [apply in_or_app; left; exact F1|apply in_or_app; left; exact W1|exact F2]).
  specialize (W2 y B1). specialize (B2 nd W1). apply negb_true_iff in F3. lia.
Qed.

(** Without removals. *)
Lemma stays_lemma : forall pds keep acts s s' nd, good pds s -> ~ In APop acts -> ~ In ARemove acts ->
  In nd (n_list s) -> lend_run pds keep s acts = Some s' -> In nd (n_list s').
Proof.
  intros pds keep. induction acts as [|a acts IH]; intros s s' nd G NP NR I E; cbn in E; [inversion E; subst; exact I|].
  destruct (step pds keep s a) as [s1|] eqn:St; [|discriminate].
  apply (IH s1 s' nd); [eapply good_step; eassumption|intros H; apply NP; right; exact H|intros H; apply NR; right; exact H| |exact E].
  assert (a <> APop) by (intros ->; apply NP; left; reflexivity). assert (a <> ARemove) by (intros ->; apply NR; left; reflexivity).
  clear IH E NP NR. destruct a; try congruence; cbn in St; cases St; rewrite ?list_closed; cbn; try exact I.
  apply insert_keeps; [apply G|exact I].
Qed.

Lemma excluded_lemma : forall pds keep pre s acts s2 s3, lend_run pds keep lend0 (pre ++ [LLast]) = Some s ->
  one_look acts -> ~ In APop acts -> ~ In ARemove acts -> lend_run pds keep s acts = Some s2 -> step pds keep s2 LRead = Some s3 ->
  (n_list s = [] /\ n_out s3 = NoElement :: n_out s2) \/ exists nd, newest s nd /\ n_out s3 = Newest (nd_ts nd) :: n_out s2.
Proof.
  intros pds keep pre s acts s2 s3 R0 O NP NR R E.
  assert (G : good pds s) by (eapply good_run; [apply good0|exact R0]).
  destruct (look_lemma _ _ _ _ _ _ _ R0 O R E) as (r & Hr & [[H1 ->]|(nd & N & [[-> _]|[-> (a & b & s' & Ea & Ra & _ & NI)]])]).
  - left. auto.
  - right. exists nd. auto.
  - exfalso. apply NI. apply (stays_lemma pds keep a s s' nd G); [| |apply N|exact Ra].
    + intros H. apply NP. subst acts. apply in_or_app. auto.
    + intros H. apply NR. subst acts. apply in_or_app. auto.
Qed.
