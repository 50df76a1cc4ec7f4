(** Proofs about looking for an error while the registry is being changed. *)
From Coq Require Import ZArith List Bool String Lia ZifyBool.
From Verif Require Import Registry_model Registry_spec Registry_proofs Walk_model Walk_spec.
Import ListNotations.
Open Scope Z_scope.

Definition regs (s : walk) : registry := reg_run (map as_op (k_calls s)).

(* the map holds exactly [m] *)
Definition content (s : walk) (m : registry) : Prop :=
  match k_root s with
  | None => m = []
  | Some p => exists iv, k_heap s p = Some iv /\ m = [(the_name, iv)]
  end.

(* live nodes are those allowed by [P] *)
Definition live_only (s : walk) (P : nat -> Prop) : Prop := forall p iv, k_heap s p = Some iv -> P p /\ (p < k_next s)%nat.

Definition idle_pc (p : wpc) : Prop := match p with WIdle | WWait _ => True | _ => False end.

Definition at_root (s : walk) (p : nat) : Prop := k_root s = Some p.

Definition holder_ok (s : walk) (p : wpc) : Prop :=
  match p with
  | WIdle | WWait _ => False
  | WErase _ | WTrim _ => content s (regs s) /\ live_only s (at_root s)
  | WFreeOld q iv => k_root s = None /\ (exists old, k_heap s q = Some old /\ regs s = [(the_name, old)]) /\ live_only s (eq q)
  | WInsert iv => k_root s = None /\ live_only s (fun _ => False) /\ (regs s = [] \/ exists old, regs s = [(the_name, old)])
  | WFreeTrim q ts => k_root s = None /\ (exists old, k_heap s q = Some old /\ regs s = [(the_name, old)] /\ iv_end old < ts) /\ live_only s (eq q)
  | WUnlock c => content s (reg_step (regs s) (as_op c)) /\ live_only s (at_root s)
  end.

Record winv (s : walk) : Prop := {
  w_others : forall w, k_lock s <> Some w -> idle_pc (k_w s w);
  w_state : match k_lock s with
            | None => content s (regs s) /\ live_only s (at_root s)
            | Some w => holder_ok s (k_w s w)
            end;
  w_fresh : forall p, (k_next s <= p)%nat -> k_heap s p = None;
  w_reads : forall r p k, k_r s r = RAt p k -> (p < k_next s)%nat
}.

Lemma winv_new : winv walk_new.
Proof.
  split; cbn; try discriminate; auto.
  split; [reflexivity|]. intros p iv H. discriminate.
Qed.

Lemma put_same {A} (f : nat -> A) i a : put f i a i = a.
Proof. unfold put. rewrite Nat.eqb_refl. reflexivity. Qed.
Lemma put_other {A} (f : nat -> A) i a j : j <> i -> put f i a j = f j.
Proof. intros H. unfold put. destruct (Nat.eqb_spec j i); [contradiction|reflexivity]. Qed.

Lemma regs_snoc s c : reg_run (map as_op (k_calls s ++ [c])) = reg_step (regs s) (as_op c).
Proof. rewrite map_app. cbn [map]. apply run_snoc. Qed.

Lemma add_one iv m : m = [] \/ (exists old, m = [(the_name, old)]) -> reg_step m (as_op (CAdd iv)) = [(the_name, iv)].
Proof. intros [->|[old ->]]; reflexivity. Qed.

Lemma content_one s m : content s m -> m = [] \/ exists old, m = [(the_name, old)].
Proof. unfold content. destruct (k_root s); [intros (iv & _ & ->)|intros ->]; eauto. Qed.

Lemma root_live s p : winv s -> k_root s = Some p -> k_heap s p <> None.
Proof.
  intros Hi Er. assert (forall m, content s m -> k_heap s p <> None) as Hc.
  { intros m X. unfold content in X. rewrite Er in X. destruct X as (iv & Y & _). congruence. }
  pose proof (w_state _ Hi) as X. destruct (k_lock s) as [w|]; [|exact (Hc _ (proj1 X))].
  destruct (k_w s w); cbn [holder_ok] in X; try contradiction; try exact (Hc _ (proj1 X));
    destruct X as [Y _]; congruence.
Qed.

Lemma winv_step : forall s a s', winv s -> walk_step s a = Some s' -> winv s'.
Proof.
  intros s a s' Hi H. pose proof Hi as [Ho Hs Hf Hr]. unfold walk_step in H. destruct (k_crashed s); [discriminate|].
  destruct a as [w c|w|r].
  - destruct (k_w s w) eqn:Ew; try discriminate. injection H as <-. split; cbn.
    + intros v Hv. destruct (Nat.eq_dec v w) as [->|N]; [rewrite put_same; exact I|rewrite put_other by exact N; auto].
    + destruct (k_lock s) as [v|] eqn:El; [|exact Hs]. assert (v <> w) by (intros ->; rewrite Ew in Hs; exact Hs).
      rewrite put_other by assumption. exact Hs.
    + exact Hf.
    + exact Hr.
  - unfold write_step in H.
    assert (forall v, k_lock s = Some v -> idle_pc (k_w s w) -> v <> w) as Hne.
    { intros v Hv Hii ->. rewrite Hv in Hs. destruct (k_w s w); cbn in *; contradiction. }
    assert (~ idle_pc (k_w s w) -> k_lock s = Some w) as Hme.
    { intros Hii. destruct (k_lock s) as [v|] eqn:El.
      - destruct (Nat.eq_dec v w) as [->|N]; [reflexivity|]. exfalso. apply Hii. apply Ho. congruence.
      - exfalso. apply Hii. apply Ho. discriminate. }
    assert (forall p, k_lock s = Some w -> (forall v, v <> w -> idle_pc (put (k_w s) w p v))) as Hoth.
    { intros p Hl v Hv. rewrite put_other by exact Hv. apply Ho. congruence. }
    destruct (k_w s w) as [|c|iv|q iv|iv|t|q t|c] eqn:Ew.
    + discriminate.
    + destruct (k_lock s) as [v|] eqn:El; [discriminate|]. injection H as <-. split; cbn.
      * intros v Hv. rewrite put_other by congruence. apply Ho. discriminate.
      * rewrite put_same. destruct c; exact Hs.
      * exact Hf.
      * exact Hr.
    + specialize (Hme ltac:(cbn; tauto)). rewrite Hme, Ew in Hs. destruct Hs as [Hc Hl].
      destruct (k_root s) as [p|] eqn:Er; injection H as <-; split; cbn;
        try (intros v Hv; rewrite put_other by congruence; apply Ho; exact Hv); try exact Hf; try exact Hr.
      * rewrite Hme, put_same. cbn. split; [reflexivity|]. unfold content in Hc. rewrite Er in Hc.
        destruct Hc as (old & H1 & H2). split; [exists old; split; assumption|].
        intros x v Hx. destruct (Hl x v Hx) as [X1 X2]. split; [unfold at_root in X1; cbn; congruence|exact X2].
      * rewrite Hme, put_same. cbn. split; [exact Er|]. split; [|exact (content_one _ _ Hc)].
        intros x v Hx. destruct (Hl x v Hx) as [X1 X2]. unfold at_root in X1. congruence.
    + specialize (Hme ltac:(cbn; tauto)). rewrite Hme, Ew in Hs. destruct Hs as (Hroot & (old & H1 & H2) & Hl).
      injection H as <-. split; cbn; try (intros v Hv; rewrite put_other by congruence; apply Ho; exact Hv); try exact Hr.
      * rewrite Hme, put_same. cbn. split; [exact Hroot|]. split; [|right; exists old; exact H2].
        intros x v Hx. cbn in Hx. destruct (Nat.eq_dec x q) as [->|N]; [rewrite put_same in Hx; discriminate|].
        rewrite put_other in Hx by exact N. destruct (Hl x v Hx) as [X1 _]. congruence.
      * intros x Hx. destruct (Nat.eq_dec x q) as [->|N]; [apply put_same|rewrite put_other by exact N; apply Hf; exact Hx].
    + specialize (Hme ltac:(cbn; tauto)). rewrite Hme, Ew in Hs. destruct Hs as (Hroot & Hl & Hm).
      injection H as <-. split; cbn; try (intros v Hv; rewrite put_other by congruence; apply Ho; exact Hv).
      * rewrite Hme, put_same. cbn. split.
        -- unfold content. cbn. exists iv. rewrite put_same. split; [reflexivity|]. apply (add_one iv _ Hm).
        -- intros x v Hx. cbn in Hx |- *. destruct (Nat.eq_dec x (k_next s)) as [->|N]; [split; [reflexivity|lia]|].
           rewrite put_other in Hx by exact N. destruct (Hl x v Hx) as [[] _].
      * intros x Hx. rewrite put_other by lia. apply Hf. lia.
      * intros r p k Hk. specialize (Hr r p k Hk). lia.
    + specialize (Hme ltac:(cbn; tauto)). rewrite Hme, Ew in Hs. destruct Hs as [Hc Hl]. pose proof Hc as Hc0. unfold content in Hc.
      destruct (k_root s) as [p|] eqn:Er.
      * destruct Hc as (iv & H1 & H2). rewrite H1 in H.
        destruct (iv_end iv <? t) eqn:Et; injection H as <-; split; cbn;
          try (intros v Hv; rewrite put_other by congruence; apply Ho; exact Hv); try exact Hf; try exact Hr;
          rewrite Hme, put_same; cbn.
        -- split; [reflexivity|]. split; [exists iv; repeat split; [exact H1|exact H2|lia]|].
           intros x v Hx. destruct (Hl x v Hx) as [X1 X2]. split; [unfold at_root in X1; cbn; congruence|exact X2].
        -- split; [|intros x v Hx; exact (Hl x v Hx)].
           assert (reg_step (regs s) (RTrim t) = regs s) as Eq by (rewrite H2; cbn; rewrite Et; reflexivity).
           unfold content. cbn [k_root k_heap set_w]. rewrite Er. exists iv. split; [exact H1|].
           transitivity (regs s); [exact Eq|exact H2].
      * injection H as <-. split; cbn;
          try (intros v Hv; rewrite put_other by congruence; apply Ho; exact Hv); try exact Hf; try exact Hr.
        rewrite Hme, put_same. cbn. split; [|intros x v Hx; exact (Hl x v Hx)].
        unfold content. cbn [k_root set_w]. rewrite Er. transitivity (reg_step (regs s) (RTrim t)); [reflexivity|]. rewrite Hc. reflexivity.
    + specialize (Hme ltac:(cbn; tauto)). rewrite Hme, Ew in Hs. destruct Hs as (Hroot & (old & H1 & H2 & H3) & Hl).
      injection H as <-. split; cbn; try (intros v Hv; rewrite put_other by congruence; apply Ho; exact Hv); try exact Hr.
      * rewrite Hme, put_same. cbn. split.
        -- unfold content. cbn [k_root set_w free]. rewrite Hroot. transitivity (reg_step (regs s) (RTrim t)); [reflexivity|].
           rewrite H2. cbn. destruct (iv_end old <? t) eqn:Et; [reflexivity|lia].
        -- intros x v Hx. cbn in Hx |- *. destruct (Nat.eq_dec x q) as [->|N]; [rewrite put_same in Hx; discriminate|].
           rewrite put_other in Hx by exact N. destruct (Hl x v Hx) as [X1 _]. congruence.
      * intros x Hx. destruct (Nat.eq_dec x q) as [->|N]; [apply put_same|rewrite put_other by exact N; apply Hf; exact Hx].
    + specialize (Hme ltac:(cbn; tauto)). rewrite Hme, Ew in Hs. destruct Hs as [Hc Hl].
      injection H as <-. split; cbn; try exact Hf; try exact Hr.
      * intros v Hv. destruct (Nat.eq_dec v w) as [->|N]; [rewrite put_same; exact I|rewrite put_other by exact N; apply Ho; congruence].
      * split; [|intros x v Hx; exact (Hl x v Hx)]. 
        match goal with |- content _ ?t => replace t with (reg_step (regs s) (as_op c)) by (symmetry; exact (regs_snoc s c)) end.
        exact Hc.
  - injection H as <-. unfold look_step.
    assert (forall q, (forall p k, q = RAt p k -> (p < k_next s)%nat) -> winv (set_r s r q)) as Hset.
    { intros q Hq. split; cbn; try exact Ho; try exact Hf.
      - destruct (k_lock s); exact Hs.
      - intros r' p k Hk. destruct (Nat.eq_dec r' r) as [->|N]; [rewrite put_same in Hk; exact (Hq p k Hk)|].
        rewrite put_other in Hk by exact N. exact (Hr r' p k Hk). }
    assert (winv (crash s)) as Hcr by (split; cbn; assumption).
    assert (winv match k_root s with None => set_r s r (RDone false) | Some p => set_r s r (RAt p 3) end) as Hfirst.
    { destruct (k_root s) as [p|] eqn:Er; apply Hset; intros p' k Hk; [|discriminate]. injection Hk as <- <-.
      destruct (Nat.lt_ge_cases p (k_next s)) as [X|X]; [exact X|]. exfalso. specialize (Hf p X).
      exact (root_live s p Hi Er Hf). }
    destruct (k_r s r) as [|p more|b] eqn:Ek; [exact Hfirst| |exact Hfirst].
    destruct (k_heap s p) as [iv|]; [|exact Hcr]. pose proof (Hr r p more Ek) as Hp.
    destruct more as [|[|k]]; apply Hset; intros p' k' Hk; try discriminate. injection Hk as <- <-. exact Hp.
Qed.

Lemma winv_run : forall acts s s', winv s -> walk_run s acts = Some s' -> winv s'.
Proof.
  induction acts as [|a acts IH]; intros s s' Hi H; cbn in H; [injection H as <-; exact Hi|].
  destruct (walk_step s a) as [s1|] eqn:E1; [|discriminate]. exact (IH s1 s' (winv_step _ _ _ Hi E1) H).
Qed.

Lemma reach acts s : walk_run walk_new acts = Some s -> winv s.
Proof. apply winv_run, winv_new. Qed.

Lemma content_lemma : forall acts s, walk_run walk_new acts = Some s -> quiet s ->
  forall iv, in_map s iv <-> in_force_now s iv.
Proof.
  intros acts s H Hq iv. pose proof (w_state _ (reach _ _ H)) as Hs. rewrite Hq in Hs. destruct Hs as [Hc _].
  unfold in_force_now, in_map. rewrite <- in_run. fold (regs s). unfold content in Hc.
  destruct (k_root s) as [p|].
  - destruct Hc as (old & H1 & ->). split.
    + intros (q & E & Hq'). injection E as <-. rewrite H1 in Hq'. injection Hq' as <-. left. reflexivity.
    + intros [E|[]]. injection E as ->. exists p. split; [reflexivity|exact H1].
  - rewrite Hc. split; [intros (q & E & _); discriminate|intros []].
Qed.

Lemma run_app : forall a b s, walk_run s (a ++ b) = match walk_run s a with Some s1 => walk_run s1 b | None => None end.
Proof.
  induction a as [|x a IH]; intros b s; cbn; [reflexivity|]. destruct (walk_step s x); [apply IH|reflexivity].
Qed.

Lemma run_snoc_inv : forall a x s s', walk_run s (a ++ [x]) = Some s' ->
  exists s1, walk_run s a = Some s1 /\ walk_step s1 x = Some s'.
Proof.
  intros a x s s' H. rewrite run_app in H. destruct (walk_run s a) as [s1|]; [|discriminate]. cbn in H.
  destruct (walk_step s1 x) as [s2|] eqn:E; [|discriminate]. injection H as <-. exists s1. split; [reflexivity|exact E].
Qed.

(** ** What a lookup returns *)
Lemma write_reads : forall s w s', write_step s w = Some s' -> k_r s' = k_r s.
Proof.
  intros s w s' H. unfold write_step in H.
  repeat match type of H with match ?x with _ => _ end = _ => destruct x end; try discriminate; injection H as <-; reflexivity.
Qed.

Lemma reads_by_others : forall s a s' r, walk_step s a = Some s' -> a <> ALook r -> k_r s' r = k_r s r.
Proof.
  intros s a s' r H Ha. unfold walk_step in H. destruct (k_crashed s); [discriminate|]. destruct a as [w c|w|r'].
  - destruct (k_w s w); try discriminate. injection H as <-. reflexivity.
  - rewrite (write_reads _ _ _ H). reflexivity.
  - injection H as <-. assert (r <> r') by congruence. unfold look_step.
    destruct (k_r s r') as [|p [|[|k]]|b]; try destruct (k_root s); try destruct (k_heap s p); cbn;
      rewrite ?put_other by assumption; reflexivity.
Qed.

(* the answer, or the pointer held, goes back to the first look *)
Lemma began_lemma : forall acts s r, walk_run walk_new acts = Some s ->
  (k_r s r = RIdle /\ ~ In (ALook r) acts) \/
  exists s1, began walk_new acts r s1 /\
    match k_r s r with
    | RIdle => False
    | RAt p _ => k_root s1 = Some p
    | RDone b => if b then k_root s1 <> None else k_root s1 = None
    end.
Proof.
  induction acts as [|x acts IH] using rev_ind; intros s r H.
  - cbn in H. injection H as <-. left. split; [reflexivity|intros []].
  - destruct (run_snoc_inv _ _ _ _ H) as (s0 & H0 & Hx).
    destruct x as [w c|w|r'] eqn:Ex; [| |destruct (Nat.eq_dec r' r) as [->|N]].
    1,2,4: assert (k_r s r = k_r s0 r) as Ek by (apply (reads_by_others s0 x s r); [rewrite Ex; exact Hx|congruence]);
      (destruct (IH s0 r H0) as [[A1 A2]|(s1 & (a & b & E & Ra & Hb & Hmid) & A2)];
       [left; split; [congruence|intros Hin; apply in_app_or in Hin; destruct Hin as [Hin|[Hin|[]]]; [exact (A2 Hin)|congruence]]
       |right; exists s1; split; [|rewrite Ek; exact A2];
        exists a, (b ++ [x]); split; [rewrite E, <- app_assoc, Ex; reflexivity|]; split; [exact Ra|]; split; [exact Hb|];
        intros b1 b2 s2 Eb Rb;
        destruct b2 as [|y b2] using rev_ind;
        [apply app_inj_tail in Eb; destruct Eb as [_ Eb]; congruence
        |rewrite app_comm_cons, app_assoc in Eb; apply app_inj_tail in Eb; destruct Eb as [Eb _]; exact (Hmid b1 b2 s2 Eb Rb)]]).
    unfold walk_step in Hx. destruct (k_crashed s0) eqn:Ecr; [discriminate|]. injection Hx as <-. unfold look_step.
    assert (forall q : unit, (k_r s0 r = RIdle \/ exists f, k_r s0 r = RDone f) ->
      began walk_new (acts ++ [ALook r]) r s0) as Hnew.
    { intros _ Hq. exists acts, []. split; [reflexivity|]. split; [exact H0|]. split; [exact Hq|].
      intros b1 b2 s2 Eb _. destruct b1; discriminate. }
    destruct (k_r s0 r) as [|p more|b] eqn:Ek.
    + right. exists s0. split; [apply (Hnew tt); left; reflexivity|].
      destruct (k_root s0) as [p|] eqn:Er; cbn; rewrite put_same; reflexivity.
    + destruct (IH s0 r H0) as [[A1 _]|(s1 & (a & b & E & Ra & Hb & Hmid) & A2)]; [congruence|].
      rewrite Ek in A2. right. exists s1. split.
      * exists a, (b ++ [ALook r]). split; [rewrite E, <- app_assoc; reflexivity|]. split; [exact Ra|]. split; [exact Hb|].
        intros b1 b2 s2 Eb Rb. destruct b2 as [|y b2] using rev_ind.
        -- apply app_inj_tail in Eb. destruct Eb as [<- _]. rewrite <- E in Rb. rewrite H0 in Rb. injection Rb as <-.
           exists p, more. exact Ek.
        -- clear IHb2. rewrite app_comm_cons, app_assoc in Eb. apply app_inj_tail in Eb. destruct Eb as [Eb _]. exact (Hmid b1 b2 s2 Eb Rb).
      * destruct (k_heap s0 p) as [iv|]; [|cbn; rewrite Ek; exact A2].
        destruct more as [|[|k]]; cbn; rewrite put_same; congruence.
    + right. exists s0. split; [apply (Hnew tt); right; exists b; reflexivity|].
      destruct (k_root s0) as [p|] eqn:Er; cbn; rewrite put_same; reflexivity.
Qed.

Lemma root_in_force : forall acts s, walk_run walk_new acts = Some s -> quiet s ->
  (k_root s <> None <-> exists iv, in_force_now s iv).
Proof.
  intros acts s H Hq. pose proof (w_state _ (reach _ _ H)) as Hs. rewrite Hq in Hs. destruct Hs as [Hc _]. split.
  - intros Hr. unfold content in Hc. destruct (k_root s) as [p|] eqn:Er; [|contradiction].
    destruct Hc as (iv & H1 & _). exists iv. apply (content_lemma acts s H Hq). exists p. split; assumption.
  - intros (iv & Hf). apply (content_lemma acts s H Hq) in Hf. destruct Hf as (p & E & _). congruence.
Qed.

(** ** When a lookup reads freed memory *)
Lemma heap_step : forall s a s' p, winv s -> walk_step s a = Some s' -> (p < k_next s)%nat ->
  (k_heap s' p = None <-> k_heap s p = None \/ exists w, a = AWrite w /\ ((exists iv, k_w s w = WFreeOld p iv) \/ (exists ts, k_w s w = WFreeTrim p ts))) /\
  (p < k_next s')%nat.
Proof.
  intros s a s' p Hi H Hp. unfold walk_step in H. destruct (k_crashed s); [discriminate|]. destruct a as [w c|w|r].
  - destruct (k_w s w); try discriminate. injection H as <-. cbn. split; [|exact Hp].
    split; [auto|intros [X|(v & E & _)]; [exact X|discriminate]].
  - assert (forall X : Prop, (k_heap s p = None <-> k_heap s p = None \/ exists v, AWrite w = AWrite v /\
      ((exists iv, k_w s v = WFreeOld p iv) \/ (exists ts, k_w s v = WFreeTrim p ts))) <-> 
      ((exists iv, k_w s w = WFreeOld p iv) \/ (exists ts, k_w s w = WFreeTrim p ts) -> k_heap s p = None)) as Hsame.
    { intros _. split.
      - intros [_ E] Hx. apply E. right. exists w. split; [reflexivity|exact Hx].
      - intros Hx. split; [auto|]. intros [Y|(v & E & Hv)]; [exact Y|]. injection E as <-. exact (Hx Hv). }
    unfold write_step in H. destruct (k_w s w) as [|c|iv|q iv|iv|t|q t|c] eqn:Ew.
    + discriminate.
    + destruct (k_lock s); [discriminate|]. injection H as <-. cbn. split; [|exact Hp]. apply (Hsame True).
      intros [[x E]|[x E]]; discriminate.
    + destruct (k_root s); injection H as <-; cbn; (split; [|exact Hp]); apply (Hsame True); intros [[x E]|[x E]]; discriminate.
    + injection H as <-. cbn. split; [|exact Hp]. destruct (Nat.eq_dec p q) as [->|N].
      * rewrite put_same. split; [|reflexivity]. intros _. right. exists w. split; [reflexivity|]. left. exists iv. exact Ew.
      * rewrite put_other by exact N. apply (Hsame True). intros [[x E]|[x E]]; congruence.
    + injection H as <-. cbn. split; [|lia]. rewrite put_other by lia. apply (Hsame True). intros [[x E]|[x E]]; discriminate.
    + destruct (k_root s) as [q|]; [destruct (k_heap s q) as [iv|]; [destruct (iv_end iv <? t)|]|]; injection H as <-; cbn;
        (split; [|exact Hp]); apply (Hsame True); intros [[x E]|[x E]]; discriminate.
    + injection H as <-. cbn. split; [|exact Hp]. destruct (Nat.eq_dec p q) as [->|N].
      * rewrite put_same. split; [|reflexivity]. intros _. right. exists w. split; [reflexivity|]. right. exists t. exact Ew.
      * rewrite put_other by exact N. apply (Hsame True). intros [[x E]|[x E]]; congruence.
    + injection H as <-. cbn. split; [|exact Hp]. apply (Hsame True). intros [[x E]|[x E]]; discriminate.
  - injection H as <-. assert (k_heap (look_step s r) = k_heap s /\ k_next (look_step s r) = k_next s) as [-> ->].
    { unfold look_step. destruct (k_r s r) as [|q [|[|k]]|b]; try destruct (k_root s); try destruct (k_heap s q); split; reflexivity. }
    split; [|exact Hp]. split; [auto|intros [X|(v & E & _)]; [exact X|discriminate]].
Qed.

Lemma heap_run : forall acts s s' p, winv s -> walk_run s acts = Some s' -> (p < k_next s)%nat -> k_heap s p <> None ->
  (k_heap s' p = None <-> freed_during s acts p).
Proof.
  induction acts as [|x acts IH] using rev_ind; intros s s' p Hi H Hp Hl.
  - cbn in H. injection H as <-. split; [contradiction|]. intros (a & w & b & s1 & E & _). destruct a; discriminate.
  - destruct (run_snoc_inv _ _ _ _ H) as (s0 & H0 & Hx). pose proof (winv_run _ _ _ Hi H0) as Hi0.
    assert (p < k_next s0)%nat as Hp0.
    { clear - H0 Hp Hi. revert s s0 H0 Hp Hi. induction acts as [|y acts IH]; intros s s0 H0 Hp Hi; cbn in H0; [injection H0 as <-; exact Hp|].
      destruct (walk_step s y) as [s1|] eqn:E; [|discriminate].
      exact (IH s1 s0 H0 (proj2 (heap_step s y s1 p Hi E Hp)) (winv_step _ _ _ Hi E)). }
    destruct (heap_step s0 x s' p Hi0 Hx Hp0) as [Hiff _]. rewrite Hiff, (IH s s0 p Hi H0 Hp Hl). split.
    + intros [(a & w & b & s1 & E & R & K)|(w & -> & K)].
      * exists a, w, (b ++ [x]), s1. split; [rewrite E, <- app_assoc; reflexivity|]. split; assumption.
      * exists acts, w, [], s0. split; [reflexivity|]. split; assumption.
    + intros (a & w & b & s1 & E & R & K). destruct b as [|y b] using rev_ind.
      * apply app_inj_tail in E. destruct E as [<- E]. right. exists w. split; [exact E|]. rewrite H0 in R. injection R as <-. exact K.
      * clear IHb. rewrite app_comm_cons, app_assoc in E. apply app_inj_tail in E. destruct E as [E _]. left.
        exists a, w, b, s1. split; [exact E|]. split; assumption.
Qed.

Lemma reads_run : forall acts s s' r, walk_run s acts = Some s' -> not_by r acts -> k_r s' r = k_r s r.
Proof.
  induction acts as [|x acts IH]; intros s s' r H Hn; cbn in H; [injection H as <-; reflexivity|].
  destruct (walk_step s x) as [s1|] eqn:E; [|discriminate]. rewrite (IH s1 s' r H).
  - apply (reads_by_others s x s1 r E). intros ->. apply Hn. left. reflexivity.
  - intros Hin. apply Hn. right. exact Hin.
Qed.

Lemma uaf_lemma : forall acts s1 s2 r p k acts' s3, walk_run walk_new acts = Some s1 ->
  walk_step s1 (ALook r) = Some s2 -> k_r s2 r = RAt p k -> k_crashed s2 = false -> not_by r acts' -> walk_run s2 acts' = Some s3 ->
  k_crashed s3 = false ->
  exists s4, walk_step s3 (ALook r) = Some s4 /\ (k_crashed s4 = true <-> freed_during s2 acts' p).
Proof.
  intros acts s1 s2 r p k acts' s3 H Hs Hr Hc2 Hn H3 Hc3. pose proof (reach _ _ H) as Hi1. pose proof (winv_step _ _ _ Hi1 Hs) as Hi2.
  pose proof (winv_run _ _ _ Hi2 H3) as Hi3.
  exists (look_step s3 r). split; [unfold walk_step; rewrite Hc3; reflexivity|].
  assert (k_heap s2 p <> None) as Hl.
  { unfold walk_step in Hs. destruct (k_crashed s1) eqn:Hc1; [discriminate|]. injection Hs as <-. unfold look_step in *.
    assert (k_root s1 = Some p -> k_heap s1 p <> None) as Hroot.
    { exact (root_live s1 p Hi1). }
    destruct (k_r s1 r) as [|q more|b].
    - destruct (k_root s1) as [q|] eqn:Er; cbn in Hr |- *; rewrite put_same in Hr; [|discriminate]. injection Hr as -> _. exact (Hroot eq_refl).
    - destruct (k_heap s1 q) as [iv|] eqn:Eh; [|cbn in Hc2; discriminate].
      destruct more as [|[|k']]; cbn in Hr |- *; rewrite put_same in Hr; try discriminate. injection Hr as -> _. congruence.
    - destruct (k_root s1) as [q|] eqn:Er; cbn in Hr |- *; rewrite put_same in Hr; [|discriminate]. injection Hr as -> _. exact (Hroot eq_refl). }
  rewrite <- (heap_run acts' s2 s3 p Hi2 H3 (w_reads _ Hi2 r p k Hr) Hl).
  unfold look_step. rewrite (reads_run _ _ _ r H3 Hn), Hr.
  destruct (k_heap s3 p) as [iv|]; [|cbn; split; auto]. split; [|discriminate].
  destruct k as [|[|k']]; cbn; rewrite Hc3; discriminate.
Qed.

Lemma only_lookups_lemma : forall acts s a s', walk_run walk_new acts = Some s -> walk_step s a = Some s' ->
  k_crashed s = false -> k_crashed s' = true -> exists r p k, a = ALook r /\ k_r s r = RAt p k /\ k_heap s p = None.
Proof.
  intros acts s a s' H Hs Hc Hc'. pose proof (reach _ _ H) as Hi. unfold walk_step in Hs. rewrite Hc in Hs. destruct a as [w c|w|r].
  - destruct (k_w s w); try discriminate. injection Hs as <-. cbn in Hc'. congruence.
  - exfalso. unfold write_step in Hs. destruct (k_w s w) as [|c|iv|q iv|iv|t|q t|c] eqn:Ew.
    1: discriminate.
    1: destruct (k_lock s); [discriminate|].
    1,3,4,6,7: injection Hs as <-; cbn in Hc'; congruence.
    + destruct (k_root s); injection Hs as <-; cbn in Hc'; congruence.
    + assert (k_lock s = Some w) as Hme.
      { destruct (k_lock s) as [v|] eqn:El.
        - destruct (Nat.eq_dec v w) as [->|N]; [reflexivity|]. pose proof (w_others _ Hi w) as X. rewrite Ew in X. exfalso. apply X. congruence.
        - pose proof (w_others _ Hi w) as X. rewrite Ew in X. exfalso. apply X. congruence. }
      pose proof (w_state _ Hi) as X. rewrite Hme, Ew in X. destruct X as [X _]. unfold content in X.
      destruct (k_root s) as [q|]; [destruct X as (iv & Y & _); rewrite Y in Hs; destruct (iv_end iv <? t)|];
        injection Hs as <-; cbn in Hc'; congruence.
  - injection Hs as <-. exists r. unfold look_step in Hc'. destruct (k_r s r) as [|p more|b].
    + destruct (k_root s); cbn in Hc'; congruence.
    + exists p, more. split; [reflexivity|]. split; [reflexivity|]. destruct (k_heap s p); [|reflexivity].
      destruct more as [|[|k]]; cbn in Hc'; congruence.
    + destruct (k_root s); cbn in Hc'; congruence.
Qed.

(** ** Live nodes *)
Lemma nodes_none : forall h n, (forall p, (p < n)%nat -> h p = None) -> nodes h n = 0%nat.
Proof.
  induction n as [|n IH]; intros H; cbn; [reflexivity|]. rewrite (H n) by lia. apply IH. intros p Hp. apply H. lia.
Qed.
Lemma nodes_one : forall h n q, (forall p iv, h p = Some iv -> p = q) -> (q < n)%nat -> h q <> None -> nodes h n = 1%nat.
Proof.
  induction n as [|n IH]; intros q H Hq Hl; [lia|]. cbn. destruct (Nat.eq_dec n q) as [->|N].
  - destruct (h q) as [iv|]; [|contradiction]. rewrite nodes_none; [reflexivity|]. intros p Hp. destruct (h p) as [v|] eqn:E; [|reflexivity].
    pose proof (H p v E). lia.
  - rewrite (IH q H) by (try exact Hl; lia). destruct (h n) as [v|] eqn:E; [|reflexivity]. pose proof (H n v E). lia.
Qed.

Lemma nodes_lemma : forall acts s, walk_run walk_new acts = Some s ->
  (nodes (k_heap s) (k_next s) <= 1)%nat /\ (forall p, (k_next s <= p)%nat -> k_heap s p = None) /\
  (quiet s -> (nodes (k_heap s) (k_next s) = 1%nat <-> exists iv, in_force_now s iv)).
Proof.
  intros acts s H. pose proof (reach _ _ H) as Hi. 
  assert (forall q, (forall p iv, k_heap s p = Some iv -> p = q) -> (nodes (k_heap s) (k_next s) <= 1)%nat) as Hle.
  { intros q Hq. destruct (k_heap s q) as [iv|] eqn:E.
    - rewrite (nodes_one _ _ q Hq); [lia| |congruence]. destruct (Nat.lt_ge_cases q (k_next s)) as [X|X]; [exact X|].
      pose proof (w_fresh _ Hi q X). congruence.
    - rewrite nodes_none; [lia|]. intros p _. destruct (k_heap s p) as [v|] eqn:E2; [|reflexivity]. pose proof (Hq p v E2). subst. congruence. }
  split; [|split; [exact (w_fresh _ Hi)|]].
  - assert (live_only s (at_root s) -> (nodes (k_heap s) (k_next s) <= 1)%nat) as Hroot.
    { intros X. apply (Hle (match k_root s with Some q => q | None => 0%nat end)). intros p iv Hp.
      destruct (X p iv Hp) as [Y _]. unfold at_root in Y. rewrite Y. reflexivity. }
    pose proof (w_state _ Hi) as X. destruct (k_lock s) as [w|].
    + destruct (k_w s w) as [|c|iv|q iv|iv|t|q t|c]; cbn in X; try contradiction; try (apply Hroot; apply X).
      * apply (Hle q). intros p v Hp. symmetry. apply (proj2 (proj2 X) p v Hp).
      * apply (Hle 0%nat). intros p v Hp. destruct (proj1 (proj2 X) p v Hp) as [[] _].
      * apply (Hle q). intros p v Hp. symmetry. apply (proj2 (proj2 X) p v Hp).
    + apply Hroot. apply X.
  - intros Hq. rewrite <- (root_in_force acts s H Hq). pose proof (w_state _ Hi) as X. rewrite Hq in X. destruct X as [Hc Hl].
    unfold content in Hc. destruct (k_root s) as [p|] eqn:Er.
    + split; [discriminate|]. intros _. destruct Hc as (iv & H1 & _). apply (nodes_one _ _ p).
      * intros q v Hv. destruct (Hl q v Hv) as [Y _]. unfold at_root in Y. congruence.
      * exact (proj2 (Hl p iv H1)).
      * congruence.
    + rewrite nodes_none; [split; [discriminate|congruence]|]. intros p _. destruct (k_heap s p) as [v|] eqn:E; [|reflexivity].
      destruct (Hl p v E) as [Y _]. unfold at_root in Y. congruence.
Qed.

(** ** Calls finish *)
Definition call_of (p : wpc) : option call :=
  match p with
  | WIdle => None
  | WWait c | WUnlock c => Some c
  | WErase iv | WFreeOld _ iv | WInsert iv => Some (CAdd iv)
  | WTrim ts | WFreeTrim _ ts => Some (CTrim ts)
  end.

Lemma finish_from : forall n s w c, winv s -> k_crashed s = false -> k_lock s = Some w -> call_of (k_w s w) = Some c ->
  (match k_w s w with WErase _ => 4 | WFreeOld _ _ => 3 | WInsert _ => 2 | WTrim _ => 3 | WFreeTrim _ _ => 2 | _ => 1 end <= n)%nat ->
  exists k s', (k <= n)%nat /\ walk_run s (repeat (AWrite w) k) = Some s' /\ k_crashed s' = false /\ k_lock s' = None /\
    k_w s' w = WIdle /\ k_calls s' = k_calls s ++ [c] /\ k_r s' = k_r s /\ forall v, v <> w -> k_w s' v = k_w s v.
Proof.
  induction n as [|n IH]; intros s w c Hi Hc Hl Hca Hn; [destruct (k_w s w); lia|].
  assert (forall s1, walk_step s (AWrite w) = Some s1 -> k_crashed s1 = false -> k_lock s1 = Some w ->
    call_of (k_w s1 w) = Some c -> k_calls s1 = k_calls s -> k_r s1 = k_r s -> (forall v, v <> w -> k_w s1 v = k_w s v) ->
    (match k_w s1 w with WErase _ => 4 | WFreeOld _ _ => 3 | WInsert _ => 2 | WTrim _ => 3 | WFreeTrim _ _ => 2 | _ => 1 end <= n)%nat ->
    exists k s', (k <= S n)%nat /\ walk_run s (repeat (AWrite w) k) = Some s' /\ k_crashed s' = false /\ k_lock s' = None /\
      k_w s' w = WIdle /\ k_calls s' = k_calls s ++ [c] /\ k_r s' = k_r s /\ forall v, v <> w -> k_w s' v = k_w s v) as Hgo.
  { intros s1 E1 C1 L1 K1 Q1 R1 W1 N1. destruct (IH s1 w c (winv_step _ _ _ Hi E1) C1 L1 K1 N1) as (k & s' & A1 & A2 & A3 & A4 & A5 & A6 & A7 & A8).
    exists (S k), s'. split; [lia|]. split; [cbn [repeat walk_run]; rewrite E1; exact A2|]. split; [exact A3|]. split; [exact A4|]. split; [exact A5|].
    split; [congruence|]. split; [congruence|]. intros v Hv. rewrite A8, W1 by exact Hv. reflexivity. }
  assert (forall p v, v <> w -> put (k_w s) w p v = k_w s v) as Hput by (intros p v Hv; apply put_other; exact Hv).
  assert (forall s1, write_step s w = Some s1 -> walk_step s (AWrite w) = Some s1) as Hws by (intros s1 E; unfold walk_step; rewrite Hc; exact E).
  pose proof (w_state _ Hi) as Hs. rewrite Hl in Hs.
  destruct (k_w s w) as [|c0|iv|q iv|iv|t|q t|c0] eqn:Ew; cbn [holder_ok] in Hs; try contradiction.
  - destruct (k_root s) as [p|] eqn:Er.
    + eapply Hgo; [apply Hws; unfold write_step; rewrite Ew, Er; reflexivity|..]; cbn; rewrite ?put_same; auto. lia.
    + eapply Hgo; [apply Hws; unfold write_step; rewrite Ew, Er; reflexivity|..]; cbn; rewrite ?put_same; auto. lia.
  - eapply Hgo; [apply Hws; unfold write_step; rewrite Ew; reflexivity|..]; cbn; rewrite ?put_same; auto. lia.
  - eapply Hgo; [apply Hws; unfold write_step; rewrite Ew; reflexivity|..]; cbn; rewrite ?put_same; auto. lia.
  - destruct Hs as [Hcn _]. unfold content in Hcn. destruct (k_root s) as [p|] eqn:Er.
    + destruct Hcn as (iv & H1 & _). destruct (iv_end iv <? t) eqn:Et.
      * eapply Hgo; [apply Hws; unfold write_step; rewrite Ew, Er, H1, Et; reflexivity|..]; cbn; rewrite ?put_same; auto. lia.
      * eapply Hgo; [apply Hws; unfold write_step; rewrite Ew, Er, H1, Et; reflexivity|..]; cbn; rewrite ?put_same; auto. lia.
    + eapply Hgo; [apply Hws; unfold write_step; rewrite Ew, Er; reflexivity|..]; cbn; rewrite ?put_same; auto. lia.
  - eapply Hgo; [apply Hws; unfold write_step; rewrite Ew; reflexivity|..]; cbn; rewrite ?put_same; auto. lia.
  - cbn in Hca. injection Hca as <-. exists 1%nat. eexists. split; [lia|]. split.
    + cbn [repeat walk_run]. rewrite (Hws _ ltac:(unfold write_step; rewrite Ew; reflexivity)). reflexivity.
    + cbn. rewrite put_same. repeat split; auto.
Qed.

Lemma finish_lemma : forall acts s w, walk_run walk_new acts = Some s -> k_crashed s = false -> k_lock s = Some w ->
  exists c k s', (k <= 4)%nat /\ walk_run s (repeat (AWrite w) k) = Some s' /\ k_crashed s' = false /\ quiet s' /\
    k_w s' w = WIdle /\ k_calls s' = k_calls s ++ [c].
Proof.
  intros acts s w H Hc Hl. pose proof (reach _ _ H) as Hi.
  destruct (call_of (k_w s w)) as [c|] eqn:Eca.
  - destruct (finish_from 4 s w c Hi Hc Hl Eca) as (k & s' & A1 & A2 & A3 & A4 & A5 & A6 & _); [destruct (k_w s w); lia|].
    exists c, k, s'. repeat split; assumption.
  - pose proof (w_state _ Hi) as X. rewrite Hl in X. destruct (k_w s w); try discriminate. contradiction.
Qed.

Lemma begin_lemma : forall acts s w c, walk_run walk_new acts = Some s -> k_crashed s = false -> quiet s -> k_w s w = WWait c ->
  exists k s', (k <= 5)%nat /\ walk_run s (repeat (AWrite w) k) = Some s' /\ k_crashed s' = false /\ quiet s' /\
    k_w s' w = WIdle /\ k_calls s' = k_calls s ++ [c].
Proof.
  intros acts s w c H Hc Hq Hw. pose proof (reach _ _ H) as Hi.
  destruct (walk_step s (AWrite w)) as [s1|] eqn:E1.
  2:{ unfold walk_step, write_step in E1. rewrite Hc, Hw, Hq in E1. discriminate. }
  pose proof (winv_step _ _ _ Hi E1) as Hi1. pose proof E1 as E2. unfold walk_step, write_step in E2. rewrite Hc, Hw, Hq in E2.
  injection E2 as E2. 
  destruct (finish_from 4 s1 w c Hi1) as (k & s' & A1 & A2 & A3 & A4 & A5 & A6 & _).
  - rewrite <- E2. reflexivity.
  - rewrite <- E2. reflexivity.
  - rewrite <- E2. cbn. rewrite put_same. destruct c; reflexivity.
  - rewrite <- E2. cbn. rewrite put_same. destruct c; lia.
  - exists (S k), s'. split; [lia|]. split; [cbn [repeat walk_run]; rewrite E1; exact A2|].
    assert (k_calls s1 = k_calls s) as E3 by (rewrite <- E2; reflexivity).
    split; [exact A3|]. split; [exact A4|]. split; [exact A5|]. congruence.
Qed.

Lemma lookup_ends_lemma : forall acts s r, walk_run walk_new acts = Some s -> k_crashed s = false ->
  k_r s r = RIdle \/ (exists f, k_r s r = RDone f) ->
  exists k s' found, (1 <= k <= 4)%nat /\ walk_run s (repeat (ALook r) k) = Some s' /\ k_crashed s' = false /\
    k_r s' r = RDone found /\ (found = true <-> k_root s <> None).
Proof.
  intros acts s r H Hc Hr. pose proof (reach _ _ H) as Hi.
  assert (look_step s r = match k_root s with None => set_r s r (RDone false) | Some p => set_r s r (RAt p 3) end) as E1.
  { unfold look_step. destruct Hr as [E|[f E]]; rewrite E; reflexivity. }
  destruct (k_root s) as [p|] eqn:Er.
  - pose proof (root_live s p Hi Er) as Hlv. destruct (k_heap s p) as [iv|] eqn:Eh; [|contradiction].
    exists 4%nat. 
    assert (forall t k, k_heap t p = Some iv -> k_r t r = RAt p (S (S k)) -> look_step t r = set_r t r (RAt p (S k))) as Hst.
    { intros t k Ht Hk. unfold look_step. rewrite Hk, Ht. reflexivity. }
    assert (forall t, k_heap t p = Some iv -> k_r t r = RAt p 1 -> look_step t r = set_r t r (RDone true)) as Hend.
    { intros t Ht Hk. unfold look_step. rewrite Hk, Ht. reflexivity. }
    assert (forall t q, k_crashed t = false -> look_step t r = set_r t r q -> walk_step t (ALook r) = Some (set_r t r q)) as Hw.
    { intros t q C E. unfold walk_step. rewrite C, E. reflexivity. }
    eexists. exists true. split; [lia|]. split.
    + cbn [repeat walk_run].
      rewrite (Hw s (RAt p 3) Hc E1).
      rewrite (Hw (set_r s r (RAt p 3)) (RAt p 2)); [|exact Hc|apply (Hst _ 1%nat); [exact Eh|cbn; apply put_same]].
      rewrite (Hw (set_r (set_r s r (RAt p 3)) r (RAt p 2)) (RAt p 1)); [|exact Hc|apply (Hst _ 0%nat); [exact Eh|cbn; apply put_same]].
      rewrite (Hw (set_r (set_r (set_r s r (RAt p 3)) r (RAt p 2)) r (RAt p 1)) (RDone true)); [reflexivity|exact Hc|apply Hend; [exact Eh|cbn; apply put_same]].
    + cbn. rewrite put_same. split; [exact Hc|]. split; [reflexivity|]. split; [discriminate|reflexivity].
  - exists 1%nat, (set_r s r (RDone false)), false. split; [lia|]. split.
    + cbn. unfold walk_step. rewrite Hc, E1. reflexivity.
    + cbn. rewrite put_same. split; [exact Hc|]. split; [reflexivity|]. split; [discriminate|congruence].
Qed.
