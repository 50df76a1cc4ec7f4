(** Proofs about the memory of the latency ring. *)
From Coq Require Import ZArith List Bool Lia PeanoNat.
From Verif Require Import Base_model Alloc_model Alloc_spec.
Import ListNotations.
Open Scope Z_scope.

Section Alloc.
Variable libnuma nontrivial : bool.

Definition fits (m : mem) (k : allocator) : Prop :=
  if m_intrinsic m then k = MmMalloc
  else if m_numa m then k = NumaAlloc /\ libnuma = true
  else k = Malloc \/ k = AlignedAlloc.

(** Good states: one live block that fits the flags and is records_, or null and nothing live. *)
Definition good_mem (m : mem) : Prop :=
  (exists b k, m_records m = Some b /\ m_heap m = [(b, k)] /\ fits m k /\ m_failed m = false) \/
  (m_records m = None /\ m_heap m = [] /\ m_failed m = true /\ m_held m = false).

Lemma lookup_one : forall b k, lookup b [(b, k)] = Some k.
Proof. intros. cbn. rewrite Nat.eqb_refl. reflexivity. Qed.

Lemma drop_one : forall b k, drop b [(b, k)] = [].
Proof. intros. cbn. rewrite Nat.eqb_refl. reflexivity. Qed.

Lemma good_free : forall m, good_mem m ->
  exists m1, free_memory libnuma nontrivial m = Fine m1 /\ m_heap m1 = [] /\ m_records m1 = m_records m /\
             m_failed m1 = m_failed m /\ m_held m1 = m_held m /\ m_numa m1 = m_numa m /\ m_intrinsic m1 = m_intrinsic m.
Proof.
  intros m [(b & k & Hr & Hh & Hf & Hfl)|(Hr & Hh & Hfl & Hd)]; unfold free_memory.
  - assert ((if nontrivial && m_held m then touch m else Fine m) = Fine m) as ->.
    { destruct (nontrivial && m_held m); [|reflexivity]. unfold touch. rewrite Hr, Hh, lookup_one. reflexivity. }
    unfold fits in Hf. unfold release. rewrite Hr, Hh, lookup_one, drop_one.
    destruct (m_intrinsic m) eqn:Ei; [|destruct (m_numa m) eqn:En].
    + subst k. cbn [is_mm]. eexists. split; [reflexivity|]. cbn. repeat split; auto.
    + destruct Hf as [-> ->]. cbn [is_numa]. eexists. split; [reflexivity|]. cbn. repeat split; auto.
    + assert (is_malloc k = true) as -> by (destruct Hf as [-> | ->]; reflexivity).
      eexists. split; [reflexivity|]. cbn. repeat split; auto.
  - rewrite Hd, andb_false_r. unfold release. rewrite Hr.
    exists m. split; [|repeat split; auto]. destruct (m_intrinsic m); [reflexivity|]. destruct (m_numa m); [destruct libnuma; reflexivity|reflexivity].
Qed.

Lemma good_conf : forall m c, good_mem m -> sound libnuma c ->
  exists m', conf_memory libnuma nontrivial c m = Fine m' /\ good_mem m' /\ m_failed m' = negb (cf_ok c) /\ m_held m' = false.
Proof.
  intros m c Hm Hc. destruct (good_free m Hm) as (m1 & E & Hh & Hrest). unfold conf_memory. rewrite E. clear E Hrest Hm.
  assert (exists k, allocate_memory libnuma c m1 = Some (got k c m1) /\
            forall m2, m_numa m2 = cf_numa c -> m_intrinsic m2 = cf_intrinsic c -> fits m2 k) as (k & -> & Hk).
  { unfold allocate_memory. destruct Hc as [(H1 & H2)|[(H1 & H2 & H3)|[(H1 & H2 & H3 & H4 & H5)|(H1 & H2 & H3)]]].
    - exists MmMalloc. rewrite H1. cbn [andb]. rewrite (proj2 (Z.ltb_lt _ _) H2). split; [reflexivity|].
      intros m2 A B. unfold fits. rewrite B, ?H1. reflexivity.
    - exists AlignedAlloc. rewrite H1. cbn [andb negb]. rewrite (proj2 (Z.ltb_lt _ _) H2). split; [reflexivity|].
      intros m2 A B. unfold fits. rewrite A, B, ?H1, ?H3. auto.
    - exists NumaAlloc. rewrite H1, H2, H3, H5. cbn [andb negb]. change (0 <? 0) with false.
      rewrite (proj2 (Z.leb_le _ _) (proj1 H4)), (proj2 (Z.ltb_lt _ _) (proj2 H4)). cbn [andb]. split; [reflexivity|].
      intros m2 A B. unfold fits. rewrite A, B, ?H1, ?H3. auto.
    - exists Malloc. rewrite H1, H2, H3. cbn [andb negb]. change (0 <? 0) with false. cbn [andb]. change (0 =? 0) with true. cbn [andb].
      split; [reflexivity|]. intros m2 A B. unfold fits. rewrite A, B, ?H1, ?H3. auto. }
  unfold got. destruct (cf_ok c); cbn [m_records m_numa m_intrinsic m_heap m_next negb]; eexists; (split; [reflexivity|]); (split; [|split; reflexivity]).
  - left. exists (m_next m1), k. cbn. rewrite Hh. repeat split; try reflexivity. apply Hk; reflexivity.
  - right. cbn. rewrite Hh. repeat split.
Qed.

Lemma good_use : forall m held, good_mem m -> exists m', mem_step libnuma nontrivial (MUse held) m = Fine m' /\ good_mem m' /\ m_failed m' = m_failed m.
Proof.
  intros m held [(b & k & Hr & Hh & Hf & Hfl)|(Hr & Hh & Hfl & Hd)]; cbn [mem_step]; rewrite Hfl.
  - unfold touch. rewrite Hr, Hh, lookup_one. eexists. split; [reflexivity|]. split; [|exact Hfl].
    left. exists b, k. repeat split; assumption.
  - exists m. split; [reflexivity|]. split; [|exact Hfl]. right. repeat split; assumption.
Qed.

Lemma good_new : good_mem mem_new.
Proof. left. exists 0%nat, Malloc. repeat split. left. reflexivity. Qed.

Lemma good_run : forall ops m, good_mem m -> Forall (sound libnuma) (confs ops) ->
  exists m', mem_run libnuma nontrivial ops m = Fine m' /\ good_mem m' /\
             (m_failed m = false -> Forall (fun c => cf_ok c = true) (confs ops) -> m_failed m' = false).
Proof.
  induction ops as [|o ops IH]; intros m Hm Hs.
  - exists m. split; [reflexivity|]. auto.
  - cbn [mem_run]. destruct o as [c|h]; cbn [confs flat_map app] in Hs.
    + inversion Hs as [|? ? Hc Hs']; subst. destruct (good_conf m c Hm Hc) as (m1 & E & H1 & H2 & _). cbn [mem_step]. rewrite E.
      destruct (IH m1 H1 Hs') as (m' & E' & H' & H3). exists m'. split; [exact E'|]. split; [exact H'|].
      intros _ Hok. cbn [confs flat_map app] in Hok. inversion Hok as [|? ? Hc1 Hok']; subst. apply H3; [rewrite H2, Hc1; reflexivity|exact Hok'].
    + destruct (good_use m h Hm) as (m1 & E & H1 & H2). rewrite E. destruct (IH m1 H1 Hs) as (m' & E' & H' & H3).
      exists m'. split; [exact E'|]. split; [exact H'|]. intros Hf Hok. apply H3; [congruence|exact Hok].
Qed.

Lemma good_backed : forall m, good_mem m -> backed m.
Proof.
  intros m [(b & k & Hr & Hh & Hf & Hfl)|(Hr & Hh & Hfl & Hd)] H.
  - exists b, k. rewrite Hh. split; [exact Hr|left; reflexivity].
  - congruence.
Qed.

Lemma c06_sound : forall ops, Forall (sound libnuma) (confs ops) ->
  (exists m, mem_run libnuma nontrivial ops mem_new = Fine m /\ backed m) /\ clean (life libnuma nontrivial ops).
Proof.
  intros ops Hs. destruct (good_run ops mem_new good_new Hs) as (m & E & Hm & _). split.
  - exists m. split; [exact E|]. apply good_backed. exact Hm.
  - unfold life, clean. rewrite E. destruct (good_free m Hm) as (m1 & E1 & Hh & _). exists m1. auto.
Qed.

Lemma c06_conf_reports : forall ops c, Forall (sound libnuma) (confs ops) -> sound libnuma c ->
  exists m, mem_run libnuma nontrivial (ops ++ [MConf c]) mem_new = Fine m /\ m_failed m = negb (cf_ok c) /\ m_held m = false.
Proof.
  intros ops c Hs Hc. destruct (good_run ops mem_new good_new Hs) as (m & E & Hm & _).
  destruct (good_conf m c Hm Hc) as (m1 & E1 & _ & H2 & H3). exists m1. split; [|auto].
  assert (forall a b m0, mem_run libnuma nontrivial (a ++ b) m0 =
            match mem_run libnuma nontrivial a m0 with Fault f => Fault f | Fine m' => mem_run libnuma nontrivial b m' end) as Happ.
  { induction a as [|o a IH]; intros b m0; [reflexivity|]. cbn [app mem_run]. destruct (mem_step libnuma nontrivial o m0); [apply IH|reflexivity]. }
  rewrite Happ, E. cbn [mem_run mem_step]. rewrite E1. reflexivity.
Qed.

Lemma c06_unsound : forall ops c, Forall (sound libnuma) (confs ops) -> Forall (fun c => cf_ok c = true) (confs ops) ->
  types_ok c -> cf_ok c = true -> ~ sound libnuma c ->
  ~ clean (life libnuma nontrivial (ops ++ [MConf c; MUse true])).
Proof.
  intros ops c Hs Hok Ht Hco Hns (mf & Hlife & Hempty).
  destruct (good_run ops mem_new good_new Hs) as (m & E & Hm & Hf). specialize (Hf eq_refl Hok).
  assert (forall a b m0, mem_run libnuma nontrivial (a ++ b) m0 =
            match mem_run libnuma nontrivial a m0 with Fault f => Fault f | Fine m' => mem_run libnuma nontrivial b m' end) as Happ.
  { induction a as [|o a IH]; intros b m0; [reflexivity|]. cbn [app mem_run]. destruct (mem_step libnuma nontrivial o m0); [apply IH|reflexivity]. }
  unfold life in Hlife. rewrite Happ, E in Hlife. cbn [mem_run mem_step] in Hlife.
  destruct (good_free m Hm) as (m1 & E1 & Hh & Hr & Hfl & Hhe & Hnu & Hin).
  assert (exists b, m_records m = Some b) as (b & Hb) by (destruct Hm as [(b & k & Hb & _)|(_ & _ & X & _)]; [eauto|congruence]).
  unfold conf_memory in Hlife. rewrite E1 in Hlife. rewrite Hb in Hr.
  assert (m_intrinsic m1 = false -> m_numa m1 = true -> libnuma = true) as Hlib.
  { rewrite Hnu, Hin. destruct Hm as [(b' & k & _ & _ & X & _)|(_ & _ & X & _)]; [|congruence].
    intros A B. unfold fits in X. rewrite A, B in X. apply X. }
  clear E1 E Happ Hm Hb.
  destruct m1 as [r1 n1 i1 h1 hp1 nx1 f1]. cbn [m_heap m_records m_failed m_held m_numa m_intrinsic] in *. subst r1 hp1.
  unfold types_ok in Ht. unfold sound in Hns. destruct c as [cn cd ci ca co]. cbn [cf_numa cf_node cf_intrinsic cf_align cf_ok] in *. subst co.
  assert ((0 <? ca) = negb (ca =? 0)) as Ea by (destruct (Z.ltb_spec 0 ca); destruct (Z.eqb_spec ca 0); cbn; lia).
  assert ((0 <=? cd) = true) as Ed by (apply Z.leb_le; lia).
  unfold allocate_memory, got, free_memory, touch, release in Hlife.
  cbn [cf_numa cf_node cf_intrinsic cf_align cf_ok] in Hlife. rewrite Ea, Ed in Hlife.
  destruct (Z.eqb_spec ca 0) as [Ea0|Ea0]; destruct (Z.ltb_spec cd 8) as [Ed8|Ed8];
    destruct cn, ci, libnuma; destruct nontrivial, n1, i1, h1;
    try (exfalso; apply Hns; lia); try (discriminate (Hlib eq_refl eq_refl));
    cbn in Hlife; repeat (rewrite Nat.eqb_refl in Hlife; cbn in Hlife); try discriminate;
    try (injection Hlife as <-; cbn in Hempty; discriminate).
Qed.
End Alloc.
