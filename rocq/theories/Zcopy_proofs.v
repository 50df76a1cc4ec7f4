From Coq Require Import ZArith List Bool Lia ZifyBool.
From Verif Require Import Base_model Ring_model Ring_spec Ring_proofs Record_model Record_spec Record_proofs Zcopy_model Zcopy_spec.
Import ListNotations.
Open Scope Z_scope.

Section Proofs.
Context {E : Type}.
Variable ts : E -> Z.
Variable limit : Z.
Variable quota : Z -> Z.
Variable n P chunk align addr0 : Z.

Notation clean_step := (clean_step ts limit quota).
Notation astep := (Record_model.astep ts (fun _ => 0) limit quota).
Notation zrec_step := (zrec_step ts P chunk align addr0).
Notation zstep := (zstep ts limit quota P chunk align addr0).
Notation zrun := (zrun ts limit quota P chunk align addr0).
Notation byte_at := (byte_at P addr0).

(* the byte at an absolute position of the stream of accepted elements *)
Definition byte_of (l : list E) (p : Z) : option (E * Z) :=
  match nth_error l (Z.to_nat (p / P)) with Some e => Some (e, p mod P) | None => None end.
Definition bytes (l : list E) (lo : Z) (len : nat) : list (option (E * Z)) :=
  map (fun k => byte_of l (lo + Z.of_nat k)) (seq 0 len).

Lemma bytes_snoc : forall l lo len, bytes l lo (S len) = bytes l lo len ++ [byte_of l (lo + Z.of_nat len)].
Proof. intros. unfold bytes. rewrite seq_S, map_app. reflexivity. Qed.

Lemma bytes_length : forall l lo len, length (bytes l lo len) = len.
Proof. intros. unfold bytes. rewrite map_length, seq_length. reflexivity. Qed.

(* core invariants *)
Definition core_ok (c : rstate E) : Prop := base n c /\ (s_requested c = false -> s_cpc c = CIdle).
Definition no_pop (c : rstate E) : Prop := forall k, s_cpc c <> CPop k.
Definition guard (c : rstate E) (g : nat) : Prop :=
  (s_popped c <= g)%nat /\ (exists e, nth_error (s_all c) g = Some e /\ s_next c <= ts e) /\
  (forall k, s_cpc c = CPop k -> (s_popped c < g)%nat).
Definition quiet (c : rstate E) : Prop := s_next c = 0 /\ no_pop c.
Definition held (c : rstate E) (g : nat) : Prop :=
  s_popped c = g /\ (exists e, nth_error (s_all c) g = Some e /\ s_next c = ts e) /\ no_pop c.

(* a step of the producer or of the clean-up *)
Definition env (c c' : rstate E) : Prop := (exists x, astep c (AWrite x) = Some c') \/ clean_step c = Some c'.

Lemma env_all : forall c c', s_crashed c = false -> env c c' -> exists l, s_all c' = s_all c ++ l.
Proof.
  intros c c' Hc [(x & H)|H].
  - exact (astep_all _ _ _ _ _ _ _ H).
  - apply (astep_all ts (fun _ => 0) limit quota c (AClean)). unfold Record_model.astep. rewrite Hc. exact H.
Qed.

Lemma env_cases : forall c c', s_crashed c = false -> core_ok c -> env c c' -> core_ok c' /\ s_next c' = s_next c /\
  ((exists l, s_all c' = s_all c ++ l) /\ s_popped c' = s_popped c /\ (forall k, s_cpc c' = CPop k -> s_cpc c = CPop k \/
      exists x, nth_error (s_all c) (s_popped c) = Some x /\ ts x < s_next c) \/
   (exists k, s_cpc c = CPop k) /\ s_popped c' = S (s_popped c) /\ s_all c' = s_all c /\ no_pop c').
Proof.
  intros c c' Hcr [Hb Hq] He.
  assert (exists l, s_all c' = s_all c ++ l) as HA by (exact (env_all c c' Hcr He)).
  destruct He as [(x & H)|H].
  - assert (base n c') as Hb' by (exact (base_step _ _ _ _ _ _ _ _ Hb H)).
    unfold Record_model.astep in H. rewrite Hcr in H.
    destruct (write x (s_ring c)) as [[r [|]]|]; injection H as <-; cbn in *;
      (split; [split; [exact Hb'|exact Hq]|split; [reflexivity|left; split; [assumption|split; [reflexivity|]]; intros k Hk; left; exact Hk]]).
  - assert (base n c') as Hb'.
    { apply (base_step ts (fun _ => 0) limit quota n c AClean); [exact Hb|]. unfold Record_model.astep. rewrite Hcr. exact H. }
    unfold Record_model.clean_step in H.
    destruct (s_cpc c) as [| |[|k]|k|] eqn:Ec.
    + destruct (limit <? occupancy (s_ring c)); injection H as <-; cbn in *;
        (split; [split; [exact Hb'|intros Hr; try discriminate; try (rewrite Ec; reflexivity)]|split; [reflexivity|left; split; [assumption|split; [reflexivity|]]]]; try discriminate).
      rewrite Ec. intros k Hk. discriminate.
    + destruct (s_running c =? 0); [|discriminate].
      destruct (limit <? occupancy (s_ring c)); injection H as <-; cbn in *;
        (split; [split; [exact Hb'|intros Hr; try discriminate; try reflexivity]|split; [reflexivity|left; split; [assumption|split; [reflexivity|discriminate]]]]).
    + injection H as <-; cbn in *. split; [split; [exact Hb'|intros Hr; specialize (Hq Hr); discriminate]|].
      split; [reflexivity|]. left. split; [assumption|]. split; [reflexivity|discriminate].
    + rewrite (base_front _ _ Hb) in H. destruct (nth_error (s_all c) (s_popped c)) as [y|] eqn:Ey.
      * destruct (ts y <? s_next c) eqn:El; injection H as <-; cbn in *;
          (split; [split; [exact Hb'|intros Hr; specialize (Hq Hr); discriminate]|split; [reflexivity|left; split; [assumption|split; [reflexivity|]]]]; try discriminate).
        intros k' _. right. exists y. split; [first [exact Ey|reflexivity]|lia].
      * injection H as <-; cbn in *. rewrite Ec.
        split; [split; [exact Hb'|intros Hr; specialize (Hq Hr); discriminate]|split; [reflexivity|left; split; [assumption|split; [reflexivity|discriminate]]]].
    + destruct (pop 1 (s_ring c)) as [r|]; injection H as <-; cbn in *.
      * split; [split; [exact Hb'|intros Hr; specialize (Hq Hr); discriminate]|]. split; [reflexivity|].
        right. split; [exists k; reflexivity|]. split; [reflexivity|]. split; [reflexivity|]. intros k' Hk'. cbn in Hk'. discriminate.
      * rewrite Ec. split; [split; [exact Hb'|intros Hr; specialize (Hq Hr); discriminate]|].
        split; [reflexivity|]. left. split; [assumption|]. split; [reflexivity|]. intros k' Hk'. left. exact Hk'.
    + destruct (deref_opt (s_ring c) (front (s_ring c))) as [[y|]|]; injection H as <-; cbn in *;
        (split; [split; [exact Hb'|intros Hr; try reflexivity; try (specialize (Hq Hr); discriminate)]|split; [reflexivity|left; split; [assumption|split; [reflexivity|try rewrite Ec; discriminate]]]]).
Qed.

Lemma nth_app_some : forall (l l' : list E) i e, nth_error l i = Some e -> nth_error (l ++ l') i = Some e.
Proof. intros l l' i e H. rewrite nth_error_app1; [exact H|]. apply nth_error_Some. congruence. Qed.

Lemma guard_env : forall c c' g, s_crashed c = false -> core_ok c -> env c c' -> guard c g -> guard c' g.
Proof.
  intros c c' g Hcr Hk He (G1 & (e & G2 & G2') & G3).
  destruct (env_cases c c' Hcr Hk He) as (_ & Hn & [((l & HA) & Hp & Hc)|((k & Hc) & Hp & HA & Hnp)]).
  - split; [lia|]. split.
    + exists e. rewrite HA, Hn. split; [apply nth_app_some; exact G2|exact G2'].
    + intros k Hk'. rewrite Hp. destruct (Hc k Hk') as [Ho|(x & Hx & Hlt)]; [exact (G3 k Ho)|].
      destruct (Nat.eq_dec (s_popped c) g) as [E1|]; [|lia]. subst g. rewrite G2 in Hx. injection Hx as ->. lia.
  - specialize (G3 k Hc). split; [lia|]. split; [exists e; rewrite HA, Hn; auto|]. intros k' Hk'. exfalso. exact (Hnp k' Hk').
Qed.

Lemma quiet_env : forall c c', s_crashed c = false -> core_ok c -> env c c' -> (forall x, In x (s_all c) -> 1 <= ts x) ->
  quiet c -> quiet c' /\ s_popped c' = s_popped c.
Proof.
  intros c c' Hcr Hk He Hpos (Q1 & Q2).
  destruct (env_cases c c' Hcr Hk He) as (_ & Hn & [((l & HA) & Hp & Hc)|((k & Hc) & Hp & HA & Hnp)]).
  - split; [|exact Hp]. split; [congruence|]. intros k Hk'. destruct (Hc k Hk') as [Ho|(x & Hx & Hlt)]; [exact (Q2 k Ho)|].
    apply nth_error_In in Hx. specialize (Hpos x Hx). lia.
  - exfalso. exact (Q2 k Hc).
Qed.

Lemma held_env : forall c c' g, s_crashed c = false -> core_ok c -> env c c' -> held c g -> held c' g.
Proof.
  intros c c' g Hcr Hk He (G1 & (e & G2 & G2') & G3).
  destruct (env_cases c c' Hcr Hk He) as (_ & Hn & [((l & HA) & Hp & Hc)|((k & Hc) & Hp & HA & Hnp)]).
  - split; [lia|]. split.
    + exists e. rewrite HA, Hn. split; [apply nth_app_some; exact G2|exact G2'].
    + intros k Hk'. destruct (Hc k Hk') as [Ho|(x & Hx & Hlt)]; [exact (G3 k Ho)|].
      rewrite G1, G2 in Hx. injection Hx as ->. lia.
  - exfalso. exact (G3 k Hc).
Qed.

Lemma held_guard : forall c g, held c g -> guard c g.
Proof.
  intros c g (H1 & (e & H2 & H2') & H3). split; [lia|]. split; [exists e; split; [exact H2|lia]|].
  intros k Hk. exfalso. exact (H3 k Hk).
Qed.

Lemma guard_mono : forall c g g' , ordered_data ts (s_all c) -> guard c g -> (g <= g' < length (s_all c))%nat -> guard c g'.
Proof.
  intros c g g' [_ Ho] (G1 & (e & G2 & G2') & G3) Hg. split; [lia|]. split.
  - destruct (nth_error (s_all c) g') as [e'|] eqn:E1; [|apply nth_error_None in E1; lia].
    exists e'. split; [reflexivity|]. specialize (Ho g g' e e' ltac:(lia) G2 E1). lia.
  - intros k Hk. specialize (G3 k Hk). lia.
Qed.

(* number of stored elements *)
Lemma stored_le : forall c : rstate E, base n c -> Z.of_nat (length (s_all c)) - Z.of_nat (s_popped c) <= n - 1.
Proof.
  intros c H. pose proof (h_len _ _ (b_holds _ _ H)) as HL. rewrite skipn_length, (b_size _ _ H) in HL.
  pose proof (b_le _ _ H). lia.
Qed.

Section Pos.
Hypothesis HP : 0 < P.
Hypothesis Hn : 2 <= n.

Lemma pos_split : forall p, p mod (n * P) = p mod P + P * ((p / P) mod n).
Proof. intros p. rewrite (Z.mul_comm n P). apply Z.rem_mul_r; lia. Qed.

Lemma pos_slot : forall p, (p mod (n * P)) / P = (p / P) mod n.
Proof.
  intros p. rewrite pos_split, (Z.mul_comm P). rewrite Z.div_add by lia.
  rewrite (Z.div_small (p mod P)); [lia|]. apply Z.mod_pos_bound; lia.
Qed.

Lemma pos_off : forall p, (p mod (n * P)) mod P = p mod P.
Proof.
  intros p. rewrite pos_split, (Z.mul_comm P). rewrite Z.mod_add by lia. apply Z.mod_mod. lia.
Qed.

Lemma mem_pos : forall (c : rstate E) p, base n c -> 0 <= p -> (s_popped c <= Z.to_nat (p / P) < length (s_all c))%nat ->
  s_mem c ((p mod (n * P)) / P) = nth_error (s_all c) (Z.to_nat (p / P)).
Proof.
  intros c p Hb Hp Hr. rewrite pos_slot. pose proof (stored_le c Hb).
  assert (0 <= p / P) by (apply Z.div_pos; lia).
  rewrite <- (b_mem _ _ Hb (Z.to_nat (p / P))) by lia. rewrite Z2Nat.id by lia. reflexivity.
Qed.

Lemma byte_at_pos : forall (s : zstate) p, base n (z_core s) -> 0 <= p ->
  (s_popped (z_core s) <= Z.to_nat (p / P) < length (s_all (z_core s)))%nat ->
  byte_at s (addr0 + p mod (n * P)) = byte_of (s_all (z_core s)) p.
Proof.
  intros s p Hb Hp Hr. unfold Zcopy_model.byte_at, byte_of.
  replace (addr0 + p mod (n * P) - addr0) with (p mod (n * P)) by lia.
  rewrite (mem_pos _ _ Hb Hp Hr), pos_off. reflexivity.
Qed.

(* moving inside a lap *)
Lemma lap_add : forall W d, 0 <= d -> W mod (n * P) + d < n * P -> (W + d) mod (n * P) = W mod (n * P) + d.
Proof.
  intros W d Hd H. rewrite <- (Zplus_mod_idemp_l W d). apply Z.mod_small.
  pose proof (Z.mod_pos_bound W (n * P) ltac:(nia)). lia.
Qed.
Lemma lap_end : forall W d, W mod (n * P) + d = n * P -> (W + d) mod (n * P) = 0.
Proof. intros W d H. rewrite <- (Zplus_mod_idemp_l W d), H. apply Z.mod_same. nia. Qed.

Lemma byte_of_app : forall l l' p, 0 <= p -> p < Z.of_nat (length l) * P -> byte_of (l ++ l') p = byte_of l p.
Proof.
  intros l l' p H0 H. unfold byte_of. rewrite nth_error_app1; [reflexivity|].
  assert (p / P < Z.of_nat (length l)) by (apply Z.div_lt_upper_bound; lia).
  assert (0 <= p / P) by (apply Z.div_pos; lia). lia.
Qed.

Lemma bytes_app : forall l l' lo len, 0 <= lo -> lo + Z.of_nat len <= Z.of_nat (length l) * P ->
  bytes (l ++ l') lo len = bytes l lo len.
Proof.
  intros l l' lo len H0 H. unfold bytes. apply map_ext_in. intros k Hk. apply in_seq in Hk.
  apply byte_of_app; lia.
Qed.
End Pos.
End Proofs.
