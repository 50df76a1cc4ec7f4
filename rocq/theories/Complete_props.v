(** Property C09: on gap-free data the answer to a request has no hole. *)
From Coq Require Import ZArith List Bool Lia Sorted.
From Verif Require Import Base_model Ring_model Ring_spec Elem_model Search_model Search_spec SkipList_model Lb_model Request_model Request_spec Request_props Complete_spec.
Import ListNotations.
Open Scope Z_scope.

Lemma ts_of_regular : forall tick e, regular tick e -> map f_ts (e_frames e) = map (fun k => e_ts e + Z.of_nat k * tick) (seq 0 (length (e_frames e))).
Proof.
  intros tick e (_ & _ & R & _). generalize dependent (e_ts e). intros t0 R. assert (G : forall l n, (forall k f, nth_error l k = Some f -> f_ts f = t0 + Z.of_nat (n + k) * tick) ->
    map f_ts l = map (fun k => t0 + Z.of_nat k * tick) (seq n (length l))).
  { induction l as [|x l IH]; intros n H; [reflexivity|]. cbn [map length seq]. f_equal.
    - rewrite (H 0%nat x eq_refl), Nat.add_0_r. reflexivity.
    - apply IH. intros k f K. rewrite (H (S k) f K). f_equal. f_equal. lia. }
  apply G. exact R.
Qed.

Lemma progression_shift : forall t0 tick n m, map (fun k => t0 + Z.of_nat k * tick) (seq n m) = map (fun k => t0 + Z.of_nat n * tick + Z.of_nat k * tick) (seq 0 m).
Proof.
  intros t0 tick n m. revert n. induction m as [|m IH]; intros n; [reflexivity|]. cbn [seq map]. f_equal; [lia|]. rewrite (IH (S n)).
  rewrite <- seq_shift, map_map. apply map_ext. intros k. lia.
Qed.

Lemma ts_of_all : forall tick N l t0, Forall (regular tick) l -> (forall x, In x l -> e_num x = Z.of_nat N) ->
  equally_spaced e_ts l t0 (tick * Z.of_nat N) -> map f_ts (all_frames l) = map (fun k => t0 + Z.of_nat k * tick) (seq 0 (length l * N)).
Proof.
  intros tick N l. induction l as [|x l IH]; intros t0 F L S; [reflexivity|].
  change (all_frames (x :: l)) with (e_frames x ++ all_frames l). rewrite map_app. inversion F; subst. rewrite (ts_of_regular tick x) by assumption.
  pose proof (S 0%nat x eq_refl) as X. rewrite Z.mul_0_l, Z.add_0_r in X. rewrite X.
  assert (LN : length (e_frames x) = N) by (pose proof (L x (or_introl eq_refl)) as Y; unfold e_num in Y; lia). rewrite LN.
  rewrite (IH (t0 + tick * Z.of_nat N)).
  - cbn [length]. rewrite Nat.mul_succ_l. rewrite (Nat.add_comm _ N), seq_app, map_app. f_equal. cbn [Nat.add]. rewrite (progression_shift t0 tick N).
    apply map_ext. intros k. lia.
  - assumption.
  - intros y Hy. apply L. right. exact Hy.
  - intros k y Hk. rewrite (S (Datatypes.S k) y Hk). lia.
Qed.

Lemma sorted_progression : forall tick t0 n m, 0 < tick -> StronglySorted Z.lt (map (fun k => t0 + Z.of_nat k * tick) (seq n m)).
Proof.
  intros tick t0 n m Ht. revert n. induction m as [|m IH]; intros n; cbn; constructor; [apply IH|]. apply Forall_forall. intros y Hy.
  apply in_map_iff in Hy. destruct Hy as (k & <- & Hk). apply in_seq in Hk. nia.
Qed.

Lemma sorted_filter : forall p l, StronglySorted Z.lt l -> StronglySorted Z.lt (filter p l).
Proof.
  intros p l S. induction S as [|x l S IH F]; cbn; [constructor|]. destruct (p x); [|exact IH]. constructor; [exact IH|].
  rewrite Forall_forall in *. intros y Hy. apply filter_In in Hy. apply F. tauto.
Qed.

Lemma map_filter_ts : forall (p : Z -> bool) l, map f_ts (filter (fun f => p (f_ts f)) l) = filter p (map f_ts l).
Proof. intros p l. induction l as [|x l IH]; [reflexivity|]. cbn. destruct (p (f_ts x)); cbn; rewrite IH; reflexivity. Qed.

Lemma newest_of_spaced : forall l t0 d, l <> [] -> equally_spaced e_ts l t0 d -> newest_ts l = t0 + (Z.of_nat (length l) - 1) * d.
Proof.
  intros l t0 d N S. destruct (exists_last N) as (l' & x & ->). unfold newest_ts. rewrite rev_app_distr. cbn. rewrite app_length. cbn.
  rewrite (S (length l') x); [|rewrite nth_error_app2, Nat.sub_diag by lia; reflexivity]. lia.
Qed.

(** The frames of the window, on gap-free contents. *)
Lemma window_complete : forall tick l x0 l0 b e, 0 < tick -> wf tick l -> l = x0 :: l0 -> (forall x, In x l -> e_num x = e_num x0) ->
  equally_spaced e_ts l (e_ts x0) (tick * e_num x0) -> oldest_ts l <= b -> e <= newest_ts l ->
  let times := map f_ts (filter (fun f => (b <=? f_ts f) && (f_ts f <? e)) (all_frames l)) in
  StronglySorted Z.lt times /\ (forall t, In t times <-> b <= t < e /\ (tick | t - e_ts x0)).
Proof.
  intros tick l x0 l0 b e Ht (F & _) El L S Hb He times. unfold times. rewrite (map_filter_ts (fun t => (b <=? t) && (t <? e))).
  rewrite (ts_of_all tick (length (e_frames x0)) l (e_ts x0) F L S). split; [apply sorted_filter, sorted_progression; exact Ht|].
  intros t. rewrite filter_In, in_map_iff. rewrite (newest_of_spaced l _ _ ltac:(rewrite El; discriminate) S) in He. rewrite El in Hb. cbn in Hb. unfold e_num in *.
  split.
  - intros ((k & <- & _) & H). split; [lia|]. exists (Z.of_nat k). lia.
  - intros (H & (q & Q)). split; [|lia]. exists (Z.to_nat q). assert (0 <= q) by nia. split; [rewrite Z2Nat.id by lia; lia|]. apply in_seq. split; [lia|].
    assert (0 < Z.of_nat (length l)) by (rewrite El; cbn; lia). assert (0 <= Z.of_nat (length (e_frames x0))) by lia. cbn [Nat.add].
    apply Nat2Z.inj_lt. rewrite Z2Nat.id, Nat2Z.inj_mul by lia.
    set (nl := Z.of_nat (length l)) in *. set (m := Z.of_nat (length (e_frames x0))) in *.
    assert (q * tick < (nl - 1) * m * tick) by lia. assert (q < (nl - 1) * m) by nia. nia.
Qed.

Lemma no_hole_of : forall tick t0 b e frames, 0 < tick -> StronglySorted Z.lt (map f_ts frames) ->
  (forall t, In t (map f_ts frames) <-> b <= t < e /\ (tick | t - t0)) -> no_hole tick t0 b e frames.
Proof.
  intros tick t0 b e frames Ht S M. split; [exact S|]. split; [exact M|]. intros W.
  pose proof (Z.mod_pos_bound (b - t0) tick Ht). pose proof (Z.mod_pos_bound (e - 1 - t0) tick Ht).
  pose proof (Z.div_mod (b - t0) tick ltac:(lia)) as D. pose proof (Z.div_mod (e - 1 - t0) tick ltac:(lia)) as D'.
  set (lo := if (b - t0) mod tick =? 0 then b else b - (b - t0) mod tick + tick). set (hi := e - 1 - (e - 1 - t0) mod tick).
  assert (LO : b <= lo < b + tick /\ (tick | lo - t0)).
  { unfold lo. destruct ((b - t0) mod tick =? 0) eqn:E; [apply Z.eqb_eq in E|apply Z.eqb_neq in E].
    - split; [lia|]. exists ((b - t0) / tick). lia.
    - split; [lia|]. exists ((b - t0) / tick + 1). lia. }
  assert (HI : e - tick <= hi < e /\ (tick | hi - t0)) by (unfold hi; split; [lia|]; exists ((e - 1 - t0) / tick); lia).
  assert (I1 : In lo (map f_ts frames)) by (apply M; split; [lia|tauto]). assert (I2 : In hi (map f_ts frames)) by (apply M; split; [lia|tauto]).
  destruct frames as [|f fs]; [contradiction|]. destruct (@exists_last _ (f :: fs) ltac:(discriminate)) as (gs & g & E). exists f, fs, g, gs. split; [reflexivity|].
  split; [exact E|]. split.
  - assert (In (f_ts f) (map f_ts (f :: fs))) as J by (left; reflexivity). apply M in J. cbn in S. inversion S as [|? ? S' F]; subst. rewrite Forall_forall in F.
    destruct I1 as [I1|I1]; [lia|]. specialize (F _ I1). lia.
  - rewrite E, map_app in *. assert (In (f_ts g) (map f_ts gs ++ map f_ts [g])) as J by (apply in_or_app; right; left; reflexivity). apply M in J.
    assert (hi <= f_ts g); [|lia]. clear - S I2. induction (map f_ts gs) as [|y ys IH]; cbn in *.
    + destruct I2 as [->|[]]; lia.
    + inversion S as [|? ? S' F]; subst. destruct I2 as [->|I2]; [|apply IH; assumption]. rewrite Forall_forall in F.
      specialize (F (f_ts g) ltac:(apply in_or_app; right; left; reflexivity)). lia.
Qed.

(** C09. Both rings. The window need not begin or end on a frame. *)
Theorem C09_answer_has_no_hole :
  forall (dnf : Z) (lk : link) (tick n : Z) (ops : list (op elem)) (r : ring elem) (q : queue elem)
         (x0 : elem) (l0 : list elem) (running missing : bool) (dr : request) (s : stats),
    supported_size n -> Forall supported_op ops -> reached n ops r q ->
    0 < tick -> wf tick (q_items q) -> q_items q = x0 :: l0 -> (forall x, In x l0 -> e_num x = e_num x0) ->
    equally_spaced e_ts (q_items q) (e_ts x0) (tick * e_num x0) ->
    e_ts x0 + Z.of_nat (length (q_items q)) * (tick * e_num x0) < two64 ->
    oldest_ts (q_items q) <= rq_begin dr -> rq_begin dr <= rq_end dr -> rq_end dr <= newest_ts (q_items q) ->
    exists frames, no_hole tick (e_ts x0) (rq_begin dr) (rq_end dr) frames /\ (forall f, In f frames -> exists x, In x (q_items q) /\ In f (e_frames x)) /\
      forall L, L = bs_lb e_ts \/ L = fr_lb e_ts e_num tick ->
      exists s', data_request dnf lk tick L running missing r dr s =
        Ok (kFound, Some (mk_fragment (create_fragment_header lk dr) (flat_map f_bytes frames)), s').
Proof.
  intros dnf lk tick n ops r q x0 l0 running missing dr s Hn Ho R Ht W E N S B Hb Hw He.
  set (keep := fun f => (rq_begin dr <=? f_ts f) && (f_ts f <? rq_end dr)). exists (filter keep (all_frames (q_items q))).
  assert (N' : forall x, In x (q_items q) -> e_num x = e_num x0) by (rewrite E; intros x [->|X]; [reflexivity|apply N; exact X]).
  split; [|split].
  - destruct (window_complete tick _ x0 l0 (rq_begin dr) (rq_end dr) Ht W E N' S Hb He) as (A1 & A2). apply no_hole_of; assumption.
  - intros f Hf. apply filter_In in Hf. destruct Hf as [Hf _]. apply in_flat_map in Hf. exact Hf.
  - assert (NE : q_items q <> []) by (rewrite E; discriminate). intros L [->| ->].
    + exact (C09_binary_search_ring dnf lk tick n ops r q running missing dr s Hn Ho R ltac:(lia) W NE Hb He).
    + destruct missing.
      * exact (C09_fixed_rate_ring_flagged dnf lk tick n ops r q running dr s Hn Ho R ltac:(lia) W NE Hb He).
      * exact (C09_fixed_rate_ring_gap_free dnf lk tick n ops r q x0 l0 running dr s Hn Ho R Ht W E S B Hb Hw He).
Qed.
Print Assumptions C09_answer_has_no_hole.

(** The buffer of [C09_example] and a window whose ends lie between frames. *)
Example C09_answer_has_no_hole_ex :
  exists r q x0 l0, reached 6 ex_ops r q /\ wf 10 (q_items q) /\ q_items q = x0 :: l0 /\ (forall x, In x l0 -> e_num x = e_num x0) /\
    equally_spaced e_ts (q_items q) (e_ts x0) (10 * e_num x0) /\ oldest_ts (q_items q) = 100 /\ newest_ts (q_items q) = 160 /\
    map f_ts (filter (fun f => (105 <=? f_ts f) && (f_ts f <? 148)) (all_frames (q_items q))) = [110; 120; 130; 140] /\
    data_request 3 ex_link 10 (bs_lb e_ts) true false r (ex_request 105 148) ex_stats =
      Ok (kFound, Some (mk_fragment (mk_header 77 1000 105 148 5 6 1 2 3 4 0) [110; 2; 120; 1; 130; 2; 140; 1]), mk_stats 1 0 0 0 0).
Proof.
  destruct C09_example as (r & q & R & W & E & O & N & _). exists r, q.
  assert (Q : exists x0 l0, q_items q = x0 :: l0 /\ map e_num (q_items q) = [2; 2; 2; 2] /\ e_ts x0 = 100 /\
     map f_ts (filter (fun f => (105 <=? f_ts f) && (f_ts f <? 148)) (all_frames (q_items q))) = [110; 120; 130; 140] /\
     data_request 3 ex_link 10 (bs_lb e_ts) true false r (ex_request 105 148) ex_stats =
       Ok (kFound, Some (mk_fragment (mk_header 77 1000 105 148 5 6 1 2 3 4 0) [110; 2; 120; 1; 130; 2; 140; 1]), mk_stats 1 0 0 0 0)).
  { destruct R as (r0 & R1 & R2 & R3). injection R1 as <-. vm_compute in R2, R3. injection R2 as <-. injection R3 as <-.
    do 2 eexists. split; [reflexivity|]. vm_compute. repeat split; reflexivity. }
  destruct Q as (x0 & l0 & Q1 & Q2 & Q3 & Q4 & Q5). exists x0, l0. rewrite Q1 in Q2. cbn in Q2. injection Q2 as Q2 Q6.
  split; [exact R|]. split; [exact W|]. split; [exact Q1|]. split.
  - intros x X. rewrite Q2. apply (in_map e_num) in X. rewrite Q6 in X. cbn in X. intuition congruence.
  - rewrite Q2, Q3. auto.
Qed.
