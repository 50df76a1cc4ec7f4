From Coq Require Import ZArith List Bool Lia ZifyBool.
From Verif Require Import Base_model Stitch_model Stitch_spec.
Import ListNotations.
Open Scope Z_scope.
Local Arguments Z.mul : simpl never.
Local Arguments Z.modulo : simpl never.

Definition on_channel (c : Z) (x : block * hit) : Prop := b_wire (fst x) = c.

(** All hits of all blocks in order. *)
Definition all_hits (l : list block) : list (block * hit) := flat_map (fun b => map (fun h => (b, h)) (b_hits b)) l.
Definition do1 (s : stst) (x : block * hit) : stst := do_hit (fst x) s (snd x).

Lemma stitch_hits l : forall s, fold_left tp_stitch l s = fold_left do1 (all_hits l) s.
Proof.
  induction l as [|b l IH]; intros s; cbn; auto.
  rewrite fold_left_app, IH. f_equal. unfold tp_stitch. clear. revert s.
  induction (b_hits b) as [|h hs IH]; intros s; cbn; auto.
Qed.

Lemma hits_of_all c l : hits_of c l = filter (fun x => b_wire (fst x) =? c) (all_hits l).
Proof.
  unfold hits_of, all_hits. induction l as [|b l IH]; cbn; auto.
  rewrite filter_app, <- IH. f_equal.
  destruct (b_wire b =? c) eqn:E; induction (b_hits b) as [|h hs IHh]; cbn; auto; rewrite E; auto. now f_equal.
Qed.

Lemma stored_store c p s : stored c (store p s) = stored c s ++ if p_channel p =? c then [p] else [].
Proof. unfold stored. cbn. now rewrite filter_app. Qed.

Lemma do1_other c s x : b_wire (fst x) <> c -> Forall (fun a => p_channel a = b_wire (fst x)) (st_a s (b_wire (fst x))) ->
  st_a (do1 s x) c = st_a s c /\ stored c (do1 s x) = stored c s.
Proof.
  intros H F. unfold do1, do_hit. set (c0 := b_wire (fst x)) in *. set (p := make_prim (fst x) (snd x)).
  assert (E : (c =? c0) = false) by lia.
  destruct (st_a s c0) as [|a [|a2 r]] eqn:A.
  - destruct (h_cont (snd x)); [cbn; now rewrite E|]. rewrite A. auto.
  - apply Forall_inv in F.
    assert (Ea : (p_channel a =? c) = false) by lia.
    assert (Em : (p_channel (merge p a) =? c) = false) by (unfold merge; destruct (_ >? _); exact Ea).
    destruct (continues (snd x) p a); destruct (h_cont (snd x)); cbn; rewrite ?Z.eqb_refl, ?E; cbn;
      rewrite ?E; split; auto; unfold stored; cbn; rewrite ?filter_app; cbn; rewrite ?Ea, ?Em, ?app_nil_r; auto.
  - destruct (h_cont (snd x)); [cbn; now rewrite E|]. rewrite A. auto.
Qed.

(** The vector of a channel against its abstract state. *)
Definition as_prim (x : block * hit) : prim := make_prim (fst x) (snd x).
Definition vec_ok (k : chan) (v : list prim) : Prop :=
  match k with Idle => v = [] | Pending a => v = [as_prim a] | Dead => (2 <= length v)%nat end.

Definition seg_prim (seg : block * hit * option (block * hit)) : prim :=
  match snd seg with None => as_prim (fst seg) | Some x => merge (as_prim x) (as_prim (fst seg)) end.

(** Segments completed by one more hit. *)
Definition emits (k : chan) (x : block * hit) : list (block * hit * option (block * hit)) :=
  match k with
  | Pending a =>
    if (h_start (snd x) =? 0) && ((start_of x - start_of a) mod two64 <=? 1600)
    then if h_cont (snd x) then [] else [(a, Some x)] else [(a, None)]
  | _ => []
  end.

Fixpoint emitted (k : chan) (l : list (block * hit)) : list (block * hit * option (block * hit)) :=
  match l with [] => [] | x :: l' => emits k x ++ emitted (chan_step k x) l' end.

Lemma emitted_dead l : emitted Dead l = [].
Proof. induction l; cbn; auto. Qed.

Lemma emitted_segments l : emitted Idle l = segments None l /\ forall a, emitted (Pending a) l = segments (Some a) l.
Proof.
  induction l as [|x l [IH1 IH2]]; cbn; auto. split.
  - destruct (h_cont (snd x)); auto.
  - intros a. destruct (_ && _).
    + destruct (h_cont (snd x)); cbn; [apply emitted_dead|now rewrite IH1].
    + cbn. f_equal. destruct (h_cont (snd x)); auto.
Qed.

Lemma start_as_prim x : p_start (as_prim x) = start_of x.
Proof. unfold as_prim, make_prim, start_of. cbn [p_start]. unfold u64, tick. f_equal. lia. Qed.

Lemma cond_same x a : continues (snd x) (as_prim x) (as_prim a) =
  (h_start (snd x) =? 0) && ((start_of x - start_of a) mod two64 <=? 1600).
Proof. unfold continues, u64, stitch_constant. now rewrite !start_as_prim. Qed.

Lemma merge_channel p a : p_channel (merge p a) = p_channel a.
Proof. unfold merge. now destruct (_ >? _). Qed.

Lemma do1_same c s x k : b_wire (fst x) = c -> vec_ok k (st_a s c) -> (forall a, k = Pending a -> b_wire (fst a) = c) ->
  vec_ok (chan_step k x) (st_a (do1 s x) c) /\ stored c (do1 s x) = stored c s ++ map seg_prim (emits k x).
Proof.
  intros Hc V K. unfold do1, do_hit. rewrite Hc. fold (as_prim x).
  destruct k as [|a|]; cbn [vec_ok] in V.
  - rewrite V. cbn. destruct (h_cont (snd x)); cbn.
    + rewrite Z.eqb_refl, V. cbn. now rewrite app_nil_r.
    + rewrite V. cbn. now rewrite app_nil_r.
  - rewrite V. cbn [chan_step emits]. rewrite cond_same.
    assert (Ha : (p_channel (as_prim a) =? c) = true) by (cbn; specialize (K a eq_refl); lia).
    destruct (_ && _); destruct (h_cont (snd x)) eqn:E; cbn; rewrite ?Z.eqb_refl; cbn; rewrite ?Z.eqb_refl; cbn;
      unfold stored; cbn; rewrite ?filter_app; cbn; rewrite ?merge_channel, ?Ha; rewrite ?app_nil_r; cbn; auto.
    all: split; auto.
    all: cbn in Ha; now rewrite Ha.
  - assert (Hs : match st_a s c with [a] => if continues (snd x) (as_prim x) a then set_a c [merge (as_prim x) a] s else set_a c [] (store a s) | _ => s end = s).
    { destruct (st_a s c) as [|a [|a2 r]]; cbn in V; auto; lia. }
    rewrite Hs. cbn. rewrite app_nil_r. destruct (h_cont (snd x)).
    + cbn. rewrite Z.eqb_refl. split; auto. rewrite app_length. lia.
    + destruct (st_a s c) as [|a [|a2 r]] eqn:A; cbn in V; try lia. cbn. rewrite A. cbn. split; [lia|reflexivity].
Qed.

Lemma do1_channels s x : (forall c, Forall (fun a => p_channel a = c) (st_a s c)) ->
  forall c, Forall (fun a => p_channel a = c) (st_a (do1 s x) c).
Proof.
  intros H c. unfold do1, do_hit. set (c0 := b_wire (fst x)).
  assert (Hp : p_channel (make_prim (fst x) (snd x)) = c0) by reflexivity.
  destruct (c =? c0) eqn:E.
  - assert (c = c0) as -> by lia. pose proof (H c0) as F.
    destruct (st_a s c0) as [|a [|a2 r]] eqn:A.
    + destruct (h_cont (snd x)); cbn; rewrite ?Z.eqb_refl, ?A; cbn; auto.
    + apply Forall_inv in F.
      destruct (continues _ _ _); destruct (h_cont (snd x)); cbn; rewrite ?Z.eqb_refl; cbn; rewrite ?Z.eqb_refl; cbn; auto.
      constructor; auto. now rewrite merge_channel.
    + destruct (h_cont (snd x)); cbn; rewrite ?Z.eqb_refl, ?A.
      * apply Forall_app. split; auto.
      * cbn. now rewrite A.
  - destruct (do1_other c s x) as [H1 _]; [fold c0; lia|apply H|]. unfold do1, do_hit in H1. fold c0 in H1. rewrite H1. auto.
Qed.

Lemma chan_pending c l k a : (forall a, k = Pending a -> b_wire (fst a) = c) -> Forall (on_channel c) l ->
  fold_left chan_step l k = Pending a -> b_wire (fst a) = c.
Proof.
  revert k. induction l as [|x l IH]; cbn; intros k K F E; auto.
  apply (IH (chan_step k x)); auto; [|now apply Forall_inv_tail in F].
  apply Forall_inv in F. unfold on_channel in F. intros b. destruct k; cbn.
  - destruct (h_cont _); [intros X; injection X as <-; auto|discriminate].
  - destruct (_ && _); destruct (h_cont _); try discriminate. intros X; injection X as <-; auto.
  - discriminate.
Qed.

Lemma run_channel c l : forall s k, vec_ok k (st_a s c) -> (forall a, k = Pending a -> b_wire (fst a) = c) ->
  (forall c, Forall (fun a => p_channel a = c) (st_a s c)) ->
  let l' := filter (fun x => b_wire (fst x) =? c) l in
  vec_ok (fold_left chan_step l' k) (st_a (fold_left do1 l s) c) /\
  stored c (fold_left do1 l s) = stored c s ++ map seg_prim (emitted k l').
Proof.
  induction l as [|x l IH]; intros s k V K F; cbn.
  - now rewrite app_nil_r.
  - destruct (b_wire (fst x) =? c) eqn:E.
    + destruct (do1_same c s x k ltac:(lia) V K) as [V' S'].
      destruct (IH (do1 s x) (chan_step k x)) as [A B]; auto.
      * intros a Ha. apply (chan_pending c [x] k); auto. repeat constructor. unfold on_channel. lia.
      * now apply do1_channels.
      * split; auto. rewrite B, S'. cbn. now rewrite map_app, app_assoc.
    + destruct (do1_other c s x) as [A B]; [lia|apply F|].
      destruct (IH (do1 s x) k) as [A' B']; auto.
      * now rewrite A.
      * now apply do1_channels.
      * split; auto. now rewrite B', B.
Qed.

Lemma seg_content seg : (let '(a, o) := seg in hit_ok (snd a) /\ match o with Some x => hit_ok (snd x) | None => True end) ->
  content seg (seg_prim seg).
Proof.
  destruct seg as [a [x|]]; cbn; intros [Ha Hx]; unfold seg_prim; cbn.
  - unfold merge. destruct Ha as (A1 & A2 & A3 & A4 & A5), Hx as (X1 & X2 & X3 & X4 & X5). cbn.
    destruct (h_padc (snd x) >? h_padc (snd a)) eqn:E; cbn; unfold u64, u32, tick;
      replace (h_padc (snd a) <? h_padc (snd x)) with (h_padc (snd x) >? h_padc (snd a)) by lia; rewrite E.
    + repeat split; auto.
      * unfold start_of. f_equal. ring.
      * lia.
      * rewrite <- Zplus_mod. f_equal. ring.
      * rewrite <- Zplus_mod. unfold start_of. rewrite !(Z.mul_comm 25). reflexivity.
    + repeat split; auto.
      * unfold start_of. f_equal. ring.
      * lia.
      * f_equal. ring.
      * rewrite <- Zplus_mod. unfold start_of. rewrite !(Z.mul_comm 25). reflexivity.
  - unfold u64, tick, start_of. rewrite !(Z.mul_comm 25). repeat split; auto.
Qed.

Lemma in_segments l : forall p seg, In seg (segments p l) ->
  (In (fst seg) l \/ p = Some (fst seg)) /\ match snd seg with Some x => In x l | None => True end.
Proof.
  induction l as [|x l IH]; intros p seg; cbn; [intros []|].
  destruct p as [a|].
  - destruct (_ && _).
    + destruct (h_cont (snd x)); cbn; [intros []|]. intros [<-|H]; cbn; auto.
      destruct (IH _ _ H) as [[I|I] J]; try discriminate. split; auto. destruct (snd seg); auto.
    + intros [<-|H]; cbn; auto. destruct (IH _ _ H) as [[I|I] J].
      * split; auto. destruct (snd seg); auto.
      * destruct (h_cont (snd x)); try discriminate. injection I as ->. split; auto. destruct (snd seg); auto.
  - intros H. destruct (IH _ _ H) as [[I|I] J].
    * split; auto. destruct (snd seg); auto.
    * destruct (h_cont (snd x)); try discriminate. injection I as ->. split; auto. destruct (snd seg); auto.
Qed.

Lemma c29_stored (l : list block) c : Forall block_ok l ->
  Forall2 content (segments None (hits_of c l)) (stored c (stitch_all l)).
Proof.
  intros Hl. unfold stitch_all. rewrite stitch_hits.
  destruct (run_channel c (all_hits l) st_new Idle) as [_ B]; cbn; auto; [discriminate|].
  rewrite B. cbn. rewrite <- hits_of_all. destruct (emitted_segments (hits_of c l)) as [-> _].
  assert (Hok : forall x, In x (hits_of c l) -> hit_ok (snd x)).
  { intros x Hx. unfold hits_of in Hx. apply in_flat_map in Hx as (b & Hb & Hx). rewrite Forall_forall in Hl.
    destruct (b_wire b =? c); [|destruct Hx]. apply in_map_iff in Hx as (h & <- & Hh). destruct (Hl b Hb) as [_ F].
    rewrite Forall_forall in F. cbn. auto. }
  assert (G : forall segs, (forall seg, In seg segs -> In seg (segments None (hits_of c l))) -> Forall2 content segs (map seg_prim segs)).
  { induction segs as [|seg segs IH]; cbn; constructor.
    - apply seg_content. pose proof (in_segments _ None seg (H seg (or_introl eq_refl))) as [[I|I] J]; [|discriminate].
      destruct seg as [a [x|]]; cbn in *; auto.
    - apply IH. intros; apply H; now right. }
  now apply G.
Qed.

Lemma segments_none_cont l : Forall (fun x => h_cont (snd x) = false) l -> segments None l = [].
Proof. induction 1 as [|x l H1 H2 IH]; cbn; auto. now rewrite H1. Qed.

Lemma c29_lone (l : list block) c : Forall block_ok l -> Forall (fun x => h_cont (snd x) = false) (hits_of c l) ->
  stored c (stitch_all l) = [].
Proof.
  intros Hl H. pose proof (c29_stored l c Hl) as F. rewrite segments_none_cont in F by assumption. now inversion F.
Qed.

Lemma hits_of_app c l1 l2 : hits_of c (l1 ++ l2) = hits_of c l1 ++ hits_of c l2.
Proof. unfold hits_of. apply flat_map_app. Qed.

Lemma emitted_app l1 : forall k l2, emitted k (l1 ++ l2) = emitted k l1 ++ emitted (fold_left chan_step l1 k) l2.
Proof. induction l1 as [|x l1 IH]; intros; cbn; auto. rewrite IH. now rewrite app_assoc. Qed.

Lemma channel_state l c : vec_ok (chan_after (hits_of c l)) (st_a (stitch_all l) c).
Proof.
  unfold stitch_all. rewrite stitch_hits, hits_of_all.
  destruct (run_channel c (all_hits l) st_new Idle) as [A _]; cbn; auto; discriminate.
Qed.

Lemma stored_all l c : stored c (stitch_all l) = map seg_prim (emitted Idle (hits_of c l)).
Proof.
  unfold stitch_all. rewrite stitch_hits, hits_of_all.
  destruct (run_channel c (all_hits l) st_new Idle) as [_ B]; cbn; auto; discriminate.
Qed.

Lemma c29_dead (l l' : list block) c : chan_after (hits_of c l) = Dead ->
  stored c (stitch_all (l ++ l')) = stored c (stitch_all l).
Proof.
  intros H. rewrite !stored_all, hits_of_app, emitted_app. unfold chan_after in H. rewrite H, emitted_dead. now rewrite app_nil_r.
Qed.

Lemma c29_continued (l : list block) b1 b2 h1 h2 c :
  Forall block_ok l -> chan_after (hits_of c l) = Idle -> block_ok b1 -> block_ok b2 -> b_wire b1 = c -> b_wire b2 = c ->
  b_hits b1 = [h1] -> b_hits b2 = [h2] -> h_cont h1 = true -> h_cont h2 = false -> h_start h2 = 0 ->
  (start_of (b2, h2) - start_of (b1, h1)) mod two64 <= 1600 ->
  stored c (stitch_all (l ++ [b1])) = stored c (stitch_all l) /\
  exists p, stored c (stitch_all (l ++ [b1; b2])) = stored c (stitch_all l) ++ [p] /\ content ((b1, h1), Some (b2, h2)) p.
Proof.
  intros Hl H O1 O2 W1 W2 B1 B2 C1 C2 S2 T. rewrite !stored_all, !hits_of_app, !emitted_app.
  unfold chan_after in H. rewrite H. cbn. rewrite W1, W2, Z.eqb_refl, B1, B2. cbn. rewrite C1. cbn. rewrite S2, C2.
  replace ((start_of (b2, h2) - start_of (b1, h1)) mod two64 <=? 1600) with true by lia. cbn. rewrite app_nil_r. split; auto.
  exists (seg_prim ((b1, h1), Some (b2, h2))). rewrite map_app. split; [reflexivity|].
  pose proof (seg_content ((b1, h1), Some (b2, h2))) as G. cbn in G. rewrite W1 in G. apply G.
  destruct O1 as [_ F1], O2 as [_ F2]. rewrite B1 in F1. rewrite B2 in F2. apply Forall_inv in F1, F2. auto.
Qed.

Lemma c59_tot_iff (b : block) (h : hit) (p : prim) : block_ok b -> hit_ok h -> h_start h <= h_end h ->
  content ((b, h), None) p -> (p_tot p = 25 * (h_end h - h_start h) <-> b_ts b = 0).
Proof.
  intros [Hb _] (A1 & A2 & _) Hle (_ & _ & _ & _ & Ht & _). rewrite Ht. unfold start_of. cbn [fst snd].
  rewrite Zminus_mod_idemp_r. replace (25 * h_end h - (b_ts b + 25 * h_start h)) with (25 * (h_end h - h_start h) - b_ts b) by ring.
  unfold two64 in *. split; intros E.
  - Z.div_mod_to_equations. lia.
  - rewrite E. rewrite Z.mod_small; lia.
Qed.

Lemma forall2_nth : forall {A B} (R : A -> B -> Prop) l1 l2 i x y, Forall2 R l1 l2 ->
  nth_error l1 i = Some x -> nth_error l2 i = Some y -> R x y.
Proof.
  intros A B R l1 l2 i x y H. revert i. induction H; intros i H1 H2; destruct i; try discriminate.
  - injection H1 as <-. injection H2 as <-. assumption.
  - exact (IHForall2 i H1 H2).
Qed.

Lemma hits_of_ok : forall l c x, Forall block_ok l -> In x (hits_of c l) -> block_ok (fst x) /\ hit_ok (snd x).
Proof.
  intros l c x H Hin. unfold hits_of in Hin. apply in_flat_map in Hin. destruct Hin as (b & Hb & Hx).
  rewrite Forall_forall in H. pose proof (H b Hb) as Hok. destruct (b_wire b =? c); [|contradiction].
  apply in_map_iff in Hx. destruct Hx as (h & <- & Hh). cbn. split; [exact Hok|].
  destruct Hok as [_ Hok]. rewrite Forall_forall in Hok. exact (Hok h Hh).
Qed.

Lemma segments_in : forall l pending i seg, nth_error (segments pending l) i = Some seg ->
  In (fst seg) l \/ pending = Some (fst seg).
Proof.
  induction l as [|x l IH]; intros pending i seg H; cbn [segments] in H; [destruct i; discriminate|].
  destruct pending as [a|].
  - destruct ((h_start (snd x) =? 0) && ((start_of x - start_of a) mod two64 <=? 1600)).
    + destruct (h_cont (snd x)); [destruct i; discriminate|].
      destruct i as [|i]; cbn [nth_error] in H; [injection H as <-; right; reflexivity|].
      destruct (IH _ _ _ H) as [X|X]; [left; right; exact X|discriminate].
    + destruct i as [|i]; cbn [nth_error] in H; [injection H as <-; right; reflexivity|].
      destruct (IH _ _ _ H) as [X|X]; [left; right; exact X|].
      destruct (h_cont (snd x)); [|discriminate]. injection X as <-. left. left. reflexivity.
  - destruct (IH _ _ _ H) as [X|X]; [left; right; exact X|].
    destruct (h_cont (snd x)); [|discriminate]. injection X as <-. left. left. reflexivity.
Qed.

Lemma c59_tot : forall (l : list block) (c : Z) (i : nat) (b : block) (h : hit) (p : prim), Forall block_ok l ->
  nth_error (segments None (hits_of c l)) i = Some ((b, h), None) -> nth_error (stored c (stitch_all l)) i = Some p ->
  h_start h <= h_end h ->
  p_tot p = (25 * h_end h - (b_ts b + 25 * h_start h)) mod two64 /\
  (p_tot p = 25 * (h_end h - h_start h) <-> b_ts b = 0).
Proof.
  intros l c i b h p Hl Hs Hp Hle.
  pose proof (forall2_nth _ _ _ _ _ _ (c29_stored l c Hl) Hs Hp) as Hc.
  destruct (segments_in _ _ _ _ Hs) as [Hin|Hin]; [|discriminate]. cbn [fst] in Hin.
  destruct (hits_of_ok _ _ _ Hl Hin) as [Hb Hh]. cbn [fst snd] in Hb, Hh.
  split; [|exact (c59_tot_iff b h p Hb Hh Hle Hc)].
  destruct Hc as (_ & _ & _ & _ & -> & _). unfold start_of. cbn [fst snd]. apply Zminus_mod_idemp_r.
Qed.

Lemma c59_peak : forall (l : list block) (c : Z) (i : nat) (b1 b2 : block) (h1 h2 : hit) (p : prim), Forall block_ok l ->
  nth_error (segments None (hits_of c l)) i = Some ((b1, h1), Some (b2, h2)) -> nth_error (stored c (stitch_all l)) i = Some p ->
  let t1 := b_ts b1 + 25 * h_peak h1 in
  let t2 := b_ts b2 + 25 * h_peak h2 in
  p_peak p = (if h_padc h1 <? h_padc h2 then t1 + t2 else t1) mod two64.
Proof.
  intros l c i b1 b2 h1 h2 p Hl Hs Hp t1 t2.
  pose proof (forall2_nth _ _ _ _ _ _ (c29_stored l c Hl) Hs Hp) as Hc. destruct Hc as (_ & _ & _ & _ & -> & _). reflexivity.
Qed.
