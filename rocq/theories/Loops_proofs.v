(** Proofs about the readout loops. *)
From Coq Require Import ZArith List Bool Lia.
From Verif Require Import Base_model Ring_model Ring_spec Ring_proofs Request_model Loops_model Loops_spec.
Import ListNotations.
Open Scope Z_scope.

Section Consume.
Context {A P : Type}.
Variable pre : P -> A -> P * A.

Lemma take_front_ok n : forall (r : ring A) l, holds r l -> (n <= length l)%nat ->
  exists r', take_front n r = Ok (r', firstn n l) /\ holds r' (skipn n l) /\ r_size r' = r_size r.
Proof.
  induction n as [|n IH]; intros r l H L; cbn [take_front].
  - exists r. auto.
  - destruct l as [|x l]; [cbn in L; lia|]. rewrite (front_ok r (x :: l) H). cbn [bind hd_error].
    destruct (popFront_cons r x l H) as (r1 & E1 & H1 & S1 & _). rewrite E1. cbn [bind].
    destruct (IH r1 l H1) as (r2 & E2 & H2 & S2); [cbn in L; lia|]. rewrite E2. cbn [bind fst snd firstn skipn]. exists r2. split; [reflexivity|].
    split; [exact H2|congruence].
Qed.

Record cinv (cap : nat) (s : @cons A P) (l : list A) (newest : option A) : Prop := mk_cinv {
  ci_holds : holds (c_ring s) l;
  ci_cap : r_size (c_ring s) - 1 = Z.of_nat cap;
  ci_new : l <> [] -> hd_error (rev l) = newest
}.

Lemma last_skipn n (l : list A) : (n < length l)%nat -> hd_error (rev (skipn n l)) = hd_error (rev l).
Proof.
  intros H. rewrite !hd_rev_last, skipn_length. 
  assert (E : forall k n (l : list A), nth_error (skipn n l) k = nth_error l (n + k)).
  { clear. induction n as [|n IH]; intros l; [reflexivity|]. destruct l as [|x l]; cbn; [now destruct k|]. apply IH. }
  rewrite E. f_equal. lia.
Qed.

Lemma arrive_ok cap s l newest x b : cinv cap s l newest -> let ok := (length l <? cap)%nat in
  let l1 := if ok then l ++ [snd (pre (c_pre s) x)] else l in
  let newest' := if ok then Some (snd (pre (c_pre s) x)) else newest in
  (b <= length l1)%nat ->
  exists s', consume_step pre s (CArrive x b) = Ok (s', None) /\ cinv cap s' (skipn b l1) newest' /\
    c_pre s' = fst (pre (c_pre s) x) /\
    c_post s' = c_post s ++ [if (level_after cap (length l) b =? 0)%nat then None else newest'] /\
    c_removed s' = c_removed s ++ firstn b l1 /\
    c_cnt s' = mk_cnt (i32 (n_num (c_cnt s) + 1)) (i32 (n_sum (c_cnt s) + 1)) (n_timeouts (c_cnt s)) (i32 (n_stats (c_cnt s) + 1))
                 (if ok then n_over (c_cnt s) else i32 (n_over (c_cnt s) + 1)).
Proof.
  intros [H C N] ok l1 newest' B. set (y := snd (pre (c_pre s) x)) in *. cbn [consume_step]. fold y.
  assert (W : exists r', write y (c_ring s) = Ok (r', ok) /\ holds r' l1 /\ r_size r' = r_size (c_ring s)).
  { unfold l1, ok. pose proof (h_len _ _ H). destruct (Nat.ltb_spec (length l) cap).
    - destruct (write_ok _ _ y H) as (r' & E & H' & S & _); [lia|]. eauto.
    - destruct (write_full _ _ y H) as (r' & E & H' & S & _); [lia|]. eauto. }
  destruct W as (r' & E & H' & S). rewrite E. cbn [bind fst snd].
  destruct (take_front_ok b r' l1 H' B) as (r2 & E2 & H2 & S2). rewrite E2. cbn [bind fst snd].
  rewrite (back_ok r2 _ H2). cbn [bind]. eexists. split; [reflexivity|]. cbn [c_pre c_post c_removed c_cnt].
  assert (NL : l1 <> [] -> hd_error (rev l1) = newest').
  { unfold l1, newest'. destruct ok; intros NE; [now rewrite rev_app_distr|now apply N]. }
  assert (LL : length (skipn b l1) = level_after cap (length l) b).
  { rewrite skipn_length. unfold level_after, l1. fold ok. destruct ok; rewrite ?app_length; cbn [length]; lia. }
  split; [|split; [reflexivity|split; [|split; [reflexivity|]]]].
  - constructor; cbn [c_ring]; auto; [congruence|]. intros NE.
    assert (b < length l1)%nat. { assert (length (skipn b l1) <> 0%nat) as Hl by (destruct (skipn b l1); [congruence|discriminate]). rewrite skipn_length in Hl. lia. }
    rewrite last_skipn by lia. apply NL. destruct l1; [cbn in *; lia|discriminate].
  - do 2 f_equal. destruct (Nat.eqb_spec (level_after cap (length l) b) 0) as [Z0|Z0].
    + rewrite <- LL in Z0. destruct (skipn b l1); [reflexivity|discriminate].
    + rewrite <- LL, skipn_length in Z0. rewrite last_skipn by lia. apply NL. destruct l1; [cbn in *; lia|discriminate].
  - fold ok. reflexivity.
Qed.

(** The whole run. *)
Record result (cap : nat) (l0 : list A) (newest : option A) (evs : list (@cevent A)) (s s' : @cons A P) (is : list info) (l' : list A) : Prop := mk_result {
  rs_holds : holds (c_ring s') l';
  rs_cap : r_size (c_ring s') = r_size (c_ring s);
  rs_store : c_removed s' ++ l' = (c_removed s ++ l0) ++ select (stored cap (length l0) (prepared pre (c_pre s) evs)) (arrivals (prepared pre (c_pre s) evs));
  rs_post : c_post s' = c_post s ++ posted cap (length l0) newest (prepared pre (c_pre s) evs);
  rs_sum : n_sum (c_cnt s') = i32 (n_sum (c_cnt s) + Z.of_nat (length (arrivals evs)));
  rs_num : i32 (n_num (c_cnt s') + total i_num is) = i32 (n_num (c_cnt s) + Z.of_nat (length (arrivals evs)));
  rs_stats : i32 (n_stats (c_cnt s') + total i_stats is) = i32 (n_stats (c_cnt s) + Z.of_nat (length (arrivals evs)));
  rs_over : i32 (n_over (c_cnt s') + total i_over is) = i32 (n_over (c_cnt s) + Z.of_nat (refused_count (stored cap (length l0) (prepared pre (c_pre s) evs))));
  rs_timeouts : i32 (n_timeouts (c_cnt s') + total i_timeouts is) = i32 (n_timeouts (c_cnt s) + Z.of_nat (timeouts evs))
}.

Definition is_i32 (z : Z) : Prop := i32 z = z.
Record cnt_ok (c : counters) : Prop := mk_cnt_ok {
  k1 : is_i32 (n_num c); k2 : is_i32 (n_sum c); k3 : is_i32 (n_timeouts c); k4 : is_i32 (n_stats c); k5 : is_i32 (n_over c) }.

Lemma i32_idem z : i32 (i32 z) = i32 z.
Proof. pose proof (i32_add_l z 0) as X. rewrite !Z.add_0_r in X. exact X. Qed.
Lemma i32_add_r a b : i32 (a + i32 b) = i32 (a + b).
Proof. rewrite Z.add_comm, i32_add_l. f_equal. lia. Qed.

Lemma i32_shift a b c : i32 a = i32 b -> i32 (a + c) = i32 (b + c).
Proof. intros E. rewrite <- (i32_add_l a), <- (i32_add_l b), E. reflexivity. Qed.

Lemma consume_ok cap evs : forall s l newest, cinv cap s l newest -> cnt_ok (c_cnt s) -> legal cap (length l) evs ->
  exists s' is l', consume pre s evs = Ok (s', is) /\ result cap l newest evs s s' is l'.
Proof.
  induction evs as [|e evs IH]; intros s l newest I K L.
  - exists s, [], l. split; [reflexivity|]. destruct I as [H C N], K. unfold is_i32 in *.
    constructor; cbn [arrivals prepared stored select posted timeouts total combine filter map fold_right length refused_count];
      rewrite ?app_nil_r, ?Z.add_0_r; cbn [length app]; rewrite ?Z.add_0_r; auto; try congruence.
  - destruct e as [x b| |n|]; cbn [legal] in L; cbn [consume].
    + destruct L as [B L]. set (l1 := if (length l <? cap)%nat then l ++ [snd (pre (c_pre s) x)] else l).
      assert (B1 : (b <= length l1)%nat). { unfold l1. destruct (length l <? cap)%nat; rewrite ?app_length; cbn [length]; lia. }
      destruct (arrive_ok cap s l newest x b I B1) as (s1 & E1 & I1 & P1 & O1 & R1 & C1). fold l1 in I1, R1.
      rewrite E1. cbn [bind fst snd].
      assert (LL : length (skipn b l1) = level_after cap (length l) b).
      { rewrite skipn_length. unfold level_after, l1. destruct (length l <? cap)%nat; rewrite ?app_length; cbn [length]; lia. }
      assert (K1 : cnt_ok (c_cnt s1)).
      { rewrite C1. destruct K. constructor; unfold is_i32 in *; cbn [n_num n_sum n_timeouts n_stats n_over]; rewrite ?i32_idem; auto.
        destruct (length l <? cap)%nat; rewrite ?i32_idem; auto. }
      destruct (IH s1 (skipn b l1) _ I1 K1) as (s2 & is & l2 & E2 & [F1 F2 F3 F4 F5 F6 F7 F8 F9]); [rewrite LL; exact L|].
      rewrite E2. cbn [bind fst snd]. exists s2, is, l2. split; [reflexivity|]. rewrite LL, P1 in *.
      assert (SZ : r_size (c_ring s1) = r_size (c_ring s)). { pose proof (ci_cap _ _ _ _ I). pose proof (ci_cap _ _ _ _ I1). lia. }
      constructor; cbn [prepared stored posted arrivals timeouts length]; auto.
      * congruence.
      * rewrite F3, R1. rewrite <- (app_assoc (c_removed s) (firstn b l1)), firstn_skipn. unfold select. cbn [combine filter fst map]. unfold l1.
        destruct (length l <? cap)%nat; cbn [filter fst map snd]; [|reflexivity]. rewrite <- !app_assoc. reflexivity.
      * rewrite F4, O1, <- app_assoc. reflexivity.
      * rewrite F5, C1. cbn [n_sum]. rewrite i32_add_l. f_equal. lia.
      * rewrite F6, C1. cbn [n_num]. rewrite i32_add_l. f_equal. lia.
      * rewrite F7, C1. cbn [n_stats]. rewrite i32_add_l. f_equal. lia.
      * rewrite F8, C1. cbn [n_over]. unfold refused_count. cbn [filter]. destruct (length l <? cap)%nat; cbn [negb length]; [reflexivity|].
        rewrite i32_add_l. f_equal. lia.
      * rewrite F9, C1. reflexivity.
    + cbn [consume_step bind fst snd]. set (s1 := mk_cons _ _ _ _ _).
      destruct (IH s1 l newest) as (s2 & is & l2 & E2 & [F1 F2 F3 F4 F5 F6 F7 F8 F9]); auto.
      { destruct I as [H C N]. constructor; auto. }
      { destruct K. constructor; unfold is_i32 in *; cbn; rewrite ?i32_idem; auto. }
      rewrite E2. cbn [bind fst snd]. exists s2, is, l2. split; [reflexivity|]. constructor; cbn [prepared stored posted arrivals timeouts length]; auto.
      rewrite F9. cbn [s1 c_cnt n_timeouts]. rewrite i32_add_l. f_equal. lia.
    + destruct L as [B L]. cbn [consume_step]. destruct (take_front_ok n (c_ring s) l (ci_holds _ _ _ _ I) B) as (r1 & E1 & H1 & S1). rewrite E1. cbn [bind fst snd].
      set (s1 := mk_cons _ _ _ _ _). assert (LL : length (skipn n l) = (length l - n)%nat) by apply skipn_length.
      destruct (IH s1 (skipn n l) newest) as (s2 & is & l2 & E2 & [F1 F2 F3 F4 F5 F6 F7 F8 F9]); auto.
      { constructor; cbn [s1 c_ring]; auto.
        - rewrite S1. exact (ci_cap _ _ _ _ I).
        - intros NE. assert (n < length l)%nat. { assert (length (skipn n l) <> 0%nat) as Hl by (destruct (skipn n l); [congruence|discriminate]). lia. }
          rewrite last_skipn by lia. apply (ci_new _ _ _ _ I). destruct l; [cbn in *; lia|discriminate]. }
      { rewrite LL. exact L. }
      rewrite E2. cbn [bind fst snd]. exists s2, is, l2. split; [reflexivity|]. rewrite LL in *. constructor; cbn [prepared stored posted arrivals timeouts length]; auto.
      * rewrite F2. exact S1.
      * rewrite F3. cbn [s1 c_removed c_pre]. rewrite <- (app_assoc (c_removed s) (firstn n l)), firstn_skipn. reflexivity.
    + cbn [consume_step bind fst snd]. set (s1 := mk_cons _ _ _ _ _).
      destruct (IH s1 l newest) as (s2 & is & l2 & E2 & [F1 F2 F3 F4 F5 F6 F7 F8 F9]); auto.
      { destruct I as [H C N]. constructor; auto. }
      { destruct K. constructor; unfold is_i32 in *; cbn; rewrite ?i32_idem; auto. }
      rewrite E2. cbn [bind fst snd]. eexists s2, _, l2. split; [reflexivity|].
      assert (T : forall f i, total f (i :: is) = f i + total f is) by reflexivity.
      constructor; cbn [prepared stored posted arrivals timeouts length]; auto; rewrite T; cbn [i_num i_stats i_over i_timeouts];
        rewrite (Z.add_comm _ (total _ is)), Z.add_assoc.
      * apply (i32_shift _ _ (n_num (c_cnt s))) in F6. rewrite F6. f_equal. cbn. lia.
      * apply (i32_shift _ _ (n_stats (c_cnt s))) in F7. rewrite F7. f_equal. cbn. lia.
      * apply (i32_shift _ _ (n_over (c_cnt s))) in F8. rewrite F8. f_equal. cbn [s1 c_cnt n_over c_pre]. lia.
      * apply (i32_shift _ _ (n_timeouts (c_cnt s))) in F9. rewrite F9. f_equal. cbn. lia.
Qed.
End Consume.

Section Requests.
Context {R : Type}.

Lemma set_nth_length {X} i (v : X) l : length (set_nth i v l) = length l.
Proof.
  unfold set_nth. rewrite app_length. rewrite <- (firstn_skipn i l) at 3. rewrite app_length. destruct (skipn i l); reflexivity.
Qed.
Lemma nth_set_nth {X} (d v : X) : forall i l j, (i < length l)%nat -> nth j (set_nth i v l) d = if (j =? i)%nat then v else nth j l d.
Proof.
  induction i as [|i IH]; intros [|x l] j H; cbn [length] in H; try lia; unfold set_nth; cbn [firstn skipn app].
  - destruct j; reflexivity.
  - destruct j as [|j]; [reflexivity|]. cbn [nth Nat.eqb]. apply (IH l j). lia.
Qed.
Lemma nth_error_lt {X} i (l : list X) q : nth_error l i = Some q -> (i < length l)%nat.
Proof. intros E. apply nth_error_Some. congruence. Qed.

Lemma of_queue_app i (a b : list (R * nat)) : of_queue i (a ++ b) = of_queue i a ++ of_queue i b.
Proof. unfold of_queue. now rewrite filter_app, map_app. Qed.
Lemma of_queue_one i r j : of_queue i [(r : R, j)] = if (i =? j)%nat then [r] else [].
Proof. unfold of_queue. cbn [filter snd]. destruct (i =? j)%nat; reflexivity. Qed.

(** Conservation. *)
Record rinv (n : nat) (sent : nat -> list R) (s : @reqs R) : Prop := mk_rinv {
  ri_n : length (q_queues s) = n;
  ri_cons : forall i, (i < n)%nat -> sent i = of_queue i (q_issued s) ++ of_queue i (q_discarded s) ++ nth i (q_queues s) [];
  ri_issued : Forall (fun x => (snd x < n)%nat) (q_issued s);
  ri_disc : Forall (fun x => (snd x < n)%nat) (q_discarded s);
  ri_phase : match q_phase s with RTest | RServe _ => q_discarded s = [] | RClear _ | RJoined => q_marker s = false end
}.

Lemma rinv_begin (queues : list (list R)) : rinv (length queues) (fun i => nth i queues []) (requests_begin queues).
Proof. constructor; cbn; auto. Qed.

Lemma rinv_step n sent s a : rinv n sent s ->
  rinv n (fun i => sent i ++ match a with ASend j r => if (i =? j)%nat then [r] else [] | _ => [] end) (raction_step s a).
Proof.
  intros [N C I D PH].
  assert (SAME : rinv n (fun i => sent i ++ []) s). { constructor; auto. intros i H. rewrite app_nil_r. auto. }
  destruct a as [|i r| | | |]; cbn [raction_step].
  - unfold thread_step. destruct (q_phase s) as [|i|i|] eqn:E; [| | |exact SAME].
    + destruct (q_marker s); constructor; cbn [q_queues q_issued q_discarded q_phase q_marker]; auto; intros j H; rewrite app_nil_r; auto.
    + destruct (nth_error (q_queues s) i) as [[|r rest]|] eqn:EN.
      * constructor; cbn [q_queues q_issued q_discarded q_phase q_marker]; auto; intros j H; rewrite app_nil_r; auto.
      * pose proof (nth_error_lt _ _ _ EN) as L. constructor; cbn [q_queues q_issued q_discarded q_phase q_marker]; auto.
        -- now rewrite set_nth_length.
        -- intros j H. rewrite app_nil_r, (C j H), PH, nth_set_nth, of_queue_app, of_queue_one by lia. cbn [app of_queue filter map].
           destruct (Nat.eqb_spec j i) as [->|]; [|now rewrite app_nil_r]. rewrite (nth_error_nth _ _ [] EN), <- app_assoc. reflexivity.
        -- apply Forall_app. split; auto. constructor; auto. cbn. lia.
      * constructor; cbn [q_queues q_issued q_discarded q_phase q_marker]; auto; intros j H; rewrite app_nil_r; auto.
    + destruct (nth_error (q_queues s) i) as [[|r rest]|] eqn:EN.
      * constructor; cbn [q_queues q_issued q_discarded q_phase q_marker]; auto; intros j H; rewrite app_nil_r; auto.
      * pose proof (nth_error_lt _ _ _ EN) as L. constructor; cbn [q_queues q_issued q_discarded q_phase q_marker]; auto.
        -- now rewrite set_nth_length.
        -- intros j H. rewrite app_nil_r, (C j H), nth_set_nth, of_queue_app, of_queue_one by lia.
           destruct (Nat.eqb_spec j i) as [->|]; [|now rewrite app_nil_r]. rewrite (nth_error_nth _ _ [] EN), <- !app_assoc. reflexivity.
        -- apply Forall_app. split; auto. constructor; auto. cbn. lia.
      * constructor; cbn [q_queues q_issued q_discarded q_phase q_marker]; auto; intros j H; rewrite app_nil_r; auto.
  - destruct (nth_error (q_queues s) i) as [q|] eqn:EN.
    + pose proof (nth_error_lt _ _ _ EN) as L. constructor; cbn [q_queues q_issued q_discarded q_phase q_marker]; auto.
      * now rewrite set_nth_length.
      * intros j H. rewrite (C j H), nth_set_nth by lia. destruct (Nat.eqb_spec j i) as [->|]; [|now rewrite app_nil_r].
        rewrite (nth_error_nth _ _ [] EN), <- !app_assoc. reflexivity.
    + apply nth_error_None in EN. constructor; auto. intros j H. destruct (Nat.eqb_spec j i) as [->|]; [lia|]. rewrite app_nil_r. auto.
  - constructor; cbn [q_queues q_issued q_discarded q_phase q_marker]; auto; [intros j H; rewrite app_nil_r; auto|]. destruct (q_phase s); auto.
  - destruct SAME. constructor; auto.
  - destruct SAME. constructor; auto.
  - destruct SAME. constructor; auto.
Qed.

Lemma rinv_ext n f g s : (forall i, f i = g i) -> rinv n f s -> rinv n g s.
Proof. intros E [N C I D P]. constructor; auto. intros i H. rewrite <- E. auto. Qed.

Lemma rinv_run n acts : forall sent s, rinv n sent s -> rinv n (fun i => sent i ++ sends i acts) (rrun s acts).
Proof.
  induction acts as [|a acts IH]; intros sent s I; cbn [rrun fold_left].
  - apply (rinv_ext n sent); auto. intros i. cbn. now rewrite app_nil_r.
  - apply (rinv_ext n (fun i => (sent i ++ match a with ASend j r => if (i =? j)%nat then [r] else [] | _ => [] end) ++ sends i acts)).
    + intros i. rewrite <- app_assoc. reflexivity.
    + apply IH, rinv_step, I.
Qed.

Lemma marker_run acts : forall s : @reqs R, existsb is_stop acts = false -> q_marker (rrun s acts) = q_marker s.
Proof.
  induction acts as [|a acts IH]; intros s E; cbn [rrun fold_left]; [reflexivity|]. cbn in E. apply orb_false_iff in E as [E1 E2].
  change (fold_left raction_step acts (raction_step s a)) with (rrun (raction_step s a) acts). rewrite IH by auto.
  destruct a; cbn in *; try discriminate; auto.
  - unfold thread_step. destruct (q_phase s); auto; [destruct (q_marker s); auto|destruct (nth_error _ _) as [[|]|]; auto|destruct (nth_error _ _) as [[|]|]; auto].
  - destruct (nth_error _ _); auto.
Qed.

(** Clearing. *)
Definition cleared (s : @reqs R) : Prop :=
  match q_phase s with
  | RTest | RServe _ => True
  | RClear i => (i <= length (q_queues s))%nat /\ forall j, (j < i)%nat -> nth j (q_queues s) [] = []
  | RJoined => forall j, nth j (q_queues s) [] = []
  end.

Lemma cleared_step s a : is_send a = false -> cleared s -> cleared (raction_step s a).
Proof.
  intros NS C. destruct a; try discriminate; unfold cleared in *; cbn [raction_step q_phase q_queues]; auto.
  unfold thread_step. destruct (q_phase s) as [|i|i|] eqn:E.
  - destruct (q_marker s); cbn [q_phase q_queues]; auto. split; [lia|intros; lia].
  - destruct (nth_error _ _) as [[|]|]; cbn [q_phase]; auto.
  - destruct C as [L C]. destruct (nth_error (q_queues s) i) as [[|r rest]|] eqn:EN; cbn [q_phase q_queues].
    + pose proof (nth_error_lt _ _ _ EN). split; [lia|]. intros j H1. destruct (Nat.eq_dec j i) as [->|]; [apply nth_error_nth, EN|apply C; lia].
    + pose proof (nth_error_lt _ _ _ EN). rewrite set_nth_length. split; [lia|]. intros j H1. rewrite nth_set_nth by lia.
      destruct (Nat.eqb_spec j i); [lia|auto].
    + apply nth_error_None in EN. intros j. destruct (Nat.lt_ge_cases j i); [auto|]. apply nth_overflow. lia.
  - rewrite E. exact C.
Qed.
Lemma cleared_run acts : forall s, existsb is_send acts = false -> cleared s -> cleared (rrun s acts).
Proof.
  induction acts as [|a acts IH]; intros s E C; cbn [rrun fold_left]; [exact C|]. cbn in E. apply orb_false_iff in E as [E1 E2].
  apply IH; auto. apply cleared_step; auto.
Qed.

(** The thread ends. *)
Definition queued (l : list (list R)) : nat := fold_right plus 0%nat (map (@length R) l).
Lemma queued_set_nth i r rest : forall l : list (list R), nth_error l i = Some (r :: rest) -> S (queued (set_nth i rest l)) = queued l.
Proof.
  induction i as [|i IH]; intros [|q l] E; try discriminate.
  - cbn in E. injection E as ->. reflexivity.
  - cbn [nth_error] in E. unfold set_nth. cbn [firstn skipn app]. change (queued (q :: ?x)) with (length q + queued x)%nat. rewrite <- (IH l E). unfold set_nth. lia.
Qed.
Lemma clear_ends k : forall s i, q_phase s = RClear i -> (i <= length (q_queues s))%nat -> k = (queued (q_queues s) + (length (q_queues s) - i))%nat ->
  q_phase (rrun s (repeat AThread (S k))) = RJoined.
Proof.
  induction k as [|k IH]; intros s i PH L E; cbn [repeat]; change (rrun s (AThread :: ?x)) with (rrun (thread_step s) x).
  - unfold thread_step. rewrite PH. destruct (nth_error (q_queues s) i) eqn:EN; [apply nth_error_lt in EN; lia|]. reflexivity.
  - unfold thread_step. rewrite PH. destruct (nth_error (q_queues s) i) as [[|r rest]|] eqn:EN.
    + pose proof (nth_error_lt _ _ _ EN). apply (IH _ (S i)); cbn [q_queues q_phase]; auto; lia.
    + pose proof (nth_error_lt _ _ _ EN). pose proof (queued_set_nth _ _ _ _ EN). apply (IH _ i); cbn [q_queues q_phase]; rewrite ?set_nth_length; auto; lia.
    + generalize (S k). intros m. assert (J : forall m s, q_phase s = RJoined -> q_phase (rrun s (repeat (@AThread R) m)) = RJoined).
      { clear. induction m; intros s PH; cbn [repeat]; auto. change (rrun s (AThread :: ?x)) with (rrun (thread_step s) x). apply IHm. unfold thread_step. now rewrite PH. }
      apply J. reflexivity.
Qed.

(** Counters. *)
Lemma counters_run acts : forall s : @reqs R, existsb is_timesync_start acts = false -> i32 (q_sum s) = q_sum s ->
  q_sum (rrun s acts) = i32 (q_sum s + Z.of_nat (length (q_issued (rrun s acts)) - length (q_issued s)) + Z.of_nat (length (filter is_fake acts)))
  /\ (length (q_issued s) <= length (q_issued (rrun s acts)))%nat /\ i32 (q_sum (rrun s acts)) = q_sum (rrun s acts).
Proof.
  induction acts as [|a acts IH]; intros s E K; cbn [rrun fold_left].
  - cbn [filter length]. rewrite Nat.sub_diag. cbn. rewrite !Z.add_0_r. auto.
  - cbn in E. apply orb_false_iff in E as [E1 E2]. change (fold_left raction_step acts (raction_step s a)) with (rrun (raction_step s a) acts).
    assert (ST : exists d, q_sum (raction_step s a) = i32 (q_sum s + Z.of_nat d + Z.of_nat (if is_fake a then 1%nat else 0%nat)) /\ length (q_issued (raction_step s a)) = (length (q_issued s) + d)%nat).
    { assert (S0 : forall x : @reqs R, q_sum x = q_sum s -> length (q_issued x) = length (q_issued s) ->
        exists d, q_sum x = i32 (q_sum s + Z.of_nat d + Z.of_nat 0) /\ length (q_issued x) = (length (q_issued s) + d)%nat).
      { intros x Hx Hl. exists 0%nat. cbn [Z.of_nat]. rewrite !Z.add_0_r, Hx, Hl. split; [congruence|lia]. }
      destruct a; cbn [is_fake]; try discriminate; cbn [raction_step]; try (apply S0; reflexivity).
      - unfold thread_step. destruct (q_phase s); try (apply S0; reflexivity).
        + destruct (q_marker s); apply S0; reflexivity.
        + destruct (nth_error _ _) as [[|r rest]|]; try (apply S0; reflexivity). exists 1%nat. cbn [q_sum q_issued]. rewrite app_length. cbn [length]. split; [f_equal; lia|lia].
        + destruct (nth_error _ _) as [[|r rest]|]; apply S0; reflexivity.
      - destruct (nth_error _ _); apply S0; reflexivity.
      - exists 0%nat. cbn [q_sum q_issued]. split; [f_equal; lia|lia]. }
    destruct ST as (d & S1 & S2). destruct (IH (raction_step s a) E2) as (J1 & J2 & J3).
    { rewrite S1. apply i32_idem. }
    split; [|split; [lia|exact J3]]. rewrite J1, S1. rewrite <- !Z.add_assoc, i32_add_l. f_equal. rewrite S2 in *. cbn [filter]. destruct (is_fake a); cbn [length]; lia.
Qed.
End Requests.

(** setup *)
Lemma setup_ok rq rs n : (forall j, (j < n)%nat -> rq j = true /\ rs j = true) -> rq n = false -> forall fuel i, (i <= n)%nat -> (n - i < fuel)%nat -> setup fuel rq rs i = Some n.
Proof.
  intros H E. induction fuel as [|fuel IH]; intros i L F; [lia|]. cbn. destruct (Nat.eq_dec i n) as [->|]; [now rewrite E|].
  destruct (H i) as [-> ->]; [lia|]. apply IH; lia.
Qed.
Lemma setup_err rq rs n : (forall j, (j < n)%nat -> rq j = true /\ rs j = true) -> rq n = true -> rs n = false -> forall fuel i, (i <= n)%nat -> (n - i < fuel)%nat -> setup fuel rq rs i = None.
Proof.
  intros H E E'. induction fuel as [|fuel IH]; intros i L F; [lia|]. cbn. destruct (Nat.eq_dec i n) as [->|]; [now rewrite E, E'|].
  destruct (H i) as [-> ->]; [lia|]. apply IH; lia.
Qed.

(** time sync *)
Lemma timesync_len fake n rn sq daqs : forall id, length (fst (timesync fake n rn sq daqs id)) = length daqs.
Proof. induction daqs; intros id; cbn; auto. Qed.

(** empty handler *)
Lemma empty_run_app dnf lk rqs : forall q, empty_run dnf lk q rqs = q ++ map (fun r => empty_handler_fragment dnf lk (fst r)) (filter snd rqs).
Proof.
  induction rqs as [|r rqs IH]; intros q; cbn [empty_run fold_left filter map]; [now rewrite app_nil_r|].
  change (fold_left (empty_issue dnf lk) rqs ?x) with (empty_run dnf lk x rqs). rewrite IH. unfold empty_issue.
  destruct (snd r); [rewrite <- app_assoc|]; reflexivity.
Qed.
