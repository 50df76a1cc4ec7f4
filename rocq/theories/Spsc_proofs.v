From Coq Require Import ZArith List Bool Lia ZifyBool.
From Verif Require Import Base_model Ring_model Ring_spec Ring_proofs Spsc_model Spsc_spec.
Import ListNotations.
Open Scope Z_scope.

Section Proofs.
Context {A : Type}.

(** Slot contents given abstract contents, producer and consumer positions. *)
Definition slot_of (l : list A) (p : ppc A) (c : cpc A) (k : Z) : option A :=
  match c with
  | CAdvance _ _ _ => if k =? 0 then None
                      else match p with
                           | PPublish x _ => if k =? Z.of_nat (length l) then Some x else nth_error l (Z.to_nat k)
                           | _ => nth_error l (Z.to_nat k)
                           end
  | _ => match p with
         | PPublish x _ => if k =? Z.of_nat (length l) then Some x else nth_error l (Z.to_nat k)
         | _ => nth_error l (Z.to_nat k)
         end
  end.

(** Positions R (removals) and W (publications). *)
Record Inv (n : Z) (l : list A) (s : spsc A) : Prop := {
  i_n : 2 <= n <= 2147483648;
  i_size : r_size (s_ring s) = n;
  i_rd : 0 <= r_read (s_ring s) < n;
  i_len : Z.of_nat (length l) < n;
  i_wr : r_write (s_ring s) = (r_read (s_ring s) + Z.of_nat (length l)) mod n;
  i_R : (1 <= length (s_rmo s))%nat;
  i_W : (length (s_wmo s) = length (s_rmo s) + length l)%nat;
  i_rmo : forall j, (j < length (s_rmo s))%nat -> nth j (s_rmo s) 0 = Z.of_nat j mod n;
  i_wmo : forall j, (j < length (s_wmo s))%nat -> nth j (s_wmo s) 0 = Z.of_nat j mod n;
  i_rlast : r_read (s_ring s) = Z.of_nat (length (s_rmo s) - 1) mod n;
  i_seen_r : (s_seen_r s < length (s_rmo s))%nat;
  i_seen_w : (length (s_rmo s) - 1 <= s_seen_w s < length (s_wmo s))%nat;
  i_gap : Z.of_nat (length (s_wmo s)) - 1 - Z.of_nat (s_seen_r s) <= n - 1;
  i_p : match s_p s with
        | PIdle => True
        | PLoadRead x w nx => w = r_write (s_ring s) /\ nx = next_index n w
        | PConstruct x w nx => w = r_write (s_ring s) /\ nx = next_index n w /\
                               Z.of_nat (length (s_wmo s)) - 1 - Z.of_nat (s_seen_r s) < n - 1
        | PPublish x nx => nx = next_index n (r_write (s_ring s)) /\
                           Z.of_nat (length (s_wmo s)) - 1 - Z.of_nat (s_seen_r s) < n - 1
        end;
  i_c : match s_c s with
        | CIdle => True
        | CLoadWrite k i => i = r_read (s_ring s)
        | CAccess k i => i = r_read (s_ring s) /\ (length (s_rmo s) - 1 < s_seen_w s)%nat
        | CDestroy k i x | CAdvance k i x =>
          i = r_read (s_ring s) /\ (length (s_rmo s) - 1 < s_seen_w s)%nat /\ hd_error l = Some x /\ k <> KFront
        end;
  i_slots : forall k, 0 <= k < n ->
            r_slots (s_ring s) ((r_read (s_ring s) + k) mod n) = slot_of l (s_p s) (s_c s) k;
  i_bad : s_bad s = false;
  i_log : answered_all (n - 1) [] (s_log s) l
}.

Lemma i_len_lt : forall n l s, Inv n l s ->
  match s_p s with PConstruct _ _ _ | PPublish _ _ => Z.of_nat (length l) < n - 1 | _ => True end.
Proof.
  intros n l s H. destruct H. destruct (s_p s); try exact I; lia.
Qed.

Lemma next_mod : forall n i, 2 <= n <= 2147483648 -> 0 <= i -> next_index n (i mod n) = (i + 1) mod n.
Proof.
  intros n i Hn Hi. pose proof (Z.mod_pos_bound i n ltac:(lia)) as B.
  rewrite next_index_spec by lia.
  rewrite <- (Zplus_mod_idemp_l i 1 n). rewrite wrap_add by lia.
  destruct (i mod n + 1 =? n) eqn:E1; destruct (i mod n + 1 <? n) eqn:E2; lia.
Qed.

Lemma mod_eq_close : forall n a b, 0 < n -> 0 <= b - a < n -> (a mod n = b mod n <-> a = b).
Proof.
  intros n a b Hn Hd. split; [|intros ->; reflexivity]. intros E.
  assert ((b - a) mod n = 0) as Hz.
  { rewrite Zminus_mod, E, Z.sub_diag. apply Z.mod_0_l. lia. }
  rewrite Z.mod_small in Hz by lia. lia.
Qed.

Lemma pick_range : forall seen j (mo : list Z), (seen < length mo)%nat ->
  (seen <= pick seen j mo < length mo)%nat.
Proof. intros. unfold pick. lia. Qed.

Lemma pick_latest : forall seen j (mo : list Z), (seen < length mo)%nat -> (length mo <= j)%nat ->
  pick seen j mo = (length mo - 1)%nat.
Proof. intros. unfold pick. lia. Qed.

Lemma w_mod : forall n l s, Inv n l s ->
  r_write (s_ring s) = Z.of_nat (length (s_wmo s) - 1) mod n.
Proof.
  intros n l s H. destruct H. rewrite i_wr0, i_rlast0.
  rewrite Zplus_mod_idemp_l. f_equal. lia.
Qed.

Lemma idx_eq : forall n rd k1 k2, 0 <= rd < n -> 0 <= k1 < n -> 0 <= k2 < n ->
  ((rd + k1) mod n = (rd + k2) mod n <-> k1 = k2).
Proof.
  intros n rd k1 k2 Hr H1 H2. split; [|intros ->; reflexivity].
  rewrite !wrap_add by lia.
  destruct (rd + k1 <? n) eqn:E1; destruct (rd + k2 <? n) eqn:E2; lia.
Qed.

Ltac rc := cbn [s_ring s_rmo s_wmo s_seen_r s_seen_w s_p s_c s_log s_bad s_assert
                set_p set_c see_r see_w store_r store_w set_bad set_assert
                set_slots set_read set_write set_overflow r_size r_slots r_read r_write r_overflow] in *.

Lemma snoc_log : forall cap (lg : list (op A * out A)) l e l', answered_all cap [] lg l -> answered cap l e l' ->
  answered_all cap [] (lg ++ [e]) l'.
Proof. intros. eapply AA_snoc; eassumption. Qed.

Lemma occ_visible : forall n l s p, Inv n l s -> (length (s_rmo s) - 1 <= p < length (s_wmo s))%nat ->
  occupancy (set_write (s_ring s) (nth p (s_wmo s) 0)) = Z.of_nat (p - (length (s_rmo s) - 1)).
Proof.
  intros n l s p H Hp.
  assert (holds (mk_ring n (fun i => if existsb (Z.eqb i) (map (fun k => (r_read (s_ring s) + Z.of_nat k) mod n)
              (seq 0 (p - (length (s_rmo s) - 1)))) then Some 0 else None)
     (r_read (s_ring s)) (nth p (s_wmo s) 0) 0) (repeat 0 (p - (length (s_rmo s) - 1)))) as Hh.
  { destruct H. split; rc; rewrite ?repeat_length; try lia.
    - rewrite (i_wmo0 p) by lia. rewrite i_rlast0. rewrite Zplus_mod_idemp_l. f_equal. lia.
    - intros k Hk. set (m := (p - (length (s_rmo s) - 1))%nat) in *.
      destruct (existsb _ _) eqn:E.
      + apply existsb_exists in E. destruct E as (i & Hi & Ei). apply in_map_iff in Hi.
        destruct Hi as (k' & <- & Hk'). apply in_seq in Hk'. apply Z.eqb_eq in Ei.
        apply idx_eq in Ei; try lia. subst k. rewrite Nat2Z.id.
        symmetry. rewrite nth_error_repeat by lia. reflexivity.
      + symmetry. apply nth_error_None. rewrite repeat_length.
        destruct (Nat.le_gt_cases m (Z.to_nat k)) as [L|L]; [exact L|exfalso].
        assert (existsb (Z.eqb ((r_read (s_ring s) + k) mod n))
          (map (fun k : nat => (r_read (s_ring s) + Z.of_nat k) mod n) (seq 0 m)) = true) as X; [|congruence].
        apply existsb_exists. exists ((r_read (s_ring s) + k) mod n). split; [|apply Z.eqb_refl].
        apply in_map_iff. exists (Z.to_nat k). split; [rewrite Z2Nat.id by lia; reflexivity|].
        apply in_seq. lia. }
  pose proof (occupancy_ok _ _ Hh) as X. rewrite repeat_length in X. rewrite <- X.
  unfold occupancy, set_write. cbn [r_size r_read r_write]. rewrite (i_size _ _ _ H). reflexivity.
Qed.

Ltac tslots := match goal with
  | Hs : forall k : Z, 0 <= k < ?n -> r_slots _ _ = _ |- forall k : Z, 0 <= k < ?n -> _ =>
    let k := fresh in let Hk := fresh in intros k Hk; rewrite (Hs k Hk); reflexivity end.

Lemma producer_inv : forall n l s j, Inv n l s ->
  exists l', Inv n l' (producer_step j s).
Proof.
  intros n l s j H. pose proof (w_mod _ _ _ H) as Hwm. pose proof (i_len_lt _ _ _ H) as Hll.
  pose proof H as H0. destruct H. unfold producer_step.
  destruct (s_p s) as [|x w nx|x w nx|x nx] eqn:Ep.
  - exists l. assumption.
  - destruct i_p0 as [-> ->].
    pose proof (pick_range (s_seen_r s) j (s_rmo s) i_seen_r0) as Hpk.
    set (p := pick (s_seen_r s) j (s_rmo s)) in *. cbv zeta. rc.
    rewrite (i_rmo0 p) by lia.
    rewrite Hwm. rewrite next_mod by lia.
    exists l.
    destruct ((Z.of_nat (length (s_wmo s) - 1) + 1) mod n =? Z.of_nat p mod n) eqn:E; cbn [negb];
      (split; rc; try assumption; try exact I; try lia; try (tslots)).
    + eapply snoc_log; [eassumption|constructor].
    + split; [congruence|]. split; [rewrite next_mod by lia; reflexivity|].
      assert (Z.of_nat p mod n <> (Z.of_nat (length (s_wmo s) - 1) + 1) mod n) as Hne by lia.
      assert (Z.of_nat (length (s_wmo s)) - 1 - Z.of_nat p <> n - 1); [|lia].
      intros Hc. apply Hne.
      replace (Z.of_nat (length (s_wmo s) - 1) + 1) with (Z.of_nat p + 1 * n) by lia.
      rewrite Z.mod_add by lia. reflexivity.
  - destruct i_p0 as (-> & -> & Hg).
    assert (r_slots (s_ring s) (r_write (s_ring s)) = None) as Hnone.
    { rewrite i_wr0. rewrite i_slots0 by lia. unfold slot_of.
      assert (nth_error l (Z.to_nat (Z.of_nat (length l))) = None) as Hn by (apply nth_error_None; lia).
      destruct (s_c s); try exact Hn. destruct (Z.of_nat (length l) =? 0); [reflexivity|exact Hn]. }
    rewrite Hnone. exists l. split; rc; try assumption; try exact I; try lia; try (tslots).
    + intros k Hk. unfold upd.
      destruct ((r_read (s_ring s) + k) mod n =? r_write (s_ring s)) eqn:E.
      * assert (k = Z.of_nat (length l)) as ->.
        { apply Z.eqb_eq in E. rewrite i_wr0 in E. apply idx_eq in E; lia. }
        unfold slot_of. rewrite Z.eqb_refl. destruct (s_c s); try reflexivity.
        destruct i_c0 as (_ & _ & Hh & _). destruct l; [discriminate|]. cbn [length].
        destruct (Z.of_nat (S (length l)) =? 0) eqn:E2; [lia|reflexivity].
      * rewrite i_slots0 by lia. unfold slot_of.
        assert (k <> Z.of_nat (length l)) as Hne.
        { intros ->. rewrite i_wr0 in E. lia. }
        destruct (k =? Z.of_nat (length l)) eqn:E2; [lia|reflexivity].
  - destruct i_p0 as [-> Hg]. exists (l ++ [x]). cbv zeta.
    split; rc; rewrite ?app_length; cbn [length]; try assumption; try exact I; try lia; try (tslots).
    + rewrite Hwm. rewrite next_mod by lia. rewrite i_rlast0, Zplus_mod_idemp_l. f_equal. lia.
    + intros j0 Hj. destruct (Nat.eq_dec j0 (length (s_wmo s))) as [->|Hne].
      * rewrite app_nth2 by lia. rewrite Nat.sub_diag. cbn [nth]. rewrite Hwm, next_mod by lia.
        f_equal. lia.
      * rewrite app_nth1 by lia. apply i_wmo0. lia.
    + destruct (s_c s); try assumption.
      * destruct i_c0 as (? & ? & Hh & ?). repeat split; try assumption. destruct l; [discriminate|exact Hh].
      * destruct i_c0 as (? & ? & Hh & ?). repeat split; try assumption. destruct l; [discriminate|exact Hh].
    + intros k Hk. rewrite (i_slots0 k Hk). unfold slot_of.
      assert ((if k =? Z.of_nat (length l) then Some x else nth_error l (Z.to_nat k)) = nth_error (l ++ [x]) (Z.to_nat k)) as X.
      { destruct (k =? Z.of_nat (length l)) eqn:E.
        - rewrite nth_error_app2 by lia. replace (Z.to_nat k - length l)%nat with O by lia. reflexivity.
        - destruct (Z.to_nat k <? length l)%nat eqn:E2.
          + rewrite nth_error_app1 by lia. reflexivity.
          + transitivity (@None A); [apply nth_error_None; lia|symmetry; apply nth_error_None].
            rewrite app_length. cbn [length]. lia. }
      destruct (s_c s); try exact X. destruct (k =? 0); [reflexivity|exact X].
    + eapply snoc_log; [eassumption|]. constructor. lia.
Qed.

Lemma consumer_inv : forall n l s j, Inv n l s ->
  exists l', Inv n l' (consumer_step j s).
Proof.
  intros n l s j H. pose proof (w_mod _ _ _ H) as Hwm. pose proof (i_len_lt _ _ _ H) as Hll.
  pose proof H as H0. destruct H. unfold consumer_step.
  destruct (s_c s) as [|k i|k i|k i x|k i x] eqn:Ec.
  - exists l. assumption.
  - subst i. destruct i_seen_w0 as [Hsw1 Hsw2].
    pose proof (pick_range (s_seen_w s) j (s_wmo s) Hsw2) as Hpk.
    set (p := pick (s_seen_w s) j (s_wmo s)) in *. cbv zeta. rc.
    rewrite (i_wmo0 p) by lia. rewrite i_rlast0.
    exists l.
    destruct (Z.of_nat (length (s_rmo s) - 1) mod n =? Z.of_nat p mod n) eqn:E.
    + destruct k; cbn [empty_log]; (split; rc; try assumption; try exact I; try lia; try (tslots)).
      * eapply snoc_log; [eassumption|constructor].
      * rewrite Ec. congruence.
      * intros k Hk. rewrite Ec. rewrite (i_slots0 k Hk). reflexivity.
      * eapply snoc_log; [eassumption|constructor].
    + split; rc; try assumption; try exact I; try lia; try (tslots).
      * split; [congruence|].
        assert (p <> length (s_rmo s) - 1)%nat; [|lia]. intros ->. lia.
  - destruct i_c0 as [-> Hgt].
    assert (0 < length l)%nat as Hpos by lia.
    destruct l as [|x l]; [cbn in Hpos; lia|].
    assert (r_slots (s_ring s) (r_read (s_ring s)) = Some x) as Hx.
    { specialize (i_slots0 0 ltac:(lia)). rewrite Z.add_0_r, Z.mod_small in i_slots0 by lia.
      rewrite i_slots0. unfold slot_of. destruct (s_p s); try reflexivity. }
    cbv zeta. rewrite Hx. exists (x :: l).
    destruct k; (split; rc; try assumption; try exact I; try lia; try (tslots)).
    + repeat split; try assumption; discriminate.
    + repeat split; try assumption; discriminate.
    + eapply snoc_log; [eassumption|constructor].
  - destruct i_c0 as (-> & Hgt & Hh & Hk).
    destruct l as [|y l]; [discriminate|]. injection Hh as ->.
    assert (r_slots (s_ring s) (r_read (s_ring s)) = Some x) as Hx.
    { specialize (i_slots0 0 ltac:(lia)). rewrite Z.add_0_r, Z.mod_small in i_slots0 by lia.
      rewrite i_slots0. unfold slot_of. destruct (s_p s); try reflexivity. }
    cbv zeta. rewrite Hx. exists (x :: l).
    split; rc; try assumption; try exact I; try lia; try (tslots).
    + repeat split; assumption.
    + intros k0 Hk0. unfold upd.
      destruct ((r_read (s_ring s) + k0) mod n =? r_read (s_ring s)) eqn:E.
      * assert (k0 = 0) as ->.
        { apply Z.eqb_eq in E. rewrite wrap_add in E by lia.
          destruct (r_read (s_ring s) + k0 <? n) eqn:E1; lia. }
        reflexivity.
      * rewrite i_slots0 by lia. unfold slot_of.
        assert (k0 <> 0) as Hne.
        { intros ->. rewrite Z.add_0_r, Z.mod_small in E by lia. lia. }
        destruct (k0 =? 0) eqn:E2; [lia|reflexivity].
  - destruct i_c0 as (-> & Hgt & Hh & Hk).
    destruct l as [|y l]; [discriminate|]. injection Hh as ->. cbn [length] in *.
    exists l. cbv zeta. rewrite i_size0.
    assert (next_index n (r_read (s_ring s)) = Z.of_nat (length (s_rmo s)) mod n) as Hnx.
    { rewrite i_rlast0. rewrite next_mod by lia. f_equal. lia. }
    pose proof (Z.mod_pos_bound (Z.of_nat (length (s_rmo s))) n ltac:(lia)) as Hb.
    split; rc; rewrite ?app_length; cbn [length]; try assumption; try exact I; try lia; try (tslots).
    + rewrite Hnx. rewrite Hwm. rewrite Zplus_mod_idemp_l. f_equal. lia.
    + intros j0 Hj. destruct (Nat.eq_dec j0 (length (s_rmo s))) as [->|Hne].
      * rewrite app_nth2 by lia. rewrite Nat.sub_diag. cbn [nth]. exact Hnx.
      * rewrite app_nth1 by lia. apply i_rmo0. lia.
    + rewrite Hnx. f_equal. lia.
    + intros k0 Hk0. rewrite next_index_spec by lia.
      set (rd := r_read (s_ring s)) in *.
      assert (((if rd + 1 =? n then 0 else rd + 1) + k0) mod n
              = (rd + (if k0 =? n - 1 then 0 else k0 + 1)) mod n) as Heq.
      { destruct (k0 =? n - 1) eqn:E1; destruct (rd + 1 =? n) eqn:E.
        - rewrite !wrap_add by lia.
          destruct (0 + k0 <? n) eqn:E2; destruct (rd + 0 <? n) eqn:E3; lia.
        - rewrite !wrap_add by lia.
          destruct (rd + 1 + k0 <? n) eqn:E2; destruct (rd + 0 <? n) eqn:E3; lia.
        - rewrite !wrap_add by lia.
          destruct (0 + k0 <? n) eqn:E2; destruct (rd + (k0 + 1) <? n) eqn:E3; lia.
        - rewrite !wrap_add by lia.
          destruct (rd + 1 + k0 <? n) eqn:E2; destruct (rd + (k0 + 1) <? n) eqn:E3; lia. }
      rewrite Heq. clear Heq.
      destruct (k0 =? n - 1) eqn:E1.
      * rewrite i_slots0 by lia. unfold slot_of at 1. rewrite Z.eqb_refl. unfold slot_of.
        assert (nth_error l (Z.to_nat k0) = None) as Hn by (apply nth_error_None; lia).
        destruct (s_p s); try (symmetry; exact Hn).
        destruct (k0 =? Z.of_nat (length l)) eqn:E2; [lia|]. symmetry; exact Hn.
      * rewrite i_slots0 by lia. unfold slot_of at 1. unfold slot_of.
        destruct (k0 + 1 =? 0) eqn:E2; [lia|]. cbn [length].
        replace (Z.to_nat (k0 + 1)) with (S (Z.to_nat k0)) by lia. cbn [nth_error].
        destruct (s_p s); try reflexivity.
        replace (k0 + 1 =? Z.of_nat (S (length l))) with (k0 =? Z.of_nat (length l)) by lia. reflexivity.
    + eapply snoc_log; [eassumption|].
      destruct k; [constructor|constructor|congruence].
Qed.

Lemma sched_inv : forall n l s e, Inv n l s -> exists l', Inv n l' (sched_step s e).
Proof.
  intros n l s e H. destruct e as [j|j|x|k|j]; cbn [sched_step].
  - apply (producer_inv n l); assumption.
  - apply (consumer_inv n l); assumption.
  - exists l. destruct (s_p s) eqn:Ep; try assumption.
    destruct H. split; rc; try assumption.
    + rewrite i_size0. split; reflexivity.
    + intros k Hk. rewrite i_slots0 by assumption. unfold slot_of. rewrite Ep. reflexivity.
  - exists l. destruct (s_c s) eqn:Ec; try assumption.
    destruct H. split; rc; try assumption.
    + reflexivity.
    + intros k0 Hk. rewrite i_slots0 by assumption. unfold slot_of. rewrite Ec. reflexivity.
  - exists l. destruct (s_c s) eqn:Ec; try assumption.
    pose proof H as H0. destruct H. cbv zeta.
    pose proof (pick_range (s_seen_w s) j (s_wmo s) ltac:(lia)) as Hpk.
    set (p := pick (s_seen_w s) j (s_wmo s)) in *. rc.
    rewrite (occ_visible n l s p H0) by lia.
    split; rc; try assumption; try exact I; try lia; try (tslots).
    + intros k0 Hk. rewrite i_slots0 by assumption. unfold slot_of. rewrite Ec. reflexivity.
    + eapply snoc_log; [eassumption|]. constructor. lia.
Qed.

Lemma init_inv : forall n r, supported_size n -> ring_new n = Ok r -> Inv n [] (@spsc_init A r).
Proof.
  intros n r Hn E. unfold supported_size in Hn. unfold ring_new in E.
  destruct (n <? 2) eqn:E2; [lia|]. injection E as <-.
  rewrite u32_small by (unfold two32; lia).
  split; unfold spsc_init; rc; cbn [length]; try lia; try exact I; try constructor; try lia.
  - intros j Hj. replace j with O by lia. cbn [nth]. symmetry. apply Z.mod_0_l. lia.
  - intros j Hj. replace j with O by lia. cbn [nth]. symmetry. apply Z.mod_0_l. lia.
  - intros k Hk. cbn [slot_of]. destruct (Z.to_nat k); reflexivity.
Qed.

Lemma execute_inv : forall es n l s, Inv n l s -> exists l', Inv n l' (execute s es).
Proof.
  induction es as [|e es IH]; intros n l s H.
  - exists l. exact H.
  - destruct (sched_inv n l s e H) as [l' H']. exact (IH n l' _ H').
Qed.

(** Under latest-value loads the answers are those of the ideal queue. *)
Definition exact_log (n : Z) (s : spsc A) (l : list A) : Prop :=
  q_run (q_new n) (map fst (s_log s)) = (map (fun e => Ok (snd e)) (s_log s), Ok (mk_queue n l)).

Lemma q_run_snoc : forall ops (q : queue A) ys q' o q2 y,
  q_run q ops = (ys, Ok q') -> q_step q' o = Ok (q2, y) ->
  q_run q (ops ++ [o]) = (ys ++ [Ok y], Ok q2).
Proof.
  induction ops as [|o' ops IH]; intros q ys q' o q2 y E Es.
  - cbn in E. injection E as <- <-. cbn [app q_run]. rewrite Es. reflexivity.
  - cbn [app q_run] in *. destruct (q_step q o') as [[q1 y1]|]; [|discriminate].
    destruct (q_run q1 ops) as [ys1 qf] eqn:E1. injection E as <- ->.
    rewrite (IH q1 ys1 q' o q2 y E1 Es). reflexivity.
Qed.

Lemma exact_snoc : forall n (lg : list (op A * out A)) l o y l',
  q_run (q_new n) (map fst lg) = (map (fun e => Ok (snd e)) lg, Ok (mk_queue n l)) ->
  q_step (mk_queue n l) o = Ok (mk_queue n l', y) ->
  q_run (q_new n) (map fst (lg ++ [(o, y)])) = (map (fun e => Ok (snd e)) (lg ++ [(o, y)]), Ok (mk_queue n l')).
Proof.
  intros n lg l o y l' H Hs. rewrite !map_app. cbn [map fst snd].
  eapply q_run_snoc; eassumption.
Qed.

(** The abstract contents after a step, made explicit. *)
Definition next_contents (s : spsc A) (e : sched A) (l : list A) : list A :=
  match e with
  | GoProducer _ => match s_p s with PPublish x _ => l ++ [x] | _ => l end
  | GoConsumer _ => match s_c s with CAdvance _ _ _ => tl l | _ => l end
  | _ => l
  end.

Lemma len_of_log : forall n l l' s, Inv n l s -> Inv n l' s -> length l = length l'.
Proof. intros n l l' s H H'. destruct H, H'. lia. Qed.

Lemma answered_fun : forall cap l (e : op A * out A) l1 l2, answered cap l e l1 -> answered cap l e l2 -> l1 = l2.
Proof. intros cap l e l1 l2 H1 H2. inversion H1; subst; inversion H2; subst; congruence. Qed.

Lemma answered_all_snoc_inv : forall cap l (lg : list (op A * out A)) e l2,
  answered_all cap l (lg ++ [e]) l2 -> exists l1, answered_all cap l lg l1 /\ answered cap l1 e l2.
Proof.
  intros cap l lg e l2 H. remember (lg ++ [e]) as lg' eqn:E. destruct H as [l|l lg1 e1 l1 l2 Ha He].
  - destruct lg; discriminate.
  - apply app_inj_tail in E. destruct E; subst. exists l1. split; assumption.
Qed.

Lemma answered_all_fun : forall cap (lg : list (op A * out A)) l l1 l2,
  answered_all cap l lg l1 -> answered_all cap l lg l2 -> l1 = l2.
Proof.
  intros cap lg. induction lg as [|e lg IH] using rev_ind; intros l l1 l2 H1 H2.
  - assert (forall lg l3, answered_all cap l lg l3 -> lg = [] -> l3 = l) as G.
    { intros lg l3 Ha Enil. destruct Ha as [|? lg1 ? ? ? ? ?]; [reflexivity|destruct lg1; discriminate]. }
    rewrite (G _ _ H1 eq_refl), (G _ _ H2 eq_refl). reflexivity.
  - apply answered_all_snoc_inv in H1. destruct H1 as (a & Ha & He).
    apply answered_all_snoc_inv in H2. destruct H2 as (b & Hb & He').
    rewrite (IH _ _ _ Ha Hb) in He. eapply answered_fun; eassumption.
Qed.

Lemma inv_unique : forall n l l' s, Inv n l s -> Inv n l' s -> l = l'.
Proof.
  intros n l l' s H H'. eapply answered_all_fun; [apply (i_log _ _ _ H)|apply (i_log _ _ _ H')].
Qed.

Lemma exact_step : forall n l l' s e, Inv n l s -> Inv n l' (sched_step s e) -> latest s e ->
  s_assert s = false ->
  exact_log n s l ->
  exact_log n (sched_step s e) l' /\
  (s_assert (sched_step s e) = true -> l = []).
Proof.
  intros n l l' s e H H' Hlat Has Hex.
  pose proof (w_mod _ _ _ H) as Hwm. pose proof (i_len_lt _ _ _ H) as Hll.
  unfold exact_log in *.
  assert (forall l2, l2 = l -> q_run (q_new n) (map fst (s_log s)) =
     (map (fun e => Ok (snd e)) (s_log s), Ok (mk_queue n l2))) as Hsame by (intros; subst; assumption).
  destruct e as [j|j|x|k|j]; cbn [sched_step latest] in *.
  - unfold producer_step in *.
    destruct (s_p s) as [|x w nx|x w nx|x nx] eqn:Ep.
    + split; [apply Hsame; eapply inv_unique; eassumption|congruence].
    + pose proof (pick_latest (s_seen_r s) j (s_rmo s) (i_seen_r _ _ _ H) Hlat) as Hp.
      cbv zeta in *. rewrite Hp in *. rc.
      destruct (negb (nx =? nth (length (s_rmo s) - 1) (s_rmo s) 0)) eqn:E; rc.
      * split; [|congruence]. apply Hsame.
        eapply answered_all_fun; [apply (i_log _ _ _ H')|apply (i_log _ _ _ H)].
      * split; [|congruence].
        assert (l' = l) as ->.
        { pose proof (i_log _ _ _ H') as L'. rc.
          eapply answered_all_fun; [exact L'|]. eapply snoc_log; [apply (i_log _ _ _ H)|constructor]. }
        eapply exact_snoc; [eassumption|].
        destruct H. rewrite Ep in i_p0. destruct i_p0 as [-> ->].
        rewrite i_rmo0 in E by lia. rewrite Hwm in E. rewrite next_mod in E by lia.
        assert ((Z.of_nat (length (s_wmo s) - 1) + 1) mod n = Z.of_nat (length (s_rmo s) - 1) mod n) as Em
          by (destruct ((Z.of_nat (length (s_wmo s) - 1) + 1) mod n =? Z.of_nat (length (s_rmo s) - 1) mod n) eqn:E2;
              [lia|discriminate]).
        assert (Z.of_nat (length l) = n - 1) as Hfull.
        { destruct (Z.eq_dec (Z.of_nat (length l)) (n - 1)) as [Y|Y]; [exact Y|exfalso].
          symmetry in Em. apply mod_eq_close in Em; lia. }
        cbn [q_step q_items q_size]. destruct (Z.of_nat (length l) <? n - 1) eqn:E3; [lia|reflexivity].
    + cbv zeta in *. destruct (r_slots (s_ring s) w) eqn:Esl; rc; (split; [|congruence]); apply Hsame.
      * pose proof (i_bad _ _ _ H') as X. rc. discriminate.
      * eapply answered_all_fun; [apply (i_log _ _ _ H')|apply (i_log _ _ _ H)].
    + cbv zeta in *. rc. split; [|congruence].
      assert (l' = l ++ [x]) as ->.
      { pose proof (i_log _ _ _ H') as L'. rc.
        eapply answered_all_fun; [exact L'|]. eapply snoc_log; [apply (i_log _ _ _ H)|]. constructor. exact Hll. }
      eapply exact_snoc; [eassumption|]. cbn [q_step q_items q_size].
      destruct (Z.of_nat (length l) <? n - 1) eqn:E3; [reflexivity|lia].
  - unfold consumer_step in *.
    destruct (s_c s) as [|k i|k i|k i x|k i x] eqn:Ec.
    + split; [apply Hsame; eapply inv_unique; eassumption|congruence].
    + pose proof (pick_latest (s_seen_w s) j (s_wmo s) ltac:(destruct H; lia) Hlat) as Hp.
      cbv zeta in *. rewrite Hp in *. rc.
      destruct (i =? nth (length (s_wmo s) - 1) (s_wmo s) 0) eqn:E.
      * assert (l = []) as Hnil.
        { destruct H. rewrite Ec in i_c0. subst i. rewrite i_wmo0 in E by lia.
          rewrite i_rlast0 in E. apply Z.eqb_eq in E. apply mod_eq_close in E; try lia.
          destruct l; [reflexivity|cbn [length] in *; lia]. }
        destruct k; cbn [empty_log] in *; rc.
        -- split; [|congruence].
           assert (l' = l) as ->.
           { pose proof (i_log _ _ _ H') as L'. rc.
             eapply answered_all_fun; [exact L'|]. eapply snoc_log; [apply (i_log _ _ _ H)|constructor]. }
           eapply exact_snoc; [eassumption|]. rewrite Hnil. reflexivity.
        -- split; [|intros _; exact Hnil]. apply Hsame.
           eapply answered_all_fun; [apply (i_log _ _ _ H')|apply (i_log _ _ _ H)].
        -- split; [|congruence].
           assert (l' = l) as ->.
           { pose proof (i_log _ _ _ H') as L'. rc.
             eapply answered_all_fun; [exact L'|]. eapply snoc_log; [apply (i_log _ _ _ H)|constructor]. }
           eapply exact_snoc; [eassumption|]. rewrite Hnil. reflexivity.
      * rc. split; [|congruence]. apply Hsame.
        eapply answered_all_fun; [apply (i_log _ _ _ H')|apply (i_log _ _ _ H)].
    + cbv zeta in *. destruct (r_slots (s_ring s) i) eqn:Esl.
      * destruct k; rc; (split; [|congruence]).
        -- apply Hsame. eapply answered_all_fun; [apply (i_log _ _ _ H')|apply (i_log _ _ _ H)].
        -- apply Hsame. eapply answered_all_fun; [apply (i_log _ _ _ H')|apply (i_log _ _ _ H)].
        -- pose proof (i_log _ _ _ H') as L'. rc.
           apply answered_all_snoc_inv in L'. destruct L' as (l1 & Hl1 & He1).
           assert (l1 = l) by (eapply answered_all_fun; [exact Hl1|apply (i_log _ _ _ H)]). subst l1.
           inversion He1; subst. eapply exact_snoc; [eassumption|]. reflexivity.
      * pose proof (i_bad _ _ _ H') as X. rc. discriminate.
    + cbv zeta in *. destruct (r_slots (s_ring s) i) eqn:Esl; rc; (split; [|congruence]); apply Hsame.
      * eapply answered_all_fun; [apply (i_log _ _ _ H')|apply (i_log _ _ _ H)].
      * pose proof (i_bad _ _ _ H') as X. rc. discriminate.
    + cbv zeta in *. rc. split; [|congruence].
      destruct H. rewrite Ec in i_c0. destruct i_c0 as (-> & _ & Hh & Hk).
      destruct l as [|y l]; [discriminate|]. injection Hh as ->.
      assert (l' = l) as ->.
      { pose proof (i_log _ _ _ H') as L'. rc.
        eapply answered_all_fun; [exact L'|]. eapply snoc_log; [eassumption|].
        destruct k; [constructor|constructor|congruence]. }
      destruct k; [| |congruence]; (eapply exact_snoc; [eassumption|]); reflexivity.
  - destruct (s_p s); rc; (split; [|congruence]); apply Hsame;
      eapply answered_all_fun; first [apply (i_log _ _ _ H')|apply (i_log _ _ _ H)].
  - destruct (s_c s); rc; (split; [|congruence]); apply Hsame;
      eapply answered_all_fun; first [apply (i_log _ _ _ H')|apply (i_log _ _ _ H)].
  - destruct (s_c s) eqn:Ec; try (split; [apply Hsame; eapply inv_unique; eassumption|congruence]).
    cbv zeta in *. pose proof (pick_latest (s_seen_w s) j (s_wmo s) ltac:(destruct H; lia) Hlat) as Hp.
    rewrite Hp in *. rc. split; [|congruence].
    rewrite (occ_visible n l s (length (s_wmo s) - 1) H) in * by (destruct H; lia).
    assert (l' = l) as ->.
    { pose proof (i_log _ _ _ H') as L'. rc.
      eapply answered_all_fun; [exact L'|]. eapply snoc_log; [apply (i_log _ _ _ H)|].
      constructor. destruct H; lia. }
    eapply exact_snoc; [eassumption|]. cbn [q_step q_items q_size].
    do 3 f_equal. destruct H; lia.
Qed.

Lemma assert_stays : forall s e, s_assert s = true -> s_assert (@sched_step A s e) = true.
Proof.
  intros s e H. destruct e; cbn [sched_step].
  - unfold producer_step. destruct (s_p s); try exact H; cbv zeta.
    + match goal with |- context [negb ?b] => destruct b end; exact H.
    + destruct (r_slots (s_ring s) w); exact H.
  - unfold consumer_step. destruct (s_c s); try exact H; cbv zeta.
    + match goal with |- context [if ?b then _ else _] => destruct b end; [|exact H].
      destruct (empty_log k); [exact H|reflexivity].
    + destruct (r_slots (s_ring s) i); [|exact H]. destruct k; exact H.
    + destruct (r_slots (s_ring s) i); exact H.
  - destruct (s_p s); exact H.
  - destruct (s_c s); exact H.
  - destruct (s_c s); exact H.
Qed.

Lemma execute_assert_stays : forall es s, s_assert s = true -> s_assert (@execute A s es) = true.
Proof.
  induction es as [|e es IH]; intros s H; [exact H|]. apply IH. apply assert_stays. exact H.
Qed.

Lemma exact_execute : forall es n l s, Inv n l s -> all_latest s es -> exact_log n s l ->
  s_assert (execute s es) = false ->
  exists l', Inv n l' (execute s es) /\ exact_log n (execute s es) l'.
Proof.
  induction es as [|e es IH]; intros n l s H Hall Hex Has.
  - exists l. split; [exact H|exact Hex].
  - destruct Hall as [Hl Hall].
    destruct (sched_inv n l s e H) as [l' H'].
    assert (s_assert s = false) as Ha.
    { destruct (s_assert s) eqn:E; [|reflexivity].
      rewrite (execute_assert_stays (e :: es) s E) in Has. discriminate. }
    destruct (exact_step n l l' s e H H' Hl Ha Hex) as [Hex' _].
    exact (IH n l' _ H' Hall Hex' Has).
Qed.

(** Lemmas for the property file. *)
Lemma spsc_safe_lemma : forall n r (es : list (sched A)), supported_size n -> ring_new n = Ok r ->
  s_bad (execute (spsc_init r) es) = false /\
  exists l, answered_all (n - 1) [] (s_log (execute (spsc_init r) es)) l.
Proof.
  intros n r es Hn Er. destruct (execute_inv es n [] _ (init_inv n r Hn Er)) as [l H].
  split; [apply (i_bad _ _ _ H)|]. exists l. apply (i_log _ _ _ H).
Qed.

Lemma spsc_exact_lemma : forall n r (es : list (sched A)), supported_size n -> ring_new n = Ok r ->
  all_latest (spsc_init r) es ->
  let s := execute (spsc_init r) es in
  s_assert s = false ->
  fst (q_run (q_new n) (map fst (s_log s))) = map (fun e => Ok (snd e)) (s_log s).
Proof.
  intros n r es Hn Er Hall s Has.
  destruct (exact_execute es n [] _ (init_inv n r Hn Er) Hall eq_refl Has) as (l & _ & H).
  unfold s. rewrite H. reflexivity.
Qed.

Lemma spsc_assert_lemma : forall n r (es : list (sched A)) e, supported_size n -> ring_new n = Ok r ->
  all_latest (spsc_init r) (es ++ [e]) ->
  let s := execute (spsc_init r) es in
  s_assert s = false -> s_assert (sched_step s e) = true ->
  snd (q_run (q_new n) (map fst (s_log s))) = Ok (q_new n).
Proof.
  intros n r es e Hn Er Hall s Has Has'.
  assert (forall es s0, all_latest s0 (es ++ [e]) -> all_latest s0 es /\ latest (@execute A s0 es) e) as Hsplit.
  { induction es0 as [|a es0 IH]; intros s0 X; cbn [app all_latest execute fold_left] in *.
    - split; [exact I|]. apply X.
    - destruct X as [X1 X2]. destruct (IH _ X2) as [Y1 Y2]. repeat split; assumption. }
  destruct (Hsplit es (spsc_init r) Hall) as [Hall1 Hl].
  destruct (exact_execute es n [] _ (init_inv n r Hn Er) Hall1 eq_refl Has) as (l & H & Hex).
  destruct (sched_inv n l _ e H) as [l' H'].
  destruct (exact_step n l l' _ e H H' Hl Has Hex) as [_ Hnil].
  specialize (Hnil Has'). subst l. unfold s. rewrite Hex. reflexivity.
Qed.

Lemma accepted_received : forall cap (lg : list (op A * out A)) l l', answered_all cap l lg l' -> no_pop lg ->
  l ++ accepted lg = received lg ++ l'.
Proof.
  intros cap lg l l' H. induction H as [l|l lg e l1 l2 H IH He]; intros Hn.
  - cbn. rewrite app_nil_r. reflexivity.
  - unfold accepted, received in *. rewrite !flat_map_app.
    assert (no_pop lg) as Hn1 by (intros x Hx; apply Hn; apply in_or_app; left; exact Hx).
    specialize (IH Hn1). rewrite app_assoc, IH, <- !app_assoc. f_equal.
    destruct He; cbn; rewrite ?app_nil_r; try reflexivity.
    exfalso. exact (Hn (OPop 1, RUnit) ltac:(apply in_or_app; right; left; reflexivity)).
Qed.

Lemma spsc_prefix_lemma : forall n r (es : list (sched A)), supported_size n -> ring_new n = Ok r ->
  let lg := s_log (execute (spsc_init r) es) in
  no_pop lg ->
  exists rest, accepted lg = received lg ++ rest /\ Z.of_nat (length rest) < n.
Proof.
  intros n r es Hn Er lg Hp. destruct (execute_inv es n [] _ (init_inv n r Hn Er)) as [l H].
  exists l. split; [|apply (i_len _ _ _ H)].
  exact (accepted_received _ _ _ _ (i_log _ _ _ H) Hp).
Qed.

(** ** The counter of refused writes *)
Lemma refused_snoc : forall (lg : list (op A * out A)) e, refused (lg ++ [e]) = refused lg + match e with (OWrite _, RBool false) => 1 | _ => 0 end.
Proof.
  intros lg e. unfold refused. rewrite filter_app, app_length, Nat2Z.inj_add. f_equal. simpl. destruct e as [[] []]; try reflexivity. destruct b; reflexivity.
Qed.
Lemma overflow_step : forall (s : spsc A) e, r_overflow (s_ring s) = i32 (refused (s_log s)) ->
  r_overflow (s_ring (sched_step s e)) = i32 (refused (s_log (sched_step s e))).
Proof.
  intros s e H. destruct e; simpl.
  - unfold producer_step. destruct (s_p s); rc; try exact H.
    + destruct (negb _); rc; [exact H|]. rewrite refused_snoc, H, i32_add_l. reflexivity.
    + destruct (r_slots (s_ring s) w); rc; exact H.
    + rewrite refused_snoc, Z.add_0_r. exact H.
  - unfold consumer_step. destruct (s_c s); rc; try exact H.
    + destruct (i =? _); rc; [|exact H]. destruct k; simpl; rc; rewrite ?refused_snoc, ?Z.add_0_r; exact H.
    + destruct (r_slots (s_ring s) i); rc; [|exact H]. destruct k; rc; rewrite ?refused_snoc, ?Z.add_0_r; exact H.
    + destruct (r_slots (s_ring s) i); rc; exact H.
    + rewrite refused_snoc. destruct k; rewrite Z.add_0_r; exact H.
  - destruct (s_p s); rc; exact H.
  - destruct (s_c s); rc; exact H.
  - destruct (s_c s); rc; try exact H. rewrite refused_snoc, Z.add_0_r. exact H.
Qed.
Lemma overflow_lemma : forall n (r : ring A) es, ring_new n = Ok r ->
  r_overflow (s_ring (execute (spsc_init r) es)) = i32 (refused (s_log (execute (spsc_init r) es))).
Proof.
  intros n r es E. assert (r_overflow (s_ring (spsc_init r)) = i32 (refused (s_log (spsc_init r)))) as H.
  { unfold ring_new in E. destruct (n <? 2); [discriminate|]. injection E as <-. reflexivity. }
  revert H. generalize (spsc_init r). unfold execute. induction es as [|e es IH]; intros s H; [exact H|]. simpl. apply IH. apply overflow_step. exact H.
Qed.

End Proofs.
