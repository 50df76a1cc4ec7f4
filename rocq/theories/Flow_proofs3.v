From Coq Require Import ZArith List Bool Lia Permutation.
From Verif Require Import Base_model Elem_model Lb_model Request_model Request_spec Request_proofs Flow_model Flow_spec Flow_proofs Flow_proofs2.
Import ListNotations.
Open Scope Z_scope.

Section Stats.
Variable dnf : Z.
Variable lk : link.
Variable tick : Z.
Context {B : Type}.
Variable L : lb elem B.
Variable R : nat.
Hypothesis Hdnf : 0 <= dnf.
Notation step := (fstep dnf lk tick L R).
Notation run := (frun dnf lk tick L R).
Notation st := (@fstate B).

Notation flagged := (not_found_bit dnf).

Lemma flag_set : forall h, Z.testbit (h_error_bits (set_dnf dnf h)) dnf = true.
Proof. intros h. cbn. rewrite Z.lor_spec, Z.shiftl_spec, Z.sub_diag by lia. cbn. apply orb_true_r. Qed.

Lemma empty_flagged : forall dr, flagged (create_empty_fragment dnf lk dr) = true.
Proof. intros. apply flag_set. Qed.

(** What one data_request call does to the counters. *)
Lemma data_request_counts : forall running missing buf dr s c fo s',
  data_request dnf lk tick L running missing buf dr s = Ok (c, fo, s') ->
  st_uncategorized s' = st_uncategorized s /\
  st_old s' = st_old s + (if is_old (find_class L (buf, dr)) then 1 else 0) /\
  st_found s' + st_delayed s' = st_found s + st_delayed s + (if is_current (find_class L (buf, dr)) then 1 else 0) /\
  match c with
  | kFound => st_found s' = st_found s + 1 /\ st_bad s' = st_bad s /\ match fo with Some fr => flagged fr = false | None => False end
  | kNotFound => st_found s' = st_found s /\ st_bad s' = st_bad s + 1 /\ match fo with Some fr => flagged fr = true | None => False end
  | kNotYet => st_found s' = st_found s /\ st_bad s' = st_bad s /\ fo = None
  end.
Proof.
  intros running missing buf dr s c fo s' H. unfold data_request in H. unfold find_class. cbn [fst snd].
  destruct (lb_occupancy L buf =? 0); cbn [negb] in H.
  { injection H as <- <- <-. cbn [is_old is_current st_found st_bad st_old st_delayed st_uncategorized].
    repeat split; try lia. apply flag_set. }
  destruct (lb_front L buf) as [[f|]|]; try discriminate; destruct (lb_back L buf) as [[k|]|]; try discriminate. cbn [bind] in H.
  destruct (availability _ _ _ _ _ _ _ _ _ _) as [[[[c0 h] by_] sx]|] eqn:A; cbn [bind] in H; [|discriminate].
  unfold availability in A.
  destruct (Z.leb_spec (e_ts f) (rq_begin dr)) as [H1|H1]; destruct (Z.leb_spec (rq_end dr) (e_ts k)) as [H2|H2]; cbn [andb] in A;
    destruct (Z.ltb_spec (rq_begin dr) (e_ts f)) as [H3|H3]; try lia.
  - destruct (lb_lower_bound L buf (rq_begin dr) missing) as [it| |]; try discriminate.
    destruct (it =? lb_end L).
    + injection A as <- <- <- <-. destruct running; injection H as <- <- <-;
        cbn [is_old is_current st_found st_bad st_old st_delayed st_uncategorized]; repeat split; try lia; apply flag_set.
    + destruct (extract _ _ _ _ _ _ _) as [bytes|]; cbn [bind] in A; [|discriminate].
      injection A as <- <- <- <-. injection H as <- <- <-.
      cbn [is_old is_current st_found st_bad st_old st_delayed st_uncategorized]; repeat split; try lia. apply Z.testbit_0_l.
  - destruct (Z.ltb_spec (e_ts k) (rq_end dr)); [|lia]. injection A as <- <- <- <-.
    destruct running; injection H as <- <- <-;
      cbn [is_old is_current st_found st_bad st_old st_delayed st_uncategorized]; repeat split; try lia; apply flag_set.
  - injection A as <- <- <- <-. injection H as <- <- <-.
    cbn [is_old is_current st_found st_bad st_old st_delayed st_uncategorized]; repeat split; try lia. apply flag_set.
  - injection A as <- <- <- <-. injection H as <- <- <-.
    cbn [is_old is_current st_found st_bad st_old st_delayed st_uncategorized]; repeat split; try lia. apply flag_set.
Qed.

Lemma count_app : forall {A} (p : A -> bool) l l', count p (l ++ l') = count p l + count p l'.
Proof. intros. unfold count. rewrite filter_app, app_length. lia. Qed.
Lemma count_one : forall {A} (p : A -> bool) x, count p [x] = if p x then 1 else 0.
Proof. intros. unfold count. cbn. destruct (p x); reflexivity. Qed.
Lemma count_perm : forall {A} (p : A -> bool) l l', Permutation l l' -> count p l = count p l'.
Proof. intros. unfold count. f_equal. apply Permutation_length, filter_perm. assumption. Qed.

Definition held (l : list (task * @wstep B)) : list fragment := flat_map (fun x => match snd x with KPush fr => [fr] | _ => [] end) l.

Lemma held_app : forall a b, held (a ++ b) = held a ++ held b. Proof. intros. apply flat_map_app. Qed.

Lemma held_replace : forall p l i x y, nth_error l i = Some x ->
  count p (held (replace l i y)) + count p (held [x]) = count p (held l) + count p (held [y]).
Proof.
  intros p l i x y H. rewrite (nth_split_at l i x H) at 2. unfold replace.
  change (y :: skipn (S i) l) with ([y] ++ skipn (S i) l). change (x :: skipn (S i) l) with ([x] ++ skipn (S i) l).
  rewrite !held_app, !count_app. lia.
Qed.
Lemma held_remove : forall p l i x, nth_error l i = Some x ->
  count p (held (remove_at l i)) + count p (held [x]) = count p (held l).
Proof.
  intros p l i x H. rewrite (nth_split_at l i x H) at 2. unfold remove_at.
  change (x :: skipn (S i) l) with ([x] ++ skipn (S i) l). rewrite !held_app, !count_app. lia.
Qed.

Record adds_up (s : st) : Prop := {
  au_out : (f_start_out s <= length (f_out s))%nat;
  au_done : f_stop s = SDone -> f_work s = [];
  au_found : tot st_found s = count (fun fr => negb (flagged fr)) (made s);
  au_bad : tot st_bad s = count flagged (made s);
  au_timed : tot_timed s = count is_timeout (skipn (f_start_out s) (f_out s));
  au_old : tot st_old s = count (fun x => is_old (find_class L x)) (f_reads s);
  au_current : tot st_found s + tot st_delayed s = count (fun x => is_current (find_class L x)) (f_reads s);
  au_unc : tot st_uncategorized s = 0
}.

Lemma skipn_snoc : forall {A} n (l : list A) x, (n <= length l)%nat -> skipn n (l ++ [x]) = skipn n l ++ [x].
Proof. intros. rewrite skipn_app. replace (n - length l)%nat with 0%nat by lia. reflexivity. Qed.

Ltac hd H := match type of H with
  | (match ?x with _ => _ end) = Some _ => let E := fresh "E" in destruct x eqn:E in H; try discriminate H
  end.

Lemma adds_up_step : forall s a s', phases s -> adds_up s -> step s a = Some s' -> adds_up s'.
Proof.
  intros s a s' P A H. assert (P' : phases s') by (eapply phases_step; eauto).
  destruct A as [A1 A2 A3 A4 A5 A6 A7 A8]. unfold tot, tot_timed, made in *. fold (held (f_work s)) in *.
  unfold fstep, fwork, floop, fstop, fstart in H; hd H;
  match type of H with match ?a with _ => _ end = _ => destruct a as [r|mis b|i|i full|full| | |c] end;
  repeat hd H; try injection H as H; subst; try match goal with c : counter |- _ => destruct c end.
  all: constructor; unfold tot, tot_timed, made;
    unfold crash_now, upd_work, upd_loop, upd_out, upd_read, upd_stop, finfo, no_stats, one_bad in *;
    cbn [f_marker f_pool f_work f_waiting f_loop f_stop f_buf f_stats f_timed f_crashed f_out f_issued f_lost f_sum f_sum_timed f_reads f_start_out
         st_found st_bad st_old st_delayed st_uncategorized] in *;
    try match goal with |- context [flat_map _ ?l] => change (flat_map (fun x => match snd x with KPush fr => [fr] | _ => [] end) l) with (held l) end;
    try assumption; try lia.
  all: try (destruct P' as (_ & _ & _ & _ & P'); exact P').
  all: try match goal with H : data_request _ _ _ _ _ _ _ _ _ = Ok _ |- _ => destruct (data_request_counts _ _ _ _ _ _ _ _ H) as (D1 & D2 & D3 & D4);
     destruct D4 as (D4 & D5 & D6); cbn [st_found st_bad st_old st_delayed st_uncategorized] in * end.
  all: rewrite ?skipn_snoc, ?map_app, ?held_app, ?count_app, ?app_length in * by assumption; cbn [map a_frag] in *; rewrite ?count_one in *; cbn [is_timeout a_why] in *.
  all: try (match goal with H : nth_error _ ?i = Some ?x |- context [count ?p (held (replace ?l ?i ?y))] =>
     assert (Q := held_replace p l i x y H); cbn [held flat_map snd app] in Q; rewrite ?count_one in Q end).
  all: try (match goal with H : nth_error _ ?i = Some ?x |- context [count ?p (held (remove_at ?l ?i))] =>
     assert (Q := held_remove p l i x H); cbn [held flat_map snd app] in Q; rewrite ?count_one in Q end).
  all: try (assert (N0 : forall {A} (p : A -> bool), count p [] = 0) by reflexivity; rewrite ?N0 in * ).
  all: try (rewrite empty_flagged; cbn [negb]).
  all: try (destruct (flagged _); cbn [negb] in *; try discriminate; try lia).
  all: try lia.
  all: try (rewrite A2 by assumption).
  all: rewrite ?skipn_all; try reflexivity.
Qed.

Lemma adds_up_run : forall acts m b s, run (finit m b) acts = Some s -> adds_up s.
Proof.
  intros acts m b s H.
  assert (K : phases s /\ adds_up s); [|exact (proj2 K)].
  revert H. apply (run_inv dnf lk tick L R (fun s => phases s /\ adds_up s)).
  - intros s0 a s' [P A] H. split; [eapply phases_step; eauto|eapply adds_up_step; eauto].
  - split; [apply phases_init|]. constructor; cbn; auto; try lia; reflexivity.
Qed.

Lemma read_counts : forall (l : list (B * request)),
  Z.of_nat (length l) = count (fun x => is_old (find_class L x)) l + count (fun x => is_current (find_class L x)) l
                        + count (fun x => is_empty (find_class L x)) l.
Proof.
  unfold count. induction l as [|x l IH]; [reflexivity|]. cbn [filter length].
  destruct (find_class L x); cbn [is_old is_current is_empty length]; lia.
Qed.

Lemma stats_lemma : forall acts m b s, run (finit m b) acts = Some s ->
  tot st_found s = count (fun fr => negb (flagged fr)) (made s) /\
  tot st_bad s = count flagged (made s) /\
  tot_timed s = count is_timeout (skipn (f_start_out s) (f_out s)) /\
  tot st_old s = count (fun x => is_old (find_class L x)) (f_reads s) /\
  tot st_uncategorized s = 0 /\
  tot st_found s + tot st_old s + tot st_delayed s + count (fun x => is_empty (find_class L x)) (f_reads s)
    = Z.of_nat (length (f_reads s)).
Proof.
  intros acts m b s H. destruct (adds_up_run _ _ _ _ H) as [A1 A2 A3 A4 A5 A6 A7 A8].
  assert (RC := read_counts (f_reads s)). repeat split; try assumption. lia.
Qed.

End Stats.

(** * The pass executed by the waiting-list thread *)
Section Exec.
Variable dnf : Z.
Variable lk : link.
Variable tick : Z.
Context {B : Type}.
Variable L : lb elem B.
Variable R : nat.
Notation run := (frun dnf lk tick L R).

(** What the pass sends and what stays, as the thread executes it without being interrupted. *)
Lemma pass_executes : forall fuel (s : @fstate B) i newest, f_crashed s = false -> f_loop s = LPass i newest ->
  (i <= length (f_waiting s))%nat -> (length (f_waiting s) - i <= fuel)%nat ->
  exists k s', run s (repeat (FLoop false) k) = Some s' /\ f_loop s' = LTop /\
    let r := pass fuel R (f_marker s) newest (f_waiting s) i in
    f_waiting s' = p_kept r /\ f_pool s' = f_pool s ++ map w_task (p_reissued r) /\
    f_work s' = f_work s /\ f_marker s' = f_marker s /\
    exists out, f_out s' = f_out s ++ out /\
      Permutation (map a_task out) (map w_task (p_timed r ++ p_ended r)).
Proof.
  induction fuel as [|fuel IH]; intros s i newest C El Hi Hf.
  - exists 1%nat. cbn [repeat frun]. unfold fstep, floop. rewrite C, El.
    assert (E : nth_error (f_waiting s) i = None) by (apply nth_error_None; lia). rewrite E.
    eexists. split; [reflexivity|]. cbn. rewrite app_nil_r. repeat split; auto. exists []. rewrite app_nil_r. auto.
  - cbn [pass]. destruct (nth_error (f_waiting s) i) as [w|] eqn:E.
    2:{ exists 1%nat. cbn [repeat frun]. unfold fstep, floop. rewrite C, El, E.
        eexists. split; [reflexivity|]. cbn. rewrite app_nil_r. repeat split; auto. exists []. rewrite app_nil_r. auto. }
    assert (Hlt : (i < length (f_waiting s))%nat) by (apply nth_error_Some; congruence).
    assert (Hsl := swap_remove_length _ _ _ E).
    assert (S1 : forall s1, fstep dnf lk tick L R s (FLoop false) = Some s1 -> forall k s', run s1 (repeat (FLoop false) k) = Some s' ->
                 run s (repeat (FLoop false) (S k)) = Some s').
    { intros s1 E1 k s' E2. cbn [repeat frun]. rewrite E1. exact E2. }
    unfold fstep, floop in S1. rewrite C, El, E in S1.
    assert (Hbl := bump_at_length newest (f_waiting s) i).
    destruct (verdict_of R (f_marker s) newest w) eqn:V; specialize (S1 _ eq_refl);
    match type of S1 with forall k s', frun _ _ _ _ _ ?s1 _ = _ -> _ =>
      destruct (IH s1 (match verdict_of R (f_marker s) newest w with VKeep => S i | _ => i end) newest) as (k & s' & K1 & K2 & K3 & K4 & K5 & K6 & out & K7 & K8);
      rewrite ?V; cbn; auto; try lia end;
    rewrite V in *; cbn [f_marker f_pool f_work f_waiting f_loop f_stop f_buf f_stats f_timed f_crashed f_out upd_loop upd_out p_kept p_reissued p_timed p_ended map] in *;
    exists (S k), s'; (split; [apply S1; exact K1|]); split; [exact K2| |exact K2| |exact K2| |exact K2|].
    + repeat split; auto. rewrite K4, <- app_assoc. reflexivity. exists out. auto.
    + repeat split; auto. eexists. split; [rewrite K7, <- app_assoc; reflexivity|]. cbn. constructor. exact K8.
    + repeat split; auto. eexists. split; [rewrite K7, <- app_assoc; reflexivity|]. cbn. rewrite map_app. cbn [map].
      rewrite <- Permutation_middle. constructor. rewrite K8, map_app. reflexivity.
    + repeat split; auto. exists out. auto.
Qed.

End Exec.

(** * After stop() has returned nothing is answered any more *)
Section Ended.
Variable dnf : Z.
Variable lk : link.
Variable tick : Z.
Context {B : Type}.
Variable L : lb elem B.
Variable R : nat.

Lemma ended_step : forall (s : @fstate B) a s', phases s -> f_stop s = SDone -> not_restart a ->
  fstep dnf lk tick L R s a = Some s' -> f_out s' = f_out s /\ f_stop s' = SDone.
Proof.
  intros s a s' (P1 & P2 & P3 & P4 & P5) D N H. assert (Hl := P4 (or_intror D)). assert (Hw := P5 D).
  unfold fstep in H. destruct (f_crashed s); [discriminate|]. destruct a as [r|mis b|i|i full|full| | |c].
  - injection H as <-. auto.
  - injection H as <-. auto.
  - rewrite D in H. discriminate.
  - unfold fwork in H. rewrite Hw, nth_nil in H. discriminate.
  - unfold floop in H. rewrite Hl in H. discriminate.
  - unfold fstop in H. rewrite D in H. discriminate.
  - contradiction.
  - injection H as <-. destruct c; auto.
Qed.

Lemma ended_run : forall acts (s : @fstate B) s', phases s -> f_stop s = SDone -> Forall not_restart acts ->
  frun dnf lk tick L R s acts = Some s' -> f_out s' = f_out s.
Proof.
  induction acts as [|a acts IH]; intros s s' P D F H; cbn in H; [congruence|].
  destruct (fstep dnf lk tick L R s a) as [s1|] eqn:E; [|discriminate]. inversion F; subst.
  destruct (ended_step _ _ _ P D H2 E) as [E1 E2]. rewrite <- E1. eapply IH; eauto. eapply phases_step; eauto.
Qed.
End Ended.
