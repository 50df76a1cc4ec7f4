(** Proofs about the look of the waiting-request thread at the newest element. *)
From Coq Require Import ZArith List Bool Lia ZifyBool.
From Verif Require Import Base_model Look_model Look_spec.
Import ListNotations.
Open Scope Z_scope.

Lemma mod_neq : forall n a b, 0 < n -> 0 < a - b < n -> a mod n <> b mod n.
Proof.
  intros n a b Hn H E. pose proof (Z.div_mod a n ltac:(lia)). pose proof (Z.div_mod b n ltac:(lia)).
  assert (a - b = n * (a / n - b / n)) by lia.
  destruct (Z.eq_dec (a / n - b / n) 0) as [Z|Z]; [rewrite Z in *; lia|].
  assert (a / n - b / n <= -1 \/ 1 <= a / n - b / n) as [D|D] by lia; nia.
Qed.

Lemma mod_next : forall n a, 0 < n -> next_slot n (a mod n) = (a + 1) mod n.
Proof.
  intros n a Hn. unfold next_slot. pose proof (Z.mod_pos_bound a n Hn) as B.
  pose proof (Z.div_mod a n ltac:(lia)) as D.
  destruct (a mod n + 1 =? n) eqn:E.
  - apply (Z.mod_unique_pos (a + 1) n (a / n + 1) 0); lia.
  - apply (Z.mod_unique_pos (a + 1) n (a / n) (a mod n + 1)); lia.
Qed.

Lemma mod_prev : forall n a, 0 < n -> (if a mod n =? 0 then n - 1 else a mod n - 1) = (a - 1) mod n.
Proof.
  intros n a Hn. pose proof (Z.mod_pos_bound a n Hn) as B. pose proof (Z.div_mod a n ltac:(lia)) as D.
  destruct (a mod n =? 0) eqn:E.
  - apply (Z.mod_unique_pos (a - 1) n (a / n - 1) (n - 1)); lia.
  - apply (Z.mod_unique_pos (a - 1) n (a / n) (a mod n - 1)); lia.
Qed.

Section Proofs.
Context {E : Type}.
Variable ts : E -> Z.
Variable trivial : bool.

Record inv (s : lkst E) : Prop := {
  i_size : 2 <= k_size s;
  i_pop : (k_popped s <= length (k_all s))%nat;
  i_fit : begun s - Z.of_nat (k_popped s) <= k_size s - 1;
  i_w : k_w s = Z.of_nat (length (k_all s)) mod k_size s;
  i_r : k_r s = Z.of_nat (k_popped s) mod k_size s;
  i_slots : forall j x, nth_error (k_all s) j = Some x -> begun s <= Z.of_nat j + k_size s ->
     trivial = true \/ (k_popped s <= j)%nat -> k_slots s (Z.of_nat j mod k_size s) = Some x;
  i_held : forall i e, k_slots s i = Some e ->
     exists j, nth_error (k_all s) j = Some e /\ Z.of_nat j mod k_size s = i /\ begun s <= Z.of_nat j + k_size s;
  i_from : k_look s <> KIdle -> (k_from s <= length (k_all s))%nat;
  i_look : match k_look s with
           | KIdle => True
           | KLoaded w => w = Z.of_nat (k_from s) mod k_size s
           | KPointer p => p = (Z.of_nat (k_from s) - 1) mod k_size s
           end
}.

Lemma inv_new : forall n, 2 <= n -> inv (look_new n).
Proof.
  intros n Hn. constructor; cbn; try lia; try (intros i e H; discriminate H).
  intros [|j] x H; discriminate H.
Qed.

Lemma nth_len : forall (l : list E) j x, nth_error l j = Some x -> (j < length l)%nat.
Proof. intros l j x H. apply nth_error_Some. congruence. Qed.

Lemma inv_step : forall s a s', inv s -> lk_step ts trivial s a = Some s' -> inv s'.
Proof.
  intros s a s' H Hs. destruct H as [Hn Hp Hf Hw Hr Hsl Hh Hfr Hl].
  assert (0 < k_size s) as Hn0 by lia.
  destruct a as [x| | | | |]; cbn [lk_step] in Hs.
  - destruct (k_new s) as [y|] eqn:En; [discriminate|].
    rewrite Hw, Hr, (mod_next _ _ Hn0) in Hs.
    destruct ((Z.of_nat (length (k_all s)) + 1) mod k_size s =? Z.of_nat (k_popped s) mod k_size s) eqn:Ef.
    + injection Hs as <-. constructor; assumption.
    + injection Hs as <-. unfold begun in *. rewrite En in *.
      assert (Z.of_nat (length (k_all s)) - Z.of_nat (k_popped s) <> k_size s - 1) as Hne.
      { intros Ee. apply Z.eqb_neq in Ef. apply Ef.
        replace (Z.of_nat (length (k_all s)) + 1) with (Z.of_nat (k_popped s) + 1 * k_size s) by lia. apply Z_mod_plus_full. }
      constructor; unfold begun; cbn [k_size k_popped k_all k_new k_w k_r k_slots k_look k_from]; try assumption; try lia; try (symmetry; assumption).
      * intros j y Hj Hb Ht. pose proof (nth_len _ _ _ Hj). unfold put.
        replace (Z.of_nat j mod k_size s =? Z.of_nat (length (k_all s)) mod k_size s) with false.
        -- apply Hsl; [exact Hj|lia|exact Ht].
        -- symmetry. apply Z.eqb_neq. apply not_eq_sym. apply mod_neq; lia.
      * intros i e Hi. unfold put in Hi. destruct (i =? Z.of_nat (length (k_all s)) mod k_size s) eqn:Ei; [discriminate|].
        destruct (Hh i e Hi) as (j & Hj & Hm & Hb). exists j. split; [exact Hj|]. split; [exact Hm|].
        destruct (Z.eq_dec (Z.of_nat (length (k_all s))) (Z.of_nat j + k_size s)) as [Ee|Ne]; [|lia].
        exfalso. apply Z.eqb_neq in Ei. apply Ei. rewrite <- Hm, Ee.
        symmetry. replace (Z.of_nat j + k_size s) with (Z.of_nat j + 1 * k_size s) by lia. apply Z_mod_plus_full.
  - destruct (k_new s) as [x|] eqn:En; [|discriminate]. injection Hs as <-.
    unfold begun in *. rewrite En in *.
    constructor; unfold begun; cbn [k_size k_popped k_all k_new k_w k_r k_slots k_look k_from];
      rewrite ?app_length; cbn [length]; try assumption; try lia.
    + rewrite Hw, (mod_next _ _ Hn0). f_equal. lia.
    + intros j y Hj Hb Ht. unfold put. rewrite Hw.
      destruct (Nat.eq_dec j (length (k_all s))) as [->|Ne].
      * rewrite Z.eqb_refl. rewrite nth_error_app2, Nat.sub_diag in Hj by lia. cbn in Hj. congruence.
      * assert (j < length (k_all s))%nat as Hjl.
        { pose proof (nth_len _ _ _ Hj) as X. rewrite app_length in X. cbn [length] in X. lia. }
        rewrite nth_error_app1 in Hj by exact Hjl.
        replace (Z.of_nat j mod k_size s =? Z.of_nat (length (k_all s)) mod k_size s) with false.
        -- apply Hsl; [exact Hj|lia|exact Ht].
        -- symmetry. apply Z.eqb_neq. apply not_eq_sym. apply mod_neq; lia.
    + intros i e Hi. unfold put in Hi. rewrite Hw in Hi.
      destruct (i =? Z.of_nat (length (k_all s)) mod k_size s) eqn:Ei.
      * injection Hi as <-. exists (length (k_all s)). rewrite nth_error_app2, Nat.sub_diag by lia.
        split; [reflexivity|]. split; lia.
      * destruct (Hh i e Hi) as (j & Hj & Hm & Hb). exists j. pose proof (nth_len _ _ _ Hj).
        rewrite nth_error_app1 by lia. split; [exact Hj|]. split; [exact Hm|lia].
    + intros Hk. specialize (Hfr Hk). lia.
  - destruct (k_r s =? k_w s) eqn:Ee; [discriminate|]. injection Hs as <-.
    assert (Z.of_nat (k_popped s) <> Z.of_nat (length (k_all s))) as Hne.
    { intros X. apply Z.eqb_neq in Ee. apply Ee. rewrite Hr, Hw, X. reflexivity. }
    unfold begun in *.
    assert (0 <= match k_new s with Some _ => 1 | None => 0 end <= 1) as Hc by (destruct (k_new s); lia).
    constructor; unfold begun; cbn [k_size k_popped k_all k_new k_w k_r k_slots k_look k_from]; try assumption; try lia.
    + rewrite Hr, (mod_next _ _ Hn0). f_equal. lia.
    + intros j y Hj Hb Ht. destruct trivial eqn:Et.
      * apply Hsl; [exact Hj|lia|left; reflexivity].
      * destruct Ht as [Ht|Ht]; [discriminate|]. unfold put. rewrite Hr. pose proof (nth_len _ _ _ Hj).
        replace (Z.of_nat j mod k_size s =? Z.of_nat (k_popped s) mod k_size s) with false.
        -- apply Hsl; [exact Hj|lia|right; lia].
        -- symmetry. apply Z.eqb_neq. apply mod_neq; lia.
    + intros i e Hi. apply Hh. destruct trivial; [exact Hi|]. unfold put in Hi. destruct (i =? k_r s); [discriminate|exact Hi].
  - destruct (k_look s) eqn:Ek; try discriminate. injection Hs as <-.
    constructor; unfold begun in *; cbn [k_size k_popped k_all k_new k_w k_r k_slots k_look k_from]; try assumption; try lia.
  - destruct (k_look s) as [|w|p] eqn:Ek; try discriminate.
    destruct (w =? k_r s) eqn:Ew; injection Hs as <-.
    + constructor; unfold begun in *; cbn [k_size k_popped k_all k_new k_w k_r k_slots k_look k_from]; try assumption; try lia; try exact I. intros X; congruence.
    + constructor; unfold begun in *; cbn [k_size k_popped k_all k_new k_w k_r k_slots k_look k_from]; try assumption; try lia.
      * intros _. apply Hfr. discriminate.
      * rewrite Hl. apply mod_prev. exact Hn0.
  - destruct (k_look s) as [|w|p] eqn:Ek; try discriminate. injection Hs as <-.
    constructor; unfold begun in *; cbn [k_size k_popped k_all k_new k_w k_r k_slots k_look k_from]; try assumption; try lia; try exact I.
    intros X; congruence.
Qed.

Lemma inv_run : forall acts s s', inv s -> lk_run ts trivial s acts = Some s' -> inv s'.
Proof.
  induction acts as [|a acts IH]; intros s s' H Hr; cbn [lk_run] in Hr; [injection Hr as <-; exact H|].
  destruct (lk_step ts trivial s a) as [s1|] eqn:E1; [|discriminate]. apply (IH s1 s'); [|exact Hr].
  exact (inv_step s a s1 H E1).
Qed.

Lemma size_step : forall s a s', lk_step ts trivial s a = Some s' -> k_size s' = k_size s.
Proof.
  intros s a s' H. destruct a; cbn [lk_step] in H;
    repeat match type of H with context [match ?x with _ => _ end] => destruct x end; try discriminate; injection H as <-; reflexivity.
Qed.
Lemma size_run : forall acts s s', lk_run ts trivial s acts = Some s' -> k_size s' = k_size s.
Proof.
  induction acts as [|a acts IH]; intros s s' H; cbn [lk_run] in H; [injection H as <-; reflexivity|].
  destruct (lk_step ts trivial s a) as [s1|] eqn:E1; [|discriminate]. rewrite (IH _ _ H). exact (size_step _ _ _ E1).
Qed.

Lemma read_result : forall n acts s s',
  2 <= n -> lk_run ts trivial (look_new n) acts = Some s -> lk_step ts trivial s KReadTs = Some s' ->
  exists res, k_out s' = res :: k_out s /\ (k_from s <= length (k_all s))%nat /\
    match res with
    | Newest t => exists j x, nth_error (k_all s) j = Some x /\ t = ts x /\ (k_from s <= S j)%nat /\
                    (begun s < Z.of_nat (k_from s) + n -> S j = k_from s)
    | Indeterminate => k_from s = 0%nat \/ Z.of_nat (k_from s) + n <= begun s \/ trivial = false /\ (k_from s <= k_popped s)%nat
    | NoElement => False
    end.
Proof.
  intros n acts s s' Hn Hr Hs.
  pose proof (inv_run _ _ _ (inv_new n Hn) Hr) as H. pose proof (size_run _ _ _ Hr) as Hz. cbn [look_new k_size] in Hz.
  destruct H as [_ Hp Hf Hw Hr' Hsl Hh Hfr Hl]. rewrite Hz in *.
  cbn [lk_step] in Hs. destruct (k_look s) as [|w|p] eqn:Ek; try discriminate. injection Hs as <-. cbn [k_out].
  eexists. split; [reflexivity|]. specialize (Hfr ltac:(discriminate)). split; [exact Hfr|]. rewrite Hl.
  destruct (k_slots s ((Z.of_nat (k_from s) - 1) mod n)) as [e|] eqn:Ee.
  - destruct (Hh _ _ Ee) as (j & Hj & Hm & Hb). exists j, e. pose proof (nth_len _ _ _ Hj) as Hjl.
    assert (begun s >= Z.of_nat (length (k_all s))) as Hbl by (unfold begun; destruct (k_new s); lia).
    split; [exact Hj|]. split; [reflexivity|]. split.
    + destruct (Z_le_gt_dec (Z.of_nat (k_from s)) (Z.of_nat (S j))) as [D|D]; [lia|]. exfalso.
      apply (mod_neq n (Z.of_nat (k_from s) - 1) (Z.of_nat j)); [lia|lia|]. symmetry. exact Hm.
    + intros Hlt. destruct (Nat.eq_dec (S j) (k_from s)) as [D|D]; [exact D|]. exfalso.
      destruct (Z_le_gt_dec (Z.of_nat (k_from s)) (Z.of_nat (S j))) as [D'|D'].
      * apply (mod_neq n (Z.of_nat j) (Z.of_nat (k_from s) - 1)); [lia|lia|exact Hm].
      * apply (mod_neq n (Z.of_nat (k_from s) - 1) (Z.of_nat j)); [lia|lia|]. symmetry. exact Hm.
  - destruct (k_from s) as [|m] eqn:Em; [left; reflexivity|]. right.
    destruct (Z_le_gt_dec (Z.of_nat (S m) + n) (begun s)) as [D|D]; [left; exact D|]. right.
    destruct (nth_error (k_all s) m) as [x|] eqn:Ex; [|apply nth_error_None in Ex; lia].
    replace (Z.of_nat (S m) - 1) with (Z.of_nat m) in Ee by lia.
    destruct trivial eqn:Et.
    + exfalso. rewrite (Hsl m x Ex ltac:(lia) ltac:(left; reflexivity)) in Ee. discriminate.
    + split; [reflexivity|]. destruct (le_gt_dec (S m) (k_popped s)) as [Q|Q]; [exact Q|]. exfalso.
      rewrite (Hsl m x Ex ltac:(lia) ltac:(right; lia)) in Ee. discriminate.
Qed.

Lemma null_result : forall n acts s s',
  2 <= n -> lk_run ts trivial (look_new n) acts = Some s -> lk_step ts trivial s KLoadR = Some s' ->
  (k_out s' = NoElement :: k_out s <-> exists k, (k_popped s = k_from s + k * Z.to_nat n)%nat).
Proof.
  intros n acts s s' Hn Hr Hs.
  pose proof (inv_run _ _ _ (inv_new n Hn) Hr) as H. pose proof (size_run _ _ _ Hr) as Hz. cbn [look_new k_size] in Hz.
  destruct H as [_ Hp Hf Hw Hr' Hsl Hh Hfr Hl]. rewrite Hz in *.
  cbn [lk_step] in Hs. destruct (k_look s) as [|w|p] eqn:Ek; try discriminate.
  rewrite Hl, Hr' in Hs. specialize (Hfr ltac:(discriminate)).
  destruct (Z.of_nat (k_from s) mod n =? Z.of_nat (k_popped s) mod n) eqn:Ee; injection Hs as <-; cbn [k_out].
  - apply Z.eqb_eq in Ee. split; [intros _|reflexivity].
    assert (exists q, Z.of_nat (k_popped s) - Z.of_nat (k_from s) = q * n) as (q & Hq).
    { exists (Z.of_nat (k_popped s) / n - Z.of_nat (k_from s) / n).
      pose proof (Z.div_mod (Z.of_nat (k_popped s)) n ltac:(lia)). pose proof (Z.div_mod (Z.of_nat (k_from s)) n ltac:(lia)). lia. }
    assert (0 <= q) as Hq0.
    { assert (-1 < q); [|lia]. assert (begun s >= Z.of_nat (length (k_all s))) by (unfold begun; destruct (k_new s); lia). nia. }
    exists (Z.to_nat q). nia.
  - split; [intros X; exfalso; clear -X; induction (k_out s) as [|a l IH]; [discriminate|]; injection X as -> X; exact (IH X)|].
    intros (k & Hk). exfalso. apply Z.eqb_neq in Ee. apply Ee.
    replace (Z.of_nat (k_popped s)) with (Z.of_nat (k_from s) + Z.of_nat k * n) by nia. symmetry. apply Z_mod_plus_full.
Qed.

(** While the element that was newest at the beginning is stored, the look is exact. *)
Lemma exact_result : forall n acts s s',
  2 <= n -> lk_run ts trivial (look_new n) acts = Some s -> lk_step ts trivial s KReadTs = Some s' ->
  (k_popped s < k_from s)%nat ->
  exists x, nth_error (k_all s) (k_from s - 1) = Some x /\ k_out s' = Newest (ts x) :: k_out s.
Proof.
  intros n acts s s' Hn Hr Hs Hlt.
  pose proof (inv_run _ _ _ (inv_new n Hn) Hr) as H. pose proof (size_run _ _ _ Hr) as Hz. cbn [look_new k_size] in Hz.
  pose proof (i_fit s H) as Hf. rewrite Hz in Hf.
  destruct (read_result n acts s s' Hn Hr Hs) as (res & Ho & Hfr & Hres).
  destruct res as [t| |].
  - destruct Hres as (j & x & Hj & -> & Hle & Hex). specialize (Hex ltac:(lia)).
    exists x. split; [|exact Ho]. rewrite <- Hj. f_equal. lia.
  - destruct Hres.
  - exfalso. destruct Hres as [D|[D|[_ D]]]; lia.
Qed.

(** ** The bookkeeping fields *)

Lemma sq_end : forall (l l' : list E) x, subsequence l l' -> subsequence l (l' ++ [x]).
Proof. intros l l' x H. induction H; cbn [app]; [apply sq_skip; apply sq_nil|apply sq_skip; assumption|apply sq_take; assumption]. Qed.
Lemma sq_both : forall (l l' : list E) x, subsequence l l' -> subsequence (l ++ [x]) (l' ++ [x]).
Proof. intros l l' x H. induction H; cbn [app]; [apply sq_take; apply sq_nil|apply sq_skip; assumption|apply sq_take; assumption]. Qed.

Definition pending (s : lkst E) : list E := match k_new s with Some x => [x] | None => [] end.

Lemma offered_step : forall s a s' l, lk_step ts trivial s a = Some s' ->
  subsequence (k_all s ++ pending s) l -> subsequence (k_all s' ++ pending s') (l ++ offered [a]).
Proof.
  intros s a s' l H Hs. unfold pending in *.
  destruct a; cbn [lk_step] in H; cbn [offered flat_map app]; rewrite ?app_nil_r;
    try (repeat match type of H with context [match ?x with _ => _ end] => destruct x eqn:? end; try discriminate; injection H as <-;
         cbn [k_all k_new] in *; try (rewrite ?Heqo in *; assumption); fail).
  - destruct (k_new s) as [y|] eqn:En; [discriminate|].
    destruct (next_slot (k_size s) (k_w s) =? k_r s); injection H as <-.
    + rewrite En. rewrite app_nil_r in *. apply sq_end. exact Hs.
    + cbn [k_all k_new]. rewrite app_nil_r in Hs. apply sq_both. exact Hs.
  - destruct (k_new s) as [y|] eqn:En; [|discriminate]. injection H as <-. cbn [k_all k_new]. rewrite app_nil_r. exact Hs.
Qed.

Lemma offered_app : forall (a b : list (lkact E)), offered (a ++ b) = offered a ++ offered b.
Proof. intros a b. apply flat_map_app. Qed.

Lemma offered_run : forall acts s s' l, lk_run ts trivial s acts = Some s' ->
  subsequence (k_all s ++ pending s) l -> subsequence (k_all s' ++ pending s') (l ++ offered acts).
Proof.
  induction acts as [|a acts IH]; intros s s' l H Hs; cbn [lk_run] in H.
  - injection H as <-. cbn. rewrite app_nil_r. exact Hs.
  - destruct (lk_step ts trivial s a) as [s1|] eqn:E1; [|discriminate].
    change (a :: acts) with ([a] ++ acts). rewrite offered_app, app_assoc.
    apply (IH s1 s' _ H). exact (offered_step _ _ _ _ E1 Hs).
Qed.

Lemma sq_app_l : forall (a b l : list E), subsequence (a ++ b) l -> subsequence a l.
Proof.
  intros a b l H. remember (a ++ b) as c eqn:Ec. revert a b Ec.
  induction H; intros a b Ec.
  - destruct a; [constructor|discriminate].
  - apply sq_skip. eapply IHsubsequence. exact Ec.
  - destruct a as [|y a]; [|cbn [app] in Ec; injection Ec as -> Ec; apply sq_take; eapply IHsubsequence; exact Ec].
    clear. induction (x :: l') as [|z m IH]; constructor. exact IH.
Qed.

Lemma received_offered : forall n acts s, lk_run ts trivial (look_new n) acts = Some s -> subsequence (k_all s) (offered acts).
Proof.
  intros n acts s H. apply (sq_app_l _ (pending s)). apply (offered_run acts (look_new n) s [] H). constructor.
Qed.

Lemma removed_step : forall s a s', lk_step ts trivial s a = Some s' -> k_popped s' = (k_popped s + removals [a])%nat.
Proof.
  intros s a s' H. destruct a; cbn [lk_step] in H; unfold removals; cbn [filter length];
    repeat match type of H with context [match ?x with _ => _ end] => destruct x end; try discriminate; injection H as <-; cbn [k_popped]; lia.
Qed.

Lemma removed_run : forall acts s s', lk_run ts trivial s acts = Some s' -> k_popped s' = (k_popped s + removals acts)%nat.
Proof.
  induction acts as [|a acts IH]; intros s s' H; cbn [lk_run] in H; [injection H as <-; cbn; lia|].
  destruct (lk_step ts trivial s a) as [s1|] eqn:E1; [|discriminate]. rewrite (IH _ _ H), (removed_step _ _ _ E1).
  unfold removals. cbn [filter]. destruct a; cbn [length]; lia.
Qed.

End Proofs.
