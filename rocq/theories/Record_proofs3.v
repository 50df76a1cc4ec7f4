(** The element the recording reads is not touched by the other threads. *)
From Coq Require Import ZArith List Bool Lia ZifyBool.
From Verif Require Import Base_model Ring_model Ring_spec Ring_proofs Record_model Record_spec Record_proofs.
Import ListNotations.
Open Scope Z_scope.

Section Proofs3.
Context {E : Type}.
Variable ts dur : E -> Z.
Variable limit : Z.
Variable quota : Z -> Z.
Notation inv := (inv ts dur).
Notation arun := (arun ts dur limit quota).
Notation astep := (astep ts dur limit quota).

(* position of the element under the iterator *)
Definition under (n : Z) (s : rstate E) (i : Z) (a : nat) : Prop :=
  i = Z.of_nat a mod n /\ (a < length (s_all s))%nat /\ (s_popped s <= S a)%nat /\
  (forall b x, (a < b)%nat -> nth_error (s_all s) b = Some x -> bound ts dur s <= ts x).

Lemma under_mem : forall n s i a, inv n s -> under n s i a -> s_mem s i = nth_error (s_all s) a.
Proof.
  intros n s i a Hi (-> & Ha & Hp & _). pose proof (v_base _ _ _ _ Hi) as Hb. apply (b_mem _ _ Hb); [exact Ha|].
  pose proof (h_len _ _ (b_holds _ _ Hb)) as Hl. rewrite skipn_length, (b_size _ _ Hb) in Hl.
  pose proof (b_le _ _ Hb). lia.
Qed.

Lemma others_step : forall s a s', by_others [a] -> astep s a = Some s' ->
  s_rpc s' = s_rpc s /\ s_next s' = s_next s /\ s_upto s' = s_upto s.
Proof.
  intros s a s' Ho H. inversion Ho as [|? ? Ha _]; subst. unfold Record_model.astep in H.
  destruct (s_crashed s); [discriminate|]. destruct a as [x| | |]; try contradiction.
  - destruct (write x (s_ring s)) as [[r [|]]|]; injection H as <-; repeat split.
  - unfold clean_step in H.
    repeat match type of H with
    | match ?x with _ => _ end = _ => destruct x
    end; try discriminate; injection H as <-; repeat split.
Qed.

Lemma others_run : forall acts s s', by_others acts -> arun s acts = Some s' ->
  s_rpc s' = s_rpc s /\ s_next s' = s_next s /\ s_upto s' = s_upto s.
Proof.
  induction acts as [|a acts IH]; intros s s' Ho H; cbn in H; [injection H as <-; repeat split|].
  destruct (astep s a) as [s1|] eqn:E1; [|discriminate]. inversion Ho as [|? ? Ha Hr]; subst.
  destruct (others_step s a s1 ltac:(constructor; [exact Ha|constructor]) E1) as (X1 & X2 & X3).
  destruct (IH s1 s' Hr H) as (Y1 & Y2 & Y3). repeat split; congruence.
Qed.

Lemma others_calm : forall acts s, by_others acts -> calm ts dur limit quota s acts.
Proof.
  induction acts as [|a acts IH]; intros s Ho; cbn; [exact I|]. inversion Ho as [|? ? Ha Hr]; subst.
  split; [destruct a; [exact I|exact I|contradiction|contradiction]|].
  destruct (astep s a); [apply IH; exact Hr|exact I].
Qed.

Definition reading (s : rstate E) (i : Z) : Prop :=
  (exists k, s_rpc s = RDeref i k) \/ (exists e k, s_rpc s = RUpd e i k).

Lemma reading_under : forall n s i, inv n s -> reading s i ->
  exists a, under n s i a /\ (forall b x, (b < a)%nat -> nth_error (s_all s) b = Some x -> ts x < bound ts dur s).
Proof.
  intros n s i Hi Hr. pose proof (v_rpc _ _ _ _ Hi) as Hk. unfold rpc_ok in Hk. unfold under, bound.
  destruct Hr as [[k E1]|(e & k & E1)]; rewrite E1 in *.
  - destruct Hk as (_ & Hne & [->|(a & Ea & Ha & Hp & _ & Hlow & Hhigh)]); [contradiction|].
    exists a. split; [split; [|split; [|split]]|]; assumption.
  - destruct Hk as (_ & Hne & [->|(a & Ea & Ha & Hp & _ & Hlow & Hhigh)] & _); [contradiction|].
    exists a. split; [split; [|split; [|split]]; assumption|]. intros b x Hb. apply Hlow. lia.
Qed.

Lemma mod_inj : forall n a b, 2 <= n -> Z.of_nat a mod n = Z.of_nat b mod n ->
  Z.abs (Z.of_nat a - Z.of_nat b) < n -> a = b.
Proof.
  intros n a b Hn He Hd. destruct (Nat.lt_trichotomy a b) as [H|[H|H]]; [|exact H|]; exfalso.
  - apply (mod_neq n (Z.of_nat a) (Z.of_nat b)); [exact Hn|lia|exact He].
  - apply (mod_neq n (Z.of_nat b) (Z.of_nat a)); [exact Hn|lia|symmetry; exact He].
Qed.

(* the same position before and after steps of the others: the slot cannot have gone round *)
Lemma looks_step : forall n s i a acts s', inv n s -> reading s i -> under n s i a -> by_others acts ->
  arun s acts = Some s' -> proper_data ts dur (s_all s') -> inv n s' /\ reading s' i /\ under n s' i a.
Proof.
  intros n s i a acts s' Hi Hr Hu Ho H Hpr. 
  revert s Hi Hr Hu H. induction acts as [|x acts IH]; intros s Hi Hr Hu H; cbn in H.
  - injection H as <-. split; [exact Hi|]. split; assumption.
  - destruct (astep s x) as [s1|] eqn:E1; [|discriminate]. inversion Ho as [|? ? Hx Hrest]; subst.
    assert (by_others [x]) as Hox by (constructor; [exact Hx|constructor]).
    destruct (others_step s x s1 Hox E1) as (X1 & X2 & X3).
    assert (proper_data ts dur (s_all s1)) as Hp1.
    { destruct (arun_all _ _ _ _ _ _ _ H) as [l Hl]. rewrite Hl in Hpr. exact (proper_prefix _ _ _ _ Hpr). }
    assert (inv n s1) as Hi1.
    { apply (inv_step ts dur limit quota n s x s1 Hi Hp1); [|exact E1]. destruct x; try exact I; contradiction. }
    assert (reading s1 i) as Hr1 by (unfold reading in *; rewrite X1; exact Hr).
    apply (IH Hrest s1 Hi1 Hr1); [|exact H].
    destruct (reading_under _ _ _ Hi1 Hr1) as (b & Hub & Hlow).
    replace a with b; [exact Hub|].
    destruct Hub as (Eb & Hb & Hpb & _). destruct Hu as (Ea & Ha & Hpa & Hhigh).
    pose proof (v_base _ _ _ _ Hi1) as Hb1. pose proof (base_n _ _ Hb1) as Hn.
    pose proof (h_len _ _ (b_holds _ _ Hb1)) as Hlen. rewrite skipn_length, (b_size _ _ Hb1) in Hlen.
    assert (bound ts dur s1 = bound ts dur s) as Hbd by (unfold bound; rewrite X1, X3; reflexivity).
    assert ((s_popped s1 = s_popped s /\ exists l, s_all s1 = s_all s ++ l) \/
            (s_popped s1 = S (s_popped s) /\ s_all s1 = s_all s)) as [[Hp [l Hl]]|[Hp Hl]].
    { clear - E1 Hx. unfold Record_model.astep in E1. destruct (s_crashed s); [discriminate|].
      destruct x as [x| | |]; try contradiction.
      - left. destruct (write x (s_ring s)) as [[r [|]]|]; injection E1 as <-; cbn; split; try reflexivity;
          [exists [x]; reflexivity|exists []; rewrite app_nil_r; reflexivity|exists []; rewrite app_nil_r; reflexivity].
      - unfold clean_step in E1.
        repeat match type of E1 with
        | match ?x with _ => _ end = _ => destruct x
        end; try discriminate; injection E1 as <-; cbn;
        solve [right; split; reflexivity | left; split; [reflexivity|exists []; rewrite app_nil_r; reflexivity]]. }
    + symmetry. rewrite Hl, app_length in *. apply (mod_inj n); [lia|congruence|lia].
    + destruct (Nat.eq_dec (s_popped s) (S a)) as [Eq|Hne].
      * destruct (Nat.eq_dec a b) as [Eab|Nab]; [symmetry; exact Eab|exfalso].
        destruct (nth_error (s_all s) (S a)) as [x1|] eqn:Ex.
        2:{ apply nth_error_None in Ex. rewrite Hl in *. lia. }
        pose proof (Hhigh (S a) x1 ltac:(lia) Ex) as B1.
        assert (S a < b)%nat as Hab.
        { destruct (Nat.eq_dec b (S a)) as [Eb'|]; [|lia]. exfalso. apply (mod_neq n (Z.of_nat a) (Z.of_nat b)); [lia|lia|congruence]. }
        rewrite <- Hl in Ex. pose proof (Hlow (S a) x1 Hab Ex) as B2. lia.
      * symmetry. rewrite Hl in *. apply (mod_inj n); [lia|congruence|lia].
Qed.

Lemma others_app : forall a b : list (action E), by_others a -> by_others b -> by_others (a ++ b).
Proof. intros a b Ha Hb. apply Forall_app. split; assumption. Qed.

Lemma all_keep : forall n s i a acts s', inv n s -> under n s i a -> arun s acts = Some s' ->
  nth_error (s_all s') a = nth_error (s_all s) a.
Proof.
  intros n s i a acts s' Hi (_ & Ha & _) H. destruct (arun_all _ _ _ _ _ _ _ H) as [l ->].
  rewrite nth_error_app1 by exact Ha. reflexivity.
Qed.

Lemma looks_all : forall gaps s i l s', looks ts dur limit quota s i gaps = Some (l, s') ->
  exists m, s_all s' = s_all s ++ m.
Proof.
  induction gaps as [|g gaps IH]; intros s i l s' H; cbn in H.
  - injection H as <- <-. exists []. rewrite app_nil_r. reflexivity.
  - destruct (arun s g) as [s1|] eqn:E1; [|discriminate].
    destruct (looks ts dur limit quota s1 i gaps) as [[l1 s2]|] eqn:E2; [|discriminate]. injection H as <- <-.
    destruct (arun_all _ _ _ _ _ _ _ E1) as [m1 H1]. destruct (IH _ _ _ _ E2) as [m2 H2].
    exists (m1 ++ m2). rewrite H2, H1, app_assoc. reflexivity.
Qed.

Lemma looks_lemma : forall gaps n s i a e l s', inv n s -> reading s i -> under n s i a ->
  nth_error (s_all s) a = Some e -> Forall by_others gaps ->
  looks ts dur limit quota s i gaps = Some (l, s') -> proper_data ts dur (s_all s') ->
  l = repeat (Some e) (length gaps) /\ inv n s' /\ reading s' i /\ under n s' i a /\
  nth_error (s_all s') a = Some e /\ s_rpc s' = s_rpc s /\ s_next s' = s_next s /\ s_upto s' = s_upto s.
Proof.
  induction gaps as [|g gaps IH]; intros n s i a e l s' Hi Hr Hu He Ho H Hpr; cbn in H.
  - injection H as <- <-. cbn. split; [reflexivity|]. split; [exact Hi|]. split; [exact Hr|]. split; [exact Hu|].
    split; [exact He|]. repeat split.
  - destruct (arun s g) as [s1|] eqn:E1; [|discriminate].
    destruct (looks ts dur limit quota s1 i gaps) as [[l1 s2]|] eqn:E2; [|discriminate]. injection H as <- <-.
    inversion Ho as [|? ? Hg Hgs]; subst.
    assert (proper_data ts dur (s_all s1)) as Hp1.
    { destruct (looks_all _ _ _ _ _ E2) as [m Hm]. rewrite Hm in Hpr. exact (proper_prefix _ _ _ _ Hpr). }
    destruct (looks_step n s i a g s1 Hi Hr Hu Hg E1 Hp1) as (Hi1 & Hr1 & Hu1).
    pose proof (all_keep n s i a g s1 Hi Hu E1) as Hk. rewrite He in Hk.
    destruct (others_run g s s1 Hg E1) as (X1 & X2 & X3).
    destruct (IH n s1 i a e l1 s2 Hi1 Hr1 Hu1 Hk Hgs E2 Hpr) as (Y1 & Y2 & Y3 & Y4 & Y5 & Y6 & Y7 & Y8).
    split; [cbn; rewrite (under_mem _ _ _ _ Hi1 Hu1), Hk, Y1; reflexivity|].
    split; [exact Y2|]. split; [exact Y3|]. split; [exact Y4|]. split; [exact Y5|]. repeat split; congruence.
Qed.

Lemma not_torn_lemma : forall n acts s i, supported_size n -> arun (init n) acts = Some s ->
  proper_data ts dur (s_all s) -> calm ts dur limit quota (init n) acts ->
  (exists k, s_rpc s = RDeref i k) \/ (exists e k, s_rpc s = RUpd e i k) ->
  exists e, s_mem s i = Some e /\ In e (s_all s) /\
    (forall e' k, s_rpc s = RUpd e' i k -> e' = e) /\
    forall gaps l s', Forall by_others gaps -> looks ts dur limit quota s i gaps = Some (l, s') ->
      proper_data ts dur (s_all s') ->
      l = repeat (Some e) (length gaps) /\ s_rpc s' = s_rpc s /\ (s_next s <= ts e -> In e (stored s')).
Proof.
  intros n acts s i Hn H Hpr Hc Hr.
  pose proof (inv_run ts dur limit quota _ _ _ _ (inv_init ts dur n Hn) H Hpr Hc) as Hi.
  destruct (reading_under n s i Hi Hr) as (a & Hu & Hlow).
  destruct (nth_error (s_all s) a) as [e|] eqn:Ee.
  2:{ exfalso. destruct Hu as (_ & Ha & _). apply nth_error_None in Ee. lia. }
  exists e. split; [rewrite (under_mem _ _ _ _ Hi Hu); exact Ee|].
  split; [eapply nth_error_In; exact Ee|]. split.
  - intros e' k Ek. pose proof (v_rpc _ _ _ _ Hi) as Hk. unfold rpc_ok in Hk. rewrite Ek in Hk.
    destruct Hk as (_ & Hne & [->|(b & Eb & Hbl & Hbp & Hbf & Hl & Hh)] & Hup & Hin); [contradiction|].
    apply In_nth_error in Hin. destruct Hin as [c Hcn].
    assert (c < length (s_all s))%nat as Hcl by (apply nth_error_Some; congruence).
    assert (a = b) as Eab.
    { destruct Hu as (Ea & Ha & Hpa & _). pose proof (v_base _ _ _ _ Hi) as Hb. pose proof (base_n _ _ Hb) as Hn2.
      pose proof (h_len _ _ (b_holds _ _ Hb)) as Hlen. rewrite skipn_length, (b_size _ _ Hb) in Hlen.
      apply (mod_inj n); [lia|congruence|lia]. }
    subst b. destruct (Nat.lt_trichotomy c a) as [Hca|[->|Hca]]; [exfalso| |exfalso].
    + pose proof (proj2 Hpr c a e' e Hca Hcn Ee) as B1. pose proof (Hl a e ltac:(lia) Ee) as B2. cbn in B2. lia.
    + congruence.
    + pose proof (Hh c e' Hca Hcn) as B1. destruct (proj1 Hpr e' (nth_error_In _ _ Hcn)) as (B2 & B3 & _). lia.
  - intros gaps l s' Ho Hl Hpr'.
    destruct (looks_lemma gaps n s i a e l s' Hi Hr Hu Ee Ho Hl Hpr') as (Y1 & Y2 & Y3 & Y4 & Y5 & Y6 & Y7 & Y8).
    split; [exact Y1|]. split; [exact Y6|]. intros Hnx.
    assert (s_popped s' <= a)%nat as Hp.
    { destruct Y4 as (_ & Ha' & Hp' & _). destruct (Nat.eq_dec (s_popped s') (S a)) as [Eq|]; [exfalso|lia].
      pose proof (v_rpc _ _ _ _ Y2) as Hk. unfold rpc_ok in Hk.
      assert (s_first s' <> None /\ s_next s' = s_upto s' /\ active s') as (Hf & Hnu & Hact).
      { unfold active. destruct Y3 as [[k E1]|(e0 & k & E1)]; rewrite E1 in *.
        - destruct Hk as (K1 & Hne & [->|(b & _ & _ & _ & Hf & _)]); [contradiction|]. repeat split; [exact Hf|exact K1|discriminate].
        - destruct Hk as (K1 & Hne & [->|(b & _ & _ & _ & Hf & _)] & _); [contradiction|]. repeat split; [exact Hf|exact K1|discriminate]. }
      destruct (s_first s') as [t|] eqn:Ef; [|contradiction].
      destruct (v_some _ _ _ _ Y2 t Ef) as (_ & _ & _ & H4 & _).
      specialize (H4 Hact a e ltac:(lia) Y5). lia. }
    unfold stored. apply nth_error_In with (a - s_popped s')%nat. rewrite nth_skipn.
    replace (s_popped s' + (a - s_popped s'))%nat with a by lia. exact Y5.
Qed.

End Proofs3.
