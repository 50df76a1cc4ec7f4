From Coq Require Import ZArith List Bool Lia ZifyBool Sorted.
From Verif Require Import Base_model Ring_model Ring_spec Ring_proofs Search_model Search_spec Search_proofs
  Record_model Record_spec Record_proofs.
Import ListNotations.
Open Scope Z_scope.

Section Proofs.
Context {E : Type}.
Variable ts dur : E -> Z.
Variable limit : Z.
Variable quota : Z -> Z.

Notation astep := (astep ts dur limit quota).
Notation arun := (arun ts dur limit quota).
Notation rec_step := (rec_step ts dur).
Notation clean_step := (clean_step ts limit quota).
Notation proper_data := (proper_data ts dur).

Lemma base_run : forall acts n s s', base n s -> arun s acts = Some s' -> base n s'.
Proof.
  induction acts as [|a acts IH]; intros n s s' Hb H; cbn in H.
  - injection H as <-. exact Hb.
  - destruct (astep s a) as [s1|] eqn:E1; [|discriminate].
    apply IH with s1; [|exact H]. eapply base_step; eassumption.
Qed.

(* --- the file is in sequence, whatever the schedule --- *)

Definition seq_ok (s : rstate E) : Prop :=
  in_sequence ts dur (s_file s) /\
  (forall i e, s_mem s i = Some e -> In e (s_all s)) /\
  match s_rpc s with
  | RIdle => True
  | RFront | RSet _ => s_file s = []
  | RUpd e _ _ => In e (s_all s) /\ forall x, In x (s_file s) -> ts x + dur x <= ts e + dur e
  | _ => forall x, In x (s_file s) -> ts x + dur x <= s_next s
  end /\ (forall x, In x (s_file s) -> In x (s_all s)).

Lemma seq_snoc : forall l e, in_sequence ts dur l -> (forall x, In x l -> ts x + dur x <= ts e) ->
  in_sequence ts dur (l ++ [e]).
Proof.
  unfold in_sequence. induction l as [|y l IH]; intros e H He; cbn.
  - constructor; constructor.
  - inversion H as [|? ? H1 H2 Eq]; subst. constructor.
    + apply IH; [exact H1|]. intros x Hx. apply He. right. exact Hx.
    + apply Forall_app. split; [exact H2|]. constructor; [|constructor]. apply He. left. reflexivity.
Qed.

Lemma seq_step : forall s a s', seq_ok s -> sane_data ts dur (s_all s') -> astep s a = Some s' -> seq_ok s'.
Proof.
  intros s a s' (Hs & Hm & Hr & Hin) Hd H.
  unfold Record_model.astep in H. destruct (s_crashed s) eqn:Ecr; [discriminate|].
  destruct a as [x| | |ex].
  - destruct (write x (s_ring s)) as [[r [|]]|]; injection H as <-; unfold seq_ok; cbn in *.
    + repeat split; try assumption.
      * intros i e. unfold upd. destruct (i =? r_write (s_ring s)); intros Hi.
        -- injection Hi as <-. apply in_or_app. right. left. reflexivity.
        -- apply in_or_app. left. apply Hm with i. exact Hi.
      * destruct (s_rpc s); try assumption. destruct Hr as [X1 X2]. split; [apply in_or_app; left; exact X1|exact X2].
      * intros y Hy. apply in_or_app. left. apply Hin. exact Hy.
    + repeat split; assumption.
    + repeat split; assumption.
  - assert (s_file s' = s_file s /\ s_mem s' = s_mem s /\ s_rpc s' = s_rpc s /\ s_all s' = s_all s /\ s_next s' = s_next s) as (E1 & E2 & E3 & E4 & E5).
    { unfold Record_model.clean_step in H. destruct (s_cpc s) as [| |[|k]|k|].
      + destruct (limit <? occupancy (s_ring s)); injection H as <-; repeat split; reflexivity.
      + destruct (s_running s =? 0); [|discriminate].
        destruct (limit <? occupancy (s_ring s)); injection H as <-; repeat split; reflexivity.
      + injection H as <-; repeat split; reflexivity.
      + destruct (deref_opt (s_ring s) (front (s_ring s))) as [[y|]|]; try destruct (ts y <? s_next s);
        injection H as <-; repeat split; reflexivity.
      + destruct (pop 1 (s_ring s)); injection H as <-; repeat split; reflexivity.
      + destruct (deref_opt (s_ring s) (front (s_ring s))) as [[y|]|]; injection H as <-; repeat split; reflexivity. }
    unfold seq_ok. rewrite E1, E2, E3, E4, E5. repeat split; assumption.
  - destruct (s_rpc s) eqn:Ep; try discriminate. injection H as <-. unfold seq_ok. cbn.
    repeat split; try assumption; try constructor; intros x [].
  - unfold Record_model.rec_step in H.
    destruct (s_rpc s) as [| | |v| | |i|i k|i k|e i k|i k] eqn:Ep.
    + discriminate.
    + destruct ex.
      * injection H as <-. unfold seq_ok. cbn. repeat split; try assumption.
      * destruct (s_next s =? 0) eqn:E0.
        -- injection H as <-. unfold seq_ok. cbn in *. repeat split; try assumption.
           destruct (s_file s) as [|y f] eqn:Ef; [reflexivity|]. exfalso.
           specialize (Hr y (or_introl eq_refl)). destruct (Hd y (Hin y (or_introl eq_refl))). lia.
        -- destruct (s_requested s); injection H as <-; unfold seq_ok; cbn; rewrite ?Ep; repeat split; assumption.
    + destruct (deref_opt (s_ring s) (front (s_ring s))) as [[y|]|]; injection H as <-; unfold seq_ok; cbn; rewrite ?Ep;
        repeat split; assumption.
    + injection H as <-; unfold seq_ok; cbn; repeat split; try assumption. rewrite Hr. intros x [].
    + destruct (mutex_free s && negb (s_requested s)); [|discriminate]. injection H as <-; unfold seq_ok; cbn; repeat split; assumption.
    + destruct (bs_lower_bound ts (s_ring s) (s_next s)); injection H as <-; unfold seq_ok; cbn; rewrite ?Ep; repeat split; assumption.
    + destruct (mutex_free s); [|discriminate]. injection H as <-; unfold seq_ok; cbn; repeat split; assumption.
    + destruct (negb (i =? it_end) && it_good (s_ring s) i && (k <? 1000)%nat); injection H as <-; unfold seq_ok; cbn; repeat split; assumption.
    + destruct (s_mem s i) as [e|] eqn:Em; [destruct (s_next s <=? ts e) eqn:Et|]; injection H as <-; unfold seq_ok; cbn in *; rewrite ?Ep;
        repeat split; try assumption.
      * apply seq_snoc; [exact Hs|]. intros x Hx. specialize (Hr x Hx). lia.
      * apply Hm with i. exact Em.
      * intros x Hx. apply in_app_or in Hx. destruct Hx as [Hx|[<-|[]]]; [|lia].
        specialize (Hr x Hx). destruct (Hd e (Hm i e Em)). lia.
      * intros x Hx. apply in_app_or in Hx. destruct Hx as [Hx|[<-|[]]]; [apply Hin; exact Hx|apply Hm with i; exact Em].
    + injection H as <-; unfold seq_ok; cbn in *; repeat split; try assumption. destruct Hr as [X1 X2].
      destruct (Hd e X1) as (Y1 & Y2 & Y3). rewrite u64_small by lia. exact X2.
    + injection H as <-; unfold seq_ok; cbn; repeat split; assumption.
Qed.

Lemma seq_run : forall acts s s', seq_ok s -> arun s acts = Some s' -> sane_data ts dur (s_all s') -> seq_ok s'.
Proof.
  induction acts as [|a acts IH]; intros s s' Hi H Hd; cbn in H.
  - injection H as <-. exact Hi.
  - destruct (astep s a) as [s1|] eqn:E1; [|discriminate].
    apply IH with s1; try assumption. apply seq_step with s a; try assumption.
    destruct (arun_all _ _ _ _ _ _ _ H) as [l Hl]. intros x Hx. apply Hd. rewrite Hl. apply in_or_app. left. exact Hx.
Qed.

Lemma in_sequence_lemma : forall n acts s, arun (init n) acts = Some s -> sane_data ts dur (s_all s) ->
  in_sequence ts dur (s_file s) /\ (forall x, In x (s_file s) -> In x (s_all s)).
Proof.
  intros n acts s H Hd. assert (seq_ok s) as (H1 & _ & _ & H2).
  { apply seq_run with acts (init n); try assumption. unfold seq_ok. cbn.
    repeat split; try constructor; intros; try discriminate; contradiction. }
  split; assumption.
Qed.

(* --- no null dereference as long as the clean-up share is below one --- *)

Definition clean_ok (s : rstate E) : Prop :=
  s_crashed s = false /\
  match s_cpc s with
  | CIdle | CWait => True
  | CLoop k => (s_popped s + k < length (s_all s))%nat
  | CPop k => (s_popped s + S k < length (s_all s))%nat
  | CEnd => (s_popped s < length (s_all s))%nat
  end.

Lemma bs_no_crash : forall n (s : rstate E) key, base n s -> exists i, bs_lower_bound ts (s_ring s) key = SFound i.
Proof.
  intros n s key Hb. pose proof (b_holds _ _ Hb) as Hh.
  destruct (skipn (s_popped s) (s_all s)) as [|x0 l0] eqn:El.
  - exists it_end. apply bs_nil. exact Hh.
  - pose proof (bs_raw ts _ _ x0 l0 key Hh eq_refl) as X. destruct (key <? ts x0).
    + exists it_end. exact X.
    + destruct X as (k & X & _). eexists. exact X.
Qed.

Lemma occupancy_base : forall n (s : rstate E), base n s -> occupancy (s_ring s) = Z.of_nat (length (s_all s) - s_popped s).
Proof. intros n s Hb. rewrite (occupancy_ok _ _ (b_holds _ _ Hb)), skipn_length. reflexivity. Qed.

Lemma clean_ok_step : forall n s a s', 0 <= limit -> (forall o, 0 < o -> quota o < o) ->
  inv ts dur n s -> proper_data (s_all s') -> calm_step s a -> clean_ok s -> astep s a = Some s' -> clean_ok s'.
Proof.
  intros n s a s' Hlim Hq Hi Hpr Hcalm [Hc Hk] H.
  pose proof Hi as [Hb Hr Hcp Hno Hso].
  unfold Record_model.astep in H. rewrite Hc in H.
  destruct a as [x| | |ex].
  - destruct (write x (s_ring s)) as [[r [|]]|] eqn:Ew; [| |exfalso; exact (write_not_crash n s x Hb Ew)]; injection H as <-; split; cbn.
    + reflexivity.
    + rewrite app_length. cbn [length]. destruct (s_cpc s); try exact I; lia.
    + reflexivity.
    + exact Hk.
  - unfold Record_model.clean_step in H. destruct (s_cpc s) as [| |[|k]|k|] eqn:Ec.
    + destruct (limit <? occupancy (s_ring s)); injection H as <-; split; cbn; rewrite ?Ec; auto.
    + destruct (s_running s =? 0); [|discriminate].
      rewrite (occupancy_base _ _ Hb) in H.
      destruct (limit <? Z.of_nat (length (s_all s) - s_popped s)) eqn:El; injection H as <-; split; cbn; auto.
      specialize (Hq (Z.of_nat (length (s_all s) - s_popped s)) ltac:(lia)). lia.
    + injection H as <-; split; cbn; [first [exact Hc|reflexivity]|lia].
    + rewrite (base_front _ _ Hb) in H.
      destruct (nth_error (s_all s) (s_popped s)) as [y|] eqn:Ey; [|apply nth_error_None in Ey; lia].
      destruct (ts y <? s_next s); injection H as <-; split; cbn; auto; lia.
    + destruct (pop 1 (s_ring s)) as [r|] eqn:Epop.
      * injection H as <-. split; cbn; [first [exact Hc|reflexivity]|lia].
      * exfalso. destruct (pop_ok 1 _ _ (b_holds _ _ Hb)) as (r' & E1 & _); [rewrite skipn_length; lia|]. congruence.
    + rewrite (base_front _ _ Hb) in H.
      destruct (nth_error (s_all s) (s_popped s)) as [y|] eqn:Ey; [|apply nth_error_None in Ey; lia].
      injection H as <-; split; cbn; auto.
  - destruct (s_rpc s); try discriminate. injection H as <-. split; cbn; first [assumption|reflexivity].
  - unfold Record_model.rec_step in H. unfold rpc_ok in Hr.
    destruct (s_rpc s) as [| | |v| | |i|i k|i k|e i k|i k] eqn:Ep; try discriminate.
    + destruct ex; [injection H as <-; split; cbn; first [assumption|reflexivity]|].
      destruct (s_next s =? 0); [injection H as <-; split; cbn; first [assumption|reflexivity]|].
      destruct (s_requested s); injection H as <-; split; cbn; first [assumption|reflexivity].
    + rewrite (base_front _ _ Hb) in H. destruct (nth_error (s_all s) (s_popped s)); injection H as <-; split; cbn; first [assumption|reflexivity].
    + injection H as <-; split; cbn; first [assumption|reflexivity].
    + destruct (mutex_free s && negb (s_requested s)); [|discriminate]. injection H as <-; split; cbn; first [assumption|reflexivity].
    + destruct (bs_no_crash n s (s_next s) Hb) as [i Ei]. rewrite Ei in H. injection H as <-; split; cbn; first [assumption|reflexivity].
    + destruct (mutex_free s); [|discriminate]. injection H as <-; split; cbn; first [assumption|reflexivity].
    + destruct (negb (i =? it_end) && it_good (s_ring s) i && (k <? 1000)%nat); injection H as <-; split; cbn; first [assumption|reflexivity].
    + destruct Hr as (X1 & X2 & [X3|(a & Ea & Ha & Hl0 & Hf & Hlow & Hhigh)]); [congruence|].
      assert (Z.of_nat (length (s_all s)) <= Z.of_nat a + n) as Hl.
      { pose proof (h_len _ _ (b_holds _ _ Hb)) as HL. rewrite skipn_length, (b_size _ _ Hb) in HL. lia. }
      rewrite Ea, (b_mem _ _ Hb a Ha Hl) in H.
      destruct (nth_error (s_all s) a) as [e|] eqn:Ee; [|apply nth_error_None in Ee; lia].
      destruct (s_next s <=? ts e); injection H as <-; split; cbn; first [assumption|reflexivity].
    + injection H as <-; split; cbn; first [assumption|reflexivity].
    + injection H as <-; split; cbn; first [assumption|reflexivity].
Qed.

Lemma clean_ok_run : forall acts n s s', 0 <= limit -> (forall o, 0 < o -> quota o < o) ->
  inv ts dur n s -> proper_data (s_all s') -> calm ts dur limit quota s acts -> clean_ok s ->
  arun s acts = Some s' -> clean_ok s'.
Proof.
  induction acts as [|a acts IH]; intros n s s' Hlim Hq Hi Hpr Hc Hk H; cbn in H.
  - injection H as <-. exact Hk.
  - destruct (astep s a) as [s1|] eqn:E1; [|discriminate]. cbn in Hc. rewrite E1 in Hc. destruct Hc as [Hc1 Hc2].
    assert (proper_data (s_all s1)) as Hpr1.
    { destruct (arun_all _ _ _ _ _ _ _ H) as [l Hl]. rewrite Hl in Hpr. exact (proper_prefix _ _ _ _ Hpr). }
    apply IH with n s1; try assumption.
    + eapply inv_step; eassumption.
    + eapply clean_ok_step; eassumption.
Qed.

Lemma no_crash_lemma : forall n acts s, supported_size n -> 0 <= limit -> (forall o, 0 < o -> quota o < o) ->
  arun (init n) acts = Some s -> proper_data (s_all s) -> calm ts dur limit quota (init n) acts ->
  s_crashed s = false.
Proof.
  intros n acts s Hn Hlim Hq H Hpr Hc.
  apply (clean_ok_run acts n (init n) s Hlim Hq (inv_init ts dur n Hn) Hpr Hc); [|exact H].
  split; cbn; auto.
Qed.

(* --- catching up --- *)

Notation from := (fun N => filter (fun x => N <=? ts x)).

Lemma from_all : forall N l, (forall x, In x l -> N <= ts x) -> from N l = l.
Proof.
  intros N l. induction l as [|x l IH]; intros H; [reflexivity|]. cbn.
  destruct (N <=? ts x) eqn:Et; [|specialize (H x (or_introl eq_refl)); lia].
  f_equal. apply IH. intros y Hy. apply H. right. exact Hy.
Qed.

Lemma in_skipn_nth : forall (l : list E) p x, In x (skipn p l) -> exists b, (p <= b)%nat /\ nth_error l b = Some x.
Proof.
  intros l p x Hx. apply In_nth_error in Hx. destruct Hx as [k Hk]. rewrite nth_skipn in Hk.
  exists (p + k)%nat. split; [lia|exact Hk].
Qed.

Lemma arun_app : forall a b s s1, arun s a = Some s1 -> arun s (a ++ b) = arun s1 b.
Proof.
  induction a as [|x a IH]; intros b s s1 H; cbn in *.
  - injection H as ->. reflexivity.
  - destruct (astep s x) as [s2|]; [|discriminate]. apply IH. exact H.
Qed.

Lemma repeat_app' : forall A (x : A) a b, repeat x (a + b) = repeat x a ++ repeat x b.
Proof. intros. apply repeat_app. Qed.

Definition same_but (s s' : rstate E) : Prop :=
  s_ring s' = s_ring s /\ s_mem s' = s_mem s /\ s_all s' = s_all s /\ s_popped s' = s_popped s /\
  s_cpc s' = s_cpc s /\ s_requested s' = s_requested s /\ s_crashed s' = s_crashed s /\ s_first s' = s_first s.

Lemma same_but_trans : forall a b c, same_but a b -> same_but b c -> same_but a c.
Proof. unfold same_but. intros a b c (?&?&?&?&?&?&?&?) (?&?&?&?&?&?&?&?). repeat split; congruence. Qed.

Lemma arun_step : forall m s s1, s_crashed s = false -> rec_step false s = Some s1 ->
  arun s (repeat (ARec false) (S m)) = arun s1 (repeat (ARec false) m).
Proof. intros m s s1 Hc H. cbn [repeat Record_model.arun]. unfold Record_model.astep. rewrite Hc, H. reflexivity. Qed.

Lemma loop_catches_up : forall j a k n s,
  base n s -> proper_data (s_all s) -> s_crashed s = false ->
  (length (s_all s) - a = j)%nat -> (s_popped s <= a < length (s_all s))%nat ->
  s_rpc s = RLoop (Z.of_nat a mod n) k -> (k + j <= 1000)%nat ->
  exists m s', arun s (repeat (ARec false) m) = Some s' /\ same_but s s' /\ s_rpc s' = RTop /\
    s_file s' = s_file s ++ from (s_next s) (skipn a (s_all s)).
Proof.
  induction j as [|j IH]; intros a k n s Hb Hpr Hc Hj Ha Hp Hk; [lia|].
  pose proof (base_n _ _ Hb) as Hn.
  assert (Z.of_nat (length (s_all s)) <= Z.of_nat a + n) as Hl.
  { pose proof (h_len _ _ (b_holds _ _ Hb)) as HL. rewrite skipn_length, (b_size _ _ Hb) in HL. lia. }
  destruct (nth_error (s_all s) a) as [e|] eqn:Ee; [|apply nth_error_None in Ee; lia].
  pose proof (proj1 Hpr e (nth_error_In _ _ Ee)) as (Y1 & Y2 & Y3).
  assert (it_good (s_ring s) (Z.of_nat a mod n) = true) as Hg.
  { apply (good_sound _ _ _ (b_holds _ _ Hb)).
    - rewrite (b_size _ _ Hb). apply Z.mod_pos_bound. lia.
    - exists (a - s_popped s)%nat. rewrite skipn_length. split; [lia|].
      rewrite (b_size _ _ Hb), (b_read _ _ Hb), Zplus_mod_idemp_l. f_equal. lia. }
  assert ((Z.of_nat a mod n =? it_end) = false) as Hne.
  { pose proof (Z.mod_pos_bound (Z.of_nat a) n ltac:(lia)). unfold it_end, max_u32. lia. }
  assert (it_incr (s_ring s) (Z.of_nat a mod n) =
          if (S a <? length (s_all s))%nat then Z.of_nat (S a) mod n else it_end) as Hinc.
  { replace (Z.of_nat a mod n) with ((r_read (s_ring s) + Z.of_nat (a - s_popped s)) mod r_size (s_ring s)).
    2:{ rewrite (b_size _ _ Hb), (b_read _ _ Hb), Zplus_mod_idemp_l. f_equal. lia. }
    rewrite (incr_index _ _ _ (b_holds _ _ Hb)) by (rewrite skipn_length; lia). rewrite skipn_length.
    replace (Z.of_nat (a - s_popped s) + 1 <? Z.of_nat (length (s_all s) - s_popped s))
      with (S a <? length (s_all s))%nat by lia.
    destruct (S a <? length (s_all s))%nat; [|reflexivity].
    rewrite (b_size _ _ Hb), (b_read _ _ Hb), Zplus_mod_idemp_l. f_equal. lia. }
  rewrite (skipn_cons_nth _ _ _ Ee).
  (* one element *)
  assert (exists m1 s1 k1, arun s (repeat (ARec false) m1) = Some s1 /\ same_but s s1 /\
            s_rpc s1 = RLoop (it_incr (s_ring s) (Z.of_nat a mod n)) k1 /\ (k1 <= S k)%nat /\
            (if s_next s <=? ts e then s_file s1 = s_file s ++ [e] /\ s_next s1 = ts e + dur e
             else s_file s1 = s_file s /\ s_next s1 = s_next s)) as (m1 & s1 & k1 & R1 & SB1 & P1 & K1 & F1).
  { destruct (s_next s <=? ts e) eqn:Et.
    - set (i := Z.of_nat a mod n) in *.
      set (sA := set_rpc s (RDeref i k)).
      set (sB := mk_rstate (s_ring s) (s_mem s) (s_next s) (s_requested s) (s_running s) (s_cpc s) (RUpd e i k)
                           (s_file s ++ [e]) (s_crashed s) (s_all s) (s_popped s) (s_first s) (s_upto s)).
      set (sC := set_next sB (u64 (ts e + dur e)) (RIncr i (S k)) (s_first s)).
      set (sD := set_rpc sC (RLoop (it_incr (s_ring s) i) (S k))).
      exists 4%nat, sD, (S k). split; [|split; [|split; [reflexivity|split; [lia|split; [reflexivity|]]]]].
      + rewrite (arun_step 3 s sA Hc).
        2:{ unfold Record_model.rec_step. rewrite Hp, Hne, Hg. destruct (k <? 1000)%nat eqn:Ek; [reflexivity|lia]. }
        rewrite (arun_step 2 sA sB Hc).
        2:{ unfold Record_model.rec_step. cbn [sA s_rpc s_mem s_next set_rpc]. unfold i at 1.
            rewrite (b_mem _ _ Hb a ltac:(lia) Hl), Ee, Et. reflexivity. }
        rewrite (arun_step 1 sB sC Hc) by reflexivity.
        rewrite (arun_step 0 sC sD Hc) by reflexivity. reflexivity.
      + unfold same_but. cbn. repeat split; reflexivity.
      + cbn. apply u64_small. unfold two64, max_u64 in *. lia.
    - set (i := Z.of_nat a mod n) in *.
      set (sA := set_rpc s (RDeref i k)).
      set (sC := set_rpc s (RIncr i k)).
      set (sD := set_rpc s (RLoop (it_incr (s_ring s) i) k)).
      exists 3%nat, sD, k. split; [|split; [|split; [reflexivity|split; [lia|split; reflexivity]]]].
      + rewrite (arun_step 2 s sA Hc).
        2:{ unfold Record_model.rec_step. rewrite Hp, Hne, Hg. destruct (k <? 1000)%nat eqn:Ek; [reflexivity|lia]. }
        rewrite (arun_step 1 sA sC Hc).
        2:{ unfold Record_model.rec_step. cbn [sA s_rpc s_mem s_next set_rpc]. unfold i at 1.
            rewrite (b_mem _ _ Hb a ltac:(lia) Hl), Ee, Et. reflexivity. }
        rewrite (arun_step 0 sC sD Hc) by reflexivity. reflexivity.
      + unfold same_but. cbn. repeat split; reflexivity. }
  destruct SB1 as (S1 & S2 & S3 & S4 & S5 & S6 & S7 & S8).
  assert (base n s1) as Hb1 by (apply (base_same n s); assumption).
  rewrite Hinc in P1.
  destruct (S a <? length (s_all s))%nat eqn:El.
  - destruct (IH (S a) k1 n s1) as (m2 & s2 & R2 & SB2 & P2 & F2).
    + exact Hb1.
    + rewrite S3. exact Hpr.
    + congruence.
    + rewrite S3. lia.
    + rewrite S3, S4. lia.
    + exact P1.
    + lia.
    + exists (m1 + m2)%nat, s2. split; [|split; [|split]].
      * rewrite repeat_app'. rewrite (arun_app _ _ _ _ R1). exact R2.
      * apply same_but_trans with s1; [unfold same_but; repeat split; assumption|exact SB2].
      * exact P2.
      * rewrite F2, S3. cbn [filter].
        destruct (s_next s <=? ts e) eqn:Et; destruct F1 as [F1 F1n]; rewrite F1, F1n; [|reflexivity].
        rewrite <- app_assoc. f_equal. cbn [app].
        assert (forall x, In x (skipn (S a) (s_all s)) -> ts e + dur e <= ts x) as Hge.
        { intros x Hx. apply in_skipn_nth in Hx. destruct Hx as (b & Hb' & Hx).
          apply (proj2 Hpr a b e x); [lia|exact Ee|exact Hx]. }
        rewrite (from_all (ts e + dur e)) by exact Hge.
        rewrite (from_all (s_next s)); [reflexivity|]. intros x Hx. specialize (Hge x Hx). lia.
  - assert (skipn (S a) (s_all s) = []) as Hnil by (apply skipn_all2; lia).
    exists (m1 + 1)%nat, (set_rpc s1 RTop). split; [|split; [|split]].
    + rewrite repeat_app'. rewrite (arun_app _ _ _ _ R1). cbn [repeat Record_model.arun].
      unfold Record_model.astep. rewrite S7, ?Hc. unfold Record_model.rec_step. rewrite P1, Z.eqb_refl. reflexivity.
    + unfold same_but. cbn. repeat split; assumption.
    + reflexivity.
    + cbn [s_file set_rpc]. rewrite Hnil. cbn [filter].
      destruct (s_next s <=? ts e); destruct F1 as [F1 F1n]; rewrite F1; [reflexivity|]. rewrite app_nil_r. reflexivity.
Qed.

Lemma catches_up_lemma : forall n acts s N, supported_size n -> arun (init n) acts = Some s ->
  proper_data (s_all s) -> s_crashed s = false -> s_rpc s = RTop -> s_cpc s = CIdle -> s_requested s = false ->
  s_next s = N -> N <> 0 -> (exists x, In x (stored s) /\ ts x <= N) -> (length (stored s) <= 1000)%nat ->
  exists m s', arun s (repeat (ARec false) m) = Some s' /\ s_rpc s' = RTop /\
    stored s' = stored s /\ s_file s' = s_file s ++ filter (fun x => N <=? ts x) (stored s).
Proof.
  intros n acts s N Hn H Hpr Hc Hp Hcp Hrq HN HN0 (x & Hx & Hxt) Hlen.
  assert (base n s) as Hb by (eapply base_run; [apply base_init; exact Hn|exact H]).
  unfold stored in *.
  destruct (bs_found ts _ _ (s_next s) (b_holds _ _ Hb) (non_decreasing_skipn _ _ _ (proper_sorted _ _ _ Hpr)))
        as [[Hnone _]|(k & (Hk & Hle & Hgt) & Es)].
  { specialize (Hnone x Hx). lia. }
  set (s0 := set_running s (s_running s + 1 - 1) (RLoop ((r_read (s_ring s) + Z.of_nat k) mod r_size (s_ring s)) 0)).
  assert (arun s (repeat (ARec false) 4) = Some s0) as R0.
  { rewrite (arun_step 3 s (set_rpc s RWait) Hc).
    2:{ unfold Record_model.rec_step. rewrite Hp. destruct (s_next s =? 0) eqn:E0; [lia|]. rewrite Hrq. reflexivity. }
    rewrite (arun_step 2 _ (set_running s (s_running s + 1) RSearch)).
    2:{ exact Hc. }
    2:{ unfold Record_model.rec_step, mutex_free. cbn [s_rpc s_cpc s_requested set_rpc]. rewrite Hcp, Hrq. reflexivity. }
    rewrite (arun_step 1 _ (set_running s (s_running s + 1) (RDec ((r_read (s_ring s) + Z.of_nat k) mod r_size (s_ring s))))).
    2:{ exact Hc. }
    2:{ unfold Record_model.rec_step. cbn [s_rpc s_ring s_next set_running]. rewrite Es. reflexivity. }
    rewrite (arun_step 0 _ s0).
    2:{ exact Hc. }
    2:{ unfold Record_model.rec_step, mutex_free. cbn [s_rpc s_cpc set_running]. rewrite Hcp. reflexivity. }
    reflexivity. }
  rewrite skipn_length in Hk, Hlen.
  destruct (loop_catches_up (length (s_all s) - (s_popped s + k)) (s_popped s + k) 0 n s0) as (m & s' & R1 & SB & P & F).
  - apply (base_same n s); auto.
  - exact Hpr.
  - exact Hc.
  - reflexivity.
  - cbn. lia.
  - cbn [s0 set_running s_rpc]. f_equal. rewrite (b_size _ _ Hb), (b_read _ _ Hb), Zplus_mod_idemp_l. f_equal. lia.
  - lia.
  - exists (4 + m)%nat, s'. destruct SB as (S1 & S2 & S3 & S4 & _). cbn in S3, S4. split; [|split; [|split]].
    + rewrite repeat_app'. rewrite (arun_app _ _ _ _ R0). exact R1.
    + exact P.
    + rewrite S3, S4. reflexivity.
    + rewrite F. cbn [s0 set_running s_file s_next s_all]. f_equal. rewrite HN.
      (* elements before position k lie below N *)
      rewrite <- (firstn_skipn k (skipn (s_popped s) (s_all s))) at 1.
      rewrite filter_app.
      assert (filter (fun y => N <=? ts y) (firstn k (skipn (s_popped s) (s_all s))) = []) as Hz.
      { assert (forall y, In y (firstn k (skipn (s_popped s) (s_all s))) -> ts y < N) as Hlow.
        { intros y Hy. apply In_nth_error in Hy. destruct Hy as [b Hy].
          assert (b < length (firstn k (skipn (s_popped s) (s_all s))))%nat as Hbl by (apply nth_error_Some; congruence).
          rewrite firstn_length, skipn_length in Hbl.
          assert (nth_error (s_all s) (s_popped s + b) = Some y) as Hy'.
          { rewrite <- nth_skipn. rewrite <- (firstn_skipn k (skipn (s_popped s) (s_all s))).
            rewrite nth_error_app1; [exact Hy|]. rewrite firstn_length, skipn_length. lia. }
          destruct (nth_error (s_all s) (s_popped s + k)) as [z|] eqn:Ez; [|apply nth_error_None in Ez; lia].
          specialize (Hle k z (le_n _)). rewrite nth_skipn in Hle. specialize (Hle Ez).
          pose proof (proj2 Hpr (s_popped s + b)%nat (s_popped s + k)%nat y z ltac:(lia) Hy' Ez).
          destruct (proj1 Hpr y (nth_error_In _ _ Hy')). lia. }
        clear - Hlow. induction (firstn k (skipn (s_popped s) (s_all s))) as [|y l IH]; [reflexivity|].
        cbn. destruct (N <=? ts y) eqn:Et; [specialize (Hlow y (or_introl eq_refl)); lia|].
        apply IH. intros z Hz. apply Hlow. right. exact Hz. }
      rewrite Hz. cbn [app]. f_equal.
      assert (forall l p q, skipn q (skipn p l) = @skipn E (p + q) l) as Hss.
      { clear. induction l as [|y l IH]; intros p q; [rewrite !skipn_nil; reflexivity|].
        destruct p; [reflexivity|]. cbn [skipn Nat.add]. apply IH. }
      rewrite Hss. reflexivity.
Qed.

(* --- stalled recording --- *)

Definition stalled (N : Z) (s0 s : rstate E) : Prop :=
  s_crashed s = false /\ s_next s = N /\ N <> 0 /\ s_file s = s_file s0 /\ s_popped s = s_popped s0 /\
  (s_popped s < length (s_all s))%nat /\
  (forall x, In x (stored s) -> N < ts x) /\ (forall k, s_cpc s <> CPop k) /\
  match s_rpc s with
  | RTop | RWait | RSearch => True
  | RDec i | RLoop i _ => i = it_end
  | _ => False
  end.

Lemma stalled_step : forall n N s0 s a s', base n s -> stalled N s0 s -> a <> ARec true ->
  (forall x, a = AWrite x -> N < ts x) -> astep s a = Some s' ->
  stalled N s0 s' /\
  stored s' = firstn (Z.to_nat (n - 1)) (stored s ++ arrivals [a]).
Proof.
  intros n N s0 s a s' Hb (Hc & HN & HN0 & Hf & Hp & Hlt & Hst & Hcp & Hr) Hex Hx H.
  pose proof (h_len _ _ (b_holds _ _ Hb)) as HL. rewrite (b_size _ _ Hb) in HL.
  pose proof (base_n _ _ Hb) as Hn.
  assert (firstn (Z.to_nat (n - 1)) (stored s ++ []) = stored s) as Hsame.
  { rewrite app_nil_r. apply firstn_all2. unfold stored. lia. }
  unfold Record_model.astep in H. rewrite Hc in H. unfold stalled, stored in *.
  destruct (nth_error (s_all s) (s_popped s)) as [y|] eqn:Ey; [|apply nth_error_None in Ey; lia].
  assert (N < ts y) as Hy.
  { apply Hst. rewrite (skipn_cons_nth _ _ _ Ey). left. reflexivity. }
  destruct a as [x| | |ex].
  - cbn [arrivals]. destruct (write x (s_ring s)) as [[r [|]]|] eqn:Ew; injection H as <-; cbn [s_crashed s_next s_file s_popped s_all s_cpc s_rpc].
    + pose proof (base_awrite n s x r Hb Ew) as Hb'. pose proof (h_len _ _ (b_holds _ _ Hb')) as HL'.
      rewrite (b_size _ _ Hb') in HL'. cbn [s_popped s_all] in HL'.
      assert (skipn (s_popped s) (s_all s ++ [x]) = skipn (s_popped s) (s_all s) ++ [x]) as Hsk.
      { rewrite skipn_app. replace (s_popped s - length (s_all s))%nat with O by lia. reflexivity. }
      split.
      * repeat split; try assumption.
        -- rewrite app_length. lia.
        -- rewrite Hsk. intros z Hz. apply in_app_or in Hz. destruct Hz as [Hz|[<-|[]]]; [apply Hst; exact Hz|apply Hx; reflexivity].
      * rewrite Hsk. symmetry. apply firstn_all2. rewrite <- Hsk. lia.
    + split; [repeat split; assumption|].
      assert (Z.of_nat (length (skipn (s_popped s) (s_all s))) = n - 1) as Hfull.
      { destruct (Z.eq_dec (Z.of_nat (length (skipn (s_popped s) (s_all s)))) (n - 1)) as [|Hne]; [assumption|].
        destruct (write_ok _ _ x (b_holds _ _ Hb)) as (r' & E1 & _); [rewrite (b_size _ _ Hb); lia|]. congruence. }
      rewrite <- Hfull, Nat2Z.id. rewrite firstn_app, Nat.sub_diag, firstn_all. cbn. rewrite app_nil_r. reflexivity.
    + exfalso. exact (write_not_crash n s x Hb Ew).
  - cbn [arrivals]. rewrite Hsame. unfold Record_model.clean_step in H. destruct (s_cpc s) as [| |[|k]|k|] eqn:Ec.
    + destruct (limit <? occupancy (s_ring s)); injection H as <-; cbn; rewrite ?Ec; (split; [|reflexivity]); repeat split; try assumption; discriminate.
    + destruct (s_running s =? 0); [|discriminate].
      destruct (limit <? occupancy (s_ring s)); injection H as <-; cbn; (split; [|reflexivity]); repeat split; try assumption; discriminate.
    + injection H as <-; cbn; (split; [|reflexivity]); repeat split; try assumption; discriminate.
    + rewrite (base_front _ _ Hb), Ey in H. destruct (ts y <? s_next s) eqn:Et; [lia|].
      injection H as <-; cbn; (split; [|reflexivity]); repeat split; try assumption; discriminate.
    + exfalso. exact (Hcp k eq_refl).
    + rewrite (base_front _ _ Hb), Ey in H.
      injection H as <-; cbn; (split; [|reflexivity]); repeat split; try assumption; discriminate.
  - destruct (s_rpc s); try discriminate. contradiction.
  - cbn [arrivals]. rewrite Hsame. destruct ex; [congruence|]. unfold Record_model.rec_step in H.
    destruct (s_rpc s) as [| | |v| | |i|i k|i k|e i k|i k] eqn:Ep; try contradiction.
    + destruct (s_next s =? 0) eqn:E0; [lia|]. destruct (s_requested s); injection H as <-; cbn; rewrite ?Ep; (split; [|reflexivity]); repeat split; assumption.
    + destruct (mutex_free s && negb (s_requested s)); [|discriminate]. injection H as <-; cbn; (split; [|reflexivity]); repeat split; assumption.
    + assert (bs_lower_bound ts (s_ring s) (s_next s) = SFound it_end) as Es.
      { pose proof (bs_raw ts _ _ y (skipn (S (s_popped s)) (s_all s)) (s_next s) (b_holds _ _ Hb) (skipn_cons_nth _ _ _ Ey)) as X.
        destruct (s_next s <? ts y) eqn:Et; [exact X|lia]. }
      rewrite Es in H. injection H as <-; cbn; (split; [|reflexivity]); repeat split; assumption.
    + destruct (mutex_free s); [|discriminate]. injection H as <-; cbn; (split; [|reflexivity]); repeat split; assumption.
    + subst i. rewrite Z.eqb_refl in H. cbn [negb andb] in H. injection H as <-; cbn; (split; [|reflexivity]); repeat split; assumption.
Qed.

Lemma arrivals_cons : forall (a : action E) acts, arrivals (a :: acts) = arrivals [a] ++ arrivals acts.
Proof. intros [] acts; reflexivity. Qed.

Lemma firstn_twice : forall (X C : list E) c, firstn c (firstn c X ++ C) = firstn c (X ++ C).
Proof.
  intros X C c. rewrite !firstn_app, firstn_firstn, Nat.min_id, firstn_length. f_equal. f_equal. lia.
Qed.

Lemma stalled_run : forall acts n N s0 s s', base n s -> stalled N s0 s -> not_expired acts ->
  (forall x, In x (arrivals acts) -> N < ts x) -> arun s acts = Some s' ->
  stalled N s0 s' /\ stored s' = firstn (Z.to_nat (n - 1)) (stored s ++ arrivals acts).
Proof.
  induction acts as [|a acts IH]; intros n N s0 s s' Hb Hs Hex Hx H; cbn in H.
  - injection H as <-. split; [exact Hs|]. cbn [arrivals]. rewrite app_nil_r. symmetry. apply firstn_all2.
    pose proof (h_len _ _ (b_holds _ _ Hb)) as HL. rewrite (b_size _ _ Hb) in HL. unfold stored. lia.
  - destruct (astep s a) as [s1|] eqn:E1; [|discriminate].
    destruct (stalled_step n N s0 s a s1 Hb Hs) as [Hs1 Hst1].
    + intros ->. apply Hex. left. reflexivity.
    + intros x ->. apply Hx. left. reflexivity.
    + exact E1.
    + destruct (IH n N s0 s1 s') as [Hs2 Hst2].
      * eapply base_step; eassumption.
      * exact Hs1.
      * intros Hin. apply Hex. right. exact Hin.
      * intros x Hin. apply Hx. rewrite arrivals_cons. apply in_or_app. right. exact Hin.
      * exact H.
      * split; [exact Hs2|]. rewrite Hst2, Hst1, (arrivals_cons a acts).
        rewrite app_assoc. apply firstn_twice.
Qed.

Lemma stall_lemma : forall n acts s N acts' s', supported_size n -> arun (init n) acts = Some s ->
  behind_gap ts s N -> not_expired acts' -> (forall x, In x (arrivals acts') -> N < ts x) ->
  arun s acts' = Some s' ->
  s_file s' = s_file s /\ s_next s' = N /\ s_popped s' = s_popped s /\ stored s' = firstn (Z.to_nat (n - 1)) (stored s ++ arrivals acts').
Proof.
  intros n acts s N acts' s' Hn H (G1 & G2 & G3 & G4 & G5 & G6 & G7) Hex Hx H'.
  assert (base n s) as Hb by (eapply base_run; [apply base_init; exact Hn|exact H]).
  destruct (stalled_run acts' n N s s s' Hb) as [(X1 & X2 & X3 & X4 & X5 & _) Y]; try assumption.
  - unfold stalled. repeat split; try assumption; [|rewrite G2; exact I].
    destruct (Nat.lt_ge_cases (s_popped s) (length (s_all s))) as [L|L]; [exact L|].
    exfalso. apply G5. unfold stored. apply skipn_all2. exact L.
  - repeat split; assumption.
Qed.

End Proofs.
