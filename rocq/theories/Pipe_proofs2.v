(** Keeping up, null pointers, and the end of a run. *)
From Coq Require Import ZArith List Bool Lia ZifyBool.
From Verif Require Import Base_model Ring_model Ring_spec Ring_proofs Pipe_model Pipe_spec Pipe_proofs.
Import ListNotations.
Open Scope Z_scope.

Section Proofs.
Context {A : Type}.
Variable n : Z.
Variable q : nat.
Hypothesis Hn : supported_size n.
Hypothesis Hq : (2 <= q)%nat.
Notation inv := (inv n q).

Definition pend (c : @cphase A) : nat := match c with CBack | COffer _ => 1 | _ => 0 end.

(** * Keeping up *)
Record keep (s : pipe A) (d : ledger A) : Prop := {
  k_waiting : forall i k, nth_error (waiting d) i = Some (Some k) -> (len d + i <= k + length (waiting d) + pend (p_consumer s))%nat;
  k_current : forall p k, p_worker s = WBusy p -> current d = Some k -> (len d <= k + 1 + length (waiting d) + pend (p_consumer s))%nat
}.

Lemma keep_eq : forall s s' d, keep s d -> pend (p_consumer s') = pend (p_consumer s) ->
  (forall p, p_worker s' = WBusy p -> exists p', p_worker s = WBusy p') -> keep s' d.
Proof.
  intros s s' d [K1 K2] E W. split; rewrite E; [exact K1|]. intros p k Hp. destruct (W p Hp) as [p' Hp']. exact (K2 p' k Hp').
Qed.

Lemma step_keep : forall s d a s' evs, inv s d -> keep s d -> act s a = Ok (s', evs) -> (forall b, ~ In (EOffer b false) evs) ->
  keep s' (fold_left note evs d).
Proof.
  intros s d a s' evs I K E NW.
  assert (forall p, p_worker s = WBusy p -> exists p', p_worker s = WBusy p') as Same by eauto.
  destruct a as [x| | | |k| | | |]; cbn [act] in E.
  - injection E as <- <-. apply (keep_eq s); auto.
  - unfold consumer_step in E. destruct (p_consumer s) as [| | |x| |p] eqn:C.
    + injection E as <- <-. exact K.
    + injection E as <- <-. apply (keep_eq s); auto. cbn. rewrite C. destruct (_ || _); reflexivity.
    + destruct (p_input s); injection E as <- <-; apply (keep_eq s); auto; cbn; rewrite C; reflexivity.
    + destruct (write x (p_ring s)) as [[r b]|] eqn:EW; [|discriminate]. cbn [bind fst snd] in E. injection E as <- <-.
      destruct K as [K1 K2]. rewrite C in *. cbn [pend] in *. destruct b; cbn [fold_left note]; split; cbn [set_consumer set_ring p_consumer p_worker pend waiting].
      * intros i k Hi. specialize (K1 i k Hi). unfold len in *. cbn [stored]. rewrite app_length. cbn [length]. lia.
      * intros p k Hp Hk. specialize (K2 p k Hp Hk). unfold len in *. cbn [stored]. rewrite app_length. cbn [length]. lia.
      * intros i k Hi. specialize (K1 i k Hi). lia.
      * intros p k Hp Hk. specialize (K2 p k Hp Hk). lia.
    + injection E as <- <-. apply (keep_eq s); auto. cbn. rewrite C. reflexivity.
    + injection E as <- <-. cbn [fold_left note]. destruct (p_places s <=? length (p_queue s))%nat eqn:F; cbn [negb] in *; [exfalso; eapply NW; left; reflexivity|].
      pose proof (i_offer _ _ _ _ I) as O. destruct K as [K1 K2]. rewrite C in *. cbn [pend offer_inv] in *.
      split; cbn [p_consumer p_worker pend waiting called]; rewrite app_length; cbn [length].
      * intros i k Hi. unfold len in *. cbn [stored] in *. destruct (lt_dec i (length (waiting d))) as [Li|Li].
        -- rewrite nth_error_app1 in Hi by exact Li. specialize (K1 i k Hi). lia.
        -- rewrite nth_error_app2 in Hi by lia. destruct (i - length (waiting d))%nat as [|j] eqn:Dj; [|destruct j; discriminate].
           cbn in Hi. destruct p as [z|]; [|discriminate]. injection Hi as <-. lia.
      * intros p0 k Hp Hk. specialize (K2 p0 k Hp Hk). unfold len in *. cbn [stored]. lia.
  - unfold worker_step in E. destruct (p_worker s) as [| | |p] eqn:W.
    + injection E as <- <-. exact K.
    + injection E as <- <-. apply (keep_eq s); auto. cbn. destruct (_ || _); discriminate.
    + destruct (p_queue s) as [|p ps] eqn:Q; injection E as <- <-.
      * apply (keep_eq s); auto. cbn. discriminate.
      * cbn [fold_left note]. pose proof (i_queue _ _ _ _ I) as EQ. rewrite Q in EQ. destruct (waiting d) as [|w l] eqn:WD; [discriminate|].
        destruct K as [K1 K2]. rewrite WD in *. cbn [length] in *. split; cbn [p_consumer p_worker waiting called].
        -- intros i k Hi. specialize (K1 (S i) k Hi). unfold len in *. cbn [stored]. lia.
        -- intros p0 k Hp Hk. unfold current in Hk. cbn [called] in Hk. rewrite last_snoc in Hk. subst w. specialize (K1 0%nat k eq_refl).
           unfold len in *. cbn [stored]. lia.
    + injection E as <- <-. apply (keep_eq s); auto. cbn. discriminate.
  - destruct (p_worker s) as [| | |[i|]]; try discriminate; injection E as <- <-; exact K.
  - destruct (Z.of_nat k <=? occupancy (p_ring s)); [|injection E as <- <-; exact K].
    destruct (pop k (p_ring s)) as [r|] eqn:EP; [|discriminate]. injection E as <- <-. cbn [fold_left note]. apply (keep_eq s); auto.
  - destruct (p_command s); injection E as <- <-; try exact K. apply (keep_eq s); auto; cbn.
    + destruct (p_consumer s); reflexivity.
    + destruct (p_worker s); eauto. discriminate.
  - destruct (p_command s); injection E as <- <-; try exact K. apply (keep_eq s); auto.
  - destruct (p_command s); try (injection E as <- <-; exact K). destruct (p_consumer s) eqn:C; try (injection E as <- <-; exact K).
    destruct (flush (p_ring s)) as [r|] eqn:EF; [|discriminate]. injection E as <- <-. apply (keep_eq s); auto. 
  - destruct (p_command s); try (injection E as <- <-; exact K). destruct (p_worker s) eqn:W; injection E as <- <-; try exact K.
    cbn [fold_left note]. apply (keep_eq s); auto. cbn. rewrite W. discriminate.
Qed.

Lemma run_keep : forall acts (s0 s : pipe A) log, pipe_new n q = Ok s0 -> pipe_run s0 acts = Ok (s, log) -> ~ warned log -> keep s (ledger_of log).
Proof.
  induction acts as [|a acts IH] using rev_ind; intros s0 s log N E NW.
  - cbn in E. injection E as <- <-. destruct (new_inv n q Hn Hq s0 N) as (_ & _ & C & W & _). split.
    + intros i k Hi. destruct i; discriminate.
    + intros p k Hp. congruence.
  - destruct (run_snoc _ _ _ _ _ E) as (s1 & l1 & e & R1 & R2 & ->). rewrite ledger_app.
    apply (step_keep s1 _ a _ _ (run_inv n q Hn Hq _ _ _ _ N R1)); [|exact R2|].
    + apply (IH s0 s1 l1 N R1). intros [b H]. apply NW. exists b. apply in_or_app. left. exact H.
    + intros b H. apply NW. exists b. apply in_or_app. right. exact H.
Qed.

(** * Null pointers *)
Record solid (s : pipe A) (d : ledger A) : Prop := {
  so_back : p_consumer s = CBack -> back (p_ring s) <> None;
  so_offer : p_consumer s <> COffer None;
  so_waiting : ~ In None (waiting d);
  so_called : ~ In None (called d);
  so_worker : p_worker s <> WBusy None
}.
Lemma occ_back : forall (s : pipe A) d, inv s d -> 0 < occupancy (p_ring s) -> back (p_ring s) <> None.
Proof. intros s d I O E. pose proof (proj2 (back_slot n q Hq _ _ I) E). lia. Qed.

Lemma step_solid : forall s d a s' evs, inv s d -> solid s d -> act s a = Ok (s', evs) -> ~ In (ECleaned 0) evs ->
  solid s' (fold_left note evs d).
Proof.
  intros s d a s' evs I K E NE. pose proof (step_inv n q Hn Hq _ _ _ _ _ I E) as I'.
  destruct a as [x| | | |k| | | |]; cbn [act] in E.
  - injection E as <- <-. destruct K; split; assumption.
  - unfold consumer_step in E. destruct (p_consumer s) as [| | |x| |p] eqn:C.
    + injection E as <- <-. exact K.
    + injection E as <- <-. destruct K; split; cbn; try assumption; destruct (_ || _); discriminate.
    + destruct (p_input s); injection E as <- <-; destruct K; split; cbn; try assumption; discriminate.
    + destruct (write x (p_ring s)) as [[r b]|] eqn:EW; [|discriminate]. cbn [bind fst snd] in E. injection E as <- <-.
      assert (back r <> None) as NB.
      { apply (occ_back _ _ I'). cbn [set_consumer set_ring p_ring]. destruct (i_ring _ _ _ _ I) as (l & H & _). pose proof (h_len _ _ H) as HL.
        pose proof (i_size _ _ _ _ I) as ES. unfold supported_size in Hn.
        destruct (Z_lt_dec (Z.of_nat (length l)) (n - 1)) as [R|R].
        - destruct (write_ok _ _ x H ltac:(lia)) as (r1 & E1 & H1 & _). rewrite EW in E1. injection E1 as <- ->. rewrite (occupancy_ok _ _ H1), app_length. cbn. lia.
        - destruct (write_full _ _ x H ltac:(lia)) as (r1 & E1 & H1 & _). rewrite EW in E1. injection E1 as <- ->. rewrite (occupancy_ok _ _ H1). lia. }
      destruct K. destruct b; split; cbn; try assumption; try discriminate; intros _; exact NB.
    + injection E as <- <-. destruct K. split; cbn; try assumption; try discriminate. intros EB. injection EB as EB. exact (so_back0 C EB).
    + injection E as <- <-. cbn [fold_left note] in *. destruct K. destruct (p_places s <=? length (p_queue s))%nat; cbn [negb] in *; split; cbn; try assumption; try discriminate.
      rewrite in_app_iff. intros [H|[H|[]]]; [contradiction|]. destruct p; [discriminate|]. apply so_offer0. exact C.
  - unfold worker_step in E. destruct (p_worker s) as [| | |p] eqn:W.
    + injection E as <- <-. exact K.
    + injection E as <- <-. destruct K; split; cbn; try assumption. destruct (_ || _); discriminate.
    + destruct (p_queue s) as [|p ps] eqn:Q; injection E as <- <-.
      * destruct K; split; cbn; try assumption. discriminate.
      * cbn [fold_left note]. pose proof (i_queue _ _ _ _ I) as EQ. rewrite Q in EQ. destruct (waiting d) as [|w l] eqn:WD; [discriminate|]. injection EQ as -> ->.
        destruct K. rewrite WD in *. split; cbn; try assumption.
        -- intros H. apply so_waiting0. right. exact H.
        -- rewrite in_app_iff. intros [H|[H|[]]]; [contradiction|]. apply so_waiting0. left. exact H.
        -- destruct w; [discriminate|]. exfalso. apply so_waiting0. left. reflexivity.
    + injection E as <- <-. destruct K; split; cbn; try assumption. discriminate.
  - destruct (p_worker s) as [| | |[i|]]; try discriminate; injection E as <- <-; exact K.
  - destruct (Z.of_nat k <=? occupancy (p_ring s)); [|injection E as <- <-; exact K].
    destruct (pop k (p_ring s)) as [r|] eqn:EP; [|discriminate]. injection E as <- <-. cbn [fold_left note] in *.
    assert (back r <> None) as NB.
    { apply (occ_back _ _ I'). cbn [set_ring p_ring]. destruct (i_ring _ _ _ _ I') as (l & H & _). cbn [set_ring p_ring] in H. rewrite (occupancy_ok _ _ H) in *.
      destruct l; [|cbn; lia]. exfalso. apply NE. left. reflexivity. }
    destruct K; split; cbn; try assumption. intros _. exact NB.
  - destruct (p_command s); injection E as <- <-; try exact K. destruct K; split; cbn; try assumption.
    + destruct (p_consumer s); try assumption; discriminate.
    + destruct (p_consumer s); try assumption; discriminate.
    + destruct (p_worker s); try assumption; discriminate.
  - destruct (p_command s); injection E as <- <-; try exact K. destruct K; split; assumption.
  - destruct (p_command s); try (injection E as <- <-; exact K). destruct (p_consumer s) eqn:C; try (injection E as <- <-; exact K).
    destruct (flush (p_ring s)) as [r|] eqn:EF; [|discriminate]. injection E as <- <-. destruct K; split; cbn; try assumption; rewrite C; discriminate.
  - destruct (p_command s); try (injection E as <- <-; exact K). destruct (p_worker s) eqn:W; injection E as <- <-; try exact K.
    destruct K; split; cbn; try assumption; rewrite W; discriminate.
Qed.
Lemma run_solid : forall acts (s0 s : pipe A) log, pipe_new n q = Ok s0 -> pipe_run s0 acts = Ok (s, log) -> ~ emptied log -> solid s (ledger_of log).
Proof.
  induction acts as [|a acts IH] using rev_ind; intros s0 s log N E NE.
  - cbn in E. injection E as <- <-. destruct (new_inv n q Hn Hq s0 N) as (_ & _ & C & W & _). split; [congruence|congruence|intros []|intros []|congruence].
  - destruct (run_snoc _ _ _ _ _ E) as (s1 & l1 & e & R1 & R2 & ->). rewrite ledger_app.
    apply (step_solid s1 _ a _ _ (run_inv n q Hn Hq _ _ _ _ N R1)); [|exact R2|].
    + apply (IH s0 s1 l1 N R1). intros H. apply NE. apply in_or_app. left. exact H.
    + intros H. apply NE. apply in_or_app. right. exact H.
Qed.

(** Only a null pointer can crash. *)
Lemma crash_null : forall (s : pipe A) d a, inv s d -> act s a = Crash -> p_worker s = WBusy None.
Proof.
  intros s d a I E. destruct (i_ring _ _ _ _ I) as (l & H & _). destruct a as [x| | | |k| | | |]; cbn [act] in E; try discriminate.
  - unfold consumer_step in E. destruct (p_consumer s); try discriminate.
    + destruct (p_input s); discriminate.
    + pose proof (h_len _ _ H). destruct (Z_lt_dec (Z.of_nat (length l)) (r_size (p_ring s) - 1)) as [R|R].
      * destruct (write_ok _ _ x H R) as (r1 & E1 & _). rewrite E1 in E. discriminate.
      * destruct (write_full _ _ x H ltac:(lia)) as (r1 & E1 & _). rewrite E1 in E. discriminate.
  - unfold worker_step in E. destruct (p_worker s); try discriminate. destruct (p_queue s); discriminate.
  - destruct (p_worker s) as [| | |[i|]]; try discriminate. reflexivity.
  - destruct (Z.of_nat k <=? occupancy (p_ring s)) eqn:LK; [|discriminate]. rewrite (occupancy_ok _ _ H) in LK.
    destruct (pop_ok k _ _ H ltac:(lia)) as (r1 & E1 & _). rewrite E1 in E. discriminate.
  - destruct (p_command s); discriminate.
  - destruct (p_command s); discriminate.
  - destruct (p_command s); try discriminate. destruct (p_consumer s); try discriminate. destruct (flush_ok _ _ H) as (r1 & E1 & _). rewrite E1 in E. discriminate.
  - destruct (p_command s); try discriminate. destruct (p_worker s); discriminate.
Qed.
Lemma emptied_dec : forall log : list (event A), emptied log \/ ~ emptied log.
Proof.
  unfold emptied. induction log as [|e log IH]; [right; intros []|]. destruct IH as [IH|IH]; [left; right; exact IH|].
  destruct e as [| | | | | |[|l]|]; try (right; intros [H|H]; [discriminate|contradiction]). left; left; reflexivity.
Qed.
Lemma run_total : forall acts (s0 : pipe A), pipe_new n q = Ok s0 ->
  (exists s log, pipe_run s0 acts = Ok (s, log)) \/
  (exists acts1 acts2 s log, acts = acts1 ++ acts2 /\ pipe_run s0 acts1 = Ok (s, log) /\ emptied log).
Proof.
  induction acts as [|a acts IH] using rev_ind; intros s0 N; [left; exists s0, []; reflexivity|].
  destruct (IH s0 N) as [(s & log & R)|(a1 & a2 & s & log & -> & R & Em)].
  2:{ right. exists a1, (a2 ++ [a]), s, log. rewrite app_assoc. auto. }
  destruct (act s a) as [[s' e]|] eqn:E.
  - left. exists s', (log ++ e). clear -R E. revert s0 log R. induction acts as [|b acts IH]; intros s0 log R; cbn [app pipe_run] in *.
    + injection R as <- <-. rewrite E. cbn. rewrite app_nil_r. reflexivity.
    + destruct (act s0 b) as [[s1 e1]|]; [|discriminate]. cbn [bind fst snd] in *. destruct (pipe_run s1 acts) as [[s2 e2]|] eqn:E2; [|discriminate].
      cbn [bind fst snd] in R. injection R as <- <-. rewrite (IH _ _ E2). cbn. rewrite app_assoc. reflexivity.
  - right. exists acts, [a], s, log. split; [reflexivity|]. split; [exact R|].
    pose proof (crash_null _ _ _ (run_inv n q Hn Hq _ _ _ _ N R) E) as W.
    destruct (emptied_dec log) as [H|H]; [exact H|].
    exfalso. exact (so_worker _ _ (run_solid _ _ _ _ N R H) W).
Qed.

(** * The end of a run *)
Definition hand (c : @cphase A) : list A := match c with CWrite x => [x] | _ => [] end.
Record orderly (s : pipe A) (d : ledger A) (arr : list A) : Prop := {
  o_input : stored d ++ hand (p_consumer s) ++ p_input s = arr;
  o_offers : called d ++ waiting d = map Some (seq 0 (len d - pend (p_consumer s)));
  o_pend : (pend (p_consumer s) <= len d)%nat
}.
(** Who may be without work when. *)
Definition staffed (s : pipe A) : Prop :=
  match p_command s with
  | Running | Waiting => p_worker s <> WFree
  | Draining => p_consumer s = CFree /\ (p_worker s = WFree -> p_queue s = [])
  | NoRun => p_consumer s = CFree /\ p_worker s = WFree /\ p_queue s = []
  end.

Lemma step_staffed : forall (s : pipe A) a s' evs, staffed s -> act s a = Ok (s', evs) -> staffed s'.
Proof.
  intros s a s' evs K E. unfold staffed in *. destruct a as [x| | | |k| | | |]; cbn [act] in E.
  - injection E as <- <-. exact K.
  - unfold consumer_step in E. destruct (p_consumer s) as [| | |x| |p] eqn:C; [injection E as <- <-; rewrite C; exact K|..];
      destruct (p_command s) eqn:M; try (exfalso; destruct K; discriminate).
    + injection E as <- <-. cbn. rewrite ?M. exact K.
    + injection E as <- <-. cbn. rewrite ?M. exact K.
    + destruct (p_input s); injection E as <- <-; cbn; rewrite ?M; exact K.
    + destruct (p_input s); injection E as <- <-; cbn; rewrite ?M; exact K.
    + destruct (write x (p_ring s)) as [[r b]|]; [|discriminate]. cbn [bind fst snd] in E. injection E as <- <-. cbn. rewrite ?M. exact K.
    + destruct (write x (p_ring s)) as [[r b]|]; [|discriminate]. cbn [bind fst snd] in E. injection E as <- <-. cbn. rewrite ?M. exact K.
    + injection E as <- <-. cbn. rewrite ?M. exact K.
    + injection E as <- <-. cbn. rewrite ?M. exact K.
    + injection E as <- <-. cbn. rewrite ?M. exact K.
    + injection E as <- <-. cbn. rewrite ?M. exact K.
  - unfold worker_step in E. destruct (p_worker s) as [| | |p] eqn:W.
    + injection E as <- <-. rewrite W. exact K.
    + injection E as <- <-. unfold task_marker. cbn. destruct (p_command s) eqn:M; cbn; try discriminate.
      * destruct K as (_ & K & _). discriminate.
      * destruct K as [K1 K2]. split; [exact K1|]. destruct (p_queue s); cbn; [reflexivity|discriminate].
    + destruct (p_command s) eqn:M; destruct (p_queue s) eqn:Q; injection E as <- <-; cbn; rewrite ?M; try discriminate; try (destruct K as (_ & K & _); discriminate).
      * split; [exact (proj1 K)|discriminate].
      * split; [exact (proj1 K)|discriminate].
    + injection E as <- <-. cbn. destruct (p_command s) eqn:M; try discriminate.
      * destruct K as (_ & K & _). discriminate.
      * split; [exact (proj1 K)|discriminate].
  - destruct (p_worker s) as [| | |[i|]] eqn:W; try discriminate; injection E as <- <-; rewrite W; exact K.
  - destruct (Z.of_nat k <=? occupancy (p_ring s)); [|injection E as <- <-; exact K].
    destruct (pop k (p_ring s)) as [r|]; [|discriminate]. injection E as <- <-. exact K.
  - destruct (p_command s) eqn:M; injection E as <- <-; try (rewrite ?M; exact K). cbn. destruct K as (_ & -> & _). discriminate.
  - destruct (p_command s) eqn:M; injection E as <- <-; try (rewrite ?M; exact K).
  - destruct (p_command s) eqn:M; try (injection E as <- <-; rewrite ?M; exact K). destruct (p_consumer s) eqn:C; try (injection E as <- <-; rewrite ?M; exact K).
    destruct (flush (p_ring s)) as [r|]; [|discriminate]. injection E as <- <-. cbn. split; [exact C|]. intros W. contradiction.
  - destruct (p_command s) eqn:M; try (injection E as <- <-; rewrite ?M; exact K). destruct (p_worker s) eqn:W; injection E as <- <-; try (rewrite ?M, ?W; exact K).
    cbn. destruct K as [K1 K2]. auto.
Qed.

Lemma step_orderly : forall s d a s' evs arr, inv s d -> solid s d -> orderly s d arr -> act s a = Ok (s', evs) ->
  (forall b, ~ In (EOffer b false) evs) -> (forall x, ~ In (ERefused x) evs) ->
  orderly s' (fold_left note evs d) (arr ++ arrivals [a]).
Proof.
  intros s d a s' evs arr I SO K E NW NR.
  assert (forall s'', hand (p_consumer s'') = hand (p_consumer s) -> pend (p_consumer s'') = pend (p_consumer s) -> p_input s'' = p_input s -> orderly s'' d arr) as Keq.
  { intros s'' E1 E2 E3. destruct K. split; rewrite ?E1, ?E2, ?E3; assumption. }
  destruct a as [x| | | |k| | | |]; cbn [arrivals flat_map app]; rewrite ?app_nil_r; cbn [act] in E.
  - injection E as <- <-. destruct K. split; cbn; try assumption. rewrite <- o_input0, <- !app_assoc. reflexivity.
  - unfold consumer_step in E. destruct (p_consumer s) as [| | |x| |p] eqn:C.
    + injection E as <- <-. exact K.
    + injection E as <- <-. apply Keq; cbn; try reflexivity; destruct (_ || _); reflexivity.
    + destruct (p_input s) as [|x l] eqn:PI; injection E as <- <-.
      * apply Keq; cbn; rewrite ?PI; reflexivity.
      * destruct K. rewrite C, PI in *. split; assumption.
    + destruct (write x (p_ring s)) as [[r b]|] eqn:EW; [|discriminate]. cbn [bind fst snd] in E. injection E as <- <-.
      destruct b; [|exfalso; eapply NR; left; reflexivity]. destruct K. rewrite C in *. cbn [fold_left note]. cbn [hand pend] in *.
      split; cbn; unfold len in *; cbn [stored]; rewrite ?app_length; cbn [length].
      * rewrite <- app_assoc. exact o_input0.
      * rewrite o_offers0. do 2 f_equal. lia.
      * lia.
    + injection E as <- <-. apply Keq; reflexivity.
    + injection E as <- <-. cbn [fold_left note]. destruct (p_places s <=? length (p_queue s))%nat; cbn [negb] in *; [exfalso; eapply NW; left; reflexivity|].
      pose proof (so_offer _ _ SO) as NN. rewrite C in NN. destruct p as [i|]; [|congruence]. destruct K. rewrite C in *. cbn [hand pend] in *.
      split; cbn; unfold len in *; cbn [stored]; try assumption; try lia.
      rewrite app_assoc, o_offers0. replace (length (stored d) - 0)%nat with (S (length (stored d) - 1)) by lia. rewrite seq_S, map_app. cbn. reflexivity.
  - unfold worker_step in E. destruct (p_worker s) as [| | |p] eqn:W; try (injection E as <- <-; apply Keq; reflexivity).
    destruct (p_queue s) as [|p ps] eqn:Q; injection E as <- <-; [apply Keq; reflexivity|].
    cbn [fold_left note]. pose proof (i_queue _ _ _ _ I) as EQ. rewrite Q in EQ. destruct (waiting d) as [|w l] eqn:WD; [discriminate|].
    destruct K. rewrite WD in *. split; cbn; try assumption. rewrite <- app_assoc. exact o_offers0.
  - destruct (p_worker s) as [| | |[i|]]; try discriminate; injection E as <- <-; exact K.
  - destruct (Z.of_nat k <=? occupancy (p_ring s)); [|injection E as <- <-; exact K].
    destruct (pop k (p_ring s)) as [r|] eqn:EP; [|discriminate]. injection E as <- <-. apply Keq; reflexivity.
  - destruct (p_command s); injection E as <- <-; try exact K. apply Keq; cbn; try reflexivity; destruct (p_consumer s); reflexivity.
  - destruct (p_command s); injection E as <- <-; try exact K. apply Keq; reflexivity.
  - destruct (p_command s); try (injection E as <- <-; exact K). destruct (p_consumer s) eqn:C; try (injection E as <- <-; exact K).
    destruct (flush (p_ring s)) as [r|] eqn:EF; [|discriminate]. injection E as <- <-. apply Keq; cbn; rewrite ?C; reflexivity.
  - destruct (p_command s); try (injection E as <- <-; exact K). destruct (p_worker s) eqn:W; injection E as <- <-; try exact K. apply Keq; reflexivity.
Qed.

Lemma run_staffed : forall acts (s0 s : pipe A) log, pipe_new n q = Ok s0 -> pipe_run s0 acts = Ok (s, log) -> staffed s.
Proof.
  induction acts as [|a acts IH] using rev_ind; intros s0 s log N E.
  - cbn in E. injection E as <- <-. destruct (new_inv n q Hn Hq s0 N) as (I & M & C & W & _). unfold staffed. rewrite M. repeat split; try assumption.
    exact (i_queue _ _ _ _ I).
  - destruct (run_snoc _ _ _ _ _ E) as (s1 & l1 & e & R1 & R2 & ->). exact (step_staffed _ _ _ _ (IH _ _ _ N R1) R2).
Qed.
Lemma run_orderly : forall acts (s0 s : pipe A) log, pipe_new n q = Ok s0 -> pipe_run s0 acts = Ok (s, log) ->
  ~ warned log -> ~ overwritten log -> ~ emptied log -> orderly s (ledger_of log) (arrivals acts).
Proof.
  induction acts as [|a acts IH] using rev_ind; intros s0 s log N E NW NR NE.
  - cbn in E. injection E as <- <-. destruct (new_inv n q Hn Hq s0 N) as (I & M & C & W & PI). split; rewrite ?C, ?PI; cbn; reflexivity || lia.
  - destruct (run_snoc _ _ _ _ _ E) as (s1 & l1 & e & R1 & R2 & ->). rewrite ledger_app. unfold arrivals in *. rewrite flat_map_app.
    assert (~ warned l1) as NW1 by (intros [b H]; apply NW; exists b; apply in_or_app; left; exact H).
    assert (~ overwritten l1) as NR1 by (intros [b H]; apply NR; exists b; apply in_or_app; left; exact H).
    assert (~ emptied l1) as NE1 by (intros H; apply NE; apply in_or_app; left; exact H).
    apply (step_orderly s1 (ledger_of l1) a s e _ (run_inv n q Hn Hq _ _ _ _ N R1) (run_solid _ _ _ _ N R1 NE1) (IH _ _ _ N R1 NW1 NR1 NE1) R2).
    + intros b H. apply NW. exists b. apply in_or_app. right. exact H.
    + intros x H. apply NR. exists x. apply in_or_app. right. exact H.
Qed.

Lemma step_no_null : forall (s : pipe A) d a s' evs b, solid s d -> act s a = Ok (s', evs) -> ~ In (EOffer true b) evs.
Proof.
  intros s d a s' evs b K E. destruct a as [x| | | |k| | | |]; cbn [act] in E.
  - injection E as <- <-. intros [].
  - unfold consumer_step in E. destruct (p_consumer s) as [| | |x| |p] eqn:C.
    + injection E as <- <-. intros [].
    + injection E as <- <-. intros [].
    + destruct (p_input s); injection E as <- <-; intros [].
    + destruct (write x (p_ring s)) as [[r w]|]; [|discriminate]. cbn [bind fst snd] in E. injection E as <- <-. destruct w; intros [H|[]]; discriminate.
    + injection E as <- <-. intros [].
    + injection E as <- <-. intros [H|[]]. destruct p; [discriminate|]. exact (so_offer _ _ K C).
  - unfold worker_step in E. destruct (p_worker s); try (injection E as <- <-; intros [H|[]]; discriminate); try (injection E as <- <-; solve [intros []]).
    destruct (p_queue s); injection E as <- <-; [intros []|intros [H|[]]; discriminate].
  - destruct (p_worker s) as [| | |[i|]]; try discriminate; injection E as <- <-; cbn [In]; try tauto; intros [H|[]]; discriminate.
  - destruct (Z.of_nat k <=? occupancy (p_ring s)); [|injection E as <- <-; intros []].
    destruct (pop k (p_ring s)) as [r|]; [|discriminate]. injection E as <- <-. intros [H|[]]; discriminate.
  - destruct (p_command s); injection E as <- <-; intros [].
  - destruct (p_command s); injection E as <- <-; intros [].
  - destruct (p_command s); try (injection E as <- <-; solve [intros []]). destruct (p_consumer s); try (injection E as <- <-; solve [intros []]).
    destruct (flush (p_ring s)); [|discriminate]. injection E as <- <-. intros [].
  - destruct (p_command s); try (injection E as <- <-; solve [intros []]). destruct (p_worker s); injection E as <- <-; try solve [intros []]. intros [H|[]]; discriminate.
Qed.
Lemma run_no_null : forall acts (s0 s : pipe A) log b, pipe_new n q = Ok s0 -> pipe_run s0 acts = Ok (s, log) -> ~ emptied log -> ~ In (EOffer true b) log.
Proof.
  induction acts as [|a acts IH] using rev_ind; intros s0 s log b N E NE H.
  - cbn in E. injection E as <- <-. exact H.
  - destruct (run_snoc _ _ _ _ _ E) as (s1 & l1 & e & R1 & R2 & ->).
    assert (~ emptied l1) as NE1 by (intros H1; apply NE; apply in_or_app; left; exact H1).
    apply in_app_or in H. destruct H as [H|H]; [exact (IH _ _ _ _ N R1 NE1 H)|].
    exact (step_no_null _ _ _ _ _ _ (run_solid _ _ _ _ N R1 NE1) R2 H).
Qed.

(** * What had arrived before stop *)
Definition consuming (s : pipe A) : Prop := p_command s = Running -> p_consumer s <> CFree.
Lemma step_consuming : forall (s : pipe A) a s' evs, consuming s -> act s a = Ok (s', evs) -> consuming s'.
Proof.
  intros s a s' evs K E. unfold consuming in *. destruct a as [x| | | |k| | | |]; cbn [act] in E.
  - injection E as <- <-. exact K.
  - unfold consumer_step in E. destruct (p_consumer s) as [| | |x| |p] eqn:C.
    + injection E as <- <-. intros H. exfalso. exact (K H eq_refl).
    + injection E as <- <-. unfold marker. cbn. intros ->. discriminate.
    + destruct (p_input s); injection E as <- <-; cbn; discriminate.
    + destruct (write x (p_ring s)) as [[r w]|]; [|discriminate]. injection E as <- <-. cbn. discriminate.
    + injection E as <- <-. cbn. discriminate.
    + injection E as <- <-. cbn. discriminate.
  - unfold worker_step in E. destruct (p_worker s); try (injection E as <- <-; exact K).
    destruct (p_queue s); injection E as <- <-; exact K.
  - destruct (p_worker s) as [| | |[i|]]; try discriminate; injection E as <- <-; exact K.
  - destruct (Z.of_nat k <=? occupancy (p_ring s)); [|injection E as <- <-; exact K].
    destruct (pop k (p_ring s)) as [r|]; [|discriminate]. injection E as <- <-. exact K.
  - destruct (p_command s) eqn:M; injection E as <- <-; try (rewrite M; exact K). cbn. intros _. destruct (p_consumer s); discriminate.
  - destruct (p_command s) eqn:M; injection E as <- <-; try (rewrite M; exact K). discriminate.
  - destruct (p_command s) eqn:M; try (injection E as <- <-; rewrite M; exact K). destruct (p_consumer s) eqn:C; try (injection E as <- <-; rewrite M; discriminate).
    destruct (flush (p_ring s)); [|discriminate]. injection E as <- <-. discriminate.
  - destruct (p_command s) eqn:M; try (injection E as <- <-; rewrite M; exact K). destruct (p_worker s); injection E as <- <-; try (rewrite M; exact K). discriminate.
Qed.
Lemma run_consuming : forall acts (s0 s : pipe A) log, pipe_new n q = Ok s0 -> pipe_run s0 acts = Ok (s, log) -> consuming s.
Proof.
  induction acts as [|a acts IH] using rev_ind; intros s0 s log N E.
  - cbn in E. injection E as <- <-. destruct (new_inv n q Hn Hq s0 N) as (I & M & C & W & PI). intros H. congruence.
  - destruct (run_snoc _ _ _ _ _ E) as (s1 & l1 & e & R1 & R2 & ->). exact (step_consuming _ _ _ _ (IH _ _ _ N R1) R2).
Qed.

(** After stop was called and until the next start: a consumer without work has left no more behind than has arrived since. *)
Definition leaving (k : nat) (s : pipe A) : Prop := p_command s <> Running /\ (p_consumer s = CFree -> (length (p_input s) <= k)%nat).
Lemma step_leaving : forall k (s : pipe A) a s' evs, leaving k s -> act s a = Ok (s', evs) -> a <> AStart -> leaving (k + length (arrivals [a])) s'.
Proof.
  intros k s a s' evs [K1 K2] E NS. unfold leaving. destruct a as [x| | | |j| | | |]; cbn [arrivals flat_map app length]; rewrite ?Nat.add_0_r; cbn [act] in E.
  - injection E as <- <-. cbn. split; [exact K1|]. rewrite app_length. cbn. intros H. specialize (K2 H). lia.
  - unfold consumer_step in E. destruct (p_consumer s) as [| | |x| |p] eqn:C.
    + injection E as <- <-. rewrite C. auto.
    + injection E as <- <-. cbn. split; [exact K1|]. unfold marker. destruct (p_command s); [| contradiction | |]; cbn; (destruct (p_input s); cbn; [lia|discriminate]).
    + destruct (p_input s); injection E as <- <-; cbn; (split; [exact K1|discriminate]).
    + destruct (write x (p_ring s)) as [[r w]|]; [|discriminate]. injection E as <- <-. cbn. split; [exact K1|discriminate].
    + injection E as <- <-. cbn. split; [exact K1|discriminate].
    + injection E as <- <-. cbn. split; [exact K1|discriminate].
  - unfold worker_step in E. destruct (p_worker s); try (injection E as <- <-; split; assumption).
    destruct (p_queue s); injection E as <- <-; split; assumption.
  - destruct (p_worker s) as [| | |[i|]]; try discriminate; injection E as <- <-; split; assumption.
  - destruct (Z.of_nat j <=? occupancy (p_ring s)); [|injection E as <- <-; split; assumption].
    destruct (pop j (p_ring s)) as [r|]; [|discriminate]. injection E as <- <-. split; assumption.
  - congruence.
  - destruct (p_command s) eqn:M; injection E as <- <-; try (rewrite ?M; split; assumption). contradiction.
  - destruct (p_command s) eqn:M; try (injection E as <- <-; rewrite M; split; assumption). destruct (p_consumer s) eqn:C; try (injection E as <- <-; rewrite M, C; split; [assumption|discriminate]).
    + destruct (flush (p_ring s)); [|discriminate]. injection E as <- <-. cbn. split; [discriminate|auto].
  - destruct (p_command s) eqn:M; try (injection E as <- <-; rewrite M; split; assumption). destruct (p_worker s); injection E as <- <-; try (rewrite M; split; assumption).
    cbn. split; [discriminate|assumption].
Qed.
Lemma run_leaving : forall acts k (s s' : pipe A) log, leaving k s -> pipe_run s acts = Ok (s', log) -> ~ In AStart acts -> leaving (k + length (arrivals acts)) s'.
Proof.
  induction acts as [|a acts IH]; intros k s s' log K E NS.
  - cbn in *. injection E as <- <-. rewrite Nat.add_0_r. exact K.
  - cbn [pipe_run] in E. destruct (act s a) as [[s1 e1]|] eqn:E1; [|discriminate]. cbn [bind fst snd] in E.
    destruct (pipe_run s1 acts) as [[s2 e2]|] eqn:E2; [|discriminate]. cbn [bind fst snd] in E. injection E as <- <-.
    assert (leaving (k + length (arrivals [a])) s1) as K1 by (apply (step_leaving _ _ _ _ _ K E1); intros ->; apply NS; left; reflexivity).
    specialize (IH _ _ _ _ K1 E2 ltac:(intros H; apply NS; right; exact H)). unfold arrivals in *. cbn [flat_map] in *. rewrite app_nil_r in IH. rewrite app_length.
    rewrite Nat.add_assoc. exact IH.
Qed.
End Proofs.
