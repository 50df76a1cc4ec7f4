(** Proofs about the way of a payload to a post-processing task. *)
From Coq Require Import ZArith List Bool Lia ZifyBool.
From Verif Require Import Base_model Ring_model Ring_spec Ring_proofs Pipe_model Pipe_spec.
Import ListNotations.
Open Scope Z_scope.

Section Proofs.
Context {A : Type}.
Variable n : Z.
Variable q : nat.
Hypothesis Hn : supported_size n.
Hypothesis Hq : (2 <= q)%nat.

Definition slot (w : option nat) : option Z := option_map (fun k => Z.of_nat k mod n) w.
Definition len (d : ledger A) : nat := length (stored d).
Definition valid (d : ledger A) (w : option nat) : Prop := match w with Some k => (k < len d)%nat | None => True end.

(** The last n payloads are in memory. *)
Definition in_memory (m : Z -> option A) (st : list A) : Prop :=
  forall k, (k < length st)%nat -> Z.of_nat (length st) <= Z.of_nat k + n -> m (Z.of_nat k mod n) = nth_error st k.

Definition offer_inv (d : ledger A) (c : @cphase A) : Prop :=
  match c with
  | COffer (Some i) => (0 < len d)%nat /\ i = Z.of_nat (len d - 1) mod n
  | _ => True
  end.
Definition worker_inv (d : ledger A) (w : @wphase) : Prop :=
  match w with WBusy p => called d <> [] /\ p = slot (current d) | _ => True end.

Record inv (s : pipe A) (d : ledger A) : Prop := {
  i_ring : exists l, holds (p_ring s) l /\ (length l <= len d)%nat /\ l = skipn (len d - length l) (stored d);
  i_size : r_size (p_ring s) = n;
  i_write : r_write (p_ring s) = Z.of_nat (len d) mod n;
  i_mem : in_memory (p_mem s) (stored d);
  i_queue : p_queue s = map slot (waiting d);
  i_valid : Forall (valid d) (waiting d);
  i_called : Forall (valid d) (called d);
  i_places : p_places s = (q - 1)%nat /\ (length (p_queue s) <= p_places s)%nat;
  i_offer : offer_inv d (p_consumer s);
  i_worker : worker_inv d (p_worker s)
}.

Lemma in_memory_write : forall m st x, in_memory m st -> in_memory (upd m (Z.of_nat (length st) mod n) (Some x)) (st ++ [x]).
Proof.
  intros m st x H k Lk Ln. rewrite app_length in *. cbn [length] in *. unfold upd. unfold supported_size in Hn.
  destruct (Nat.eq_dec k (length st)) as [->|Nk].
  - rewrite Z.eqb_refl, nth_error_app2, Nat.sub_diag by lia. reflexivity.
  - replace (Z.of_nat k mod n =? Z.of_nat (length st) mod n) with false.
    + rewrite nth_error_app1 by lia. apply H; lia.
    + symmetry. apply Z.eqb_neq. intros E.
      assert ((Z.of_nat (length st) - Z.of_nat k) mod n = 0) as M by (rewrite Zminus_mod, E, Z.sub_diag; apply Z.mod_0_l; lia).
      rewrite Z.mod_small in M by lia. lia.
Qed.

Lemma mod_succ : forall k, 0 <= k -> next_index n (k mod n) = (k + 1) mod n.
Proof.
  intros k K. unfold supported_size in Hn. pose proof (Z.mod_pos_bound k n ltac:(lia)). rewrite next_index_spec by lia.
  destruct (k mod n + 1 =? n) eqn:E.
  - symmetry. rewrite <- Z.add_mod_idemp_l by lia. replace (k mod n + 1) with n by lia. apply Z.mod_same. lia.
  - rewrite <- (Z.add_mod_idemp_l k 1 n) by lia. rewrite (Z.mod_small (k mod n + 1)) by lia. lia.
Qed.

Lemma valid_grow : forall d d' l, (len d <= len d')%nat -> Forall (valid d) l -> Forall (valid d') l.
Proof. intros d d' l L F. eapply Forall_impl; [|exact F]. intros [k|] V; cbn [valid] in *; [lia|exact I]. Qed.

Lemma write_write : forall (x : A) r r' b, write x r = Ok (r', b) -> r_write r' = if b then next_index (r_size r) (r_write r) else r_write r.
Proof.
  intros x r r' b E. unfold write in E. destruct (negb _).
  - destruct (r_slots r (r_write r)); [discriminate|]. injection E as <- <-. reflexivity.
  - injection E as <- <-. reflexivity.
Qed.
Lemma pop_write : forall k (r r' : ring A), pop k r = Ok r' -> r_write r' = r_write r.
Proof.
  induction k as [|k IH]; intros r r' E; cbn [pop] in E; [congruence|]. destruct (popFront r) as [r1|] eqn:E1; [|discriminate].
  rewrite (IH _ _ E). unfold popFront in E1. destruct (r_read r =? r_write r); [discriminate|]. destruct (r_slots r (r_read r)); [|discriminate].
  injection E1 as <-. reflexivity.
Qed.
Lemma skipn_skipn' : forall {X} a b (l : list X), skipn a (skipn b l) = skipn (b + a) l.
Proof. intros X a b. induction b as [|b IH]; intros l; [reflexivity|]. destruct l; [rewrite !skipn_nil; reflexivity|]. apply IH. Qed.

Lemma pop_inv : forall k s d r, inv s d -> pop k (p_ring s) = Ok r -> inv (set_ring s r (p_mem s)) d /\ (k <= Z.to_nat (occupancy (p_ring s)))%nat.
Proof.
  intros k s d r I E. destruct (i_ring _ _ I) as (l & H & L & EL). rewrite (occupancy_ok _ _ H), Nat2Z.id.
  destruct (le_lt_dec k (length l)) as [Lk|Lk]; [|rewrite (pop_too_many _ _ _ H Lk) in E; discriminate]. split; [|exact Lk].
  destruct (pop_ok k _ _ H Lk) as (r1 & E1 & H1 & S1 & _). rewrite E in E1. injection E1 as <-.
  destruct I. split; cbn [set_ring p_ring p_mem p_queue p_places p_consumer p_worker]; try assumption.
  - exists (skipn k l). rewrite skipn_length. split; [exact H1|]. split; [lia|]. rewrite EL at 1. rewrite skipn_skipn'. f_equal. lia.
  - congruence.
  - rewrite (pop_write _ _ _ E). assumption.
Qed.

Lemma back_slot : forall s d, inv s d -> offer_inv d (COffer (back (p_ring s))) /\
  (back (p_ring s) = None -> occupancy (p_ring s) = 0).
Proof.
  intros s d I. destruct (i_ring _ _ I) as (l & H & L & EL). rewrite (occupancy_ok _ _ H). destruct l as [|y l'] eqn:EQ.
  - unfold back. rewrite Z.eqb_sym, (holds_empty_iff _ _ H). cbn. auto.
  - rewrite <- EQ in *. assert (l <> []) as N by congruence. rewrite (back_index _ _ H N). split; [|discriminate]. cbn [offer_inv].
    assert (0 < length l)%nat by (rewrite EQ; cbn; lia). split; [lia|]. rewrite (i_size _ _ I).
    pose proof (i_write _ _ I) as W. rewrite (h_write _ _ H), (i_size _ _ I) in W.
    replace (r_read (p_ring s) + (Z.of_nat (length l) - 1)) with (r_read (p_ring s) + Z.of_nat (length l) - 1) by lia.
    unfold supported_size in Hn. rewrite Zminus_mod, W, <- Zminus_mod. f_equal. lia.
Qed.

Lemma last_snoc : forall {X} (l : list X) x d, last (l ++ [x]) d = x.
Proof. intros. apply last_last. Qed.

Lemma step_inv : forall s d a s' evs, inv s d -> act s a = Ok (s', evs) -> inv s' (fold_left note evs d).
Proof.
  intros s d a s' evs I E. destruct a as [x| | | |k| | | |]; cbn [act] in E.
  - injection E as <- <-. destruct I. split; assumption.
  - unfold consumer_step in E. destruct (p_consumer s) as [| | |x| |p] eqn:C.
    + injection E as <- <-. exact I.
    + injection E as <- <-. destruct I. split; try assumption. cbn. destruct (_ || _); exact Logic.I.
    + destruct (p_input s); injection E as <- <-; destruct I; split; try assumption; exact Logic.I.
    + destruct (i_ring _ _ I) as (l & H & L & EL). destruct (write x (p_ring s)) as [[r b]|] eqn:EW; [|discriminate]. cbn [bind fst snd] in E.
      pose proof (write_write _ _ _ _ EW) as WW. injection E as <- <-. destruct I. destruct b; cbn [fold_left note].
      * assert (Z.of_nat (length l) < n - 1) as Room.
        { destruct (Z_lt_dec (Z.of_nat (length l)) (n - 1)) as [R|R]; [exact R|]. pose proof (h_len _ _ H).
          destruct (write_full _ _ x H ltac:(lia)) as (r1 & E1 & _). congruence. }
        destruct (write_ok _ _ x H ltac:(lia)) as (r1 & E1 & H1 & S1 & _). rewrite EW in E1. injection E1 as <-.
        split; cbn [set_consumer set_ring p_ring p_mem p_queue p_places p_consumer p_worker stored waiting called].
        -- exists (l ++ [x]). unfold len in *. cbn [stored]. rewrite !app_length. cbn [length]. split; [exact H1|]. split; [lia|].
           replace (length (stored d) + 1 - (length l + 1))%nat with (length (stored d) - length l)%nat by lia.
           rewrite skipn_app. rewrite <- EL. f_equal. replace (length (stored d) - length l - length (stored d))%nat with 0%nat by lia. reflexivity.
        -- congruence.
        -- rewrite WW, i_size0, i_write0. unfold len. cbn [stored]. rewrite app_length. cbn [length]. rewrite mod_succ by lia. f_equal. lia.
        -- rewrite i_write0. unfold len. apply in_memory_write. assumption.
        -- assumption.
        -- eapply valid_grow; [|eassumption]. unfold len. cbn [stored]. rewrite app_length. lia.
        -- eapply valid_grow; [|eassumption]. unfold len. cbn [stored]. rewrite app_length. lia.
        -- assumption.
        -- exact Logic.I.
        -- destruct (p_worker s); exact i_worker0.
      * assert (Z.of_nat (length l) = n - 1) as Full.
        { pose proof (h_len _ _ H). destruct (Z.eq_dec (Z.of_nat (length l)) (n - 1)) as [R|R]; [exact R|].
          destruct (write_ok _ _ x H ltac:(lia)) as (r1 & E1 & _). congruence. }
        destruct (write_full _ _ x H ltac:(lia)) as (r1 & E1 & H1 & S1 & _). rewrite EW in E1. injection E1 as <-.
        split; cbn [set_consumer set_ring p_ring p_mem p_queue p_places p_consumer p_worker]; try assumption.
        -- exists l. auto.
        -- congruence.
        -- congruence.
        -- exact Logic.I.
    + injection E as <- <-. pose proof (back_slot _ _ I) as [B _]. destruct I. split; assumption.
    + injection E as <- <-. destruct I. rewrite C in i_offer0. destruct i_places0 as [P1 P2]. cbn [fold_left note].
      destruct (p_places s <=? length (p_queue s))%nat eqn:F; cbn [negb].
      * split; try assumption; try exact Logic.I. split; assumption.
      * split; cbn [p_ring p_mem p_queue p_places p_consumer p_worker stored waiting called]; try assumption.
        -- rewrite map_app, i_queue0. f_equal. cbn [map]. destruct p as [i|]; [|reflexivity]. cbn [offer_inv] in i_offer0. unfold slot, len in *. cbn. f_equal. f_equal. tauto.
        -- apply Forall_app. split; [exact i_valid0|]. constructor; [|constructor]. destruct p as [i|]; [|exact Logic.I]. cbn [offer_inv valid] in *. unfold len in *. cbn [stored]. lia.
        -- rewrite app_length. cbn [length]. split; [assumption|]. lia.
        -- exact Logic.I.
  - unfold worker_step in E. destruct (p_worker s) as [| | |p] eqn:W.
    + injection E as <- <-. exact I.
    + injection E as <- <-. destruct I. split; try assumption. cbn. destruct (_ || _); exact Logic.I.
    + destruct (p_queue s) as [|p ps] eqn:Q; injection E as <- <-.
      * destruct I. split; try assumption; try exact Logic.I. all: cbn; congruence.
      * destruct I. cbn [fold_left note]. rewrite Q in *. destruct (waiting d) as [|w l] eqn:WD; [discriminate|]. cbn [map] in i_queue0. injection i_queue0 as -> ->.
        cbn [length] in i_places0. inversion i_valid0; subst.
        split; cbn [p_ring p_mem p_queue p_places p_consumer p_worker stored waiting called]; try assumption; try reflexivity.
        -- apply Forall_app. split; [assumption|]. constructor; [assumption|constructor].
        -- split; [tauto|]. lia.
        -- cbn [worker_inv]. split; [destruct (called d); discriminate|]. unfold current. cbn [called]. rewrite last_snoc. reflexivity.
    + injection E as <- <-. destruct I. split; try assumption; exact Logic.I.
  - destruct (p_worker s) as [| | |[i|]]; try discriminate; injection E as <- <-; exact I.
  - destruct (Z.of_nat k <=? occupancy (p_ring s)); [|injection E as <- <-; exact I].
    destruct (pop k (p_ring s)) as [r|] eqn:EP; [|discriminate]. injection E as <- <-. exact (proj1 (pop_inv _ _ _ _ I EP)).
  - destruct (p_command s); injection E as <- <-; try exact I. destruct I. split; try assumption.
    + cbn. destruct (p_consumer s); assumption || exact Logic.I.
    + cbn. destruct (p_worker s); assumption || exact Logic.I.
  - destruct (p_command s); injection E as <- <-; try exact I. destruct I. split; assumption.
  - destruct (p_command s); try (injection E as <- <-; exact I). destruct (p_consumer s) eqn:C; try (injection E as <- <-; exact I).
    destruct (flush (p_ring s)) as [r|] eqn:EF; [|discriminate]. injection E as <- <-. unfold flush in EF.
    destruct (proj1 (pop_inv _ _ _ _ I EF)). split; assumption.
  - destruct (p_command s); try (injection E as <- <-; exact I). destruct (p_worker s) eqn:W; injection E as <- <-; try exact I.
    destruct I. split; try assumption; cbn; rewrite W; exact Logic.I.
Qed.

Definition ld0 : ledger A := mkLedger [] [] [].
Lemma new_inv : forall s, pipe_new n q = Ok s -> inv s ld0 /\ p_command s = NoRun /\ p_consumer s = CFree /\ p_worker s = WFree /\ p_input s = [].
Proof.
  intros s E. unfold pipe_new in E. destruct (new_sim (A := A) n Hn) as (r & E1 & (H & _) & _). rewrite E1 in E. cbn [bind] in E.
  assert (r_size r = n /\ r_write r = 0) as [Z1 Z2].
  { unfold ring_new in E1. destruct (n <? 2); [discriminate|]. injection E1 as <-. cbn. split; [|reflexivity]. apply u32_small. unfold supported_size, two32 in *. lia. }
  destruct (2 <=? q)%nat; [|discriminate]. injection E as <-. split; [|cbn; auto].
  split; cbn.
  - exists []. cbn. split; [exact H|]. split; [lia|reflexivity].
  - exact Z1.
  - rewrite Z2. symmetry. unfold supported_size in Hn. exact (Z.mod_0_l n ltac:(lia)).
  - intros k Lk. cbn in Lk. lia.
  - reflexivity.
  - constructor.
  - constructor.
  - split; [reflexivity|lia].
  - exact Logic.I.
  - exact Logic.I.
Qed.

Lemma run_split : forall acts1 acts2 (s s' : pipe A) log, pipe_run s (acts1 ++ acts2) = Ok (s', log) ->
  exists s1 log1 log2, pipe_run s acts1 = Ok (s1, log1) /\ pipe_run s1 acts2 = Ok (s', log2) /\ log = log1 ++ log2.
Proof.
  induction acts1 as [|a acts1 IH]; intros acts2 s s' log E; cbn [app pipe_run] in *.
  - exists s, [], log. auto.
  - destruct (act s a) as [[s1 e1]|]; [|discriminate]. cbn [bind fst snd] in *.
    destruct (pipe_run s1 (acts1 ++ acts2)) as [[s2 e2]|] eqn:E2; [|discriminate]. cbn [bind fst snd] in E. injection E as <- <-.
    destruct (IH _ _ _ _ E2) as (s3 & l1 & l2 & R1 & R2 & ->). rewrite R1. cbn [bind fst snd]. exists s3, (e1 ++ l1), l2. rewrite app_assoc. auto.
Qed.
Lemma run_snoc : forall acts a (s s' : pipe A) log, pipe_run s (acts ++ [a]) = Ok (s', log) ->
  exists s1 log1 e, pipe_run s acts = Ok (s1, log1) /\ act s1 a = Ok (s', e) /\ log = log1 ++ e.
Proof.
  intros acts a s s' log E. destruct (run_split _ _ _ _ _ E) as (s1 & l1 & l2 & R1 & R2 & ->). exists s1, l1, l2. split; [exact R1|]. split; [|reflexivity].
  cbn [pipe_run] in R2. destruct (act s1 a) as [[s2 e]|]; [|discriminate]. cbn [bind fst snd] in R2. injection R2 as <- <-. rewrite app_nil_r. reflexivity.
Qed.
Lemma ledger_app : forall l1 l2 : list (event A), ledger_of (l1 ++ l2) = fold_left note l2 (ledger_of l1).
Proof. intros. unfold ledger_of. apply fold_left_app. Qed.

Lemma run_inv : forall acts (s0 s : pipe A) log, pipe_new n q = Ok s0 -> pipe_run s0 acts = Ok (s, log) -> inv s (ledger_of log).
Proof.
  induction acts as [|a acts IH] using rev_ind; intros s0 s log N E.
  - cbn in E. injection E as <- <-. exact (proj1 (new_inv s0 N)).
  - destruct (run_snoc _ _ _ _ _ E) as (s1 & l1 & e & R1 & R2 & ->). rewrite ledger_app. exact (step_inv _ _ _ _ _ (IH _ _ _ N R1) R2).
Qed.

(** Every event of a log is produced by some step. *)
Lemma event_at : forall acts (s0 s : pipe A) log l1 e l2, pipe_new n q = Ok s0 -> pipe_run s0 acts = Ok (s, log) -> log = l1 ++ e :: l2 ->
  exists acts1 s1 l0 a s2 evs r, pipe_run s0 acts1 = Ok (s1, l0) /\ act s1 a = Ok (s2, evs) /\ l1 = l0 ++ r /\ exists r2, evs = r ++ e :: r2.
Proof.
  induction acts as [|a acts IH] using rev_ind; intros s0 s log l1 e l2 N E EL.
  - cbn in E. injection E as <- <-. destruct l1; discriminate.
  - destruct (run_snoc _ _ _ _ _ E) as (s1 & l0 & ev & R1 & R2 & E2). rewrite EL in E2.
    destruct (le_lt_dec (length l0) (length l1)) as [Le|Lt].
    + exists acts, s1, l0, a, s, ev, (skipn (length l0) l1). split; [exact R1|]. split; [exact R2|].
      assert (firstn (length l0) l1 = l0) as F.
      { apply (f_equal (firstn (length l0))) in E2. rewrite !firstn_app, firstn_all in E2. replace (length l0 - length l1)%nat with 0%nat in E2 by lia.
        rewrite Nat.sub_diag in E2. cbn in E2. rewrite !app_nil_r in E2. exact E2. }
      split; [rewrite <- F at 1; symmetry; apply firstn_skipn|].
      exists l2. apply (f_equal (skipn (length l0))) in E2. rewrite !skipn_app, skipn_all in E2. replace (length l0 - length l1)%nat with 0%nat in E2 by lia.
      rewrite Nat.sub_diag in E2. cbn in E2. symmetry. exact E2.
    + assert (exists l3, l0 = l1 ++ e :: l3) as [l3 E3].
      { apply (f_equal (firstn (length l0))) in E2. rewrite !firstn_app, firstn_all, Nat.sub_diag in E2. cbn [firstn] in E2. rewrite app_nil_r in E2.
        rewrite firstn_all2 in E2 by lia. destruct (length l0 - length l1)%nat as [|m] eqn:D; [lia|]. cbn [firstn] in E2.
        exists (firstn m l2). symmetry. exact E2. }
      exact (IH _ _ _ _ _ _ N R1 E3).
Qed.

(** * What a look shows *)
Lemma look_event : forall acts (s0 s : pipe A) log l1 v l2, pipe_new n q = Ok s0 -> pipe_run s0 acts = Ok (s, log) -> log = l1 ++ ELook v :: l2 ->
  exists acts1 s1 i, pipe_run s0 acts1 = Ok (s1, l1) /\ p_worker s1 = WBusy (Some i) /\ v = p_mem s1 i.
Proof.
  intros acts s0 s log l1 v l2 N E EL. destruct (event_at _ _ _ _ _ _ _ N E EL) as (acts1 & s1 & l0 & a & s2 & evs & r & R1 & R2 & -> & r2 & EV).
  destruct a as [x| | | |k| | | |]; cbn [act] in R2.
  - injection R2 as <- <-. destruct r; discriminate.
  - unfold consumer_step in R2. destruct (p_consumer s1) as [| | |x| |p].
    + injection R2 as <- <-. destruct r; discriminate.
    + injection R2 as <- <-. destruct r; discriminate.
    + destruct (p_input s1); injection R2 as <- <-; destruct r; discriminate.
    + destruct (write x (p_ring s1)) as [[r1 b]|]; [|discriminate]. cbn [bind fst snd] in R2. injection R2 as <- <-. destruct b; destruct r as [|? []]; discriminate.
    + injection R2 as <- <-. destruct r; discriminate.
    + injection R2 as <- <-. destruct r as [|? []]; discriminate.
  - unfold worker_step in R2. destruct (p_worker s1); try (injection R2 as <- <-; destruct r as [|? []]; discriminate).
    destruct (p_queue s1); injection R2 as <- <-; destruct r as [|? []]; discriminate.
  - destruct (p_worker s1) as [| | |[i|]] eqn:W; try discriminate; try (injection R2 as <- <-; destruct r; discriminate).
    injection R2 as <- <-. destruct r as [|? []]; try discriminate. cbn in EV. injection EV as <- <-. rewrite app_nil_r.
    exists acts1, s1, i. auto.
  - destruct (Z.of_nat k <=? occupancy (p_ring s1)); [|injection R2 as <- <-; destruct r; discriminate].
    destruct (pop k (p_ring s1)) as [r1|]; [|discriminate]. injection R2 as <- <-. destruct r as [|? []]; discriminate.
  - destruct (p_command s1); injection R2 as <- <-; destruct r; discriminate.
  - destruct (p_command s1); injection R2 as <- <-; destruct r; discriminate.
  - destruct (p_command s1); try (injection R2 as <- <-; destruct r; discriminate). destruct (p_consumer s1); try (injection R2 as <- <-; destruct r; discriminate).
    destruct (flush (p_ring s1)); [|discriminate]. injection R2 as <- <-; destruct r; discriminate.
  - destruct (p_command s1); try (injection R2 as <- <-; destruct r; discriminate). destruct (p_worker s1); injection R2 as <- <-; destruct r as [|? []]; discriminate.
Qed.

Lemma look_shows : forall acts (s0 s : pipe A) log l1 v l2, pipe_new n q = Ok s0 -> pipe_run s0 acts = Ok (s, log) -> log = l1 ++ ELook v :: l2 ->
  exists k, current (ledger_of l1) = Some k /\ (k < len (ledger_of l1))%nat /\
    v = nth_error (stored (ledger_of l1)) (k + Z.to_nat n * ((len (ledger_of l1) - 1 - k) / Z.to_nat n)).
Proof.
  intros acts s0 s log l1 v l2 N E EL. destruct (look_event _ _ _ _ _ _ _ N E EL) as (acts1 & s1 & i & R1 & W & ->).
  pose proof (run_inv _ _ _ _ N R1) as I.
  set (d := ledger_of l1) in *. pose proof (i_worker _ _ I) as WI. rewrite W in WI. cbn [worker_inv] in WI. destruct WI as [NC WI].
  destruct (current d) as [k|] eqn:CD; [|discriminate]. cbn in WI. injection WI as ->. exists k. split; [reflexivity|].
  assert (k < len d)%nat as Lk.
  { pose proof (i_called _ _ I) as F. rewrite Forall_forall in F. apply (F (Some k)). rewrite <- CD. unfold current.
    destruct (exists_last NC) as (l' & w & ->). rewrite last_snoc. apply in_or_app. right. left. reflexivity. }
  split; [exact Lk|]. unfold supported_size in Hn. set (m := Z.to_nat n). set (j := ((len d - 1 - k) / m)%nat).
  pose proof (Nat.div_mod (len d - 1 - k) m ltac:(lia)) as DM. pose proof (Nat.mod_upper_bound (len d - 1 - k) m ltac:(lia)) as MB. fold j in DM.
  rewrite <- (i_mem _ _ I (k + m * j)%nat); unfold len in *; [| |].
  + f_equal. rewrite Nat2Z.inj_add, Nat2Z.inj_mul. replace (Z.of_nat m) with n by lia. rewrite Z.mul_comm, Z_mod_plus_full. reflexivity.
  + lia.
  + lia.
Qed.
End Proofs.
