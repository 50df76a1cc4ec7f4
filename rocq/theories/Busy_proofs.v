(** Proofs about requests served while data keep arriving. *)
From Coq Require Import ZArith List Bool Lia ZifyBool.
From Verif Require Import Base_model Ring_model Ring_spec Ring_proofs Search_model Search_spec Search_proofs Elem_model
  Lb_model Lb_proofs Request_model Request_spec Request_proofs Busy_model Busy_spec.
Import ListNotations.
Open Scope Z_scope.

(** ** Contents over time *)

Lemma contents_app : forall n a b l, contents n l (a ++ b) = contents n (contents n l a) b.
Proof. induction a as [|[| |x] a IH]; intros b l; cbn [app contents]; auto. Qed.

Lemma on_record_app : forall a b f, on_record f (a ++ b) = on_record (on_record f a) b.
Proof. induction a as [|[| |x] a IH]; intros b f; cbn [app on_record]; auto. Qed.

Lemma contents_prefix : forall n steps l, exists t, contents n l steps = l ++ t.
Proof.
  induction steps as [|[| |x] steps IH]; intros l; cbn [contents]; try apply IH.
  - exists []. rewrite app_nil_r. reflexivity.
  - destruct (Z.of_nat (length l) <? n - 1); [|apply IH].
    destruct (IH (l ++ [x])) as [t Ht]. exists (x :: t). rewrite Ht, <- app_assoc. reflexivity.
Qed.

Lemma contents_length : forall n steps l, (length l <= length (contents n l steps))%nat.
Proof. intros n steps l. destruct (contents_prefix n steps l) as [t ->]. rewrite app_length. lia. Qed.

(** Every length between the first and the last was reached at some moment. *)
Lemma contents_reach : forall n steps l k, (length l <= k <= length (contents n l steps))%nat ->
  exists before after, steps = before ++ after /\ contents n l before = firstn k (contents n l steps).
Proof.
  induction steps as [|a steps IH]; intros l k Hk.
  - exists [], []. cbn [contents app] in *. split; [reflexivity|]. rewrite firstn_all2 by lia. reflexivity.
  - assert (k = length l \/ length l < k)%nat as [->|Hlt] by lia.
    + exists [], (a :: steps). split; [reflexivity|]. destruct (contents_prefix n (a :: steps) l) as [t ->].
      rewrite firstn_app, Nat.sub_diag, firstn_all. cbn [contents firstn]. rewrite app_nil_r. reflexivity.
    + assert (exists before after, steps = before ++ after /\ contents n l (a :: before) = firstn k (contents n l (a :: steps)))
        as (b & c & -> & E).
      { destruct a as [| |x]; cbn [contents] in *.
        - destruct (IH l k ltac:(lia)) as (b & c & E & E2). exists b, c. auto.
        - destruct (IH l k ltac:(lia)) as (b & c & E & E2). exists b, c. auto.
        - destruct (Z.of_nat (length l) <? n - 1).
          + destruct (IH (l ++ [x]) k) as (b & c & E & E2).
            { rewrite app_length. cbn [length]. lia. } exists b, c. auto.
          + destruct (IH l k ltac:(lia)) as (b & c & E & E2). exists b, c. auto. }
      exists (a :: b), c. auto.
Qed.

(** ** Shared memory *)

Section Run.
Variable n rd : Z.
Variable l0 : list elem.
Variable flag0 : bool.
Variable all : list arrival.
Let C := contents n l0 all.
Let m0 := length l0.

Definition shows (r : ring elem) (p : nat) : Prop :=
  holds r (firstn (m0 + p) C) /\ r_read r = rd /\ r_size r = n /\ (m0 + p <= length C)%nat.

Record inv (gs : list gap) (s : shared) : Prop := {
  i_done : exists before, all = before ++ steps_of gs /\
             (length (contents n l0 before) = m0 + (length (sh_hist s) - 1))%nat /\
             sh_flag s = on_record flag0 before;
  i_hist : forall p r, nth_error (sh_hist s) p = Some r -> shows r p;
  i_len : (sh_seen s < length (sh_hist s))%nat;
  i_acq : (sh_acq s <= sh_seen s)%nat
}.

Lemma C_prefix : forall before after, all = before ++ after ->
  contents n l0 before = firstn (length (contents n l0 before)) C.
Proof.
  intros before after E. unfold C. rewrite E, contents_app.
  destruct (contents_prefix n after (contents n l0 before)) as [t Ht]. rewrite Ht.
  rewrite firstn_app, Nat.sub_diag, firstn_all. cbn [firstn]. rewrite app_nil_r. reflexivity.
Qed.

(** Invariant between steps of the consumer, with the steps still to come. *)
Definition mid (before rest : list arrival) (s : shared) : Prop :=
  all = before ++ rest /\ (length (contents n l0 before) = m0 + (length (sh_hist s) - 1))%nat /\
  sh_flag s = on_record flag0 before /\ (forall p r, nth_error (sh_hist s) p = Some r -> shows r p) /\
  (0 < length (sh_hist s))%nat.

Lemma arrive_ok : forall a before rest s, mid before (a :: rest) s ->
  exists s', arrive a s = Ok s' /\ mid (before ++ [a]) rest s' /\ sh_seen s' = sh_seen s /\ sh_acq s' = sh_acq s /\
    (length (sh_hist s) <= length (sh_hist s'))%nat.
Proof.
  intros a before rest s (E & Hlen & Hf & Hh & Hpos). pose proof E as E'.
  replace (before ++ a :: rest) with ((before ++ [a]) ++ rest) in E' by (rewrite <- app_assoc; reflexivity).
  destruct a as [| |x]; cbn [arrive].
  - eexists. split; [reflexivity|]. cbn [sh_seen sh_acq sh_hist]. split; [|split; [reflexivity|split; [reflexivity|lia]]].
    unfold mid. cbn [sh_hist sh_flag]. split; [exact E'|]. rewrite contents_app, on_record_app. cbn [contents on_record].
    split; [exact Hlen|]. split; [reflexivity|]. split; [exact Hh|exact Hpos].
  - eexists. split; [reflexivity|]. cbn [sh_seen sh_acq sh_hist]. split; [|split; [reflexivity|split; [reflexivity|lia]]].
    unfold mid. cbn [sh_hist sh_flag]. split; [exact E'|]. rewrite contents_app, on_record_app. cbn [contents on_record].
    split; [exact Hlen|]. split; [reflexivity|]. split; [exact Hh|exact Hpos].
  - unfold sh_now, sh_nth. destruct (nth_error (sh_hist s) (length (sh_hist s) - 1)) as [r|] eqn:Er.
    2:{ apply nth_error_None in Er. lia. }
    destruct (Hh _ _ Er) as (Hr & Hrd & Hn & Hle). cbn [bind].
    pose proof (C_prefix _ _ E) as Hc. rewrite Hlen in Hc.
    rewrite <- Hc in Hr.
    destruct (Z.of_nat (length (contents n l0 before)) <? n - 1) eqn:El.
    + destruct (write_ok r _ x Hr ltac:(lia)) as (r' & Ew & Hr' & Hs' & _).
      assert (r_read r' = r_read r) as Hrd'.
      { unfold write in Ew. destruct (negb _); [|discriminate].
        destruct (r_slots r (r_write r)); [discriminate|]. injection Ew as <-. reflexivity. }
      rewrite Ew. cbn [bind]. eexists. split; [reflexivity|]. cbn [sh_seen sh_acq sh_hist].
      split; [|split; [reflexivity|split; [reflexivity|rewrite app_length; lia]]].
      assert (length (contents n l0 (before ++ [AStore x])) = m0 + length (sh_hist s))%nat as Hlen'.
      { rewrite contents_app. cbn [contents]. rewrite El, app_length. cbn [length]. lia. }
      unfold mid. cbn [sh_hist sh_flag]. rewrite app_length. cbn [length].
      split; [exact E'|]. split; [rewrite Hlen'; lia|].
      split; [rewrite on_record_app; exact Hf|]. split; [|lia].
      intros p y Hy. destruct (Nat.lt_ge_cases p (length (sh_hist s))) as [Hp|Hp].
      * rewrite nth_error_app1 in Hy by lia. apply (Hh p y Hy).
      * rewrite nth_error_app2 in Hy by lia.
        assert (p = length (sh_hist s)) as -> by (assert (nth_error [r'] (p - length (sh_hist s)) <> None) as X by congruence;
          apply nth_error_Some in X; cbn in X; lia).
        rewrite Nat.sub_diag in Hy. cbn in Hy. injection Hy as <-.
        unfold shows. rewrite <- Hlen'. rewrite <- (C_prefix _ _ E').
        rewrite contents_app. cbn [contents]. rewrite El.
        split; [exact Hr'|]. split; [congruence|]. split; [congruence|].
        pose proof (contents_length n rest (contents n l0 (before ++ [AStore x]))) as X.
        rewrite <- contents_app, <- E' in X. fold C in X. rewrite contents_app in X. cbn [contents] in X. rewrite El in X. exact X.
    + destruct (write_full r _ x Hr) as (r' & Ew & _).
      { pose proof (h_len _ _ Hr). lia. }
      rewrite Ew. cbn [bind]. eexists. split; [reflexivity|]. split; [|split; [reflexivity|split; [reflexivity|lia]]].
      unfold mid. split; [exact E'|]. rewrite contents_app. cbn [contents]. rewrite El.
      split; [exact Hlen|]. split; [rewrite on_record_app; exact Hf|]. split; assumption.
Qed.

Lemma arrive_all_ok : forall l before rest s, mid before (l ++ rest) s ->
  exists s', arrive_all l s = Ok s' /\ mid (before ++ l) rest s' /\ sh_seen s' = sh_seen s /\ sh_acq s' = sh_acq s /\
    (length (sh_hist s) <= length (sh_hist s'))%nat.
Proof.
  induction l as [|a l IH]; intros before rest s H; cbn [arrive_all].
  - exists s. rewrite app_nil_r. split; [reflexivity|]. split; [exact H|]. split; [reflexivity|split; [reflexivity|lia]].
  - destruct (arrive_ok a before (l ++ rest) s H) as (s1 & E1 & H1 & A1 & B1 & L1). rewrite E1. cbn [bind].
    destruct (IH _ _ _ H1) as (s2 & E2 & H2 & A2 & B2 & L2). exists s2.
    rewrite <- app_assoc in H2. cbn [app] in H2. split; [exact E2|]. split; [exact H2|].
    split; [congruence|]. split; [congruence|lia].
Qed.

Lemma inv_mid : forall gs s, inv gs s -> exists before, mid before (g_arrivals (fst (next_gap gs)) ++ steps_of (snd (next_gap gs))) s.
Proof.
  intros gs s [(b & E & Hl & Hf) Hh Hlen Ha]. exists b. unfold mid.
  split; [rewrite E; destruct gs; reflexivity|]. split; [exact Hl|]. split; [exact Hf|]. split; [exact Hh|lia].
Qed.

Lemma load_ok : forall strong acquire gs s, inv gs s ->
  exists p r gs' s', load strong acquire gs s = Ok (r, gs', s') /\ shows r p /\ inv gs' s' /\
    sh_seen s' = p /\ (sh_seen s <= p)%nat /\ sh_acq s' = (if acquire || strong then p else sh_acq s).
Proof.
  intros strong acquire gs s I. destruct (inv_mid gs s I) as [b H].
  unfold load. destruct (next_gap gs) as [g gs'] eqn:Eg. cbn [fst snd] in H.
  destruct (arrive_all_ok _ _ _ _ H) as (s1 & E1 & H1 & A1 & B1 & L1). rewrite E1. cbn [bind].
  destruct H1 as (Eall & Hl & Hf & Hh & Hp). destruct I as [_ _ Hseen Hacq].
  set (p := Nat.max (sh_seen s1) (Nat.min (g_pick g) (length (sh_hist s1) - 1))).
  assert (p < length (sh_hist s1))%nat as Hplt by (unfold p; lia).
  unfold sh_nth. destruct (nth_error (sh_hist s1) p) as [r|] eqn:Er; [|apply nth_error_None in Er; lia].
  cbn [bind]. exists p, r, gs'. eexists. split; [reflexivity|]. split; [apply (Hh _ _ Er)|]. cbn [sh_seen sh_acq].
  assert (sh_seen s <= p)%nat by (unfold p; lia).
  split; [|rewrite B1; auto].
  split; cbn [sh_hist sh_flag sh_seen sh_acq]; try assumption.
  - exists (b ++ g_arrivals g). split; [exact Eall|]. split; [exact Hl|exact Hf].
  - rewrite B1. destruct (acquire || strong); lia.
Qed.

Lemma load_flag_ok : forall gs s, inv gs s ->
  exists f gs' s' before after, load_flag gs s = Ok (f, gs', s') /\ inv gs' s' /\ sh_seen s' = sh_seen s /\ sh_acq s' = sh_acq s /\
    all = before ++ after /\ f = on_record flag0 before /\
    (m0 + sh_seen s <= length (contents n l0 before))%nat.
Proof.
  intros gs s I. destruct (inv_mid gs s I) as [b H].
  unfold load_flag. destruct (next_gap gs) as [g gs'] eqn:Eg. cbn [fst snd] in H.
  destruct (arrive_all_ok _ _ _ _ H) as (s1 & E1 & H1 & A1 & B1 & L1). rewrite E1. cbn [bind].
  destruct H1 as (Eall & Hl & Hf & Hh & Hp). destruct I as [_ _ Hseen Hacq].
  exists (sh_flag s1), gs', s1, (b ++ g_arrivals g), (steps_of gs'). split; [reflexivity|].
  split; [split; [exists (b ++ g_arrivals g); split; [exact Eall|split; [exact Hl|exact Hf]]|exact Hh|lia|lia]|].
  split; [exact A1|]. split; [exact B1|]. split; [exact Eall|]. split; [exact Hf|]. rewrite Hl. lia.
Qed.

Lemma use_ok : forall gs s, inv gs s -> exists r, shows r (sh_acq s) /\ forall i, use s i = deref r i.
Proof.
  intros gs s I. pose proof (i_len _ _ I). pose proof (i_acq _ _ I).
  destruct (nth_error (sh_hist s) (sh_acq s)) as [r|] eqn:Er; [|apply nth_error_None in Er; lia].
  exists r. split; [apply (i_hist _ _ I _ _ Er)|]. intros i. unfold use, sh_nth. rewrite Er. reflexivity.
Qed.

(** The iterator of the [k]-th element, the same at every moment. *)
Definition at_ (k : nat) : Z := (rd + Z.of_nat k) mod n.

Lemma shows_len : forall r p, shows r p -> length (firstn (m0 + p) C) = (m0 + p)%nat.
Proof. intros r p (_ & _ & _ & H). rewrite firstn_length. lia. Qed.

Lemma shows_lt : forall r p, shows r p -> Z.of_nat (m0 + p) < n.
Proof. intros r p H. pose proof (shows_len _ _ H) as E. destruct H as (H & _ & Hn & _). pose proof (h_len _ _ H). lia. Qed.

Lemma shows_good : forall r p k, shows r p -> Z.of_nat k < n -> it_good r (at_ k) = (k <? m0 + p)%nat.
Proof.
  intros r p k Hs Hk. pose proof (shows_len _ _ Hs) as E. destruct Hs as (H & Hrd & Hn & _).
  unfold at_. rewrite <- Hrd, <- Hn. rewrite (good_index _ _ (Z.of_nat k) H) by lia. rewrite E. lia.
Qed.

Lemma shows_deref : forall r p k, shows r p -> (k < m0 + p)%nat -> exists x, nth_error C k = Some x /\ deref r (at_ k) = Ok x.
Proof.
  intros r p k Hs Hk. pose proof (shows_lt _ _ Hs). destruct Hs as (H' & Hrd & Hn & Hle).
  destruct (nth_error C k) as [x|] eqn:Ex; [|apply nth_error_None in Ex; lia]. exists x. split; [reflexivity|].
  unfold deref, at_. rewrite <- Hrd, <- Hn. rewrite (h_slots _ _ H') by lia. rewrite Nat2Z.id.
  assert (nth_error (firstn (m0 + p) C) k = Some x) as ->; [|reflexivity].
  rewrite <- Ex. rewrite <- (firstn_skipn (m0 + p) C) at 2. rewrite nth_error_app1; [reflexivity|].
  rewrite firstn_length. lia.
Qed.

Lemma shows_undef : forall r p k, shows r p -> (m0 + p <= k)%nat -> Z.of_nat k < n -> deref r (at_ k) = Crash.
Proof.
  intros r p k Hs Hk Hn'. pose proof (shows_len _ _ Hs) as E. destruct Hs as (H' & Hrd & Hn & Hle).
  unfold deref, at_. rewrite <- Hrd, <- Hn. rewrite (h_slots _ _ H') by lia. rewrite Nat2Z.id.
  assert (nth_error (firstn (m0 + p) C) k = None) as ->; [apply nth_error_None; lia|reflexivity].
Qed.

Lemma shows_front : forall r p, shows r p -> (0 < m0 + p)%nat -> front r = Some (at_ 0).
Proof.
  intros r p Hs Hp. pose proof (shows_len _ _ Hs) as E. destruct Hs as (H & Hrd & Hn & _).
  unfold front. rewrite (holds_empty_iff _ _ H). rewrite E.
  destruct (Z.of_nat (m0 + p) =? 0) eqn:E0; [lia|]. f_equal. unfold at_. rewrite Z.add_0_r.
  rewrite Z.mod_small; [congruence|]. pose proof (h_read _ _ H). lia.
Qed.

Lemma shows_back : forall r p, shows r p -> (0 < m0 + p)%nat -> back r = Some (at_ (m0 + p - 1)).
Proof.
  intros r p Hs Hp. pose proof (shows_len _ _ Hs) as E. destruct Hs as (H & Hrd & Hn & _).
  rewrite (back_index _ _ H); [|intros X; rewrite X in E; cbn in E; lia]. rewrite E, Hrd, Hn.
  f_equal. unfold at_. f_equal. lia.
Qed.

Lemma shows_incr2 : forall r1 p1 r2 p2 k, shows r1 p1 -> shows r2 p2 -> (k < m0 + p1)%nat -> (S k < m0 + p2)%nat ->
  it_incr2 r1 r2 (at_ k) = at_ (S k).
Proof.
  intros r1 p1 r2 p2 k H1 H2 K1 K2. pose proof (shows_lt _ _ H1). pose proof (shows_lt _ _ H2). unfold it_incr2.
  rewrite (shows_good _ _ _ H1) by lia. destruct (k <? m0 + p1)%nat eqn:E1; [|lia].
  assert ((if u32 (at_ k + 1) =? r_size r1 then 0 else u32 (at_ k + 1)) = at_ (S k)) as ->.
  { destruct H1 as (Hh & Hrd & Hn & _). pose proof (h_read _ _ Hh) as R. pose proof (h_size _ _ Hh) as S.
    unfold at_. rewrite Hn in *. rewrite Hrd in *.
    rewrite (wrap_add n rd (Z.of_nat k)) by lia. rewrite (wrap_add n rd (Z.of_nat (Datatypes.S k))) by lia.
    destruct (rd + Z.of_nat k <? n) eqn:Ea; destruct (rd + Z.of_nat (Datatypes.S k) <? n) eqn:Eb;
      rewrite u32_small by (unfold two32; lia);
      match goal with |- (if ?c then _ else _) = _ => destruct c eqn:Ec end; lia. }
  rewrite (shows_good _ _ _ H2) by lia. destruct (S k <? m0 + p2)%nat eqn:E2; [reflexivity|lia].
Qed.

Variable strong : bool.
Variable tick : Z.

(** The loop started at the [k]-th element yields what the buffer held when its newest element, known to reach
    the end of the window, was looked up. *)
Lemma busy_extract_ok : forall fuel gs s k P y b e_w, inv gs s -> (P <= sh_acq s)%nat -> (k < m0 + P)%nat ->
  (m0 + P - k <= fuel)%nat -> nth_error C (m0 + P - 1) = Some y -> e_w <= e_ts y ->
  busy_extract strong tick fuel gs s (at_ k) b e_w =
  Ok (flat_map (fun e => element_bytes tick e b e_w) (take_before e_w (skipn k (firstn (m0 + P) C)))).
Proof.
  induction fuel as [|fuel IH]; intros gs s k P y b e_w I HP Hk Hf Hy He; [lia|].
  cbn [busy_extract].
  destruct (load_ok strong false gs s I) as (p & r & gs1 & s1 & E1 & Hs1 & I1 & A1 & B1 & D1). rewrite E1. cbn [bind].
  pose proof (i_acq _ _ I) as Hq. pose proof (shows_lt _ _ Hs1) as Hplt.
  rewrite (shows_good _ _ _ Hs1) by lia. destruct (k <? m0 + p)%nat eqn:Ek; [|lia].
  destruct (use_ok _ _ I1) as (ra & Ha & Hu). rewrite Hu.
  assert (P <= sh_acq s1)%nat as HP1 by (rewrite D1; destruct (false || strong); lia).
  destruct (shows_deref _ _ k Ha ltac:(lia)) as (x & Hx & Hd). rewrite Hd. cbn [bind].
  assert (m0 + P <= length C)%nat as HPC by (destruct Ha as (_ & _ & _ & Hle); lia).
  assert (skipn k (firstn (m0 + P) C) = x :: skipn (S k) (firstn (m0 + P) C)) as ->.
  { apply skipn_cons_nth. rewrite <- Hx. rewrite <- (firstn_skipn (m0 + P) C) at 2. rewrite nth_error_app1; [reflexivity|].
    rewrite firstn_length. lia. }
  cbn [take_before]. destruct (e_ts x <? e_w) eqn:Et; [|reflexivity].
  assert (S k < m0 + P)%nat as Hk1.
  { destruct (Nat.eq_dec k (m0 + P - 1)) as [->|]; [|lia]. rewrite Hy in Hx. injection Hx as <-. lia. }
  destruct (load_ok strong false gs1 s1 I1) as (p2 & r2 & gs2 & s2 & E2 & Hs2 & I2 & A2 & B2 & D2). rewrite E2. cbn [bind].
  destruct (load_ok strong false gs2 s2 I2) as (p3 & r3 & gs3 & s3 & E3 & Hs3 & I3 & A3 & B3 & D3). rewrite E3. cbn [bind].
  pose proof (i_acq _ _ I1).
  rewrite (shows_incr2 _ _ _ _ k Hs2 Hs3) by lia.
  assert (P <= sh_acq s3)%nat as HP3 by (rewrite D3, D2; destruct (false || strong); lia).
  rewrite (IH gs3 s3 (S k) P y b e_w I3 HP3 ltac:(lia) ltac:(lia) Hy He). cbn [bind flat_map]. reflexivity.
Qed.

End Run.
