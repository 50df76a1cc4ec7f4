(** Proofs for C82: the owners of the heap objects. *)
From Coq Require Import ZArith List Bool Lia ZifyBool.
From Verif Require Import Base_model Bytes_model Ring_model Ring_spec Ring_proofs Rawtp_model Rawtp_spec Rawtp_proofs Tpmem_model Tpmem_spec.
Import ListNotations.
Open Scope Z_scope.

Definition fr (h : heap) (p : nat) (f : list Z) : Prop := nth_error h p = Some (mk_block false true f).

Lemma f2_length {A B} (R : A -> B -> Prop) l m : Forall2 R l m -> length l = length m.
Proof. induction 1; cbn [length]; lia. Qed.

Lemma live_app b h1 h2 : live_objects b (h1 ++ h2) = (live_objects b h1 + live_objects b h2)%nat.
Proof. unfold live_objects. now rewrite filter_app, app_length. Qed.

Lemma delete_ok h p k bs : nth_error h p = Some (mk_block k true bs) ->
  exists h', delete p h = Ok h' /\ length h' = length h /\ (forall q, q <> p -> nth_error h' q = nth_error h q) /\
    (live_objects k h' + 1 = live_objects k h)%nat /\ live_objects (negb k) h' = live_objects (negb k) h.
Proof.
  intros E. unfold delete. rewrite E. eexists. split; [reflexivity|].
  destruct (nth_error_split h p E) as (a & b & Eh & La). subst h p.
  assert (F : firstn (length a) (a ++ mk_block k true bs :: b) = a) by (rewrite firstn_app, Nat.sub_diag, firstn_all; cbn; apply app_nil_r).
  assert (S : skipn (S (length a)) (a ++ mk_block k true bs :: b) = b).
  { rewrite skipn_app, skipn_all2 by lia. replace (S (length a) - length a)%nat with 1%nat by lia. reflexivity. }
  rewrite F, S. split; [rewrite !app_length; cbn [length]; lia|]. split; [|].
  - intros q Hq. destruct (Nat.lt_ge_cases q (length a)) as [Hl|Hl].
    + rewrite !nth_error_app1 by lia. reflexivity.
    + rewrite !nth_error_app2 by lia. destruct (q - length a)%nat as [|m] eqn:Em; [lia|reflexivity].
  - rewrite !live_app. unfold live_objects. cbn [filter b_live b_new andb]. destruct k; cbn [Bool.eqb negb length]; lia.
Qed.

(** [l] are the frames alive, each with one owner, and [fs] their bytes. *)
Definition owns (h : heap) (l : list nat) (fs : list (list Z)) : Prop :=
  Forall2 (fr h) l fs /\ NoDup l /\ live_objects false h = length l.

Lemma fr_bound h p f : fr h p f -> (p < length h)%nat.
Proof. intro E. apply nth_error_Some. unfold fr in E. congruence. Qed.

Lemma owns_new h l fs bs : owns h l fs -> owns (h ++ [mk_block true true bs]) l fs /\
  live_objects true (h ++ [mk_block true true bs]) = S (live_objects true h).
Proof.
  intros (F & N & L). split; [|rewrite live_app; cbn; lia]. split; [|split; [exact N|rewrite live_app; cbn; lia]].
  clear - F. induction F as [|p f l fs E F IH]; constructor; auto. unfold fr. rewrite nth_error_app1 by (eapply fr_bound; eauto). exact E.
Qed.

Lemma owns_malloc h l fs f : owns h l fs -> owns (h ++ [mk_block false true f]) (l ++ [length h]) (fs ++ [f]) /\
  live_objects true (h ++ [mk_block false true f]) = live_objects true h.
Proof.
  intros (F & N & L). split; [|rewrite live_app; cbn; lia].
  assert (B : Forall (fun p => (p < length h)%nat) l).
  { clear - F. induction F as [|p f l fs E F IH]; constructor; auto. eapply fr_bound; eauto. }
  split; [|split].
  - apply Forall2_app.
    + clear - F. induction F as [|p g l fs E F IH]; constructor; auto. unfold fr. rewrite nth_error_app1 by (eapply fr_bound; eauto). exact E.
    + constructor; [|constructor]. unfold fr. rewrite nth_error_app2, Nat.sub_diag by lia. reflexivity.
  - apply NoDup_rev in N. rewrite <- (rev_involutive (l ++ [length h])), rev_app_distr. apply NoDup_rev. cbn [rev app]. constructor; [|exact N].
    rewrite <- in_rev. intro H. apply (proj1 (Forall_forall _ _) B) in H. lia.
  - rewrite live_app, app_length, L. cbn. lia.
Qed.

Lemma owns_delete h a p b fs : owns h (a ++ p :: b) fs ->
  exists h' fa f fb, delete p h = Ok h' /\ fs = fa ++ f :: fb /\ length fa = length a /\ fr h p f /\ owns h' (a ++ b) (fa ++ fb) /\
    live_objects true h' = live_objects true h.
Proof.
  intros (F & N & L). apply Forall2_app_inv_l in F as (fa & fr1 & Fa & F1 & ->). inversion F1 as [|? f ? fb E Fb]; subst.
  destruct (delete_ok h p false f E) as (h' & D & _ & Same & C1 & C2). exists h', fa, f, fb.
  split; [exact D|]. split; [reflexivity|]. split; [symmetry; eapply f2_length; eauto|]. split; [exact E|]. split; [|exact C2].
  apply NoDup_remove in N as [N Np].
  assert (K : forall l gs, Forall2 (fr h) l gs -> incl l (a ++ b) -> Forall2 (fr h') l gs).
  { induction 1 as [|q g l gs Eq F IH]; intros Hi; constructor.
    - unfold fr. rewrite Same; [exact Eq|]. intros ->. apply Np, Hi. left. reflexivity.
    - apply IH. intros x Hx. apply Hi. right. exact Hx. }
  split; [|split; [exact N|rewrite !app_length in *; cbn [length] in *; lia]].
  apply Forall2_app; apply K; auto; intros x Hx; apply in_or_app; auto.
Qed.

Lemma owns_load h l fs k p : owns h l fs -> nth_error l k = Some p -> exists f, nth_error fs k = Some f /\ load p h = Ok f.
Proof.
  intros (F & _) E. revert k E. induction F as [|q f l fs Eq F IH]; intros k E; [destruct k; discriminate|].
  destruct k as [|k]; cbn [nth_error] in *; [|apply IH; exact E]. injection E as ->. exists f. split; [reflexivity|]. unfold load. unfold fr in Eq. now rewrite Eq.
Qed.

(** Looking at a stretch of the owned frames. *)
Lemma look_walk h fs : forall fuel (r : ring nat) i ps, walk fuel r i = Some ps -> Forall2 (fr h) ps fs -> look fuel r i h = Ok fs.
Proof.
  intros fuel. revert fs. induction fuel as [|fuel IH]; intros fs r i ps W F; cbn [walk look] in *; destruct (i =? it_end).
  - injection W as <-. inversion F; subst. reflexivity.
  - discriminate.
  - injection W as <-. inversion F; subst. reflexivity.
  - destruct (deref r i) as [p|]; [|discriminate]. destruct (walk fuel r (it_incr r i)) as [l|] eqn:El; [|discriminate]. injection W as <-.
    inversion F as [|? f ? gs E1 F1]; subst. cbn [bind]. unfold load. unfold fr in E1. rewrite E1. cbn [bind]. rewrite (IH gs _ _ l El F1). reflexivity.
Qed.

Section Run.
Variable bl : list Rawtp_spec.block.
Variable junk : nat -> nat -> Z.
Variable n : Z.
Hypothesis W : Forall well_formed bl.
Hypothesis Hne : bl <> [].
Hypothesis Hn : 2 <= n <= 2147483648.

Notation src := (file bl).
Notation num := (frame_no bl).

(** The position in the file after [made] frames. *)
Definition at_frame (made off : nat) : Prop :=
  exists i, (i <= length bl)%nat /\ off = length (file (firstn i bl)) /\ (made mod length bl = i mod length bl)%nat.

Lemma bl_pos : (0 < length bl)%nat.
Proof. destruct bl; [congruence|cbn [length]; lia]. Qed.

Lemma next_block j made off : at_frame made off ->
  exists off', next_frame j src (if (off =? (length src / 12) * 12)%nat then O else off) = Ok (num made, off') /\ at_frame (S made) off'.
Proof.
  intros (i & Hi & -> & Hm). pose proof bl_pos as Hp.
  assert (P : forall i, (i < length bl)%nat -> (made mod length bl = i)%nat ->
    exists off', next_frame j src (length (file (firstn i bl))) = Ok (num made, off') /\ at_frame (S made) off').
  { clear i Hi Hm. intros i Hi Hm.
    destruct (nth_split bl (New []) Hi) as (pre & post & E & Lp). set (b := nth i bl (New [])) in *.
    assert (Wb : well_formed b). { rewrite Forall_forall in W. apply W. now apply nth_In. }
    assert (F1 : file bl = file (firstn i bl) ++ file_bytes b ++ file post).
    { rewrite E at 1. unfold file. rewrite map_app, concat_app. cbn [map concat]. do 3 f_equal. rewrite E.
      rewrite firstn_app, <- Lp, Nat.sub_diag. cbn [firstn]. rewrite app_nil_r, firstn_all. reflexivity. }
    assert (F2 : length (file (firstn (S i) bl)) = (length (file (firstn i bl)) + length (file_bytes b))%nat).
    { rewrite E. rewrite <- Lp. rewrite !firstn_app. replace (S (length pre) - length pre)%nat with 1%nat by lia.
      rewrite Nat.sub_diag, firstn_all, (firstn_all2 pre) by lia. cbn [firstn]. unfold file.
      rewrite app_nil_r, map_app, concat_app, app_length. cbn [map concat]. now rewrite app_nil_r. }
    eexists. split; [rewrite F1 at 1; rewrite next_ok by assumption; unfold frame_no; rewrite Hm; reflexivity|].
    exists (S i). split; [lia|]. split; [symmetry; exact F2|].
    rewrite <- Nat.add_1_r, <- (Nat.add_mod_idemp_l made) by lia. rewrite Hm, Nat.add_1_r. reflexivity. }
  destruct (file_size bl W) as [q Hq]. rewrite Hq, Nat.div_mul by discriminate.
  destruct (Nat.eq_dec i (length bl)) as [->|Hni].
  - rewrite firstn_all, Hq, Nat.eqb_refl. rewrite Nat.mod_same in Hm by lia. exact (P O Hp Hm).
  - rewrite (Nat.mod_small i) in Hm by lia.
    replace (length (file (firstn i bl)) =? q * 12)%nat with false; [apply P; lia|].
    symmetry. apply Nat.eqb_neq. rewrite <- Hq. rewrite <- (firstn_skipn i bl) at 2. unfold file. rewrite map_app, concat_app, app_length.
    assert (L1 : length (skipn i bl) = (length bl - i)%nat) by apply skipn_length.
    pose proof W as W1. rewrite <- (firstn_skipn i bl) in W1. apply Forall_app in W1 as [_ W1].
    destruct (skipn i bl) as [|b r] eqn:Es; [cbn [length] in L1; lia|]. apply Forall_cons_iff in W1 as [Wb _].
    destruct (block_length b Wb) as [k Hk]. cbn [map concat]. rewrite app_length. lia.
Qed.

Definition opt {A} (o : option A) : list A := match o with Some x => [x] | None => [] end.

Record tinv (d : device) (made : nat) (s : tpmem) : Prop := mk_tinv {
  ti_pos : at_frame (d_made d) (tm_offset s);
  ti_new : live_objects true (tm_heap s) = made;
  ti_own : exists ps fs, holds (tm_ring s) ps /\ r_size (tm_ring s) = n /\ length fs = length (opt (tm_wrapper s)) /\
             length ps = length (d_stored d) /\ length (tm_queue s) = length (d_waiting d) /\
             owns (tm_heap s) (ps ++ tm_queue s ++ opt (tm_wrapper s)) (map num (d_stored d) ++ map num (d_waiting d) ++ fs)
}.

Ltac fill := split; [assumption|]; split; [congruence|]; split; [cbn [opt length] in *; first [assumption|lia]|];
  split; [rewrite ?app_length; cbn [length]; lia|]; split; [rewrite ?app_length; cbn [length]; lia|].

Lemma app_eq {A} (a b c d : list A) : length a = length c -> a ++ b = c ++ d -> a = c /\ b = d.
Proof.
  revert c. induction a as [|x a IH]; intros [|y c] L E; cbn [length app] in *; try lia; [auto|]. injection E as -> E.
  destruct (IH c ltac:(lia) E) as [-> ->]. auto.
Qed.

Lemma delete_wrapper h ps q w fs gs : owns h (ps ++ q ++ opt w) (gs ++ fs) -> length gs = length (ps ++ q) ->
  exists h', delete_opt w h = Ok h' /\ owns h' (ps ++ q) gs /\ live_objects true h' = live_objects true h .
Proof.
  intros O L. destruct w as [p|]; cbn [opt delete_opt] in *.
  - rewrite app_assoc in O. apply owns_delete in O as (h' & fa & f & fb & D & E & La & _ & O & C). exists h'. split; [exact D|].
    rewrite app_nil_r in O. assert (Lb : length (fs) = length (f :: fb)) by (apply (f_equal (@length _)) in E; rewrite !app_length in *; lia).
    apply app_eq in E as [<- E]; [|lia].
    assert (Fb : fb = []).
    { destruct O as (F & _ & _). apply f2_length in F. rewrite !app_length in F. destruct fb; [reflexivity|]. cbn [length] in F. rewrite app_length in *. lia. }
    subst fb. rewrite app_nil_r in O. auto.
  - exists h. rewrite app_nil_r in O. split; [reflexivity|]. destruct O as (F & N & C). pose proof (f2_length _ _ _ F) as Lf. rewrite !app_length in *.
    destruct fs; [|cbn [length] in Lf; lia]. rewrite app_nil_r in F. repeat split; auto. rewrite C, app_length. reflexivity.
Qed.

Lemma drop_ok k : forall d made s, tinv d made s -> (k <= length (d_stored d))%nat ->
  exists s', drop k s = Ok s' /\ tinv (mk_device (d_made d) (d_waiting d) (skipn k (d_stored d))) made s' /\
    tm_offset s' = tm_offset s /\ tm_wrapper s' = tm_wrapper s /\ tm_queue s' = tm_queue s.
Proof.
  induction k as [|k IH]; intros d made s I Hk.
  - exists s. cbn [drop skipn]. destruct d as [a b c]; cbn [d_made d_waiting d_stored] in *. auto.
  - destruct I as [Pos New (ps & fs & Hh & Hs & Lw & Lp & Lq & Ow)].
    destruct (d_stored d) as [|i st] eqn:Est; cbn [length] in Hk; [lia|]. destruct ps as [|p ps]; cbn [length] in Lp; [lia|].
    destruct (Ring_proofs.drop_front (tm_ring s) ps p Hh) as [Dr _].
    cbn [drop]. unfold Tpmem_model.drop_front. unfold deref. rewrite Dr. cbn [bind].
    change ((p :: ps) ++ tm_queue s ++ opt (tm_wrapper s)) with ([] ++ p :: (ps ++ tm_queue s ++ opt (tm_wrapper s))) in Ow.
    apply owns_delete in Ow as (h' & fa & f & fb & D & E & La & Ff & O & C). rewrite D. cbn [bind].
    destruct (popFront_cons _ _ _ Hh) as (r' & Er & Hr & Sr & _). rewrite Er. cbn [bind].
    destruct fa; [|cbn [length] in La; lia]. cbn [app map] in E. injection E as Ef Eb. subst fb. cbn [app] in O.
    destruct (IH (mk_device (d_made d) (d_waiting d) st) made (mk_tpmem h' (tm_wrapper s) (tm_offset s) (tm_queue s) r')) as (s' & Es & I' & A1 & A2 & A3).
    + constructor; cbn [d_made d_waiting d_stored tm_heap tm_offset tm_ring tm_wrapper tm_queue]; auto; [congruence|].
      exists ps, fs. fill. exact O.
    + cbn [d_stored]. lia.
    + cbn [d_made d_waiting d_stored tm_offset tm_wrapper tm_queue] in *. exists s'. cbn [skipn]. auto.
Qed.

Lemma tinv_step d made s o : tinv d made s -> match o with TPop k => (k <= length (d_stored d))%nat | _ => True end ->
  exists s', tm_step src junk s o = Ok (s', snd (d_step bl n d o)) /\
    tinv (fst (d_step bl n d o)) (made + if is_produce o then 1 else 0)%nat s' /\
    length (opt (tm_wrapper s')) = match o with TProduce TimedOut => 1%nat | TProduce _ => 0%nat | _ => length (opt (tm_wrapper s)) end.
Proof.
  intros I Hk. destruct o as [res| |k| |]; cbn [tm_step is_produce].
  - destruct I as [Pos New (ps & fs & Hh & Hs & Lw & Lp & Lq & Ow)].
    set (b0 := mk_block true true (malloc (junk (length (tm_heap s))) 40)).
    destruct (owns_new _ _ _ (malloc (junk (length (tm_heap s))) 40) Ow) as [O1 C1]. fold b0 in O1, C1.
    rewrite app_assoc in O1.
    assert (Lg : length (map num (d_stored d) ++ map num (d_waiting d)) = length (ps ++ tm_queue s)) by (rewrite !app_length, !map_length; lia).
    rewrite (app_assoc (map num (d_stored d))) in O1. rewrite <- app_assoc in O1.
    destruct (delete_wrapper _ _ _ _ _ _ O1 Lg) as (h2 & D2 & O2 & C2). rewrite D2. cbn [bind].
    destruct (next_block (junk (length (tm_heap s ++ [b0]))) _ _ Pos) as (off' & En & Pos'). rewrite En. cbn [bind].
    destruct (owns_malloc _ _ _ (num (d_made d)) O2) as [O3 C3].
    destruct res; cbn [d_step fst snd].
    + eexists. split; [reflexivity|]. split; [|reflexivity].
      constructor; cbn [d_made d_waiting d_stored tm_heap tm_offset tm_ring tm_wrapper tm_queue]; auto; [lia|].
      exists ps, []. fill. cbn [opt]. rewrite map_app, !app_nil_r. cbn [map]. rewrite !app_assoc. exact O3.
    + eexists. split; [reflexivity|]. split; [|reflexivity].
      constructor; cbn [d_made d_waiting d_stored tm_heap tm_offset tm_ring tm_wrapper tm_queue]; auto; [lia|].
      exists ps, [num (d_made d)]. fill. cbn [opt]. rewrite !app_assoc. exact O3.
    + apply owns_delete in O3 as (h4 & fa & f & fb & D4 & E4 & La4 & _ & O4 & C4). rewrite D4. cbn [bind].
      eexists. split; [reflexivity|]. split; [|reflexivity].
      apply app_eq in E4 as [E4 E5]; [|lia]. injection E5 as _ Eb. subst fb fa. rewrite !app_nil_r in O4.
      constructor; cbn [d_made d_waiting d_stored tm_heap tm_offset tm_ring tm_wrapper tm_queue]; auto; [lia|].
      exists ps, []. fill. cbn [opt]. rewrite !app_nil_r. exact O4.
  - destruct I as [Pos New (ps & fs & Hh & Hs & Lw & Lp & Lq & Ow)]. cbn [d_step].
    destruct (tm_queue s) as [|p q] eqn:Eq, (d_waiting d) as [|i wt] eqn:Ew; cbn [length] in Lq; try lia.
    + exists s. split; [reflexivity|]. split; [|reflexivity]. cbn [fst]. constructor; auto; [lia|]. exists ps, fs. rewrite Eq, Ew. auto 10.
    + destruct (owns_load _ _ _ (length ps) p Ow) as (f & Ef & El); [rewrite nth_error_app2, Nat.sub_diag by lia; reflexivity|].
      rewrite nth_error_app2 in Ef by (rewrite map_length; lia). rewrite map_length, Lp, Nat.sub_diag in Ef. cbn [map app nth_error] in Ef. injection Ef as <-.
      rewrite El. cbn [bind]. rewrite <- Lp. destruct (Z.of_nat (length ps) <? n - 1) eqn:Efull.
      * destruct (write_ok (tm_ring s) ps p Hh ltac:(lia)) as (r' & Er & Hr & Sr & _). rewrite Er. cbn [bind fst snd].
        eexists. split; [reflexivity|]. split; [|reflexivity].
        constructor; cbn [d_made d_waiting d_stored tm_heap tm_offset tm_ring tm_wrapper tm_queue]; auto; [lia|].
        exists (ps ++ [p]), fs. fill. rewrite map_app, <- !app_assoc. exact Ow.
      * assert (Lf : Z.of_nat (length ps) = r_size (tm_ring s) - 1) by (pose proof (h_len _ _ Hh); lia).
        destruct (write_full (tm_ring s) ps p Hh Lf) as (r' & Er & Hr & Sr & _). rewrite Er. cbn [bind fst snd].
        cbn [app] in Ow. apply owns_delete in Ow as (h' & fa & f & fb & D & E & La & _ & O & C). rewrite D. cbn [bind].
        apply app_eq in E as [E E2]; [|rewrite map_length; lia]. cbn [map app] in E2. injection E2 as _ E2. subst fa fb.
        eexists. split; [reflexivity|]. split; [|reflexivity].
        constructor; cbn [d_made d_waiting d_stored tm_heap tm_offset tm_ring tm_wrapper tm_queue]; auto; [lia|].
        exists ps, fs. fill. exact O.
  - destruct (drop_ok k d made s I Hk) as (s' & E & I' & A1 & A2 & A3). rewrite E. cbn [bind]. exists s'. split; [reflexivity|].
    rewrite Nat.add_0_r, A2. auto.
  - destruct I as [Pos New (ps & fs & Hh & Hs & Lw & Lp & Lq & Ow)].
    assert (Ev : look (Z.to_nat (r_size (tm_ring s))) (tm_ring s) (it_begin (tm_ring s)) (tm_heap s) = Ok (map num (d_stored d))).
    { apply look_walk with ps; [apply walk_begin; [exact Hh|pose proof (h_len _ _ Hh); lia]|].
      destruct Ow as (F & _). apply Forall2_app_inv_l in F as (f1 & f2 & F1 & _ & E).
      apply app_eq in E as [<- _]; [exact F1|]. rewrite map_length, <- (f2_length _ _ _ F1). lia. }
    rewrite Ev. cbn [bind d_step fst snd]. exists s. split; [reflexivity|]. split; [|reflexivity]. constructor; auto; [lia|]. exists ps, fs. auto 10.
  - pose proof I as [Pos New (ps & fs & Hh & Hs & Lw & Lp & Lq & Ow)]. rewrite (occupancy_ok _ _ Hh), Nat2Z.id.
    destruct (drop_ok (length ps) d made s I ltac:(lia)) as (s' & E & I' & A1 & A2 & A3). rewrite E. cbn [bind d_step fst snd].
    eexists. split; [reflexivity|]. cbn [tm_wrapper]. split; [|now rewrite A2].
    destruct I' as [Pos' New' Own']. cbn [d_made d_waiting d_stored] in *. rewrite skipn_all2 in Own' by lia.
    constructor; cbn [d_made d_waiting d_stored tm_heap tm_offset tm_ring tm_wrapper tm_queue]; auto; [|lia].
    exists O. split; [lia|]. split; reflexivity.
Qed.

Definition last_push (w : nat) (ops : list tm_op) : nat :=
  match find is_produce (rev ops) with Some (TProduce TimedOut) => 1%nat | Some _ => 0%nat | None => w end.

Lemma last_push_cons w o ops : last_push w (o :: ops) =
  last_push (match o with TProduce TimedOut => 1%nat | TProduce _ => 0%nat | _ => w end) ops.
Proof.
  unfold last_push. cbn [rev]. assert (F : forall (l : list tm_op) x, find is_produce (l ++ [x]) =
    match find is_produce l with Some y => Some y | None => if is_produce x then Some x else None end).
  { induction l as [|y l IH]; intros x; cbn [app find]; [reflexivity|]. destruct (is_produce y); auto. }
  rewrite F. destruct (find is_produce (rev ops)) as [y|]; [reflexivity|]. destruct o as [[]| | | |]; reflexivity.
Qed.

Lemma tinv_run ops : forall d made s, tinv d made s -> pops_fit bl n d ops ->
  exists s', tm_run src junk s ops = Ok (s', snd (d_run bl n d ops)) /\ tinv (fst (d_run bl n d ops)) (made + frames_made ops)%nat s' /\
    length (opt (tm_wrapper s')) = last_push (length (opt (tm_wrapper s))) ops.
Proof.
  induction ops as [|o ops IH]; intros d made s I P.
  - exists s. cbn [tm_run d_run fst snd frames_made filter length]. unfold frames_made. cbn [filter length]. rewrite Nat.add_0_r. auto.
  - destruct P as [P1 P2]. destruct (tinv_step d made s o I P1) as (s1 & E1 & I1 & W1). cbn [tm_run d_run]. rewrite E1. cbn [bind].
    destruct (d_step bl n d o) as [d1 y]. cbn [fst snd] in *. destruct (IH d1 _ s1 I1 P2) as (s2 & E2 & I2 & W2). rewrite E2. cbn [bind].
    destruct (d_run bl n d1 ops) as [d2 ys]. cbn [fst snd] in *. exists s2. split; [reflexivity|]. split.
    + replace (made + frames_made (o :: ops))%nat with (made + (if is_produce o then 1 else 0) + frames_made ops)%nat; [exact I2|].
      unfold frames_made. cbn [filter]. destruct (is_produce o); cbn [length]; lia.
    + rewrite last_push_cons, W2, W1. destruct o as [[]| | | |]; reflexivity.
Qed.

Lemma tinv_new : exists s, tm_new n = Ok s /\ tinv d_new 0 s /\ tm_wrapper s = None.
Proof.
  destruct (new_sim (A := nat) n ltac:(unfold supported_size; lia)) as (r & E & S & _). unfold tm_new. rewrite E. cbn [bind]. eexists. split; [reflexivity|].
  split; [|reflexivity]. unfold ring_new in E. destruct (n <? 2); [discriminate|]. injection E as <-.
  constructor; cbn [d_new d_made d_waiting d_stored tm_heap tm_offset tm_ring tm_wrapper tm_queue].
  - exists O. split; [lia|]. split; reflexivity.
  - reflexivity.
  - exists [], []. rewrite u32_small by (unfold two32; lia). split; [apply holds_new; unfold supported_size; lia|].
    cbn [r_size length opt map app]. repeat split; auto; constructor.
Qed.

Lemma free_ok (r : ring nat) ps : holds r ps -> forall fuel k h fs, (length ps - k < fuel)%nat -> (k <= length ps)%nat -> owns h (skipn k ps) fs ->
  exists h', free_elements fuel r ((r_read r + Z.of_nat k) mod r_size r) h = Ok h' /\ owns h' [] [] /\ live_objects true h' = live_objects true h.
Proof.
  intros Hh. pose proof (h_size _ _ Hh) as B1. pose proof (h_read _ _ Hh) as B2. pose proof (h_len _ _ Hh) as B3.
  assert (M : forall k, 0 <= k < r_size r -> (r_read r + k) mod r_size r = if r_read r + k <? r_size r then r_read r + k else r_read r + k - r_size r).
  { intros k Hk. destruct (r_read r + k <? r_size r) eqn:E; [apply Z.mod_small; lia|]. symmetry. apply Z.mod_unique with (q := 1); lia. }
  induction fuel as [|fuel IH]; intros k h fs Hf Hk O; [lia|]. cbn [free_elements].
  rewrite (h_write _ _ Hh).
  destruct (Nat.eq_dec k (length ps)) as [->|Hne'].
  - rewrite Z.eqb_refl. rewrite skipn_all in O. exists h. split; [reflexivity|]. split; [|reflexivity].
    destruct O as (F & N & C). inversion F; subst. repeat split; auto.
  - assert (Hlt : (k < length ps)%nat) by lia.
    replace ((r_read r + Z.of_nat k) mod r_size r =? (r_read r + Z.of_nat (length ps)) mod r_size r) with false.
    2:{ symmetry. apply Z.eqb_neq. rewrite !M by lia. destruct (r_read r + Z.of_nat k <? r_size r) eqn:E1, (r_read r + Z.of_nat (length ps) <? r_size r) eqn:E2; lia. }
    destruct (nth_error ps k) as [p|] eqn:Ep; [|apply nth_error_None in Ep; lia].
    unfold deref. rewrite (h_slots _ _ Hh) by lia. rewrite Nat2Z.id, Ep. cbn [bind].
    rewrite (skipn_cons_nth _ _ _ Ep) in O. change (p :: skipn (S k) ps) with ([] ++ p :: skipn (S k) ps) in O.
    apply owns_delete in O as (h' & fa & f & fb & D & E & La & _ & O & C). rewrite D. cbn [bind].
    destruct fa; [|cbn [length] in La; lia]. cbn [app] in O.
    destruct (IH (S k) h' fb ltac:(lia) ltac:(lia) O) as (h2 & E2 & O2 & C2). exists h2. split; [|split; [exact O2|congruence]].
    rewrite <- E2. f_equal. rewrite !M by lia. destruct (r_read r + Z.of_nat k <? r_size r) eqn:E3, (r_read r + Z.of_nat (S k) <? r_size r) eqn:E4;
      match goal with |- (if ?b then _ else _) = _ => destruct b eqn:E5 end; lia.
Qed.

Lemma delete_all_ok q : forall h ps fs, owns h (ps ++ q) fs ->
  exists h' gs, delete_all q h = Ok h' /\ owns h' ps gs /\ live_objects true h' = live_objects true h.
Proof.
  induction q as [|p q IH]; intros h ps fs O; cbn [delete_all].
  - rewrite app_nil_r in O. eauto.
  - apply owns_delete in O as (h' & fa & f & fb & D & E & La & _ & O & C). rewrite D. cbn [bind].
    destruct (IH h' ps _ O) as (h2 & gs & E2 & O2 & C2). exists h2, gs. split; [exact E2|]. split; [exact O2|congruence].
Qed.

Lemma destroy_ok d made s : tinv d made s ->
  exists h, tm_destroy s = Ok h /\ live_objects false h = 0%nat /\ live_objects true h = made.
Proof.
  intros [Pos New (ps & fs & Hh & Hs & Lw & Lp & Lq & Ow)]. unfold tm_destroy.
  rewrite (app_assoc (map num (d_stored d))) in Ow.
  destruct (delete_wrapper _ _ _ _ _ _ Ow) as (h1 & D1 & O1 & C1); [rewrite !app_length, !map_length; lia|]. rewrite D1. cbn [bind].
  destruct (delete_all_ok _ _ _ _ O1) as (h2 & gs & D2 & O2 & C2). rewrite D2. cbn [bind].
  pose proof (h_read _ _ Hh) as B. pose proof (h_len _ _ Hh) as B3.
  destruct (free_ok _ _ Hh (S (Z.to_nat (r_size (tm_ring s)))) 0 h2 gs ltac:(lia) ltac:(lia) O2) as (h3 & D3 & O3 & C3).
  cbn [Z.of_nat] in D3. rewrite Z.add_0_r, Z.mod_small in D3 by lia. exists h3. split; [exact D3|]. split; [apply O3|congruence].
Qed.
End Run.
