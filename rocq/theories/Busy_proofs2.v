(** The reply to a request served while data keep arriving. *)
From Coq Require Import ZArith List Bool Lia ZifyBool.
From Verif Require Import Base_model Ring_model Ring_spec Ring_proofs Search_model Search_spec Search_proofs Elem_model
  Lb_model Lb_proofs Request_model Request_spec Request_proofs Busy_model Busy_spec Busy_proofs.
Import ListNotations.
Open Scope Z_scope.

(** The fixed-rate search looks at the oldest element only. *)
Lemma fr_raw : forall tick (r : ring elem) l x0 l0 key, holds r l -> l = x0 :: l0 -> 0 < tick -> 0 < e_num x0 ->
  0 <= e_ts x0 -> e_ts x0 + Z.of_nat (length l) * (tick * e_num x0) < two64 ->
  e_ts x0 <= key <= e_ts x0 + Z.of_nat (length l) * (tick * e_num x0) ->
  fr_lower_bound e_ts e_num tick r key false =
  SFound ((r_read r + (key - e_ts x0) / (tick * e_num x0)) mod r_size r).
Proof.
  intros tick r l x0 l0 key H El Ht Hn Ht0 Hov Hk.
  pose proof (h_size _ _ H) as Hsz. pose proof (h_read _ _ H) as Hrd. pose proof (h_len _ _ H) as Hln.
  unfold fr_lower_bound. rewrite (occupancy_ok _ _ H).
  pose proof (h_slots _ _ H 0 ltac:(lia)) as H0. rewrite Z.add_0_r, Z.mod_small in H0 by lia.
  rewrite H0. rewrite El at 1. cbn [Z.to_nat nth_error].
  set (L := Z.of_nat (length l)) in *.
  assert (0 < L) by (unfold L; rewrite El; cbn [length]; lia).
  set (t0 := e_ts x0) in *. set (nf := e_num x0) in *. set (d := tick * nf) in *.
  assert (0 <= L * tick) by (apply Z.mul_nonneg_nonneg; lia).
  assert (tick <= d) by (unfold d; nia).
  assert (L * tick <= L * d) by (apply Z.mul_le_mono_nonneg_l; lia).
  assert (L * tick * nf = L * d) as Hm by (unfold d; ring).
  rewrite (u64_small L) by (unfold two64 in *; unfold L in *; lia).
  rewrite (u64_small (L * tick)) by (unfold two64 in *; lia).
  rewrite Hm. rewrite (u64_small (L * d)) by (unfold two64 in *; lia).
  rewrite (u64_small (t0 + L * d)) by (unfold two64 in *; lia).
  destruct ((key <? t0) || (t0 + L * d <? key)) eqn:E; [lia|].
  replace ((tick =? 0) || (nf =? 0)) with false by lia.
  rewrite (u64_small (key - t0)) by (unfold two64 in *; lia).
  assert (0 <= (key - t0) / d <= L) as Hq.
  { split; [apply Z.div_pos; lia|]. apply Z.div_le_upper_bound; lia. }
  assert (0 <= (key - t0) / tick < two64) as Hqt.
  { split; [apply Z.div_pos; lia|]. apply Z.le_lt_trans with (key - t0); [|lia].
    apply Z.div_le_upper_bound; [lia|]. nia. }
  assert (u64 (i64 ((key - t0) / tick)) = (key - t0) / tick) as ->.
  { unfold u64, i64. rewrite Zminus_mod_idemp_l.
    rewrite <- (Z.mod_small ((key - t0) / tick) two64) at 2 by exact Hqt. f_equal. lia. }
  rewrite Z.div_div by lia. fold d.
  rewrite (u32_small ((key - t0) / d)) by (unfold two32, L in *; lia).
  rewrite u32_small by (unfold two32, L in *; lia).
  f_equal. rewrite wrap_add by (unfold L in *; lia).
  destruct (r_size r <=? r_read r + (key - t0) / d) eqn:E1;
  destruct (r_read r + (key - t0) / d <? r_size r) eqn:E2; try lia.
  rewrite u32_small by (unfold two32, L in *; lia). reflexivity.
Qed.

Lemma wf_firstn : forall tick l k, wf tick l -> wf tick (firstn k l).
Proof.
  intros tick l k [Hr Ho]. split.
  - apply Forall_forall. intros x Hx. rewrite Forall_forall in Hr. apply Hr.
    rewrite <- (firstn_skipn k l). apply in_or_app. left. exact Hx.
  - intros i j x y f Hij Hx Hy. apply (Ho i j x y f Hij).
    + rewrite <- (firstn_skipn k l). rewrite nth_error_app1; [exact Hx|]. apply nth_error_Some. congruence.
    + rewrite <- (firstn_skipn k l). rewrite nth_error_app1; [exact Hy|]. apply nth_error_Some. congruence.
Qed.

Lemma wf_strict : forall tick l i j x y, wf tick l -> (i < j)%nat -> nth_error l i = Some x -> nth_error l j = Some y ->
  e_ts x < e_ts y.
Proof.
  intros tick l i j x y [Hr Ho] Hij Hx Hy. rewrite Forall_forall in Hr.
  destruct (regular_first_in tick x (Hr x (nth_error_In _ _ Hx))) as (f & Hf & Ef).
  specialize (Ho i j x y f Hij Hx Hy Hf). lia.
Qed.

(** Frames of later elements lie after the newest element of a prefix. *)
Lemma window_prefix : forall tick l k b e y, wf tick l -> 0 <= tick -> (k <= length l)%nat -> (0 < k)%nat ->
  nth_error l (k - 1) = Some y -> e <= e_ts y -> window_bytes (firstn k l) b e = window_bytes l b e.
Proof.
  intros tick l k b e y [Hr Ho] Ht Hk H0 Hy He. unfold window_bytes.
  rewrite <- (firstn_skipn k l) at 2. rewrite all_frames_app, filter_app, flat_map_app.
  rewrite (filter_all_frames_none _ (skipn k l)); [cbn [flat_map]; rewrite app_nil_r; reflexivity|].
  intros x f Hx Hf. apply In_nth_error in Hx. destruct Hx as [i Hi].
  assert (nth_error l (k + i) = Some x) as Hxi.
  { rewrite <- (firstn_skipn k l). rewrite nth_error_app2; rewrite firstn_length; [|lia].
    replace (k + i - Nat.min k (length l))%nat with i by lia. exact Hi. }
  pose proof (wf_strict tick l (k - 1) (k + i) y x (conj Hr Ho) ltac:(lia) Hy Hxi) as Hlt.
  rewrite Forall_forall in Hr. destruct (Hr x (nth_error_In _ _ Hxi)) as (_ & _ & Hreg & _).
  apply In_nth_error in Hf. destruct Hf as [q Hq]. rewrite (Hreg q f Hq).
  assert (0 <= Z.of_nat q * tick) by (apply Z.mul_nonneg_nonneg; lia). lia.
Qed.

Lemma window_reversed : forall l b e, e <= b -> window_bytes l b e = [].
Proof.
  intros l b e H. unfold window_bytes. rewrite filter_none; [reflexivity|]. intros f _. lia.
Qed.

Lemma newest_last : forall (l : list elem) y, nth_error l (length l - 1) = Some y -> newest_ts l = e_ts y.
Proof. intros l y Hy. unfold newest_ts. apply hd_error_oldest. rewrite hd_rev_last. exact Hy. Qed.

Lemma arrive_quiet : forall l s s', arrive_all l s = Ok s' -> (forall x, ~ In (AStore x) l) -> sh_hist s' = sh_hist s.
Proof.
  induction l as [|a l IH]; intros s s' E Hq; cbn [arrive_all] in E; [injection E as <-; reflexivity|].
  destruct a as [| |x]; cbn [arrive bind] in E.
  - rewrite (IH _ _ E); [reflexivity|]. intros x Hx. apply (Hq x). right. exact Hx.
  - rewrite (IH _ _ E); [reflexivity|]. intros x Hx. apply (Hq x). right. exact Hx.
  - exfalso. apply (Hq x). left. reflexivity.
Qed.

Lemma load_frame : forall strong acquire gs s r gs' s', load strong acquire gs s = Ok (r, gs', s') ->
  gs' = snd (next_gap gs) /\
  ((forall x, ~ In (AStore x) (g_arrivals (fst (next_gap gs)))) -> sh_hist s' = sh_hist s).
Proof.
  intros strong acquire gs s r gs' s' E. unfold load in E. destruct (next_gap gs) as [g gs1]. cbn [fst snd].
  destruct (arrive_all (g_arrivals g) s) as [s1|] eqn:E1; cbn [bind] in E; [|discriminate].
  destruct (sh_nth s1 _) as [r1|]; cbn [bind] in E; [|discriminate]. injection E as <- <- <-.
  split; [reflexivity|]. cbn [sh_hist]. intros Hq. apply (arrive_quiet _ _ _ E1 Hq).
Qed.

Lemma quiet_first : forall k gs, nothing_stored_before (S k) gs ->
  (forall x, ~ In (AStore x) (g_arrivals (fst (next_gap gs)))) /\ nothing_stored_before k (snd (next_gap gs)).
Proof.
  intros k [|g gs] H; cbn [next_gap fst snd g_arrivals].
  - split; [intros x []|]. intros x. rewrite firstn_nil. intros [].
  - unfold nothing_stored_before, steps_of in *. cbn [firstn flat_map] in H.
    split; intros x Hx; apply (H x); apply in_or_app; [left|right]; exact Hx.
Qed.

Section Reply.
Variable dnf : Z.
Variable lk : link.
Variable tick : Z.
Variable search : ring elem -> Z -> bool -> search_res.
Variable n rd : Z.
Variable l0 : list elem.
Variable flag0 : bool.
Variable gs0 : list gap.
Let all := steps_of gs0.
Let C := contents n l0 all.
Let m0 := length l0.

(** What the search must deliver when the newest element was looked up at moment [P] and the search itself sees
    moment [p], the flag having been read in between. *)
Definition search_fine (dr : request) : Prop :=
  forall r p P before after,
    shows n rd l0 all r p -> (P <= p)%nat -> (0 < m0 + P)%nat -> all = before ++ after ->
    (m0 + P <= length (contents n l0 before))%nat ->
    oldest_ts (firstn (m0 + P) C) <= rq_begin dr -> rq_end dr <= newest_ts (firstn (m0 + P) C) ->
    exists k, search r (rq_begin dr) (on_record flag0 before) = SFound (at_ n rd k) /\ (k < m0 + p)%nat /\
      ((k < m0 + P)%nat /\ newest_not_newer e_ts (firstn (m0 + P) C) (rq_begin dr) k \/
       (m0 + P <= k)%nat /\ rq_end dr <= rq_begin dr /\ forall x, nth_error C k = Some x -> rq_end dr <= e_ts x).

Lemma at_not_end : forall r p k, shows n rd l0 all r p -> at_ n rd k <> it_end.
Proof.
  intros r p k (H & Hrd & Hn & _). pose proof (h_size _ _ H). unfold at_, it_end, max_u32.
  pose proof (Z.mod_pos_bound (rd + Z.of_nat k) n ltac:(lia)). lia.
Qed.

(** Looking at an element at or after the end of the window ends the loop at once. *)
Lemma busy_extract_none : forall strong fuel gs s k b e_w, inv n rd l0 flag0 all gs s -> (0 < fuel)%nat ->
  (k < m0 + sh_acq s)%nat -> (forall x, nth_error C k = Some x -> e_w <= e_ts x) ->
  busy_extract strong tick fuel gs s (at_ n rd k) b e_w = Ok [].
Proof.
  intros strong [|fuel] gs s k b e_w I Hf Hk Hx; [lia|]. cbn [busy_extract].
  destruct (load_ok n rd l0 flag0 all strong false gs s I) as (p & r & gs1 & s1 & E1 & Hs1 & I1 & A1 & B1 & D1).
  rewrite E1. cbn [bind]. pose proof (i_acq _ _ _ _ _ _ _ I) as Hq. pose proof (shows_lt _ _ _ _ _ _ Hs1).
  rewrite (shows_good _ _ _ _ _ _ _ Hs1) by lia. destruct (k <? length l0 + p)%nat eqn:Ek; [|fold m0 in Ek; lia].
  destruct (use_ok _ _ _ _ _ _ _ I1) as (ra & Ha & Hu). rewrite Hu.
  destruct (shows_deref _ _ _ _ _ _ k Ha) as (x & Hxx & Hd).
  { fold m0. rewrite D1. destruct (false || strong); lia. }
  rewrite Hd. cbn [bind]. specialize (Hx x Hxx). destruct (e_ts x <? e_w) eqn:E; [lia|reflexivity].
Qed.

Lemma started : forall r, holds r l0 -> r_read r = rd -> r_size r = n -> inv n rd l0 flag0 all gs0 (sh_start r flag0).
Proof.
  intros r H Hrd Hn. split; cbn [sh_start sh_hist sh_flag sh_seen sh_acq length]; try lia.
  - exists []. split; [reflexivity|]. split; [cbn [contents]; lia|reflexivity].
  - intros [|p] y Hy; [|destruct p; discriminate]. cbn in Hy. injection Hy as <-.
    unfold shows. rewrite Nat.add_0_r. fold m0. destruct (contents_prefix n all l0) as [t Ht].
    rewrite Ht. rewrite firstn_app. unfold m0. rewrite Nat.sub_diag, firstn_all. cbn [firstn]. rewrite app_nil_r, app_length.
    repeat split; try assumption; try lia; apply H.
Qed.

Lemma moment_held : forall P, (m0 + P <= length C)%nat -> held_during n l0 gs0 (firstn (m0 + P) C).
Proof.
  intros P HP. destruct (contents_reach n all l0 (m0 + P)) as (b & a & E1 & E2); [unfold C, m0 in *; lia|].
  exists b, a. split; [exact E1|]. symmetry. exact E2.
Qed.

Theorem busy_reply : forall strong r running dr st, holds r l0 -> r_read r = rd -> r_size r = n ->
  0 <= dnf -> 0 <= tick -> wf tick C -> search_fine dr ->
  let reply := busy_request strong dnf lk tick search running gs0 (sh_start r flag0) dr st in
  answered_as_at_a_moment dnf lk n running l0 gs0 dr st reply \/
  (strong = false /\ reply = Crash /\ ~ nothing_stored_before 3 gs0).
Proof.
  intros strong r running dr st Hr Hrd Hn Hd Ht Hwf Hsf reply. unfold reply. clear reply.
  pose proof (started r Hr Hrd Hn) as I0. unfold busy_request.
  destruct (load_ok _ _ _ _ _ strong true _ _ I0) as (p0 & r0 & gs1 & s1 & E1 & S0 & I1 & A1 & B1 & D1).
  rewrite E1. cbn [bind]. apply load_frame in E1.
  assert (occupancy r0 = Z.of_nat (m0 + p0)) as Ho.
  { destruct S0 as (H & _ & _ & Hl). rewrite (occupancy_ok _ _ H). rewrite firstn_length. fold m0. unfold C, m0 in *. lia. }
  rewrite Ho. destruct (Z.of_nat (m0 + p0) =? 0) eqn:E0; cbn [negb].
  { (* empty *)
    left. exists (firstn (m0 + p0) C). split; [apply moment_held; destruct S0 as (_ & _ & _ & H); exact H|].
    assert (m0 + p0 = 0)%nat as -> by lia. cbn [firstn]. split.
    - unfold right_answer. cbn [classify reason_of]. eexists _, _. split; [reflexivity|].
      split; [unfold counted; cbn; repeat split; lia|]. eexists. split; [reflexivity|]. cbn [fg_bytes fg_header].
      split; [reflexivity|]. apply dnf_set. exact Hd.
    - intros fo s' E. discriminate E. }
  destruct (load_ok _ _ _ _ _ strong true _ _ I1) as (p1 & r1 & gs2 & s2 & E2 & S1 & I2 & A2 & B2 & D2).
  rewrite E2. cbn [bind]. apply load_frame in E2.
  destruct (load_ok _ _ _ _ _ strong false _ _ I2) as (P & r2 & gs3 & s3 & E3 & S2 & I3 & A3 & B3 & D3).
  rewrite E3. cbn [bind]. apply load_frame in E3.
  assert (0 < m0 + P)%nat as HP by lia.
  rewrite (shows_front _ _ _ _ _ _ S1) by (fold m0; lia). rewrite (shows_back _ _ _ _ _ _ S2) by (fold m0; lia).
  cbn [use_opt]. fold m0.
  destruct (use_ok _ _ _ _ _ _ _ I3) as (ra & Ha & Hu). rewrite !Hu.
  cbn [orb] in D1, D2, D3.
  assert (p1 <= sh_acq s3)%nat as Hq by (rewrite D3; destruct strong; lia).
  destruct (shows_deref _ _ _ _ _ _ 0%nat Ha) as (x0 & Hx0 & Hd0); [fold m0; lia|]. rewrite Hd0. cbn [bind]. clear Hd0.
  pose proof (shows_lt _ _ _ _ _ _ S2) as Hlt2. fold m0 in Hlt2.
  assert (m0 + P <= length C)%nat as HPC by (destruct S2 as (_ & _ & _ & H); exact H).
  destruct (Nat.lt_ge_cases (sh_acq s3) P) as [Hrace|Hsafe].
  { (* the newest element is not synchronised with *)
    right. destruct strong; [rewrite D3 in Hrace; lia|]. split; [reflexivity|].
    rewrite (shows_undef _ _ _ _ _ _ (m0 + P - 1) Ha) by (fold m0; lia). split; [reflexivity|]. intros Hquiet.
    destruct (quiet_first _ _ Hquiet) as [Q1 Hquiet1]. destruct E1 as [G1 L1]. rewrite <- G1 in Hquiet1.
    destruct (quiet_first _ _ Hquiet1) as [Q2 Hquiet2]. destruct E2 as [G2 L2]. rewrite <- G2 in Hquiet2.
    destruct (quiet_first _ _ Hquiet2) as [Q3 _]. destruct E3 as [G3 L3].
    pose proof (i_len _ _ _ _ _ _ _ I3) as X. rewrite (L3 Q3), (L2 Q2), (L1 Q1) in X. cbn in X. lia. }
  left. destruct (shows_deref _ _ _ _ _ _ (m0 + P - 1) Ha) as (y & Hy & Hd1); [fold m0; lia|]. rewrite Hd1. cbn [bind]. clear Hd1.
  fold C in Hx0, Hy.
  set (l := firstn (m0 + P) C).
  assert (length l = m0 + P)%nat as Hll by (unfold l; rewrite firstn_length; lia).
  assert (forall k, (k < m0 + P)%nat -> nth_error l k = nth_error C k) as Hnl.
  { intros k Hk. unfold l. rewrite <- (firstn_skipn (m0 + P) C) at 2. rewrite nth_error_app1; [reflexivity|].
    rewrite firstn_length. lia. }
  assert (oldest_ts l = e_ts x0) as Hold.
  { apply hd_error_oldest. specialize (Hnl 0%nat ltac:(lia)). rewrite Hx0 in Hnl. destruct l; [discriminate|exact Hnl]. }
  assert (newest_ts l = e_ts y) as Hnew.
  { apply newest_last. rewrite Hll, Hnl by lia. exact Hy. }
  assert (l <> []) as Hne by (intros X; rewrite X in Hll; cbn in Hll; lia).
  assert (wf tick l) as Hwfl by (apply wf_firstn; exact Hwf).
  exists l. split; [apply moment_held; exact HPC|].
  rewrite <- Hold, <- Hnew.
  assert (forall c, classify running l (rq_begin dr) (rq_end dr) = c ->
    c = (if (oldest_ts l <=? rq_begin dr) && (rq_end dr <=? newest_ts l) then kFound
         else if rq_begin dr <? oldest_ts l then kNotFound else if running then kNotYet else kNotFound)) as Hcl.
  { intros c <-. unfold classify. destruct l; [congruence|reflexivity]. }
  assert (reason_of l (rq_begin dr) (rq_end dr) =
    (if (oldest_ts l <=? rq_begin dr) && (rq_end dr <=? newest_ts l) then WindowServed
     else if rq_begin dr <? oldest_ts l then WindowTooOld else WindowTooNew)) as Hre.
  { unfold reason_of. destruct l; [congruence|reflexivity]. }
  specialize (Hcl _ eq_refl). unfold right_answer. rewrite Hcl, Hre. clear Hcl Hre.
  destruct ((oldest_ts l <=? rq_begin dr) && (rq_end dr <=? newest_ts l)) eqn:Ew.
  - destruct (load_flag_ok _ _ _ _ _ _ _ I3) as (f & gs4 & s4 & before & after & E4 & I4 & A4 & B4 & Eall & Ef & Hm).
    rewrite E4. cbn [bind]. clear E4.
    destruct (load_ok _ _ _ _ _ strong true _ _ I4) as (p3 & r3 & gs5 & s5 & E5 & S3 & I5 & A5 & B5 & D5).
    rewrite E5. cbn [bind]. clear E5. cbn [orb] in D5.
    fold m0 in Hm.
    destruct (Hsf r3 p3 P before after S3 ltac:(lia) HP Eall ltac:(lia) ltac:(fold l; lia) ltac:(fold l; lia))
      as (k & Es & Hk3 & Hk). rewrite Ef, Es.
    pose proof (at_not_end _ _ k S3) as Hnend. destruct (at_ n rd k =? it_end) eqn:Ee; [lia|].
    assert (r_size r3 = n) as Hn3 by (destruct S3 as (_ & _ & H & _); exact H). rewrite Hn3.
    pose proof (shows_lt _ _ _ _ _ _ S3) as Hlt3. fold m0 in Hlt3.
    assert (busy_extract strong tick (Z.to_nat n) gs5 s5 (at_ n rd k) (rq_begin dr) (rq_end dr) =
            Ok (window_bytes l (rq_begin dr) (rq_end dr))) as ->.
    { destruct Hk as [[HkP Hnn]|(HkP & Hrev & Hx)].
      - rewrite (busy_extract_ok n rd l0 flag0 all strong tick (Z.to_nat n) gs5 s5 k P y (rq_begin dr) (rq_end dr) I5);
          fold m0; try fold C; try assumption; try lia.
        fold l. rewrite (take_exact tick (skipn k l)) by (try exact Ht; apply wf_skipn; exact Hwfl).
        f_equal. apply (skip_exact tick l (rq_begin dr) (rq_end dr) k Hwfl Hnn).
      - rewrite (window_reversed l _ _ Hrev). apply busy_extract_none; try assumption; try lia. }
    cbn [bind]. split.
    + eexists _, _. split; [reflexivity|]. split; [unfold counted; cbn; repeat split; lia|].
      eexists. split; [reflexivity|]. cbn [fg_header create_fragment_header h_error_bits]. apply Z.bits_0.
    + intros fo s' E. injection E as <- <-. split; [reflexivity|].
      apply (window_prefix tick C (m0 + P) (rq_begin dr) (rq_end dr) y Hwf Ht HPC HP Hy). lia.
  - destruct (rq_begin dr <? oldest_ts l) eqn:Eb.
    + split; [|intros fo s' E; discriminate E]. eexists _, _. split; [reflexivity|].
      split; [unfold counted; cbn; repeat split; lia|]. eexists. split; [reflexivity|]. cbn [fg_bytes fg_header].
      split; [reflexivity|]. apply dnf_set. exact Hd.
    + destruct (newest_ts l <? rq_end dr) eqn:En; [|lia]. destruct running.
      * split; [|intros fo s' E; discriminate E]. eexists _, _. split; [reflexivity|].
        split; [unfold counted; cbn; repeat split; lia|reflexivity].
      * split; [|intros fo s' E; discriminate E]. eexists _, _. split; [reflexivity|].
        split; [unfold counted; cbn; repeat split; lia|]. eexists. split; [reflexivity|]. cbn [fg_bytes fg_header].
        split; [reflexivity|]. apply dnf_set. exact Hd.
Qed.

End Reply.

(** ** The two searches *)

Lemma shows_pos : forall n rd l0 all r p k, shows n rd l0 all r p -> (k < length l0 + p)%nat ->
  ring_pos r (firstn (length l0 + p) (contents n l0 all)) k = at_ n rd k.
Proof.
  intros n rd l0 all r p k Hs Hk. pose proof (shows_len _ _ _ _ _ _ Hs) as E. destruct Hs as (_ & Hrd & Hn & _).
  unfold ring_pos. rewrite E. destruct (k <? length l0 + p)%nat eqn:E1; [|lia]. unfold at_. rewrite Hrd, Hn. reflexivity.
Qed.

Lemma nth_firstn : forall (A : Type) k m (l : list A), (k < m)%nat -> nth_error (firstn m l) k = nth_error l k.
Proof.
  induction k as [|k IH]; intros [|m] [|x l] H; try lia; try reflexivity. cbn [firstn nth_error]. apply IH. lia.
Qed.

Lemma bs_fine : forall tick n rd l0 flag0 gs0 dr, wf tick (contents n l0 (steps_of gs0)) ->
  search_fine (fun r k _ => bs_lower_bound e_ts r k) n rd l0 flag0 gs0 dr.
Proof.
  intros tick n rd l0 flag0 gs0 dr Hwf r p P before after Hs HPp HP Eall Hm Hb He.
  set (C := contents n l0 (steps_of gs0)) in *. set (m0 := length l0) in *.
  assert (m0 + p <= length C)%nat as Hpc by (destruct Hs as (_ & _ & _ & H); exact H).
  assert (oldest_ts (firstn (m0 + p) C) = oldest_ts (firstn (m0 + P) C)) as Ho.
  { destruct C as [|c C']; [cbn in Hpc; lia|]. destruct (m0 + p)%nat eqn:E1; [lia|]. destruct (m0 + P)%nat eqn:E2; [lia|]. reflexivity. }
  assert (firstn (m0 + p) C <> []) as Hne.
  { intros X. apply (f_equal (@length elem)) in X. rewrite firstn_length in X. cbn in X. lia. }
  assert (holds r (firstn (m0 + p) C)) as Hh by apply Hs.
  destruct (bs_position tick r (firstn (m0 + p) C) (rq_begin dr) Hh (wf_firstn _ _ _ Hwf) Hne ltac:(lia)) as (k & Ek & Hk).
  destruct Hk as (Hkl & Hle & Hgt). rewrite firstn_length in Hkl.
  pose proof (shows_pos _ _ _ _ _ _ k Hs ltac:(fold m0; lia)) as Epos. fold m0 C in Epos.
  exists k. rewrite Ek, Epos. split; [reflexivity|]. split; [lia|].
  destruct (Nat.lt_ge_cases k (m0 + P)) as [HkP|HkP].
  - left. split; [exact HkP|]. split; [rewrite firstn_length; lia|].
    split; intros j x Hj Hx; assert (j < m0 + P)%nat as Hjlt
      by (assert (nth_error (firstn (m0 + P) C) j <> None) as X by congruence; apply nth_error_Some in X;
          rewrite firstn_length in X; lia); rewrite nth_firstn in Hx by lia.
    + apply (Hle j x Hj). rewrite nth_firstn by lia. exact Hx.
    + apply (Hgt j x Hj). rewrite nth_firstn by lia. exact Hx.
  - right. split; [exact HkP|].
    destruct (nth_error C (m0 + P - 1)) as [y|] eqn:Ey; [|apply nth_error_None in Ey; lia].
    assert (newest_ts (firstn (m0 + P) C) = e_ts y) as Hy.
    { apply newest_last. rewrite firstn_length. replace (Nat.min (m0 + P) (length C)) with (m0 + P)%nat by lia.
      rewrite nth_firstn by lia. exact Ey. }
    destruct (nth_error C k) as [x|] eqn:Ex; [|apply nth_error_None in Ex; lia].
    pose proof (wf_strict tick C (m0 + P - 1) k y x Hwf ltac:(lia) Ey Ex) as Hlt.
    assert (e_ts x <= rq_begin dr) as Hxb by (apply (Hle k x (le_n _)); rewrite nth_firstn by lia; exact Ex).
    split; [lia|]. intros z Ez. injection Ez as <-. lia.
Qed.

Lemma fr_fine : forall tick n rd l0 flag0 gs0 dr, 0 < tick -> wf tick (contents n l0 (steps_of gs0)) ->
  gaps_on_record tick n l0 flag0 gs0 -> rq_begin dr <= rq_end dr ->
  search_fine (fr_lower_bound e_ts e_num tick) n rd l0 flag0 gs0 dr.
Proof.
  intros tick n rd l0 flag0 gs0 dr Ht Hwf Hg Hbe r p P before after Hs HPp HP Eall Hm Hb He.
  destruct (on_record flag0 before) eqn:Ef.
  { destruct (bs_fine tick n rd l0 flag0 gs0 dr Hwf r p P before after Hs HPp HP Eall Hm Hb He) as (k & E & H).
    exists k. split; [exact E|exact H]. }
  specialize (Hg before after Eall Ef).
  pose proof (C_prefix n l0 (steps_of gs0) before after Eall) as Hpre.
  set (C := contents n l0 (steps_of gs0)) in *. set (m0 := length l0) in *.
  assert (m0 + p <= length C)%nat as Hpc by (destruct Hs as (_ & _ & _ & H); exact H).
  pose proof (shows_lt _ _ _ _ _ _ Hs) as Hlt. fold m0 in Hlt.
  set (c := contents n l0 before) in *.
  assert (forall k, (k < m0 + P)%nat -> nth_error c k = nth_error C k) as Hnc.
  { intros k Hk. rewrite Hpre. apply nth_firstn. lia. }
  destruct (firstn (m0 + p) C) as [|x0 t] eqn:El.
  { exfalso. apply (f_equal (@length elem)) in El. rewrite firstn_length in El. cbn in El. lia. }
  assert (nth_error C 0 = Some x0) as Hx0.
  { rewrite <- (nth_firstn elem 0 (m0 + p) C) by lia. rewrite El. reflexivity. }
  unfold gap_free in Hg. destruct c as [|c0 ct] eqn:Ec; [cbn in Hm; lia|].
  assert (c0 = x0) as -> by (specialize (Hnc 0%nat ltac:(lia)); rewrite Hx0 in Hnc; cbn in Hnc; congruence).
  destruct Hg as [Hsp Hov].
  assert (regular tick x0) as Hreg.
  { destruct Hwf as [Hr _]. rewrite Forall_forall in Hr. apply Hr. apply (nth_error_In _ _ Hx0). }
  assert (0 <= e_ts x0) as H0 by apply Hreg.
  assert (0 < e_num x0) as Hnum.
  { destruct Hreg as [Hx _]. unfold e_num. destruct (e_frames x0); [congruence|cbn [length]; lia]. }
  set (d := tick * e_num x0) in *. assert (0 < d) as Hd by (unfold d; nia).
  set (l := firstn (m0 + P) C) in *.
  assert (length l = m0 + P)%nat as Hll by (unfold l; rewrite firstn_length; lia).
  assert (equally_spaced e_ts l (e_ts x0) d) as Hspl.
  { intros k x Hx. assert (k < m0 + P)%nat as Hk by (rewrite <- Hll; apply nth_error_Some; congruence).
    apply Hsp. rewrite Hnc by exact Hk. unfold l in Hx. rewrite nth_firstn in Hx by exact Hk. exact Hx. }
  assert (oldest_ts l = e_ts x0) as Hold.
  { apply hd_error_oldest. assert (nth_error l 0 = Some x0) as X by (unfold l; rewrite nth_firstn by lia; exact Hx0).
    destruct l; [discriminate|exact X]. }
  assert (newest_ts l = e_ts x0 + Z.of_nat (m0 + P - 1) * d) as Hnew.
  { destruct (nth_error l (m0 + P - 1)) as [y|] eqn:Ey; [|apply nth_error_None in Ey; lia].
    rewrite <- (Hspl _ _ Ey). apply newest_last. rewrite Hll. exact Ey. }
  assert (Z.of_nat (m0 + P - 1) * d <= Z.of_nat (m0 + p) * d) as H1 by (apply Z.mul_le_mono_nonneg_r; lia).
  assert (Z.of_nat (m0 + p) * d <= n * d) as H2 by (apply Z.mul_le_mono_nonneg_r; lia).
  assert (Z.of_nat (m0 + P - 1) * d < Z.of_nat (m0 + P) * d) as H3 by (apply Z.mul_lt_mono_pos_r; lia).
  assert (holds r (x0 :: t)) as Hh by (rewrite <- El; apply Hs).
  assert (length (x0 :: t) = m0 + p)%nat as Hlt2 by (rewrite <- El, firstn_length; lia).
  exists (Z.to_nat ((rq_begin dr - e_ts x0) / d)).
  assert (newest_not_newer e_ts l (rq_begin dr) (Z.to_nat ((rq_begin dr - e_ts x0) / d))) as Hnn.
  { apply spaced_newest; [exact Hd|exact Hspl|]. rewrite Hll. lia. }
  rewrite (fr_raw tick r (x0 :: t) x0 t (rq_begin dr) Hh eq_refl Ht Hnum H0); fold d; try rewrite Hlt2; try lia.
  assert (0 <= (rq_begin dr - e_ts x0) / d) as Hq by (apply Z.div_pos; lia).
  destruct Hs as (_ & Hrd & Hn & _). rewrite Hrd, Hn. unfold at_. rewrite Z2Nat.id by exact Hq.
  split; [reflexivity|]. destruct Hnn as [Hkl Hk]. rewrite Hll in Hkl. split; [lia|]. left. split; [exact Hkl|].
  split; [rewrite Hll; exact Hkl|exact Hk].
Qed.
