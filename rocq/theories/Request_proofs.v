From Coq Require Import ZArith List Bool Lia ZifyBool.
From Verif Require Import Base_model Ring_model Ring_spec Ring_proofs Search_model Search_spec Search_proofs
  SkipList_model SkipList_spec SkipList_proofs Lb_model Lb_proofs Elem_model Request_model Request_spec.
Import ListNotations.
Open Scope Z_scope.

Section Extraction.
Variable tick : Z.
Context {B : Type}.
Variable L : lb elem B.

Fixpoint take_before (e_w : Z) (l : list elem) : list elem :=
  match l with
  | [] => []
  | e :: l' => if e_ts e <? e_w then e :: take_before e_w l' else []
  end.

Lemma extract_view : forall fuel buf l pos k b e_w, view L buf l pos -> (k <= length l)%nat ->
  (length l - k < fuel)%nat ->
  extract tick L fuel buf (pos k) b e_w =
  Ok (flat_map (fun e => element_bytes tick e b e_w) (take_before e_w (skipn k l))).
Proof.
  induction fuel as [|fuel IH]; intros buf l pos k b e_w V Hk Hf; [lia|].
  cbn [extract]. destruct (nth_error l k) as [x|] eqn:Ex.
  - destruct (v_at _ _ _ _ V k x Ex) as (_ & Hg & Hd & Hi). rewrite Hg, Hd. cbn [bind].
    assert (k < length l)%nat as Hlt by (apply nth_error_Some; congruence).
    rewrite (skipn_cons_nth l k x Ex). cbn [take_before].
    destruct (e_ts x <? e_w) eqn:Et; [|reflexivity].
    rewrite Hi. rewrite (IH buf l pos (S k) b e_w V) by lia. cbn [bind flat_map]. reflexivity.
  - apply nth_error_None in Ex. rewrite (v_end _ _ _ _ V k Ex). rewrite (v_bad _ _ _ _ V).
    rewrite skipn_all2 by exact Ex. reflexivity.
Qed.

End Extraction.

(** The bytes taken from one element equal the in-window frames of that element. *)
Lemma element_exact : forall tick e b e_w, 0 <= tick -> regular tick e -> e_ts e < e_w ->
  element_bytes tick e b e_w =
  flat_map f_bytes (filter (fun f => (b <=? f_ts f) && (f_ts f <? e_w)) (e_frames e)).
Proof.
  intros tick e b e_w Ht (Hne & H0 & Hreg & Hw) Hlt. unfold element_bytes.
  assert (0 < e_num e) as Hnum by (unfold e_num; destruct (e_frames e); [congruence|cbn [length]; lia]).
  assert ((e_num e - 1) * tick < two64) as Hm by nia.
  assert (u64 (e_ts e + u64 (u64 (e_num e - 1) * tick)) = e_ts e + (e_num e - 1) * tick) as ->.
  { destruct (Z.eq_dec tick 0) as [->|Hnz].
    - rewrite !Z.mul_0_r in *. change (u64 0) with 0. apply u64_small. lia.
    - rewrite (u64_small (e_num e - 1)) by nia. rewrite (u64_small ((e_num e - 1) * tick)) by nia.
      apply u64_small. nia. }
  destruct ((e_ts e <? b) || (e_w <=? e_ts e + (e_num e - 1) * tick)) eqn:E; [reflexivity|].
  unfold e_payload. f_equal.
  assert (forall f, In f (e_frames e) -> (b <=? f_ts f) && (f_ts f <? e_w) = true) as Hall.
  { intros f Hf. apply In_nth_error in Hf. destruct Hf as [k Hk].
    rewrite (Hreg k f Hk). assert (k < length (e_frames e))%nat as Hkl by (apply nth_error_Some; congruence).
    unfold e_num in *. nia. }
  symmetry. clear -Hall. induction (e_frames e) as [|f l IH]; [reflexivity|].
  cbn [filter]. rewrite (Hall f ltac:(left; reflexivity)). f_equal. apply IH. intros g Hg. apply Hall. right. exact Hg.
Qed.

Lemma regular_first_in : forall tick e, regular tick e -> exists f, In f (e_frames e) /\ f_ts f = e_ts e.
Proof.
  intros tick e (Hne & _). unfold e_ts. destruct (e_frames e) as [|f l]; [congruence|].
  exists f. split; [left; reflexivity|reflexivity].
Qed.

Lemma wf_non_decreasing : forall tick l, wf tick l -> non_decreasing e_ts l.
Proof.
  intros tick l [Hr Ho] i j x y Hij Hx Hy.
  destruct (Nat.eq_dec i j) as [->|Hne]; [rewrite Hx in Hy; injection Hy as ->; lia|].
  rewrite Forall_forall in Hr. destruct (regular_first_in tick x (Hr x (nth_error_In _ _ Hx))) as (f & Hf & Ef).
  specialize (Ho i j x y f ltac:(lia) Hx Hy Hf). lia.
Qed.

Lemma filter_none : forall (P : frame -> bool) l, (forall f, In f l -> P f = false) -> filter P l = [].
Proof.
  induction l as [|f l IH]; intros H; [reflexivity|]. cbn [filter]. rewrite (H f ltac:(left; reflexivity)).
  apply IH. intros g Hg. apply H. right. exact Hg.
Qed.

Lemma filter_all_frames_none : forall (P : frame -> bool) l,
  (forall e f, In e l -> In f (e_frames e) -> P f = false) -> filter P (all_frames l) = [].
Proof.
  intros P l H. apply filter_none. intros f Hf. unfold all_frames in Hf. apply in_flat_map in Hf.
  destruct Hf as (e & He & Hf). exact (H e f He Hf).
Qed.

Lemma in_time_order_tail : forall e l, in_time_order (e :: l) -> in_time_order l.
Proof.
  intros e l H i j x y f Hij Hx Hy Hf. apply (H (S i) (S j) x y f); try assumption; lia.
Qed.

(** From any start position, the loop yields the window of the remaining elements. *)
Lemma take_exact : forall tick l b e_w, 0 <= tick -> wf tick l ->
  flat_map (fun e => element_bytes tick e b e_w) (take_before e_w l) =
  flat_map f_bytes (filter (fun f => (b <=? f_ts f) && (f_ts f <? e_w)) (all_frames l)).
Proof.
  intros tick l b e_w Ht. induction l as [|e l IH]; intros [Hr Ho]; [reflexivity|].
  inversion Hr as [|? ? Hre Hrl]; subst. cbn [take_before].
  destruct (e_ts e <? e_w) eqn:E.
  - cbn [flat_map all_frames]. unfold all_frames in *. cbn [flat_map]. rewrite filter_app, flat_map_app.
    rewrite <- IH by (split; [exact Hrl|eapply in_time_order_tail; exact Ho]).
    rewrite (element_exact tick e b e_w Ht Hre ltac:(lia)). reflexivity.
  - cbn [flat_map]. rewrite filter_all_frames_none; [reflexivity|].
    intros e' f He' Hf. assert (e_w <= f_ts f); [|lia].
    rewrite Forall_forall in Hr. specialize (Hr e' He').
    assert (e_ts e <= e_ts e') as Hle.
    { apply In_nth_error in He'. destruct He' as [j Hj].
      apply (wf_non_decreasing tick (e :: l) (conj (Forall_cons e Hre Hrl) Ho) 0%nat j e e' ltac:(lia) eq_refl Hj). }
    destruct Hr as (_ & _ & Hreg & _). apply In_nth_error in Hf. destruct Hf as [k Hk].
    rewrite (Hreg k f Hk). nia.
Qed.

Lemma all_frames_app : forall l1 l2, all_frames (l1 ++ l2) = all_frames l1 ++ all_frames l2.
Proof. intros. unfold all_frames. apply flat_map_app. Qed.

Lemma wf_skipn : forall tick l k, wf tick l -> wf tick (skipn k l).
Proof.
  intros tick l k [Hr Ho]. split.
  - apply Forall_forall. intros x Hx. rewrite Forall_forall in Hr. apply Hr.
    rewrite <- (firstn_skipn k l). apply in_or_app. right. exact Hx.
  - revert l Hr Ho. induction k as [|k IH]; intros l Hr Ho; [exact Ho|]. destruct l as [|e l]; [exact Ho|].
    cbn [skipn]. apply IH; [inversion Hr; assumption|eapply in_time_order_tail; exact Ho].
Qed.

(** Skipping the elements before the newest one not newer than [b] loses nothing. *)
Lemma skip_exact : forall tick l b e_w k, wf tick l -> newest_not_newer e_ts l b k ->
  flat_map f_bytes (filter (fun f => (b <=? f_ts f) && (f_ts f <? e_w)) (all_frames (skipn k l))) =
  window_bytes l b e_w.
Proof.
  intros tick l b e_w k [Hr Ho] (Hk & Hle & _). unfold window_bytes.
  rewrite <- (firstn_skipn k l) at 2. rewrite all_frames_app, filter_app, flat_map_app.
  rewrite (filter_all_frames_none _ (firstn k l)); [reflexivity|].
  intros e f He Hf. apply In_nth_error in He. destruct He as [i Hi].
  assert (i < k)%nat as Hik.
  { assert (i < length (firstn k l))%nat as X by (apply nth_error_Some; congruence).
    rewrite firstn_length in X. lia. }
  assert (nth_error l i = Some e) as Hi'.
  { rewrite <- (firstn_skipn k l). rewrite nth_error_app1; [exact Hi|].
    apply nth_error_Some. congruence. }
  destruct (nth_error l k) as [y|] eqn:Ey; [|apply nth_error_None in Ey; lia].
  specialize (Ho i k e y f Hik Hi' Ey Hf). specialize (Hle k y (le_n _) Ey). lia.
Qed.

Lemma hd_error_oldest : forall l x, hd_error l = Some x -> oldest_ts l = e_ts x.
Proof. intros [|y l] x E; [discriminate|]. cbn in *. congruence. Qed.

Section Handler.
Variable dnf : Z.
Variable lk : link.
Variable tick : Z.
Context {B : Type}.
Variable L : lb elem B.

(** Evaluation of data_request on a viewed, non-empty buffer. *)
Lemma data_request_view : forall running missing buf l pos dr s, view L buf l pos -> l <> [] ->
  data_request dnf lk tick L running missing buf dr s =
  do (c, h, bytes, s') <- availability dnf lk tick L missing buf dr (oldest_ts l) (newest_ts l) s;
  match c with
  | kNotYet =>
    if running then Ok (kNotYet, None, s')
    else Ok (kNotFound, Some (mk_fragment (set_dnf dnf h) bytes),
             mk_stats (st_found s') (st_bad s' + 1) (st_old s') (st_delayed s') (st_uncategorized s'))
  | _ => Ok (c, Some (mk_fragment h bytes), s')
  end.
Proof.
  intros running missing buf l pos dr s V Hne. unfold data_request.
  rewrite (v_occ _ _ _ _ V). rewrite (v_front _ _ _ _ V), (v_back _ _ _ _ V). cbn [bind].
  destruct (Z.of_nat (length l) =? 0) eqn:E; [destruct l; [congruence|cbn [length] in E; lia]|]. cbn [negb].
  destruct (hd_error l) as [x|] eqn:Eh; [|destruct l; [congruence|discriminate]].
  destruct (hd_error (rev l)) as [y|] eqn:Er.
  - rewrite (hd_error_oldest _ _ Eh). unfold newest_ts. rewrite (hd_error_oldest _ _ Er). reflexivity.
  - exfalso. assert (rev l = []) as X by (destruct (rev l); [reflexivity|discriminate]).
    apply (f_equal (@length elem)) in X. rewrite rev_length in X. destruct l; [congruence|discriminate].
Qed.

Lemma found_exact : forall running missing buf l pos dr s k, view L buf l pos -> l <> [] ->
  0 <= tick -> wf tick l ->
  oldest_ts l <= rq_begin dr -> rq_end dr <= newest_ts l ->
  lb_lower_bound L buf (rq_begin dr) missing = SFound (pos k) ->
  newest_not_newer e_ts l (rq_begin dr) k ->
  data_request dnf lk tick L running missing buf dr s =
  Ok (kFound, Some (mk_fragment (create_fragment_header lk dr) (window_bytes l (rq_begin dr) (rq_end dr))),
      mk_stats (st_found s + 1) (st_bad s) (st_old s) (st_delayed s) (st_uncategorized s)).
Proof.
  intros running missing buf l pos dr s k V Hne Ht Hwf Hb He Hs Hk.
  rewrite (data_request_view running missing buf l pos dr s V Hne).
  unfold availability.
  destruct ((oldest_ts l <=? rq_begin dr) && (rq_end dr <=? newest_ts l)) eqn:E; [|lia].
  rewrite Hs. destruct Hk as [Hkl Hk].
  destruct (nth_error l k) as [x|] eqn:Ex; [|apply nth_error_None in Ex; lia].
  destruct (v_at _ _ _ _ V k x Ex) as (Hne' & _).
  destruct (pos k =? lb_end L) eqn:Ep; [lia|].
  rewrite (v_occ _ _ _ _ V), Nat2Z.id.
  rewrite (extract_view tick L (S (length l)) buf l pos k) by (try exact V; lia).
  cbn [bind]. rewrite (take_exact tick (skipn k l)) by (try exact Ht; apply wf_skipn; exact Hwf).
  rewrite (skip_exact tick l (rq_begin dr) (rq_end dr) k Hwf (conj Hkl Hk)). reflexivity.
Qed.

Lemma mirrors_header : forall dr, mirrors lk dr (create_fragment_header lk dr).
Proof. intros dr. unfold mirrors. cbn. repeat split; reflexivity. Qed.

Lemma empty_headers : forall dr, mirrors lk dr (fg_header (create_empty_fragment dnf lk dr)) /\
  mirrors lk dr (fg_header (empty_handler_fragment dnf lk dr)).
Proof. intros dr. split; apply mirrors_header. Qed.

Lemma mirrors_dnf : forall dr h, mirrors lk dr h -> mirrors lk dr (set_dnf dnf h).
Proof. intros dr h H. exact H. Qed.

Lemma dnf_set : forall h, 0 <= dnf -> Z.testbit (h_error_bits (set_dnf dnf h)) dnf = true.
Proof.
  intros h Hd. cbn. rewrite Z.lor_spec, Z.shiftl_spec by lia. rewrite Z.sub_diag. apply orb_true_r.
Qed.

Lemma header_mirrors : forall running missing buf dr s c fr s',
  data_request dnf lk tick L running missing buf dr s = Ok (c, Some fr, s') -> mirrors lk dr (fg_header fr).
Proof.
  intros running missing buf dr s c fr s' E. unfold data_request in E.
  destruct (negb (lb_occupancy L buf =? 0)).
  - destruct (lb_front L buf) as [[x|]|]; cbn [bind] in E; try discriminate E;
    destruct (lb_back L buf) as [[y|]|]; cbn [bind] in E; try discriminate E.
    destruct (availability dnf lk tick L missing buf dr (e_ts x) (e_ts y) s) as [[[[c1 h] bytes] s1]|] eqn:EA;
      cbn [bind] in E; [|discriminate].
    assert (mirrors lk dr h) as Hm.
    { unfold availability in EA.
      destruct ((e_ts x <=? rq_begin dr) && (rq_end dr <=? e_ts y)).
      - destruct (lb_lower_bound L buf (rq_begin dr) missing) as [it| |]; try discriminate EA.
        destruct (it =? lb_end L).
        + injection EA as _ <- _ _. apply mirrors_header.
        + destruct (extract _ _ _ _ _ _ _); cbn [bind] in EA; [|discriminate].
          injection EA as _ <- _ _. apply mirrors_header.
      - destruct (rq_begin dr <? e_ts x); [injection EA as _ <- _ _; apply mirrors_header|].
        destruct (e_ts y <? rq_end dr); injection EA as _ <- _ _; apply mirrors_header. }
    destruct c1; [| |destruct running]; try discriminate E; injection E as _ <- _; exact Hm.
  - injection E as _ <- _. apply mirrors_header.
Qed.

(** Everything but the payload, for any view and any search result. *)
Lemma outcome : forall running missing buf l pos dr s, 0 <= dnf -> view L buf l pos ->
  (l <> [] -> oldest_ts l <= rq_begin dr -> rq_end dr <= newest_ts l ->
   exists k, lb_lower_bound L buf (rq_begin dr) missing = SFound (pos k) /\ (k < length l)%nat) ->
  right_answer dnf running l dr s (data_request dnf lk tick L running missing buf dr s).
Proof.
  intros running missing buf l pos dr s Hd V Hs. unfold right_answer, counted.
  destruct l as [|x l0] eqn:El.
  - unfold data_request. rewrite (v_occ _ _ _ _ V). cbn [length Z.of_nat Z.eqb negb].
    eexists. eexists. split; [reflexivity|]. split; [cbn; lia|].
    cbn [classify]. eexists. split; [reflexivity|]. split; [reflexivity|]. apply dnf_set. exact Hd.
  - rewrite <- El in *. assert (l <> []) as Hne by congruence.
    rewrite (data_request_view running missing buf l pos dr s V Hne).
    assert (classify running l (rq_begin dr) (rq_end dr) =
      if (oldest_ts l <=? rq_begin dr) && (rq_end dr <=? newest_ts l) then kFound
      else if rq_begin dr <? oldest_ts l then kNotFound else if running then kNotYet else kNotFound) as ->
      by (rewrite El; reflexivity).
    assert (reason_of l (rq_begin dr) (rq_end dr) =
      if (oldest_ts l <=? rq_begin dr) && (rq_end dr <=? newest_ts l) then WindowServed
      else if rq_begin dr <? oldest_ts l then WindowTooOld else WindowTooNew) as ->
      by (rewrite El; reflexivity).
    unfold availability.
    destruct ((oldest_ts l <=? rq_begin dr) && (rq_end dr <=? newest_ts l)) eqn:E.
    + destruct (Hs Hne ltac:(lia) ltac:(lia)) as (k & Hk & Hkl). rewrite Hk.
      destruct (nth_error l k) as [y|] eqn:Ey; [|apply nth_error_None in Ey; lia].
      destruct (v_at _ _ _ _ V k y Ey) as (Hne' & _).
      destruct (pos k =? lb_end L) eqn:Ep; [lia|].
      rewrite (v_occ _ _ _ _ V), Nat2Z.id.
      rewrite (extract_view tick L (S (length l)) buf l pos k) by (try exact V; lia).
      cbn [bind]. eexists. eexists. split; [reflexivity|]. split; [cbn; lia|]. eexists. split; [reflexivity|].
      cbn. apply Z.testbit_0_l.
    + destruct (rq_begin dr <? oldest_ts l) eqn:E1.
      * cbn [bind]. eexists. eexists. split; [reflexivity|]. split; [cbn; lia|].
        eexists. split; [reflexivity|]. split; [reflexivity|]. apply dnf_set. exact Hd.
      * destruct (newest_ts l <? rq_end dr) eqn:E2; [|lia].
        cbn [bind]. destruct running; eexists; eexists; (split; [reflexivity|]); (split; [cbn; lia|]).
        { reflexivity. }
        eexists. split; [reflexivity|]. split; [reflexivity|]. apply dnf_set. exact Hd.
Qed.

End Handler.

(** The three buffers, on reachable contents. *)
Section Buffers.
Variable dnf : Z.
Variable lk : link.
Variable tick : Z.

Lemma nonempty_head : forall l : list elem, l <> [] -> exists x l0, l = x :: l0.
Proof. intros [|x l0] H; [congruence|]. exists x, l0. reflexivity. Qed.

Lemma bs_position : forall (r : ring elem) l key, holds r l -> wf tick l -> l <> [] -> oldest_ts l <= key ->
  exists k, bs_lower_bound e_ts r key = SFound (ring_pos r l k) /\ newest_not_newer e_ts l key k.
Proof.
  intros r l key H Hwf Hne Hk. destruct (nonempty_head l Hne) as (x0 & l0 & El).
  apply (bs_start e_ts r l x0 l0 key H El (wf_non_decreasing tick l Hwf)). rewrite El in Hk. exact Hk.
Qed.

Lemma fr_position : forall (r : ring elem) l x0 l0 key, holds r l -> wf tick l -> l = x0 :: l0 -> 0 < tick ->
  equally_spaced e_ts l (e_ts x0) (tick * e_num x0) ->
  e_ts x0 + Z.of_nat (length l) * (tick * e_num x0) < two64 ->
  e_ts x0 <= key -> key <= newest_ts l ->
  exists k, fr_lower_bound e_ts e_num tick r key false = SFound (ring_pos r l k) /\ newest_not_newer e_ts l key k.
Proof.
  intros r l x0 l0 key H Hwf El Ht Hsp Hov Hk Hk2.
  assert (regular tick x0) as Hr by (destruct Hwf as [Hf _]; rewrite El in Hf; inversion Hf; assumption).
  assert (0 < e_num x0) as Hnum
    by (destruct Hr as [Hx _]; unfold e_num; destruct (e_frames x0); [congruence|cbn [length]; lia]).
  assert (0 <= e_ts x0) as H0 by (destruct Hr as (_ & H0 & _); exact H0).
  assert (newest_ts l = e_ts x0 + Z.of_nat (length l - 1) * (tick * e_num x0)) as En.
  { unfold newest_ts. pose proof (hd_rev_last l) as Hl.
    destruct (nth_error l (length l - 1)) as [y|] eqn:Ey.
    - rewrite (hd_error_oldest (rev l) y Hl). apply (Hsp _ _ Ey).
    - apply nth_error_None in Ey. rewrite El in Ey. cbn [length] in Ey. lia. }
  assert (0 < length l)%nat by (rewrite El; cbn; lia).
  assert (0 < tick * e_num x0) by nia.
  assert (key < e_ts x0 + Z.of_nat (length l) * (tick * e_num x0)) by nia.
  rewrite (fr_agrees e_ts e_num tick r l x0 l0 (e_ts x0) key H El Ht Hnum H0 Hsp Hov) by lia.
  destruct (e_ts x0 + Z.of_nat (length l) * (tick * e_num x0) <? key) eqn:E; [lia|].
  apply (bs_position r l key H Hwf); [congruence|]. rewrite El. exact Hk.
Qed.

Lemma c09_bs : forall n (ops : list (op elem)) r q running missing dr s,
  supported_size n -> Forall supported_op ops -> reached n ops r q ->
  0 <= tick -> wf tick (q_items q) -> q_items q <> [] ->
  oldest_ts (q_items q) <= rq_begin dr -> rq_end dr <= newest_ts (q_items q) ->
  exists s', data_request dnf lk tick (bs_lb e_ts) running missing r dr s =
    Ok (kFound, Some (mk_fragment (create_fragment_header lk dr)
                        (window_bytes (q_items q) (rq_begin dr) (rq_end dr))), s').
Proof.
  intros n ops r q running missing dr s Hn Hf Hr Ht Hwf Hne Hb He.
  destruct (reached_sim n ops r q Hn Hf Hr) as [H _].
  destruct (bs_position r (q_items q) (rq_begin dr) H Hwf Hne Hb) as (k & Hk & Hnn).
  eexists. eapply (found_exact dnf lk tick (bs_lb e_ts)); try eassumption. apply view_bs. exact H.
Qed.

Lemma c09_fr_flagged : forall n (ops : list (op elem)) r q running dr s,
  supported_size n -> Forall supported_op ops -> reached n ops r q ->
  0 <= tick -> wf tick (q_items q) -> q_items q <> [] ->
  oldest_ts (q_items q) <= rq_begin dr -> rq_end dr <= newest_ts (q_items q) ->
  exists s', data_request dnf lk tick (fr_lb e_ts e_num tick) running true r dr s =
    Ok (kFound, Some (mk_fragment (create_fragment_header lk dr)
                        (window_bytes (q_items q) (rq_begin dr) (rq_end dr))), s').
Proof.
  intros n ops r q running dr s Hn Hf Hr Ht Hwf Hne Hb He.
  destruct (reached_sim n ops r q Hn Hf Hr) as [H _].
  destruct (bs_position r (q_items q) (rq_begin dr) H Hwf Hne Hb) as (k & Hk & Hnn).
  eexists. eapply (found_exact dnf lk tick (fr_lb e_ts e_num tick)); try eassumption. apply view_fr. exact H.
Qed.

Lemma c09_fr_spaced : forall n (ops : list (op elem)) r q x0 l0 running dr s,
  supported_size n -> Forall supported_op ops -> reached n ops r q ->
  0 < tick -> wf tick (q_items q) -> q_items q = x0 :: l0 ->
  equally_spaced e_ts (q_items q) (e_ts x0) (tick * e_num x0) ->
  e_ts x0 + Z.of_nat (length (q_items q)) * (tick * e_num x0) < two64 ->
  oldest_ts (q_items q) <= rq_begin dr -> rq_begin dr <= rq_end dr -> rq_end dr <= newest_ts (q_items q) ->
  exists s', data_request dnf lk tick (fr_lb e_ts e_num tick) running false r dr s =
    Ok (kFound, Some (mk_fragment (create_fragment_header lk dr)
                        (window_bytes (q_items q) (rq_begin dr) (rq_end dr))), s').
Proof.
  intros n ops r q x0 l0 running dr s Hn Hf Hr Ht Hwf El Hsp Hov Hb Hbe He.
  destruct (reached_sim n ops r q Hn Hf Hr) as [H _].
  assert (e_ts x0 <= rq_begin dr) as Hb' by (rewrite El in Hb; exact Hb).
  destruct (fr_position r (q_items q) x0 l0 (rq_begin dr) H Hwf El Ht Hsp Hov Hb' ltac:(lia)) as (k & Hk & Hnn).
  eexists. eapply (found_exact dnf lk tick (fr_lb e_ts e_num tick)); try eassumption; try lia.
  - apply view_fr. exact H.
  - congruence.
Qed.

Lemma c10_bs : forall n (ops : list (op elem)) r q running missing dr s,
  supported_size n -> Forall supported_op ops -> reached n ops r q -> 0 <= dnf ->
  wf tick (q_items q) ->
  right_answer dnf running (q_items q) dr s (data_request dnf lk tick (bs_lb e_ts) running missing r dr s).
Proof.
  intros n ops r q running missing dr s Hn Hf Hr Hd Hwf.
  destruct (reached_sim n ops r q Hn Hf Hr) as [H _].
  eapply (outcome dnf lk tick (bs_lb e_ts)); [exact Hd|apply view_bs; exact H|].
  intros Hne Hb He. destruct (bs_position r (q_items q) (rq_begin dr) H Hwf Hne Hb) as (k & Hk & Hnn).
  exists k. split; [exact Hk|apply Hnn].
Qed.

Lemma c10_fr_flagged : forall n (ops : list (op elem)) r q running dr s,
  supported_size n -> Forall supported_op ops -> reached n ops r q -> 0 <= dnf ->
  wf tick (q_items q) ->
  right_answer dnf running (q_items q) dr s (data_request dnf lk tick (fr_lb e_ts e_num tick) running true r dr s).
Proof.
  intros n ops r q running dr s Hn Hf Hr Hd Hwf.
  destruct (reached_sim n ops r q Hn Hf Hr) as [H _].
  eapply (outcome dnf lk tick (fr_lb e_ts e_num tick)); [exact Hd|apply view_fr; exact H|].
  intros Hne Hb He. destruct (bs_position r (q_items q) (rq_begin dr) H Hwf Hne Hb) as (k & Hk & Hnn).
  exists k. split; [exact Hk|apply Hnn].
Qed.

(** Without the flag: any contents, even with gaps, as long as the oldest element is regular and the
    arithmetic does not wrap; the window must not be reversed. *)
Lemma c10_fr_spaced : forall n (ops : list (op elem)) r q x0 l0 running dr s,
  supported_size n -> Forall supported_op ops -> reached n ops r q -> 0 <= dnf ->
  0 < tick -> wf tick (q_items q) -> q_items q = x0 :: l0 ->
  equally_spaced e_ts (q_items q) (e_ts x0) (tick * e_num x0) ->
  e_ts x0 + Z.of_nat (length (q_items q)) * (tick * e_num x0) < two64 ->
  rq_begin dr <= rq_end dr ->
  right_answer dnf running (q_items q) dr s (data_request dnf lk tick (fr_lb e_ts e_num tick) running false r dr s).
Proof.
  intros n ops r q x0 l0 running dr s Hn Hf Hr Hd Ht Hwf El Hsp Hov Hbe.
  destruct (reached_sim n ops r q Hn Hf Hr) as [H _].
  eapply (outcome dnf lk tick (fr_lb e_ts e_num tick)); [exact Hd|apply view_fr; exact H|].
  intros Hne Hb He.
  assert (e_ts x0 <= rq_begin dr) as Hb' by (rewrite El in Hb; exact Hb).
  destruct (fr_position r (q_items q) x0 l0 (rq_begin dr) H Hwf El Ht Hsp Hov Hb' ltac:(lia)) as (k & Hk & Hnn).
  exists k. split; [exact Hk|apply Hnn].
Qed.

(** Skip list: where the search starts. *)
Lemma sl_position : forall l key, incr e_ts l -> (exists y, In y l /\ key <= e_ts y) ->
  exists k x, nth_error l k = Some x /\ sl_lower_bound e_ts l key = sl_pos e_ts l k /\
    key <= e_ts x /\ forall j y, (j < k)%nat -> nth_error l j = Some y -> e_ts y < key.
Proof.
  induction l as [|a l IH]; intros key Hi (y & Hy & Hk); [destruct Hy|].
  destruct Hi as [Ha Hl]. unfold sl_lower_bound. cbn [find].
  destruct (key <=? e_ts a) eqn:E.
  - exists 0%nat, a. split; [reflexivity|]. split; [reflexivity|]. split; [lia|]. intros j z Hj. lia.
  - destruct Hy as [->|Hy]; [lia|].
    destruct (IH key Hl (ex_intro _ y (conj Hy Hk))) as (k & x & H1 & H2 & H3 & H4).
    exists (S k), x. split; [exact H1|]. split; [exact H2|]. split; [exact H3|].
    intros [|j] z Hj Hz; [cbn in Hz; injection Hz as <-; lia|]. apply (H4 j z ltac:(lia) Hz).
Qed.

Lemma newest_in : forall l : list elem, l <> [] -> exists y, In y l /\ newest_ts l = e_ts y.
Proof.
  intros l Hne. unfold newest_ts. destruct (rev l) as [|y t] eqn:E.
  - exfalso. apply (f_equal (@length elem)) in E. rewrite rev_length in E. destruct l; [congruence|discriminate].
  - exists y. split; [|reflexivity]. apply in_rev. rewrite E. left. reflexivity.
Qed.

Lemma c10_sl : forall (ops : list (sl_op elem)) l running missing dr s,
  Forall (valid_op e_ts) ops -> never_huge e_ts [] ops -> snd (sl_run e_ts [] ops) = l ->
  0 <= dnf -> rq_begin dr <= rq_end dr ->
  right_answer dnf running l dr s (data_request dnf lk tick (sl_lb e_ts) running missing l dr s).
Proof.
  intros ops l running missing dr s Hv Hh <- Hd Hbe. destruct (reached_incr e_ts ops Hv Hh) as (Hi & Hnn & Hlen).
  generalize dependent (snd (sl_run e_ts [] ops)). intros l Hi Hnn Hlen. eapply (outcome dnf lk tick (sl_lb e_ts)); [exact Hd|apply view_sl; assumption|].
  intros Hne Hb He. destruct (newest_in l Hne) as (y & Hy & Ey).
  destruct (sl_position l (rq_begin dr) Hi) as (k & x & H1 & H2 & _).
  { exists y. split; [exact Hy|lia]. }
  exists k. split; [cbn; rewrite H2; reflexivity|]. apply nth_error_Some. congruence.
Qed.

Lemma skipn_filter_ge : forall key l k x, incr e_ts l -> nth_error l k = Some x -> key <= e_ts x ->
  (forall j y, (j < k)%nat -> nth_error l j = Some y -> e_ts y < key) ->
  filter (fun e => key <=? e_ts e) l = skipn k l.
Proof.
  intros key. induction l as [|a l IH]; intros k x Hi H1 H3 H4; [destruct k; discriminate|].
  destruct Hi as [Ha Hl]. destruct k as [|k].
  - cbn in H1. injection H1 as ->. cbn [skipn]. clear IH H4.
    assert (forall z, In z (x :: l) -> (key <=? e_ts z) = true) as Hall.
    { intros z [<-|Hz]; [lia|]. specialize (Ha z Hz). lia. }
    clear -Hall. revert Hall. generalize (x :: l) as m. induction m as [|z m IH]; intros Hall; [reflexivity|].
    cbn [filter]. rewrite (Hall z ltac:(left; reflexivity)). f_equal. apply IH.
    intros w Hw. apply Hall. right. exact Hw.
  - cbn [skipn filter]. pose proof (H4 0%nat a ltac:(lia) eq_refl) as X.
    destruct (key <=? e_ts a) eqn:E; [lia|].
    apply (IH k x Hl H1 H3). intros j z Hj Hz. apply (H4 (S j) z ltac:(lia) Hz).
Qed.

(** Skip list searched with key [key]: only elements from [key] on are looked at. *)
Lemma list_found : forall L l key running missing dr s, incr e_ts l -> view L l l (sl_pos e_ts l) ->
  lb_end L = sl_end -> (forall b m, b = rq_begin dr -> lb_lower_bound L l b m = SFound (sl_lower_bound e_ts l key)) ->
  0 <= tick -> wf tick l -> l <> [] ->
  oldest_ts l <= rq_begin dr -> rq_end dr <= newest_ts l -> key <= newest_ts l ->
  exists s', data_request dnf lk tick L running missing l dr s =
    Ok (kFound, Some (mk_fragment (create_fragment_header lk dr)
        (window_bytes (filter (fun e => key <=? e_ts e) l) (rq_begin dr) (rq_end dr))), s').
Proof.
  intros L l key running missing dr s Hi V Eend Elb Ht Hwf Hne Hb He Hkey.
  rewrite (data_request_view dnf lk tick L running missing l l _ dr s V Hne).
  unfold availability.
  destruct ((oldest_ts l <=? rq_begin dr) && (rq_end dr <=? newest_ts l)) eqn:E; [|lia].
  destruct (newest_in l Hne) as (y & Hy & Ey).
  destruct (sl_position l key Hi) as (k & x & H1 & H2 & H3 & H4).
  { exists y. split; [exact Hy|lia]. }
  rewrite (Elb _ missing eq_refl). rewrite H2. destruct (v_at _ _ _ _ V k x H1) as (Hne' & _).
  rewrite Eend in *. destruct (sl_pos e_ts l k =? sl_end) eqn:Ep; [lia|].
  rewrite (v_occ _ _ _ _ V), Nat2Z.id.
  assert (k < length l)%nat as Hkl by (apply nth_error_Some; congruence).
  rewrite (extract_view tick L (S (length l)) l l _ k) by (try exact V; lia).
  cbn [bind]. rewrite (take_exact tick (skipn k l)) by (try exact Ht; apply wf_skipn; exact Hwf).
  rewrite (skipn_filter_ge key l k x Hi H1 H3 H4). eexists. reflexivity.
Qed.

Lemma c56 : forall (ops : list (sl_op elem)) l running missing dr s,
  Forall (valid_op e_ts) ops -> never_huge e_ts [] ops -> snd (sl_run e_ts [] ops) = l ->
  0 <= tick -> wf tick l -> l <> [] ->
  oldest_ts l <= rq_begin dr -> rq_begin dr <= rq_end dr -> rq_end dr <= newest_ts l ->
  exists s', data_request dnf lk tick (sl_lb e_ts) running missing l dr s =
    Ok (kFound, Some (mk_fragment (create_fragment_header lk dr)
        (window_bytes (filter (fun e => rq_begin dr <=? e_ts e) l) (rq_begin dr) (rq_end dr))), s').
Proof.
  intros ops l running missing dr s Hv Hh El Ht Hwf Hne Hb Hbe He.
  destruct (reached_incr e_ts ops Hv Hh) as (Hi & Hnn & Hlen). rewrite El in *. clear El Hv Hh ops.
  apply list_found; try assumption; try lia.
  - apply view_sl; assumption.
  - reflexivity.
  - intros b m ->. reflexivity.
Qed.

(** PACMAN: the key is arbitrary. *)
Lemma c57 : forall (ops : list (sl_op elem)) l g running missing dr s,
  Forall (valid_op e_ts) ops -> never_huge e_ts [] ops -> snd (sl_run e_ts [] ops) = l ->
  0 <= tick -> wf tick l -> l <> [] ->
  oldest_ts l <= rq_begin dr -> rq_end dr <= newest_ts l ->
  (g <= newest_ts l -> exists s', data_request dnf lk tick (pacman_lb e_ts g) running missing l dr s =
    Ok (kFound, Some (mk_fragment (create_fragment_header lk dr)
        (window_bytes (filter (fun e => g <=? e_ts e) l) (rq_begin dr) (rq_end dr))), s')) /\
  (newest_ts l < g -> exists s', data_request dnf lk tick (pacman_lb e_ts g) running missing l dr s =
    if running then Ok (kNotYet, None, s') else Ok (kNotFound, Some (create_empty_fragment dnf lk dr), s')).
Proof.
  intros ops l g running missing dr s Hv Hh El Ht Hwf Hne Hb He.
  destruct (reached_incr e_ts ops Hv Hh) as (Hi & Hnn & Hlen). rewrite El in *. clear El Hv Hh ops.
  pose proof (view_pacman elem e_ts g l Hi Hnn Hlen) as V. split.
  - intros Hg. apply list_found; try assumption; try lia; try reflexivity.
  - intros Hg. rewrite (data_request_view dnf lk tick _ running missing l l _ dr s V Hne).
    unfold availability.
    destruct ((oldest_ts l <=? rq_begin dr) && (rq_end dr <=? newest_ts l)) eqn:E; [|lia].
    cbn [lb_lower_bound pacman_lb]. unfold sl_lower_bound.
    destruct (find (fun x => g <=? e_ts x) l) as [x|] eqn:Ef.
    + exfalso. apply find_some in Ef. destruct Ef as [Hx Hge]. 
      assert (e_ts x <= newest_ts l); [|lia].
      apply In_nth_error in Hx. destruct Hx as [k Hk].
      pose proof (hd_rev_last l) as Hl. destruct (nth_error l (length l - 1)) as [y|] eqn:Ey.
      * unfold newest_ts. rewrite (hd_error_oldest (rev l) y Hl).
        apply (wf_non_decreasing tick l Hwf k (length l - 1)%nat x y); try assumption.
        assert (k < length l)%nat by (apply nth_error_Some; congruence). lia.
      * apply nth_error_None in Ey. destruct l; [congruence|cbn [length] in Ey; lia].
    + cbn [lb_end pacman_lb]. rewrite Z.eqb_refl. cbn [bind].
      destruct running; eexists; reflexivity.
Qed.

(** SSP. *)
Lemma c58 : forall n (ops : list (op elem)) r q evs running missing dr s,
  supported_size n -> Forall supported_op ops -> reached n ops r q ->
  q_items q = map ssp_elem evs -> evs <> [] -> 0 <= tick ->
  (forall i x, nth_error evs i = Some x -> 0 <= ssp_ts x /\ ssp_ts x + tick < two64 /\
     (length (ssp_header x) <= ssp_frame_size)%nat) ->
  (forall i j x y, (i < j)%nat -> nth_error evs i = Some x -> nth_error evs j = Some y -> ssp_ts x < ssp_ts y) ->
  oldest_ts (q_items q) <= rq_begin dr -> rq_end dr <= newest_ts (q_items q) ->
  exists h s', data_request dnf lk tick (bs_lb e_ts) running missing r dr s =
    Ok (kFound, Some (mk_fragment h
       (flat_map (fun x => ssp_header x ++ firstn (ssp_frame_size - length (ssp_header x)) (ssp_data x))
                 (filter (fun x => (rq_begin dr <=? ssp_ts x) && (ssp_ts x <? rq_end dr)) evs))), s').
Proof.
  intros n ops r q evs running missing dr s Hn Hf Hr El Hne Ht Hreg Hord Hb He.
  assert (wf tick (q_items q)) as Hwf.
  { rewrite El. split.
    - apply Forall_forall. intros e HIn. apply in_map_iff in HIn. destruct HIn as (x & <- & Hx).
      apply In_nth_error in Hx. destruct Hx as [i Hi]. destruct (Hreg i x Hi) as (H0 & H1 & _).
      assert (e_ts (ssp_elem x) = ssp_ts x) as E1 by reflexivity.
      assert (e_num (ssp_elem x) = 1) as E2 by reflexivity.
      unfold regular. rewrite E1, E2. repeat split; [discriminate|lia| |lia].
      intros [|k] f; [intros [= <-]; cbn [f_ts]; lia|destruct k; discriminate].
    - intros i j x y f Hij Hx Hy HIn.
      rewrite nth_error_map in Hx, Hy.
      destruct (nth_error evs i) as [x'|] eqn:Ex; [|discriminate]. destruct (nth_error evs j) as [y'|] eqn:Ey; [|discriminate].
      cbn in Hx, Hy. injection Hx as <-. injection Hy as <-. cbn in HIn. destruct HIn as [<-|[]].
      unfold ssp_elem, e_ts. cbn. apply (Hord i j x' y' Hij Ex Ey). }
  destruct (c09_bs n ops r q running missing dr s Hn Hf Hr Ht Hwf) as (s' & E); try assumption.
  { rewrite El. destruct evs; [congruence|discriminate]. }
  eexists. exists s'. rewrite E. f_equal. f_equal. f_equal. f_equal. f_equal.
  rewrite El. unfold window_bytes, all_frames. clear -Hreg.
  induction evs as [|x evs IH]; [reflexivity|].
  assert (flat_map e_frames (map ssp_elem (x :: evs)) =
          mk_frame (ssp_ts x) (firstn ssp_frame_size (ssp_header x ++ ssp_data x)) :: flat_map e_frames (map ssp_elem evs))
    as -> by reflexivity.
  assert (length (ssp_header x) <= ssp_frame_size)%nat as Hlen by (destruct (Hreg 0%nat x eq_refl) as (_ & _ & H); exact H).
  cbn [filter f_ts].
  specialize (IH (fun i y H => Hreg (S i) y H)).
  destruct ((rq_begin dr <=? ssp_ts x) && (ssp_ts x <? rq_end dr)); [|exact IH].
  cbn [flat_map f_bytes]. rewrite IH. f_equal.
  rewrite firstn_app. f_equal. apply firstn_all2. exact Hlen.
Qed.

End Buffers.
