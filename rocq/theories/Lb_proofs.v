From Coq Require Import ZArith List Bool Lia ZifyBool.
From Verif Require Import Base_model Ring_model Ring_spec Ring_proofs Search_model Search_spec Search_proofs
  SkipList_model SkipList_proofs Lb_model.
Import ListNotations.
Open Scope Z_scope.

(** [b] holds the elements [l], oldest first; [pos k] is the iterator of the k-th one. *)
Record view {E B : Type} (L : lb E B) (b : B) (l : list E) (pos : nat -> Z) : Prop := {
  v_occ : lb_occupancy L b = Z.of_nat (length l);
  v_front : lb_front L b = Ok (hd_error l);
  v_back : lb_back L b = Ok (hd_error (rev l));
  v_at : forall k x, nth_error l k = Some x ->
         pos k <> lb_end L /\ lb_good L b (pos k) = true /\ lb_deref L b (pos k) = Ok x /\
         lb_incr L b (pos k) = pos (S k);
  v_end : forall k, (length l <= k)%nat -> pos k = lb_end L;
  v_bad : lb_good L b (lb_end L) = false
}.

Definition ring_pos {E : Type} (r : ring E) (l : list E) (k : nat) : Z :=
  if (k <? length l)%nat then (r_read r + Z.of_nat k) mod r_size r else it_end.

Section Ring.
Context {E : Type}.
Variable ts nframes : E -> Z.
Variable tick : Z.

Lemma ring_at : forall (r : ring E) l k x, holds r l -> nth_error l k = Some x ->
  ring_pos r l k <> it_end /\ it_good r (ring_pos r l k) = true /\ deref r (ring_pos r l k) = Ok x /\
  it_incr r (ring_pos r l k) = ring_pos r l (S k).
Proof.
  intros r l k x H Hx. assert (k < length l)%nat as Hk by (apply nth_error_Some; congruence).
  pose proof (h_len _ _ H) as Hlen.
  unfold ring_pos. destruct (k <? length l)%nat eqn:E1; [|lia].
  pose proof (index_not_end r l (Z.of_nat k) H) as Hne.
  rewrite (good_index r l (Z.of_nat k) H) by lia.
  rewrite (deref_index r l k x H Hx).
  rewrite (incr_index r l (Z.of_nat k) H) by lia.
  repeat split; try lia.
  replace (Z.of_nat k + 1) with (Z.of_nat (S k)) by lia.
  destruct (Z.of_nat (S k) <? Z.of_nat (length l)) eqn:E2; destruct (S k <? length l)%nat eqn:E3; try lia; reflexivity.
Qed.

Lemma view_bs : forall (r : ring E) l, holds r l -> view (bs_lb ts) r l (ring_pos r l).
Proof.
  intros r l H. split; cbn [lb_occupancy lb_front lb_back lb_end lb_good lb_deref lb_incr bs_lb].
  - apply occupancy_ok. exact H.
  - apply front_ok. exact H.
  - apply back_ok. exact H.
  - intros k x Hx. apply (ring_at r l k x H Hx).
  - intros k Hk. unfold ring_pos. destruct (k <? length l)%nat eqn:E1; [lia|reflexivity].
  - apply good_end.
Qed.

Lemma view_fr : forall (r : ring E) l, holds r l -> view (fr_lb ts nframes tick) r l (ring_pos r l).
Proof.
  intros r l H. split; cbn [lb_occupancy lb_front lb_back lb_end lb_good lb_deref lb_incr fr_lb].
  - apply occupancy_ok. exact H.
  - apply front_ok. exact H.
  - apply back_ok. exact H.
  - intros k x Hx. apply (ring_at r l k x H Hx).
  - intros k Hk. unfold ring_pos. destruct (k <? length l)%nat eqn:E1; [lia|reflexivity].
  - apply good_end.
Qed.

(** Where the search starts, as an offset into the contents. *)
Lemma bs_start : forall (r : ring E) l x0 l0 key, holds r l -> l = x0 :: l0 -> non_decreasing ts l ->
  ts x0 <= key ->
  exists k, bs_lower_bound ts r key = SFound (ring_pos r l k) /\ newest_not_newer ts l key k.
Proof.
  intros r l x0 l0 key H El Hnd Hk. destruct (bs_found ts r l key H Hnd) as [[Hn _]|(k & Hk1 & Hk2)].
  - exfalso. specialize (Hn x0 ltac:(rewrite El; left; reflexivity)). lia.
  - exists k. split; [|exact Hk1]. rewrite Hk2. unfold ring_pos. destruct Hk1 as [Hlt _].
    destruct (k <? length l)%nat eqn:E1; [reflexivity|lia].
Qed.

End Ring.

Definition sl_pos {E : Type} (ts : E -> Z) (l : list E) (k : nat) : Z :=
  match nth_error l k with Some x => ts x | None => sl_end end.

Lemma find_gt : forall (E : Type) (ts : E -> Z) l k x, incr ts l -> nth_error l k = Some x ->
  find (fun y => ts x <? ts y) l = nth_error l (S k).
Proof.
  induction l as [|a l IH]; intros k x H Hx; [destruct k; discriminate|].
  destruct H as [Ha Hl]. destruct k as [|k].
  - cbn in Hx. injection Hx as <-. cbn [find nth_error].
    destruct (ts a <? ts a) eqn:E1; [lia|]. destruct l as [|b l]; [reflexivity|].
    cbn [find nth_error]. specialize (Ha b ltac:(left; reflexivity)). destruct (ts a <? ts b) eqn:E2; [reflexivity|lia].
  - cbn [nth_error] in Hx. cbn [find nth_error].
    specialize (Ha x ltac:(eapply nth_error_In; exact Hx)).
    destruct (ts x <? ts a) eqn:E1; [lia|]. apply (IH k x Hl Hx).
Qed.

Lemma view_sl : forall (E : Type) (ts : E -> Z) (l : list E), incr ts l -> nonneg ts l ->
  Z.of_nat (length l) < 2147483648 -> view (sl_lb ts) l l (sl_pos ts l).
Proof.
  intros E ts l Hi Hn Hlen. split; cbn [lb_occupancy lb_front lb_back lb_end lb_good lb_deref lb_incr sl_lb].
  - apply occupancy_exact. exact Hlen.
  - reflexivity.
  - f_equal. unfold sl_back. destruct l as [|y l]; [reflexivity|].
    rewrite (app_removelast_last y (l := y :: l) ltac:(discriminate)) at 2.
    rewrite rev_app_distr. reflexivity.
  - intros k x Hx. unfold sl_pos at 1 2 3 4. rewrite Hx.
    pose proof (nth_error_In _ _ Hx) as HIn. pose proof (Hn x HIn) as Hx0.
    unfold sl_end, sl_good. repeat split; [lia|unfold sl_end; lia| |].
    + unfold sl_deref. rewrite (find_ts ts l x Hi HIn). reflexivity.
    + unfold sl_incr, sl_pos. rewrite (find_gt E ts l k x Hi Hx). reflexivity.
  - intros k Hk. unfold sl_pos. destruct (nth_error l k) eqn:E1; [|reflexivity].
    exfalso. assert (nth_error l k <> None) as X by congruence. apply nth_error_Some in X. lia.
  - reflexivity.
Qed.

Lemma view_pacman : forall (E : Type) (ts : E -> Z) (g : Z) (l : list E), incr ts l -> nonneg ts l ->
  Z.of_nat (length l) < 2147483648 -> view (pacman_lb ts g) l l (sl_pos ts l).
Proof.
  intros E ts g l Hi Hn Hlen. destruct (view_sl E ts l Hi Hn Hlen) as [H1 H2 H3 H4 H5 H6].
  split; assumption.
Qed.
