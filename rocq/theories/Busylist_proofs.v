(** Proofs about requests on the skip-list buffer served while data keep arriving. *)
From Coq Require Import ZArith List Bool Lia ZifyBool Permutation.
From Verif Require Import Base_model SkipList_model SkipList_spec SkipList_proofs Elem_model Request_model Request_spec
  Request_proofs Busylist_model Busylist_spec.
Import ListNotations.
Open Scope Z_scope.

Lemma arrive_app : forall a b l, l_arrive (a ++ b) l = l_arrive b (l_arrive a l).
Proof. intros a b l. unfold l_arrive. apply fold_left_app. Qed.

Lemma took_app : forall a b s, took s (a ++ b) = took (took s a) b.
Proof. intros a b s. unfold took. apply fold_left_app. Qed.

Lemma look_final : forall xss l l' xss', l_look xss l = (l', xss') ->
  l_arrive (concat xss') l' = l_arrive (concat xss) l.
Proof.
  intros [|xs xss] l l' xss' H; cbn [l_look] in H; injection H as <- <-; [reflexivity|].
  cbn [concat]. rewrite arrive_app. reflexivity.
Qed.

Lemma look_xs : forall xss l l' xss', l_look xss l = (l', xss') ->
  exists d, l' = l_arrive d l /\ concat xss = d ++ concat xss'.
Proof.
  intros [|xs xss] l l' xss' H; cbn [l_look] in H; injection H as <- <-; [exists []; split; reflexivity|].
  exists xs. split; reflexivity.
Qed.

Lemma arrive_incr : forall xs l, incr e_ts l -> incr e_ts (l_arrive xs l).
Proof.
  induction xs as [|x xs IH]; intros l H; [exact H|]. cbn [l_arrive fold_left]. apply IH.
  unfold sl_write. apply (proj2 (insert_ok e_ts x l H)).
Qed.

Lemma arrive_in : forall xs l y, incr e_ts l -> In y l -> In y (l_arrive xs l).
Proof.
  induction xs as [|x xs IH]; intros l y H Hy; [exact Hy|]. cbn [l_arrive fold_left].
  destruct (insert_ok e_ts x l H) as [[(E & P & N)|(E & P & N)] Hi]; apply IH; unfold sl_write; try exact Hi.
  - apply (Permutation_in _ (Permutation_sym P)). right. exact Hy.
  - rewrite P. exact Hy.
Qed.

Lemma arrive_from : forall xs l y, incr e_ts l -> In y (l_arrive xs l) -> In y (l ++ xs).
Proof.
  induction xs as [|x xs IH]; intros l y H Hy; [rewrite app_nil_r; exact Hy|]. cbn [l_arrive fold_left] in Hy.
  destruct (insert_ok e_ts x l H) as [HH Hi]. apply (IH _ y Hi) in Hy. unfold sl_write in Hy.
  apply in_app_or in Hy. apply in_or_app. destruct Hy as [Hy|Hy]; [|right; right; exact Hy].
  destruct HH as [(E & P & N)|(E & P & N)].
  - apply (Permutation_in _ P) in Hy. destruct Hy as [<-|Hy]; [right; left; reflexivity|left; exact Hy].
  - rewrite P in Hy. left. exact Hy.
Qed.

Lemma existsb_present : forall t (s : list elem), existsb (fun y => e_ts y =? t) s = true <-> present e_ts t s.
Proof.
  intros t s. rewrite existsb_exists. unfold present. split; intros (y & Hy & E); exists y; split; auto; lia.
Qed.

Lemma present_perm : forall t (s l : list elem), Permutation s l -> present e_ts t s -> present e_ts t l.
Proof. intros t s l P (y & Hy & E). exists y. split; [exact (Permutation_in _ P Hy)|exact E]. Qed.

Lemma took_perm : forall xs s l, incr e_ts l -> Permutation s l -> Permutation (took s xs) (l_arrive xs l).
Proof.
  induction xs as [|x xs IH]; intros s l H P; [exact P|]. cbn [took l_arrive fold_left].
  destruct (insert_ok e_ts x l H) as [HH Hi]. apply IH; [exact Hi|]. unfold sl_write.
  destruct HH as [(_ & Pi & N)|(_ & Pi & N)].
  - replace (existsb _ s) with false.
    + apply perm_trans with (x :: l); [apply perm_skip; exact P|apply Permutation_sym; exact Pi].
    + symmetry. apply not_true_is_false. intros E. apply existsb_present in E. apply N.
      exact (present_perm _ _ _ P E).
  - replace (existsb _ s) with true; [rewrite Pi; exact P|].
    symmetry. apply existsb_present. exact (present_perm _ _ _ (Permutation_sym P) N).
Qed.

(** ** Extraction *)

Lemma filter_le : forall (P Q : elem -> bool) F, (forall y, P y = true -> Q y = true) ->
  (length (filter P F) <= length (filter Q F))%nat.
Proof.
  intros P Q F H. induction F as [|a F IH]; [reflexivity|]. cbn [filter]. pose proof (H a) as Ha.
  destruct (P a); destruct (Q a); cbn [length]; lia.
Qed.

Lemma filter_lt : forall (P Q : elem -> bool) F x, (forall y, P y = true -> Q y = true) ->
  In x F -> Q x = true -> P x = false ->
  (length (filter P F) < length (filter Q F))%nat.
Proof.
  intros P Q F x H. induction F as [|a F IH]; intros Hx Hq Hp; [destruct Hx|]. cbn [filter].
  pose proof (H a) as Ha. destruct Hx as [->|Hx].
  - rewrite Hq, Hp. cbn [length]. pose proof (filter_le P Q F H). lia.
  - specialize (IH Hx Hq Hp). destruct (P a); destruct (Q a); cbn [length]; lia.
Qed.

Lemma window_cons : forall x T b e, window_bytes (x :: T) b e =
  flat_map f_bytes (filter (fun f => (b <=? f_ts f) && (f_ts f <? e)) (e_frames x)) ++ window_bytes T b e.
Proof.
  intros x T b e. unfold window_bytes, all_frames. cbn [flat_map]. rewrite filter_app, flat_map_app. reflexivity.
Qed.

Section Extract.
Variables (tick b e_w : Z).
Hypothesis Ht : 0 <= tick.

Lemma extract_ok : forall fuel xss l x,
  incr e_ts l -> In x l -> Forall (regular tick) (l_arrive (concat xss) l) ->
  (length (filter (fun y => (e_ts x <=? e_ts y)%Z) (l_arrive (concat xss) l)) < fuel)%nat ->
  exists T, l_extract tick fuel xss l (e_ts x) b e_w = Ok (window_bytes T b e_w) /\ in_order T /\
    (forall y, In y T -> e_ts x <= e_ts y < e_w /\ In y (l_arrive (concat xss) l)) /\
    (forall y, In y l -> e_ts x <= e_ts y < e_w -> In y T) /\
    (match T with [] => True | y :: _ => e_ts x <= e_ts y end).
Proof.
  induction fuel as [|fuel IH]; intros xss l x Hi Hx Hreg Hf; [lia|].
  set (F := l_arrive (concat xss) l) in *.
  assert (In x F) as HxF by (apply arrive_in; assumption).
  assert (forall y, In y F -> regular tick y) as Hr by (apply Forall_forall; exact Hreg).
  assert (0 <= e_ts x) as Hx0 by (destruct (Hr x HxF) as (_ & H & _); exact H).
  cbn [l_extract]. unfold sl_good, sl_end. replace (negb (e_ts x =? -1)) with true by lia.
  unfold sl_deref. rewrite (find_ts e_ts l x Hi Hx). cbn [bind].
  destruct (e_ts x <? e_w) eqn:Ew.
  2:{ exists []. split; [reflexivity|]. split; [exact I|]. split; [intros y []|]. split; [|exact I].
      intros y Hy Hb. lia. }
  destruct (l_look xss l) as [l' xss'] eqn:El.
  pose proof (look_final _ _ _ _ El) as EF. fold F in EF.
  destruct (look_xs _ _ _ _ El) as (d & El' & _).
  assert (incr e_ts l') as Hi' by (rewrite El'; apply arrive_incr; exact Hi).
  assert (forall y, In y l -> In y l') as Hsub by (intros y Hy; rewrite El'; apply arrive_in; assumption).
  assert (length (filter (fun y => (e_ts x <? e_ts y)%Z) F) < length (filter (fun y => (e_ts x <=? e_ts y)%Z) F))%nat as Hlen.
  { apply (filter_lt _ _ F x); try assumption; try lia. }
  unfold sl_incr.
  destruct (find (fun y => (e_ts x <? e_ts y)%Z) l') as [y|] eqn:Ef.
  - destruct (find_first e_ts (fun y => (e_ts x <? e_ts y)%Z) l' y Hi' Ef) as (Hy & Hxy & Hmin); [intros; lia|].
    assert (length (filter (fun z => (e_ts y <=? e_ts z)%Z) F) <= length (filter (fun y => (e_ts x <? e_ts y)%Z) F))%nat as Hle
      by (apply filter_le; intros z Hz; lia).
    destruct (IH xss' l' y Hi' Hy ltac:(rewrite EF; exact Hreg) ltac:(rewrite EF; lia)) as (T & E & Ho & Hin & Hall & Hh).
    rewrite E. cbn [bind]. exists (x :: T). split.
    { rewrite window_cons, (element_exact tick x b e_w Ht (Hr x HxF) ltac:(lia)). reflexivity. }
    split. { cbn [in_order]. destruct T as [|z T]; [exact I|]. split; [lia|exact Ho]. }
    split. { intros z [<-|Hz]; [split; [lia|exact HxF]|]. destruct (Hin z Hz) as [H1 H2]. rewrite EF in H2. split; [lia|exact H2]. }
    split; [|lia].
    intros z Hz Hb. destruct (Z.eq_dec (e_ts z) (e_ts x)) as [Eq|Ne].
    { left. pose proof (find_ts e_ts l x Hi Hx) as F1. pose proof (find_ts e_ts l z Hi Hz) as F2. rewrite Eq in F2. congruence. }
    right. apply Hall; [apply Hsub; exact Hz|]. split; [|lia]. apply Hmin; [apply Hsub; exact Hz|lia].
  - assert (forall y, In y l' -> e_ts y <= e_ts x) as Hnone.
    { intros y Hy. pose proof (find_none _ _ Ef y Hy). cbn in H. lia. }
    assert (exists f, fuel = S f) as (f & ->).
    { destruct fuel as [|f]; [|exists f; reflexivity]. lia. }
    cbn [l_extract]. unfold sl_good, sl_end. cbn [Z.eqb Pos.eqb negb bind].
    exists [x]. split.
    { rewrite window_cons, (element_exact tick x b e_w Ht (Hr x HxF) ltac:(lia)). reflexivity. }
    split; [exact I|]. split. { intros z [<-|[]]. split; [lia|exact HxF]. }
    split; [|lia]. intros z Hz Hb. specialize (Hnone z (Hsub z Hz)).
    left. pose proof (find_ts e_ts l x Hi Hx) as F1. pose proof (find_ts e_ts l z Hi Hz) as F2.
    replace (e_ts z) with (e_ts x) in F2 by lia. congruence.
Qed.

End Extract.

(** ** The request *)

Lemma hd_smallest : forall l x, incr e_ts l -> hd_error l = Some x -> smallest e_ts x l.
Proof.
  intros [|a l] x H E; [discriminate|]. injection E as ->. destruct H as [Ha _]. split; [left; reflexivity|].
  intros y [<-|Hy]; [lia|]. specialize (Ha y Hy). lia.
Qed.

Lemma back_largest : forall l x, incr e_ts l -> sl_back l = Some x -> largest e_ts x l.
Proof.
  intros [|a l] x H E; [discriminate|]. assert (x = last (a :: l) a) as -> by (unfold sl_back in E; congruence).
  apply last_largest; [exact H|discriminate].
Qed.

Lemma smallest_perm : forall x (s l : list elem), Permutation s l -> smallest e_ts x l -> smallest e_ts x s.
Proof.
  intros x s l P [H1 H2]. split; [exact (Permutation_in _ (Permutation_sym P) H1)|].
  intros y Hy. apply H2. exact (Permutation_in _ P Hy).
Qed.
Lemma largest_perm : forall x (s l : list elem), Permutation s l -> largest e_ts x l -> largest e_ts x s.
Proof.
  intros x s l P [H1 H2]. split; [exact (Permutation_in _ (Permutation_sym P) H1)|].
  intros y Hy. apply H2. exact (Permutation_in _ P Hy).
Qed.

Lemma arrive_nonempty : forall xs l, incr e_ts l -> l <> [] -> l_arrive xs l <> [].
Proof.
  intros xs [|a l] H Hne; [congruence|]. intros E.
  pose proof (arrive_in xs (a :: l) a H ltac:(left; reflexivity)) as X. rewrite E in X. destruct X.
Qed.

Lemma arrive_length : forall xs l, incr e_ts l -> (length (l_arrive xs l) >= length l)%nat.
Proof.
  induction xs as [|x xs IH]; intros l H; [cbn; lia|]. cbn [l_arrive fold_left].
  destruct (insert_ok e_ts x l H) as [HH Hi]. specialize (IH _ Hi). unfold l_arrive, sl_write in *.
  destruct HH as [(_ & P & _)|(_ & P & _)].
  - apply Permutation_length in P. cbn [length] in P. lia.
  - rewrite P in *. lia.
Qed.

Lemma list_reply : forall dnf lk tick running xss l s0 dr st,
  0 <= dnf -> 0 <= tick -> incr e_ts l -> Permutation s0 l ->
  Forall (regular tick) (l ++ concat xss) -> Z.of_nat (length (l_arrive (concat xss) l)) < 2147483648 ->
  rq_begin dr <= rq_end dr ->
  answered_in_motion dnf lk running s0 (concat xss) dr st (l_request dnf lk tick running xss l dr st).
Proof.
  intros dnf lk tick running xss l s0 dr st Hd Ht Hi P Hreg Hlen Hbe.
  unfold l_request. set (h := create_fragment_header lk dr).
  destruct (l_look xss l) as [l0 xss0] eqn:E0.
  destruct (look_xs _ _ _ _ E0) as (d0 & El0 & Ex0). pose proof (look_final _ _ _ _ E0) as F0.
  assert (incr e_ts l0) as Hi0 by (rewrite El0; apply arrive_incr; exact Hi).
  assert (sl_occupancy l0 = Z.of_nat (length l0)) as Eo.
  { apply occupancy_exact. pose proof (arrive_length (concat xss0) l0 Hi0). rewrite F0 in H. lia. }
  rewrite Eo.
  destruct (negb (Z.of_nat (length l0) =? 0)) eqn:En.
  2:{ left. exists d0, (concat xss0). split; [exact Ex0|]. split.
      - pose proof (took_perm d0 s0 l Hi P) as Q. rewrite <- El0 in Q.
        destruct l0 as [|a l0]; [|cbn [length] in En; lia]. apply Permutation_sym, Permutation_nil in Q. exact Q.
      - eexists. eexists. split; [reflexivity|]. split.
        + unfold counted, one_if; cbn; repeat split; lia.
        + cbn [classify]. eexists. split; [reflexivity|]. split; [reflexivity|]. apply dnf_set. exact Hd. }
  assert (l0 <> []) as Hne0 by (destruct l0; [cbn in En; discriminate|discriminate]).
  destruct (l_look xss0 l0) as [l1 xss1] eqn:E1.
  destruct (look_xs _ _ _ _ E1) as (d1 & El1 & Ex1). pose proof (look_final _ _ _ _ E1) as F1.
  assert (incr e_ts l1) as Hi1 by (rewrite El1; apply arrive_incr; exact Hi0).
  assert (l1 <> []) as Hne1 by (rewrite El1; apply arrive_nonempty; assumption).
  destruct (l_look xss1 l1) as [l2 xss2] eqn:E2.
  destruct (look_xs _ _ _ _ E2) as (d2 & El2 & Ex2). pose proof (look_final _ _ _ _ E2) as F2.
  assert (incr e_ts l2) as Hi2 by (rewrite El2; apply arrive_incr; exact Hi1).
  assert (l2 <> []) as Hne2 by (rewrite El2; apply arrive_nonempty; assumption).
  destruct (sl_front l1) as [o|] eqn:Ef; [|destruct l1; [congruence|discriminate]].
  destruct (sl_back l2) as [n|] eqn:Eb; [|destruct l2; [congruence|discriminate]].
  pose proof (hd_smallest l1 o Hi1 Ef) as Ho. pose proof (back_largest l2 n Hi2 Eb) as Hn.
  assert (Permutation (took s0 (d0 ++ d1)) l1) as P1.
  { rewrite El1, El0, <- arrive_app. apply took_perm; assumption. }
  assert (Permutation (took s0 ((d0 ++ d1) ++ d2)) l2) as P2.
  { rewrite El2, El1, El0, <- !arrive_app. rewrite app_assoc. apply took_perm; assumption. }
  right. exists (d0 ++ d1), d2, (concat xss2), o, n.
  assert (concat xss = (d0 ++ d1) ++ d2 ++ concat xss2) as Exs.
  { rewrite Ex0, Ex1, Ex2, !app_assoc. reflexivity. }
  split; [exact Exs|]. split; [exact (smallest_perm _ _ _ P1 Ho)|]. split; [exact (largest_perm _ _ _ P2 Hn)|].
  set (reply := if (e_ts o <=? rq_begin dr) && (rq_end dr <=? e_ts n) then _ else _).
  unfold right_answer, classify, reason_of. cbn [oldest_ts newest_ts rev app].
  change (newest_ts [o; n]) with (e_ts n).
  destruct ((e_ts o <=? rq_begin dr) && (rq_end dr <=? e_ts n)) eqn:Ec.
  - subst reply. destruct (l_look xss2 l2) as [l3 xss3] eqn:E3.
    destruct (look_xs _ _ _ _ E3) as (d3 & El3 & Ex3). pose proof (look_final _ _ _ _ E3) as F3.
    assert (incr e_ts l3) as Hi3 by (rewrite El3; apply arrive_incr; exact Hi2).
    assert (In n l3) as Hn3 by (rewrite El3; apply arrive_in; [exact Hi2|apply Hn]).
    set (F := l_arrive (concat xss) l) in *.
    assert (Forall (regular tick) F) as HregF.
    { apply Forall_forall. intros y Hy. rewrite Forall_forall in Hreg. apply Hreg. apply arrive_from; assumption. }
    assert (l_arrive (concat xss3) l3 = F) as EF3 by congruence.
    unfold sl_lower_bound.
    destruct (find (fun y => rq_begin dr <=? e_ts y) l3) as [x|] eqn:Efd.
    2:{ exfalso. pose proof (find_none _ _ Efd n Hn3) as X. cbn in X. lia. }
    destruct (find_first e_ts (fun y => rq_begin dr <=? e_ts y) l3 x Hi3 Efd) as (Hx & Hbx & Hmin); [intros; lia|].
    assert (In x F) as HxF by (rewrite <- EF3; apply arrive_in; assumption).
    assert (0 <= e_ts x) as Hx0 by (rewrite Forall_forall in HregF; destruct (HregF x HxF) as (_ & H & _); exact H).
    unfold sl_end at 1 2. replace (e_ts x =? -1) with false by lia.
    destruct (extract_ok tick (rq_begin dr) (rq_end dr) Ht (S (length (l_arrive (concat xss3) l3))) xss3 l3 x Hi3 Hx)
      as (T & E & Hor & Hin & Hall & _).
    { rewrite EF3. exact HregF. }
    { pose proof (filter_le (fun y => (e_ts x <=? e_ts y)%Z) (fun _ => true) (l_arrive (concat xss3) l3) ltac:(reflexivity)) as X.
      assert (forall G : list elem, filter (fun _ => true) G = G) as Y by (induction G as [|g G IH]; [reflexivity|cbn; rewrite IH; reflexivity]).
      rewrite Y in X. lia. }
    rewrite E. cbn [bind]. split.
    + eexists. eexists. split; [reflexivity|]. split.
      * unfold counted, one_if; cbn; repeat split; lia.
      * eexists. split; [reflexivity|]. subst h. cbn. apply Z.testbit_0_l.
    + intros fo st' Er. injection Er as <- _. exists T. split; [|reflexivity].
      split; [exact Hor|]. split.
      * intros y Hy. destruct (Hin y Hy) as [H1 H2]. split; [unfold starts_in; lia|].
        rewrite EF3 in H2. apply (Permutation_in _ (Permutation_sym (took_perm (concat xss) s0 l Hi P))). exact H2.
      * intros y Hy Hs. unfold starts_in in Hs. apply (Permutation_in _ P2) in Hy.
        assert (In y l3) as Hy3 by (rewrite El3; apply arrive_in; assumption).
        apply Hall; [exact Hy3|]. split; [|lia]. apply Hmin; [exact Hy3|lia].
  - assert (forall g, Z.testbit (h_error_bits (set_dnf dnf g)) dnf = true) as Hbit by (intros g; apply dnf_set; exact Hd).
    subst reply. destruct (rq_begin dr <? e_ts o) eqn:Eold.
    + split; [|intros fo st' Er; discriminate Er].
      eexists. eexists. split; [reflexivity|]. split; [unfold counted, one_if; cbn; repeat split; lia|].
      eexists. split; [reflexivity|]. split; [reflexivity|apply Hbit].
    + replace (e_ts n <? rq_end dr) with true by lia. destruct running.
      * split; [|intros fo st' Er; discriminate Er].
        eexists. eexists. split; [reflexivity|]. split; [unfold counted, one_if; cbn; repeat split; lia|]. reflexivity.
      * split; [|intros fo st' Er; discriminate Er].
        eexists. eexists. split; [reflexivity|]. split; [unfold counted, one_if; cbn; repeat split; lia|].
        eexists. split; [reflexivity|]. split; [reflexivity|apply Hbit].
Qed.
