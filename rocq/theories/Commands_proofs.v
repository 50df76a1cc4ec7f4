(** Proofs for the commands of a generated configuration: who is addressed and in which order. *)
From Coq Require Import String Ascii ZArith List Bool Lia Permutation.
From Verif Require Import Base_model Factory_model Gen_model Gen_spec Gen_props Commands_model Commands_spec.
Import ListNotations.
Open Scope string_scope.

Lemma count_filter : forall (p : string -> bool) l x, count_occ string_dec (filter p l) x = (if p x then count_occ string_dec l x else 0)%nat.
Proof.
  induction l as [|a l IH]; intros x; [destruct (p x); reflexivity|]. cbn [filter count_occ]. destruct (string_dec a x) as [->|N].
  - destruct (p x) eqn:E; [cbn [count_occ]; destruct (string_dec x x); [|congruence]; rewrite IH, E; reflexivity|rewrite IH, E; reflexivity].
  - destruct (p a); [cbn [count_occ]; destruct (string_dec a x); [congruence|]; apply IH|apply IH].
Qed.

Definition hits (pats : list string) (x : string) : nat := length (filter (fun p => matches p x) pats).

Lemma dispatched_count : forall pats names order, dispatched pats names order -> forall x,
  count_occ string_dec order x = (hits pats x * count_occ string_dec names x)%nat.
Proof.
  intros pats names order (groups & F & ->) x. unfold hits. induction F as [|p g pats groups P F IH]; [reflexivity|].
  cbn [concat filter]. rewrite count_occ_app, IH. rewrite (proj1 (Permutation_count_occ string_dec _ _) P x), count_filter.
  destruct (matches p x); cbn [length]; lia.
Qed.

Lemma count_names : forall ft n t x, In ft front_ends -> count_occ string_dec (names ft n t) x = if in_dec string_dec x (names ft n t) then 1%nat else 0%nat.
Proof.
  intros ft n t x F. pose proof (proj1 (proj2 (C63_names_distinct ft n t F))) as N. fold (names ft n t) in N. destruct (in_dec string_dec x (names ft n t)) as [I|I].
  - apply NoDup_count_occ'; assumption.
  - apply count_occ_not_In. exact I.
Qed.

Lemma dispatched_perm : forall ft n t pats order (P : string -> bool), In ft front_ends -> dispatched pats (names ft n t) order ->
  (forall x, In x (names ft n t) -> hits pats x = if P x then 1%nat else 0%nat) -> Permutation order (filter P (names ft n t)).
Proof.
  intros ft n t pats order P F D H. apply (Permutation_count_occ string_dec). intros x. rewrite (dispatched_count _ _ _ D), count_filter, count_names by exact F.
  destruct (in_dec string_dec x (names ft n t)) as [I|I]; [rewrite (H x I)|]; destruct (P x); lia.
Qed.

(** * The names *)
Inductive is_name (n t : nat) : string -> plugin -> Prop :=
  | n_source : is_name n t "fake_source" FakeCardReader
  | n_data i : (i < n)%nat -> is_name n t ("datahandler_" ++ num i) DataLinkHandler
  | n_sync : is_name n t "timesync_consumer" TimeSyncConsumer
  | n_frag : is_name n t "fragment_consumer" FragmentConsumer
  | n_sw i : (i < n)%nat -> is_name n t ("sw_tp_handler_" ++ num i) DataLinkHandler
  | n_pub i : (i < n)%nat -> is_name n t ("tpset_publisher_" ++ num i) QueueToNetwork
  | n_raw i : (n <= i < n + t)%nat -> is_name n t ("raw_tp_handler_" ++ num i) DataLinkHandler
  | n_err : is_name n t "errored_frame_consumer" ErroredFrameConsumer.

Lemma module_name : forall ft n t d, In d (modules ft n t) -> is_name n t (m_name d) (m_plugin d).
Proof.
  intros ft n t d M. unfold modules in M. rewrite !in_app_iff, !in_map_iff in M. cbn [In] in M.
  repeat match goal with
  | H : _ \/ _ |- _ => destruct H as [H|H]
  | H : exists _, _ |- _ => destruct H as (i & H & I)
  | H : False |- _ => destruct H
  end; subst d; cbn [m_name m_plugin fake_source datahandler sw_tp_handler tpset_publisher raw_tp_handler]; try (constructor; unfold data_idx, tp_idx in *; apply in_seq in I; lia); constructor.
Qed.
Lemma name_module : forall ft n t x p, is_name n t x p -> exists d, In d (modules ft n t) /\ m_name d = x /\ m_plugin d = p.
Proof.
  intros ft n t x p H. unfold modules. destruct H.
  - exists (fake_source ft n t). split; [rewrite !in_app_iff; cbn; tauto|split; reflexivity].
  - exists (datahandler ft i). split; [rewrite !in_app_iff, !in_map_iff; right; left; exists i; split; [reflexivity|apply in_seq; lia]|split; reflexivity].
  - eexists. split; [rewrite !in_app_iff; right; right; left; left; reflexivity|split; reflexivity].
  - eexists. split; [rewrite !in_app_iff; right; right; right; left; left; reflexivity|split; reflexivity].
  - exists (sw_tp_handler i). split; [rewrite !in_app_iff, !in_map_iff; do 4 right; left; exists i; split; [reflexivity|apply in_seq; lia]|split; reflexivity].
  - exists (tpset_publisher i). split; [rewrite !in_app_iff, !in_map_iff; do 5 right; left; exists i; split; [reflexivity|apply in_seq; lia]|split; reflexivity].
  - exists (raw_tp_handler i). split; [rewrite !in_app_iff, !in_map_iff; do 6 right; left; exists i; split; [reflexivity|apply in_seq; lia]|split; reflexivity].
  - eexists. split; [rewrite !in_app_iff; do 7 right; left; reflexivity|split; reflexivity].
Qed.
Lemma in_names : forall ft n t x, In x (names ft n t) <-> exists p, is_name n t x p.
Proof.
  intros ft n t x. unfold names. rewrite in_map_iff. split.
  - intros (d & <- & M). eexists. eapply module_name, M.
  - intros (p & H). destruct (name_module ft n t x p H) as (d & M & E & _). exists d. auto.
Qed.
Lemma is_name_fun : forall n t x p p', is_name n t x p -> is_name n t x p' -> p = p'.
Proof. intros n t x p p' H H'. inversion H; subst; inversion H'; subst; try reflexivity; repeat match goal with E : (_ ++ _)%string = _ |- _ => cbn in E | E : _ = (_ ++ _)%string |- _ => cbn in E end; strs; try discriminate; congruence. Qed.

(** * Who is addressed *)
Ltac ev := repeat match goal with |- context [num ?i] => generalize (num i); intros [|? ?] end; vm_compute; reflexivity.
Lemma hits_start : forall n t x p, is_name n t x p -> hits start_patterns x = 1%nat.
Proof. intros n t x p H. destruct H; ev. Qed.
Lemma hits_stop : forall n t x p, is_name n t x p -> hits stop_patterns x = 1%nat.
Proof. intros n t x p H. destruct H; ev. Qed.
Lemma hits_record : forall n t x p, is_name n t x p -> hits ["datahandler_.*"] x = if prefix "datahandler_" x then 1%nat else 0%nat.
Proof. intros n t x p H. destruct H; ev. Qed.
Lemma hits_scrap : forall x, hits [""] x = 1%nat.
Proof. reflexivity. Qed.

Fixpoint nodot (s : string) : bool := match s with EmptyString => true | String c r => negb (Ascii.eqb c ".") && nodot r end.
Lemma nodot_regex : forall s, nodot s = true -> regex_prefix s = None.
Proof.
  induction s as [|c s IH]; intros H; [reflexivity|]. cbn [nodot] in H. apply andb_prop in H as [H1 H2]. cbn [regex_prefix]. rewrite (IH H2).
  destruct (String.eqb_spec (String c s) ".*") as [E|E]; [|reflexivity]. injection E as -> ->. discriminate.
Qed.
Lemma nodot_digits : forall s, digits s = true -> nodot s = true.
Proof.
  induction s as [|c s IH]; intros H; [reflexivity|]. cbn [digits] in H. apply andb_prop in H as [H1 H2]. cbn [nodot]. rewrite (IH H2), andb_true_r.
  destruct (Ascii.eqb_spec c "."%char) as [->|]; [discriminate H1|reflexivity].
Qed.
Lemma nodot_app : forall a b, nodot a = true -> nodot b = true -> nodot (a ++ b) = true.
Proof. induction a as [|c a IH]; intros b Ha Hb; [exact Hb|]. cbn in *. apply andb_prop in Ha as [H1 H2]. rewrite H1. apply IH; assumption. Qed.

Lemma matches_exact : forall s x, nodot s = true -> s <> "" -> matches s x = String.eqb s x.
Proof. intros s x H N. unfold matches. destruct (String.eqb_spec s "") as [|_]; [contradiction|]. rewrite nodot_regex by exact H. reflexivity. Qed.
Lemma app_inj : forall a x y : string, a ++ x = a ++ y -> x = y.
Proof. induction a as [|c a IH]; intros x y H; [exact H|]. injection H as H. apply IH, H. Qed.
Lemma hits_family : forall pre l i, nodot pre = true -> pre <> "" -> NoDup l ->
  hits (map (fun i => pre ++ num i) l) (pre ++ num i) = if in_dec PeanoNat.Nat.eq_dec i l then 1%nat else 0%nat.
Proof.
  intros pre l i D N. unfold hits. induction l as [|j l IH]; intros ND; [reflexivity|]. inversion ND as [|? ? NI ND']; subst. specialize (IH ND').
  cbn [map filter]. rewrite matches_exact; [|apply nodot_app, nodot_digits, num_digits; exact D|destruct pre; [contradiction|discriminate]].
  destruct (String.eqb_spec (pre ++ num j) (pre ++ num i)) as [E|E].
  - apply app_inj, num_inj in E. subst j. cbn [length]. rewrite IH. destruct (in_dec _ i l); [contradiction|]. destruct (in_dec _ i (i :: l)) as [|Z]; [reflexivity|]. exfalso. apply Z. left. reflexivity.
  - rewrite IH. destruct (in_dec _ i l) as [I|I], (in_dec _ i (j :: l)) as [J|J]; try reflexivity; exfalso; [apply J; right; exact I|].
    destruct J as [->|J]; [apply E; reflexivity|contradiction].
Qed.
Lemma hits_other : forall pre l x, nodot pre = true -> pre <> "" -> (forall i, x <> pre ++ num i) -> hits (map (fun i => pre ++ num i) l) x = 0%nat.
Proof.
  intros pre l x D N H. unfold hits. induction l as [|j l IH]; [reflexivity|].
  cbn [map filter]. rewrite matches_exact; [|apply nodot_app, nodot_digits, num_digits; exact D|destruct pre; [contradiction|discriminate]].
  destruct (String.eqb_spec (pre ++ num j) x) as [E|E]; [exfalso; apply (H j); auto|exact IH].
Qed.
Lemma hits_app : forall a b x, hits (a ++ b)%list x = (hits a x + hits b x)%nat.
Proof. intros. unfold hits. rewrite filter_app, app_length. reflexivity. Qed.
Lemma hits_conf : forall n t x p, is_name n t x p -> hits (conf_patterns n t) x = if is_consumer p then 0%nat else 1%nat.
Proof.
  intros n t x p H. unfold conf_patterns. rewrite !hits_app. destruct H; cbn [is_consumer];
  repeat first [rewrite hits_family; [|reflexivity|discriminate|apply seq_NoDup] | rewrite hits_other; [|reflexivity|discriminate|intros j E; cbn in E; discriminate E]];
  cbn; try match goal with |- context [in_dec ?a ?b ?c] => destruct (in_dec a b c) as [I|I]; [|exfalso; apply I; apply in_seq; lia] end; reflexivity.
Qed.

(** * In which order *)
Lemma before_in : forall {A} (x y : A) l1 l2, In x l1 -> In y l2 -> before x y (l1 ++ l2)%list.
Proof.
  intros A x y l1 l2 H1 H2. apply in_split in H1 as (a & b & ->). apply in_split in H2 as (c & d & ->). exists a, (b ++ c)%list, d.
  rewrite <- !app_assoc. reflexivity.
Qed.
Lemma before_wider : forall {A} (x y : A) l l1 l2, before x y l -> before x y (l1 ++ l ++ l2)%list.
Proof. intros A x y l l1 l2 (a & b & c & ->). exists (l1 ++ a)%list, b, (c ++ l2)%list. rewrite <- !app_assoc. cbn. rewrite <- !app_assoc. reflexivity. Qed.
Lemma before_antisym : forall {A} (x y : A) l, NoDup l -> before x y l -> before y x l -> False.
Proof.
  intros A x y l N (a & b & c & E) (a' & b' & c' & E'). subst l.
  assert (Nx : ~ In x (a ++ b ++ y :: c)) by (apply NoDup_remove_2 in N; exact N).
  assert (P : forall (p q : list A) r s, (p ++ x :: q)%list = (r ++ x :: s)%list -> ~ In x (p ++ q) -> NoDup (r ++ x :: s) -> p = r /\ q = s).
  { induction p as [|u p IH]; intros q r s H M ND.
    - destruct r as [|v r]; [injection H as H; auto|]. injection H as -> H. cbn in M. exfalso. apply M. rewrite H. rewrite in_app_iff. right. left. reflexivity.
    - destruct r as [|v r]; [injection H as -> H; exfalso; apply M; left; reflexivity|]. injection H as -> H. cbn in ND. inversion ND; subst.
      destruct (IH q r s H) as [-> ->]; [intros X; apply M; right; exact X|assumption|auto]. }
  rewrite E' in N. replace (a' ++ y :: b' ++ x :: c')%list with ((a' ++ y :: b') ++ x :: c')%list in * by (rewrite <- app_assoc; reflexivity).
  destruct (P _ _ _ _ E' Nx N) as [Ea Ec]. subst c'. apply NoDup_remove_1 in N. rewrite <- app_assoc in N. cbn [List.app] in N.
  apply NoDup_remove_2 in N. apply N. rewrite !in_app_iff. do 3 right. left. reflexivity.
Qed.

Lemma before_dispatched : forall pats names order p1 p p2 p' p3 x y, dispatched pats names order -> pats = (p1 ++ p :: p2 ++ p' :: p3)%list ->
  In x names -> In y names -> matches p x = true -> matches p' y = true -> before x y order.
Proof.
  intros pats names order p1 p p2 p' p3 x y (groups & F & ->) -> Ix Iy Mx My.
  apply Forall2_app_inv_l in F as (g1 & r1 & _ & F & ->). inversion F as [|? gx ? r2 Px F2]; subst. clear F.
  apply Forall2_app_inv_l in F2 as (g2 & r3 & _ & F & ->). inversion F as [|? gy ? r4 Py F2]; subst. clear F F2.
  rewrite concat_app. cbn [concat]. rewrite concat_app. cbn [concat].
  assert (In x gx) by (apply (Permutation_in x (Permutation_sym Px)), filter_In; auto).
  assert (In y gy) by (apply (Permutation_in y (Permutation_sym Py)), filter_In; auto).
  pose proof (before_wider x y (gx ++ (concat g2 ++ gy))%list (concat g1) (concat r4)) as W. rewrite <- !app_assoc in W. apply W.
  apply before_in; [assumption|]. apply in_or_app. right. assumption.
Qed.

Lemma opens_name : forall ft n t m q w x, opens ft n t m q w x -> In m (names ft n t).
Proof. intros ft n t m q w x (d & us & M & <- & _). apply in_map. exact M. Qed.
Lemma opens_wired : forall ft n t m q w x, In ft front_ends -> opens ft n t m q w x -> wired ft n t m (q, w, x).
Proof.
  intros ft n t m q w x F (d & us & M & <- & U & I). destruct (C63_wiring ft n t d F M) as (us' & E & _ & W). rewrite U in E. injection E as <-. apply W, I.
Qed.

Lemma filter_all : forall {A} (l : list A), filter (fun _ => true) l = l.
Proof. induction l as [|a l IH]; [reflexivity|]. cbn. rewrite IH. reflexivity. Qed.
Lemma stop_perm : forall ft n t order, In ft front_ends -> dispatched stop_patterns (names ft n t) order -> Permutation order (names ft n t).
Proof.
  intros ft n t order F D. rewrite (dispatched_perm ft n t stop_patterns order (fun _ => true) F D).
  - rewrite filter_all. reflexivity.
  - intros x I. apply in_names in I as (p & I). eapply hits_stop, I.
Qed.
Lemma start_perm : forall ft n t order, In ft front_ends -> dispatched start_patterns (names ft n t) order -> Permutation order (names ft n t).
Proof.
  intros ft n t order F D. rewrite (dispatched_perm ft n t start_patterns order (fun _ => true) F D).
  - rewrite filter_all. reflexivity.
  - intros x I. apply in_names in I as (p & I). eapply hits_start, I.
Qed.
Lemma names_NoDup : forall ft n t, In ft front_ends -> NoDup (names ft n t).
Proof. intros ft n t F. exact (proj1 (proj2 (C63_names_distinct ft n t F))). Qed.
Lemma stop_NoDup : forall ft n t order, In ft front_ends -> dispatched stop_patterns (names ft n t) order -> NoDup order.
Proof. intros ft n t order F D. eapply Permutation_NoDup; [symmetry; apply stop_perm; eassumption|]. apply names_NoDup, F. Qed.

Ltac mt := first [reflexivity | ev].
(** Positions among the stop patterns: 0 source, 1 data handlers, 3 time syncs, 4 fragments, 5 and 6 TP handlers, 7 publishers, 8 errors. *)
Ltac ordered k1 k2 D I1 I2 :=
  refine (before_dispatched _ _ _ (firstn k1 stop_patterns) (nth k1 stop_patterns "") (firstn (k2 - k1 - 1) (skipn (S k1) stop_patterns)) (nth k2 stop_patterns "")
    (skipn (S k2) stop_patterns) _ _ D _ I1 I2 _ _); [reflexivity|mt|mt].

Lemma stop_order : forall ft n t order m1 m2 q x1 x2, In ft front_ends -> dispatched stop_patterns (names ft n t) order ->
  opens ft n t m1 q true x1 -> opens ft n t m2 q false x2 ->
  (before m1 m2 order <-> (q = "time_sync_q" -> exists i, m1 = "datahandler_" ++ num i)).
Proof.
  intros ft n t order m1 m2 q x1 x2 F D O1 O2. pose proof (opens_name _ _ _ _ _ _ _ O1) as I1. pose proof (opens_name _ _ _ _ _ _ _ O2) as I2.
  apply opens_wired in O1; [|exact F]. apply opens_wired in O2; [|exact F]. pose proof (stop_NoDup ft n t order F D) as ND.
  assert (NT : forall i, ft ++ "_link_" ++ num i <> "time_sync_q") by (intros i; destruct F as [<-|[<-|[<-|[<-|[]]]]]; cbn; discriminate).
  inversion O1; subst; inversion O2; subst;
    try (exfalso; destruct F as [<-|[<-|[<-|[<-|[]]]]]; cbn in *; discriminate);
    try (exfalso; match goal with H : _ = (_ ++ _)%string |- _ => destruct F as [<-|[<-|[<-|[<-|[]]]]]; cbn in H; discriminate H end);
    try match goal with H : num _ = num _ |- _ => apply num_inj in H; subst end.
  - split; [intros _ E; destruct (NT _ E)|intros _]. ordered 0%nat 1%nat D I1 I2.
  - split; [intros _ E; discriminate E|intros _]. ordered 0%nat 6%nat D I1 I2.
  - split; [intros _ _; eexists; reflexivity|intros _]. ordered 1%nat 3%nat D I1 I2.
  - split; [intros _ E; discriminate E|intros _]. ordered 1%nat 4%nat D I1 I2.
  - split; [intros _ E; discriminate E|intros _]. ordered 1%nat 5%nat D I1 I2.
  - split; [intros _ E; discriminate E|intros _]. ordered 1%nat 7%nat D I1 I2.
  - split; [intros _ E; discriminate E|intros _]. ordered 1%nat 8%nat D I1 I2.
  - split; [intros B _; exfalso; refine (before_antisym _ _ _ ND B _); ordered 3%nat 5%nat D I2 I1|intros X; destruct (X eq_refl) as (j & E); cbn in E; discriminate E].
  - split; [intros B _; exfalso; refine (before_antisym _ _ _ ND B _); ordered 3%nat 6%nat D I2 I1|intros X; destruct (X eq_refl) as (j & E); cbn in E; discriminate E].
Qed.
