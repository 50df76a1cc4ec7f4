(** Properties of generated configurations (C63), for every front-end type the command line accepts and all numbers of links. *)
From Coq Require Import String Ascii ZArith List Bool Lia DecimalString DecimalNat DecimalFacts FinFun.
From Verif Require Import Base_model Factory_model Factory_spec Factory_props Card_model Card_spec Card_props Loops_model Gen_model Gen_spec.
Import ListNotations.
Open Scope string_scope.

(** * Decimal numerals *)
Lemma num_inj : forall i j, num i = num j -> i = j.
Proof.
  unfold num. intros i j H. apply Unsigned.to_uint_inj. pose proof (NilEmpty.usu (Nat.to_uint i)) as A.
  pose proof (NilEmpty.usu (Nat.to_uint j)) as B. rewrite H in A. congruence.
Qed.

Definition digit (c : ascii) : bool := (48 <=? nat_of_ascii c)%nat && (nat_of_ascii c <=? 57)%nat.
Fixpoint digits (s : string) : bool := match s with EmptyString => true | String c r => digit c && digits r end.
Lemma num_digits : forall i, digits (num i) = true.
Proof. intros i. unfold num. induction (Nat.to_uint i); [reflexivity|..]; exact IHu. Qed.
Lemma not_in_digits : forall c p s, digit c = false -> digits s = true -> index 0 (String c p) s = None.
Proof.
  induction s as [|a s IH]; intros C D; [reflexivity|]. cbn in D. apply andb_prop in D as [D1 D2]. cbn [index].
  rewrite (IH C D2). cbn [prefix]. destruct (ascii_dec c a) as [->|]; [congruence|reflexivity].
Qed.
Lemma index_num : forall c p i, digit c = false -> index 0 (String c p) (num i) = None.
Proof. intros. apply not_in_digits; [assumption|apply num_digits]. Qed.
Arguments num : simpl never.

Ltac nums := repeat (first [rewrite index_num by reflexivity | progress cbn]).
Ltac strs := repeat match goal with
  | H : String _ _ = String _ _ |- _ => first [discriminate H | injection H as H]
  | H : num _ = num _ |- _ => apply num_inj in H
  end.

(** * The readout chosen for each handler *)
Lemma link_readout : forall ft i, In ft front_ends -> readout_of_inst (ft ++ "_link_" ++ num i) = Some (expected ft).
Proof. intros ft i [<-|[<-|[<-|[<-|[]]]]]; unfold readout_of_inst, contains; nums; reflexivity. Qed.
Lemma sw_readout : forall i, readout_of_inst ("sw_tp_queue_" ++ num i) = Some RSwTp.
Proof. intros i. unfold readout_of_inst, contains; nums; reflexivity. Qed.
Lemma raw_readout : forall i, readout_of_inst ("raw_tp_link_" ++ num i) = Some RRawTp.
Proof. intros i. unfold readout_of_inst, contains; nums; reflexivity. Qed.
Definition expected_emulator (ft : string) : emulator :=
  if String.eqb ft "wib" then EWib else if String.eqb ft "wib2" then EWib2 else EPds.
Lemma link_emulator : forall ft i, In ft front_ends -> create_emulator (ft ++ "_link_" ++ num i) = Some (expected_emulator ft).
Proof. intros ft i [<-|[<-|[<-|[<-|[]]]]]; unfold create_emulator, contains; nums; reflexivity. Qed.
Lemma raw_emulator : forall i, create_emulator ("raw_tp_link_" ++ num i) = Some ETp.
Proof. intros i. unfold create_emulator, contains; nums; reflexivity. Qed.

(** * What each module opens *)
Lemma card_uses_eq : forall ft n t, In ft front_ends -> card_uses (m_queues (fake_source ft n t)) =
  Some (map (fun i => ((ft ++ "_link_" ++ num i)%string, true, Data (emulator_element (expected_emulator ft)))) (seq 0 n)
        ++ map (fun i => (("raw_tp_link_" ++ num i)%string, true, Data RAW_TP)) (seq n t))%list.
Proof.
  intros ft n t F. unfold card_uses.
  assert (forall l1 l2, outputs (map (fun i => mkQ ("output_" ++ num i)%string (ft ++ "_link_" ++ num i)%string "output") l1
     ++ map (fun i => mkQ ("output_" ++ num i)%string ("raw_tp_link_" ++ num i)%string "output") l2)%list =
     (map (fun i => mkQ ("output_" ++ num i)%string (ft ++ "_link_" ++ num i)%string "output") l1
     ++ map (fun i => mkQ ("output_" ++ num i)%string ("raw_tp_link_" ++ num i)%string "output") l2)%list) as O.
  { intros l1 l2. unfold outputs. rewrite filter_app. f_equal; [induction l1 as [|a l1 IH]|induction l2 as [|a l2 IH]]; [reflexivity|cbn [map filter dir]; rewrite String.eqb_refl; f_equal; exact IH|reflexivity|cbn [map filter dir]; rewrite String.eqb_refl; f_equal; exact IH]. }
  assert (card_init (m_queues (fake_source ft n t)) <> None) as I.
  { intros E. assert (exists c, card_init (m_queues (fake_source ft n t)) = Some c) as (c & C); [|congruence].
    eexists. apply C52_init_iff. cbn [fake_source m_queues]. rewrite O. split; [|split; [|reflexivity]].
    - rewrite map_app, !map_map. cbn [qname]. unfold data_idx, tp_idx. rewrite <- map_app, <- seq_app.
      apply Injective_map_NoDup; [|apply seq_NoDup]. intros i j H. cbn in H. strs. exact H.
    - intros q Q. apply emulator_exists_iff. apply in_app_or in Q as [Q|Q]; apply in_map_iff in Q as (i & <- & _); cbn [inst].
      + rewrite link_emulator by exact F. discriminate.
      + rewrite raw_emulator. discriminate. }
  destruct (card_init (m_queues (fake_source ft n t))); [|congruence]. f_equal. cbn [fake_source m_queues]. rewrite flat_map_app. f_equal.
  - unfold data_idx. induction (seq 0 n) as [|i l IH]; [reflexivity|]. cbn [map flat_map inst dir]. rewrite IH, link_emulator by exact F. reflexivity.
  - unfold tp_idx. induction (seq n t) as [|i l IH]; [reflexivity|]. cbn [map flat_map inst dir]. rewrite IH, raw_emulator. reflexivity.
Qed.

Lemma datahandler_uses : forall ft i, In ft front_ends -> handler_uses (m_queues (datahandler ft i)) =
  Some ([(("data_requests_" ++ num i)%string, false, Request); ("data_fragments_q", true, Frag);
         ((ft ++ "_link_" ++ num i)%string, false, Data (readout_element (expected ft))); ("time_sync_q", true, TimeSync)]
        ++ if String.eqb ft "wib" then [(("sw_tp_queue_" ++ num i)%string, true, Data SW_TP); (("tpset_link_" ++ num i)%string, true, TPSet);
                                        ("errored_frames_q", true, WIBFrame)] else [])%list.
Proof.
  intros ft i F. unfold handler_uses. cbn [datahandler m_queues create_readout qname inst String.eqb Ascii.eqb Bool.eqb].
  rewrite link_readout by exact F. cbn. destruct F as [<-|[<-|[<-|[<-|[]]]]]; reflexivity.
Qed.
Lemma sw_uses : forall i, handler_uses (m_queues (sw_tp_handler i)) =
  Some [(("sw_tp_queue_" ++ num i)%string, false, Data SW_TP); ("time_sync_q", true, TimeSync)].
Proof.
  intros i. unfold handler_uses. cbn [sw_tp_handler m_queues create_readout qname inst String.eqb Ascii.eqb Bool.eqb].
  rewrite sw_readout. reflexivity.
Qed.
Lemma raw_uses : forall i, handler_uses (m_queues (raw_tp_handler i)) =
  Some [(("raw_tp_link_" ++ num i)%string, false, Data RAW_TP); ("time_sync_q", true, TimeSync)].
Proof.
  intros i. unfold handler_uses. cbn [raw_tp_handler m_queues create_readout qname inst String.eqb Ascii.eqb Bool.eqb].
  rewrite raw_readout. reflexivity.
Qed.

Lemma NoDup_app_intro {A} : forall l1 l2 : list A, NoDup l1 -> NoDup l2 -> (forall x, In x l1 -> In x l2 -> False) -> NoDup (l1 ++ l2)%list.
Proof.
  induction l1 as [|a l1 IH]; intros l2 N1 N2 D; [exact N2|]. inversion N1 as [|? ? NI N1']; subst. cbn. constructor.
  - rewrite in_app_iff. intros [I|I]; [contradiction|]. exact (D a (or_introl eq_refl) I).
  - apply IH; [exact N1'|exact N2|]. intros x I. apply D. right. exact I.
Qed.

(** * Theorems *)

(** Every module initialises, and opens exactly the queues of the wiring, each once. *)
Theorem C63_wiring : forall ft n t m, In ft front_ends -> In m (modules ft n t) ->
  exists us, module_uses m = Some us /\ NoDup (map fst us) /\ forall u, In u us <-> wired ft n t (m_name m) u.
Proof.
  intros ft n t m F M.
  assert (readout_element (expected ft) = expected_element ft /\ emulator_element (expected_emulator ft) = expected_element ft) as [E1 E2]
    by (destruct F as [<-|[<-|[<-|[<-|[]]]]]; split; reflexivity).
  unfold modules in M. cbn [app] in M. destruct M as [<-|M].
  { eexists. split; [apply card_uses_eq, F|]. split.
    - rewrite map_app, !map_map. cbn [fst].
      assert (forall l1 l2, NoDup l1 -> NoDup l2 -> NoDup (map (fun x => ((ft ++ "_link_" ++ num x)%string, true)) l1
         ++ map (fun x => (("raw_tp_link_" ++ num x)%string, true)) l2)%list) as ND; [|apply ND; apply seq_NoDup].
      intros l1 l2 N1 N2. apply NoDup_app_intro.
      + apply Injective_map_NoDup; [|exact N1]. intros i j H. injection H as H.
        destruct F as [<-|[<-|[<-|[<-|[]]]]]; cbn in H; strs; exact H.
      + apply Injective_map_NoDup; [|exact N2]. intros i j H. injection H as H. strs. exact H.
      + intros x A B. apply in_map_iff in A as (i & <- & _). apply in_map_iff in B as (j & H & _). injection H as H.
        destruct F as [<-|[<-|[<-|[<-|[]]]]]; cbn in H; discriminate.
    - rewrite E2. intros u. rewrite in_app_iff, !in_map_iff. split.
      + intros [(i & <- & I)|(i & <- & I)]; apply in_seq in I; [apply emulated_link|apply emulated_tp_link]; unfold data_link, tp_link; lia.
      + intros W. inversion W; subst; [left|right]; exists i; (split; [reflexivity|apply in_seq; unfold data_link, tp_link in *; lia]). }
  apply in_app_or in M as [M|M].
  { apply in_map_iff in M as (i & <- & I). apply in_seq in I. eexists. split; [apply datahandler_uses, F|]. rewrite E1. split.
    - destruct F as [<-|[<-|[<-|[<-|[]]]]]; cbn; repeat constructor; cbn; intuition (try discriminate).
    - intros u. split.
      + intros U. apply in_app_or in U as [U|U].
        * cbn [In] in U. destruct U as [<-|[<-|[<-|[<-|[]]]]]; constructor; unfold data_link; lia.
        * destruct (String.eqb_spec ft "wib") as [->|]; [|destruct U]. cbn [In] in U.
          destruct U as [<-|[<-|[<-|[]]]]; constructor; try reflexivity; unfold data_link; lia.
      + intros W. cbn [datahandler m_name] in W. inversion W; subst; strs; subst; try discriminate; rewrite in_app_iff; cbn; tauto. }
  cbn [In] in M. destruct M as [<-|[<-|M]].
  { eexists. split; [reflexivity|]. split; [repeat constructor; intros []|]. intros u. split.
    - intros [<-|[]]. constructor.
    - intros W. inversion W; subst. left. reflexivity. }
  { eexists. split; [reflexivity|]. split; [repeat constructor; intros []|]. intros u. split.
    - intros [<-|[]]. constructor.
    - intros W. inversion W; subst. left. reflexivity. }
  apply in_app_or in M as [M|M].
  { apply in_map_iff in M as (i & <- & I). apply in_seq in I. eexists. split; [apply sw_uses|]. split.
    - cbn. repeat constructor; cbn; intuition (try discriminate).
    - intros u. split.
      + intros [<-|[<-|[]]]; constructor; unfold data_link; lia.
      + intros W. cbn [sw_tp_handler m_name] in W. inversion W; subst; strs; subst; cbn; tauto. }
  apply in_app_or in M as [M|M].
  { apply in_map_iff in M as (i & <- & I). apply in_seq in I. eexists. split; [reflexivity|]. split; [repeat constructor; intros []|].
    intros u. split.
    - intros [<-|[]]. constructor. unfold data_link. lia.
    - intros W. cbn [tpset_publisher m_name] in W. inversion W; subst; strs; subst; cbn; tauto. }
  apply in_app_or in M as [M|M].
  { apply in_map_iff in M as (i & <- & I). apply in_seq in I. eexists. split; [apply raw_uses|]. split.
    - cbn. repeat constructor; cbn; intuition (try discriminate).
    - intros u. split.
      + intros [<-|[<-|[]]]; constructor; unfold tp_link; lia.
      + intros W. cbn [raw_tp_handler m_name] in W. inversion W; subst; strs; subst; cbn; tauto. }
  destruct M as [<-|[]]. eexists. split; [reflexivity|]. split; [repeat constructor; intros []|]. intros u. split.
  - intros [<-|[]]. constructor.
  - intros W. inversion W; subst. left. reflexivity.
Qed.
Print Assumptions C63_wiring.

(** The premises are met by three links and two trigger primitive links. *)
Example C63_wiring_ex : In "wib" front_ends /\ length (modules "wib" 3 2) = 15%nat /\
  module_uses (datahandler "wib" 2) =
    Some [("data_requests_2", false, Request); ("data_fragments_q", true, Frag); ("wib_link_2", false, Data WIB); ("time_sync_q", true, TimeSync);
          ("sw_tp_queue_2", true, Data SW_TP); ("tpset_link_2", true, TPSet); ("errored_frames_q", true, WIBFrame)] /\
  module_uses (fake_source "wib" 3 2) =
    Some [("wib_link_0", true, Data WIB); ("wib_link_1", true, Data WIB); ("wib_link_2", true, Data WIB);
          ("raw_tp_link_3", true, Data RAW_TP); ("raw_tp_link_4", true, Data RAW_TP)].
Proof. repeat split; vm_compute; auto. Qed.

(** All modules that open a queue agree on what is sent through it. *)
Theorem C63_types_agree : forall ft n t m1 m2 us1 us2 q w1 w2 x1 x2, In ft front_ends -> In m1 (modules ft n t) -> In m2 (modules ft n t) ->
  module_uses m1 = Some us1 -> module_uses m2 = Some us2 -> In (q, w1, x1) us1 -> In (q, w2, x2) us2 -> x1 = x2.
Proof.
  intros ft n t m1 m2 us1 us2 q w1 w2 x1 x2 F M1 M2 U1 U2 I1 I2.
  destruct (C63_wiring ft n t m1 F M1) as (us & E & _ & W1). rewrite U1 in E. injection E as <-. apply W1 in I1. clear W1.
  destruct (C63_wiring ft n t m2 F M2) as (us & E & _ & W2). rewrite U2 in E. injection E as <-. apply W2 in I2. clear W2 U1 U2 M1 M2.
  revert I1 I2. generalize (m_name m1) (m_name m2). intros s1 s2 I1 I2.
  destruct F as [<-|[<-|[<-|[<-|[]]]]];
    (inversion I1; subst; try discriminate; inversion I2; subst; try discriminate; try reflexivity; repeat match goal with H : (_ ++ _)%string = _ |- _ => cbn in H | H : _ = (_ ++ _)%string |- _ => cbn in H end; strs).
Qed.
Print Assumptions C63_types_agree.
Example C63_types_agree_ex : In (fake_source "pds_list" 2 1) (modules "pds_list" 2 1) /\ In (datahandler "pds_list" 1) (modules "pds_list" 2 1) /\
  exists us1 us2, module_uses (fake_source "pds_list" 2 1) = Some us1 /\ module_uses (datahandler "pds_list" 1) = Some us2 /\
    In ("pds_list_link_1", true, Data DAPHNE) us1 /\ In ("pds_list_link_1", false, Data DAPHNE) us2.
Proof. split; [cbn; tauto|]. split; [cbn; tauto|]. do 2 eexists. split; [vm_compute; reflexivity|]. split; [vm_compute; reflexivity|]. cbn. tauto. Qed.

(** * Names *)
Lemma map_names_NoDup : forall (f : nat -> string) l, (forall i j, f i = f j -> i = j) -> NoDup l -> NoDup (map f l).
Proof. intros f l I. apply Injective_map_NoDup. exact I. Qed.

Ltac inj := let i := fresh in let j := fresh in let H := fresh in intros i j H; cbn in H; strs; exact H.
Ltac disj := let x := fresh in let A := fresh in let B := fresh in intros x A B;
  rewrite ?in_app_iff, ?in_map_iff in A; rewrite ?in_app_iff, ?in_map_iff in B; cbn in A, B;
  repeat match goal with
    | H : _ \/ _ |- _ => destruct H as [H|H]
    | H : exists _, _ |- _ => destruct H as (? & H & _)
    | H : In _ _ |- _ => apply in_map_iff in H
    | H : False |- _ => destruct H
    end; subst; try discriminate.

(** Queues, modules and the queue entries of a module have different names. *)
Theorem C63_names_distinct : forall ft n t, In ft front_ends ->
  NoDup (map fst (queue_specs ft n t)) /\ NoDup (map m_name (modules ft n t)) /\
  (forall m, In m (modules ft n t) -> NoDup (map qname (m_queues m))).
Proof.
  intros ft n t F. split; [|split].
  - unfold queue_specs. rewrite !map_app, !map_map. cbn [map fst].
    destruct F as [<-|[<-|[<-|[<-|[]]]]];
      repeat (apply NoDup_app_intro); try (apply map_names_NoDup; [inj|apply seq_NoDup]); try (disj; fail);
      repeat constructor; cbn; intuition (try discriminate).
  - unfold modules. rewrite !map_app, !map_map. cbn [map m_name].
    repeat (apply NoDup_app_intro); try (apply map_names_NoDup; [inj|apply seq_NoDup]); try (disj; fail);
      repeat constructor; cbn; intuition (try discriminate).
  - intros m M. unfold modules in M. rewrite !in_app_iff, !in_map_iff in M. cbn [In] in M.
    repeat match goal with
    | H : _ \/ _ |- _ => destruct H as [H|H]
    | H : exists _, _ |- _ => destruct H as (? & H & _)
    | H : False |- _ => destruct H
    end; subst m; try (cbn; repeat constructor; cbn; intuition (try discriminate); fail).
    cbn [fake_source m_queues]. rewrite map_app, !map_map. cbn [qname]. unfold data_idx, tp_idx. rewrite <- map_app, <- seq_app.
    apply map_names_NoDup; [inj|apply seq_NoDup].
Qed.
Print Assumptions C63_names_distinct.
Example C63_names_distinct_ex : map fst (queue_specs "wib2" 2 1) =
  ["time_sync_q"; "data_fragments_q"; "errored_frames_q"; "data_requests_0"; "data_requests_1"; "wib2_link_0"; "wib2_link_1"; "raw_tp_link_2";
   "sw_tp_queue_0"; "sw_tp_queue_1"; "tp_data_requests"; "tpset_link_0"; "tpset_link_1"].
Proof. reflexivity. Qed.

(** Every queue a module names is declared, and the declared direction is the one in which it is used. *)
Theorem C63_declared : forall ft n t m, In ft front_ends -> In m (modules ft n t) ->
  (forall e, In e (m_queues m) -> In (inst e) (map fst (queue_specs ft n t))) /\
  (forall us q w x, module_uses m = Some us -> In (q, w, x) us ->
     exists e, In e (m_queues m) /\ inst e = q /\ dir e = if w then "output" else "input").
Proof.
  intros ft n t m F M. split.
  - intros e E. unfold modules in M. rewrite !in_app_iff, !in_map_iff in M. cbn [In] in M. unfold queue_specs. rewrite !map_app, !map_map. cbn [map fst]. rewrite !in_app_iff, !in_map_iff.
    repeat match goal with
    | H : _ \/ _ |- _ => destruct H as [H|H]
    | H : exists _, _ |- _ => destruct H as (i & H & I)
    | H : False |- _ => destruct H
    end; subst m; cbn [m_queues fake_source datahandler sw_tp_handler tpset_publisher raw_tp_handler In] in E;
    try (repeat match goal with H : _ \/ _ |- _ => destruct H as [H|H] | H : False |- _ => destruct H end; subst e; cbn [inst];
         first [left; cbn; tauto | right; left; eexists; split; [reflexivity|exact I] | do 2 right; left; eexists; split; [reflexivity|exact I]
          | do 3 right; left; eexists; split; [reflexivity|exact I] | do 4 right; left; eexists; split; [reflexivity|exact I]
          | do 5 right; left; left; reflexivity | do 6 right; eexists; split; [reflexivity|exact I]]; fail).
    apply in_app_or in E as [E|E]; apply in_map_iff in E as (i & <- & I); cbn [inst].
    + do 2 right; left; exists i; split; [reflexivity|exact I].
    + do 3 right; left; exists i; split; [reflexivity|exact I].
  - intros us q w x U I. destruct (C63_wiring ft n t m F M) as (us' & E & _ & W). rewrite U in E. injection E as <-. apply W in I. clear W U us.
    unfold modules in M. rewrite !in_app_iff, !in_map_iff in M. cbn [In] in M.
    repeat match goal with
    | H : _ \/ _ |- _ => destruct H as [H|H]
    | H : exists _, _ |- _ => destruct H as (? & H & _)
    | H : False |- _ => destruct H
    end; subst m; cbn [m_name m_queues fake_source datahandler sw_tp_handler tpset_publisher raw_tp_handler] in *;
    inversion I; subst; strs; subst;
    try (eexists; split; [cbn [In]; (left; reflexivity) + (right; left; reflexivity) + (do 2 right; left; reflexivity) + (do 3 right; left; reflexivity)
      + (do 4 right; left; reflexivity) + (do 5 right; left; reflexivity) + (do 6 right; left; reflexivity)|]; split; reflexivity).
    + exists (mkQ ("output_" ++ num i) (ft ++ "_link_" ++ num i) "output"). split; [|split; reflexivity].
      apply in_or_app. left. apply in_map_iff. exists i. split; [reflexivity|]. apply in_seq. unfold data_link in *. lia.
    + exists (mkQ ("output_" ++ num i) ("raw_tp_link_" ++ num i) "output"). split; [|split; reflexivity].
      apply in_or_app. right. apply in_map_iff. exists i. split; [reflexivity|]. apply in_seq. unfold tp_link in *. lia.
Qed.
Print Assumptions C63_declared.
Example C63_declared_ex : In (tpset_publisher 1) (modules "wib" 2 0) /\ m_queues (tpset_publisher 1) = [mkQ "input" "tpset_link_1" "input"] /\
  In ("tpset_link_1", SPSC) (queue_specs "wib" 2 0).
Proof. cbn. tauto. Qed.

(** No single-producer single-consumer queue has two writers or two readers. *)
Theorem C63_spsc : forall ft n t m1 m2 us1 us2 q w x1 x2, In ft front_ends -> In m1 (modules ft n t) -> In m2 (modules ft n t) ->
  module_uses m1 = Some us1 -> module_uses m2 = Some us2 -> In (q, w, x1) us1 -> In (q, w, x2) us2 -> In (q, SPSC) (queue_specs ft n t) ->
  m_name m1 = m_name m2 /\ NoDup (map fst us1).
Proof.
  intros ft n t m1 m2 us1 us2 q w x1 x2 F M1 M2 U1 U2 I1 I2 S.
  destruct (C63_wiring ft n t m1 F M1) as (us & E & ND & W1). rewrite U1 in E. injection E as <-. apply W1 in I1. clear W1.
  destruct (C63_wiring ft n t m2 F M2) as (us & E & _ & W2). rewrite U2 in E. injection E as <-. apply W2 in I2. clear W2 U1 U2 M1 M2.
  split; [|exact ND]. clear ND. assert (q <> "time_sync_q" /\ q <> "data_fragments_q" /\ q <> "errored_frames_q") as (N1 & N2 & N3).
  { unfold queue_specs in S. rewrite !in_app_iff, !in_map_iff in S. cbn [In] in S.
    destruct F as [<-|[<-|[<-|[<-|[]]]]];
    repeat match goal with
    | H : _ \/ _ |- _ => destruct H as [H|H]
    | H : exists _, _ |- _ => destruct H as (? & H & _)
    | H : False |- _ => destruct H
    end; inversion S; subst; repeat split; discriminate. }
  revert I1 I2. generalize (m_name m1) (m_name m2). intros s1 s2 I1 I2.
  destruct F as [<-|[<-|[<-|[<-|[]]]]];
    (inversion I1; subst; try discriminate; try congruence; inversion I2; subst; try discriminate; try reflexivity;
     repeat match goal with H : (_ ++ _)%string = _ |- _ => cbn in H | H : _ = (_ ++ _)%string |- _ => cbn in H end; strs; subst; reflexivity).
Qed.
Print Assumptions C63_spsc.
Example C63_spsc_ex : In ("sw_tp_queue_1", SPSC) (queue_specs "wib" 2 1) /\
  exists us1 us2, module_uses (datahandler "wib" 1) = Some us1 /\ module_uses (sw_tp_handler 1) = Some us2 /\
    In ("sw_tp_queue_1", true, Data SW_TP) us1 /\ In ("sw_tp_queue_1", false, Data SW_TP) us2.
Proof. split; [cbn; tauto|]. do 2 eexists. split; [vm_compute; reflexivity|]. split; [vm_compute; reflexivity|]. cbn. tauto. Qed.

(** The generated conf command is accepted by the fake card if both files can be read; every data link then replays the data file and every
    trigger primitive link the trigger primitive file. *)
Theorem C63_source_configured : forall ft n t d p, In ft front_ends ->
  exists c c', card_init (m_queues (fake_source ft n t)) = Some c /\ do_conf (fake_conf n t (Some d) (Some p)) c = Ok (Done, c') /\
    (forall i, (i < n)%nat -> configured c' ("output_" ++ num i) /\ file c' ("output_" ++ num i) = Some d) /\
    (forall i, (n <= i < n + t)%nat -> configured c' ("output_" ++ num i) /\ file c' ("output_" ++ num i) = Some p) /\
    length (queues c') = (n + t)%nat.
Proof.
  intros ft n t d p F. pose proof (card_uses_eq ft n t F) as U. unfold card_uses in U.
  destruct (card_init (m_queues (fake_source ft n t))) as [c|] eqn:E; [|discriminate]. clear U.
  pose proof E as E'. apply C52_init_iff in E' as (ND & _ & Ec).
  assert (outputs (m_queues (fake_source ft n t)) = m_queues (fake_source ft n t)) as O.
  { unfold outputs. cbn [fake_source m_queues]. rewrite filter_app.
    f_equal; [induction (data_idx n) as [|a l1 IH]|induction (tp_idx n t) as [|a l2 IH]];
      [reflexivity|cbn [map filter dir]; rewrite String.eqb_refl; f_equal; exact IH
      |reflexivity|cbn [map filter dir]; rewrite String.eqb_refl; f_equal; exact IH]. }
  rewrite O in *. 
  assert (queues c = map (fun i => "output_" ++ num i)%string (seq 0 (n + t))) as Q.
  { rewrite Ec. unfold queues. cbn [c_emus]. rewrite map_map. cbn [fst fake_source m_queues]. rewrite map_app, !map_map. cbn [qname].
    unfold data_idx, tp_idx. rewrite <- map_app, <- seq_app. reflexivity. }
  assert (map fst (as_links (fake_conf n t (Some d) (Some p))) = queues c) as L.
  { rewrite Q. unfold as_links, fake_conf. rewrite !map_app, !map_map. cbn [fst l_queue].
    unfold data_idx, tp_idx. rewrite <- map_app, <- seq_app. reflexivity. }
  assert (NoDup (queues c)) as NDQ by (rewrite Q; apply map_names_NoDup; [inj|apply seq_NoDup]).
  assert (c_conf c = false) as CC by (rewrite Ec; reflexivity). assert (c_run c = false) as CR by (rewrite Ec; reflexivity).
  assert (forall q, ~ configured c q) as NC.
  { rewrite Ec. intros q (e & I & C). cbn [c_emus] in I. apply in_map_iff in I as (x & I & _). injection I as _ <-. discriminate. }
  destruct (C52_conf_iff c (fake_conf n t (Some d) (Some p)) NDQ CC CR) as [_ A].
  destruct A as (c' & R).
  { split; [split|].
    - rewrite L. exact NDQ.
    - intros q f I. split; [rewrite <- L; apply (in_map fst) in I; exact I|]. split; [apply NC|].
      unfold as_links, fake_conf in I. rewrite map_app, !map_map in I. cbn [l_queue l_file] in I.
      apply in_app_or in I as [I|I]; apply in_map_iff in I as (i & I & _); injection I as _ <-; discriminate.
    - intros q I. right. rewrite L. exact I. }
  exists c, c'. split; [reflexivity|]. split; [exact R|].
  destruct (C52_conf_effect c (fake_conf n t (Some d) (Some p)) NDQ CC CR) as (o & c2 & ls1 & ls2 & R2 & N' & _ & _ & EL & _ & CI & M).
  rewrite R in R2. injection R2 as <- <-. destruct M as (-> & CA & FA). rewrite List.app_nil_r in EL. rewrite <- EL in *.
  split; [|split].
  - intros i I. split.
    + apply CA. rewrite Q. apply in_map_iff. exists i. split; [reflexivity|]. apply in_seq. lia.
    + apply FA. unfold as_links, fake_conf. rewrite map_app, !map_map. cbn [l_queue l_file]. apply in_or_app. left. apply in_map_iff.
      exists i. split; [reflexivity|]. apply in_seq. lia.
  - intros i I. split.
    + apply CA. rewrite Q. apply in_map_iff. exists i. split; [reflexivity|]. apply in_seq. lia.
    + apply FA. unfold as_links, fake_conf. rewrite map_app, !map_map. cbn [l_queue l_file]. apply in_or_app. right. apply in_map_iff.
      exists i. split; [reflexivity|]. apply in_seq. lia.
  - rewrite N', Q, map_length, seq_length. reflexivity.
Qed.
Print Assumptions C63_source_configured.
Example C63_source_configured_ex : forall d p,
  match card_init (m_queues (fake_source "wib" 2 1)) with
  | Some c => match do_conf (fake_conf 2 1 (Some d) (Some p)) c with
              | Ok (o, c') => o = Done /\ file c' "output_1" = Some d /\ file c' "output_2" = Some p
              | Crash => False
              end
  | None => False
  end.
Proof. intros. vm_compute. repeat split. Qed.

(** Every data handler gets the implementation of the chosen front end, which serves one request queue. *)
Theorem C63_handler_kinds : forall ft i, In ft front_ends ->
  create_readout (m_queues (datahandler ft i)) = Some (expected ft) /\ request_pairs (m_queues (datahandler ft i)) = Some 1%nat /\
  create_readout (m_queues (sw_tp_handler i)) = Some RSwTp /\ create_readout (m_queues (raw_tp_handler i)) = Some RRawTp.
Proof.
  intros ft i F. split; [|split; [reflexivity|split]].
  - cbn [datahandler m_queues create_readout qname inst String.eqb Ascii.eqb Bool.eqb]. rewrite link_readout by exact F. reflexivity.
  - cbn [sw_tp_handler m_queues create_readout qname inst String.eqb Ascii.eqb Bool.eqb]. rewrite sw_readout. reflexivity.
  - cbn [raw_tp_handler m_queues create_readout qname inst String.eqb Ascii.eqb Bool.eqb]. rewrite raw_readout. reflexivity.
Qed.
Print Assumptions C63_handler_kinds.
Example C63_handler_kinds_ex : create_readout (m_queues (datahandler "pds_queue" 7)) = Some RPdsQueue.
Proof. reflexivity. Qed.

(** The trigger primitive handlers serve no requests, and nothing reads tp_data_requests although n modules list this single-consumer queue
    as an input. *)
Theorem C63_tp_requests_unserved : forall ft n t, In ft front_ends ->
  In ("tp_data_requests", SPSC) (queue_specs ft n t) /\
  (forall i, (i < n)%nat -> In (mkQ "requests" "tp_data_requests" "input") (m_queues (sw_tp_handler i))) /\
  (forall m us w x, In m (modules ft n t) -> module_uses m = Some us -> ~ In ("tp_data_requests", w, x) us) /\
  (forall i, request_pairs (m_queues (sw_tp_handler i)) = Some 0%nat /\ request_pairs (m_queues (raw_tp_handler i)) = Some 0%nat).
Proof.
  intros ft n t F. split; [|split; [|split]].
  - unfold queue_specs. rewrite !in_app_iff. cbn [In]. tauto.
  - intros i _. cbn. tauto.
  - intros m us w x M U I. destruct (C63_wiring ft n t m F M) as (us' & E & _ & W). rewrite U in E. injection E as <-. apply W in I.
    revert I. generalize (m_name m). intros s I. destruct F as [<-|[<-|[<-|[<-|[]]]]]; inversion I.
  - intros i. split; reflexivity.
Qed.
Print Assumptions C63_tp_requests_unserved.
Example C63_tp_requests_unserved_ex : filter (fun q => String.eqb (inst q) "tp_data_requests") (flat_map m_queues (modules "wib" 2 1)) =
  [mkQ "requests" "tp_data_requests" "input"; mkQ "requests" "tp_data_requests" "input"].
Proof. reflexivity. Qed.

(** Two handlers with raw recording enabled never share a file; exactly the data handlers have it enabled. *)
Theorem C63_recording_files : forall n t m1 m2 f1 f2, In (m1, f1, true) (recording n t) -> In (m2, f2, true) (recording n t) ->
  (f1 = f2 <-> m1 = m2) /\ exists i, (i < n)%nat /\ m1 = "datahandler_" ++ num i.
Proof.
  intros n t m1 m2 f1 f2 I1 I2.
  assert (forall m f, In (m, f, true) (recording n t) -> exists i, (i < n)%nat /\ m = ("datahandler_" ++ num i)%string /\ f = ("output_" ++ num i ++ ".out")%string) as A.
  { intros m f I. unfold recording in I. rewrite !in_app_iff, !in_map_iff in I. destruct I as [(i & E & I)|[(i & E & I)|(i & E & I)]]; try discriminate.
    injection E as <- <-. exists i. apply in_seq in I. split; [lia|]. split; reflexivity. }
  apply A in I1 as (i & Li & -> & ->). apply A in I2 as (j & Lj & -> & ->). split.
  - split; intros H.
    + f_equal. cbn in H. injection H as H. revert H. generalize (num i) (num j). clear. intros a.
      induction a as [|x a IH]; intros [|y b] H; cbn in H; try reflexivity.
      * injection H as _ H. destruct b as [|? [|? [|? [|? b]]]]; cbn in H; discriminate.
      * injection H as _ H. destruct a as [|? [|? [|? [|? a]]]]; cbn in H; discriminate.
      * injection H as -> H. f_equal. apply IH, H.
    + cbn in H. strs. subst. reflexivity.
  - exists i. split; [exact Li|reflexivity].
Qed.
Print Assumptions C63_recording_files.
Example C63_recording_files_ex : filter snd (recording 2 1) = [("datahandler_0", "output_0.out", true); ("datahandler_1", "output_1.out", true)].
Proof. reflexivity. Qed.
