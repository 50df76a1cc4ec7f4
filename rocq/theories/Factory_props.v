(** C53 and C62: selection of the front end. *)
From Coq Require Import String Ascii ZArith Lia List Bool.
From Verif Require Import Factory_model Factory_spec.
Import ListNotations.
Open Scope string_scope.

(** * Substrings *)
Lemma prefix_has : forall m s, prefix m s = true -> exists b, s = m ++ b.
Proof.
  induction m as [|c m IH]; intros s H; [exists s; reflexivity|].
  destruct s as [|d s]; [discriminate|]. cbn in H. destruct (ascii_dec c d) as [->|]; [|discriminate].
  destruct (IH s H) as [b ->]. exists b. reflexivity.
Qed.
Lemma prefix_app : forall m b, prefix m (m ++ b) = true.
Proof. induction m as [|c m IH]; intros b; [destruct b; reflexivity|]. cbn. destruct (ascii_dec c c); [apply IH|contradiction]. Qed.
Lemma contains_cons : forall m c s, contains m (String c s) = prefix m (String c s) || contains m s.
Proof.
  intros m c s. unfold contains. destruct m as [|a m].
  - cbn. destruct s; reflexivity.
  - cbn [index]. change (match index 0 (String a m) s with Some n => Some (S n) | None => None end)
      with (match index 0 (String a m) s with Some n => Some (S n) | None => None end).
    destruct (prefix (String a m) (String c s)); [reflexivity|].
    destruct (index 0 (String a m) s); reflexivity.
Qed.
Lemma contains_has : forall m s, contains m s = true <-> has m s.
Proof.
  intros m s. induction s as [|c s IH].
  - split.
    + intros H. destruct m; [exists "", ""; reflexivity|discriminate].
    + intros (a & b & E). destruct a; [|discriminate]. destruct m; [reflexivity|discriminate].
  - rewrite contains_cons. split.
    + intros H. apply orb_prop in H. destruct H as [H|H].
      * destruct (prefix_has m _ H) as [b E]. exists "", b. exact E.
      * apply IH in H. destruct H as (a & b & ->). exists (String c a), b. reflexivity.
    + intros (a & b & E). destruct a as [|d a].
      * cbn in E. rewrite E, prefix_app. reflexivity.
      * injection E as -> ->. replace (contains m (a ++ m ++ b)) with true; [apply orb_true_r|].
        symmetry. apply IH. exists a, b. reflexivity.
Qed.
Lemma contains_not : forall m s, contains m s = false <-> ~ has m s.
Proof.
  intros m s. rewrite <- contains_has. destruct (contains m s); split; intros H; try discriminate; try congruence.
Qed.
Lemma append_assoc_ : forall a b c : string, (a ++ b) ++ c = a ++ (b ++ c).
Proof. induction a as [|x a IH]; intros b c; [reflexivity|]. cbn. rewrite IH. reflexivity. Qed.
Lemma has_trans : forall m m' s, has m m' -> has m' s -> has m s.
Proof.
  intros m m' s (a & b & ->) (a' & b' & ->).
  exists (a' ++ a), (b ++ b'). rewrite !append_assoc_. reflexivity.
Qed.
Lemma contains_trans : forall m m' s, contains m m' = true -> contains m' s = true -> contains m s = true.
Proof. intros m m' s H1 H2. apply contains_has. apply contains_has in H1, H2. exact (has_trans m m' s H1 H2). Qed.

(** * C53 *)
(** The marker of each implementation. A name with "wib2" has no other use of "wib", so "wib2" comes first. *)
Definition marker (r : readout) : string :=
  match r with
  | RWib => "wib" | RWib2 => "wib2" | RPdsQueue => "pds_queue" | RPdsList => "pds_list" | RSwTp => "sw_tp" | RSsp => "ssp"
  | RRawTp => "raw_tp" | RPacman => "pacman"
  end.
Definition order : list string := ["wib2"; "wib"; "pds_queue"; "pds_list"; "sw_tp"; "ssp"; "raw_tp"; "pacman"].

Lemma first_marker_unique : forall ms s m m', NoDup ms -> first_marker ms s m -> first_marker ms s m' -> m = m'.
Proof.
  intros ms s m m' ND (b1 & a1 & E1 & H1 & L1) (b2 & a2 & E2 & H2 & L2). subst ms.
  revert b2 E2 L1 L2 ND. induction b1 as [|x b1 IH]; intros b2 E2 L1 L2 ND.
  - destruct b2 as [|y b2]; cbn in E2; [congruence|]. injection E2 as <- _. exfalso. apply (L2 m); [left; reflexivity|exact H1].
  - destruct b2 as [|y b2]; cbn in E2.
    + injection E2 as <- _. exfalso. apply (L1 x); [left; reflexivity|exact H2].
    + injection E2 as <- E2. apply (IH b2 E2).
      * intros z I. apply L1. right. exact I.
      * intros z I. apply L2. right. exact I.
      * cbn in ND. inversion ND; assumption.
Qed.

(** The implementation chosen for a name is the one whose marker comes first in the order; none iff it has no marker. *)
Theorem C53_choice_of_name : forall i,
  (forall r, readout_of_inst i = Some r <-> first_marker order i (marker r)) /\
  (readout_of_inst i = None <-> lacks order i).
Proof.
  intros i.
  assert (match readout_of_inst i with Some r => first_marker order i (marker r) | None => lacks order i end) as A.
  { unfold readout_of_inst.
    destruct (contains "wib2" i) eqn:C2.
    - assert (contains "wib" i = true) as C1 by (apply (contains_trans "wib" "wib2"); [reflexivity|exact C2]).
      rewrite C1. cbn [andb negb]. exists [], (tl order). split; [reflexivity|]. split; [apply contains_has, C2|]. intros m [].
    - rewrite andb_true_r.
      assert (lacks ["wib2"] i) as L1 by (intros m [<-|[]]; apply contains_not, C2).
      assert (forall ms x, lacks ms i -> contains x i = false -> lacks (ms ++ [x]) i) as LS.
      { intros ms x L C m I. apply in_app_iff in I. destruct I as [I|[<-|[]]]; [apply L, I|apply contains_not, C]. }
      destruct (contains "wib" i) eqn:C1.
      { exists ["wib2"], (skipn 2 order). split; [reflexivity|]. split; [apply contains_has, C1|exact L1]. }
      apply LS with (x := "wib") in L1; [|exact C1].
      destruct (contains "pds_queue" i) eqn:C3.
      { exists (firstn 2 order), (skipn 3 order). split; [reflexivity|]. split; [apply contains_has, C3|exact L1]. }
      apply LS with (x := "pds_queue") in L1; [|exact C3].
      destruct (contains "pds_list" i) eqn:C4.
      { exists (firstn 3 order), (skipn 4 order). split; [reflexivity|]. split; [apply contains_has, C4|exact L1]. }
      apply LS with (x := "pds_list") in L1; [|exact C4].
      destruct (contains "sw_tp" i) eqn:C5.
      { exists (firstn 4 order), (skipn 5 order). split; [reflexivity|]. split; [apply contains_has, C5|exact L1]. }
      apply LS with (x := "sw_tp") in L1; [|exact C5].
      destruct (contains "ssp" i) eqn:C6.
      { exists (firstn 5 order), (skipn 6 order). split; [reflexivity|]. split; [apply contains_has, C6|exact L1]. }
      apply LS with (x := "ssp") in L1; [|exact C6].
      destruct (contains "raw_tp" i) eqn:C7.
      { exists (firstn 6 order), (skipn 7 order). split; [reflexivity|]. split; [apply contains_has, C7|exact L1]. }
      apply LS with (x := "raw_tp") in L1; [|exact C7].
      destruct (contains "pacman" i) eqn:C8.
      { exists (firstn 7 order), (skipn 8 order). split; [reflexivity|]. split; [apply contains_has, C8|exact L1]. }
      apply LS with (x := "pacman") in L1; [|exact C8]. exact L1. }
  assert (NoDup order) as ND.
  { unfold order. repeat constructor; cbn; intuition discriminate. }
  assert (forall m, first_marker order i m -> ~ lacks order i) as NL.
  { intros m (b & a & E & H & _) L. apply (L m); [rewrite E; apply in_app_iff; right; left; reflexivity|exact H]. }
  split.
  - intros r. split.
    + intros E. rewrite E in A. exact A.
    + intros F. destruct (readout_of_inst i) as [r'|].
      * f_equal. assert (marker r' = marker r) as M by exact (first_marker_unique order i _ _ ND A F).
        destruct r, r'; try reflexivity; discriminate.
      * exfalso. exact (NL _ F A).
  - split.
    + intros E. rewrite E in A. exact A.
    + intros L. destruct (readout_of_inst i) as [r|]; [|reflexivity]. exfalso. exact (NL _ A L).
Qed.
Print Assumptions C53_choice_of_name.

(** The module takes the first queue called raw_input whose name has a marker; the other queues, their order and their names
    do not matter. Initialisation fails iff there is no such queue. *)
Theorem C53_choice_of_queue : forall qs,
  (forall r, create_readout qs = Some r <-> exists before q after, qs = before ++ q :: after /\ qname q = "raw_input" /\
     first_marker order (inst q) (marker r) /\ (forall q', In q' before -> qname q' = "raw_input" -> lacks order (inst q')))%list /\
  (create_readout qs = None <-> forall q, In q qs -> qname q = "raw_input" -> lacks order (inst q)).
Proof.
  intros qs. induction qs as [|q qs [IH1 IH2]].
  - cbn. split; [|split; [intros _ q []|reflexivity]]. intros r. split; [discriminate|].
    intros (b & q & a & E & _). destruct b; discriminate.
  - destruct (C53_choice_of_name (inst q)) as [N1 N2]. cbn [create_readout].
    destruct (String.eqb_spec (qname q) "raw_input") as [E|E].
    + destruct (readout_of_inst (inst q)) as [r0|] eqn:EI.
      * pose proof (proj1 (N1 r0) eq_refl) as F. split.
        -- intros r. split.
           ++ intros H. injection H as <-. exists [], q, qs. split; [reflexivity|]. split; [exact E|]. split; [exact F|]. intros q' [].
           ++ intros (b & q1 & a & EQ & Q1 & Q2 & Q3). destruct b as [|x b]; cbn in EQ; injection EQ as <- EQ.
              ** apply N1. exact Q2.
              ** exfalso. pose proof (Q3 q ltac:(left; reflexivity) E) as L. apply N2 in L. discriminate.
        -- split; [discriminate|]. intros L. pose proof (L q ltac:(left; reflexivity) E) as L1. apply N2 in L1. discriminate.
      * pose proof (proj1 N2 eq_refl) as L. split.
        -- intros r. rewrite IH1. split.
           ++ intros (b & q1 & a & -> & Q). exists (q :: b), q1, a. split; [reflexivity|]. destruct Q as (Q1 & Q2 & Q3).
              split; [exact Q1|]. split; [exact Q2|]. intros q' [<-|I] Eq; [exact L|exact (Q3 q' I Eq)].
           ++ intros (b & q1 & a & EQ & Q1 & Q2 & Q3). destruct b as [|x b]; cbn in EQ; injection EQ as <- EQ.
              ** exfalso. apply N1 in Q2. discriminate.
              ** exists b, q1, a. split; [exact EQ|]. split; [exact Q1|]. split; [exact Q2|].
                 intros q' I Eq. apply Q3; [right; exact I|exact Eq].
        -- rewrite IH2. split.
           ++ intros H q' [<-|I] Eq; [exact L|exact (H q' I Eq)].
           ++ intros H q' I Eq. apply H; [right; exact I|exact Eq].
    + split.
      * intros r. rewrite IH1. split.
        -- intros (b & q1 & a & -> & Q). exists (q :: b), q1, a. split; [reflexivity|]. destruct Q as (Q1 & Q2 & Q3).
           split; [exact Q1|]. split; [exact Q2|]. intros q' [<-|I] Eq; [contradiction|exact (Q3 q' I Eq)].
        -- intros (b & q1 & a & EQ & Q1 & Q2 & Q3). destruct b as [|x b]; cbn in EQ; injection EQ as <- EQ; [contradiction|].
           exists b, q1, a. split; [exact EQ|]. split; [exact Q1|]. split; [exact Q2|].
           intros q' I Eq. apply Q3; [right; exact I|exact Eq].
      * rewrite IH2. split.
        -- intros H q' [<-|I] Eq; [contradiction|exact (H q' I Eq)].
        -- intros H q' I Eq. apply H; [right; exact I|exact Eq].
Qed.
Print Assumptions C53_choice_of_queue.

(** A queue of trigger primitives whose name has "wib" in it is read as raw WIB data. *)
Theorem C53_wib_wins : forall i, has "wib" i -> ~ has "wib2" i -> readout_of_inst i = Some RWib.
Proof.
  intros i H N. apply (proj1 (C53_choice_of_name i)). exists ["wib2"], (skipn 2 order).
  split; [reflexivity|]. split; [exact H|]. intros m [<-|[]]. exact N.
Qed.
Print Assumptions C53_wib_wins.

Example C53_ex :
  create_readout [mkQ "timesync" "wib_sync" "output"; mkQ "raw_input" "varsize_0" "input"; mkQ "raw_input" "raw_tp_link_3" "input"] = Some RRawTp
  /\ create_readout [mkQ "raw_input" "wib_sw_tp_1" "input"] = Some RWib
  /\ create_readout [mkQ "raw_input" "pds_link" "input"] = None.
Proof. repeat split; vm_compute; reflexivity. Qed.

(** * C62: both ends of a queue *)
(** The emulator that writes a queue and the readout that reads it choose from the same name. They choose the same element type
    exactly for these names; for every other name for which both ends exist they differ. *)
Theorem C62_same_element_iff : forall i e r, create_emulator i = Some e -> readout_of_inst i = Some r ->
  (emulator_element e = readout_element r <->
   has "wib" i \/ has "pds_queue" i \/ has "pds_list" i \/ (has "raw_tp" i /\ ~ has "pds" i /\ ~ has "sw_tp" i /\ ~ has "ssp" i)).
Proof.
  intros i e r EE ER. rewrite <- !contains_not, <- !contains_has. unfold create_emulator in EE. unfold readout_of_inst in ER.
  pose proof (contains_trans "wib" "wib2" i eq_refl) as T1. pose proof (contains_trans "pds" "pds_queue" i eq_refl) as T2.
  pose proof (contains_trans "pds" "pds_list" i eq_refl) as T3. pose proof (contains_trans "tp" "sw_tp" i eq_refl) as T4.
  pose proof (contains_trans "tp" "raw_tp" i eq_refl) as T5.
  destruct (contains "wib2" i); destruct (contains "wib" i); try (specialize (T1 eq_refl); discriminate); cbn [andb negb] in ER;
  destruct (contains "pds_queue" i); destruct (contains "pds_list" i); destruct (contains "pds" i);
    try (specialize (T2 eq_refl); discriminate); try (specialize (T3 eq_refl); discriminate);
  destruct (contains "sw_tp" i); destruct (contains "raw_tp" i); destruct (contains "tp" i);
    try (specialize (T4 eq_refl); discriminate); try (specialize (T5 eq_refl); discriminate);
  destruct (contains "ssp" i); destruct (contains "pacman" i); cbn in EE, ER;
    try discriminate; injection EE as <-; injection ER as <-; cbn; intuition discriminate.
Qed.
Print Assumptions C62_same_element_iff.

(** No emulator exists for a software trigger primitive queue: the one created writes something else. *)
Theorem C62_sw_tp_mismatch : forall i, readout_of_inst i = Some RSwTp ->
  exists e, create_emulator i = Some e /\ emulator_element e <> readout_element RSwTp.
Proof.
  intros i H. assert (contains "sw_tp" i = true) as C.
  { unfold readout_of_inst in H. destruct (contains "sw_tp" i); [reflexivity|].
    destruct (contains "wib" i && negb (contains "wib2" i)), (contains "wib2" i), (contains "pds_queue" i), (contains "pds_list" i), (contains "ssp" i),
      (contains "raw_tp" i), (contains "pacman" i); discriminate. }
  pose proof (contains_trans "tp" "sw_tp" i eq_refl C) as T. unfold create_emulator. rewrite T.
  destruct (contains "wib2" i); [exists EWib2; split; [reflexivity|discriminate]|].
  destruct (contains "wib" i); [exists EWib; split; [reflexivity|discriminate]|].
  destruct (contains "pds" i); [exists EPds; split; [reflexivity|discriminate]|].
  exists ETp. split; [reflexivity|discriminate].
Qed.
Print Assumptions C62_sw_tp_mismatch.

(** The recorder chooses the element type of the readout of the same name, if there are both, unless the name has "pds" or
    "pacman" together with a marker that comes before it in the order of the readout. *)
Theorem C62_recorder_iff : forall i c r, create_recorder i = Some c -> readout_of_inst i = Some r ->
  (recorder_element c = readout_element r <->
   has "wib" i \/ has "pds_queue" i \/ has "pds_list" i \/ (~ has "pds" i /\ ~ has "sw_tp" i /\ ~ has "ssp" i /\ ~ has "raw_tp" i)).
Proof.
  intros i e r EE ER. rewrite <- !contains_not, <- !contains_has. unfold create_recorder in EE. unfold readout_of_inst in ER.
  pose proof (contains_trans "wib" "wib2" i eq_refl) as T1. pose proof (contains_trans "pds" "pds_queue" i eq_refl) as T2.
  pose proof (contains_trans "pds" "pds_list" i eq_refl) as T3.
  destruct (contains "wib2" i); destruct (contains "wib" i); try (specialize (T1 eq_refl); discriminate); cbn [andb negb] in ER;
  destruct (contains "pds_queue" i); destruct (contains "pds_list" i); destruct (contains "pds" i);
    try (specialize (T2 eq_refl); discriminate); try (specialize (T3 eq_refl); discriminate);
  destruct (contains "sw_tp" i); destruct (contains "raw_tp" i);
  destruct (contains "ssp" i); destruct (contains "pacman" i); cbn in EE, ER;
    try discriminate; injection EE as <-; injection ER as <-; cbn; intuition discriminate.
Qed.
Print Assumptions C62_recorder_iff.

Example C62_ex : create_emulator "raw_tp_link" = Some ETp /\ readout_of_inst "raw_tp_link" = Some RRawTp /\
  create_emulator "sw_tp_link" = Some ETp /\ readout_of_inst "sw_tp_link" = Some RSwTp /\
  create_recorder "pacman_0" = Some CPacman /\ readout_of_inst "pacman_0" = Some RPacman.
Proof. repeat split; vm_compute; reflexivity. Qed.
