(** C52: configuration of the fake card. *)
From Coq Require Import String ZArith Lia List Bool ListDec.
From Verif Require Import Base_model Factory_model Factory_spec Factory_props Card_model Card_spec.
Import ListNotations.
Open Scope string_scope.

(** Observations. *)
Definition queues (c : card) : list string := map fst (c_emus c).
Definition conf_in (l : list (string * emu)) (q : string) : Prop := exists e, In (q, e) l /\ e_conf e = true.
Definition configured (c : card) (q : string) : Prop := conf_in (c_emus c) q.
Definition file_in (l : list (string * emu)) (q : string) : option (list Z) := match lookup q l with Some e => e_data e | None => None end.
Definition file (c : card) (q : string) : option (list Z) := file_in (c_emus c) q.
Definition as_links (ls : list link) : links := map (fun k => (l_queue k, l_file k)) ls.

(** * Association lists *)
Lemma lookup_in : forall q l e, lookup q l = Some e -> In (q, e) l.
Proof.
  induction l as [|[k x] l IH]; intros e H; [discriminate|]. cbn in H. destruct (String.eqb_spec q k) as [->|].
  - injection H as ->. left. reflexivity.
  - right. apply IH, H.
Qed.
Lemma in_lookup : forall q l e, NoDup (map fst l) -> In (q, e) l -> lookup q l = Some e.
Proof.
  induction l as [|[k x] l IH]; intros e ND I; [destruct I|]. cbn in ND. inversion ND as [|? ? NI ND']; subst. cbn.
  destruct I as [E|I].
  - injection E as -> ->. rewrite String.eqb_refl. reflexivity.
  - destruct (String.eqb_spec q k) as [->|].
    + exfalso. apply NI. apply (in_map fst) in I. exact I.
    + apply IH; assumption.
Qed.
Lemma lookup_none : forall q l, lookup q l = None <-> ~ In q (map fst l).
Proof.
  induction l as [|[k x] l IH]; cbn; [tauto|]. destruct (String.eqb_spec q k) as [->|N].
  - split; [discriminate|]. intros H. exfalso. apply H. left. reflexivity.
  - rewrite IH. split; [intros H [E|I]; [congruence|contradiction]|tauto].
Qed.
Lemma update_names : forall n f l, map fst (update n f l) = map fst l.
Proof. induction l as [|[k e] l IH]; [reflexivity|]. cbn. destruct (String.eqb n k); cbn; [reflexivity|rewrite IH; reflexivity]. Qed.
Lemma lookup_update : forall n f q l,
  lookup q (update n f l) = if String.eqb q n then match lookup n l with Some e => Some (f e) | None => None end else lookup q l.
Proof.
  induction l as [|[k e] l IH]; cbn.
  - destruct (String.eqb q n); reflexivity.
  - destruct (String.eqb_spec n k) as [->|N]; cbn.
    + destruct (String.eqb_spec q k) as [->|]; reflexivity.
    + rewrite IH. destruct (String.eqb_spec q k) as [->|].
      * destruct (String.eqb_spec k n) as [->|]; [congruence|reflexivity].
      * reflexivity.
Qed.
Lemma conf_in_lookup : forall l q, NoDup (map fst l) -> (conf_in l q <-> exists e, lookup q l = Some e /\ e_conf e = true).
Proof.
  intros l q ND. split; intros (e & I & C); exists e; split; try exact C; [apply in_lookup; assumption|apply lookup_in, I].
Qed.

(** * Initialisation *)
Definition outputs (qs : list qinfo) : list qinfo := filter (fun q => String.eqb (dir q) "output") qs.

Lemma emulator_exists_iff : forall i, create_emulator i <> None <-> has "wib" i \/ has "pds" i \/ has "tp" i.
Proof.
  intros i. rewrite <- !contains_has. unfold create_emulator. pose proof (contains_trans "wib" "wib2" i eq_refl) as T.
  destruct (contains "wib2" i), (contains "wib" i), (contains "pds" i), (contains "tp" i); try (specialize (T eq_refl); discriminate);
    intuition congruence.
Qed.

Lemma init_emus_ok : forall qs l, NoDup (map fst l) ->
  init_emus qs l = if (if ListDec.NoDup_dec string_dec (map fst l ++ map qname (outputs qs))%list then true else false)
                      && forallb (fun q => match create_emulator (inst q) with Some _ => true | None => false end) (outputs qs)
                   then Some (l ++ map (fun q => (qname q, new_emu)) (outputs qs))%list else None.
Proof.
  induction qs as [|q qs IH]; intros l ND.
  - cbn. rewrite app_nil_r. destruct (ListDec.NoDup_dec string_dec (map fst l)); [|contradiction]. cbn. rewrite app_nil_r. reflexivity.
  - cbn [init_emus outputs filter]. destruct (String.eqb (dir q) "output"); cbn [negb]; [|apply IH, ND].
    fold (outputs qs). cbn [map forallb]. destruct (lookup (qname q) l) eqn:L.
    + destruct (ListDec.NoDup_dec string_dec (map fst l ++ qname q :: map qname (outputs qs))%list) as [ND2|]; [|reflexivity].
      exfalso. apply NoDup_remove_2 in ND2. apply ND2. apply in_app_iff. left. apply lookup_in in L. apply (in_map fst) in L. exact L.
    + apply lookup_none in L. destruct (create_emulator (inst q)).
      * assert (NoDup (map fst (l ++ [(qname q, new_emu)]))) as ND1.
        { rewrite map_app. cbn. apply NoDup_Add with (a := qname q) (l := map fst l); [|split; assumption].
          rewrite <- (app_nil_r (map fst l)) at 1. apply Add_app. }
        rewrite IH by exact ND1. rewrite map_app, <- !app_assoc. cbn [map fst app andb]. reflexivity.
      * cbn. rewrite andb_false_r. reflexivity.
Qed.

(** The module comes up iff its output queues have distinct names and each instance name has "wib", "pds" or "tp" in it. *)
Theorem C52_init_iff : forall qs c, card_init qs = Some c <->
  NoDup (map qname (outputs qs)) /\ (forall q, In q (outputs qs) -> has "wib" (inst q) \/ has "pds" (inst q) \/ has "tp" (inst q)) /\
  c = mkCard (map (fun q => (qname q, new_emu)) (outputs qs)) false false.
Proof.
  intros qs c. unfold card_init. rewrite init_emus_ok by constructor. cbn [map app].
  destruct (ListDec.NoDup_dec string_dec (map qname (outputs qs))) as [ND|ND]; cbn [andb].
  - destruct (forallb _ (outputs qs)) eqn:F.
    + rewrite forallb_forall in F. split.
      * intros E. injection E as <-. split; [exact ND|]. split; [|reflexivity]. intros q I. apply emulator_exists_iff.
        specialize (F q I). destruct (create_emulator (inst q)); [discriminate|discriminate F].
      * intros (_ & _ & ->). reflexivity.
    + split; [discriminate|]. intros (_ & H & _). exfalso. apply not_true_iff_false in F. apply F. apply forallb_forall.
      intros q I. specialize (H q I). apply emulator_exists_iff in H. destruct (create_emulator (inst q)); [reflexivity|contradiction].
  - split; [discriminate|]. intros (H & _). contradiction.
Qed.
Print Assumptions C52_init_iff.

(** * Configuration *)
Lemma conf_links_effect : forall ls l, NoDup (map fst l) -> exists o l' ls1 ls2, conf_links false ls l = Ok (o, l') /\
  map fst l' = map fst l /\ as_links ls = (ls1 ++ ls2)%list /\ acceptable (map fst l) (conf_in l) ls1 /\
  (forall q, conf_in l' q <-> conf_in l q \/ In q (map fst ls1)) /\
  match o with
  | Done => ls2 = [] /\ files_after (file_in l) ls1 (file_in l')
  | Unknown_queue q => (exists f r, ls2 = (q, f) :: r) /\ ~ In q (map fst l) /\ files_after (file_in l) ls1 (file_in l')
  | Configured_twice q => (exists f r, ls2 = (q, f) :: r) /\ In q (map fst l) /\ conf_in l' q /\ files_after (file_in l) ls1 (file_in l')
  | Unreadable q => (exists r, ls2 = (q, None) :: r) /\ In q (map fst l) /\ ~ conf_in l' q /\
                    files_after (file_in l) (ls1 ++ [(q, Some [])])%list (file_in l')
  | Not_all_configured => False
  end.
Proof.
  induction ls as [|k ls IH]; intros l ND.
  - exists Done, l, [], []. split; [reflexivity|]. split; [reflexivity|]. split; [reflexivity|].
    split; [split; [constructor|intros q f []]|]. split; [intros q; cbn; tauto|]. split; [reflexivity|].
    intros q. split; [intros f []|reflexivity].
  - cbn [conf_links as_links map]. fold (as_links ls). destruct (lookup (l_queue k) l) as [e|] eqn:L.
    2:{ apply lookup_none in L. exists (Unknown_queue (l_queue k)), l, [], ((l_queue k, l_file k) :: as_links ls).
        split; [reflexivity|]. split; [reflexivity|]. split; [reflexivity|].
        split; [split; [constructor|intros q f []]|]. split; [intros q; cbn; tauto|].
        split; [eexists; eexists; reflexivity|]. split; [exact L|]. intros q. split; [intros f []|reflexivity]. }
    assert (In (l_queue k) (map fst l)) as IK by (apply lookup_in in L; apply (in_map fst) in L; exact L).
    destruct (e_conf e) eqn:EC.
    { exists (Configured_twice (l_queue k)), l, [], ((l_queue k, l_file k) :: as_links ls).
      split; [reflexivity|]. split; [reflexivity|]. split; [reflexivity|].
      split; [split; [constructor|intros q f []]|]. split; [intros q; cbn; tauto|].
      split; [eexists; eexists; reflexivity|]. split; [exact IK|]. split; [exists e; split; [apply lookup_in, L|exact EC]|].
      intros q. split; [intros f []|reflexivity]. }
    assert (~ conf_in l (l_queue k)) as NC.
    { rewrite conf_in_lookup by exact ND. intros (e' & L' & C'). congruence. }
    destruct (l_file k) as [bytes|] eqn:LF.
    + remember (update (l_queue k) (fun _ => mkEmu true (Some bytes)) l) as l1 eqn:E1.
      assert (NoDup (map fst l1)) as ND1 by (subst l1; rewrite update_names; exact ND).
      assert (map fst l1 = map fst l) as EN by (subst l1; apply update_names).
      assert (forall q, conf_in l1 q <-> conf_in l q \/ q = l_queue k) as CI1.
      { intros q. rewrite !conf_in_lookup by assumption. subst l1. setoid_rewrite lookup_update. rewrite L.
        destruct (String.eqb_spec q (l_queue k)) as [->|N].
        - split; [intros _; right; reflexivity|intros _; eexists; split; [reflexivity|reflexivity]].
        - intuition. }
      assert (forall q, file_in l1 q = if String.eqb q (l_queue k) then Some bytes else file_in l q) as FI1.
      { intros q. unfold file_in. subst l1. rewrite lookup_update, L. destruct (String.eqb q (l_queue k)); reflexivity. }
      destruct (IH l1 ND1) as (o & l' & ls1 & ls2 & R & N' & E & (A1 & A2) & CI & M).
      assert (~ In (l_queue k) (map fst ls1)) as NI.
      { intros I. apply in_map_iff in I. destruct I as ([q f] & Eq & I). cbn in Eq. subst q.
        destruct (A2 _ _ I) as (_ & A & _). apply A. apply CI1. right. reflexivity. }
      assert (forall X, (~ In (l_queue k) (map fst X)) -> files_after (file_in l1) X (file_in l') ->
                files_after (file_in l) ((l_queue k, Some bytes) :: X) (file_in l')) as FA.
      { intros X NX F q. destruct (F q) as [F1 F2]. split.
        - intros f [Eq|I]; [|apply F1, I]. injection Eq as <- <-. rewrite F2 by exact NX. rewrite FI1, String.eqb_refl. reflexivity.
        - cbn. intros NQ. rewrite F2 by tauto. rewrite FI1. destruct (String.eqb_spec q (l_queue k)) as [->|]; [exfalso; tauto|reflexivity]. }
      exists o, l', ((l_queue k, Some bytes) :: ls1), ls2. split; [exact R|]. split; [congruence|].
      split; [rewrite E; reflexivity|]. split.
      { split.
        - cbn. constructor; assumption.
        - intros q f [Eq|I].
          + injection Eq as <- <-. split; [exact IK|]. split; [exact NC|discriminate].
          + destruct (A2 q f I) as (B1 & B2 & B3). split; [rewrite <- EN; exact B1|]. split; [|exact B3].
            intros C. apply B2. apply CI1. left. exact C. }
      split.
      { intros q. rewrite CI, CI1. cbn. intuition. }
      destruct o.
      * destruct M as [M1 M2]. split; [exact M1|]. apply FA; assumption.
      * destruct M as (M1 & M2 & M3). split; [exact M1|]. split; [rewrite <- EN; exact M2|]. apply FA; assumption.
      * destruct M as (M1 & M2 & M3 & M4). split; [exact M1|]. split; [rewrite <- EN; exact M2|]. split; [exact M3|]. apply FA; assumption.
      * destruct M as (M1 & M2 & M3 & M4). split; [exact M1|]. split; [rewrite <- EN; exact M2|]. split; [exact M3|].
        apply (FA (ls1 ++ [(n, Some [])])%list); [|exact M4]. rewrite map_app, in_app_iff. intros [I|[Eq|[]]]; [exact (NI I)|].
        cbn in Eq. subst n. apply M3. apply CI. left. apply CI1. right. reflexivity.
      * exact M.
    + exists (Unreadable (l_queue k)), (update (l_queue k) (fun _ => mkEmu false (Some [])) l), [], ((l_queue k, None) :: as_links ls).
      assert (forall q, conf_in (update (l_queue k) (fun _ => mkEmu false (Some [])) l) q <-> conf_in l q) as CI.
      { intros q. rewrite !conf_in_lookup by (rewrite ?update_names; exact ND). setoid_rewrite lookup_update. rewrite L.
        destruct (String.eqb_spec q (l_queue k)) as [->|N]; [|tauto]. rewrite L. split.
        - intros (x & X1 & X2). injection X1 as <-. discriminate.
        - intros (x & X1 & X2). congruence. }
      split; [reflexivity|]. split; [apply update_names|]. split; [reflexivity|].
      split; [split; [constructor|intros q f []]|]. split; [intros q; rewrite CI; cbn; tauto|].
      split; [eexists; reflexivity|]. split; [exact IK|]. split; [rewrite CI; exact NC|].
      intros q. unfold file_in. rewrite lookup_update, L. split.
      * intros f [Eq|[]]. injection Eq as <- <-. rewrite String.eqb_refl. reflexivity.
      * cbn. intros NQ. destruct (String.eqb_spec q (l_queue k)) as [->|]; [exfalso; tauto|reflexivity].
Qed.

(** What a configuration does, whatever its outcome: the links are configured in turn until one cannot be. The outcome tells
    which, and why; the links before it stay configured with their files. *)
Theorem C52_conf_effect : forall c ls, NoDup (queues c) -> c_conf c = false -> c_run c = false ->
  exists o c' ls1 ls2, do_conf ls c = Ok (o, c') /\
  queues c' = queues c /\ c_run c' = false /\ (c_conf c' = true <-> o = Done) /\
  as_links ls = (ls1 ++ ls2)%list /\ acceptable (queues c) (configured c) ls1 /\
  (forall q, configured c' q <-> configured c q \/ In q (map fst ls1)) /\
  match o with
  | Done => ls2 = [] /\ (forall q, In q (queues c) -> configured c' q) /\ files_after (file c) ls1 (file c')
  | Not_all_configured => ls2 = [] /\ (exists q, In q (queues c) /\ ~ configured c' q) /\ files_after (file c) ls1 (file c')
  | Unknown_queue q => (exists f r, ls2 = (q, f) :: r) /\ ~ In q (queues c) /\ files_after (file c) ls1 (file c')
  | Configured_twice q => (exists f r, ls2 = (q, f) :: r) /\ In q (queues c) /\ configured c' q /\ files_after (file c) ls1 (file c')
  | Unreadable q => (exists r, ls2 = (q, None) :: r) /\ In q (queues c) /\ ~ configured c' q /\
                    files_after (file c) (ls1 ++ [(q, Some [])])%list (file c')
  end.
Proof.
  intros c ls ND NC NR. destruct (conf_links_effect ls (c_emus c) ND) as (o & l' & ls1 & ls2 & R & N' & E & A & CI & M).
  unfold do_conf. rewrite NC, NR, R. cbn [bind].
  assert (forall o', (match o' with Done => False | _ => True end) -> (c_conf (mkCard l' false false) = true <-> o' = Done)) as FD.
  { intros o' H. destruct o'; [destruct H|..]; split; discriminate. }
  destruct o.
  - destruct M as [M1 M2]. destruct (forallb (fun p => e_conf (snd p)) l') eqn:F.
    + exists Done, (mkCard l' true false), ls1, ls2. split; [reflexivity|]. split; [exact N'|]. split; [reflexivity|].
      split; [split; reflexivity|]. split; [exact E|]. split; [exact A|]. split; [exact CI|]. split; [exact M1|]. split; [|exact M2].
      intros q I. unfold configured, conf_in. cbn [c_emus]. unfold queues in I. rewrite <- N' in I. apply in_map_iff in I.
      destruct I as ([q' e] & Eq & I). cbn in Eq. subst q'. exists e. split; [exact I|].
      rewrite forallb_forall in F. exact (F _ I).
    + exists Not_all_configured, (mkCard l' false false), ls1, ls2. split; [reflexivity|]. split; [exact N'|]. split; [reflexivity|].
      split; [apply FD; exact I|]. split; [exact E|]. split; [exact A|]. split; [exact CI|]. split; [exact M1|]. split; [|exact M2].
      assert (exists p, In p l' /\ e_conf (snd p) = false) as (p & I & P).
      { clear - F. induction l' as [|p l' IH]; [discriminate|]. cbn in F. destruct (e_conf (snd p)) eqn:P.
        - destruct (IH F) as (p' & I & P'). exists p'. split; [right; exact I|exact P'].
        - exists p. split; [left; reflexivity|exact P]. }
      exists (fst p). split; [unfold queues; rewrite <- N'; apply in_map, I|].
      assert (NoDup (map fst l')) as ND' by (rewrite N'; exact ND). destruct p as [q e]. cbn in *.
      unfold configured. cbn [c_emus]. rewrite conf_in_lookup by exact ND'.
      rewrite (in_lookup q l' e ND' I). intros (x & X1 & X2). congruence.
  - exists (Unknown_queue n), (mkCard l' false false), ls1, ls2. split; [reflexivity|]. split; [exact N'|]. split; [reflexivity|].
    split; [apply FD; exact I|]. split; [exact E|]. split; [exact A|]. split; [exact CI|]. exact M.
  - exists (Configured_twice n), (mkCard l' false false), ls1, ls2. split; [reflexivity|]. split; [exact N'|]. split; [reflexivity|].
    split; [apply FD; exact I|]. split; [exact E|]. split; [exact A|]. split; [exact CI|]. exact M.
  - exists (Unreadable n), (mkCard l' false false), ls1, ls2. split; [reflexivity|]. split; [exact N'|]. split; [reflexivity|].
    split; [apply FD; exact I|]. split; [exact E|]. split; [exact A|]. split; [exact CI|]. exact M.
  - destruct M.
Qed.
Print Assumptions C52_conf_effect.

(** When a configuration succeeds. *)
Theorem C52_conf_iff : forall c ls, NoDup (queues c) -> c_conf c = false -> c_run c = false ->
  ((exists c', do_conf ls c = Ok (Done, c')) <->
   acceptable (queues c) (configured c) (as_links ls) /\
   (forall q, In q (queues c) -> configured c q \/ In q (map fst (as_links ls)))).
Proof.
  intros c ls ND NC NR. destruct (C52_conf_effect c ls ND NC NR) as (o & c' & ls1 & ls2 & R & N' & R' & CC & E & A & CI & M).
  split.
  - intros (c2 & R2). rewrite R in R2. injection R2 as -> ->. destruct M as (-> & M & _). rewrite app_nil_r in E. rewrite E.
    split; [exact A|]. intros q I. apply CI. apply M, I.
  - intros ((A1 & A2) & H). rewrite R. rewrite E, map_app in A1. assert (forall q f r, ls2 = (q, f) :: r -> In (q, f) (as_links ls)) as IL.
    { intros q f r ->. rewrite E. apply in_app_iff. right. left. reflexivity. }
    destruct o.
    + exists c'. reflexivity.
    + destruct M as ((f & r & E2) & M & _). exfalso. destruct (A2 _ _ (IL _ _ _ E2)) as (B & _). contradiction.
    + destruct M as ((f & r & E2) & _ & M & _). exfalso. destruct (A2 _ _ (IL _ _ _ E2)) as (_ & B & _).
      apply CI in M. destruct M as [M|M]; [contradiction|]. subst ls2. cbn in A1. apply NoDup_remove_2 in A1. apply A1.
      apply in_app_iff. left. exact M.
    + destruct M as ((r & E2) & _). exfalso. destruct (A2 _ _ (IL _ _ _ E2)) as (_ & _ & B). apply B. reflexivity.
    + destruct M as (-> & (q & I & M) & _). exfalso. apply M. apply CI. rewrite app_nil_r in E. rewrite <- E. apply H, I.
Qed.
Print Assumptions C52_conf_iff.

(** After an attempt that failed, no list with a link that got configured in it is accepted: in particular not the corrected
    list. The list of the links still missing is accepted. *)
Theorem C52_retry : forall c ls o c', NoDup (queues c) -> c_conf c = false -> c_run c = false ->
  do_conf ls c = Ok (o, c') -> o <> Done ->
  (forall ls' q, configured c' q -> In q (map fst (as_links ls')) -> forall c'', do_conf ls' c' <> Ok (Done, c'')) /\
  (forall ls', NoDup (map fst (as_links ls')) -> (forall q f, In (q, f) (as_links ls') -> f <> None) ->
     (forall q, In q (map fst (as_links ls')) <-> In q (queues c) /\ ~ configured c' q) -> exists c'', do_conf ls' c' = Ok (Done, c'')).
Proof.
  intros c ls o c' ND NC NR R NO. destruct (C52_conf_effect c ls ND NC NR) as (o1 & c1 & ls1 & ls2 & R1 & N' & R' & CC & _).
  rewrite R in R1. injection R1 as <- <-.
  assert (c_conf c' = false) as NC' by (apply not_true_iff_false; rewrite CC; exact NO).
  assert (NoDup (queues c')) as ND' by (rewrite N'; exact ND). split.
  - intros ls' q C I c'' R2. assert (exists x, do_conf ls' c' = Ok (Done, x)) as R3 by (exists c''; exact R2).
    apply C52_conf_iff in R3; try assumption. destruct R3 as ((_ & A) & _). apply in_map_iff in I. destruct I as ([q' f] & Eq & I).
    cbn in Eq. subst q'. destruct (A q f I) as (_ & B & _). contradiction.
  - intros ls' ND1 RD H. apply C52_conf_iff; try assumption. split.
    + split; [exact ND1|]. intros q f I. assert (In q (map fst (as_links ls'))) as IQ by (apply (in_map fst) in I; exact I).
      apply H in IQ. rewrite N'. split; [apply IQ|]. split; [apply IQ|]. exact (RD q f I).
    + intros q I. rewrite N' in I.
      destruct (in_dec string_dec q (map fst (as_links ls'))) as [Y|N]; [right; exact Y|]. left.
      destruct (lookup q (c_emus c')) as [e|] eqn:L.
      * destruct (e_conf e) eqn:EC; [exists e; split; [apply lookup_in, L|exact EC]|]. exfalso. apply N. apply H. split; [exact I|].
        unfold configured. rewrite conf_in_lookup by exact ND'. intros (x & X1 & X2). congruence.
      * apply lookup_none in L. exfalso. apply L. fold (queues c'). rewrite N'. exact I.
Qed.
Print Assumptions C52_retry.

(** Once configured, conf commands are without effect, whatever they say, and report success. *)
Theorem C52_configured_stays : forall lss c, c_conf c = true ->
  run (map Conf lss) c = Ok (repeat Done (length lss), c).
Proof.
  induction lss as [|ls lss IH]; intros c C; [reflexivity|]. cbn [map run step]. unfold do_conf. rewrite C. cbn [bind].
  rewrite IH by exact C. reflexivity.
Qed.
Print Assumptions C52_configured_stays.

(** * Histories *)
Lemma do_conf_inv : forall ls c o c', NoDup (queues c) -> do_conf ls c = Ok (o, c') ->
  queues c' = queues c /\ c_run c' = c_run c.
Proof.
  intros ls c o c' ND R. unfold do_conf in R. destruct (c_conf c).
  - injection R as <- <-. split; reflexivity.
  - destruct (conf_links (c_run c) ls (c_emus c)) as [[o1 l]|] eqn:E; [|discriminate]. cbn [bind] in R.
    assert (map fst l = queues c) as N.
    { clear R. unfold queues. revert E. generalize (c_emus c) as l0. generalize (c_run c) as b.
      clear. induction ls as [|k ls IH]; intros b l0 E; cbn in E; [injection E as <- <-; reflexivity|].
      destruct (lookup (l_queue k) l0) as [e|]; [|injection E as <- <-; reflexivity].
      destruct (e_conf e); [injection E as <- <-; reflexivity|]. destruct b; [discriminate|].
      destruct (l_file k); [|injection E as <- <-; apply update_names].
      rewrite (IH _ _ E). apply update_names. }
    destruct o1; [destruct (forallb _ l)|..]; injection R as <- <-; split; solve [exact N|reflexivity].
Qed.

Record card_inv (qs : list string) (c : card) : Prop := mk_inv {
  inv_names : queues c = qs;
  inv_conf : c_conf c = true -> forall q, In q qs -> configured c q;
  inv_file : forall q, configured c q -> file c q <> None
}.

Lemma conf_links_running : forall ls l, conf_links true ls l = Crash \/ exists o, conf_links true ls l = Ok (o, l) /\ (o = Done -> ls = []).
Proof.
  intros [|k ls] l; cbn; [right; exists Done; split; [reflexivity|tauto]|].
  destruct (lookup (l_queue k) l) as [e|]; [|right; eexists; split; [reflexivity|discriminate]].
  destruct (e_conf e); [right; eexists; split; [reflexivity|discriminate]|left; reflexivity].
Qed.

Lemma step_inv : forall qs m c o c', NoDup qs -> card_inv qs c -> step m c = Ok (o, c') -> card_inv qs c'.
Proof.
  intros qs m c o c' ND [I1 I2 I3] S. destruct m as [ls| | |]; cbn [step] in S.
  - destruct (c_conf c) eqn:CC.
    { unfold do_conf in S. rewrite CC in S. injection S as <- <-. split; [exact I1|intros _; exact (I2 eq_refl)|exact I3]. }
    assert (NoDup (queues c)) as NDc by (rewrite I1; exact ND).
    destruct (c_run c) eqn:CR.
    { unfold do_conf in S. rewrite CC, CR in S. destruct (conf_links_running ls (c_emus c)) as [E|(o1 & E & _)]; rewrite E in S; [discriminate|].
      cbn [bind] in S. destruct o1; [destruct (forallb _ (c_emus c)) eqn:F|..]; injection S as <- <-.
      1:{ split; [exact I1| |exact I3]. intros _ q IQ. rewrite <- I1 in IQ. apply in_map_iff in IQ. destruct IQ as ([q' e] & Eq & IQ).
          cbn in Eq. subst q'. rewrite forallb_forall in F. exists e. split; [exact IQ|exact (F _ IQ)]. }
      all: split; [exact I1|cbn; discriminate|exact I3]. }
    destruct (C52_conf_effect c ls NDc CC CR) as (o1 & c1 & ls1 & ls2 & R & N' & R' & CC' & E & A & CI & M).
    rewrite S in R. injection R as <- <-. split.
    + congruence.
    + intros C q IQ. apply CC' in C. subst o. destruct M as (_ & M & _). apply M. rewrite I1. exact IQ.
    + assert (exists X, (forall q f, In (q, f) X -> f <> None) /\ files_after (file c) X (file c') /\ forall q, In q (map fst ls1) -> In q (map fst X)) as (X & X1 & X2 & X3).
      { destruct A as [_ A]. destruct o.
        - exists ls1. split; [intros q f I; apply (A q f I)|]. split; [apply M|tauto].
        - exists ls1. split; [intros q f I; apply (A q f I)|]. split; [apply M|tauto].
        - exists ls1. split; [intros q f I; apply (A q f I)|]. split; [apply M|tauto].
        - exists (ls1 ++ [(n, Some [])])%list. split.
          + intros q f I. apply in_app_iff in I. destruct I as [I|[Eq|[]]]; [apply (A q f I)|]. injection Eq as _ <-. discriminate.
          + split; [apply M|]. intros q I. rewrite map_app. apply in_app_iff. left. exact I.
        - exists ls1. split; [intros q f I; apply (A q f I)|]. split; [apply M|tauto]. }
      intros q C. destruct (X2 q) as [F1 F2]. destruct (in_dec string_dec q (map fst X)) as [I|N].
      * apply in_map_iff in I. destruct I as ([q' f] & Eq & I). cbn in Eq. subst q'. rewrite (F1 f I). exact (X1 q f I).
      * rewrite (F2 N). apply I3. apply CI in C. destruct C as [C|C]; [exact C|]. exfalso. apply N, X3, C.
  - injection S as <- <-. split.
    + unfold queues, do_scrap. cbn. rewrite map_map. exact I1.
    + cbn. discriminate.
    + intros q (e & I & C). exfalso. unfold do_scrap in I. cbn in I. apply in_map_iff in I. destruct I as (p & Eq & _).
      injection Eq as _ <-. discriminate.
  - unfold do_start in S. destruct (forallb _ _); [|discriminate]. cbn in S. injection S as <- <-.
    split; [exact I1|exact I2|exact I3].
  - injection S as <- <-. split; [exact I1|exact I2|exact I3].
Qed.

Lemma run_inv : forall qs ms c os c', NoDup qs -> card_inv qs c -> run ms c = Ok (os, c') -> card_inv qs c'.
Proof.
  intros qs ms. induction ms as [|m ms IH]; intros c os c' ND I R; cbn in R; [injection R as <- <-; exact I|].
  destruct (step m c) as [[o c1]|] eqn:S; [|discriminate]. cbn [bind] in R.
  destruct (run ms c1) as [[os' c2]|] eqn:R2; [|discriminate]. cbn [bind] in R. injection R as <- <-.
  exact (IH c1 os' c2 ND (step_inv qs m c o c1 ND I S) R2).
Qed.

(** In every history of commands the module counts as configured only if every link is configured, and a configured link has
    a file. *)
Theorem C52_history : forall qis c0 ms os c, card_init qis = Some c0 -> run ms c0 = Ok (os, c) ->
  queues c = map qname (outputs qis) /\
  (c_conf c = true -> forall q, In q (queues c) -> configured c q) /\
  (forall q, configured c q -> file c q <> None).
Proof.
  intros qis c0 ms os c H R. apply C52_init_iff in H. destruct H as (ND & _ & ->).
  assert (card_inv (map qname (outputs qis)) (mkCard (map (fun q => (qname q, new_emu)) (outputs qis)) false false)) as I0.
  { split.
    - unfold queues. cbn. rewrite map_map. reflexivity.
    - discriminate.
    - intros q (e & I & C). exfalso. cbn in I. apply in_map_iff in I. destruct I as (x & Eq & _). injection Eq as _ <-. discriminate. }
  destruct (run_inv _ _ _ _ _ ND I0 R) as [I1 I2 I3]. rewrite I1. split; [reflexivity|]. split; [exact I2|exact I3].
Qed.
Print Assumptions C52_history.

(** Scrap makes every link configurable again, but keeps its file: a start without a new configuration produces the data of
    the scrapped one. *)
Theorem C52_scrap : forall c, (forall q, ~ configured (do_scrap c) q) /\ c_conf (do_scrap c) = false /\
  (forall q, file (do_scrap c) q = file c q) /\ (do_start (do_scrap c) = Crash <-> do_start c = Crash).
Proof.
  intros c. split; [|split; [reflexivity|split]].
  - intros q (e & I & C). cbn in I. apply in_map_iff in I. destruct I as (p & Eq & _). injection Eq as _ <-. discriminate.
  - intros q. unfold file, file_in, do_scrap. cbn. induction (c_emus c) as [|[k e] l IH]; [reflexivity|]. cbn.
    destruct (String.eqb q k); [reflexivity|exact IH].
  - unfold do_start. replace (forallb (fun p => producible (snd p)) (c_emus (do_scrap c))) with (forallb (fun p => producible (snd p)) (c_emus c)).
    + destruct (forallb _ _); split; intros H; try reflexivity; discriminate.
    + cbn. induction (c_emus c) as [|[k e] l IH]; [reflexivity|]. cbn. rewrite IH. reflexivity.
Qed.
Print Assumptions C52_scrap.

(** Exactly which commands have undefined behaviour: a start when some link holds no data (never configured, its file unreadable
    or empty), and, after a scrap during the run, a configuration that begins with a known, unconfigured link. *)
Theorem C52_crash_iff : forall m c, NoDup (queues c) -> (step m c = Crash <->
  (m = Start /\ exists q, In q (queues c) /\ (file c q = None \/ file c q = Some [])) \/
  (exists k ls, m = Conf (k :: ls) /\ c_run c = true /\ c_conf c = false /\ In (l_queue k) (queues c) /\ ~ configured c (l_queue k))).
Proof.
  intros m c ND. destruct m as [ls| | |]; cbn [step].
  - split.
    + intros H. right. unfold do_conf in H. destruct (c_conf c) eqn:CC; [discriminate|]. destruct (c_run c) eqn:CR.
      * destruct ls as [|k ls]; [cbn in H; destruct (forallb _ _) in H; discriminate|]. exists k, ls. split; [reflexivity|]. split; [reflexivity|].
        split; [reflexivity|]. cbn [conf_links] in H. destruct (lookup (l_queue k) (c_emus c)) as [e|] eqn:L; [|discriminate].
        split; [apply lookup_in in L; apply (in_map fst) in L; exact L|]. destruct (e_conf e) eqn:EC; [discriminate|].
        unfold configured. rewrite conf_in_lookup by exact ND. intros (x & X1 & X2). congruence.
      * destruct (C52_conf_effect c ls ND CC CR) as (o & c' & ls1 & ls2 & R & _). unfold do_conf in R. rewrite CC, CR in R. congruence.
    + intros [[H _]|(k & ls' & E & CR & CC & I & NC)]; [discriminate|]. injection E as ->. unfold do_conf. rewrite CC, CR. cbn [conf_links].
      destruct (lookup (l_queue k) (c_emus c)) as [e|] eqn:L.
      * destruct (e_conf e) eqn:EC; [|reflexivity]. exfalso. apply NC. exists e. split; [apply lookup_in, L|exact EC].
      * apply lookup_none in L. contradiction.
  - split; [discriminate|]. intros [[H _]|(k & ls & H & _)]; discriminate.
  - unfold do_start. destruct (forallb (fun p => producible (snd p)) (c_emus c)) eqn:F; cbn [bind].
    + split; [discriminate|]. intros [[_ (q & I & D)]|(k & ls & H & _)]; [|discriminate]. exfalso. apply in_map_iff in I.
      destruct I as ([q' e] & Eq & I). cbn in Eq. subst q'. rewrite forallb_forall in F. specialize (F _ I). unfold producible in F. cbn in F.
      unfold file, file_in in D. rewrite (in_lookup q _ e ND I) in D. destruct (e_data e) as [[|b bs]|]; try discriminate. destruct D; discriminate.
    + split; [|reflexivity]. intros _. left. split; [reflexivity|].
      assert (exists p, In p (c_emus c) /\ producible (snd p) = false) as ([q e] & I & P).
      { clear - F. induction (c_emus c) as [|p l IH]; [discriminate|]. cbn in F. destruct (producible (snd p)) eqn:P.
        - destruct (IH F) as (p' & I & P'). exists p'. split; [right; exact I|exact P'].
        - exists p. split; [left; reflexivity|exact P]. }
      exists q. split; [apply (in_map fst) in I; exact I|]. unfold file, file_in. rewrite (in_lookup q _ e ND I). unfold producible in P. cbn in P.
      destruct (e_data e) as [[|b bs]|]; [right; reflexivity|discriminate|left; reflexivity].
  - split; [discriminate|]. intros [[H _]|(k & ls & H & _)]; discriminate.
Qed.
Print Assumptions C52_crash_iff.

(** In particular a module with links that is started before its first configuration. *)
Theorem C52_start_unconfigured : forall qis c, card_init qis = Some c -> queues c <> [] -> step Start c = Crash.
Proof.
  intros qis c H NE. apply C52_init_iff in H. destruct H as (ND & _ & ->).
  apply C52_crash_iff.
  - unfold queues. cbn. rewrite map_map. exact ND.
  - left. split; [reflexivity|]. unfold queues, file, file_in in *. cbn [c_emus] in *. destruct (outputs qis) as [|q r]; [exfalso; apply NE; reflexivity|].
    exists (qname q). split; [left; reflexivity|]. left. cbn. rewrite String.eqb_refl. reflexivity.
Qed.
Print Assumptions C52_start_unconfigured.

Definition ex_qis : list qinfo := [mkQ "o1" "wib_link_0" "output"; mkQ "in" "x" "input"; mkQ "o2" "raw_tp_1" "output"].
Definition ex_links : list link := [mkLink "o1" (Some [1;2]%Z); mkLink "o2" (Some [3]%Z)].
Example C52_ex_init : exists c, card_init ex_qis = Some c /\ NoDup (queues c) /\ queues c = ["o1"; "o2"] /\ c_conf c = false /\ c_run c = false.
Proof.
  eexists. split; [vm_compute; reflexivity|]. split; [|repeat split; reflexivity].
  cbn. repeat constructor; cbn; intuition discriminate.
Qed.
Example C52_ex_run : exists c0 c, card_init ex_qis = Some c0 /\
  run [Conf [mkLink "o1" (Some [1]%Z); mkLink "o3" (Some [3]%Z)]; Conf ex_links; Conf [mkLink "o2" (Some [5]%Z)]; Start; Stop; Scrap; Conf ex_links; Conf []; Start] c0
  = Ok ([Unknown_queue "o3"; Configured_twice "o1"; Done; Done; Done; Done; Done; Done; Done], c) /\ file c "o1" = Some [1;2]%Z /\ c_conf c = true.
Proof. eexists. eexists. split; [vm_compute; reflexivity|]. split; [vm_compute; reflexivity|]. split; vm_compute; reflexivity. Qed.
Example C52_ex_crash : exists c0, card_init ex_qis = Some c0 /\ step Start c0 = Crash /\ run [Conf ex_links; Start; Scrap; Conf ex_links] c0 = Crash.
Proof. eexists. split; [vm_compute; reflexivity|]. split; vm_compute; reflexivity. Qed.
