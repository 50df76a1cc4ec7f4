(** Property C74: the commands of a generated configuration. *)
From Coq Require Import String ZArith List Bool Lia Permutation.
From Verif Require Import Base_model Factory_model Gen_model Gen_spec Gen_props Commands_model Commands_spec Commands_proofs Commands_proofs2.
Import ListNotations.
Open Scope string_scope.
Open Scope list_scope.

(** C74. Start and stop reach every module of the generated application exactly once; conf reaches every module but the consumers, exactly
    once; record reaches exactly the data handlers and scrap everyone. *)
Theorem C74_addressed :
  forall (ft : string) (n t : nat) (v : verb) (order : list string), In ft front_ends -> dispatched (patterns n t v) (names ft n t) order ->
  Permutation order
    (map m_name (filter (fun d => match v with
                                  | VStart | VStop | VScrap => true
                                  | VConf => negb (is_consumer (m_plugin d))
                                  | VRecord => prefix "datahandler_" (m_name d)
                                  end) (modules ft n t))).
Proof.
  intros ft n t v order F D.
  assert (MF : forall (P : string -> bool) (Q : module -> bool) l, (forall d, In d l -> P (m_name d) = Q d) -> filter P (map m_name l) = map m_name (filter Q l)).
  { intros P Q. induction l as [|d l IH]; intros H; [reflexivity|]. cbn [map filter]. rewrite (H d (or_introl eq_refl)), IH by (intros d' X; apply H; right; exact X).
    destruct (Q d); reflexivity. }
  destruct v; cbn [patterns] in D.
  - set (P := fun x => existsb (fun d => String.eqb (m_name d) x && negb (is_consumer (m_plugin d))) (modules ft n t)).
    assert (PE : forall x p, is_name n t x p -> P x = negb (is_consumer p)).
    { intros x p I. unfold P. destruct (name_module ft n t x p I) as (d & M & E & Ep). destruct (is_consumer p) eqn:C; cbn [negb].
      - apply not_true_iff_false. intros X. apply existsb_exists in X as (d' & M' & X). apply andb_prop in X as [X1 X2]. apply String.eqb_eq in X1.
        pose proof (module_name ft n t d' M') as I'. rewrite X1 in I'. rewrite (is_name_fun n t x _ _ I' I), C in X2. discriminate.
      - apply existsb_exists. exists d. split; [exact M|]. rewrite E, String.eqb_refl, Ep, C. reflexivity. }
    rewrite (dispatched_perm ft n t _ order P F D).
    + unfold names. rewrite (MF P (fun d => negb (is_consumer (m_plugin d)))); [reflexivity|]. intros d M. apply PE, (module_name ft n t d M).
    + intros x I. apply in_names in I as (p & I). rewrite (hits_conf n t x p I), (PE x p I). destruct (is_consumer p); reflexivity.
  - rewrite filter_all. apply (start_perm ft n t order F D).
  - rewrite filter_all. apply (stop_perm ft n t order F D).
  - rewrite filter_all. rewrite (dispatched_perm ft n t _ order (fun _ => true) F D); [rewrite filter_all; reflexivity|]. intros x _. apply hits_scrap.
  - rewrite (dispatched_perm ft n t _ order (prefix "datahandler_") F D).
    + unfold names. rewrite (MF (prefix "datahandler_") (fun d => prefix "datahandler_" (m_name d))); reflexivity.
    + intros x I. apply in_names in I as (p & I). exact (hits_record n t x p I).
Qed.

Lemma std_order : forall pats l, dispatched pats l (concat (map (fun p => filter (matches p) l) pats)).
Proof.
  intros pats l. eexists. split; [|reflexivity]. induction pats as [|p pats IH]; [constructor|constructor; [reflexivity|exact IH]].
Qed.

Example C74_addressed_ex :
  dispatched (patterns 2 1 VConf) (names "wib" 2 1)
    ["fake_source"; "datahandler_0"; "datahandler_1"; "sw_tp_handler_0"; "sw_tp_handler_1"; "raw_tp_handler_2"; "tpset_publisher_0"; "tpset_publisher_1"] /\
  dispatched (patterns 2 1 VStop) (names "wib" 2 1)
    ["fake_source"; "datahandler_0"; "datahandler_1"; "timesync_consumer"; "fragment_consumer"; "sw_tp_handler_0"; "sw_tp_handler_1"; "raw_tp_handler_2";
     "tpset_publisher_0"; "tpset_publisher_1"; "errored_frame_consumer"].
Proof. split; [exact (std_order (patterns 2 1 VConf) (names "wib" 2 1))|exact (std_order (patterns 2 1 VStop) (names "wib" 2 1))]. Qed.

(** C74. Every module of this package registers the commands it is sent, except that scrap is also sent to the consumers, which do not know it. *)
Theorem C74_registered :
  forall (ft : string) (n t : nat) (v : verb) (order : list string) (d : module), In ft front_ends -> dispatched (patterns n t v) (names ft n t) order ->
  In d (modules ft n t) -> In (m_name d) order -> registered (m_plugin d) v = Some false <-> v = VScrap /\ is_consumer (m_plugin d) = true.
Proof.
  intros ft n t v order d F D M I. pose proof (Permutation_in _ (C74_addressed ft n t v order F D) I) as J. apply in_map_iff in J as (d' & E & J).
  apply filter_In in J as [M' J]. pose proof (module_name ft n t d M) as N. pose proof (module_name ft n t d' M') as N'. rewrite E in N'.
  pose proof (is_name_fun n t _ _ _ N N') as Ep. rewrite <- Ep, E in J. clear d' E M' N' Ep I.
  destruct v; cbn in J.
  - destruct (m_plugin d); cbn in *; split; intros X; try discriminate; destruct X; discriminate.
  - destruct (m_plugin d); cbn; split; intros X; try discriminate; destruct X; discriminate.
  - destruct (m_plugin d); cbn; split; intros X; try discriminate; destruct X; discriminate.
  - destruct (m_plugin d); cbn; split; intros X; try discriminate; try (split; reflexivity); try reflexivity; destruct X; discriminate.
  - assert (m_plugin d = DataLinkHandler) as ->.
    { revert J. clear F D M. revert N. generalize (m_name d) (m_plugin d). intros x p N J. inversion N; subst; vm_compute in J; try discriminate; try reflexivity;
      repeat match goal with H : context [num ?i] |- _ => revert H; generalize (num i); intros [|? ?] H; vm_compute in H; try discriminate H end. }
    cbn. split; intros X; [discriminate|destruct X; discriminate].
Qed.

Example C74_registered_ex : In (mkModule "timesync_consumer" TimeSyncConsumer [mkQ "input_queue" "time_sync_q" "input"]) (modules "wib" 2 1) /\
  In "timesync_consumer" (concat (map (fun x => filter (matches x) (names "wib" 2 1)) (patterns 2 1 VScrap))) /\ registered TimeSyncConsumer VScrap = Some false.
Proof. vm_compute. tauto. Qed.

(** C74. A stop reaches every writer of a queue before every reader of it, except that the handlers of trigger primitives, which send time
    syncs, are stopped after the consumer of time syncs. *)
Theorem C74_stop_order :
  forall (ft : string) (n t : nat) (order : list string) (m1 m2 q : string) (x1 x2 : message), In ft front_ends ->
  dispatched (patterns n t VStop) (names ft n t) order -> opens ft n t m1 q true x1 -> opens ft n t m2 q false x2 ->
  (before m1 m2 order <-> (q = "time_sync_q" -> exists i, m1 = ("datahandler_" ++ num i)%string)).
Proof. intros ft n t order m1 m2 q x1 x2 F D. apply (stop_order ft n t order m1 m2 q x1 x2 F D). Qed.

Ltac op d := exists d; eexists; split; [vm_compute; tauto|split; [reflexivity|split; [vm_compute; reflexivity|vm_compute; tauto]]].

Example C74_stop_order_ex : opens "wib" 2 1 "datahandler_1" "sw_tp_queue_1" true (Data SW_TP) /\ opens "wib" 2 1 "sw_tp_handler_1" "sw_tp_queue_1" false (Data SW_TP) /\
  opens "wib" 2 1 "raw_tp_handler_2" "time_sync_q" true TimeSync.
Proof. split; [op (datahandler "wib" 1)|split; [op (sw_tp_handler 1)|op (raw_tp_handler 2)]]. Qed.

(** C74. Whatever the threads of the application do between its commands, and over any number of runs: between runs every module is idle and
    the input queue of every handler is empty, and at every moment what the handler has taken in this run followed by what waits in its
    queue is exactly what was put there in this run; so it takes nothing from the run before and at the end of the run has taken everything, provided
    its starts gave it its reading thread. *)
Theorem C74_links_drained :
  forall (ft : string) (n t : nat) (A : Type) (s : app A) (m q : string) (e : element), In ft front_ends ->
  reach ft n t A (initial A) s -> opens ft n t m q false (Data e) -> ~ In (LLost m) (log s) ->
  (forall l, since_start (log s) l -> pushed q l = popped q l ++ queue s q) /\
  (todo s = [] -> running s = false -> queue s q = [] /\ forall m', In m' (names ft n t) -> phase_of s m' = Idle).
Proof.
  intros ft n t A s m q e F R O NL. destruct (runs ft n t A F s m q R (ex_intro _ e O) NL) as (H & C & _ & B). split; [exact B|]. intros T Rn.
  pose proof (all_idle ft n t A F s H T Rn) as I. split; [|exact I]. apply C; [exact Rn|]. left. apply I, (opens_name _ _ _ _ _ _ _ O).
Qed.

(** C74. A command under way can be finished from every reachable state. *)
Theorem C74_commands_finish :
  forall (ft : string) (n t : nat) (A : Type) (s : app A), In ft front_ends -> reach ft n t A (initial A) s ->
  exists s', reach ft n t A s s' /\ todo s' = [] /\ running s' = running s.
Proof.
  intros ft n t A s F R. apply (finish ft n t A F (length (todo s)) s eq_refl). apply (shape_reach ft n t A F _ _ (shape_init ft n t A) R).
Qed.

(** An executable restriction of the steps, used for the examples only: modules matched by one pattern are addressed in the order listed. *)
Inductive act (A : Type) := XStart | XStop | XGo | XLose | XHalt | XEnd | XPush (m q : string) (x : message) (a : A) | XPop (m q : string) (x : message).
Arguments XStart {A}. Arguments XStop {A}. Arguments XGo {A}. Arguments XLose {A}. Arguments XHalt {A}. Arguments XEnd {A}. Arguments XPush {A}. Arguments XPop {A}.
Definition element_eq (a b : element) : {a = b} + {a <> b}. Proof. decide equality. Defined.
Definition message_eq (a b : message) : {a = b} + {a <> b}. Proof. decide equality. apply element_eq. Defined.
Definition use_eq (a b : use) : {a = b} + {a <> b}. Proof. decide equality; [apply message_eq|]. decide equality; [apply bool_dec|apply string_dec]. Defined.
Section Exec.
Variable ft : string.
Variable n t : nat.
Variable A : Type.
Definition std (v : verb) : list string := concat (map (fun x => filter (matches x) (names ft n t)) (patterns n t v)).
Definition opensb (m q : string) (w : bool) (x : message) : bool :=
  existsb (fun d => String.eqb (m_name d) m && match module_uses d with Some us => if in_dec use_eq (q, w, x) us then true else false | None => false end) (modules ft n t).
Definition emptyb (s : app A) (m : string) : bool :=
  forallb (fun d => negb (String.eqb (m_name d) m) ||
    match module_uses d with
    | Some us => forallb (fun u => match u with (q, false, Data _) => match queue s q with [] => true | _ => false end | _ => true end) us
    | None => true
    end) (modules ft n t).
Definition exec (s : app A) (a : act A) : option (app A) :=
  match a, todo s with
  | XStart, [] => if running s then None else Some (mk_app (phase_of s) (queue s) (map (pair VStart) (std VStart)) true (log s ++ [LBegin]))
  | XStop, [] => if running s then Some (mk_app (phase_of s) (queue s) (map (pair VStop) (std VStop)) false (log s)) else None
  | XGo, (VStart, m) :: r => Some (mk_app (upd (phase_of s) m Running) (queue s) r (running s) (log s))
  | XLose, (VStart, m) :: r => Some (mk_app (upd (phase_of s) m Lost) (queue s) r (running s) (log s ++ [LLost m]))
  | XHalt, (VStop, m) :: _ => match phase_of s m with
                              | Running => Some (mk_app (upd (phase_of s) m Stopping) (queue s) (todo s) (running s) (log s))
                              | Lost => Some (mk_app (upd (phase_of s) m Closing) (queue s) (todo s) (running s) (log s))
                              | _ => None
                              end
  | XEnd, (VStop, m) :: r => match phase_of s m with
                             | Stopping => if emptyb s m then Some (mk_app (upd (phase_of s) m Closing) (queue s) (todo s) (running s) (log s)) else None
                             | Closing => Some (mk_app (upd (phase_of s) m Idle) (queue s) r (running s) (log s))
                             | _ => None
                             end
  | XPush m q x a, _ => match phase_of s m with
                        | Idle => None
                        | _ => if opensb m q true x then Some (mk_app (phase_of s) (upd (queue s) q (queue s q ++ [a])) (todo s) (running s) (log s ++ [LPush m q a])) else None
                        end
  | XPop m q x, _ => match phase_of s m, queue s q with
                     | Running, a :: r | Stopping, a :: r =>
                         if opensb m q false x then Some (mk_app (phase_of s) (upd (queue s) q r) (todo s) (running s) (log s ++ [LPop m q a])) else None
                     | _, _ => None
                     end
  | _, _ => None
  end.
Fixpoint exec_all (s : app A) (l : list (act A)) : option (app A) :=
  match l with [] => Some s | a :: r => match exec s a with Some s' => exec_all s' r | None => None end end.

Lemma std_dispatched : forall v, dispatched (patterns n t v) (names ft n t) (std v).
Proof.
  intros v. apply std_order.
Qed.
Lemma opensb_opens : forall m q w x, opensb m q w x = true -> opens ft n t m q w x.
Proof.
  intros m q w x H. apply existsb_exists in H as (d & M & H). apply andb_prop in H as [H1 H2]. apply String.eqb_eq in H1. destruct (module_uses d) as [us|] eqn:U; [|discriminate].
  destruct (in_dec use_eq (q, w, x) us) as [I|]; [|discriminate]. exists d, us. auto.
Qed.
Lemma emptyb_empty : forall s m, emptyb s m = true -> forall q e, opens ft n t m q false (Data e) -> queue s q = [].
Proof.
  intros s m H q e (d & us & M & E & U & I). apply (proj1 (forallb_forall _ _)) with (x := d) in H; [|exact M]. rewrite E, String.eqb_refl, U in H. cbn [negb orb] in H.
  apply (proj1 (forallb_forall _ _)) with (x := (q, false, Data e)) in H; [|exact I]. cbn in H. destruct (queue s q); [reflexivity|discriminate].
Qed.
Lemma some_eq : forall {B} (x y : B), Some x = Some y -> x = y.
Proof. intros B x y H. injection H. auto. Qed.
Lemma exec_step : forall s a s', exec s a = Some s' -> step ft n t A s s'.
Proof.
  intros s a s' H. destruct a; cbn [exec] in H.
  - destruct (todo s) eqn:T; [|discriminate]. destruct (running s) eqn:R; [discriminate|]. apply some_eq in H; subst s'. apply send_start; [assumption|assumption|apply std_dispatched].
  - destruct (todo s) eqn:T; [|discriminate]. destruct (running s) eqn:R; [|discriminate]. apply some_eq in H; subst s'. apply send_stop; [assumption|assumption|apply std_dispatched].
  - destruct (todo s) as [|[[] m] r] eqn:T; try discriminate. apply some_eq in H; subst s'. apply start_module; assumption.
  - destruct (todo s) as [|[[] m] r] eqn:T; try discriminate. apply some_eq in H; subst s'. apply start_lost; assumption.
  - destruct (todo s) as [|[[] m] r] eqn:T; try discriminate. destruct (phase_of s m) eqn:P; try discriminate; apply some_eq in H; subst s'; rewrite <- T; [eapply stop_module|eapply stop_lost]; eassumption.
  - destruct (todo s) as [|[[] m] r] eqn:T; try discriminate. destruct (phase_of s m) eqn:P; try discriminate.
    + destruct (emptyb s m) eqn:E; [|discriminate]. apply some_eq in H; subst s'. rewrite <- T. apply reader_ends; [exact P|]. intros _. apply emptyb_empty, E.
    + apply some_eq in H; subst s'. apply stop_returns; assumption.
  - assert (X : phase_of s m <> Idle /\ (if opensb m q true x then Some (mk_app (phase_of s) (upd (queue s) q (queue s q ++ [a])) (todo s) (running s) (log s ++ [LPush m q a])) else None) = Some s').
    { destruct (todo s), (phase_of s m); try discriminate; (split; [discriminate|exact H]). }
    destruct X as [P X]. destruct (opensb m q true x) eqn:O; [|discriminate]. apply some_eq in X; subst s'. eapply push; [exact P|apply opensb_opens, O].
  - assert (X : exists a r, queue s q = a :: r /\ (phase_of s m = Running \/ phase_of s m = Stopping) /\
      (if opensb m q false x then Some (mk_app (phase_of s) (upd (queue s) q r) (todo s) (running s) (log s ++ [LPop m q a])) else None) = Some s').
    { destruct (todo s), (phase_of s m), (queue s q) as [|b r] eqn:Q; try discriminate; exists b, r; auto. }
    destruct X as (b & r & Q & P & X). destruct (opensb m q false x) eqn:O; [|discriminate]. apply some_eq in X; subst s'. eapply pop; [exact P|apply opensb_opens, O|exact Q].
Qed.
Lemma exec_reach : forall l s s', exec_all s l = Some s' -> reach ft n t A s s'.
Proof.
  induction l as [|a l IH]; intros s s' H; [injection H as <-; apply reach_refl|]. cbn in H. destruct (exec s a) as [s1|] eqn:E; [|discriminate].
  eapply reach_trans; [apply reach_one, (exec_step _ _ _ E)|apply IH, H].
Qed.
Definition after (s : app A) (l : list (act A)) : app A := match exec_all s l with Some s' => s' | None => s end.
Lemma after_reach : forall s l, reach ft n t A s (after s l).
Proof. intros s l. unfold after. destruct (exec_all s l) as [s'|] eqn:E; [eapply exec_reach, E|apply reach_refl]. Qed.
End Exec.

Definition halt {A} (k : nat) : list (act A) := concat (repeat [XHalt; XEnd; XEnd] k).

Example C74_links_drained_ex :
  exists s : app nat, reach "wib" 1 0 nat (initial nat) s /\ todo s = [] /\ running s = false /\ opens "wib" 1 0 "datahandler_0" "wib_link_0" false (Data WIB) /\
  log s = [LBegin; LPush "fake_source" "wib_link_0" 4%nat; LPop "datahandler_0" "wib_link_0" 4%nat; LPush "fake_source" "wib_link_0" 5%nat; LPop "datahandler_0" "wib_link_0" 5%nat].
Proof.
  exists (after "wib" 1 0 nat (initial nat)
    (XStart :: repeat XGo 7 ++ [XPush "fake_source" "wib_link_0" (Data WIB) 4%nat; XPop "datahandler_0" "wib_link_0" (Data WIB); XStop;
      XHalt; XPush "fake_source" "wib_link_0" (Data WIB) 5%nat; XEnd; XEnd; XHalt; XPop "datahandler_0" "wib_link_0" (Data WIB); XEnd; XEnd] ++ halt 5)).
  split; [apply after_reach|]. split; [vm_compute; reflexivity|]. split; [vm_compute; reflexivity|]. split; [apply opensb_opens; vm_compute; reflexivity|vm_compute; reflexivity].
Qed.
Example C74_commands_finish_ex :
  exists s : app nat, reach "wib" 1 0 nat (initial nat) s /\ todo s = map (pair VStop) ["datahandler_0"; "timesync_consumer"; "fragment_consumer"; "sw_tp_handler_0"; "tpset_publisher_0"; "errored_frame_consumer"] /\
  queue s "wib_link_0" = [4%nat].
Proof.
  exists (after "wib" 1 0 nat (initial nat) (XStart :: repeat XGo 7 ++ [XPush "fake_source" "wib_link_0" (Data WIB) 4%nat; XStop] ++ halt 1)).
  split; [apply after_reach|]. split; vm_compute; reflexivity.
Qed.

(** C74. The order of the stop command and the lost start do matter. A handler whose start did not give it its reading thread leaves its
    input queue full, and takes the data of that run in the next one. *)
Theorem C74_lost_start_mixes_runs_refuted :
  forall (A : Type) (a : A), exists s1 s2 : app A, reach "wib" 1 0 A (initial A) s1 /\ todo s1 = [] /\ running s1 = false /\
  log s1 = [LBegin; LLost "datahandler_0"; LPush "fake_source" "wib_link_0" a] /\ queue s1 "wib_link_0" = [a] /\
  reach "wib" 1 0 A s1 s2 /\ log s2 = log s1 ++ [LBegin; LPop "datahandler_0" "wib_link_0" a].
Proof.
  intros A a.
  set (s1 := after "wib" 1 0 A (initial A) (XStart :: XLose :: repeat XGo 6 ++ [XPush "fake_source" "wib_link_0" (Data WIB) a; XStop] ++ halt 1 ++ [XHalt; XEnd] ++ halt 5)).
  exists s1, (after "wib" 1 0 A s1 (XStart :: repeat XGo 7 ++ [XPop "datahandler_0" "wib_link_0" (Data WIB)])).
  split; [apply after_reach|]. split; [vm_compute; reflexivity|]. split; [vm_compute; reflexivity|]. split; [vm_compute; reflexivity|]. split; [vm_compute; reflexivity|].
  split; [apply after_reach|vm_compute; reflexivity].
Qed.

(** C74. A time sync sent by a handler of trigger primitives after the consumer of time syncs has been stopped stays in the queue, and is
    taken for one of the next run. *)
Theorem C74_time_syncs_mix_runs_refuted :
  forall (A : Type) (a : A), exists s1 s2 : app A, reach "wib" 1 0 A (initial A) s1 /\ todo s1 = [] /\ running s1 = false /\
  log s1 = [LBegin; LPush "sw_tp_handler_0" "time_sync_q" a] /\ queue s1 "time_sync_q" = [a] /\
  reach "wib" 1 0 A s1 s2 /\ log s2 = log s1 ++ [LBegin; LPop "timesync_consumer" "time_sync_q" a].
Proof.
  intros A a.
  set (s1 := after "wib" 1 0 A (initial A) (XStart :: repeat XGo 7 ++ [XStop] ++ halt 3 ++ [XPush "sw_tp_handler_0" "time_sync_q" TimeSync a] ++ halt 4)).
  exists s1, (after "wib" 1 0 A s1 (XStart :: repeat XGo 7 ++ [XPop "timesync_consumer" "time_sync_q" TimeSync])).
  split; [apply after_reach|]. split; [vm_compute; reflexivity|]. split; [vm_compute; reflexivity|]. split; [vm_compute; reflexivity|]. split; [vm_compute; reflexivity|].
  split; [apply after_reach|vm_compute; reflexivity].
Qed.

Print Assumptions C74_addressed.
Print Assumptions C74_registered.
Print Assumptions C74_stop_order.
Print Assumptions C74_links_drained.
Print Assumptions C74_commands_finish.
Print Assumptions C74_lost_start_mixes_runs_refuted.
Print Assumptions C74_time_syncs_mix_runs_refuted.
