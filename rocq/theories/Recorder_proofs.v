(** Proofs about the life of a recorder: the invariant. *)
From Coq Require Import String ZArith List Bool Arith Lia.
From Verif Require Import Base_model File_model File_spec File_proofs Recorder_model Recorder_spec.
Import ListNotations.
Open Scope nat_scope.

Ltac splits := repeat match goal with |- _ /\ _ => split end.

(** ** Histories *)
Lemma running_from_app : forall a b l, running_from l (a ++ b) = running_from (running_from l a) b.
Proof. induction a as [|e a IH]; intros b l; cbn [app running_from]; auto. Qed.
Lemma running_app : forall a b, running (a ++ b) = running_from (running a) b.
Proof. intros. apply running_from_app. Qed.
Lemma current_from_app : forall a b l, current_from l (a ++ b) = current_from (current_from l a) b.
Proof. induction a as [|e a IH]; intros b l; cbn [app current_from]; auto. Qed.
Lemma current_app : forall a b, current (a ++ b) = current_from (current a) b.
Proof. intros. apply current_from_app. Qed.
Lemma ignored_from_app : forall a b l, ignored_from l (a ++ b) = ignored_from (ignored_from l a) b.
Proof. induction a as [|e a IH]; intros b l; cbn [app ignored_from]; auto. Qed.
Lemma taken_run_from_app : forall a b l, taken_run_from l (a ++ b) = taken_run_from (taken_run_from l a) b.
Proof. induction a as [|e a IH]; intros b l; cbn [app taken_run_from]; auto. Qed.
Lemma view_app : forall a b, view_of (a ++ b) = fold_left view_step b (view_of a).
Proof. intros. apply fold_left_app. Qed.
Lemma configured_app : forall a b, configured (a ++ b) = configured a || configured b.
Proof. intros. apply existsb_app. Qed.
Lemma reported_app : forall a b, reported (a ++ b) = (reported a + reported b)%Z.
Proof. induction a as [|e a IH]; intros b; cbn [app reported]; auto. destruct e; rewrite ?IH; lia. Qed.
Lemma taken_app : forall a b, taken (a ++ b) = taken a ++ taken b.
Proof. intros. apply flat_map_app. Qed.
Lemma offered_app : forall a b, offered (a ++ b) = offered a ++ offered b.
Proof. intros. apply flat_map_app. Qed.

Section Proofs.
Variable enc : codec -> list Z -> list Z.
Variable d : device.
Notation run := (rec_run enc d).
Notation step := (rec_step enc d).

Lemma run_app : forall a b s, run s (a ++ b) = do r <- run s a; do q <- run (fst r) b; Ok (fst q, snd r ++ snd q).
Proof.
  induction a as [|x a IH]; intros b s; cbn [app rec_run].
  - cbn [bind fst snd]. destruct (run s b) as [[q l]|]; reflexivity.
  - destruct (step s x) as [[s1 e1]|]; cbn [bind fst snd]; auto. rewrite IH. destruct (run s1 a) as [[s2 e2]|]; cbn [bind fst snd]; auto.
    destruct (run s2 b) as [[s3 e3]|]; cbn [bind fst snd]; auto. now rewrite app_assoc.
Qed.
Lemma run_snoc : forall a x s s' log, run s (a ++ [x]) = Ok (s', log) ->
  exists s1 l1 l2, run s a = Ok (s1, l1) /\ step s1 x = Ok (s', l2) /\ log = l1 ++ l2.
Proof.
  intros a x s s' log E. rewrite run_app in E. destruct (run s a) as [[s1 l1]|] eqn:R; [|discriminate]. cbn [bind fst snd rec_run] in E.
  destruct (step s1 x) as [[s2 l2]|] eqn:S; [|discriminate]. cbn [bind fst snd] in E. injection E as <- <-. exists s1, l1, l2.
  rewrite app_nil_r. auto.
Qed.

(** ** Recordings as operations on the writer *)
Definition fresh_w (g : conf) (c : codec) : writer := mk_w true (cf_direct g) (cf_direct g) 0 (cf_size g) [] c [] false.
Definition done (g : conf) (c : codec) (old : list Z) (ops : list wop) : list bool * world := w_ops d ops (Some old, fresh_w g c).

(** Finished runs: a worker writes what it took, then flushes; or there was no worker. *)
Inductive finished : list (list (list Z)) -> list wop -> Prop :=
| fin_nil : finished [] []
| fin_run : forall rs ops r, finished rs ops -> finished (r :: rs) (ops ++ map OWrite r ++ [OFlush])
| fin_idle : forall rs ops, finished rs ops -> finished ([] :: rs) ops.
(** Where the worker is: no work; work not begun; in the loop, with a payload taken and not written. *)
Inductive mode : Type := Idle | Fresh | Open (pending : list (list Z)).
Definition shape (m : mode) (rs : list (list (list Z))) (ops : list wop) : Prop :=
  match m with
  | Idle => finished rs ops
  | Fresh => exists rs', rs = [] :: rs' /\ finished rs' ops
  | Open pend => exists r rs' ops', rs = (r ++ pend) :: rs' /\ finished rs' ops' /\ ops = ops' ++ map OWrite r
  end.
Definition good_rec (q : recording) (c : codec) (old : list Z) (ops : list wop) : Prop :=
  codec_of (cf_alg (q_conf q)) = Some c /\ (q_removed q = true -> old = []) /\
  q_warned q = negb (forallb (fun b => b) (fst (done (q_conf q) c old ops))).
Definition active_ok (v : view) (k : disk) (m : mode) : Prop :=
  match v_active v with
  | Some p => exists q c old ops, v_files v p = Some q /\ q_over q = false /\ k_place k = At p /\ cf_path (q_conf q) = p /\ good_rec q c old ops /\
      world_of k = snd (done (q_conf q) c old ops) /\ shape m (q_runs q) ops
  | None => w_open (k_w k) = false /\ k_place k = Nowhere
  end.
Definition passive_ok (v : view) (k : disk) : Prop :=
  forall p q, v_files v p = Some q -> v_active v <> Some p ->
    q_over q = true /\ cf_path (q_conf q) = p /\
    exists c old ops, good_rec q c old ops /\ finished (q_runs q) ops /\ k_fs k p = fst (w_close enc d (snd (done (q_conf q) c old ops))).
Definition files_ok (v : view) (k : disk) (m : mode) : Prop := active_ok v k m /\ passive_ok v k.

Lemma done_snoc : forall g c old ops o, done g c old (ops ++ [o]) =
  (fst (done g c old ops) ++ fst (w_ops d [o] (snd (done g c old ops))), snd (w_ops d [o] (snd (done g c old ops)))).
Proof. intros. unfold done. apply ops_app. Qed.
Lemma done_open : forall g c old ops, w_open (snd (snd (done g c old ops))) = true.
Proof. intros. apply ops_open. reflexivity. Qed.

Lemma set_path_eq : forall fs p f, set_path fs p f p = f.
Proof. intros. unfold set_path. now rewrite Nat.eqb_refl. Qed.
Lemma set_path_neq : forall fs p f q, q <> p -> set_path fs p f q = fs q.
Proof. intros fs p f q N. unfold set_path. now rewrite (proj2 (Nat.eqb_neq _ _) N). Qed.
Lemma world_at : forall k p x, k_place k = At p -> world_of (with_world k x) = x.
Proof. intros k p [f w] E. unfold world_of, with_world, the_file. rewrite E. cbn. now rewrite set_path_eq. Qed.
Lemma with_fs : forall k p x q, k_place k = At p -> q <> p -> k_fs (with_world k x) q = k_fs k q.
Proof. intros k p x q E N. unfold with_world. rewrite E. cbn. now apply set_path_neq. Qed.
Lemma with_place : forall k p x, k_place k = At p -> k_place (with_world k x) = At p.
Proof. intros k p x E. unfold with_world. now rewrite E. Qed.

Lemma files_mode : forall v k m m', files_ok v k m -> (forall rs ops, shape m rs ops -> shape m' rs ops) -> files_ok v k m'.
Proof.
  intros v k m m' [A P] H. split; [|exact P]. unfold active_ok in *. destruct (v_active v) as [p|]; [|exact A].
  destruct A as (q & c & old & ops & A1 & A2 & A3 & A4 & A5 & A6 & A7). exists q, c, old, ops. auto 10.
Qed.
Lemma fresh_open : forall rs ops, shape Fresh rs ops -> shape (Open []) rs ops.
Proof. intros rs ops (rs' & -> & F). exists [], rs', ops. cbn. rewrite app_nil_r. auto. Qed.
Lemma fresh_idle : forall rs ops, shape Fresh rs ops -> shape Idle rs ops.
Proof. intros rs ops (rs' & -> & F). now constructor. Qed.

(** A change of the active recording that leaves the files alone. *)
Lemma files_change : forall v k m m' f, files_ok v k m -> (forall q, q_over (f q) = q_over q /\ q_conf (f q) = q_conf q /\ q_removed (f q) = q_removed q /\ q_warned (f q) = q_warned q) ->
  (forall q ops, shape m (q_runs q) ops -> shape m' (q_runs (f q)) ops) -> files_ok (change f v) k m'.
Proof.
  intros v k m m' f [A P] F H. unfold change. unfold active_ok in A. destruct (v_active v) as [p|] eqn:V.
  - destruct A as (q & c & old & ops & A1 & A2 & A3 & A4 & (A5 & A5' & A5'') & A6 & A7). destruct (F q) as (F1 & F2 & F3 & F4). split.
    + unfold active_ok. cbn [set_file v_active]. rewrite V. exists (f q), c, old, ops. cbn [set_file v_files]. rewrite Nat.eqb_refl, A1. cbn [option_map].
      unfold good_rec. rewrite F1, F2, F3, F4. auto 12.
    + intros p' q' E N. cbn [set_file v_active v_files] in *. rewrite V in N. assert (p' <> p) by congruence.
      rewrite (proj2 (Nat.eqb_neq _ _) H0) in E. apply P; congruence.
  - split; [|exact P]. unfold active_ok. rewrite V. exact A.
Qed.

(** The writer is asked to do [o]. *)
Lemma files_op : forall v k m m' f o, files_ok v k m -> 
  (forall p q, v_active v = Some p -> v_files v p = Some q ->
     q_over (f q) = q_over q /\ q_conf (f q) = q_conf q /\ q_removed (f q) = q_removed q /\
     q_warned (f q) = q_warned q || negb (forallb (fun b => b) (fst (w_ops d [o] (world_of k))))) ->
  (forall q ops, shape m (q_runs q) ops -> shape m' (q_runs (f q)) (ops ++ [o])) ->
  files_ok (change f v) (with_world k (snd (w_ops d [o] (world_of k)))) m'.
Proof.
  intros v k m m' f o [A P] F H. unfold change. unfold active_ok in A. destruct (v_active v) as [p|] eqn:V.
  - destruct A as (q & c & old & ops & A1 & A2 & A3 & A4 & (A5 & A5' & A5'') & A6 & A7). destruct (F p q eq_refl A1) as (F1 & F2 & F3 & F4). split.
    + unfold active_ok. cbn [set_file v_active]. rewrite V. exists (f q), c, old, (ops ++ [o]). cbn [set_file v_files]. rewrite Nat.eqb_refl, A1. cbn [option_map].
      unfold good_rec. rewrite F1, F2, F3, F4, done_snoc, A6. cbn [fst snd]. rewrite (world_at _ p _ A3), forallb_app, negb_andb, A5''.
      splits; auto. now apply with_place.
    + intros p' q' E N. cbn [set_file v_active v_files] in *. rewrite V in N. assert (p' <> p) by congruence.
      rewrite (proj2 (Nat.eqb_neq _ _) H0) in E. rewrite (with_fs _ p) by assumption. apply P; congruence.
  - destruct A as [A1 A2]. split.
    + unfold active_ok. rewrite V. unfold with_world. rewrite A2. cbn [k_w k_place]. split; [|reflexivity]. destruct o as [bs|]; cbn [w_ops fst snd].
      * unfold w_write. cbn [world_of snd]. rewrite A1. cbn. exact A1.
      * rewrite flush_open. exact A1.
    + unfold with_world. rewrite A2. exact P.
Qed.

(** ** The steps of the worker *)
Lemma files_take : forall v k e, files_ok v k (Open []) -> files_ok (view_step v (ETake e)) k (Open [e]).
Proof.
  intros v k e F. cbn [view_step]. apply (files_change _ _ _ _ _ F); [auto|]. intros q ops (r & rs' & ops' & E & G & ->). cbn [add q_runs]. rewrite E.
  exists r, rs', ops'. rewrite app_nil_r. auto.
Qed.
Lemma change_same : forall v f, (forall p q, v_active v = Some p -> v_files v p = Some q -> f q = q) -> 
  v_active (change f v) = v_active v /\ forall p, v_files (change f v) p = v_files v p.
Proof.
  intros v f H. unfold change. destruct (v_active v) as [p|] eqn:V; [|auto]. split; [cbn; auto|]. intros p'. cbn [set_file v_files].
  destruct (Nat.eqb_spec p' p) as [->|]; [|reflexivity]. destruct (v_files v p) as [q|] eqn:E; [|reflexivity]. cbn. now rewrite (H p q).
Qed.
Lemma files_same : forall v v' k m, v_active v' = v_active v -> (forall p, v_files v' p = v_files v p) -> files_ok v' k m -> files_ok v k m.
Proof.
  intros v v' k m E1 E2 [A P]. split.
  - unfold active_ok in *. rewrite E1 in A. destruct (v_active v) as [p|]; [|exact A]. now rewrite E2 in A.
  - intros p q F N. apply P; congruence.
Qed.
Lemma files_wrote : forall v k e, files_ok v k (Open [e]) -> fst (writes d e k) = true -> files_ok v (snd (writes d e k)) (Open []).
Proof.
  intros v k e F W. unfold writes in *. cbn [fst snd] in *.
  destruct (change_same v (fun q => q)) as [C1 C2]; [auto|]. apply (files_same _ _ _ _ C1 C2).
  pose proof (files_op v k (Open [e]) (Open []) (fun q => q) (OWrite e) F) as H. cbn [w_ops fst snd forallb] in H. apply H.
  - intros p q V E. rewrite W. cbn. now rewrite orb_false_r.
  - intros q ops (r & rs' & ops' & E & G & ->). exists (r ++ [e]), rs', ops'. rewrite app_nil_r, map_app, app_assoc. auto.
Qed.
Lemma files_failed : forall v k e, files_ok v k (Open [e]) -> fst (writes d e k) = false -> files_ok (view_step v EWarn) (snd (writes d e k)) (Open []).
Proof.
  intros v k e F W. unfold writes in *. cbn [fst snd view_step] in *.
  pose proof (files_op v k (Open [e]) (Open []) warn (OWrite e) F) as H. cbn [w_ops fst snd forallb] in H. apply H.
  - intros p q V E. rewrite W. cbn. now rewrite orb_true_r.
  - intros q ops (r & rs' & ops' & E & G & ->). exists (r ++ [e]), rs', ops'. cbn [warn q_runs]. rewrite app_nil_r, map_app, app_assoc. auto.
Qed.
Lemma files_flushed : forall v k, files_ok v k (Open []) -> files_ok v (flushes d k) Idle.
Proof.
  intros v k F. unfold flushes.
  destruct (change_same v (fun q => q)) as [C1 C2]; [auto|]. apply (files_same _ _ _ _ C1 C2).
  pose proof (files_op v k (Open []) Idle (fun q => q) OFlush F) as H. cbn [w_ops fst snd forallb] in H. apply H.
  - intros p q V E. cbn. now rewrite orb_false_r.
  - intros q ops (r & rs' & ops' & E & G & ->). rewrite E, app_nil_r, <- app_assoc. now constructor.
Qed.
Lemma files_begin_run : forall v k, files_ok v k Idle -> files_ok (view_step v (ECommand CStart)) k Fresh.
Proof.
  intros v k F. cbn [view_step]. apply (files_change _ _ _ _ _ F); [auto|]. intros q ops G. exists (q_runs q). auto.
Qed.

(** ** Conf and destruction *)
(** The disk once an open writer has been closed. *)
Definition shut (k : disk) : disk := if w_open (k_w k) then with_world k (w_close enc d (world_of k)) else k.
Lemma close_open : forall x, w_open (snd (w_close enc d x)) = false.
Proof. reflexivity. Qed.
Lemma shut_open : forall k, w_open (k_w (shut k)) = false.
Proof. intros k. unfold shut. destruct (w_open (k_w k)) eqn:O; [|exact O]. unfold with_world. destruct (k_place k); reflexivity. Qed.

Lemma finish_passive : forall v k, files_ok v k Idle -> passive_ok (finish v) (shut k).
Proof.
  intros v k [A P] p q E _. unfold finish, change in E. cbn [v_files] in E. unfold active_ok in A. destruct (v_active v) as [a|] eqn:V.
  - destruct A as (q0 & c & old & ops & A1 & A2 & A3 & A4 & A5 & A6 & A7). unfold shut.
    assert (O : w_open (k_w k) = true). { change (k_w k) with (snd (world_of k)). rewrite A6. apply done_open. }
    rewrite O. cbn [set_file v_files] in E. destruct (Nat.eqb_spec p a) as [->|N].
    + rewrite A1 in E. cbn [option_map] in E. injection E as <-. cbn [q_over q_conf q_runs]. split; [reflexivity|]. split; [exact A4|].
      exists c, old, ops. split; [exact A5|]. split; [exact A7|]. change (k_fs (with_world k (w_close enc d (world_of k))) a = fst (w_close enc d (snd (done (q_conf q0) c old ops)))).
      rewrite <- A6. unfold with_world. rewrite A3. cbn [k_fs]. apply set_path_eq.
    + destruct (P p q E) as (P1 & P2 & c' & old' & ops' & P3); [congruence|]. split; [exact P1|]. split; [exact P2|]. exists c', old', ops'.
      now rewrite (with_fs _ a) by assumption.
  - destruct A as [A1 A2]. unfold shut. rewrite A1. apply P; congruence.
Qed.
Lemma files_destroyed : forall v k, files_ok v k Idle -> files_ok (view_step v (EReturned CDestroy)) (closed enc d k) Idle.
Proof.
  intros v k F. pose proof (finish_passive v k F) as P. cbn [view_step]. destruct F as [A _]. split.
  - unfold active_ok. cbn [finish v_active]. unfold closed. destruct (w_open (k_w k)) eqn:O.
    + cbn [k_w k_place]. split; [|reflexivity]. pose proof (shut_open k) as S. unfold shut in S. now rewrite O in S.
    + unfold active_ok in A. destruct (v_active v) as [a|] eqn:V; [|exact A]. destruct A as (q0 & c & old & ops & A1 & A2 & A3 & A4 & A5 & A6 & A7).
      change (k_w k) with (snd (world_of k)) in O. rewrite A6, done_open in O. discriminate.
  - intros p q E N. destruct (P p q E N) as (P1 & P2 & c & old & ops & P3 & P4 & P5). split; [exact P1|]. split; [exact P2|]. exists c, old, ops. split; [exact P3|].
    split; [exact P4|]. rewrite <- P5. unfold closed, shut. destruct (w_open (k_w k)); reflexivity.
Qed.

(** Removing a path and then opening it. *)
Lemma shut_removed : forall k p a q, q <> p -> k_fs (shut (removed p a k)) q = k_fs (shut k) q.
Proof.
  intros k p a q N. unfold shut, removed. destruct a; [|reflexivity]. cbn [k_w]. destruct (w_open (k_w k)); cbn [k_fs]; [|now apply set_path_neq].
  unfold with_world, world_of, the_file. cbn [k_place k_w k_fs]. destruct (k_place k) as [|b|f]; cbn [k_fs]; try now apply set_path_neq.
  destruct (Nat.eqb_spec b p) as [->|M]; cbn [k_fs k_place].
  - rewrite !set_path_neq by assumption. reflexivity.
  - rewrite (set_path_neq _ p _ b) by assumption. unfold set_path. destruct (Nat.eqb_spec q b); [reflexivity|]. now rewrite (proj2 (Nat.eqb_neq _ _) N).
Qed.
Lemma removed_gone : forall k p, k_fs (shut (removed p true k)) p = None.
Proof.
  intros k p. unfold shut, removed. cbn [k_w]. destruct (w_open (k_w k)); cbn [k_fs]; [|apply set_path_eq].
  unfold with_world, world_of, the_file. cbn [k_place k_w k_fs]. destruct (k_place k) as [|b|f]; cbn [k_fs]; try apply set_path_eq.
  destruct (Nat.eqb_spec b p) as [->|M]; cbn [k_fs k_place]; [apply set_path_eq|]. unfold set_path. rewrite (proj2 (Nat.eqb_neq p b)) by congruence. now rewrite Nat.eqb_refl.
Qed.
Lemma opened_shut : forall g b k, opened enc d g b k =
  let x1 := shut k in
  if negb b then (false, mkDisk (k_fs x1) Nowhere (k_w x1)) else
  let fs := set_path (k_fs x1) (cf_path g) (Some (content (k_fs x1 (cf_path g)))) in
  match codec_of (cf_alg g) with
  | None => (false, mkDisk fs Nowhere (k_w x1))
  | Some c => (true, mkDisk fs (At (cf_path g)) (fresh_w g c))
  end.
Proof. reflexivity. Qed.
Lemma files_conf : forall v k g a b, files_ok v k Idle -> let r := opened enc d g b (removed (cf_path g) a k) in
  files_ok (view_step v (if fst r then EReturned (CConf g a b) else EThrew (CConf g a b))) (snd r) Idle.
Proof.
  intros v k g a b F r. pose proof (finish_passive v k F) as P.
  assert (PA : forall fs w pl o, (forall q, q <> cf_path g -> fs q = k_fs (shut k) q) -> (match o with Some q => True | None => True end) ->
    forall act, (act = None \/ act = Some (cf_path g)) -> (act = None -> o = None) ->
    passive_ok (mkView (v_files (set_file (finish v) (cf_path g) o)) act) (mkDisk fs pl w)).
  { intros fs w pl o S _ act AA AO p q E N. cbn [v_files v_active set_file] in *. destruct (Nat.eqb_spec p (cf_path g)) as [->|M].
    - destruct AA as [-> | ->]; [|congruence]. rewrite AO in E by reflexivity. discriminate.
    - destruct (P p q E) as (P1 & P2 & c & old & ops & P3 & P4 & P5); [cbn; congruence|]. split; [exact P1|]. split; [exact P2|]. exists c, old, ops.
      cbn [k_fs]. rewrite S by assumption. auto. }
  unfold r. rewrite opened_shut. cbn zeta. destruct b; cbn [negb].
  - destruct (codec_of (cf_alg g)) as [c|] eqn:C; cbn [fst snd view_step].
    + split.
      * unfold active_ok. cbn [v_active set_file v_files]. eexists (mkRecording g a [] false false), c, (content (k_fs (shut (removed (cf_path g) a k)) (cf_path g))), [].
        rewrite Nat.eqb_refl. cbn [q_over q_conf q_runs k_place]. split; [reflexivity|]. split; [reflexivity|]. split; [reflexivity|]. split; [reflexivity|]. split; [|split].
        -- split; [exact C|]. split; [|reflexivity]. cbn [q_removed]. intros ->. now rewrite removed_gone.
        -- unfold done, world_of, the_file. cbn [k_place k_fs k_w w_ops snd]. now rewrite set_path_eq.
        -- constructor.
      * apply PA; auto; [|discriminate]. intros q N. rewrite set_path_neq by assumption. now apply shut_removed.
    + split.
      * unfold active_ok. cbn [v_active set_file finish k_w k_place]. split; [apply shut_open|reflexivity].
      * apply (PA _ _ _ None) with (act := None); auto. intros q N. rewrite set_path_neq by assumption. now apply shut_removed.
  - cbn [fst snd view_step]. split.
    + unfold active_ok. cbn [v_active set_file finish k_w k_place]. split; [apply shut_open|reflexivity].
    + apply (PA _ _ _ None) with (act := None); auto. intros q N. now apply shut_removed.
Qed.

(** ** The invariant *)
Definition mode_of (w : worker) : mode :=
  match w with
  | Off | Awake | Doze | Late => Idle
  | Given | Missed => Fresh
  | Test | Pop | Flushing => Open []
  | Popped e | Counted e | Writing e => Open [e]
  end.
Definition todo_ok (s : rec) (log : list event) : Prop :=
  let v := view_of log in let k := y_disk s in
  match y_todo s with
  | None => files_ok v k (mode_of (y_thread s)) /\ (running log = false -> ready (y_thread s) = true)
  | Some (CConf g a b, rest) => ready (y_thread s) = true /\ running log = false /\
      ((rest = program (CConf g a b) /\ files_ok v k Idle) \/
       (rest = [MOpen g b] /\ exists k0, files_ok v k0 Idle /\ k = removed (cf_path g) a k0) \/
       (rest = [] /\ files_ok (view_step v (EReturned (CConf g a b))) k Idle /\ y_fd s = true))
  | Some (CStart, rest) => running log = false /\ configured log = true /\
      ((exists j, rest = skipn j (program CStart) /\ j < 3 /\ ready (y_thread s) = true /\ files_ok v k Fresh) \/
       (rest = [] /\ files_ok v k (mode_of (y_thread s))))
  | Some (CStop, rest) => files_ok v k (mode_of (y_thread s)) /\
      (rest = program CStop \/ rest = [MWait] \/ (rest = [] /\ ready (y_thread s) = true)) /\ (running log = false -> ready (y_thread s) = true)
  | Some (CDestroy, rest) => ready (y_thread s) = true /\ running log = false /\
      ((exists j, rest = skipn j (program CDestroy) /\ j < 2 /\ files_ok v k Idle) \/ (rest = [] /\ files_ok (view_step v (EReturned CDestroy)) k Idle))
  end.
Record inv (s : rec) (log : list event) : Prop := mk_inv {
  i_current : current log = option_map fst (y_todo s);
  i_todo : todo_ok s log;
  i_fd : configured log = true -> y_fd s = true;
  i_busy : ready (y_thread s) = false -> configured log = true;
  i_queue : offered log = taken log ++ y_queue s
}.

(** Events that say nothing about commands, the writer or the queue. *)
Lemma mode_ready : forall w, ready w = true -> mode_of w = Idle.
Proof. destruct w; cbn; congruence. Qed.

(** A step of the worker and what it does to the files. *)
Lemma thread_files : forall s v, files_ok v (y_disk s) (mode_of (y_thread s)) -> (ready (y_thread s) = false -> y_fd s = true) ->
  exists s' ev, thread_step d s = Ok (s', ev) /\ y_todo s' = y_todo s /\ y_fd s' = y_fd s /\ y_marker s' = y_marker s /\ y_mon s' = y_mon s /\
    files_ok (fold_left view_step ev v) (y_disk s') (mode_of (y_thread s')) /\
    (ready (y_thread s) = true -> ready (y_thread s') = true /\ ev = [] /\ y_disk s' = y_disk s) /\
    (ev = [] /\ y_queue s' = y_queue s \/ ev = [EWarn] /\ y_queue s' = y_queue s \/ exists e, ev = [ETake e] /\ y_queue s = e :: y_queue s').
Proof.
  intros s v F FD. unfold thread_step. destruct (y_thread s) eqn:T; cbn [mode_of ready] in *.
  - exists s, []. rewrite T. auto 12.
  - eexists _, _. split; [reflexivity|]. cbn. auto 12.
  - eexists _, _. split; [reflexivity|]. cbn. auto 12.
  - eexists _, _. split; [reflexivity|]. cbn. assert (files_ok v (y_disk s) (Open [])) by (apply (files_mode _ _ _ _ F), fresh_open).
    splits; auto; discriminate.
  - exists s, []. rewrite T. splits; auto; discriminate.
  - eexists _, _. split; [reflexivity|]. cbn. auto 12.
  - eexists _, _. split; [reflexivity|]. cbn. splits; auto; try discriminate. now destruct (y_marker s).
  - destruct (y_queue s) as [|e q] eqn:Q; eexists _, _; (split; [reflexivity|]); cbn -[view_step]; (splits; auto; try discriminate).
    + now apply files_take.
    + right. right. exists e. auto.
  - eexists _, _. split; [reflexivity|]. cbn. splits; auto; discriminate.
  - eexists _, _. split; [reflexivity|]. cbn. splits; auto; discriminate.
  - destruct (fst (writes d e (y_disk s))) eqn:W; eexists _, _; (split; [reflexivity|]); cbn -[view_step writes]; (splits; auto; try discriminate).
    + now apply files_wrote.
    + now apply files_failed.
  - rewrite FD by reflexivity. eexists _, _. split; [reflexivity|]. cbn -[flushes]. splits; auto; try discriminate. now apply files_flushed.
Qed.
End Proofs.
