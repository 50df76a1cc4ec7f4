(** Deciding whether a given history is orderly, is settled; for examples. *)
From Coq Require Import String ZArith List Bool Arith Lia.
From Verif Require Import Base_model File_model Recorder_model Recorder_spec Recorder_proofs.
Import ListNotations.
Open Scope nat_scope.

Section Check.
Variable enc : codec -> list Z -> list Z.
Variable d : device.
Notation run := (rec_run enc d).
Notation step := (rec_step enc d).

Definition idle (log : list event) : bool := match current log with None => true | Some _ => false end.
Definition allowedb (log : list event) (c : cmd) : bool :=
  negb (existsb (fun e => match e with ECommand CDestroy => true | _ => false end) log) &&
  match c with CConf _ _ _ | CDestroy => negb (running log) | CStart => negb (running log) && configured log | CStop => true end.
Fixpoint orderlyb (s : rec) (log : list event) (acts : list action) : bool :=
  match acts with
  | [] => true
  | a :: rest => (match a with ACommand c => idle log && allowedb log c | _ => true end) &&
                 (match step s a with Ok (s', ev) => orderlyb s' (log ++ ev) rest | Crash => true end)
  end.
Lemma allowedb_ok : forall log c, allowedb log c = true -> allowed log c.
Proof.
  intros log c H. apply andb_true_iff in H. destruct H as [H1 H2]. split.
  - intros X. apply negb_true_iff in H1. rewrite <- not_true_iff_false in H1. apply H1, existsb_exists. eexists. split; [exact X|reflexivity].
  - destruct c; auto; try (now apply negb_true_iff). apply andb_true_iff in H2. destruct H2 as [H2 H3]. apply negb_true_iff in H2. auto.
Qed.
Lemma orderlyb_ok : forall acts s log, orderlyb s log acts = true ->
  forall before c after s' ev, acts = before ++ ACommand c :: after -> run s before = Ok (s', ev) -> current (log ++ ev) = None /\ allowed (log ++ ev) c.
Proof.
  induction acts as [|a acts IH]; intros s log H before c after s' ev E R; [destruct before; discriminate|].
  cbn [orderlyb] in H. apply andb_true_iff in H. destruct H as [H1 H2]. destruct before as [|b before]; cbn in E; injection E as -> E.
  - cbn in R. injection R as <- <-. rewrite app_nil_r. apply andb_true_iff in H1. destruct H1 as [H1 H3]. split; [|now apply allowedb_ok]. unfold idle in H1. now destruct (current log).
  - cbn [rec_run] in R. destruct (step s b) as [[s1 e1]|] eqn:S; [|discriminate]. cbn [bind fst snd] in R. destruct (run s1 before) as [[s2 e2]|] eqn:X; [|discriminate].
    cbn [bind fst snd] in R. injection R as <- <-. rewrite app_assoc. apply (IH s1 (log ++ e1) H2 before c after s2 e2); auto.
Qed.
Theorem is_orderly : forall s0 acts, orderlyb s0 [] acts = true -> orderly enc d s0 acts.
Proof. intros s0 acts H before c after s log E R. apply (orderlyb_ok acts s0 [] H before c after s log E R). Qed.

Fixpoint settledb (s : rec) (log : list event) (k : option nat) (acts : list action) : bool :=
  match acts with
  | [] => true
  | a :: rest =>
      (match a with ACommand CStart => match k with Some n => 3 <=? n | None => false end | ASpurious => false | _ => true end) &&
      match step s a with
      | Ok (s', ev) =>
          let k1 := match a with ACommand CStart => None | AThread => option_map S k | _ => k end in
          settledb s' (log ++ ev) (match k1 with None => if idle (log ++ ev) && negb (running (log ++ ev)) then Some 0 else None | Some _ => k1 end) rest
      | Crash => false
      end
  end.
Definition since (s0 : rec) (past : list action) (k : option nat) : Prop :=
  forall n, k = Some n -> exists b1 b2 s log, past = b1 ++ b2 /\ run s0 b1 = Ok (s, log) /\ current log = None /\ running log = false /\ ~ In (ACommand CStart) b2 /\ n <= turns b2.
Lemma settledb_ok : forall s0 acts past s log k, run s0 past = Ok (s, log) -> since s0 past k -> settledb s log k acts = true ->
  ~ In ASpurious acts /\ forall before after, acts = before ++ ACommand CStart :: after ->
    exists b1 b2 s log, past ++ before = b1 ++ b2 /\ run s0 b1 = Ok (s, log) /\ current log = None /\ running log = false /\ ~ In (ACommand CStart) b2 /\ 3 <= turns b2.
Proof.
  intros s0. induction acts as [|a acts IH]; intros past s log k R K H; [split; [auto|intros [|? ?] ? E; discriminate E]|].
  cbn [settledb] in H. apply andb_true_iff in H. destruct H as [H1 H2]. destruct (step s a) as [[s1 e1]|] eqn:S; [|discriminate].
  assert (R1 : run s0 (past ++ [a]) = Ok (s1, log ++ e1)). { rewrite run_app, R. cbn [bind fst snd rec_run]. rewrite S. cbn [bind fst snd]. now rewrite app_nil_r. }
  refine ((fun P => _) (IH (past ++ [a]) s1 (log ++ e1) _ R1 _ H2)).
  - destruct P as [P1 P2]. split.
    + intros [Y|Y]; [subst a; discriminate|auto].
    + intros [|b before] after E; cbn in E; injection E as -> E.
      * destruct k as [n|]; [|discriminate]. apply Nat.leb_le in H1. destruct (K n eq_refl) as (b1 & b2 & sb & lb & -> & Q1 & Q2 & Q3 & Q4 & Q5). rewrite app_nil_r.
        exists b1, b2, sb, lb. splits; auto. lia.
      * destruct (P2 before after E) as (b1 & b2 & sb & lb & Q & Q'). rewrite <- app_assoc in Q. cbn in Q. exists b1, b2, sb, lb. auto.
  - set (k1 := match a with ACommand CStart => None | AThread => option_map Datatypes.S k | _ => k end).
    assert (KEEP : since s0 (past ++ [a]) k1).
    { intros n E. assert (NS : a <> ACommand CStart) by (intros ->; discriminate E).
      assert (KN : exists m, k = Some m /\ n <= m + turns [a]). { unfold k1 in E. destruct a as [[]| | | | |]; try (exists n; split; [exact E|cbn; lia]); [congruence|]. destruct k as [m|]; [|discriminate]. cbn in E. injection E as <-. exists m. cbn. split; [reflexivity|lia]. }
      destruct KN as (m & KM & LE). destruct (K m KM) as (b1 & b2 & sb & lb & -> & Q1 & Q2 & Q3 & Q4 & Q5). exists b1, (b2 ++ [a]), sb, lb. splits; auto.
      - now rewrite app_assoc.
      - intros Y. apply in_app_or in Y. destruct Y as [Y|[Y|[]]]; auto.
      - unfold turns in *. rewrite filter_app, app_length. lia. }
    clearbody k1. destruct k1 as [n|]; [exact KEEP|]. destruct (idle (log ++ e1)) eqn:I1; [|intros n E; discriminate E]. destruct (running (log ++ e1)) eqn:I2; [intros n E; discriminate E|].
    intros n E. injection E as <-. exists (past ++ [a]), [], s1, (log ++ e1). rewrite app_nil_r. splits; auto; try (cbn; lia). unfold idle in I1. now destruct (current (log ++ e1)).
Qed.
Theorem is_settled : forall s0 acts, settledb s0 [] (Some 0) acts = true -> settled enc d s0 acts.
Proof.
  intros s0 acts H. apply (settledb_ok s0 acts [] s0 [] (Some 0)); auto. intros n E. injection E as <-. exists [], [], s0, []. splits; auto.
Qed.
End Check.
