(** Proofs about Feed_model.v: before the first start. *)
From Coq Require Import ZArith List Bool Arith Lia.
From Verif Require Import Base_model Feed_model Feed_spec.
Import ListNotations.
Open Scope nat_scope.

Section Proofs.
Context {Conf St Out : Type}.
Variable begin : Conf -> option St -> res St.
Variable turn : Conf -> bool -> St -> res (option Out * St).
Notation action := (action Conf). Notation event := (event Conf Out).
Notation card := (card Conf St).
Notation step := (card_step begin turn). Notation run := (card_run begin turn).

Definition unstarted (s : card) : Prop :=
  (forall i, e_tot (k_emu s i) = 0%Z /\ e_new (k_emu s i) = 0%Z /\ e_thread (k_emu s i) = Off) /\
  match k_todo s with Some (_, m) => forall i, ~ In (MStart i) m | None => True end.

(** The events before the first start: no payload is offered, what is reported is zero. *)
Definition quiet (e : event) : Prop :=
  match e with EPush _ _ _ => False | ETotal _ v | ENew _ v => v = 0%Z | _ => True end.

Lemma program_quiet : forall (s : card) c i, c <> CStart -> ~ In (MStart i) (program s c).
Proof.
  intros s c i N. destruct c as [l| | | |]; simpl; try contradiction.
  - destruct (k_conf s); [intros []|]. rewrite in_app_iff, in_map_iff. intros [(x & X & _)|[X|[]]]; discriminate X.
  - rewrite in_app_iff, in_map_iff. intros [(x & X & _)|[X|[]]]; discriminate X.
  - intros [X|X]; [discriminate X|]. apply in_map_iff in X. destruct X as (x & X & _). discriminate X.
  - intros X. apply in_flat_map in X. destruct X as (x & _ & [X|[X|[]]]); discriminate X.
Qed.

Lemma unstarted_step : forall s a s' ev, a <> ACommand CStart -> unstarted s -> step s a = Ok (s', ev) ->
  unstarted s' /\ Forall quiet ev.
Proof.
  intros s a s' ev NA [U T] E. destruct a as [c| |i q|i|i]; simpl in E.
  - destruct (k_todo s) as [[c' m]|] eqn:K; injection E as <- <-.
    + split; [split; [exact U|rewrite K; exact T]|constructor].
    + split; [split; [exact U|]|constructor; [exact I|constructor]]. simpl. intros i. apply program_quiet. congruence.
  - injection E as E. unfold command_step in E. destruct (k_todo s) as [[c [|x m]]|] eqn:K.
    + injection E as <- <-. split; [split; [exact U|exact I]|constructor; [exact I|constructor]].
    + assert (Tm : forall i, ~ In (MStart i) m) by (intros i H; apply (T i); right; exact H).
      assert (SE : forall i e, e_tot e = e_tot (k_emu s i) -> e_new e = e_new (k_emu s i) -> e_thread e = e_thread (k_emu s i) ->
                forall j, e_tot (if j =? i then e else k_emu s j) = 0%Z /\ e_new (if j =? i then e else k_emu s j) = 0%Z /\
                          e_thread (if j =? i then e else k_emu s j) = Off).
      { intros i e A B C j. destruct (Nat.eqb_spec j i) as [->|]; [rewrite A, B, C|]; apply U. }
      destruct x as [j o| |j| |b|j|j|j|j]; simpl in E.
      * destruct ((j <? k_n s) && negb (e_set (k_emu s j))); [destruct o|]; injection E as <- <-;
          (split; [split; [simpl; try exact U; apply SE; reflexivity|simpl; try exact I; exact Tm]|constructor; [exact I|constructor]]).
      * destruct (forallb _ _); injection E as <- <-; (split; [split; [exact U|simpl; try exact I; exact Tm]|]); constructor; try exact I; constructor.
      * injection E as <- <-. split; [split; [simpl; apply SE; reflexivity|exact Tm]|constructor].
      * injection E as <- <-. split; [split; [exact U|exact Tm]|constructor].
      * injection E as <- <-. split; [split; [exact U|exact Tm]|constructor].
      * exfalso. apply (T j). left. reflexivity.
      * destruct (ready _); injection E as <- <-; (split; [split; [exact U|simpl; try exact Tm; rewrite K; exact T]|constructor]).
      * injection E as <- <-. split; [split; [simpl; apply SE; reflexivity|exact Tm]|constructor].
      * destruct (e_thread (k_emu s j)); injection E as <- <-; (split; [split; [exact U|simpl; try exact Tm; rewrite K; exact T]|constructor]).
    + injection E as <- <-. split; [split; [exact U|rewrite K; exact I]|constructor].
  - unfold thread_step in E. rewrite (proj2 (proj2 (U i))) in E. injection E as <- <-.
    split; [split; assumption|constructor].
  - injection E as <- <-. split; [split; assumption|]. constructor; [simpl; apply U|constructor].
  - injection E as <- <-. split; [split; [|exact T]|].
    + intros j. simpl. destruct (Nat.eqb_spec j i) as [->|]; [simpl; split; [apply U|split; [reflexivity|apply U]]|apply U].
    + constructor; [simpl; apply U|constructor].
Qed.

Lemma unstarted_run : forall acts s s' log, ~ In (ACommand CStart) acts -> unstarted s -> run s acts = Ok (s', log) ->
  unstarted s' /\ Forall quiet log.
Proof.
  induction acts as [|a acts IH]; intros s s' log N U R; simpl in R; [injection R as <- <-; split; [exact U|constructor]|].
  destruct (step s a) as [[s1 e1]|] eqn:E; simpl in R; [|discriminate]. destruct (run s1 acts) as [[s2 e2]|] eqn:R2; simpl in R; [|discriminate].
  injection R as <- <-. destruct (unstarted_step s a s1 e1) as [U1 Q1]; [intros ->; apply N; left; reflexivity|exact U|exact E|].
  destruct (IH s1 s2 e2) as [U2 Q2]; [intros H; apply N; right; exact H|exact U1|exact R2|].
  split; [exact U2|]. apply Forall_app. auto.
Qed.

Lemma unstarted_new : forall n, unstarted (card_new n).
Proof. intros n. split; [intros i; simpl; auto|exact I]. Qed.

Lemma before_lemma : forall n acts s log, ~ In (ACommand CStart) acts -> run (card_new n) acts = Ok (s, log) ->
  (forall i p q, ~ In (EPush i p q) log) /\ (forall i v, In (ETotal i v) log \/ In (ENew i v) log -> v = 0%Z).
Proof.
  intros n acts s log N R. destruct (unstarted_run acts _ _ _ N (unstarted_new n) R) as [_ Q]. rewrite Forall_forall in Q. split.
  - intros i p q H. exact (Q _ H).
  - intros i v [H|H]; exact (Q _ H).
Qed.
End Proofs.
