From Coq Require Import ZArith List Bool String Lia ZifyBool.
From Verif Require Import Registry_model Registry_spec.
Import ListNotations.
Open Scope Z_scope.

Lemma in_step : forall m o name iv,
  In (name, iv) (reg_step m o) <->
  match o with
  | RAdd n i => (n = name /\ i = iv) \/ (n <> name /\ In (name, iv) m)
  | RTrim ts => ts <= iv_end iv /\ In (name, iv) m
  end.
Proof.
  intros m [n i|ts] name iv; cbn [reg_step].
  - unfold add_error, erase. cbn [In]. rewrite filter_In. cbn [fst].
    split.
    + intros [[= -> ->]|[Hin Hne]]; [left; split; reflexivity|].
      right. split; [|exact Hin]. intros ->. rewrite String.eqb_refl in Hne. discriminate.
    + intros [[-> ->]|[Hne Hin]]; [left; reflexivity|]. right. split; [exact Hin|].
      destruct (String.eqb name n) eqn:E; [|reflexivity]. apply String.eqb_eq in E. congruence.
  - unfold remove_errors_until. rewrite filter_In. cbn [snd]. split; intros [H1 H2]; (split; [|assumption || lia]); try assumption; lia.
Qed.

Lemma run_snoc : forall ops o, reg_run (ops ++ [o]) = reg_step (reg_run ops) o.
Proof. intros. unfold reg_run. rewrite fold_left_app. reflexivity. Qed.

Lemma in_run : forall ops name iv, In (name, iv) (reg_run ops) <-> in_force (rev ops) name iv.
Proof.
  induction ops as [|o ops IH] using rev_ind; intros name iv.
  - reflexivity.
  - rewrite run_snoc, in_step, rev_app_distr. cbn [rev app in_force].
    destruct o as [n i|ts]; rewrite (IH name iv); reflexivity.
Qed.

Lemma has_in : forall m name, has_error name m = true <-> exists iv, In (name, iv) m.
Proof.
  intros m name. unfold has_error. rewrite existsb_exists. split.
  - intros ([n iv] & Hin & E). cbn in E. apply String.eqb_eq in E. subst. exists iv. exact Hin.
  - intros (iv & Hin). exists (name, iv). split; [exact Hin|]. cbn. apply String.eqb_refl.
Qed.

Lemma has_error_lemma : forall ops name,
  has_error name (reg_run ops) = true <-> exists iv, in_force (rev ops) name iv.
Proof.
  intros ops name. rewrite has_in. split; intros (iv & H); exists iv; apply in_run; exact H.
Qed.

Lemma any_error_lemma : forall ops,
  has_any_error (reg_run ops) = true <-> exists name, has_error name (reg_run ops) = true.
Proof.
  intros ops. split.
  - intros H. destruct (reg_run ops) as [|[n iv] m] eqn:E; [discriminate|].
    exists n. apply has_in. exists iv. left. reflexivity.
  - intros (name & H). apply has_in in H. destruct H as (iv & H). destruct (reg_run ops); [destruct H|reflexivity].
Qed.

Lemma unique_entry : forall ops name iv iv', In (name, iv) (reg_run ops) -> In (name, iv') (reg_run ops) -> iv = iv'.
Proof.
  intros ops name iv iv' H H'. apply in_run in H. apply in_run in H'. revert H H'.
  induction (rev ops) as [|[n i|ts] h IH]; cbn [in_force]; [intros []| |].
  - intros [[-> ->]|[Hn H]] [[Hn' <-]|[Hn' H']]; try reflexivity; try congruence. apply IH; assumption.
  - intros [_ H] [_ H']. apply IH; assumption.
Qed.
