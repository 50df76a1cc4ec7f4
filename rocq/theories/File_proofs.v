(** Proofs about the file writer, reader and recorder. *)
From Coq Require Import String ZArith List Bool Lia.
From Verif Require Import Base_model File_model File_spec.
Import ListNotations.
Open Scope Z_scope.

(** [acc]: bytes taken by the stream since it was opened on a file with content [old]. *)
Record winv_ (cd : codec) (old acc : list Z) (x : world) : Prop := mk_winv {
  v_open : w_open (snd x) = true;
  v_none : w_codec (snd x) = cd;
  v_off : (w_off (snd x) <= length acc)%nat;
  v_buf : w_buf (snd x) = skipn (w_off (snd x)) acc;
  v_disk : content (fst x) = over (firstn (w_off (snd x)) acc) old
}.

Arguments v_open {cd}.
Arguments v_none {cd}.
Arguments v_off {cd}.
Arguments v_buf {cd}.
Arguments v_disk {cd}.

Section AnyCodec.
Variable cd : codec.
Notation winv := (winv_ cd).

Lemma skipn_skipn_ {A} a b (l : list A) : skipn a (skipn b l) = skipn (b + a) l.
Proof. revert l. induction b as [|b IH]; intros [|h l]; cbn; auto. now rewrite skipn_nil. Qed.

Lemma dev_write_over d direct off acc old c : (off <= length acc)%nat ->
  dev_write d direct off (skipn off acc) (over (firstn off acc) old) = Some c -> c = over acc old.
Proof.
  intros O. unfold dev_write. destruct (direct && _); [discriminate|]. destruct (_ <? _)%nat; [discriminate|]. intros E.
  assert (Lf : length (firstn off acc) = off) by (rewrite firstn_length; lia).
  injection E as <-. unfold over. rewrite Lf. rewrite firstn_app, Lf, Nat.sub_diag, firstn_O, app_nil_r.
  rewrite firstn_firstn, Nat.min_id. rewrite app_assoc, firstn_skipn. f_equal.
  rewrite skipn_app, Lf. rewrite (skipn_all2 (firstn off acc)) by lia. cbn [app]. rewrite skipn_length.
  rewrite skipn_skipn_. f_equal. lia.
Qed.

Lemma sync_cases d f w : (w_buf w = [] /\ sync d (f, w) = (f, w)) \/
  (w_buf w <> [] /\ sync d (f, w) =
    match dev_write d (w_fd_direct w) (w_off w) (w_buf w) (content f) with
    | Some c => (Some c, set_stream [] (w_plain w) (w_off w + length (w_buf w)) (w_bad w) w)
    | None => (f, set_stream (w_buf w) (w_plain w) (w_off w) true w)
    end).
Proof. unfold sync. cbn [fst snd]. destruct (w_buf w); [left; auto|right]. split; [discriminate|reflexivity]. Qed.

Lemma sync_inv d old acc x : winv old acc x -> winv old acc (sync d x).
Proof.
  intros [V1 V2 V3 V4 V5]. destruct x as [f w]. cbn [fst snd] in *. destruct (sync_cases d f w) as [[_ ->]|[_ ->]].
  - constructor; auto.
  - destruct (dev_write d (w_fd_direct w) (w_off w) (w_buf w) (content f)) as [c|] eqn:E.
    + rewrite V4, V5 in E. apply dev_write_over in E; [|exact V3]. subst c.
      constructor; cbn [fst snd set_stream w_open w_codec w_off w_buf content]; auto.
      * rewrite V4, skipn_length. lia.
      * rewrite V4, skipn_length. symmetry. apply skipn_all2. lia.
      * rewrite V4, skipn_length. rewrite firstn_all2 by lia. reflexivity.
    + constructor; cbn [fst snd set_stream w_open w_codec w_off w_buf content]; auto.
Qed.

(** sync keeps the configuration. *)
Lemma sync_conf d x : w_size (snd (sync d x)) = w_size (snd x) /\ w_use_direct (snd (sync d x)) = w_use_direct (snd x) /\
  w_fd_direct (snd (sync d x)) = w_fd_direct (snd x).
Proof. destruct x as [f w]. unfold sync. cbn [snd fst]. destruct (w_buf w); auto. destruct (dev_write _ _ _ _ _); cbn; auto. Qed.

(** After a successful sync the buffer is empty. *)
Lemma sync_good d x : w_bad (snd x) = false ->
  (w_bad (snd (sync d x)) = false -> w_buf (snd (sync d x)) = [] /\ w_off (snd (sync d x)) = (w_off (snd x) + length (w_buf (snd x)))%nat) .
Proof.
  destruct x as [f w]. unfold sync. cbn [snd fst]. intros B. destruct (w_buf w) eqn:E; [cbn; intros _; split; [auto|lia]|].
  destruct (dev_write _ _ _ _ _); cbn [fst snd set_stream w_bad w_buf w_off]; [auto|discriminate].
Qed.

Lemma push_inv old acc f w b : winv old acc (f, w) -> winv old (acc ++ [b]) (f, set_stream (w_buf w ++ [b]) (w_plain w) (w_off w) false w).
Proof.
  intros [V1 V2 V3 V4 V5]. cbn [fst snd] in *. constructor; cbn [fst snd set_stream w_open w_codec w_off w_buf]; auto.
  - rewrite app_length. lia.
  - rewrite V4, skipn_app. f_equal. replace (w_off w - length acc)%nat with O by lia. reflexivity.
  - rewrite firstn_app. replace (w_off w - length acc)%nat with O by lia. now rewrite app_nil_r.
Qed.

Lemma put_inv d bs : forall old acc x, winv old acc x ->
  exists k, winv old (acc ++ firstn k bs) (put d bs x) /\ (w_bad (snd (put d bs x)) = false -> firstn k bs = bs).
Proof.
  induction bs as [|b bs IH]; intros old acc x V; cbn [put].
  - exists O. cbn. rewrite app_nil_r. auto.
  - destruct (w_bad (snd x)) eqn:B.
    { exists O. cbn [firstn]. rewrite app_nil_r. split; auto. congruence. }
    set (x1 := if (length (w_buf (snd x)) =? w_size (snd x))%nat then sync d x else x).
    assert (V1 : winv old acc x1) by (unfold x1; destruct (_ =? _)%nat; auto using sync_inv).
    destruct (w_bad (snd x1)) eqn:B1.
    { exists O. cbn [firstn]. rewrite app_nil_r. split; auto. congruence. }
    destruct x1 as [f1 w1] eqn:X1. cbn [fst snd] in *. destruct (IH old (acc ++ [b]) _ (push_inv _ _ _ _ b V1)) as (k & K1 & K2).
    exists (S k). cbn [firstn]. rewrite <- app_assoc in K1. split; [exact K1|]. intros H. now rewrite K2.
Qed.

Lemma put_bad d bs x : w_bad (snd x) = true -> put d bs x = x.
Proof. intros B. destruct bs; cbn [put]; [reflexivity|]. now rewrite B. Qed.

Lemma put_conf d bs : forall x, w_size (snd (put d bs x)) = w_size (snd x) /\ w_use_direct (snd (put d bs x)) = w_use_direct (snd x) /\
  w_fd_direct (snd (put d bs x)) = w_fd_direct (snd x).
Proof.
  induction bs as [|b bs IH]; intros x; cbn [put]; auto. destruct (w_bad (snd x)); auto.
  set (x1 := if (length (w_buf (snd x)) =? w_size (snd x))%nat then sync d x else x).
  assert (C : w_size (snd x1) = w_size (snd x) /\ w_use_direct (snd x1) = w_use_direct (snd x) /\ w_fd_direct (snd x1) = w_fd_direct (snd x)).
  { unfold x1. destruct (_ =? _)%nat; auto using sync_conf. }
  destruct (w_bad (snd x1)); auto. destruct (IH (fst x1, set_stream (w_buf (snd x1) ++ [b]) (w_plain (snd x1)) (w_off (snd x1)) false (snd x1))) as (E1 & E2 & E3).
  rewrite E1, E2, E3. cbn. exact C.
Qed.

(** ** Runs that cannot fail *)

(** Nothing has failed and, under O_DIRECT, the descriptor is at a block boundary. *)
Record good (d : device) (x : world) : Prop := mk_good {
  g_bad : w_bad (snd x) = false;
  g_size : (0 < w_size (snd x))%nat;
  g_len : (length (w_buf (snd x)) <= w_size (snd x))%nat;
  g_dir : w_fd_direct (snd x) = true -> (0 < d_align d)%nat /\ (w_size (snd x) mod d_align d = 0)%nat /\ (w_off (snd x) mod d_align d = 0)%nat
}.

Lemma sync_full d x : good d x -> length (w_buf (snd x)) = w_size (snd x) ->
  (w_off (snd x) + length (w_buf (snd x)) <= d_room d)%nat -> good d (sync d x).
Proof.
  intros [G1 G2 G3 G4] L R. pose proof (sync_conf d x) as (C1 & C2 & C3). destruct x as [f w]. cbn [fst snd] in *.
  assert (E : exists c, dev_write d (w_fd_direct w) (w_off w) (w_buf w) (content f) = Some c).
  { unfold dev_write. destruct (w_fd_direct w) eqn:D; cbn [andb].
    - destruct (G4 eq_refl) as (A1 & A2 & A3). rewrite L, A2, A3. cbn [negb andb Nat.eqb]. rewrite <- L. destruct (Nat.ltb_spec (d_room d) (w_off w + length (w_buf w))); [lia|eauto].
    - destruct (Nat.ltb_spec (d_room d) (w_off w + length (w_buf w))); [lia|eauto]. }
  destruct E as [c E]. destruct (sync_cases d f w) as [[B _]|[_ S]]; [rewrite B in L; cbn in L; lia|].
  rewrite S, E in *. constructor; cbn [fst snd set_stream w_bad w_size w_buf w_fd_direct w_off length]; auto; [lia|].
  intros D. destruct (G4 D) as (A1 & A2 & A3). split; [auto|]. split; [auto|]. rewrite L, Nat.add_mod, A2, A3 by lia. cbn. apply Nat.mod_0_l. lia.
Qed.

Lemma put_good d bs : forall old acc x, winv old acc x -> good d x -> (length acc + length bs <= d_room d)%nat ->
  winv old (acc ++ bs) (put d bs x) /\ good d (put d bs x).
Proof.
  induction bs as [|b bs IH]; intros old acc x V G R; cbn [put].
  - rewrite app_nil_r. auto.
  - cbn [length] in R. rewrite (g_bad _ _ G).
    set (x1 := if (length (w_buf (snd x)) =? w_size (snd x))%nat then sync d x else x).
    assert (V1 : winv old acc x1) by (unfold x1; destruct (_ =? _)%nat; auto using sync_inv).
    assert (LB : (w_off (snd x) + length (w_buf (snd x)) <= d_room d)%nat).
    { rewrite (v_buf _ _ _ V), skipn_length. pose proof (v_off _ _ _ V). lia. }
    assert (G1 : good d x1 /\ (length (w_buf (snd x1)) < w_size (snd x1))%nat).
    { unfold x1. destruct (Nat.eqb_spec (length (w_buf (snd x))) (w_size (snd x))) as [E|E].
      - pose proof (sync_full d x G E LB) as GS. split; [exact GS|]. pose proof (sync_good d x (g_bad _ _ G) (g_bad _ _ GS)) as [-> _].
        cbn [length]. exact (g_size _ _ GS).
      - split; [exact G|]. pose proof (g_len _ _ G). lia. }
    destruct G1 as [G1 GL]. destruct x1 as [f1 w1] eqn:X1. cbn [fst snd] in *. rewrite (g_bad _ _ G1 : w_bad w1 = false).
    replace (acc ++ b :: bs) with ((acc ++ [b]) ++ bs) by now rewrite <- app_assoc.
    apply IH.
    + apply push_inv. exact V1.
    + destruct G1 as [H1 H2 H3 H4]. cbn [fst snd] in *. constructor; cbn [fst snd set_stream w_bad w_size w_buf w_fd_direct w_off]; auto.
      rewrite app_length. cbn. lia.
    + rewrite app_length. cbn. lia.
Qed.

Lemma set_fd_inv old acc f w b : winv old acc (f, w) -> winv old acc (f, set_fd_direct b w).
Proof. intros [V1 V2 V3 V4 V5]. constructor; auto. Qed.

(** A sync without O_DIRECT only needs room. *)
Lemma sync_plain d old acc f w : winv old acc (f, w) -> w_fd_direct w = false -> (length acc <= d_room d)%nat ->
  content (fst (sync d (f, w))) = over acc old /\ w_buf (snd (sync d (f, w))) = [] /\ w_off (snd (sync d (f, w))) = length acc /\
  w_bad (snd (sync d (f, w))) = w_bad w.
Proof.
  intros V D R. pose proof V as [V1 V2 V3 V4 V5]. cbn [fst snd] in *. destruct (sync_cases d f w) as [[B S]|[B S]]; rewrite S.
  - assert (O : w_off w = length acc). { assert (length (skipn (w_off w) acc) = O) as L by (rewrite <- V4, B; reflexivity). rewrite skipn_length in L. lia. }
    cbn [fst snd]. rewrite V5, O. rewrite firstn_all. auto.
  - assert (E : exists c, dev_write d (w_fd_direct w) (w_off w) (w_buf w) (content f) = Some c).
    { unfold dev_write. rewrite D. cbn [andb]. rewrite V4, skipn_length. destruct (Nat.ltb_spec (d_room d) (w_off w + (length acc - w_off w))); [lia|eauto]. }
    destruct E as [c E]. rewrite E. cbn [fst snd set_stream w_buf w_off w_bad content]. rewrite V4, V5 in E. apply dev_write_over in E; [|exact V3].
    subst c. rewrite V4, skipn_length. repeat split. lia.
Qed.

End AnyCodec.
Arguments sync_inv {cd}.
Arguments put_inv {cd}.
Arguments put_good {cd}.
Arguments set_fd_inv {cd}.
Arguments sync_plain {cd}.
Notation winv := (winv_ CNone).

Lemma flush_inv d old acc x : winv old acc x -> winv old acc (w_flush d x).
Proof.
  intros V. destruct x as [f w]. unfold w_flush. cbn [fst snd].
  assert (V1 : winv old acc (f, set_fd_direct false w)) by now apply set_fd_inv.
  destruct (w_bad _).
  - cbn [fst snd]. now apply set_fd_inv.
  - apply (sync_inv d) in V1. destruct (sync d (f, set_fd_direct false w)) as [f1 w1]. cbn [fst snd]. now apply set_fd_inv.
Qed.

Lemma flush_conf d x : w_size (snd (w_flush d x)) = w_size (snd x) /\ w_use_direct (snd (w_flush d x)) = w_use_direct (snd x) /\
  w_fd_direct (snd (w_flush d x)) = w_use_direct (snd x).
Proof.
  unfold w_flush. cbn [fst snd]. destruct (w_bad _); cbn [fst snd set_fd_direct w_size w_use_direct w_fd_direct]; auto.
  destruct (sync_conf d (fst x, set_fd_direct false (snd x))) as (E1 & E2 & _). rewrite E1, E2. cbn. auto.
Qed.

Lemma flush_good d old acc x : winv old acc x -> w_bad (snd x) = false -> (length acc <= d_room d)%nat ->
  content (fst (w_flush d x)) = over acc old /\ w_buf (snd (w_flush d x)) = [] /\ w_off (snd (w_flush d x)) = length acc /\
  w_bad (snd (w_flush d x)) = false.
Proof.
  intros V B R. destruct x as [f w]. unfold w_flush. cbn [fst snd] in *.
  assert (E : w_bad (set_fd_direct false w) = w_bad w) by reflexivity. rewrite E, B.
  pose proof (sync_plain d old acc f (set_fd_direct false w) (set_fd_inv _ _ _ _ _ V) eq_refl R) as (P1 & P2 & P3 & P4).
  destruct (sync d (f, set_fd_direct false w)) as [f1 w1]. cbn [fst snd] in *. cbn [set_fd_direct w_buf w_off w_bad].
  rewrite P4, E. auto.
Qed.

Lemma write_none d bs old acc x : winv old acc x -> w_write d bs x = (negb (w_bad (snd (put d bs x))), put d bs x).
Proof. intros [V1 V2 _ _ _]. unfold w_write. rewrite V1, V2. reflexivity. Qed.

(** ** Lists of operations *)

Lemma firstn_self {A} k (l m : list A) : m = firstn k l -> m = firstn (length m) l.
Proof.
  intros ->. rewrite firstn_length. destruct (Nat.le_gt_cases k (length l)) as [H|H].
  - now rewrite Nat.min_l by lia.
  - rewrite Nat.min_r by lia. rewrite firstn_all. apply firstn_all2. lia.
Qed.

(** Any run: the stream holds a prefix of what was written. *)
Lemma ops_prefix d ops : forall old pre acc x, winv old acc x -> (w_bad (snd x) = false -> acc = pre) -> (exists k, acc = firstn k pre) ->
  exists acc', winv old acc' (snd (w_ops d ops x)) /\ (w_bad (snd (snd (w_ops d ops x))) = false -> acc' = pre ++ written ops) /\
    exists k, acc' = firstn k (pre ++ written ops).
Proof.
  induction ops as [|[bs|] ops IH]; intros old pre acc x V N [k0 K0]; cbn [w_ops written].
  - exists acc. rewrite app_nil_r. eauto.
  - cbn [fst snd]. rewrite (write_none d bs old acc x V). cbn [fst snd].
    destruct (put_inv d bs old acc x V) as (k & V1 & F). rewrite app_assoc. apply (IH old (pre ++ bs) (acc ++ firstn k bs)).
    + exact V1.
    + intros B. destruct (w_bad (snd x)) eqn:Bx.
      * rewrite put_bad in B by exact Bx. congruence.
      * now rewrite (F B), (N eq_refl).
    + destruct (w_bad (snd x)) eqn:Bx.
      * exists (length acc). rewrite put_bad in V1 by exact Bx.
        assert (E : firstn k bs = []).
        { pose proof (v_buf _ _ _ V) as E1. pose proof (v_buf _ _ _ V1) as E2. rewrite E1, skipn_app in E2.
          pose proof (v_off _ _ _ V) as OL. replace (w_off (snd x) - length acc)%nat with 0%nat in E2 by lia. cbn [skipn] in E2.
          rewrite <- (app_nil_r (skipn _ acc)) in E2 at 1. apply app_inv_head in E2. auto. }
        rewrite E, app_nil_r. rewrite firstn_app. assert (L : (length acc <= length pre)%nat) by (rewrite K0, firstn_length; lia).
        replace (length acc - length pre)%nat with 0%nat by lia. cbn [firstn]. rewrite app_nil_r. exact (firstn_self _ _ _ K0).
      * rewrite (N eq_refl). exists (length pre + k)%nat. rewrite firstn_app_2. reflexivity.
  - apply (IH old pre acc); eauto using flush_inv. intros B. apply N. destruct (w_bad (snd x)) eqn:Bx; auto.
    unfold w_flush in B. cbn [fst snd] in B. assert (E : w_bad (set_fd_direct false (snd x)) = true) by exact Bx. rewrite E in B. cbn [snd set_fd_direct w_bad] in B. congruence.
Qed.

(** A run that meets the conditions. *)
Lemma ops_good d direct ops : forall old acc x, winv old acc x -> good d x -> w_use_direct (snd x) = direct -> w_fd_direct (snd x) = direct ->
  (direct = true -> flushes_aligned (d_align d) (length acc) ops) -> (length (acc ++ written ops) <= d_room d)%nat ->
  Forall (eq true) (fst (w_ops d ops x)) /\ winv old (acc ++ written ops) (snd (w_ops d ops x)) /\ good d (snd (w_ops d ops x)) .
Proof.
  induction ops as [|[bs|] ops IH]; intros old acc x V G U D A R; cbn [w_ops written fst snd].
  - rewrite app_nil_r. auto.
  - cbn [flushes_aligned written] in *. rewrite !app_length in R. rewrite (write_none d bs old acc x V). cbn [fst snd].
    destruct (put_good d bs old acc x V G) as [V1 G1]; [lia|]. destruct (put_conf d bs x) as (C1 & C2 & C3).
    destruct (IH old (acc ++ bs) (put d bs x)) as (I1 & I2 & I3); auto; try congruence.
    + now rewrite app_length.
    + rewrite !app_length. lia.
    + rewrite (g_bad _ _ G1). rewrite <- app_assoc in I2. auto.
  - cbn [flushes_aligned written] in *. assert (R1 : (length acc <= d_room d)%nat) by (rewrite app_length in R; lia).
    pose proof (flush_good d old acc x V (g_bad _ _ G) R1) as (P1 & P2 & P3 & P4). destruct (flush_conf d x) as (C1 & C2 & C3).
    destruct (IH old acc (w_flush d x)) as (I1 & I2 & I3); auto using flush_inv; try congruence.
    + constructor; auto.
      * rewrite C1. exact (g_size _ _ G).
      * rewrite P2. cbn. lia.
      * rewrite C3, C1, P3. intros Du. assert (direct = true) by congruence. destruct (g_dir _ _ G) as (A1 & A2 & A3); [congruence|].
        destruct (A H). auto.
    + intros E. apply A. exact E.
Qed.

Lemma close_good enc d old acc x : winv old acc x -> (length acc <= d_room d)%nat -> content (fst (w_close enc d x)) = over acc old.
Proof.
  intros V R. pose proof (v_none _ _ _ V) as N. destruct x as [f w]. unfold w_close. cbn [fst snd] in *. cbn [set_fd_direct w_codec]. rewrite N.
  fold (set_fd_direct false w). pose proof (sync_plain d old acc f (set_fd_direct false w) (set_fd_inv _ _ _ _ _ V) eq_refl R) as (P1 & _).
  exact P1.
Qed.

(** Results: successes first, then failures. *)
Lemma write_bad_false d bs x : w_bad (snd x) = true -> fst (w_write d bs x) = false /\ w_bad (snd (snd (w_write d bs x))) = true.
Proof.
  intros B. unfold w_write. destruct (w_open (snd x)); cbn [negb fst snd]; [|auto].
  destruct (w_codec (snd x)); rewrite ?(put_bad d bs x B); rewrite ?B; cbn [fst snd negb]; rewrite ?B; auto.
Qed.
Lemma flush_bad d x : w_bad (snd x) = true -> w_bad (snd (w_flush d x)) = true.
Proof. intros B. unfold w_flush. cbn [fst snd]. assert (E : w_bad (set_fd_direct false (snd x)) = true) by exact B. rewrite E. exact E. Qed.

Lemma ops_bad d ops : forall x, w_bad (snd x) = true -> Forall (eq false) (fst (w_ops d ops x)).
Proof.
  induction ops as [|[bs|] ops IH]; intros x B; cbn [w_ops fst snd]; auto.
  - destruct (write_bad_false d bs x B) as [F1 F2]. constructor; auto.
  - auto using flush_bad.
Qed.

(** A write on an open writer that returns false leaves the stream bad. *)
Lemma write_open d bs x : w_open (snd x) = true -> w_open (snd (snd (w_write d bs x))) = true /\
  (fst (w_write d bs x) = false -> w_bad (snd (snd (w_write d bs x))) = true).
Proof.
  intros O. unfold w_write. rewrite O. cbn [negb fst snd].
  assert (P : forall bs x, w_open (snd x) = true -> w_open (snd (put d bs x)) = true).
  { clear. induction bs as [|b bs IH]; intros x O; cbn [put]; auto. destruct (w_bad (snd x)); auto.
    assert (O1 : w_open (snd (if (length (w_buf (snd x)) =? w_size (snd x))%nat then sync d x else x)) = true).
    { destruct (_ =? _)%nat; auto. unfold sync. destruct (w_buf (snd x)); auto. destruct (dev_write _ _ _ _ _); auto. }
    destruct (w_bad _); auto. }
  split.
  - destruct (w_codec (snd x)); auto; destruct (w_bad (snd x)); auto.
  - intros N. destruct (w_bad _); auto; discriminate.
Qed.
Lemma sync_open d x : w_open (snd (sync d x)) = w_open (snd x).
Proof. destruct x as [f w]. destruct (sync_cases d f w) as [[_ ->]|[_ ->]]; [reflexivity|]. now destruct (dev_write _ _ _ _ _). Qed.
Lemma flush_open d x : w_open (snd (w_flush d x)) = w_open (snd x).
Proof. unfold w_flush. cbn [fst snd]. destruct (w_bad _); cbn [snd fst set_fd_direct w_open]; auto. now rewrite sync_open. Qed.

Lemma ops_open d ops : forall x, w_open (snd x) = true -> w_open (snd (snd (w_ops d ops x))) = true.
Proof.
  induction ops as [|[bs|] ops IH]; intros x O; cbn [w_ops fst snd]; auto.
  - apply IH. now apply write_open.
  - apply IH. now rewrite flush_open.
Qed.

Lemma ops_sticky d ops : forall x, w_open (snd x) = true -> exists a b, fst (w_ops d ops x) = repeat true a ++ repeat false b.
Proof.
  induction ops as [|[bs|] ops IH]; intros x Op; cbn [w_ops fst snd].
  - exists 0%nat, 0%nat. reflexivity.
  - destruct (write_open d bs x Op) as [O1 F]. destruct (fst (w_write d bs x)) eqn:E.
    + destruct (IH _ O1) as (a & b & R). exists (S a), b. now rewrite R.
    + exists 0%nat, (S (length (fst (w_ops d ops (snd (w_write d bs x)))))). cbn [repeat app]. f_equal.
      pose proof (ops_bad d ops _ (F eq_refl)) as A. clear -A. induction A as [|y l <- _ IH]; cbn; congruence.
  - apply IH. now rewrite flush_open.
Qed.


(** ** A flush at an offset that is not a multiple of the block size *)

Lemma put_fill d bs : forall f w, w_bad w = false -> (length (w_buf w) + length bs <= w_size w)%nat ->
  put d bs (f, w) = (f, set_stream (w_buf w ++ bs) (w_plain w) (w_off w) false w).
Proof.
  induction bs as [|b bs IH]; intros f w B L; cbn [put fst snd].
  - rewrite app_nil_r. destruct w. cbn in *. subst. reflexivity.
  - cbn [length] in L. rewrite B. destruct (Nat.eqb_spec (length (w_buf w)) (w_size w)); [lia|]. cbn [fst snd]. rewrite B.
    rewrite IH; cbn [set_stream w_bad w_buf w_size w_plain w_off w_open w_use_direct w_fd_direct w_codec]; auto.
    + rewrite <- app_assoc. reflexivity.
    + rewrite app_length. cbn. lia.
Qed.

Lemma put_app d a : forall b x, put d (a ++ b) x = put d b (put d a x).
Proof.
  induction a as [|h a IH]; intros b x; cbn [app put]; auto. destruct (w_bad (snd x)) eqn:B; [now rewrite put_bad|].
  set (x1 := if (length (w_buf (snd x)) =? w_size (snd x))%nat then sync d x else x).
  destruct (w_bad (snd x1)) eqn:B1; [now rewrite put_bad|]. apply IH.
Qed.

Lemma direct_unaligned d bs f w : w_bad w = false -> w_buf w = [] -> w_fd_direct w = true -> (0 < w_size w)%nat ->
  (w_off w mod d_align d <> 0)%nat -> (w_size w < length bs)%nat -> w_bad (snd (put d bs (f, w))) = true.
Proof.
  intros B E D S0 M L. rewrite <- (firstn_skipn (w_size w) bs), put_app.
  assert (Lf : length (firstn (w_size w) bs) = w_size w) by (rewrite firstn_length; lia).
  rewrite put_fill by (rewrite ?E; cbn [length]; auto; lia). rewrite E. cbn [app].
  destruct (skipn (w_size w) bs) as [|b bs'] eqn:K.
  { assert (Hl : length (skipn (w_size w) bs) = 0%nat) by now rewrite K. rewrite skipn_length in Hl. lia. }
  cbn [put snd fst set_stream w_bad w_buf w_size]. rewrite Lf, Nat.eqb_refl.
  match goal with |- context[sync d (f, ?w1)] => destruct (sync_cases d f w1) as [[N _]|[_ R]]; set (w2 := w1) in * end.
  { cbn in N. rewrite N in Lf. cbn in Lf. lia. }
  assert (F : dev_write d (w_fd_direct w2) (w_off w2) (w_buf w2) (content f) = None).
  { unfold dev_write, w2. cbn [set_stream w_fd_direct w_off w_buf]. rewrite D. destruct (Nat.eqb_spec (w_off w mod d_align d) 0); [congruence|reflexivity]. }
  rewrite R, F. cbn [snd set_stream w_bad]. reflexivity.
Qed.

(** ** Reading *)

Lemma read_step size bytes k : (0 < size)%nat ->
  let n := (length bytes / size)%nat in
  let st k := if (n <? k)%nat then mk_r true [] true else mk_r true (skipn (k * size) bytes) false in
  (k <= n -> exists d, r_read size (st k) = (kth_read size bytes k, mk_r true d (negb (k <? n)%nat)) /\ ((k < n)%nat -> d = skipn (S k * size) bytes))%nat.
Proof.
  intros S0 n st K. unfold st. destruct (Nat.ltb_spec n k); [lia|]. unfold r_read. cbn [r_open r_fail negb r_data].
  assert (Hn : (n * size <= length bytes < n * size + size)%nat).
  { unfold n. pose proof (Nat.div_mod_eq (length bytes) size). pose proof (Nat.mod_upper_bound (length bytes) size). nia. }
  exists (skipn size (skipn (k * size) bytes)). split.
  - unfold kth_read. fold n. destruct (Nat.ltb_spec k n) as [Hk|Hk].
    + assert (L : length (firstn size (skipn (k * size) bytes)) = size) by (rewrite firstn_length, skipn_length; nia).
      rewrite L, Nat.eqb_refl. destruct (Nat.ltb_spec size size); [lia|]. reflexivity.
    + assert (k = n) by lia. subst k. rewrite Nat.eqb_refl.
      assert (L : (length (firstn size (skipn (n * size) bytes)) < size)%nat) by (rewrite firstn_length, skipn_length; nia).
      destruct (Nat.eqb_spec (length (firstn size (skipn (n * size) bytes))) size); [lia|].
      destruct (Nat.ltb_spec (length (firstn size (skipn (n * size) bytes))) size); [|lia].
      rewrite firstn_all2 by (rewrite skipn_length; lia). reflexivity.
  - intros _. rewrite skipn_skipn_. f_equal. lia.
Qed.

Lemma reads_failed size n : forall r, r_open r = true -> r_fail r = true ->
  fst (r_reads size n r) = repeat (false, []) n.
Proof. induction n as [|n IH]; intros r O F; cbn [r_reads fst snd repeat]; auto. unfold r_read. rewrite O, F. cbn [negb fst snd]. f_equal. auto. Qed.

Lemma reads_all size bytes : (0 < size)%nat -> forall m k, (k <= length bytes / size)%nat ->
  fst (r_reads size m (mk_r true (skipn (k * size) bytes) false)) = map (kth_read size bytes) (seq k m).
Proof.
  intros S0. induction m as [|m IH]; intros k K; cbn [r_reads fst snd seq map]; auto.
  destruct (read_step size bytes k S0 K) as (dd & E & N). destruct (Nat.ltb_spec (length bytes / size) k); [lia|]. rewrite E. cbn [fst snd].
  f_equal. destruct (Nat.ltb_spec k (length bytes / size)) as [Hk|Hk]; cbn [negb].
  - rewrite (N Hk). apply IH. lia.
  - rewrite reads_failed by reflexivity. clear E N IH. assert (E : k = (length bytes / size)%nat) by lia.
    assert (G : forall j, (length bytes / size < j)%nat -> repeat (false, []) m = map (kth_read size bytes) (seq j m)).
    { induction m as [|m IHm]; intros j Hj; cbn [repeat seq map]; auto. rewrite (IHm (S j)) by lia. f_equal. unfold kth_read.
      destruct (Nat.ltb_spec j (length bytes / size)); [lia|]. destruct (Nat.eqb_spec j (length bytes / size)); [lia|]. reflexivity. }
    apply G. lia.
Qed.

(** ** The recorder *)

Lemma i32_step z : i32 (i32 z + 1) = i32 (z + 1).
Proof.
  unfold i32. replace ((z + 2147483648) mod two32 - 2147483648 + 1 + 2147483648) with ((z + 2147483648) mod two32 + 1) by lia.
  rewrite Zplus_mod_idemp_l. replace (z + 2147483648 + 1) with (z + 1 + 2147483648) by lia. reflexivity.
Qed.

Lemma rec_loop_any d evs : forall s x z y, rc_total s = i32 z -> rc_since s = i32 y ->
  exists n, (n <= length (pops evs))%nat /\
    let q := rec_loop d evs s x in let r := w_ops d (map OWrite (firstn n (pops evs))) x in
    rc_popped (fst q) = rc_popped s ++ firstn n (pops evs) /\ rc_total (fst q) = i32 (z + Z.of_nat n) /\
    rc_since (fst q) = i32 (y + Z.of_nat n) /\ snd q = snd r /\
    ((n = length (pops evs) /\ fst r = repeat true n) \/ (exists m, n = S m /\ fst r = repeat true m ++ [false])).
Proof.
  induction evs as [|[e|] evs IH]; intros s x z y Z1 Z2; cbn [rec_loop pops].
  - exists 0%nat. cbn. rewrite app_nil_r, !Z.add_0_r. repeat split; auto.
  - set (s1 := mk_rec (i32 (rc_total s + 1)) (i32 (rc_since s + 1)) (rc_popped s ++ [e])). destruct (fst (w_write d e x)) eqn:F.
    + destruct (IH s1 (snd (w_write d e x)) (z + 1) (y + 1)) as (n & L & P1 & P2 & P3 & P4 & P5).
      { cbn. rewrite Z1. apply i32_step. } { cbn. rewrite Z2. apply i32_step. }
      exists (S n). cbn [length firstn map w_ops]. cbn zeta in *. split; [lia|]. rewrite P1, P2, P3, P4. cbn [fst snd s1 rc_popped]. rewrite F.
      split; [now rewrite <- app_assoc|]. split; [f_equal; lia|]. split; [f_equal; lia|]. split; [reflexivity|].
      destruct P5 as [[-> ->]|(m & -> & ->)]; [left; auto|right]. exists (S m). auto.
    + exists 1%nat. cbn [length firstn map w_ops fst snd]. rewrite F. split; [lia|]. split; [reflexivity|]. unfold s1. cbn [rc_total rc_since]. rewrite Z1, Z2, !i32_step. repeat split; auto.
      right. exists 0%nat. auto.
  - destruct (IH s x z y Z1 Z2) as (n & P). exists n. exact P.
Qed.

Lemma ops_app d a : forall b x, w_ops d (a ++ b) x =
  (fst (w_ops d a x) ++ fst (w_ops d b (snd (w_ops d a x))), snd (w_ops d b (snd (w_ops d a x)))).
Proof.
  induction a as [|[bs|] a IH]; intros b x; cbn [app w_ops fst snd].
  - now destruct (w_ops d b x).
  - rewrite IH. reflexivity.
  - apply IH.
Qed.

(** The results of a prefix of the operations. *)
Lemma ops_results_length d ops : forall x, length (fst (w_ops d ops x)) = length (filter (fun o => match o with OWrite _ => true | OFlush => false end) ops).
Proof. induction ops as [|[bs|] ops IH]; intros x; cbn [w_ops fst snd filter length]; auto. Qed.

Lemma rec_loop_good d evs s x z y : rc_total s = i32 z -> rc_since s = i32 y ->
  Forall (eq true) (fst (w_ops d (map OWrite (pops evs)) x)) ->
  rec_loop d evs s x = (mk_rec (i32 (z + Z.of_nat (length (pops evs)))) (i32 (y + Z.of_nat (length (pops evs)))) (rc_popped s ++ pops evs),
                        snd (w_ops d (map OWrite (pops evs)) x)).
Proof.
  intros Z1 Z2 A. destruct (rec_loop_any d evs s x z y Z1 Z2) as (n & L & P1 & P2 & P3 & P4 & P5). cbn zeta in *.
  assert (n = length (pops evs)).
  { destruct P5 as [[E _]|(m & -> & E)]; [auto|]. exfalso.
    rewrite <- (firstn_skipn (S m) (pops evs)), map_app, ops_app in A. cbn [fst] in A. rewrite E in A. rewrite <- app_assoc in A.
    apply Forall_app in A as [_ A]. cbn in A. inversion A. discriminate. }
  subst n. rewrite firstn_all in *. destruct (rec_loop d evs s x) as [[a b c] x1]. cbn [fst snd rc_total rc_since rc_popped] in *. congruence.
Qed.

(** ** With a compressor *)

Record cinv (c : codec) (old plain : list Z) (x : world) : Prop := mk_cinv {
  c_inv : winv_ c old [] x; c_plain : w_plain (snd x) = plain; c_bad : w_bad (snd x) = false; c_size : (0 < w_size (snd x))%nat
}.

Lemma cinv_ops d c ops : c <> CNone -> forall old plain x, cinv c old plain x ->
  Forall (eq true) (fst (w_ops d ops x)) /\ cinv c old (plain ++ written ops) (snd (w_ops d ops x)).
Proof.
  intros N. induction ops as [|[bs|] ops IH]; intros old plain x C; cbn [w_ops written fst snd].
  - rewrite app_nil_r. auto.
  - destruct C as [[V1 V2 V3 V4 V5] C2 C3 C4]. assert (E : w_write d bs x = (true, (fst x, set_stream (w_buf (snd x)) (plain ++ bs) (w_off (snd x)) false (snd x)))).
    { unfold w_write. rewrite V1, V2, C3. cbn [negb]. rewrite C2. destruct c; [congruence|reflexivity..]. }
    rewrite E. cbn [fst snd]. destruct (IH old (plain ++ bs) (fst x, set_stream (w_buf (snd x)) (plain ++ bs) (w_off (snd x)) false (snd x))) as [I1 I2].
    { constructor; cbn [snd set_stream w_plain w_bad w_size]; auto. constructor; auto. }
    rewrite <- app_assoc in I2. auto.
  - apply IH. destruct C as [V C2 C3 C4]. pose proof V as [V1 V2 V3 V4 V5]. destruct x as [f w]. cbn [fst snd] in *. unfold w_flush. cbn [fst snd].
    assert (E : w_bad (set_fd_direct false w) = false) by exact C3. rewrite E.
    assert (B : w_buf (set_fd_direct false w) = []) by (change (w_buf w = []); rewrite V4; apply skipn_nil).
    destruct (sync_cases d f (set_fd_direct false w)) as [[_ S]|[S _]]; [|congruence]. rewrite S. cbn [fst snd].
    constructor; auto. apply set_fd_inv. now apply set_fd_inv.
Qed.

Lemma cinv_close enc d c old plain x : c <> CNone -> cinv c old plain x -> (length (enc c plain) <= d_room d)%nat ->
  content (fst (w_close enc d x)) = over (enc c plain) old.
Proof.
  intros N [V C2 C3 C4] R. destruct x as [f w]. cbn [fst snd] in *. unfold w_close. cbn [fst snd].
  assert (E : w_codec (set_fd_direct false w) = c) by exact (v_none _ _ _ V). rewrite E.
  assert (P : w_plain (set_fd_direct false w) = plain) by exact C2. rewrite P.
  assert (V1 : winv_ c old [] (f, set_fd_direct false w)) by now apply set_fd_inv.
  assert (B : w_buf w = []). { pose proof (v_buf _ _ _ V) as B. cbn [fst snd] in B. rewrite B. apply skipn_nil. }
  assert (G : good d (f, set_fd_direct false w)).
  { constructor; cbn [snd set_fd_direct w_bad w_size w_buf w_fd_direct w_off]; auto; [|discriminate]. rewrite B. cbn. lia. }
  destruct (put_good d (enc c plain) old [] _ V1 G) as [V2 G2]; [cbn; lia|]. cbn [app] in V2.
  destruct (put_conf d (enc c plain) (f, set_fd_direct false w)) as (_ & _ & D).
  destruct (put d (enc c plain) (f, set_fd_direct false w)) as [f2 w2] eqn:X.
  pose proof (sync_plain d old (enc c plain) f2 w2 V2 D R) as (S1 & _).
  destruct c; [congruence| | |]; cbn [fst snd]; rewrite X; exact S1.
Qed.
