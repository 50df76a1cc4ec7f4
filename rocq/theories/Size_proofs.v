(** Proofs about rings of any configured size. *)
From Coq Require Import ZArith List Bool Lia ZifyBool.
From Verif Require Import Base_model Ring_model Size_model Size_spec.
Import ListNotations.
Open Scope Z_scope.

Section Proofs.
Context {A : Type}.

(** The slot [k] places after slot [r] in a ring of [m] slots. *)
Definition at_ (m r k : Z) : Z := if r + k <? m then r + k else r + k - m.

Lemma slots_range : forall n, 1 <= slots_of n <= 4294967296.
Proof. intros n. unfold slots_of. change (2 ^ 32) with 4294967296. pose proof (Z.mod_pos_bound n 4294967296 ltac:(lia)). destruct (n mod 4294967296 =? 0) eqn:E; lia. Qed.

Lemma next_ok : forall n i, 0 <= i < slots_of n -> next_index (u32 n) i = at_ (slots_of n) i 1.
Proof.
  intros n i H. unfold next_index, at_, slots_of, u32 in *. change (2 ^ 32) with 4294967296 in *. change two32 with 4294967296.
  pose proof (Z.mod_pos_bound n 4294967296 ltac:(lia)).
  destruct (n mod 4294967296 =? 0) eqn:E.
  - destruct (Z.eq_dec i 4294967295) as [->|N].
    + change ((4294967295 + 1) mod 4294967296) with 0. destruct (0 =? n mod 4294967296) eqn:E2; [reflexivity|lia].
    + rewrite (Z.mod_small (i + 1)) by lia. destruct (i + 1 =? n mod 4294967296) eqn:E2; [lia|]. destruct (i + 1 <? 4294967296) eqn:E3; lia.
  - rewrite (Z.mod_small (i + 1)) by lia. destruct (i + 1 =? n mod 4294967296) eqn:E2; destruct (i + 1 <? n mod 4294967296) eqn:E3; lia.
Qed.

(** The ring holds [l], oldest first. *)
Record holds (n : Z) (r : ring A) (l : list A) : Prop := mk_holds {
  h_size : r_size r = u32 n;
  h_read : 0 <= r_read r < slots_of n;
  h_len : Z.of_nat (length l) < slots_of n;
  h_write : r_write r = at_ (slots_of n) (r_read r) (Z.of_nat (length l));
  h_live : forall k x, nth_error l k = Some x -> r_slots r (at_ (slots_of n) (r_read r) (Z.of_nat k)) = Some x;
  h_free : forall k, Z.of_nat (length l) <= k < slots_of n -> r_slots r (at_ (slots_of n) (r_read r) k) = None
}.

Lemma at_range : forall m r k, 0 <= r < m -> 0 <= k < m -> 0 <= at_ m r k < m.
Proof. intros m r k H H'. unfold at_. destruct (r + k <? m) eqn:E; lia. Qed.

Lemma at_inj : forall m r j k, 0 <= r < m -> 0 <= j < m -> 0 <= k < m -> at_ m r j = at_ m r k -> j = k.
Proof. intros m r j k. unfold at_. intros. destruct (r + j <? m) eqn:E1; destruct (r + k <? m) eqn:E2; lia. Qed.

Lemma at_succ : forall m r k, 0 <= r < m -> 0 <= k < m -> at_ m (at_ m r k) 1 = at_ m r (k + 1) \/ k + 1 = m /\ at_ m (at_ m r k) 1 = r.
Proof. intros m r k. unfold at_. intros. destruct (r + k <? m) eqn:E1; destruct (r + (k + 1) <? m) eqn:E2; destruct (_ + 1 <? m) eqn:E3; lia. Qed.

Lemma at_next : forall m r k, 0 <= r < m -> 0 <= k -> k + 1 < m -> at_ m (at_ m r 1) k = at_ m r (k + 1).
Proof. intros m r k. unfold at_. intros. destruct (r + 1 <? m) eqn:E1; destruct (r + (k + 1) <? m) eqn:E2; destruct (_ + k <? m) eqn:E3; lia. Qed.

Lemma at_full : forall m r, 0 <= r < m -> at_ m (at_ m r 1) (m - 1) = r.
Proof. intros m r. unfold at_. intros. destruct (r + 1 <? m) eqn:E1; destruct (_ + (m - 1) <? m) eqn:E3; lia. Qed.

Lemma holds_new : forall n, holds n (mk_ring (u32 n) (fun _ => None) 0 0 0) [].
Proof.
  intros n. pose proof (slots_range n). constructor; cbn; try lia; try reflexivity.
  - unfold at_. destruct (0 + 0 <? slots_of n) eqn:E; lia.
  - intros [|k] x; discriminate.
Qed.

Lemma empty_ok : forall n r l, holds n r l -> (r_read r =? r_write r) = match l with [] => true | _ => false end.
Proof.
  intros n r l H. pose proof (h_read _ _ _ H). pose proof (h_len _ _ _ H). rewrite (h_write _ _ _ H). unfold at_.
  destruct l as [|x l]; cbn [length] in *; destruct (_ <? _) eqn:E; lia.
Qed.

Lemma full_ok : forall n r l, holds n r l -> (next_index (r_size r) (r_write r) =? r_read r) = (Z.of_nat (length l) =? room n).
Proof.
  intros n r l H. pose proof (h_read _ _ _ H) as R. pose proof (h_len _ _ _ H) as L. pose proof (at_range _ _ (Z.of_nat (length l)) R ltac:(lia)) as P.
  rewrite (h_size _ _ _ H), (h_write _ _ _ H), (next_ok n) by exact P. unfold room, at_ in *.
  destruct (r_read r + Z.of_nat (length l) <? slots_of n) eqn:E1; destruct (_ + 1 <? slots_of n) eqn:E2; lia.
Qed.

Lemma write_ok : forall n r l x, holds n r l ->
  if Z.of_nat (length l) <? room n then exists r', write x r = Ok (r', true) /\ holds n r' (l ++ [x])
  else exists r', write x r = Ok (r', false) /\ holds n r' l.
Proof.
  intros n r l x H. pose proof (h_read _ _ _ H) as R. pose proof (h_len _ _ _ H) as L. pose proof (full_ok _ _ _ H) as F.
  pose proof (at_range _ _ (Z.of_nat (length l)) R ltac:(lia)) as P. unfold write. rewrite F. destruct (Z.of_nat (length l) <? room n) eqn:C.
  - replace (Z.of_nat (length l) =? room n) with false by lia. cbn [negb].
    assert (FR : r_slots r (r_write r) = None) by (rewrite (h_write _ _ _ H); apply (h_free _ _ _ H); lia). rewrite FR. clear F. eexists. split; [reflexivity|]. unfold room in C.
    constructor; cbn [r_size r_read r_write r_slots].
    + exact (h_size _ _ _ H).
    + exact R.
    + rewrite app_length. cbn. lia.
    + rewrite (h_size _ _ _ H), (h_write _ _ _ H), (next_ok n) by exact P. rewrite app_length. cbn [length]. rewrite Nat2Z.inj_add.
      destruct (at_succ (slots_of n) (r_read r) (Z.of_nat (length l)) R ltac:(lia)) as [E|[E _]]; [exact E|lia].
    + intros k y K. unfold upd. rewrite (h_write _ _ _ H). destruct (Nat.lt_ge_cases k (length l)) as [K1|K1].
      * rewrite nth_error_app1 in K by exact K1. destruct (_ =? _) eqn:Q; [|exact (h_live _ _ _ H k y K)].
        apply Z.eqb_eq, at_inj in Q; try assumption; try lia.
      * assert (k = length l) as -> by (pose proof (proj1 (nth_error_Some (l ++ [x]) k) ltac:(congruence)) as Z; rewrite app_length in Z; cbn in Z; lia).
        rewrite Z.eqb_refl. rewrite nth_error_app2, Nat.sub_diag in K by lia. cbn in K. congruence.
    + rewrite app_length. cbn [length]. intros k K. unfold upd. rewrite (h_write _ _ _ H). destruct (_ =? _) eqn:Q; [|apply (h_free _ _ _ H); lia].
      apply Z.eqb_eq, at_inj in Q; try assumption; lia.
  - replace (Z.of_nat (length l) =? room n) with true by (unfold room in *; lia). cbn [negb]. eexists. split; [reflexivity|].
    destruct H. constructor; assumption.
Qed.

Lemma taken : forall n r x l o, holds n r (x :: l) ->
  holds n (mk_ring (r_size r) (upd (r_slots r) (r_read r) None) (next_index (r_size r) (r_read r)) (r_write r) o) l.
Proof.
  intros n r x l o H. pose proof (h_read _ _ _ H) as R. pose proof (h_len _ _ _ H) as L. cbn [length] in L.
  assert (N : next_index (r_size r) (r_read r) = at_ (slots_of n) (r_read r) 1) by (rewrite (h_size _ _ _ H); apply next_ok; exact R).
  constructor; cbn [r_size r_read r_write r_slots]; rewrite ?N.
  - exact (h_size _ _ _ H).
  - apply at_range; lia.
  - lia.
  - rewrite (h_write _ _ _ H). cbn [length]. rewrite at_next by lia. f_equal. lia.
  - intros k y K. assert ((k < length l)%nat) by (apply nth_error_Some; congruence). rewrite at_next by lia. unfold upd.
    destruct (_ =? _) eqn:Q; [apply Z.eqb_eq in Q; unfold at_ in Q; destruct (_ <? _) eqn:E in Q; lia|].
    replace (Z.of_nat k + 1) with (Z.of_nat (S k)) by lia. apply (h_live _ _ _ H (S k)). exact K.
  - intros k K. destruct (Z.eq_dec k (slots_of n - 1)) as [->|D].
    + rewrite at_full by exact R. unfold upd. rewrite Z.eqb_refl. reflexivity.
    + rewrite at_next by lia. unfold upd. destruct (_ =? _); [reflexivity|]. apply (h_free _ _ _ H). cbn [length]. lia.
Qed.

Lemma oldest : forall n r x l, holds n r (x :: l) -> r_slots r (r_read r) = Some x.
Proof.
  intros n r x l H. pose proof (h_read _ _ _ H) as R. pose proof (h_live _ _ _ H 0%nat x eq_refl) as E. cbn in E. unfold at_ in E. rewrite Z.add_0_r in E.
  destruct (_ <? _) eqn:Q in E; [exact E|lia].
Qed.

Lemma read_ok : forall n r l, holds n r l ->
  match l with [] => read r = Ok (r, None) | x :: l' => exists r', read r = Ok (r', Some x) /\ holds n r' l' end.
Proof.
  intros n r l H. pose proof (empty_ok _ _ _ H) as E. unfold read. rewrite E. destruct l as [|x l]; [reflexivity|].
  rewrite (oldest _ _ _ _ H). eexists. split; [reflexivity|]. apply taken with (x := x). exact H.
Qed.

Lemma pop_ok : forall n k r l, holds n r l ->
  if (k <=? length l)%nat then exists r', pop k r = Ok r' /\ holds n r' (skipn k l) else pop k r = Crash.
Proof.
  intros n k. induction k as [|k IH]; intros r l H; cbn [pop].
  - exists r. split; [reflexivity|exact H].
  - unfold popFront. rewrite (empty_ok _ _ _ H). destruct l as [|x l]; [reflexivity|]. rewrite (oldest _ _ _ _ H).
    specialize (IH _ l (taken _ _ _ _ (r_overflow r) H)). cbn [length]. change (S k <=? S (length l))%nat with (k <=? length l)%nat. exact IH.
Qed.

Definition enough (n c : Z) : Prop := slots_of n <= c \/ slots_of n = 1.

Lemma step_ok : forall n s l o, holds n (z_ring s) l -> enough n (z_cells s) ->
  match fifo_step (room n) l o with
  | None => size_step s o = Crash
  | Some (l', y) => exists s', size_step s o = Ok (s', y) /\ holds n (z_ring s') l' /\ z_cells s' = z_cells s
  end.
Proof.
  intros n s l o H En. destruct o as [x| |k| |]; cbn [fifo_step size_step].
  - pose proof (write_ok n _ l x H) as W. pose proof (h_read _ _ _ H) as R. pose proof (h_len _ _ _ H) as L.
    pose proof (at_range _ _ (Z.of_nat (length l)) R ltac:(lia)) as P. rewrite <- (h_write _ _ _ H) in P. unfold size_write.
    destruct (Z.of_nat (length l) <? room n) eqn:C; destruct W as (r' & -> & W).
    + assert (r_write (z_ring s) <? z_cells s = true) as -> by (unfold room in C; destruct En; lia). eexists. split; [reflexivity|]. split; [exact W|reflexivity].
    + eexists. split; [reflexivity|]. split; [exact W|reflexivity].
  - pose proof (read_ok n _ l H) as W. destruct l as [|x l].
    + rewrite W. eexists. split; [reflexivity|]. split; [exact H|reflexivity].
    + destruct W as (r' & -> & W). eexists. split; [reflexivity|]. split; [exact W|reflexivity].
  - pose proof (pop_ok n k _ l H) as W. destruct (k <=? length l)%nat.
    + destruct W as (r' & -> & W). eexists. split; [reflexivity|]. split; [exact W|reflexivity].
    + rewrite W. reflexivity.
  - unfold isEmpty. rewrite (empty_ok _ _ _ H). exists s. split; [reflexivity|]. split; [exact H|reflexivity].
  - unfold isFull. rewrite (full_ok _ _ _ H). exists s. split; [|split; [exact H|reflexivity]]. destruct (_ =? _); reflexivity.
Qed.

Lemma run_ok : forall n ops s l, holds n (z_ring s) l -> enough n (z_cells s) ->
  match fifo_run (room n) l ops with
  | None => size_run s ops = Crash
  | Some (l', ys) => exists s', size_run s ops = Ok (s', ys) /\ holds n (z_ring s') l'
  end.
Proof.
  intros n ops. induction ops as [|o ops IH]; intros s l H En; cbn [fifo_run size_run].
  - exists s. split; [reflexivity|exact H].
  - pose proof (step_ok n s l o H En) as S. destruct (fifo_step (room n) l o) as [[l1 y]|].
    + destruct S as (s1 & -> & H1 & C). specialize (IH s1 l1 H1 ltac:(rewrite C; exact En)). cbn. destruct (fifo_run (room n) l1 ops) as [[l2 ys]|].
      * destruct IH as (s2 & -> & H2). exists s2. split; [reflexivity|exact H2].
      * rewrite IH. reflexivity.
    + rewrite S. reflexivity.
Qed.

(** With too little memory: one element in and out at a time reaches every slot. *)
Lemma walks_out : forall n c x k s, holds n (z_ring s) [] -> z_cells s = c -> 1 < slots_of n -> 0 <= c < slots_of n -> r_read (z_ring s) = c - Z.of_nat k -> Z.of_nat k <= c ->
  size_run s (concat (repeat [SWrite x; SPop 1] k) ++ [SWrite x]) = Crash.
Proof.
  intros n c x k. induction k as [|k IH]; intros s H C M Hc R K.
  - pose proof (write_ok n _ [] x H) as W. cbn [length] in W. replace (Z.of_nat 0 <? room n) with true in W by (unfold room; lia). destruct W as (r' & E & _).
    cbn. unfold size_write. rewrite E. pose proof (h_write _ _ _ H) as Q. cbn in Q. unfold at_ in Q. destruct (_ <? slots_of n) eqn:B in Q; [|lia].
    replace (r_write (z_ring s) <? z_cells s) with false by lia. reflexivity.
  - pose proof (write_ok n _ [] x H) as W. cbn [length] in W. replace (Z.of_nat 0 <? room n) with true in W by (unfold room; lia). destruct W as (r' & E & H').
    pose proof (h_write _ _ _ H) as Q. cbn in Q. unfold at_ in Q. destruct (_ <? slots_of n) eqn:B in Q; [|lia].
    assert (RR : r_read r' = r_read (z_ring s)) by (unfold write in E; destruct (negb _); [destruct (r_slots _ _); [discriminate E|]; injection E as <-; reflexivity|discriminate E]).
    pose proof (pop_ok n 1 r' [x] H') as W. cbn [length Nat.leb skipn] in W. destruct W as (r2 & E2 & H2).
    assert (R2 : r_read r2 = r_read r' + 1).
    { cbn [pop] in E2. unfold popFront in E2. destruct (r_read r' =? r_write r'); [discriminate E2|]. destruct (r_slots r' (r_read r')); [|discriminate E2]. injection E2 as <-.
      cbn. rewrite (h_size _ _ _ H'), (next_ok n) by (exact (h_read _ _ _ H')). unfold at_. destruct (r_read r' + 1 <? slots_of n) eqn:B2; lia. }
    cbn [repeat concat app size_run size_step]. unfold size_write. rewrite E. replace (r_write (z_ring s) <? z_cells s) with true by lia. cbn [z_ring z_cells].
    cbn [bind z_ring z_cells]. rewrite E2. cbn [bind]. rewrite (IH (mk_sized r2 (z_cells s)) H2 C M Hc); [reflexivity|cbn [z_ring]; lia|lia].
Qed.

Lemma cells_enough : forall element n, 0 < element -> 0 <= n -> element * n < 2 ^ 64 -> cells element n = n.
Proof.
  intros element n He Hn H. unfold cells, u64. change two64 with (2 ^ 64). rewrite Z.mod_small by nia. rewrite Z.mul_comm. apply Z.div_mul. lia.
Qed.

Lemma slots_le : forall n, 1 <= n -> slots_of n <= n.
Proof.
  intros n H. unfold slots_of. change (2 ^ 32) with 4294967296. pose proof (Z.div_mod n 4294967296 ltac:(lia)). pose proof (Z.mod_pos_bound n 4294967296 ltac:(lia)).
  destruct (_ =? 0) eqn:E; [|pose proof (Z.mod_le n 4294967296); lia]. assert (n / 4294967296 <> 0) by lia. assert (0 <= n / 4294967296) by (apply Z.div_pos; lia). lia.
Qed.

End Proofs.
