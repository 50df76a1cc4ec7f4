From Coq Require Import ZArith List Bool Lia ZifyBool.
From Verif Require Import Base_model Ring_model Ring_spec Ring_proofs Record_model Record_spec Record_proofs Record_proofs2 Zcopy_model Zcopy_spec
  Zcopy_proofs Zcopy_proofs2 Zcopy_proofs3.
Import ListNotations.
Open Scope Z_scope.

Section Proofs.
Context {E : Type}.
Variable ts : E -> Z.
Variable limit : Z.
Variable quota : Z -> Z.
Variable n P chunk align addr0 : Z.
Hypothesis HP : 0 < P.
Hypothesis Hn : 2 <= n.
Hypothesis Hchunk : 0 <= chunk.
Hypothesis Halign : align <> 0.

Notation zrec_step := (zrec_step ts P chunk align addr0).
Notation zstep := (zstep ts limit quota P chunk align addr0).
Notation zrun := (zrun ts limit quota P chunk align addr0).
Notation zst := (@zstate E).
Notation Inv := (Inv ts n P align addr0).

Definition pending (s : zst) : Z := match z_pc s with ZCopy _ m _ _ | ZCopyLast _ m => m | _ => 0 end.
Definition cnt (s : zst) : Prop :=
  z_lost s = false -> z_open s = true -> z_short s = false -> z_counted s = Z.of_nat (length (z_file s)) + pending s.

Lemma pending_pos : forall s, Inv s -> z_lost s = false -> 0 <= pending s.
Proof.
  intros s (_ & HI) Hl. destruct (HI Hl) as (HP1 & _). unfold pc_ok in HP1. unfold pending.
  destruct (z_pc s); try lia.
  - destruct HP1 as (W & len & d & _ & _ & _ & Hm & _). exact Hm.
  - destruct HP1 as (W & len & d & _ & _ & _ & Hm & _). exact Hm.
Qed.

Lemma cnt_write : forall (s : zst) a len ret p, z_open s = true -> z_short s = false ->
  z_counted s = Z.of_nat (length (z_file s)) ->
  (forall m, match p m with ZCopy _ m' _ _ | ZCopyLast _ m' => m' | _ => 0 end = m) ->
  0 <= pending (zwrite s a len ret p) -> z_short (zwrite s a len ret p) = false ->
  z_counted (zwrite s a len ret p) = Z.of_nat (length (z_file (zwrite s a len ret p))) + pending (zwrite s a len ret p).
Proof.
  intros s a len ret p Ho Hs Hc Hp Hpos Hsh. unfold pending, zwrite in *. cbn in *. rewrite Ho, Hs in *. rewrite Hp in *.
  cbn in Hsh. destruct (ret =? 0) eqn:E0; lia.
Qed.

Lemma cnt_step : forall s a s', zstep s a = Some s' -> ordered_data ts (s_all (z_core s')) -> Inv s -> cnt s -> cnt s'.
Proof.
  intros s a s' H Ho Hi Hc Hl' Ho' Hs'.
  pose proof (step_inv ts limit quota n P chunk align addr0 HP Hn Hchunk Halign _ _ _ H Ho Hi) as Hi'.
  pose proof (pending_pos s' Hi' Hl') as Hpp.
  destruct (step_cases _ _ _ _ _ _ _ _ _ _ H) as (Hcr & [(c' & He & -> & _)|[(_ & Ep & ->)|(ex & ret & _ & Hr)]]).
  - exact (Hc Hl' Ho' Hs').
  - cbn in *. destruct Hi as (_ & HI). destruct (HI Hl') as (HP1 & _). unfold pc_ok in HP1. rewrite Ep in HP1.
    destruct (HP1 Ho') as (_ & ->). reflexivity.
  - clear H Hi'. unfold cnt in Hc. unfold Zcopy_model.zrec_step in Hr. unfold pending in Hc.
    pose proof (fun Hl => pending_pos s Hi Hl) as Hp0. unfold pending in Hp0.
    destruct (z_pc s) as [| | | |i|i| |k|a0 m nx k|k| |a0 m|] eqn:Epc.
    + discriminate.
    + destruct ex; [injection Hr as <-; exact (Hc Hl' Ho' Hs')|].
      destruct (_ || _); injection Hr as <-; unfold pending; cbn; [|rewrite Epc]; exact (Hc Hl' Ho' Hs').
    + destruct (_ && _); [|discriminate]. injection Hr as <-. unfold pending. cbn. destruct (_ =? 0); exact (Hc Hl' Ho' Hs').
    + destruct (_ =? _); injection Hr as <-; exact (Hc Hl' Ho' Hs').
    + destruct (s_mem _ _); injection Hr as <-; unfold pending; cbn; try rewrite Epc; exact (Hc Hl' Ho' Hs').
    + destruct (align =? 0); [injection Hr as <-; unfold pending; cbn; rewrite Epc; exact (Hc Hl' Ho' Hs')|].
      destruct (negb _).
      * destruct (it_good _ _); injection Hr as <-; [exact (Hc Hl' Ho' Hs')|discriminate Hl'].
      * injection Hr as <-. exact (Hc Hl' Ho' Hs').
    + injection Hr as <-. exact (Hc Hl' Ho' Hs').
    + destruct (k <? 100)%nat; [|injection Hr as <-; exact (Hc Hl' Ho' Hs')].
      destruct (z_wp s) as [w|]; [|injection Hr as <-; unfold pending; cbn; rewrite Epc; exact (Hc Hl' Ho' Hs')].
      assert (forall len nx, Some (zwrite s w len ret (fun m => ZCopy w m nx k)) = Some s' ->
              z_counted s' = Z.of_nat (length (z_file s')) + pending s') as Wr.
      { intros len nx X. injection X as <-. 
        assert (z_short s = false) as Hs by (unfold zwrite in Hs'; cbn in Hs'; destruct (z_short s); [discriminate|reflexivity]).
        specialize (Hc Hl' Ho' Hs). rewrite Z.add_0_r in Hc.
        apply cnt_write; auto. }
      destruct (w + chunk <? z_endp s); [exact (Wr _ _ Hr)|]. destruct (z_endp s <? w).
      * destruct (w + chunk <? _); exact (Wr _ _ Hr).
      * injection Hr as <-. exact (Hc Hl' Ho' Hs').
    + destruct (0 <? m) eqn:Em; injection Hr as <-; unfold pending; cbn in *.
      * rewrite app_length. cbn. specialize (Hc Hl' Ho' Hs'). lia.
      * specialize (Hc Hl' Ho' Hs'). specialize (Hp0 Hl'). lia.
    + destruct (z_wp s) as [w|]; [|injection Hr as <-; unfold pending; cbn; rewrite Epc; exact (Hc Hl' Ho' Hs')].
      destruct (s_mem _ _); injection Hr as <-; unfold pending; cbn; try rewrite Epc; exact (Hc Hl' Ho' Hs').
    + destruct (z_wp s) as [w|]; [|injection Hr as <-; exact (Hc Hl' Ho' Hs')].
      destruct (_ =? w); [injection Hr as <-; exact (Hc Hl' Ho' Hs')|]. injection Hr as <-.
      assert (z_short s = false) as Hs by (unfold zwrite in Hs'; cbn in Hs'; destruct (z_short s); [discriminate|reflexivity]).
      specialize (Hc Hl' Ho' Hs). rewrite Z.add_0_r in Hc. apply cnt_write; auto.
    + destruct (0 <? m) eqn:Em; injection Hr as <-; unfold pending; cbn in *.
      * rewrite app_length. cbn. specialize (Hc Hl' Ho' Hs'). lia.
      * specialize (Hc Hl' Ho' Hs'). specialize (Hp0 Hl'). lia.
    + injection Hr as <-. discriminate Ho'.
Qed.

Lemma counted_lemma : forall acts s, supported_size n -> zrun (zinit n) acts = Some s -> ordered_data ts (s_all (z_core s)) ->
  z_short s = false -> z_lost s = false -> z_open s = true ->
  (match z_pc s with ZCopy _ _ _ _ | ZCopyLast _ _ => False | _ => True end) -> z_counted s = Z.of_nat (length (z_file s)).
Proof.
  intros acts s Hs H Ho Hsh Hl Hop Hpc.
  assert (cnt s) as C.
  { clear Hsh Hl Hop Hpc. assert (cnt (zinit n)) as Hi by (intros _ _ _; reflexivity). pose proof (init_inv ts n P align addr0 Hs) as HI.
    revert HI Hi H Ho. generalize (@zinit E n). induction acts as [|a acts IH]; intros z HI Hi H Ho; cbn in H; [injection H as <-; exact Hi|].
    destruct (zstep z a) as [s1|] eqn:E1; [|discriminate].
    assert (ordered_data ts (s_all (z_core s1))) as Ho1.
    { destruct (run_all _ _ _ _ _ _ _ _ _ _ H) as [l Hx]. rewrite Hx in Ho. exact (ordered_prefix _ _ _ Ho). }
    apply (IH s1); [|exact (cnt_step _ _ _ E1 Ho1 HI Hi)|exact H|exact Ho].
    exact (step_inv ts limit quota n P chunk align addr0 HP Hn Hchunk Halign _ _ _ E1 Ho1 HI). }
  rewrite (C Hl Hop Hsh). unfold pending. destruct (z_pc s); try contradiction; lia.
Qed.
End Proofs.
