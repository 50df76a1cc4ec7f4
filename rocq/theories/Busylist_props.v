(** Properties of requests on the skip-list buffer served while data keep arriving (C78). *)
From Coq Require Import ZArith List Bool Lia ZifyBool Permutation.
From Verif Require Import Base_model SkipList_model SkipList_spec SkipList_proofs Elem_model Request_model Request_spec
  Request_proofs Request_props Busylist_model Busylist_spec Busylist_proofs.
Import ListNotations.
Open Scope Z_scope.

(** C78. A skip-list buffer with any history; [s0] is the set it stores when the request starts, [xss] are the
    arrivals, in any order of timestamps, before each access of the request. *)
Theorem C78_skip_list :
  forall (dnf : Z) (lk : link) (tick : Z) (ops : list (sl_op elem)) (l s0 : list elem)
         (running : bool) (xss : list (list elem)) (dr : request) (st : stats),
    Forall (valid_op e_ts) ops -> never_huge e_ts [] ops -> snd (sl_run e_ts [] ops) = l -> Permutation s0 l ->
    0 <= dnf -> 0 <= tick -> Forall (regular tick) (s0 ++ concat xss) ->
    Z.of_nat (length (took s0 (concat xss))) < 2147483648 -> rq_begin dr <= rq_end dr ->
    answered_in_motion dnf lk running s0 (concat xss) dr st (l_request dnf lk tick running xss l dr st).
Proof.
  intros dnf lk tick ops l s0 running xss dr st Hv Hh <- P Hd Ht Hreg Hlen Hbe.
  destruct (reached_incr e_ts ops Hv Hh) as (Hi & _ & _).
  apply list_reply; try assumption.
  - rewrite Forall_forall in *. intros x Hx. apply Hreg. apply in_app_or in Hx. apply in_or_app.
    destruct Hx as [Hx|Hx]; [left; exact (Permutation_in _ (Permutation_sym P) Hx)|right; exact Hx].
  - rewrite <- (Permutation_length (took_perm (concat xss) s0 _ Hi P)). exact Hlen.
Qed.
Print Assumptions C78_skip_list.

(** C78. If nothing that arrives meanwhile starts in the window, a served request is given exactly the stored
    elements that do. *)
Theorem C78_skip_list_undisturbed :
  forall (dnf : Z) (lk : link) (tick : Z) (ops : list (sl_op elem)) (l : list elem)
         (running : bool) (xss : list (list elem)) (dr : request) (st st' : stats) (fo : option fragment),
    Forall (valid_op e_ts) ops -> never_huge e_ts [] ops -> snd (sl_run e_ts [] ops) = l ->
    0 <= dnf -> 0 <= tick -> Forall (regular tick) (l ++ concat xss) ->
    Z.of_nat (length (took l (concat xss))) < 2147483648 -> rq_begin dr <= rq_end dr ->
    (forall x, In x (concat xss) -> ~ starts_in (rq_begin dr) (rq_end dr) x) ->
    l_request dnf lk tick running xss l dr st = Ok (kFound, fo, st') ->
    exists T, in_order T /\ (forall x, In x T <-> In x l /\ starts_in (rq_begin dr) (rq_end dr) x) /\
      fo = Some (mk_fragment (create_fragment_header lk dr) (window_bytes T (rq_begin dr) (rq_end dr))).
Proof.
  intros dnf lk tick ops l running xss dr st st' fo Hv Hh El Hd Ht Hreg Hlen Hbe Hno E.
  destruct (C78_skip_list dnf lk tick ops l l running xss dr st Hv Hh El (Permutation_refl _) Hd Ht Hreg Hlen Hbe)
    as [(b & a & _ & _ & (fo' & s' & E' & _))|(bf & bt & af & o & n & Ex & _ & _ & _ & HT)].
  { rewrite E in E'. discriminate E'. }
  destruct (reached_incr e_ts ops Hv Hh) as (Hi & _ & _). rewrite El in Hi.
  destruct (HT fo st' E) as (T & (Ho & Hin & Hall) & Ef). exists T. split; [exact Ho|]. split; [|exact Ef].
  intros x. split.
  - intros Hx. destruct (Hin x Hx) as [Hs Hx']. split; [|exact Hs].
    apply (Permutation_in _ (took_perm (concat xss) l l Hi (Permutation_refl _))) in Hx'.
    apply (arrive_from _ _ _ Hi) in Hx'. apply in_app_or in Hx'. destruct Hx' as [Hx'|Hx']; [exact Hx'|].
    destruct (Hno x Hx' Hs).
  - intros [Hx Hs]. apply Hall; [|exact Hs].
    apply (Permutation_in _ (Permutation_sym (took_perm (bf ++ bt) l l Hi (Permutation_refl _)))).
    apply arrive_in; assumption.
Qed.
Print Assumptions C78_skip_list_undisturbed.

Definition list_ops : list (sl_op elem) := [SWrite (ex_elem 0); SWrite (ex_elem 40); SWrite (ex_elem 100); SWrite (ex_elem 200)].

(** C78 is not about one moment here: with late data a served request can be given an element that arrived and
    not one that arrived before it, both in the window. *)
Theorem C78_skip_list_one_moment_refuted :
  exists (l : list elem) (xss : list (list elem)) (dr : request) (fr : fragment) (st' : stats),
    snd (sl_run e_ts [] list_ops) = l /\ concat xss = [ex_elem 60; ex_elem 140] /\
    l_request 3 ex_link 10 true xss l dr ex_stats = Ok (kFound, Some fr, st') /\
    forall before after, concat xss = before ++ after ->
      fg_bytes fr <> window_bytes (l_arrive before l) (rq_begin dr) (rq_end dr).
Proof.
  eexists. exists [[]; []; []; []; []; [ex_elem 60; ex_elem 140]], (ex_request 40 200). eexists. eexists.
  split; [vm_compute; reflexivity|]. split; [reflexivity|]. split; [vm_compute; reflexivity|].
  intros before after E. cbn in E.
  destruct before as [|a [|b [|c before]]]; cbn [app] in E.
  - vm_compute. discriminate.
  - injection E as <- _. vm_compute. discriminate.
  - injection E as <- <- _. vm_compute. discriminate.
  - injection E as _ _ E. destruct before; discriminate E.
Qed.
Print Assumptions C78_skip_list_one_moment_refuted.

(** A late element that arrives ahead of the iterator is delivered, one behind it is not. *)
Example C78_skip_list_example :
  match l_request 3 ex_link 10 true [[]; [ex_elem 300]; []; []; [ex_elem 60]; [ex_elem 20; ex_elem 50]] (snd (sl_run e_ts [] list_ops))
          (ex_request 40 200) ex_stats with
  | Ok (kFound, Some fr, _) => fg_bytes fr = window_bytes [ex_elem 40; ex_elem 60; ex_elem 100] 40 200
  | _ => False
  end.
Proof. vm_compute. reflexivity. Qed.

Example C78_skip_list_hyps :
  let xss := [[]; [ex_elem 300]; []; []; [ex_elem 60]; [ex_elem 20]] in
  Forall (valid_op e_ts) list_ops /\ never_huge e_ts [] list_ops /\
  Forall (regular 10) (snd (sl_run e_ts [] list_ops) ++ concat xss) /\
  Z.of_nat (length (took (snd (sl_run e_ts [] list_ops)) (concat xss))) < 2147483648.
Proof.
  cbn zeta. split; [repeat constructor; cbn; lia|]. split; [cbn; repeat split; lia|]. split; [|vm_compute; reflexivity].
  cbn. repeat constructor; try discriminate; cbn; try lia;
    intros [|[|[|k]]] f Hf; cbn in Hf; try discriminate; injection Hf as <-; cbn; lia.
Qed.
