(** Property C72: how far back a request can reach. *)
From Coq Require Import String ZArith List Bool Lia.
From Verif Require Import Base_model Ring_model Ring_spec Ring_proofs Elem_model Float_model Float_proofs Registry_model Request_model Request_spec Cleanup_model
  Cleanup_spec Check_model Link_model Link_spec Link_proofs Record_model Record_spec Keep_model Keep_spec Keep_proofs Keep_proofs2.
From Verif Require Record_proofs Record_proofs2 Link_props.
Import ListNotations.
Open Scope Z_scope.

(** C72. Under every schedule of arrivals, clean-up steps and recording steps, in the middle of a clean-up included, the
    newest [K] of the elements accepted so far are in the buffer, [K] being the fewest a clean-up leaves. *)
Theorem C72_newest_kept :
  forall (E : Type) (ts dur : E -> Z) (limit : Z) (quota : Z -> Z) (n K : Z),
  supported_size n -> 0 <= K -> keeps limit quota n K ->
  forall (acts : list (action E)) (s : rstate E), arun ts dur limit quota (init n) acts = Some s ->
  newest (Z.to_nat K) (stored s) = newest (Z.to_nat K) (s_all s) /\ stored s = skipn (s_popped s) (s_all s).
Proof.
  intros E ts dur limit quota n K Hn H0 HK acts s H. split; [|reflexivity].
  unfold stored. apply newest_skip. eapply kept_lemma; eassumption.
Qed.

(** Nine arrivals into a buffer of 8 with clean-ups of half of it above 4: the newest two stay, and the clean-up is
    stopped in the middle. *)
Example C72_newest_kept_ex :
  keeps 4 (fun o => o / 2) 8 2 /\
  match arun (fun x : Z => x) (fun _ => 10) 4 (fun o => o / 2) (init 8)
          (map AWrite [10; 20; 30; 40; 50; 60] ++ repeat AClean 10 ++ map AWrite [70; 80; 90] ++ repeat AClean 5) with
  | Some s => stored s = [50; 60; 70; 80; 90] /\ s_cpc s = CPop 1 /\ s_all s = [10; 20; 30; 40; 50; 60; 70; 80; 90]
  | None => False
  end.
Proof. split; [|vm_compute; repeat split; reflexivity]. intros o Ho. assert (o = 5 \/ o = 6 \/ o = 7) as [-> | [-> | ->]] by lia; vm_compute; intuition congruence. Qed.

(** C72. A request that begins no earlier than the oldest of the newest [K] elements of the run and ends no later than the
    newest one is found at once and answered with exactly the frames of its window: no retry, no partial answer, after every
    history in which no arrival was refused. *)
Theorem C72_requests_reach_back :
  forall (dnf : Z) (lk : link) (tick nf n : Z) (resets running : bool),
  0 <= dnf -> 0 < tick -> 0 < nf -> tick * nf < two64 -> 2 <= n <= 2 ^ 24 ->
  forall (limit : Z) (pct : float32) (K : Z), 0 <= K -> keeps limit (share pct) n K ->
  forall (ops : list link_op) (s0 s : link_state) (ys : list link_out) (dr : request),
  link_new n = Ok s0 -> proper_history tick nf ops -> cleaned_with limit pct ops ->
  link_run dnf lk (tick * nf) tick resets running s0 ops = Ok (s, ys) -> ~ In (OutWrite false) ys ->
  received ops <> [] -> rq_begin dr <= rq_end dr ->
  oldest_ts (newest (Z.to_nat K) (received ops)) <= rq_begin dr -> newest (Z.to_nat K) (received ops) <> [] ->
  rq_end dr <= newest_ts (received ops) ->
  exists s', link_step dnf lk (tick * nf) tick resets running s (LRequest dr) =
    Ok (s', OutReply kFound (Some (mk_fragment (create_fragment_header lk dr)
                                     (window_bytes (received ops) (rq_begin dr) (rq_end dr))))).
Proof. intros. eapply (reach_lemma dnf lk tick nf n resets running); eassumption. Qed.

(** Two frames per element. Six arrivals, a clean-up that leaves three, one more arrival. The request reaches back to the
    oldest of the newest three; one that reaches back further than what is left is told the data is not there. *)
Definition reach_history : list link_op :=
  map (fun t => LArrive (Link_props.el t)) [50; 100; 150; 200; 250; 300] ++ [LClean 4 Link_props.half max_u64; LArrive (Link_props.el 350)].
Example C72_requests_reach_back_ex :
  keeps 4 (share Link_props.half) 8 3 /\ proper_history 25 2 reach_history /\ cleaned_with 4 Link_props.half reach_history /\
  oldest_ts (newest 3 (received reach_history)) = 250 /\ newest_ts (received reach_history) = 350 /\
  exists s0 s ys, link_new 8 = Ok s0 /\ link_run 0 Link_props.the_link 50 25 true true s0 reach_history = Ok (s, ys) /\
    ~ In (OutWrite false) ys /\
    (exists s', link_step 0 Link_props.the_link 50 25 true true s (LRequest (Link_props.ask 275 350)) =
      Ok (s', OutReply kFound (Some (mk_fragment (create_fragment_header Link_props.the_link (Link_props.ask 275 350)) [251; 300; 301])))) /\
    (exists s' f, link_step 0 Link_props.the_link 50 25 true true s (LRequest (Link_props.ask 100 150)) = Ok (s', OutReply kNotFound f)).
Proof.
  split; [intros o Ho; assert (o = 5 \/ o = 6 \/ o = 7) as [-> | [-> | ->]] by lia; vm_compute; intuition congruence|].
  split.
  - split; [|apply Link_props.prefixes_sound; vm_compute; reflexivity].
    unfold reach_history. cbn [map app]. repeat (apply Forall_cons || apply Forall_nil); cbn [proper_op]; try reflexivity; try (vm_compute; congruence); auto.
    split; [lia|]. split; [vm_compute; intuition congruence|]. intro X. vm_compute in X. discriminate.
  - split; [intros l p next H; cbn in H; intuition try discriminate; injection H0 as <- <- _; auto|].
    split; [reflexivity|]. split; [reflexivity|].
    eexists _, _, _. split; [reflexivity|]. split; [vm_compute; reflexivity|]. split; [cbn; intuition discriminate|].
    split; [eexists; vm_compute; reflexivity|eexists _, _; vm_compute; reflexivity].
Qed.

(** C72. How deep that is, from the two configured shares: up to single-precision rounding, the buffer size times the limit
    share times what the clean-up leaves. *)
Theorem C72_depth :
  forall (limit_pct size_pct : float32) (n K : Z) (h : handler),
  proper_share limit_pct -> proper_share size_pct -> 0 <= n < 2 ^ 24 -> 0 <= K ->
  K * (2 ^ 48 * 2 ^ (- snd limit_pct) * 2 ^ (- snd size_pct)) <=
    (2 ^ 24 - 1) * (fst limit_pct * n) * (2 ^ 24 * 2 ^ (- snd size_pct) - (2 ^ 24 + 1) * fst size_pct) ->
  let c := handler_conf limit_pct size_pct n h in
  keeps (h_limit c) (share (h_pct c)) n K /\ h_errors c = h_errors h.
Proof.
  intros a p n K h Ha Hp Hn HK H c. unfold c, handler_conf.
  assert (R : forall q, proper_share q -> in_range q = true).
  { intros q (Q1 & Q2 & Q3). unfold in_range. apply andb_true_iff. split; [apply Z.leb_le; lia|].
    replace (0 <? snd q) with false by (symmetry; apply Z.ltb_ge; lia). apply Z.leb_le. exact Q3. }
  rewrite (R a Ha), (R p Hp). cbn [andb h_limit h_pct h_errors]. split; [apply depth_lemma; assumption|reflexivity].
Qed.

Example C72_depth_ex :
  (* a quarter removed above a half *)
  proper_share (1, -1) /\ proper_share (1, -2) /\
  374 * (2 ^ 48 * 2 ^ 1 * 2 ^ 2) <= (2 ^ 24 - 1) * (1 * 1000) * (2 ^ 24 * 2 ^ 2 - (2 ^ 24 + 1) * 1) /\
  ~ keeps (share (1, -1) 1000) (share (1, -2)) 1000 377.
Proof. do 3 (split; [vm_compute; intuition congruence|]). intro H. specialize (H 501 ltac:(vm_compute; split; reflexivity)). vm_compute in H. apply (proj2 H). reflexivity. Qed.

(** C72. The generated configurations (clean up a tenth above eight tenths) keep the newest 72 percent of the buffer size
    less one; the default settings (eight tenths above a half) a tenth less one. *)
Theorem C72_standard_settings :
  forall (E : Type) (ts dur : E -> Z) (n : Z) (h : handler), 2 <= n < 2 ^ 24 ->
  (let c := handler_conf f08 f01 n h in
   forall (acts : list (action E)) (s : rstate E), arun ts dur (h_limit c) (share (h_pct c)) (init n) acts = Some s ->
   newest (Z.to_nat (72 * n / 100 - 1)) (stored s) = newest (Z.to_nat (72 * n / 100 - 1)) (s_all s)) /\
  (let c := handler_conf f05 f08 n h in
   forall (acts : list (action E)) (s : rstate E), arun ts dur (h_limit c) (share (h_pct c)) (init n) acts = Some s ->
   newest (Z.to_nat (n / 10 - 1)) (stored s) = newest (Z.to_nat (n / 10 - 1)) (s_all s)).
Proof.
  intros E ts dur n h Hn. assert (supported_size n) as Hs by (split; [lia|]; change (2 ^ 24) with 16777216 in Hn; lia).
  assert (W : forall limit quota K acts s, keeps limit quota n K -> arun ts dur limit quota (init n) acts = Some s ->
    newest (Z.to_nat K) (stored s) = newest (Z.to_nat K) (s_all s)).
  { intros limit quota K acts s HK H. destruct (Z.le_gt_cases 0 K).
    - eapply C72_newest_kept; eassumption.
    - replace (Z.to_nat K) with 0%nat by lia. unfold newest. rewrite !Nat.sub_0_r, !skipn_all. reflexivity. }
  split; intros c acts s; [apply (W _ _ _ acts s (depth_generated n Hn))|apply (W _ _ _ acts s (depth_default n Hn))].
Qed.

Example C72_standard_settings_ex :
  72 * 500000 / 100 - 1 = 359999 /\ 500000 / 10 - 1 = 49999 /\
  handler_conf f08 f01 500000 handler_new = mk_handler 400000 f01 0 /\ share f01 400001 = 40000 /\
  handler_conf f05 f08 500000 handler_new = mk_handler 250000 f08 0 /\ share f08 250001 = 200000.
Proof. vm_compute. repeat split; reflexivity. Qed.

(** C72. What an undisturbed clean-up leaves: a buffer above the limit, nothing recorded, comes down to exactly what the
    share leaves, and that much room is made. *)
Theorem C72_cleanup_leaves :
  forall (E : Type) (ts dur : E -> Z) (limit : Z) (quota : Z -> Z) (n : Z) (acts : list (action E)) (s : rstate E),
  supported_size n -> arun ts dur limit quota (init n) acts = Some s -> resting s ->
  limit < Z.of_nat (length (stored s)) -> 0 <= quota (Z.of_nat (length (stored s))) < Z.of_nat (length (stored s)) ->
  (forall x, In x (stored s) -> ts x < s_next s) ->
  exists m s', arun ts dur limit quota s (repeat AClean m) = Some s' /\ resting s' /\ s_all s' = s_all s /\ s_file s' = s_file s /\
    s_next s' = s_next s /\ stored s' = skipn (Z.to_nat (quota (Z.of_nat (length (stored s))))) (stored s).
Proof. intros. eapply clean_leaves; eassumption. Qed.

Example C72_cleanup_leaves_ex :
  match arun (fun x : Z => x) (fun _ => 10) 4 (fun o => o / 2) (init 8) (map AWrite [10; 20; 30; 40; 50; 60]) with
  | Some s => resting s /\ stored s = [10; 20; 30; 40; 50; 60] /\ s_next s = max_u64 /\
      match arun (fun x : Z => x) (fun _ => 10) 4 (fun o => o / 2) s (repeat AClean 10) with
      | Some s' => stored s' = [40; 50; 60]
      | None => False
      end
  | None => False
  end.
Proof. vm_compute. repeat split; reflexivity. Qed.

(** C72. Whether anything is ever removed depends on the settings alone: either some occupancy above the limit has a
    non-zero share, and then some schedule removes something; or every schedule leaves the buffer with the first n - 1
    elements that arrived. *)
Theorem C72_removes_iff :
  forall (E : Type) (ts dur : E -> Z) (limit : Z) (quota : Z -> Z) (n : Z) (x : E), supported_size n -> 0 <= limit -> ts x < max_u64 ->
  ((exists o, limit < o < n /\ 0 < quota o) <->
   exists (acts : list (action E)) s, arun ts dur limit quota (init n) acts = Some s /\ s_popped s <> 0%nat) /\
  ((forall o, limit < o < n -> quota o <= 0) ->
   forall (acts : list (action E)) s, arun ts dur limit quota (init n) acts = Some s -> stored s = firstn (Z.to_nat (n - 1)) (arrivals acts)).
Proof.
  intros E ts dur limit quota n x Hn Hl Hx.
  assert (N : (forall o, limit < o < n -> quota o <= 0) -> forall (acts : list (action E)) s, arun ts dur limit quota (init n) acts = Some s ->
    s_popped s = 0%nat /\ stored s = firstn (Z.to_nat (n - 1)) (arrivals acts)).
  { intros H0 acts s H. destruct (idle_run ts dur limit quota n H0 acts (init n) s (Record_proofs.base_init n Hn) ltac:(split; [left|]; reflexivity) H) as [[_ I] A].
    split; [exact I|]. unfold stored. rewrite I, A. reflexivity. }
  split; [split|intros H0 acts s H; apply (N H0 acts s H)].
  - intros (o & Ho & Hq). destruct (fill_run ts dur limit quota n x (Z.to_nat o) Hn ltac:(lia)) as (s & R & A & Pp & C & Cr & Nx & Ru & Rq & _).
    assert (Hb : Record_proofs.base n s) by (eapply Record_proofs2.base_run; [apply Record_proofs.base_init, Hn|exact R]).
    pose proof (Record_proofs2.occupancy_base _ _ Hb) as Oc. rewrite Pp, A, repeat_length, Nat.sub_0_r, Z2Nat.id in Oc by lia.
    pose proof (Record_proofs.base_front _ _ Hb) as Fr. rewrite Pp, A in Fr. destruct (Z.to_nat o) as [|m] eqn:Em; [lia|]. cbn [repeat nth_error] in Fr.
    destruct (pop_ok 1 (s_ring s) _ (Record_proofs.b_holds _ _ Hb)) as (r & Er & _); [rewrite Pp, A; cbn; lia|].
    destruct (Z.to_nat (quota o)) as [|q] eqn:Eq; [lia|].
    exists (repeat (AWrite x) (S m) ++ repeat AClean 4). eexists. split.
    + rewrite (Record_proofs2.arun_app _ _ _ _ _ _ _ _ R). cbn [repeat Record_model.arun].
      unfold Record_model.astep at 1. rewrite Cr. unfold clean_step at 1. rewrite C, Oc. replace (limit <? o) with true by (symmetry; apply Z.ltb_lt; lia).
      unfold Record_model.astep at 1. cbn [s_crashed set_cpc]. rewrite Cr. unfold clean_step at 1. cbn [s_cpc set_cpc s_running s_ring]. rewrite Ru, Oc. cbn [Z.eqb].
      replace (limit <? o) with true by (symmetry; apply Z.ltb_lt; lia). rewrite Eq.
      unfold Record_model.astep at 1. cbn [s_crashed set_cpc]. rewrite Cr. unfold clean_step at 1. cbn [s_cpc set_cpc s_ring s_next]. rewrite Fr, Nx.
      replace (ts x <? max_u64) with true by (symmetry; apply Z.ltb_lt; exact Hx).
      unfold Record_model.astep at 1. cbn [s_crashed set_cpc]. rewrite Cr. unfold clean_step at 1. cbn [s_cpc set_cpc s_ring]. rewrite Er. reflexivity.
    + cbn. lia.
  - intros (acts & s & H & Hp).
    destruct (existsb (fun k => (limit <? Z.of_nat k) && (0 <? quota (Z.of_nat k))) (seq 0 (Z.to_nat n))) eqn:Ex.
    + apply existsb_exists in Ex as (k & Hk & Hb). apply in_seq in Hk. apply andb_true_iff in Hb as [B1 B2]. apply Z.ltb_lt in B1, B2. exists (Z.of_nat k). split; [lia|exact B2].
    + exfalso. apply Hp. refine (proj1 (N _ acts s H)). intros o Ho. destruct (Z.le_gt_cases (quota o) 0) as [L|L]; [exact L|exfalso].
      assert (T : existsb (fun k => (limit <? Z.of_nat k) && (0 <? quota (Z.of_nat k))) (seq 0 (Z.to_nat n)) = true); [|congruence].
      apply existsb_exists. exists (Z.to_nat o). split; [apply in_seq; lia|]. rewrite Z2Nat.id by lia. apply andb_true_iff. split; apply Z.ltb_lt; lia.
Qed.

(** The generated shares in a buffer of 10 never remove anything, in a buffer of 11 they do. *)
Example C72_removes_iff_ex :
  (forall o, share f08 10 < o < 10 -> share f01 o <= 0) /\ share f08 11 < 10 < 11 /\ 0 < share f01 10.
Proof. split; [|vm_compute; repeat split; reflexivity]. change (share f08 10) with 8. intros o Ho. replace o with 9 by lia. vm_compute. discriminate. Qed.

(** C72. A limit share of 1.0 is accepted without an error, and then nothing is ever cleaned up: under every schedule the
    buffer takes the first n - 1 elements and refuses all later ones, so that it never holds anything new again. *)
Theorem C72_full_limit_never_cleans :
  forall (E : Type) (ts dur : E -> Z) (size_pct : float32) (n : Z) (h : handler), 2 <= n < 2 ^ 24 -> in_range size_pct = true ->
  let c := handler_conf (1, 0) size_pct n h in
  h_errors c = h_errors h /\
  forall (acts : list (action E)) (s : rstate E), arun ts dur (h_limit c) (share (h_pct c)) (init n) acts = Some s ->
  stored s = firstn (Z.to_nat (n - 1)) (arrivals acts).
Proof.
  intros E ts dur p n h Hn Hp c. unfold c, handler_conf. rewrite Hp. change (in_range (1, 0)) with true. cbn [andb h_limit h_pct h_errors].
  split; [reflexivity|]. intros acts s H. rewrite share_one in H by lia.
  assert (supported_size n) as Hs by (split; [lia|]; change (2 ^ 24) with 16777216 in Hn; lia).
  destruct (idle_run ts dur n (share p) n ltac:(intros; lia) acts (init n) s (Record_proofs.base_init n Hs) ltac:(split; [left|]; reflexivity) H) as [[_ I] A].
  unfold stored. rewrite I, A. reflexivity.
Qed.

Example C72_full_limit_never_cleans_ex :
  in_range f01 = true /\ handler_conf (1, 0) f01 4 handler_new = mk_handler 4 f01 0 /\
  match arun (fun x : Z => x) (fun _ => 10) 4 (share f01) (init 4) (map AWrite [10; 20] ++ [AClean] ++ map AWrite [30; 40] ++ [AClean; AWrite 50]) with
  | Some s => stored s = [10; 20; 30]
  | None => False
  end.
Proof. vm_compute. repeat split; reflexivity. Qed.

(** C72. Settings are accepted without an error if and only if both shares are between 0 and 1; only then is the limit replaced, but the
    share to remove always is. *)
Theorem C72_accepted_iff :
  forall (limit_pct size_pct : float32) (n : Z) (h : handler),
  let c := handler_conf limit_pct size_pct n h in
  (h_errors c = h_errors h <-> share_between_0_and_1 limit_pct /\ share_between_0_and_1 size_pct) /\
  (h_errors c = h_errors h /\ h_limit c = share limit_pct n \/ h_errors c = S (h_errors h) /\ h_limit c = h_limit h) /\ h_pct c = size_pct.
Proof.
  intros a b n h.
  assert (R : forall p, in_range p = true <-> share_between_0_and_1 p).
  { intros [m e]. unfold in_range, share_between_0_and_1. cbn [fst snd]. rewrite andb_true_iff, Z.leb_le. destruct (Z.ltb_spec 0 e) as [L|L].
    - rewrite Z.eqb_eq, Z.max_r, Z.max_l by lia. change (2 ^ 0) with 1. assert (2 <= 2 ^ e) by (replace 2 with (2 ^ 1) at 1 by reflexivity; apply Z.pow_le_mono_r; lia). split; intros [H1 H2]; split; nia.
    - rewrite Z.leb_le, Z.max_l, Z.max_r by lia. change (2 ^ 0) with 1. rewrite Z.mul_1_r. reflexivity. }
  unfold handler_conf. rewrite <- !R. destruct (in_range a) eqn:A, (in_range b) eqn:B; cbn; (split; [split; [intros; split; congruence || lia|intros [? ?]; congruence || lia]|split; [auto|reflexivity]]).
Qed.

Example C72_accepted_iff_ex :
  handler_conf (1, 0) (0, 5) 8 (mk_handler 3 f01 2) = mk_handler 8 (0, 5) 2 /\ handler_conf (-1, -20) f01 8 (mk_handler 3 f05 2) = mk_handler 3 f01 3 /\
  handler_conf (3, -1) f01 8 (mk_handler 3 f05 2) = mk_handler 3 f01 3.
Proof. vm_compute. repeat split; reflexivity. Qed.

(** C72. A configuration that is reported as out of range is used all the same: the new share with the limit of before,
    which in a new handler is zero. A share of 2.0 then empties the buffer and dereferences null at the first clean-up,
    whatever the size of the buffer and whatever arrived. *)
Theorem C72_rejected_settings_used_refuted :
  forall (E : Type) (ts dur : E -> Z) (limit_pct : float32) (n : Z) (x : E), supported_size n -> ts x < max_u64 ->
  let c := handler_conf limit_pct (2, 0) n handler_new in
  h_errors c = 1%nat /\
  exists s, arun ts dur (h_limit c) (share (h_pct c)) (init n) ([AWrite x] ++ repeat AClean 5) = Some s /\ s_crashed s = true.
Proof.
  intros E ts dur a n x Hn Hx c. unfold c, handler_conf. replace (in_range a && in_range (2, 0)) with false by (destruct (in_range a); reflexivity).
  cbn [h_errors h_limit h_pct handler_new]. split; [reflexivity|].
  destruct (write_ok (s_ring (init n)) [] x (holds_new n 0 Hn)) as (r1 & E1 & H1 & _); [cbn in *; destruct Hn; lia|].
  destruct (pop_ok 1 r1 _ H1) as (r2 & E2 & H2 & _); [cbn; lia|]. cbn [app skipn] in H1, H2.
  eexists. split; [|shelve]. cbn [app repeat Record_model.arun]. unfold Record_model.astep at 1. rewrite E1. cbn [s_crashed init].
  unfold Record_model.astep at 1, clean_step. cbn -[share]. rewrite (occupancy_ok _ _ H1). cbn -[share].
  unfold Record_model.astep at 1, clean_step. cbn -[share]. rewrite (occupancy_ok _ _ H1). cbn -[share]. change (Z.to_nat (share (2, 0) 1)) with 2%nat.
  unfold Record_model.astep at 1, clean_step. cbn -[share front deref_opt]. rewrite (front_ok _ _ H1). cbn [hd_error]. apply Z.ltb_lt in Hx. rewrite Hx.
  unfold Record_model.astep at 1, clean_step. cbn -[share front deref_opt pop]. cbn [pop bind] in E2. rewrite E2. cbn -[share front deref_opt pop].
  rewrite (front_ok _ _ H2). cbn [hd_error]. reflexivity.
  Unshelve. reflexivity.
Qed.

Example C72_rejected_settings_used_ex :
  in_range (2, 0) = false /\ handler_conf f08 (2, 0) 8 handler_new = mk_handler 0 (2, 0) 1 /\ share (2, 0) 1 = 2.
Proof. vm_compute. repeat split; reflexivity. Qed.

Print Assumptions C72_newest_kept.
Print Assumptions C72_requests_reach_back.
Print Assumptions C72_depth.
Print Assumptions C72_standard_settings.
Print Assumptions C72_cleanup_leaves.
Print Assumptions C72_removes_iff.
Print Assumptions C72_full_limit_never_cleans.
Print Assumptions C72_accepted_iff.
Print Assumptions C72_rejected_settings_used_refuted.
