(** Property C76: a link whose clean-up keeps pace loses nothing and reaches back as far as its settings say. *)
From Coq Require Import String ZArith List Bool Lia.
From Verif Require Import Base_model Bytes_model Codec_model Codec_spec Ebg_model Ebg_spec Emu_model Emu_spec Ring_model Ring_spec Elem_model Lb_model Float_model Float_proofs
  Registry_model Request_model Request_spec Cleanup_spec Check_model Check_spec Link_model Link_spec Link_proofs Chain_model Chain_spec
  Chain_proofs Chain_proofs2 Chain_proofs3 Chain_props Keep_model Keep_spec Keep_proofs Keep_proofs2 Settings_model Settings_props Sustain_spec Sustain_proofs Sustain_proofs2.
Import ListNotations.
Open Scope Z_scope.

(** C76. If a clean-up can take away all that arrives between two clean-ups, and there is room for that above the limit, then no element is ever refused, whatever
    else happens; and the buffer never holds more than the limit and one such stretch. *)
Theorem C76_nothing_refused :
  forall (dnf : Z) (lk : link) (tick nf n : Z) (resets running : bool),
  0 <= dnf -> 0 < tick -> 0 < nf -> tick * nf < two64 -> 2 <= n <= 2 ^ 24 ->
  forall (limit : Z) (pct : float32) (m : nat), 0 <= limit -> absorbs limit (share pct) m -> limit + Z.of_nat m <= n - 1 ->
  forall (ops : list link_op) (s0 : link_state), link_new n = Ok s0 -> proper_history tick nf ops -> cleaned_with limit pct ops -> unheld ops -> link_paced m ops ->
  exists s ys, link_run dnf lk (tick * nf) tick resets running s0 ops = Ok (s, ys) /\ ~ In (OutWrite false) ys /\
    exists iops q k, Forall supported_op iops /\ reached n iops (ls_ring s) q /\ q_items q = skipn k (received ops) /\
      Z.of_nat (List.length (q_items q)) <= limit + Z.of_nat m.
Proof.
  intros dnf lk tick nf n resets running H1 H2 H3 H4 H5 limit pct m H6 H7 H8 ops s0 E0 P C U M.
  destruct (not_refused dnf lk tick nf n resets running H1 H2 H3 H4 H5 limit pct m H6 H7 H8 ops s0 E0 P C U M) as (s & ys & E & N & iops & q & k & a & b & I & Eab & Q & La & Lo).
  exists s, ys. split; [exact E|]. split; [exact N|]. exists iops, q, k. split; [apply (i_sup _ _ _ _ _ _ _ _ I)|]. split; [apply (i_reach _ _ _ _ _ _ _ _ I)|].
  pose proof (i_items _ _ _ _ _ _ _ _ I) as Ei. split; [exact Ei|]. rewrite Ei, skipn_length.
  assert (X : (List.length (received ops) <= List.length (received a) + m)%nat) by (rewrite Eab at 1; apply (M a b []); [rewrite app_nil_r; exact Eab|exact Q]). lia.
Qed.

(** Six places of eight, limit four: three arrivals between clean-ups of a half are kept up with; four are not. *)
Definition burst (from : Z) (k : nat) : list link_op := map (fun i => LArrive (Link_props.el (from + 50 * Z.of_nat i))) (seq 0 k).
Definition sweep : link_op := LClean 4 Link_props.half max_u64.
Example C76_nothing_refused_ex :
  absorbs 4 (share Link_props.half) 3 /\
  (match link_new 8 with
   | Ok s0 => match link_run 0 Link_props.the_link 50 25 true true s0 (burst 50 3 ++ [sweep] ++ burst 200 3 ++ [sweep] ++ burst 350 3 ++ [sweep] ++ burst 500 3) with
              | Ok (s, ys) => forallb (fun y => match y with OutWrite false => false | _ => true end) ys = true /\ occupancy (ls_ring s) = 6
              | Crash => False end
   | Crash => False end) /\
  (match link_new 8 with
   | Ok s0 => match link_run 0 Link_props.the_link 50 25 true true s0 (burst 50 4 ++ [sweep] ++ burst 250 4) with
              | Ok (s, ys) => existsb (fun y => match y with OutWrite false => true | _ => false end) ys = true
              | Crash => False end
   | Crash => False end).
Proof.
  split; [intros o Ho; assert (o = 5 \/ o = 6 \/ o = 7) as [-> | [-> | ->]] by lia; vm_compute; congruence|].
  vm_compute. repeat split; reflexivity.
Qed.

Lemma absorbs_generated : forall n, 2 <= n < 2 ^ 24 -> absorbs (share f08 n) (share f01) (Z.to_nat (8 * n / 100 - 1)) /\ share f08 n + Z.of_nat (Z.to_nat (8 * n / 100 - 1)) <= n - 1.
Proof.
  intros n Hn. destruct (share_accuracy f08 n proper08 ltac:(lia)) as [A1 A2]. pose proof (share_bound f08 n proper08 ltac:(lia)) as B.
  pose proof (Z.mul_div_le (8 * n) 100 ltac:(lia)) as D. cbn [fst snd f08] in A1, A2. change (- -24) with 24 in *. change (2 ^ 24) with 16777216 in *.
  split; [|lia]. intros o Ho. destruct (share_accuracy f01 o proper01 ltac:(lia)) as [C1 C2].
  cbn [fst snd f01] in C1, C2. change (- -27) with 27 in *. change (2 ^ 24) with 16777216 in *. change (2 ^ 27) with 134217728 in *. lia.
Qed.

(** C76. With the generated shares a clean-up per 8 % of the buffer (less one) is often enough, with the default ones one per 40 %. *)
Theorem C76_standard_paces :
  forall (n : Z) (h : handler), 2 <= n < 2 ^ 24 ->
  (let c := handler_conf f08 f01 n h in
   absorbs (h_limit c) (share (h_pct c)) (Z.to_nat (8 * n / 100 - 1)) /\ h_limit c + Z.of_nat (Z.to_nat (8 * n / 100 - 1)) <= n - 1) /\
  (let c := handler_conf f05 f08 n h in
   absorbs (h_limit c) (share (h_pct c)) (Z.to_nat (4 * n / 10 - 1)) /\ h_limit c + Z.of_nat (Z.to_nat (4 * n / 10 - 1)) <= n - 1).
Proof.
  intros n h Hn. split; [apply absorbs_generated; exact Hn|]. cbn zeta. change (handler_conf f05 f08 n h) with (mk_handler (share f05 n) f08 (h_errors h)). cbn [h_limit h_pct].
  destruct (share_accuracy f05 n proper05 ltac:(lia)) as [A1 A2]. pose proof (share_bound f05 n proper05 ltac:(lia)) as B.
  pose proof (Z.mul_div_le (4 * n) 10 ltac:(lia)) as D. cbn [fst snd f05] in A1, A2. change (- -1) with 1 in *. change (2 ^ 24) with 16777216 in *. change (2 ^ 1) with 2 in *.
  split; [|lia]. intros o Ho. destruct (share_accuracy f08 o proper08 ltac:(lia)) as [C1 C2].
  cbn [fst snd f08] in C1, C2. change (- -24) with 24 in *. change (2 ^ 24) with 16777216 in *. lia.
Qed.

Example C76_standard_paces_ex : 8 * 500000 / 100 - 1 = 39999 /\ share f08 500000 = 400000 /\ share f01 400001 = 40000 /\ share f05 500000 = 250000 /\ 4 * 500000 / 10 - 1 = 199999.
Proof. vm_compute. repeat split; reflexivity. Qed.

Lemma newest_map : forall (A B : Type) (f : A -> B) k l, newest k (map f l) = map f (newest k l).
Proof. intros A B f k l. unfold newest. rewrite map_length, skipn_map. reflexivity. Qed.

(** C76. The link of a generated configuration behind an emulated source, over any number of runs in which nothing was left in the queue: if there is a clean-up with the
    generated settings for every 8 % of the buffer, then nothing is refused, and every window between one of the newest 72 % and the newest element received in
    the run is served with exactly the frames of the window. *)
Theorem C76_emulated_link_keeps_up :
  forall (p1 p2 stride : nat) (c : emu_conf) (t0 dnf : Z) (lk : link) (resets running : bool) (used : nat) (ws : list Z) (g : gen) (s0 : chain) (ops : list chain_op)
         (kind : handler_kind) (slowdown : Z) (st : link_settings) (h : handler),
  good_emulation p1 p2 stride c t0 -> 0 <= dnf -> 0 < slowdown <= 250000 -> generated kind slowdown = Some st ->
  let n := st_buffer_size st in
  let hc := handler_conf (st_limit st) (st_share st) (st_handler_size st) h in
  gen_words (em_tables c) used gen_new = Ok (ws, g) -> chain_new c g n = Ok s0 -> good_history c t0 ops ->
  chain_cleaned_with (h_limit hc) (h_pct hc) ops -> chain_paced (em_dropouts c) (Z.to_nat (8 * n / 100 - 1)) ops ->
  let got := fl_got (flow_run (em_dropouts c) ops) in
  exists s ys, chain_run p1 p2 stride c dnf lk resets running s0 ops = Ok (s, ys) /\ ~ In (OutWrite false) ys /\
  forall (dr : request) (i : nat), In i (newest (Z.to_nat (72 * n / 100 - 1)) got) -> slot_time c t0 i <= rq_begin dr -> rq_begin dr <= rq_end dr ->
    rq_end dr <= slot_time c t0 (last got 0%nat) ->
    exists s', chain_step p1 p2 stride c dnf lk resets running s (XRequest dr) =
      Ok (s', OutReply kFound (Some (mk_fragment (create_fragment_header lk dr) (window_bytes (map (slot_elem c p1 p2 stride t0) got) (rq_begin dr) (rq_end dr))))).
Proof.
  intros p1 p2 stride c t0 dnf lk resets running used ws g s0 ops kind sd st h GE Hd Hsd Gst n hc W N GH CC CP got.
  destruct (generated_size kind sd st (proj1 Hsd) Gst) as (B1 & B2 & _ & _ & B3 & B4 & _).
  pose proof (size_bound sd (proj1 Hsd)) as B. assert (2 <= 500000 / sd) by (apply size_ge; [lia|lia|change (500000 / 2) with 250000; lia]).
  unfold hc in *. clear hc. unfold n in *. clear n. rewrite B1, B2, B3, B4 in *. set (n := 500000 / sd) in *.
  change (handler_conf f08 f01 n h) with (mk_handler (share f08 n) f01 (h_errors h)) in *. cbn [h_limit h_pct] in *.
  assert (Hn : 2 <= n < 2 ^ 24) by (change (2 ^ 24) with 16777216; lia). assert (Hn' : 2 <= n <= 2 ^ 24) by lia.
  destruct GE as (E1 & E2 & E3 & E4 & E5 & E6 & E7 & E8 & E9). destruct GH as (G1 & G2 & G3).
  destruct (absorbs_generated n Hn) as [Ab Rm]. pose proof (share_bound f08 n proper08 ltac:(lia)) as B8.
  set (lops := lops_from (em_dropouts c) (slot_elem c p1 p2 stride t0) start_flow ops).
  pose proof (lops_proper p1 p2 stride c t0 E2 E3 E8 E9 ops G1 G2 G3) as LP. fold lops in LP.
  assert (LC : cleaned_with (share f08 n) f01 lops) by (intros l p next HI; apply lops_cleans in HI; destruct (CC l p next HI) as (-> & -> & _); auto).
  assert (LU : unheld lops) by (intros l p next HI; apply lops_cleans in HI; destruct (CC l p next HI) as (_ & _ & ->); auto).
  pose proof (lops_paced (em_dropouts c) (slot_elem c p1 p2 stride t0) _ ops CP) as LM. fold lops in LM.
  assert (exists l0, link_new n = Ok l0) as (l0 & L0). { unfold chain_new in N. destruct (link_new n) as [l0|]; [eauto|discriminate]. }
  assert (exists l lys, link_run dnf lk (em_tick c * 12) (em_tick c) resets running l0 lops = Ok (l, lys) /\ ~ In (OutWrite false) lys) as (l & lys & EL & NL).
  { destruct ops as [|o ops']; [exists l0, []; split; [reflexivity|intros []]|].
    assert (Hdur : em_tick c * 12 < two64) by (unfold good_history in *; cbn [List.length] in G3; nia).
    destruct (not_refused dnf lk (em_tick c) 12 n resets running Hd E9 ltac:(lia) Hdur Hn' (share f08 n) f01 _ ltac:(lia) Ab Rm lops l0 L0 LP LC LU LM) as (l & lys & EL & NL & _). eauto. }
  destruct (chain_as_link p1 p2 stride c t0 dnf n lk resets running E1 E2 E3 E4 E5 E6 E7 E8 E9 Hd Hn' ops s0 l0 l lys used ws g W N L0 G1 G2 G3 EL NL) as (s & ys & E & NI & <-).
  exists s, ys. split; [exact E|]. split; [exact NI|]. intros dr i Hi Hb He Hl.
  assert (Rec : received lops = map (slot_elem c p1 p2 stride t0) got) by apply lops_received.
  assert (NE : ops <> []) by (intros ->; unfold newest in Hi; cbn in Hi; exact Hi).
  assert (Hdur : em_tick c * 12 < two64) by (destruct ops as [|o ops']; [congruence|]; cbn [List.length] in G3; nia).
  destruct (flow_facts _ _ G2) as (I1 & _ & _). apply increasing_app in I1 as [I1 _]. fold got in I1.
  assert (Hg : got <> []) by (intros X; rewrite X in Hi; unfold newest in Hi; cbn in Hi; exact Hi).
  destruct (reach_lemma dnf lk (em_tick c) 12 n resets running Hd E9 ltac:(lia) Hdur Hn' (share f08 n) f01 (72 * n / 100 - 1)
    (depth_generated n Hn) lops l0 (ch_link s) lys dr L0 LP LC EL NL) as (s' & Es).
  - rewrite Rec. destruct got; [congruence|discriminate].
  - exact He.
  - rewrite Rec, newest_map. destruct (newest (Z.to_nat (72 * n / 100 - 1)) got) as [|j r] eqn:Nw; [contradiction|]. cbn [map oldest_ts]. rewrite (slot_elem_ts p1 p2 stride c t0).
    destruct Hi as [->|Hi]; [exact Hb|]. unfold newest in Nw.
    assert (I2 : increasing (j :: r)). { rewrite <- Nw. rewrite <- (firstn_skipn (List.length got - Z.to_nat (72 * n / 100 - 1)) got) in I1. apply increasing_app in I1. apply I1. }
    destruct I2 as [I2 _]. rewrite Forall_forall in I2. specialize (I2 i Hi). unfold slot_time in *. nia.
  - rewrite Rec, newest_map. destruct (newest (Z.to_nat (72 * n / 100 - 1)) got); [contradiction|discriminate].
  - rewrite Rec. unfold newest_ts. rewrite <- map_rev. destruct (exists_last Hg) as (gi & x & Eg). rewrite Eg in Hl |- *. rewrite last_last in Hl. rewrite rev_unit. cbn [map oldest_ts].
    rewrite (slot_elem_ts p1 p2 stride c t0). exact Hl.
  - rewrite Rec in Es. eexists. cbn [chain_step]. unfold on_link. rewrite Es. cbn [bind]. reflexivity.
Qed.

(** C76. And if nothing is dropped and no push is lost, every window of the last 72 % of the buffer size, less one element, is served with the frames of all its ticks. *)
Theorem C76_every_recent_tick :
  forall (p1 p2 stride : nat) (c : emu_conf) (t0 dnf : Z) (lk : link) (resets running : bool) (used : nat) (ws : list Z) (g : gen) (s0 : chain) (ops : list chain_op)
         (kind : handler_kind) (slowdown : Z) (st : link_settings) (h : handler),
  good_emulation p1 p2 stride c t0 -> 0 <= dnf -> 0 < slowdown <= 250000 -> generated kind slowdown = Some st ->
  let n := st_buffer_size st in
  let hc := handler_conf (st_limit st) (st_share st) (st_handler_size st) h in
  gen_words (em_tables c) used gen_new = Ok (ws, g) -> chain_new c g n = Ok s0 -> good_history c t0 ops -> lossless (em_dropouts c) ops ->
  chain_cleaned_with (h_limit hc) (h_pct hc) ops -> chain_paced (em_dropouts c) (Z.to_nat (8 * n / 100 - 1)) ops ->
  let N := Z.of_nat (List.length (fl_got (flow_run (em_dropouts c) ops))) in
  exists s ys, chain_run p1 p2 stride c dnf lk resets running s0 ops = Ok (s, ys) /\ ~ In (OutWrite false) ys /\
  forall dr : request, 0 < N -> 1 < 72 * n / 100 ->
    t0 + Z.max 0 (N - (72 * n / 100 - 1)) * (12 * em_tick c) <= rq_begin dr -> rq_begin dr <= rq_end dr -> rq_end dr <= t0 + (N - 1) * (12 * em_tick c) ->
    exists s', chain_step p1 p2 stride c dnf lk resets running s (XRequest dr) =
      Ok (s', OutReply kFound (Some (mk_fragment (create_fragment_header lk dr)
        (flat_map (fun m => f_bytes (run_frame c p1 p2 stride t0 m))
           (seq (frames_before c t0 (rq_begin dr)) (frames_before c t0 (rq_end dr) - frames_before c t0 (rq_begin dr))))))).
Proof.
  intros p1 p2 stride c t0 dnf lk resets running used ws g s0 ops kind sd st h GE Hd Hsd Gst n hc W Nw GH LL CC CP N.
  destruct (C76_emulated_link_keeps_up p1 p2 stride c t0 dnf lk resets running used ws g s0 ops kind sd st h GE Hd Hsd Gst W Nw GH CC CP) as (s & ys & E & NI & A).
  exists s, ys. split; [exact E|]. split; [exact NI|]. intros dr HN HK Hb Hbe He.
  destruct GE as (E1 & E2 & E3 & E4 & E5 & E6 & E7 & E8 & E9).
  pose proof (app_seq _ _ _ (lossless_flow _ _ E5 LL (proj1 (proj2 GH)))) as Sq. fold n in A. unfold N in *. clear N. set (got := fl_got _) in *. set (K := 72 * n / 100 - 1) in *.
  set (L := List.length got) in *.
  assert (La : last got 0%nat = (L - 1)%nat). { rewrite Sq. destruct L as [|L']; [cbn in HN; lia|]. rewrite seq_S, last_last. lia. }
  destruct (A dr (Z.to_nat (Z.max 0 (Z.of_nat L - K)))) as (s' & Es).
  - unfold newest. rewrite Sq at 2. fold L. assert (In_skip : forall k N j, (k <= j)%nat -> (j < N)%nat -> In j (skipn k (seq 0 N))).
    { intros k N0 j H1 H2. replace N0 with (k + (N0 - k))%nat by lia. rewrite seq_app, skipn_app, skipn_all2, seq_length, Nat.sub_diag by (rewrite seq_length; lia). cbn [app skipn]. apply in_seq. lia. }
    apply In_skip; lia.
  - unfold slot_time. rewrite Z2Nat.id by lia. exact Hb.
  - exact Hbe.
  - rewrite La. unfold slot_time. replace (Z.of_nat (L - 1)) with (Z.of_nat L - 1) by lia. exact He.
  - exists s'. rewrite Es. do 4 f_equal. rewrite Sq. fold L. do 1 f_equal. apply lossless_window; auto; try lia; [nia|]. unfold slot_time. replace (Z.of_nat (L - 1)) with (Z.of_nat L - 1) by lia. exact He.
Qed.

(** Factor 10000, so fifty places, a limit of forty and a clean-up of at least every third element: three rounds, a restart, twenty rounds, the last sixteen of
    which end above the limit. Every window of the last 35 elements is served; forty are left in the buffer. *)
Definition ex_round : list chain_op := make 3 ++ take 3 ++ [XClean (share f08 50) f01 max_u64].
Definition ex_rounds : list chain_op := List.concat (repeat ex_round 3) ++ [XRestart] ++ List.concat (repeat ex_round 20).
Definition interruptsb (o : chain_op) : bool := match o with XClean _ _ _ | XRestart => true | _ => false end.
Definition paced_check (d : list bool) (m : nat) (ops : list chain_op) : bool :=
  forallb (fun i => forallb (fun j => existsb interruptsb (firstn j (skipn i ops)) ||
      (List.length (fl_got (flow_run d (firstn (i + j) ops))) <=? List.length (fl_got (flow_run d (firstn i ops))) + m)%nat) (seq 0 (S (List.length ops)))) (seq 0 (S (List.length ops))).
Definition drained_check (d : list bool) (ops : list chain_op) : bool :=
  forallb (fun i => match nth_error ops i with Some XRestart => match fl_waiting (flow_run d (firstn i ops)) with [] => true | _ => false end | _ => true end) (seq 0 (List.length ops)).

Lemma firstn_all_app : forall (A : Type) (a b : list A), firstn (List.length a) (a ++ b) = a.
Proof. intros A a b. rewrite firstn_app, firstn_all, Nat.sub_diag. cbn. apply app_nil_r. Qed.

Lemma paced_check_sound : forall d m ops, paced_check d m ops = true -> chain_paced d m ops.
Proof.
  intros d m ops H a b c E F. unfold paced_check in H. rewrite forallb_forall in H.
  assert (L : List.length ops = (List.length a + List.length b + List.length c)%nat) by (rewrite E, !app_length; lia).
  specialize (H (List.length a) ltac:(apply in_seq; lia)). cbn beta in H. rewrite forallb_forall in H. specialize (H (List.length b) ltac:(apply in_seq; lia)). cbn beta in H.
  rewrite E in H. rewrite skipn_app, skipn_all, Nat.sub_diag in H. cbn [app skipn] in H. rewrite !firstn_all_app in H. rewrite <- app_length in H. rewrite (app_assoc a b c), firstn_all_app in H.
  apply orb_true_iff in H as [H|H]; [|apply Nat.leb_le in H; exact H]. exfalso. apply existsb_exists in H as (o & Ho & I). rewrite Forall_forall in F. specialize (F o Ho). destruct o; cbn in *; auto; discriminate.
Qed.

Lemma drained_check_sound : forall d ops, drained_check d ops = true -> drained d ops.
Proof.
  intros d ops H a b E. unfold drained_check in H. rewrite forallb_forall in H. specialize (H (List.length a) ltac:(apply in_seq; rewrite E, app_length; cbn; lia)). cbn beta in H.
  rewrite E, nth_error_app2, Nat.sub_diag in H by lia. cbn [nth_error] in H. rewrite firstn_all_app in H. destruct (fl_waiting _); [reflexivity|discriminate].
Qed.

Lemma ex_rounds_ops : forall o, In o ex_rounds -> In o [XProduce true; XConsume; XClean (share f08 50) f01 max_u64; XRestart].
Proof.
  assert (R : forall k o, In o (List.concat (repeat ex_round k)) -> In o [XProduce true; XConsume; XClean (share f08 50) f01 max_u64; XRestart]).
  { intros k o H. apply in_concat in H as (r & Hr & Ho). apply repeat_spec in Hr. subst r. unfold ex_round in Ho. rewrite !in_app_iff in Ho. cbn [In make take repeat] in *. intuition. }
  intros o H. unfold ex_rounds in H. rewrite !in_app_iff in H. destruct H as [H|[H|H]]; [exact (R _ _ H)| |exact (R _ _ H)]. cbn [In] in *. intuition.
Qed.

Definition ex_settings : link_settings := match generated DataHandler 10000 with Some st => st | None => mk_settings 0 0 0 f08 f01 0 true 0 0 end.
Example C76_emulated_link_keeps_up_ex :
  generated DataHandler 10000 = Some ex_settings /\ st_buffer_size ex_settings = 50 /\
  handler_conf (st_limit ex_settings) (st_share ex_settings) (st_handler_size ex_settings) handler_new = mk_handler (share f08 50) f01 0 /\
  good_emulation 1 5 10 (ex_emu [true]) 1000 /\ good_history (ex_emu [true]) 1000 ex_rounds /\ lossless [true] ex_rounds /\
  chain_cleaned_with (share f08 50) f01 ex_rounds /\ chain_paced [true] (Z.to_nat (8 * 50 / 100 - 1)) ex_rounds /\
  List.length (fl_got (flow_run [true] ex_rounds)) = 60%nat /\
  match chain_new (ex_emu [true]) gen_new 50 with
  | Ok s0 => match chain_run 1 5 10 (ex_emu [true]) 0 ex_link true true s0 ex_rounds with Ok (s, _) => occupancy (ls_ring (ch_link s)) = 40 | Crash => False end
  | Crash => False
  end.
Proof.
  split; [reflexivity|]. split; [reflexivity|]. split; [reflexivity|]. split; [repeat split; try (vm_compute; congruence); try (cbn; lia)|].
  split; [|split; [|split; [|split; [|split]]]].
  - split; [|split; [apply drained_check_sound; vm_compute; reflexivity|vm_compute; reflexivity]]. apply Forall_forall. intros o H. apply ex_rounds_ops in H.
    cbn [In] in H. intuition; subst; cbn [good_call]; auto. split; [vm_compute; congruence|]. split; [vm_compute; intuition congruence|]. intro E. vm_compute in E. discriminate.
  - split; [repeat constructor|]. apply Forall_forall. intros o H. apply ex_rounds_ops in H. cbn [In] in H. intuition; subst; exact I || reflexivity.
  - intros l p next H. apply ex_rounds_ops in H. cbn [In] in H. intuition; try discriminate; congruence.
  - apply paced_check_sound. vm_compute. reflexivity.
  - vm_compute. reflexivity.
  - vm_compute. reflexivity.
Qed.

Print Assumptions C76_nothing_refused.
Print Assumptions C76_standard_paces.
Print Assumptions C76_emulated_link_keeps_up.
Print Assumptions C76_every_recent_tick.
