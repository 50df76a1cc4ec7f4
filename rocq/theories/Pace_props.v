(** Property C77: the pace of an emulated link in time. *)
From Coq Require Import ZArith List Bool Lia Sorted.
From Verif Require Import Base_model Rate_model Codec_model Codec_spec Ebg_model Ebg_spec Emu_model Emu_spec Ring_model Elem_model Float_model
  Registry_model Request_model Request_spec Cleanup_spec Link_model Link_spec Chain_model Chain_spec Chain_props Keep_model Keep_spec Settings_model Settings_props
  Sustain_spec Sustain_props Pace_model Pace_spec Pace_proofs Pace_proofs2.
Import ListNotations.
Open Scope Z_scope.

(** C77. The period between two elements is the exact one, 1000000 * factor / rate ns, rounded down; if that is a whole number, the period may be one ns shorter. *)
Theorem C77_period :
  forall r s : Z, 0 < r -> 0 < s -> 1000000 * s < 2 ^ 51 ->
  emulator_period r s * r <= 1000000 * s <= (emulator_period r s + 1) * r /\
  ((1000000 * s) mod r <> 0 -> emulator_period r s = 1000000 * s / r).
Proof.
  intros r s Hr Hs B. destruct (emulator_period_accuracy r s Hr Hs) as (A1 & A2 & A3). change (2 ^ 51) with 2251799813685248 in *.
  set (P := emulator_period r s) in *. clearbody P. set (x := P * r) in *. replace ((P + 1) * r) with (x + r) in * by (unfold x; ring).
  assert (G : x <= 1000000 * s <= x + r) by lia. split; [exact G|]. intros M.
  assert (1000000 * s <> x + r). { intros E. apply M. rewrite E. unfold x. replace (P * r + r) with ((P + 1) * r) by ring. apply Z_mod_mult. }
  apply (Z.div_unique_pos _ _ _ (1000000 * s - x)); [lia|]. unfold x. ring.
Qed.
Print Assumptions C77_period.

Example C77_period_ex : emulator_period 166 1 = 6024 /\ emulator_period 166 10 = 60240 /\ emulator_period 200 1 = 5000 /\ emulator_period 66 10 = 151515.
Proof. vm_compute. repeat split; reflexivity. Qed.

(** C77 (finding). With the rate of the DAPHNE source and factor 3 the period is one ns too short. *)
Theorem C77_exact_period_refuted : exists r s, 0 < r /\ 0 < s /\ 1000000 * s < 2 ^ 51 /\ emulator_period r s * r <> 1000000 * s /\ (1000000 * s) mod r = 0.
Proof. exists 200, 3. vm_compute. repeat split; congruence. Qed.
Print Assumptions C77_exact_period_refuted.

(** C77. How many elements can reach the link between two clean-ups: those of the time between the clean-ups and of the time an element may wait in the queue,
    and of the slack of the limiter, which counts twice; and five more. *)
Theorem C77_arrivals_between_cleanups :
  forall (dropouts : list bool) (period t0 T D : Z) (h : list timed),
  0 < period < 2 ^ 62 -> timed_history period t0 h -> drained dropouts (ops_of h) -> cleaned_every T h -> prompt dropouts D h ->
  chain_paced dropouts (Z.to_nat ((T + D + 2 * max_overshoot) / period + 5)) (ops_of h).
Proof. intros. eapply timed_paced; eauto. Qed.
Print Assumptions C77_arrivals_between_cleanups.

Lemma paced_more : forall d m m' ops, (m <= m')%nat -> chain_paced d m ops -> chain_paced d m' ops.
Proof. intros d m m' ops L H a b c E F. specialize (H a b c E F). cbn beta in *. lia. Qed.

Lemma wib_period : forall s, 0 < s -> 1000000 * s < 2 ^ 51 -> 6023 * s <= emulator_period 166 s < 2 ^ 51.
Proof. intros s Hs B. destruct (C77_period 166 s ltac:(lia) Hs B) as [G _]. change (2 ^ 51) with 2251799813685248 in *. lia. Qed.

(** C77. A generated link behind a WIB or WIB2 source with the slow-down factor of the configuration: if the time between two clean-ups and the time an element waits in the
    queue together are at most 220 ms less 37 us times the factor, nothing is refused and the newest 72 % are served. *)
Theorem C77_wib_link_keeps_up :
  forall (p1 p2 stride : nat) (c : emu_conf) (t0 dnf : Z) (lk : link) (resets running : bool) (used : nat) (ws : list Z) (g : gen) (s0 : chain)
         (begin T D : Z) (h : list timed) (kind : handler_kind) (slowdown : Z) (st : link_settings) (hd : handler),
  good_emulation p1 p2 stride c t0 -> 0 <= dnf -> 0 < slowdown -> 0 <= T -> 0 <= D -> T + D + 37000 * slowdown <= 220000000 -> generated kind slowdown = Some st ->
  let n := st_buffer_size st in
  let hc := handler_conf (st_limit st) (st_share st) (st_handler_size st) hd in
  gen_words (em_tables c) used gen_new = Ok (ws, g) -> chain_new c g n = Ok s0 -> good_history c t0 (ops_of h) ->
  chain_cleaned_with (h_limit hc) (h_pct hc) (ops_of h) ->
  timed_history (emulator_period 166 slowdown) begin h -> cleaned_every T h -> prompt (em_dropouts c) D h ->
  let got := fl_got (flow_run (em_dropouts c) (ops_of h)) in
  exists s ys, chain_run p1 p2 stride c dnf lk resets running s0 (ops_of h) = Ok (s, ys) /\ ~ In (OutWrite false) ys /\
  forall (dr : request) (i : nat), In i (newest (Z.to_nat (72 * n / 100 - 1)) got) -> slot_time c t0 i <= rq_begin dr -> rq_begin dr <= rq_end dr ->
    rq_end dr <= slot_time c t0 (last got 0%nat) ->
    exists s', chain_step p1 p2 stride c dnf lk resets running s (XRequest dr) =
      Ok (s', OutReply kFound (Some (mk_fragment (create_fragment_header lk dr) (window_bytes (map (slot_elem c p1 p2 stride t0) got) (rq_begin dr) (rq_end dr))))).
Proof.
  intros p1 p2 stride c t0 dnf lk resets running used ws g s0 begin T D h kind sd st hd GE Hd Hsd HT HD HB Gst n hc W N GH CC TH CE Pr got.
  apply (C76_emulated_link_keeps_up p1 p2 stride c t0 dnf lk resets running used ws g s0 (ops_of h) kind sd st hd); auto; [lia|]. fold n.
  destruct (wib_period sd Hsd ltac:(change (2 ^ 51) with 2251799813685248; lia)) as [P1 P2]. set (P := emulator_period 166 sd) in *.
  refine (paced_more _ _ _ _ _ (timed_paced (em_dropouts c) P begin T D h _ TH (proj1 (proj2 GH)) CE Pr)).
  2:{ change (2 ^ 51) with 2251799813685248 in P2. change (2 ^ 62) with 4611686018427387904. lia. }
  destruct (generated_size kind sd st Hsd Gst) as (B1 & _). unfold n in *. rewrite B1 in *. clear B1.
  pose proof (Z.mul_succ_div_gt 500000 sd Hsd) as E1. set (q := 500000 / sd) in *. clearbody q. unfold Z.succ in E1.
  pose proof (Z.mul_succ_div_gt (8 * q) 100 ltac:(lia)) as E2. set (k := 8 * q / 100) in *. clearbody k. unfold Z.succ in E2.
  apply Z2Nat.inj_le.
  - apply Z.add_nonneg_nonneg; [|lia]. apply Z.div_pos; unfold max_overshoot; lia.
  - nia.
  - assert (X : (T + D + 2 * max_overshoot) / P < k - 5); [|lia]. apply Z.div_lt_upper_bound; [lia|]. unfold max_overshoot.
    assert (K5 : (8 * q - 599) <= 100 * (k - 5)) by lia. assert (K6 : 0 < 8 * q - 599) by nia.
    assert (K7 : 6023 * sd * (8 * q - 599) <= P * (100 * (k - 5))) by (apply Z.mul_le_mono_nonneg; lia).
    replace (P * (100 * (k - 5))) with (100 * (P * (k - 5))) in K7 by ring. set (z := P * (k - 5)) in *. clearbody z. nia.
Qed.
Print Assumptions C77_wib_link_keeps_up.

(** Factor 1000: a period of 6.024096 ms. Three elements of one run, the second late; a clean-up; a restart; an element of the next run. *)
Definition ex_clean : chain_op := XClean (share f08 500) f01 max_u64.
Definition ex_timed : list timed :=
  [At 100 (XProduce true); At 2000 XConsume; Limited [3000000; 6024196] 6024200; At 6024300 (XProduce true); Limited [9000000; 12048300] 12048300; At 12048400 XConsume;
   At 12048500 (XProduce true); At 12048600 XConsume; At 13000000 ex_clean; Limited [18072400] 18072400; At 19000000 XRestart; At 19000100 (XProduce true); At 19000200 XConsume].
Definition ex_thousand : link_settings := match generated RawTpHandler 1000 with Some st => st | None => ex_settings end.

Lemma all_within : forall T h, Forall (fun e => 0 <= when e <= T) h -> cleaned_every T h /\ forall d, prompt d T h.
Proof.
  intros T h F. rewrite Forall_forall in F. split.
  - intros a b c E _ e1 e2 H1 H2. pose proof (F e1 ltac:(rewrite E; apply in_or_app; right; apply in_or_app; auto)). pose proof (F e2 ltac:(rewrite E; apply in_or_app; right; apply in_or_app; auto)). lia.
  - intros d a1 t1 room a2 t2 b i w E _ _ _. pose proof (F (At t1 (XProduce room)) ltac:(rewrite E; apply in_or_app; right; left; reflexivity)).
    pose proof (F (At t2 XConsume) ltac:(rewrite E; apply in_or_app; right; right; apply in_or_app; right; left; reflexivity)). cbn [when] in *. lia.
Qed.

Example C77_wib_link_keeps_up_ex :
  generated RawTpHandler 1000 = Some ex_thousand /\ st_buffer_size ex_thousand = 500 /\ emulator_period 166 1000 = 6024096 /\
  30000000 + 30000000 + 37000 * 1000 <= 220000000 /\
  good_emulation 1 5 10 (ex_emu [true]) 1000 /\ good_history (ex_emu [true]) 1000 (ops_of ex_timed) /\ chain_cleaned_with (share f08 500) f01 (ops_of ex_timed) /\
  timed_history 6024096 100 ex_timed /\ cleaned_every 30000000 ex_timed /\ prompt [true] 30000000 ex_timed.
Proof.
  split; [reflexivity|]. split; [reflexivity|]. split; [vm_compute; reflexivity|]. split; [lia|]. split; [repeat split; try (vm_compute; congruence); try (cbn; lia)|].
  split; [|split; [|split]].
  - split; [|split; [apply drained_check_sound; vm_compute; reflexivity|vm_compute; reflexivity]]. unfold ex_timed. cbn [ops_of flat_map app].
    repeat constructor; try (vm_compute; intuition congruence).
  - intros l p next H. unfold ex_timed in H. cbn [ops_of flat_map app In] in H. unfold ex_clean in H. intuition; try discriminate; congruence.
  - split; [lia|]. split; [unfold ex_timed; cbn [map when]; repeat (apply Sorted_cons; [|constructor; lia]); repeat constructor|].
    split; [unfold ex_timed; repeat (apply Forall_cons; [cbn [when]; lia|]); constructor|].
    eexists. unfold ex_timed.
    repeat first [ apply PRnil
      | eapply PRcons; [first [ apply PMake; [reflexivity|cbn; lia]
                              | eapply PLimit; [reflexivity|cbn; repeat (apply Sorted_cons; [|constructor; lia]); repeat constructor|vm_compute; reflexivity]
                              | apply PRestart; cbn; lia
                              | apply POther; [discriminate|intros; discriminate] ]|] ].
  - assert (F : Forall (fun e => 0 <= when e <= 30000000) ex_timed) by (unfold ex_timed; repeat (apply Forall_cons; [cbn [when]; lia|]); constructor).
    destruct (all_within 30000000 ex_timed F) as [A B]. split; [exact A|apply B].
Qed.
