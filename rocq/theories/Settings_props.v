(** Properties C73 and C14: what the generated settings give. *)
From Coq Require Import ZArith List Bool Lia.
From Verif Require Import Base_model Ring_model Ring_spec Ring_proofs Float_model Float_proofs Cleanup_spec Record_model Record_spec Keep_model Keep_spec Keep_proofs2
  Settings_model.
From Verif Require Elem_model Lb_model SkipList_model Request_model Flow_model Flow_spec Flow_props.
From Verif Require Record_proofs Pipe_model Pipe_spec Zcopy_model Zcopy_spec Keep_props Pipe_props Zcopy_props.
Import ListNotations.
Open Scope Z_scope.

Lemma generated_size : forall k s c, 0 < s -> generated k s = Some c ->
  st_buffer_size c = 500000 / s /\ st_handler_size c = 500000 / s /\ st_alignment c = 0 /\ st_postprocess c = 10000 /\ st_limit c = f08 /\ st_share c = f01 /\
  st_recording c = match k with DataHandler => true | _ => false end.
Proof.
  intros k s c Hs H. assert (L : latency_buffer_size s = Some (500000 / s)).
  { unfold latency_buffer_size, clock_speed_hz. replace (s =? 0) with false by (symmetry; apply Z.eqb_neq; lia). f_equal.
    replace (3 * 50000000) with (300 * 500000) by reflexivity. change (25 * 12) with 300. apply Z.div_mul_cancel_l; lia. }
  unfold generated in H. rewrite L in H. injection H as <-. repeat split.
Qed.

Lemma size_bound : forall s, 0 < s -> 0 <= 500000 / s <= 500000.
Proof. intros s Hs. split; [apply Z.div_pos; lia|]. apply Z.div_le_upper_bound; [lia|]. nia. Qed.

Lemma size_ge : forall s m, 0 < s -> 0 < m -> (m <= 500000 / s <-> s <= 500000 / m).
Proof.
  intros s m Hs Hm. split; intros H.
  - apply Z.div_le_lower_bound; [lia|]. pose proof (Z.mul_div_le 500000 s Hs). nia.
  - apply Z.div_le_lower_bound; [lia|]. pose proof (Z.mul_div_le 500000 m Hm). nia.
Qed.

(** C73. The generator gives the buffer and the request handler of every link the same size, three seconds worth of WIB superchunks
    divided by the slow-down factor; the handler accepts its settings without an error; and the buffer can be made if and only if the
    factor is at most 250000. With the factor 0 there is no configuration. *)
Theorem C73_sizes :
  forall (k : handler_kind) (s : Z) (c : link_settings) (h : handler), 0 <= s -> generated k s = Some c ->
  st_buffer_size c = st_handler_size c /\ 3 * 50000000 - 300 * s < st_buffer_size c * (12 * 25) * s <= 3 * 50000000 /\
  h_errors (handler_conf (st_limit c) (st_share c) (st_handler_size c) h) = h_errors h /\
  ((exists r, @ring_new Z (st_buffer_size c) = Ok r) <-> s <= 250000).
Proof.
  intros k s c h Hs' H. assert (Hs : 0 < s) by (destruct (Z.eq_dec s 0) as [->|]; [discriminate H|lia]).
  destruct (generated_size k s c Hs H) as (-> & -> & _ & _ & -> & -> & _). split; [reflexivity|]. split; [|split; [reflexivity|]].
  - pose proof (Z.mul_div_le 500000 s Hs). pose proof (Z.mul_succ_div_gt 500000 s Hs). nia.
  - unfold ring_new. pose proof (size_ge s 2 Hs ltac:(lia)) as G. change (500000 / 2) with 250000 in G. destruct (Z.ltb_spec (500000 / s) 2).
    + split; [intros [r X]; discriminate|lia].
    + split; [intros _; apply G; lia|intros _; eexists; reflexivity].
Qed.

Example C73_sizes_ex :
  generated DataHandler 10 = Some (mk_settings 50000 0 50000 f08 f01 8388608 true 10000 100) /\
  generated RawTpHandler 7 = Some (mk_settings 71428 0 71428 f08 f01 8388608 false 10000 100) /\ generated SwTpHandler 0 = None.
Proof. vm_compute. repeat split; reflexivity. Qed.

(** C73. A generated link keeps, under every schedule, its newest elements: at least 2.16 seconds worth of them at the slowed-down rate
    (108000000 ticks of 20 ns, each element standing for 300 ticks times the factor), less three elements. *)
Theorem C73_depth :
  forall (k : handler_kind) (s : Z) (c : link_settings) (h : handler) (E : Type) (ts dur : E -> Z) (acts : list (action E)) (st : rstate E),
  0 < s <= 250000 -> generated k s = Some c ->
  let hc := handler_conf (st_limit c) (st_share c) (st_handler_size c) h in
  arun ts dur (h_limit hc) (share (h_pct hc)) (init (st_buffer_size c)) acts = Some st ->
  exists K, 108000000 - 3 * (300 * s) <= K * (300 * s) /\
    newest (Z.to_nat K) (stored st) = newest (Z.to_nat K) (s_all st).
Proof.
  intros k s c h E ts dur acts st Hs H. destruct (generated_size k s c (proj1 Hs) H) as (-> & -> & _ & _ & -> & -> & _). intros hc R.
  pose proof (size_bound s (proj1 Hs)) as B. assert (2 <= 500000 / s) by (apply size_ge; [lia|lia|change (500000 / 2) with 250000; lia]).
  set (n := 500000 / s) in *. exists (72 * n / 100 - 1). split.
  - assert (500000 < s * (n + 1)) by (pose proof (Z.mul_succ_div_gt 500000 s (proj1 Hs)); unfold n; lia).
    pose proof (Z.mul_succ_div_gt (72 * n) 100 ltac:(lia)) as Q. set (q := 72 * n / 100) in *. nia.
  - change hc with (handler_conf f08 f01 n h) in R. apply (proj1 (Keep_props.C72_standard_settings E ts dur n h ltac:(change (2 ^ 24) with 16777216; lia)) acts st R).
Qed.

Example C73_depth_ex : 108000000 - 3 * (300 * 10) <= 35999 * (300 * 10) /\ 72 * 50000 / 100 - 1 = 35999.
Proof. vm_compute. intuition congruence. Qed.

Lemma none_small : forall n o, 0 <= o < n -> n <= 10 -> share f01 o <= 0.
Proof.
  intros n o Ho Hn. assert (o = 0 \/ o = 1 \/ o = 2 \/ o = 3 \/ o = 4 \/ o = 5 \/ o = 6 \/ o = 7 \/ o = 8 \/ o = 9) as D by lia.
  repeat (destruct D as [-> | D]; [vm_compute; discriminate|]). subst o. vm_compute. discriminate.
Qed.

Lemma some_large : forall n, 11 <= n < 2 ^ 24 -> share f08 n < n - 1 /\ 0 < share f01 (n - 1).
Proof.
  intros n Hn. destruct (share_accuracy f08 n proper08 ltac:(lia)) as [A _]. destruct (share_accuracy f01 (n - 1) proper01 ltac:(lia)) as [_ B].
  cbn [fst snd f08 f01] in *. change (- -24) with 24 in *. change (- -27) with 27 in *. change (2 ^ 24) with 16777216 in *. change (2 ^ 27) with 134217728 in *.
  split; [lia|]. destruct (Z.le_gt_cases (n - 1) 10) as [L|L]; [replace n with 11 by lia; vm_compute; reflexivity|]. lia.
Qed.

(** C73. The clean-up of a generated link ever removes something if and only if the factor is at most 45454; otherwise the buffer keeps the
    first elements of the run and refuses all later ones. *)
Theorem C73_cleanup_works :
  forall (k : handler_kind) (s : Z) (c : link_settings) (h : handler) (E : Type) (ts dur : E -> Z) (x : E),
  0 < s <= 250000 -> generated k s = Some c -> ts x < max_u64 ->
  let hc := handler_conf (st_limit c) (st_share c) (st_handler_size c) h in
  (s <= 45454 <-> exists (acts : list (action E)) st, arun ts dur (h_limit hc) (share (h_pct hc)) (init (st_buffer_size c)) acts = Some st /\ s_popped st <> 0%nat) /\
  (45454 < s -> forall (acts : list (action E)) st, arun ts dur (h_limit hc) (share (h_pct hc)) (init (st_buffer_size c)) acts = Some st ->
     stored st = firstn (Z.to_nat (st_buffer_size c - 1)) (arrivals acts)).
Proof.
  intros k s c h E ts dur x Hs H Hx. destruct (generated_size k s c (proj1 Hs) H) as (-> & -> & _ & _ & -> & -> & _). intros hc.
  pose proof (size_bound s (proj1 Hs)) as B. assert (2 <= 500000 / s) by (apply size_ge; [lia|lia|change (500000 / 2) with 250000; lia]).
  pose proof (size_ge s 11 (proj1 Hs) ltac:(lia)) as G. change (500000 / 11) with 45454 in G.
  set (n := 500000 / s) in *. change (h_limit hc) with (share f08 n). change (h_pct hc) with f01.
  assert (supported_size n) as Sn by (split; lia). pose proof (share_bound f08 n proper08 ltac:(change (2 ^ 24) with 16777216; lia)) as L0.
  destruct (Keep_props.C72_removes_iff E ts dur (share f08 n) (share f01) n x Sn ltac:(lia) Hx) as [I N].
  assert (W : s <= 45454 <-> exists o, share f08 n < o < n /\ 0 < share f01 o).
  { rewrite <- G. split.
    - intros L. destruct (some_large n ltac:(change (2 ^ 24) with 16777216; lia)) as [S1 S2]. exists (n - 1). split; [lia|exact S2].
    - intros (o & Ho & Hq). destruct (Z.le_gt_cases 11 n) as [|L]; [assumption|]. pose proof (none_small n o ltac:(lia) ltac:(lia)). lia. }
  split; [rewrite W; exact I|]. intros L acts st R. apply N; [|exact R]. intros o Ho. apply (none_small n); lia.
Qed.

Example C73_cleanup_works_ex : st_buffer_size (mk_settings 11 0 11 f08 f01 8388608 true 10000 100) = 500000 / 45454 /\ 500000 / 45455 = 10.
Proof. vm_compute. split; reflexivity. Qed.

(** C73. A post-processing task of a generated link is sure to read the payload it was called for, as long as no warning is given, if and
    only if the factor is below 50: from then on the queue of 10000 is as long as the buffer. (Up to a factor of 166666, from which on
    the buffer has fewer than three places.) *)
Theorem C73_postprocessing :
  forall (k : handler_kind) (s : Z) (c : link_settings) (A : Type) (f : nat -> A) (s0 : Pipe_model.pipe A),
  0 < s <= 166666 -> generated k s = Some c -> f 0%nat <> f (Z.to_nat (st_buffer_size c)) ->
  Pipe_model.pipe_new (st_buffer_size c) (Z.to_nat (st_postprocess c)) = Ok s0 ->
  s < 50 <->
  (forall st acts before after v, Pipe_model.pipe_run s0 acts = Ok (st, before ++ Pipe_model.ELook v :: after) -> ~ Pipe_spec.warned before ->
   exists i x, Pipe_spec.current (Pipe_spec.ledger_of before) = Some i /\ nth_error (Pipe_spec.stored (Pipe_spec.ledger_of before)) i = Some x /\ v = Some x).
Proof.
  intros k s c A f s0 Hs H Hf N. destruct (generated_size k s c (proj1 Hs) H) as (E1 & _ & _ & E2 & _). rewrite E1 in *. rewrite E2 in *.
  pose proof (size_bound s (proj1 Hs)) as B. assert (3 <= 500000 / s) by (apply size_ge; [lia|lia|change (500000 / 3) with 166666; lia]).
  pose proof (size_ge s 10001 (proj1 Hs) ltac:(lia)) as G. change (500000 / 10001) with 49 in G.
  set (n := 500000 / s) in *. assert (supported_size n) as Sn by (split; lia). split.
  - intros L st acts before after v R W. eapply (Pipe_props.C67_keeping_up n (Z.to_nat 10000) s0); try eassumption; try reflexivity; try lia.
  - intros Q. destruct (Z.lt_ge_cases s 50) as [|L]; [assumption|exfalso].
    destruct (Pipe_props.C67_queue_as_long_as_buffer f n (Z.to_nat 10000) s0 Sn ltac:(lia) N) as (st & acts & before & R & W & _ & _ & C & F & _).
    destruct (Q st acts before [] _ R W) as (i & x & C' & X & V). rewrite C in C'. injection C' as <-. rewrite F in X. injection X as <-. injection V as V. congruence.
Qed.

Example C73_postprocessing_ex :
  500000 / 49 = 10204 /\ 500000 / 50 = 10000 /\ exists s0 : Pipe_model.pipe Z, Pipe_model.pipe_new 10204 (Z.to_nat 10000) = Ok s0.
Proof. split; [reflexivity|]. split; [reflexivity|]. eexists. reflexivity. Qed.

(** C73. The "not 4k aligned" error is reported for every generated WIB link; without it, a recording needs an alignment and a
    buffer size that is a multiple of 64, which the size for factor 1 is not. The recording of a generated WIB link never writes a
    byte and ends the process as soon as it finds data in the buffer. *)
Theorem C73_wib_recording_refuted :
  forall (s : Z) (c : link_settings) (E : Type) (ts : E -> Z) limit quota addr0 (acts : list Zcopy_model.zaction) z,
  0 < s <= 250000 -> generated DataHandler s = Some c ->
  Zcopy_model.zrun ts limit quota wib_superchunk_size (st_stream c) (st_alignment c) addr0 (Zcopy_model.zinit (st_buffer_size c)) acts = Some z ->
  st_recording c = true /\ alignment_error (st_alignment c) (st_buffer_size c) wib_superchunk_size = true /\
  (forall align size, 0 <= size < 2 ^ 32 -> (alignment_error align size wib_superchunk_size = false <-> align <> 0 /\ size mod 64 = 0)) /\
  Zcopy_model.z_file z = [] /\
  (s_crashed (Zcopy_model.z_core z) = false -> Zcopy_model.z_pc z = Zcopy_model.ZTop -> s_requested (Zcopy_model.z_core z) = false -> Zcopy_spec.zstored z <> [] ->
   forall ret, exists z', Zcopy_model.zrun ts limit quota wib_superchunk_size (st_stream c) (st_alignment c) addr0 z (repeat (Zcopy_model.ZRec false ret) 5) = Some z' /\
     s_crashed (Zcopy_model.z_core z') = true).
Proof.
  intros s c E ts limit quota addr0 acts z Hs H. destruct (generated_size _ s c (proj1 Hs) H) as (-> & _ & -> & _ & _ & _ & ->). intros R.
  pose proof (size_bound s (proj1 Hs)) as B. assert (2 <= 500000 / s) by (apply size_ge; [lia|lia|change (500000 / 2) with 250000; lia]).
  split; [reflexivity|]. split; [reflexivity|]. split; [|exact (Zcopy_props.C44_no_alignment_crashes E ts limit quota (500000 / s) _ _ addr0 acts z ltac:(split; lia) R)].
  intros align size Hz. unfold alignment_error, wib_superchunk_size. change (2 ^ 32) with 4294967296 in Hz.
  assert (U : u64 (5568 * size) = 5568 * size) by (unfold u64; apply Z.mod_small; change two64 with 18446744073709551616; lia). rewrite U.
  assert (M : (5568 * size) mod 4096 = 0 <-> size mod 64 = 0).
  { split; intros X.
    - apply Z.mod_divide in X; [|lia]. destruct X as [q X]. pose proof (Z.div_mod size 64 ltac:(lia)) as D. pose proof (Z.mod_pos_bound size 64 ltac:(lia)).
      assert (Y : 87 * (size mod 64) = 64 * (q - 87 * (size / 64))) by lia. set (r := size mod 64) in *. set (t := q - 87 * (size / 64)) in *. lia.
    - apply Z.mod_divide in X; [|lia]. destruct X as [q ->]. replace (5568 * (q * 64)) with (87 * q * 4096) by lia. apply Z.mod_mul. lia. }
  rewrite orb_false_iff, negb_false_iff, Z.eqb_neq, Z.eqb_eq, M. reflexivity.
Qed.

Example C73_wib_recording_ex :
  alignment_error 4096 (500000 / 1) wib_superchunk_size = true /\ alignment_error 4096 (500000 / 5) wib_superchunk_size = true /\
  alignment_error 4096 500032 wib_superchunk_size = false /\
  match Zcopy_model.zrun (fun x : Z => x) 400000 (share f01) wib_superchunk_size 8388608 0 4096 (Zcopy_model.zinit 500000)
          [Zcopy_model.ZWrite 10; Zcopy_model.ZStart] with
  | Some z => Zcopy_model.z_pc z = Zcopy_model.ZTop /\ s_crashed (Zcopy_model.z_core z) = false /\ Zcopy_spec.zstored z = [10]
  | None => False
  end.
Proof. vm_compute. repeat split; reflexivity. Qed.

(** C14. Whatever 32-bit number is configured, in every execution: a request is answered by time-out after that number of checks plus one, if the
    number is not negative; with a negative number, not before 2^64 - 2^31 checks have found the data missing. The retry count of a request
    never wraps around. *)
Theorem C14_configured_count :
  forall (n : Z) dnf lk tick (B : Type) (L : Lb_model.lb Elem_model.elem B) acts missing b s,
  - 2 ^ 31 <= n < 2 ^ 31 ->
  Flow_model.frun dnf lk tick L (retries_of n) (Flow_model.finit missing b) acts = Some s ->
  (forall w, In w (Flow_model.f_waiting s) -> Z.of_nat (Flow_model.w_retry w) < 2 ^ 64 /\ (0 <= n -> Z.of_nat (Flow_model.w_retry w) <= n)) /\
  forall a seen, In a (Flow_model.f_out s) -> Flow_model.a_why a = Flow_model.TimedOut seen ->
    (forall t, In t seen -> t <= Request_model.rq_end (Flow_model.t_req (Flow_model.a_task a))) /\
    (0 <= n -> Z.of_nat (length seen) = n + 1) /\ (n < 0 -> 2 ^ 64 - 2 ^ 31 < Z.of_nat (length seen)).
Proof.
  intros n dnf lk tick B L acts missing b s Hn R. destruct (Flow_props.C14_time_outs_in_every_execution _ _ _ _ _ _ _ _ _ _ R) as (W & T & _).
  assert (M : Z.of_nat (retries_of n) = n mod 18446744073709551616).
  { unfold retries_of, u64. change two64 with 18446744073709551616. rewrite Z2Nat.id; [reflexivity|]. apply Z.mod_pos_bound. lia. }
  change (2 ^ 31) with 2147483648 in *. change (2 ^ 64) with 18446744073709551616.
  assert (P : 0 <= n -> Z.of_nat (retries_of n) = n) by (intros P; rewrite M; apply Z.mod_small; lia).
  assert (Q : n < 0 -> Z.of_nat (retries_of n) = n + 18446744073709551616).
  { intros Q. rewrite M. symmetry. apply (Z.mod_unique _ _ (-1)); lia. }
  assert (0 <= Z.of_nat (retries_of n) < 18446744073709551616) by (rewrite M; apply Z.mod_pos_bound; lia).
  split.
  - intros w I. destruct (W w I) as (_ & Le & _). lia.
  - intros a seen I A. destruct (T a seen I A) as (E & S & _). split; [exact S|]. rewrite E. lia.
Qed.

(** C73. On a generated link a request that times out has been checked exactly 101 times. *)
Theorem C73_waiting :
  forall (k : handler_kind) (s : Z) (c : link_settings) dnf lk tick (B : Type) (L : Lb_model.lb Elem_model.elem B) acts missing b st,
  generated k s = Some c ->
  Flow_model.frun dnf lk tick L (retries_of (st_retries c)) (Flow_model.finit missing b) acts = Some st ->
  forall a seen, In a (Flow_model.f_out st) -> Flow_model.a_why a = Flow_model.TimedOut seen -> length seen = 101%nat.
Proof.
  intros k s c dnf lk tick B L acts missing b st H R a seen I A.
  assert (E : st_retries c = 100) by (unfold generated in H; destruct (latency_buffer_size s); [injection H as <-; reflexivity|discriminate H]).
  rewrite E in R. destruct (proj2 (C14_configured_count 100 _ _ _ _ _ _ _ _ _ ltac:(split; vm_compute; congruence) R) a seen I A) as (_ & X & _). lia.
Qed.

(** The request of [C14_ex] with the configured count 100: 101 checks, then the answer. *)
Definition waiting_run (checks : nat) : list (@Flow_model.faction (list Elem_model.elem)) :=
  [Flow_model.FIssue (Flow_props.fr 5 110 130); Flow_model.FTake 0; Flow_model.FWork 0 false; Flow_model.FWork 0 false; Flow_model.FWork 0 false] ++
  concat (repeat (repeat (Flow_model.FLoop false) 4) checks).
Example C73_waiting_ex :
  let go := fun checks => Flow_model.frun 3 Flow_props.flk 10 (Lb_model.sl_lb Elem_model.e_ts) (retries_of 100) (Flow_model.finit false (Flow_props.fbuf [100; 110; 120])) (waiting_run checks) in
  match go 100%nat, go 101%nat with
  | Some s, Some s' => map Flow_model.w_retry (Flow_model.f_waiting s) = [100%nat] /\ Flow_model.f_out s = [] /\ Flow_model.f_waiting s' = [] /\
                       map Flow_model.a_why (Flow_model.f_out s') = [Flow_model.TimedOut (repeat 120 101)]
  | _, _ => False
  end.
Proof. vm_compute. repeat split; reflexivity. Qed.

Print Assumptions C14_configured_count.
Print Assumptions C73_waiting.
Print Assumptions C73_sizes.
Print Assumptions C73_depth.
Print Assumptions C73_cleanup_works.
Print Assumptions C73_postprocessing.
Print Assumptions C73_wib_recording_refuted.
