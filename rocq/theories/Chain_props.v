(** Property C69: requests to a link fed by the source emulator. *)
From Coq Require Import String ZArith List Bool Lia.
From Verif Require Import Base_model Bytes_model Codec_model Codec_spec Ebg_model Ebg_spec Emu_model Emu_spec Elem_model Float_model
  Registry_model Request_model Request_spec Cleanup_spec Check_model Check_spec Link_model Chain_model Chain_spec
  Chain_proofs Chain_proofs2 Chain_proofs3.
Import ListNotations.
Open Scope Z_scope.

(** An emulation that can be started: elements of twelve frames with two timestamp fields, a file of at least one
    element, a dropout table, a positive tick. *)
Definition good_emulation (p1 p2 stride : nat) (c : emu_conf) (t0 : Z) : Prop :=
  fields_ok p1 p2 stride /\ em_size c = (12 * stride)%nat /\ (em_size c <= List.length (em_source c))%nat /\
  Z.of_nat (List.length (em_source c) / em_size c) < two32 /\ em_dropouts c <> [] /\ tables_ok (em_tables c) /\
  t0 = (if em_t0 c >=? 0 then em_t0 c else em_get_ts c (firstn (em_size c) (em_source c))) /\ 0 <= t0 /\ 0 < em_tick c.

(** A history of calls: clean-ups of less than everything, windows not reversed, the queue empty at each restart, the
    emulated time within 64 bits. *)
Definition good_history (c : emu_conf) (t0 : Z) (ops : list chain_op) : Prop :=
  Forall good_call ops /\ drained (em_dropouts c) ops /\ t0 + Z.of_nat (List.length ops) * (12 * em_tick c) < two64.

(** C69. After every interleaving of production (with any dropouts and lost pushes), consumption, clean-ups, requests and
    restarts in which the ring refused nothing: the buffer holds the elements of this run that have been received, less
    some of the oldest (none if nothing was cleaned up); every request gets the answer that follows from their times,
    and a served one exactly the frames of its window among those received in this run: the bytes of the file with the
    emulated time written into them. *)
Theorem C69_requests_get_the_emulated_data :
  forall (p1 p2 stride : nat) (c : emu_conf) (t0 dnf n : Z) (lk : link) (resets running : bool)
         (used : nat) (ws : list Z) (g : gen) (s0 s : chain) (ops : list chain_op) (ys : list link_out),
  good_emulation p1 p2 stride c t0 -> 0 <= dnf -> 2 <= n <= 2 ^ 24 ->
  gen_words (em_tables c) used gen_new = Ok (ws, g) -> chain_new c g n = Ok s0 -> good_history c t0 ops ->
  chain_run p1 p2 stride c dnf lk resets running s0 ops = Ok (s, ys) -> ~ In (OutWrite false) ys ->
  let got := fl_got (flow_run (em_dropouts c) ops) in
  exists k, (k <= List.length got)%nat /\ (Forall (fun o => ~ is_clean o) ops -> k = 0%nat) /\
  forall dr, rq_begin dr <= rq_end dr ->
  exists s' f, chain_step p1 p2 stride c dnf lk resets running s (XRequest dr) =
      Ok (s', OutReply (answer c t0 running (skipn k got) (rq_begin dr) (rq_end dr)) f) /\
    match answer c t0 running (skipn k got) (rq_begin dr) (rq_end dr) with
    | kFound => f = Some (mk_fragment (create_fragment_header lk dr)
                            (window_bytes (map (slot_elem c p1 p2 stride t0) got) (rq_begin dr) (rq_end dr)))
    | kNotYet => f = None
    | kNotFound => exists fr, f = Some fr /\ fg_bytes fr = [] /\ Z.testbit (h_error_bits (fg_header fr)) dnf = true
    end.
Proof.
  intros p1 p2 stride c t0 dnf n lk resets running used ws g s0 s ops ys (E1 & E2 & E3 & E4 & E5 & E6 & E7 & E8 & E9) Hd Hn W N (G1 & G2 & G3) R Hr got.
  apply (chain_answer p1 p2 stride c t0 dnf n lk resets running E9 Hd Hn). apply (cinv_after p1 p2 stride c t0 dnf n lk resets running E1 E2 E3 E4 E5 E6 E7 E8 E9 Hd Hn ops s0 used ws g s ys); assumption.
Qed.
Print Assumptions C69_requests_get_the_emulated_data.

(** C69. No such history crashes before the ring refuses an element. *)
Theorem C69_no_crash :
  forall (p1 p2 stride : nat) (c : emu_conf) (t0 dnf n : Z) (lk : link) (resets running : bool)
         (used : nat) (ws : list Z) (g : gen) (s0 : chain) (ops : list chain_op),
  good_emulation p1 p2 stride c t0 -> 0 <= dnf -> 2 <= n <= 2 ^ 24 ->
  gen_words (em_tables c) used gen_new = Ok (ws, g) -> chain_new c g n = Ok s0 -> good_history c t0 ops ->
  chain_run p1 p2 stride c dnf lk resets running s0 ops = Crash ->
  exists m s ys, chain_run p1 p2 stride c dnf lk resets running s0 (firstn m ops) = Ok (s, ys) /\ In (OutWrite false) ys.
Proof.
  intros p1 p2 stride c t0 dnf n lk resets running used ws g s0 ops (E1 & E2 & E3 & E4 & E5 & E6 & E7 & E8 & E9) Hd Hn W N (G1 & G2 & G3) R.
  destruct (cinv_run p1 p2 stride c t0 dnf n lk resets running E1 E2 E3 E4 E5 E6 E7 E8 E9 Hd Hn ops s0 used ws g W N G1 G2 G3)
    as [(s & ys & E & _)|(m & s & ys & _ & E & H)]; [congruence|]. eauto.
Qed.
Print Assumptions C69_no_crash.

(** C69. If nothing is dropped and no push is lost, a served request [b, e) gets the frames of all ticks in it: frame
    numbers from the first at or after b up to the last before e, without a gap. *)
Theorem C69_lossless_runs_have_no_gaps :
  forall (p1 p2 stride : nat) (c : emu_conf) (t0 dnf n : Z) (lk : link) (resets running : bool)
         (used : nat) (ws : list Z) (g : gen) (s0 s s' : chain) (ops : list chain_op) (ys : list link_out) (dr : request) (f : option fragment),
  good_emulation p1 p2 stride c t0 -> 0 <= dnf -> 2 <= n <= 2 ^ 24 ->
  gen_words (em_tables c) used gen_new = Ok (ws, g) -> chain_new c g n = Ok s0 -> good_history c t0 ops ->
  lossless (em_dropouts c) ops ->
  chain_run p1 p2 stride c dnf lk resets running s0 ops = Ok (s, ys) -> ~ In (OutWrite false) ys -> rq_begin dr <= rq_end dr ->
  chain_step p1 p2 stride c dnf lk resets running s (XRequest dr) = Ok (s', OutReply kFound f) ->
  exists fr, f = Some fr /\
    fg_bytes fr = flat_map (fun m => f_bytes (run_frame c p1 p2 stride t0 m))
                    (seq (frames_before c t0 (rq_begin dr)) (frames_before c t0 (rq_end dr) - frames_before c t0 (rq_begin dr))).
Proof.
  intros p1 p2 stride c t0 dnf n lk resets running used ws g s0 s s' ops ys dr f GE Hd Hn W N GH L R Hr Hdr Rq.
  destruct (C69_requests_get_the_emulated_data p1 p2 stride c t0 dnf n lk resets running used ws g s0 s ops ys GE Hd Hn W N GH R Hr)
    as (k & Hk & _ & A). destruct (A dr Hdr) as (s1 & f1 & E & M). rewrite Rq in E. injection E as <- Ec <-. rewrite <- Ec in M.
  destruct GE as (E1 & E2 & E3 & E4 & E5 & E6 & E7 & E8 & E9).
  exists (mk_fragment (create_fragment_header lk dr) (window_bytes (map (slot_elem c p1 p2 stride t0) (fl_got (flow_run (em_dropouts c) ops)))
            (rq_begin dr) (rq_end dr))). split; [exact M|]. cbn [fg_bytes]. clear M.
  pose proof (app_seq _ _ _ (lossless_flow _ _ E5 L (proj1 (proj2 GH)))) as Sq. set (got := fl_got _) in *. rewrite Sq in Ec |- *.
  set (N1 := List.length got) in *. unfold answer in Ec. destruct (skipn k (seq 0 N1)) as [|i l] eqn:Sk; [discriminate|].
  destruct ((slot_time c t0 i <=? rq_begin dr) && (rq_end dr <=? slot_time c t0 (last (i :: l) 0%nat))) eqn:Ew.
  2:{ destruct (_ || _) in Ec; discriminate. }
  apply andb_true_iff in Ew as [W1 W2]. apply Z.leb_le in W1, W2.
  assert (P : (0 < N1)%nat) by (destruct N1; [rewrite skipn_nil in Sk; discriminate|lia]).
  assert (La : last (i :: l) 0%nat = (N1 - 1)%nat).
  { rewrite <- Sk. assert (Hl : (k < N1)%nat).
    { destruct (Nat.lt_ge_cases k N1); [assumption|]. rewrite skipn_all2 in Sk by (rewrite seq_length; lia). discriminate. }
    replace N1 with (k + (N1 - k))%nat at 1 by lia. rewrite seq_app, skipn_app, skipn_all2, seq_length, Nat.sub_diag by (rewrite seq_length; lia).
    cbn [app skipn]. replace (N1 - k)%nat with (S (N1 - k - 1)) by lia. rewrite seq_S, last_last. lia. }
  rewrite La in W2. apply lossless_window; auto. unfold slot_time in W1. nia.
Qed.
Print Assumptions C69_lossless_runs_have_no_gaps.

(** C69. The link counts as discontinuities exactly the places where slots are missing between received elements, plus
    one for the first element unless its time is one element after 0 (32-bit int). *)
Theorem C69_missing_slots_are_counted :
  forall (p1 p2 stride : nat) (c : emu_conf) (t0 dnf n : Z) (lk : link) (resets running : bool)
         (used : nat) (ws : list Z) (g : gen) (s0 s : chain) (ops : list chain_op) (ys : list link_out),
  good_emulation p1 p2 stride c t0 -> 0 <= dnf -> 2 <= n <= 2 ^ 24 ->
  gen_words (em_tables c) used gen_new = Ok (ws, g) -> chain_new c g n = Ok s0 -> good_history c t0 ops ->
  chain_run p1 p2 stride c dnf lk resets running s0 ops = Ok (s, ys) -> ~ In (OutWrite false) ys ->
  resets = true \/ ~ In XRestart ops ->
  ck_ctr (ls_check (ch_link s)) =
    i32 (count_neighbours (jumps (12 * em_tick c)) 0 (map (slot_time c t0) (fl_got (flow_run (em_dropouts c) ops)))).
Proof.
  intros p1 p2 stride c t0 dnf n lk resets running used ws g s0 s ops ys (E1 & E2 & E3 & E4 & E5 & E6 & E7 & E8 & E9) Hd Hn W N (G1 & G2 & G3) R Hr Hs.
  pose proof (cinv_after p1 p2 stride c t0 dnf n lk resets running E1 E2 E3 E4 E5 E6 E7 E8 E9 Hd Hn ops s0 used ws g s ys W N G1 G2 G3 R Hr) as X.
  destruct (x_check _ _ _ _ _ _ _ _ _ X Hs) as [(A & _) _]. rewrite A. rewrite (Z.mul_comm 12). reflexivity.
Qed.
Print Assumptions C69_missing_slots_are_counted.

(** Frames of 10 bytes with the time at bytes 1-4 and 5-8, a file of two and a half elements, every third slot dropped. *)
Definition ex_file : list Z := map (fun k => Z.of_nat k mod 251) (seq 0 300).
Definition ex_emu (dropouts : list bool) : emu_conf :=
  mk_emu ex_file 120 12 dropouts 2 1000 (fun _ => 0) (mk_tables 2 [5; 6] [1; 1] [2; 1]).
Definition ex_ask (b e : Z) : chain_op := XRequest (mk_request 1 b b e 1 0).
Definition ex_link : link := mk_link 1 2 3 4.
Definition make (k : nat) : list chain_op := repeat (XProduce true) k.
Definition take (k : nat) : list chain_op := repeat XConsume k.

Example C69_emulation_ex : good_emulation 1 5 10 (ex_emu [true; true; false]) 1000.
Proof. repeat split; try (vm_compute; congruence); try (cbn; lia). Qed.

(** A lost push (slot 1), a dropped slot (2), a clean-up of half of the elements, a drained restart. *)
Definition ex_history : list chain_op :=
  make 1 ++ [XProduce false] ++ make 6 ++ take 9 ++ [XClean 2 (1, -1) max_u64; ex_ask 1100 1150] ++
  [XRestart] ++ make 2 ++ take 1 ++ make 1 ++ take 1 ++ [ex_ask 1000 1024].

Definition codes (ys : list link_out) : list code := flat_map (fun y => match y with OutReply c _ => [c] | _ => [] end) ys.

Example C69_history_ex :
  good_history (ex_emu [true; true; false]) 1000 ex_history /\
  exists s0 s ys, chain_new (ex_emu [true; true; false]) gen_new 16 = Ok s0 /\
    chain_run 1 5 10 (ex_emu [true; true; false]) 0 ex_link true true s0 ex_history = Ok (s, ys) /\ ~ In (OutWrite false) ys /\
    fl_got (flow_run [true; true; false] ex_history) = [0%nat; 1%nat] /\
    fl_got (flow_run [true; true; false] (firstn 17 ex_history)) = [0%nat; 3%nat; 4%nat; 6%nat; 7%nat] /\
    codes ys = [kFound; kFound] /\ ck_ctr (ls_check (ch_link s)) = 1.
Proof.
  split.
  - split; [|split; [|vm_compute; reflexivity]].
    + unfold ex_history. repeat (apply Forall_app; split); repeat (apply Forall_cons || apply Forall_nil); cbn [good_call]; auto; try (cbn; lia).
      split; [lia|]. split; [vm_compute; intuition congruence|]. intro E. vm_compute in E. discriminate.
    + intros a b E. assert (L : a = firstn (List.length a) ex_history) by (rewrite E, firstn_app, firstn_all, Nat.sub_diag; cbn; now rewrite app_nil_r).
      assert (X : nth_error ex_history (List.length a) = Some XRestart) by (rewrite E, nth_error_app2, Nat.sub_diag by lia; reflexivity).
      assert (B : (List.length a < 26)%nat) by (change 26%nat with (List.length ex_history); apply nth_error_Some; congruence).
      rewrite L. clear L E. revert X B. generalize (List.length a). intros m X B.
      do 26 (destruct m as [|m]; [vm_compute in X; try discriminate; reflexivity|]). lia.
  - eexists _, _, _. split; [reflexivity|]. split; [vm_compute; reflexivity|].
    split; [vm_compute; intuition discriminate|]. vm_compute. repeat split; reflexivity.
Qed.

(** Everything produced is received; the window of five ticks across two elements gets its three frames. *)
Definition ex_lossless : list chain_op := make 3 ++ take 3.
Example C69_lossless_ex :
  good_emulation 1 5 10 (ex_emu [true]) 1000 /\ lossless [true] ex_lossless /\
  exists s0 s s' ys f, chain_new (ex_emu [true]) gen_new 16 = Ok s0 /\
    chain_run 1 5 10 (ex_emu [true]) 0 ex_link false true s0 ex_lossless = Ok (s, ys) /\ ~ In (OutWrite false) ys /\
    chain_step 1 5 10 (ex_emu [true]) 0 ex_link false true s (ex_ask 1021 1026) = Ok (s', OutReply kFound (Some f)) /\
    fg_bytes f = [110; 254; 3; 0; 0; 0; 0; 0; 0; 119; 120; 0; 4; 0; 0; 0; 0; 0; 0; 129] /\
    frames_before (ex_emu [true]) 1000 1021 = 11%nat /\ frames_before (ex_emu [true]) 1000 1026 = 13%nat /\
    ck_ctr (ls_check (ch_link s)) = 1.
Proof.
  split; [repeat split; try (vm_compute; congruence); try (cbn; lia)|].
  split; [split; [repeat constructor|unfold ex_lossless; apply Forall_app; split; repeat constructor]|].
  eexists _, _, _, _, _. split; [reflexivity|]. split; [vm_compute; reflexivity|]. split; [vm_compute; intuition discriminate|].
  split; [vm_compute; reflexivity|]. vm_compute. repeat split; reflexivity.
Qed.

(** C69 (finding). An element still in the source queue at a restart is delivered in the next run with the late time of
    the run before. The window [1000, 1024) of the new run, whose frames are all in the buffer and followed by a later
    element, is then answered with "not found". *)
Theorem C69_leftover_element_refuted :
  exists (c : emu_conf) (ops : list chain_op) (s0 s s' : chain) (ys : list link_out) (dr : request) (fr : fragment),
    good_emulation 1 5 10 c 1000 /\ Forall good_call ops /\ ~ drained (em_dropouts c) ops /\ chain_new c gen_new 16 = Ok s0 /\
    chain_run 1 5 10 c 0 ex_link true true s0 ops = Ok (s, ys) /\ ~ In (OutWrite false) ys /\
    fl_got (flow_run (em_dropouts c) ops) = [2%nat; 0%nat; 1%nat] /\ rq_begin dr = slot_time c 1000 0 /\ rq_end dr = slot_time c 1000 1 /\
    chain_step 1 5 10 c 0 ex_link true true s (XRequest dr) = Ok (s', OutReply kNotFound (Some fr)) /\ fg_bytes fr = [] /\
    List.length (window_bytes (map (slot_elem c 1 5 10 1000) [2%nat; 0%nat; 1%nat]) (rq_begin dr) (rq_end dr)) = 120%nat.
Proof.
  exists (ex_emu [true]), (make 3 ++ take 2 ++ [XRestart] ++ make 2 ++ take 3).
  eexists _, _, _, _, (mk_request 1 1000 1000 1024 1 0), _.
  split; [repeat split; try (vm_compute; congruence); try (cbn; lia)|].
  split; [repeat (apply Forall_app; split); repeat constructor|].
  split. { intro D. specialize (D (make 3 ++ take 2) (make 2 ++ take 3) eq_refl). vm_compute in D. discriminate. }
  split; [reflexivity|]. split; [vm_compute; reflexivity|]. split; [vm_compute; intuition discriminate|].
  split; [reflexivity|]. split; [reflexivity|]. split; [reflexivity|]. split; [vm_compute; reflexivity|]. split; vm_compute; reflexivity.
Qed.
Print Assumptions C69_leftover_element_refuted.
