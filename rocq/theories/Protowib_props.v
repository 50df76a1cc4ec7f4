(** Property C81: WIB (ProtoDUNE) links fed by the source emulator, error bits included. *)
From Coq Require Import String ZArith List Bool Lia.
From Verif Require Import Base_model Bytes_model Bytes_proofs Ebg_model Ebg_spec Emu_model Emu_spec Elem_model Float_model Registry_model
  Request_model Request_spec Cleanup_spec Check_model Check_spec Check_proofs Link_model Chain_model Chain_spec Chain_proofs2
  Protowib_model Protowib_spec Protowib_proofs Protowib_proofs2.
Import ListNotations.
Open Scope Z_scope.

(** An emulation that can be started: elements of twelve frames, a file of at least one element whose frames can hold the times, a
    dropout table, 25 ticks per frame. *)
Definition good_pwib (ff : frame_format) (stride : nat) (limit : Z) (ok : list Z -> Prop) (c : emu_conf) (t0 : Z) : Prop :=
  lawful ff stride limit ok /\ limit <= two64 /\ (0 < stride)%nat /\ em_size c = (12 * stride)%nat /\ em_frames c = 12%nat /\
  (em_size c <= List.length (em_source c))%nat /\ Z.of_nat (List.length (em_source c) / em_size c) < two32 /\ em_dropouts c <> [] /\
  tables_ok (em_tables c) /\ (forall k j, (j < 12)%nat -> ok (file_frame c stride k j)) /\
  t0 = (if em_t0 c >=? 0 then em_t0 c else em_get_ts c (firstn (em_size c) (em_source c))) /\ 0 <= t0 /\ em_tick c = 25.

(** A history of calls: clean-ups of less than everything, windows not reversed, the queue empty at each restart, the emulated time
    below the limit. *)
Definition good_pwib_history (c : emu_conf) (limit t0 : Z) (ops : list pwib_op) : Prop :=
  Forall (fun o => match o with PwChain p => good_call p | PwInfo => True end) ops /\ drained (em_dropouts c) (chain_ops ops) /\
  t0 + Z.of_nat (List.length ops) * 300 < limit.

(** C81. After every interleaving of production, consumption, clean-ups, requests, restarts and reports in which the ring refused
    nothing, every request gets the answer that follows from the times of the elements received in this run (less some of the oldest if
    there were clean-ups), and a served one exactly the frames of its window: the bytes of the file with the emulated time and the error
    word written into them, the error words going on where the run before stopped. *)
Theorem C81_requests_get_the_emulated_data :
  forall (ff : frame_format) (stride : nat) (limit : Z) (ok : list Z -> Prop) (c : emu_conf) (t0 dnf n : Z) (lk : link) (running : bool)
         (threshold : Z) (push_ok : nat -> bool) (used : nat) (ws : list Z) (g : gen) (s0 s : pwib) (ops : list pwib_op) (ys : list pwib_out),
  good_pwib ff stride limit ok c t0 -> 0 <= dnf -> 2 <= n <= 2 ^ 24 ->
  gen_words (em_tables c) used gen_new = Ok (ws, g) -> pw_new c g n = Ok s0 -> good_pwib_history c limit t0 ops ->
  pw_run ff stride c dnf lk running threshold push_ok s0 ops = Ok (s, ys) -> ~ In (PwOut (OutWrite false)) ys ->
  let got := fl_got (flow_run (em_dropouts c) (chain_ops ops)) in
  let before := words_used (em_dropouts c) used (chain_ops ops) in
  exists k, (k <= List.length got)%nat /\ (Forall (fun o => ~ is_clean o) (chain_ops ops) -> k = 0%nat) /\
  forall dr, rq_begin dr <= rq_end dr ->
  exists s' f, pw_step ff stride c dnf lk running threshold push_ok s (PwChain (XRequest dr)) =
      Ok (s', PwOut (OutReply (answer c t0 running (skipn k got) (rq_begin dr) (rq_end dr)) f)) /\
    match answer c t0 running (skipn k got) (rq_begin dr) (rq_end dr) with
    | kFound => f = Some (mk_fragment (create_fragment_header lk dr)
                            (window_bytes (map (pw_slot ff stride c t0 before) got) (rq_begin dr) (rq_end dr)))
    | kNotYet => f = None
    | kNotFound => exists fr, f = Some fr /\ fg_bytes fr = [] /\ Z.testbit (h_error_bits (fg_header fr)) dnf = true
    end.
Proof.
  intros ff stride limit ok c t0 dnf n lk running threshold push_ok used ws g s0 s ops ys
    (E1 & E2 & E3 & E4 & E5 & E6 & E7 & E8 & E9 & E10 & E11 & E12 & E13) Hd Hn W N (G1 & G2 & G3) R Hr got before.
  apply (pw_answer ff stride c t0 dnf n lk running threshold push_ok used E3 E4 E5 E6 E13 Hd Hn ops ys).
  apply (winv_after ff stride limit ok c t0 dnf n lk running threshold push_ok used E1 E2 E3 E4 E5 E6 E7 E8 E9 E10 E11 E12 E13 Hd Hn ops s0 ws g); assumption.
Qed.
Print Assumptions C81_requests_get_the_emulated_data.

(** C81. No such history crashes before the ring refuses an element. *)
Theorem C81_no_crash :
  forall (ff : frame_format) (stride : nat) (limit : Z) (ok : list Z -> Prop) (c : emu_conf) (t0 dnf n : Z) (lk : link) (running : bool)
         (threshold : Z) (push_ok : nat -> bool) (used : nat) (ws : list Z) (g : gen) (s0 : pwib) (ops : list pwib_op),
  good_pwib ff stride limit ok c t0 -> 0 <= dnf -> 2 <= n <= 2 ^ 24 ->
  gen_words (em_tables c) used gen_new = Ok (ws, g) -> pw_new c g n = Ok s0 -> good_pwib_history c limit t0 ops ->
  pw_run ff stride c dnf lk running threshold push_ok s0 ops = Crash ->
  exists m s ys, pw_run ff stride c dnf lk running threshold push_ok s0 (firstn m ops) = Ok (s, ys) /\ In (PwOut (OutWrite false)) ys.
Proof.
  intros ff stride limit ok c t0 dnf n lk running threshold push_ok used ws g s0 ops
    (E1 & E2 & E3 & E4 & E5 & E6 & E7 & E8 & E9 & E10 & E11 & E12 & E13) Hd Hn W N (G1 & G2 & G3) R.
  destruct (winv_run ff stride limit ok c t0 dnf n lk running threshold push_ok used E1 E2 E3 E4 E5 E6 E7 E8 E9 E10 E11 E12 E13 Hd Hn ops s0 ws g W N G1 G2 G3)
    as [(s & ys & E & _)|(m & s & ys & _ & E & H)]; [congruence|]. eauto.
Qed.
Print Assumptions C81_no_crash.

(** C81. What get_info reports as frame errors is exact: with what it reported since the start, it is the number of error bits set by
    the emulator in the elements received in this run. *)
Theorem C81_reported_errors_are_the_emulated_ones :
  forall (ff : frame_format) (stride : nat) (limit : Z) (ok : list Z -> Prop) (c : emu_conf) (t0 dnf n : Z) (lk : link) (running : bool)
         (threshold : Z) (push_ok : nat -> bool) (used : nat) (ws : list Z) (g : gen) (s0 s : pwib) (ops : list pwib_op) (ys : list pwib_out),
  good_pwib ff stride limit ok c t0 -> 0 <= dnf -> 2 <= n <= 2 ^ 24 ->
  gen_words (em_tables c) used gen_new = Ok (ws, g) -> pw_new c g n = Ok s0 -> good_pwib_history c limit t0 ops ->
  pw_run ff stride c dnf lk running threshold push_ok s0 ops = Ok (s, ys) -> ~ In (PwOut (OutWrite false)) ys ->
  let got := fl_got (flow_run (em_dropouts c) (chain_ops ops)) in
  let before := words_used (em_dropouts c) used (chain_ops ops) in
  exists s' k, pw_step ff stride c dnf lk running threshold push_ok s PwInfo = Ok (s', PwErrors k) /\
    reported ops ys + k = error_bits c before got.
Proof.
  intros ff stride limit ok c t0 dnf n lk running threshold push_ok used ws g s0 s ops ys
    (E1 & E2 & E3 & E4 & E5 & E6 & E7 & E8 & E9 & E10 & E11 & E12 & E13) Hd Hn W N (G1 & G2 & G3) R Hr got before.
  pose proof (winv_after ff stride limit ok c t0 dnf n lk running threshold push_ok used E1 E2 E3 E4 E5 E6 E7 E8 E9 E10 E11 E12 E13 Hd Hn ops s0 ws g s ys W N G1 G2 G3 R Hr) as X.
  cbn [pw_step]. eexists _, _. split; [reflexivity|]. destruct (w_count _ _ _ _ _ _ _ _ _ _ _ X) as (C1 & _). rewrite C1. unfold got, before. lia.
Qed.
Print Assumptions C81_reported_errors_are_the_emulated_ones.

(** C81. The errored frame queue gets frames of the run only, each at most once, in order, all with an error word that is not zero; those
    whose error bits all lie in [S] number at most |S| * (threshold + started blocks of 10000 frames). (First run.) *)
Theorem C81_forwarded_frames :
  forall (ff : frame_format) (stride : nat) (limit : Z) (ok : list Z -> Prop) (c : emu_conf) (t0 dnf n : Z) (lk : link) (running : bool)
         (threshold : Z) (push_ok : nat -> bool) (used : nat) (ws : list Z) (g : gen) (s0 s : pwib) (ops : list pwib_op) (ys : list pwib_out),
  good_pwib ff stride limit ok c t0 -> 0 <= dnf -> 2 <= n <= 2 ^ 24 ->
  gen_words (em_tables c) used gen_new = Ok (ws, g) -> pw_new c g n = Ok s0 -> good_pwib_history c limit t0 ops ->
  pw_run ff stride c dnf lk running threshold push_ok s0 ops = Ok (s, ys) -> ~ In (PwOut (OutWrite false)) ys ->
  ~ In XRestart (chain_ops ops) ->
  let got := fl_got (flow_run (em_dropouts c) (chain_ops ops)) in
  let sent := es_sent (pw_errors s) in
  sublist sent (flat_map (fun i => map (pw_slot_frame ff stride c t0 used i) (seq 0 12)) got) /\
  Forall (fun f => ff_errors ff (f_bytes f) <> 0) sent /\
  (0 <= threshold -> forall S, NoDup S ->
   forwarded (fun f => ff_errors ff (f_bytes f)) S sent <=
     Z.of_nat (List.length S) * (threshold + started_blocks (12 * Z.of_nat (List.length got)))).
Proof.
  intros ff stride limit ok c t0 dnf n lk running threshold push_ok used ws g s0 s ops ys
    (E1 & E2 & E3 & E4 & E5 & E6 & E7 & E8 & E9 & E10 & E11 & E12 & E13) Hd Hn W N (G1 & G2 & G3) R Hr Nr got sent.
  pose proof (winv_after ff stride limit ok c t0 dnf n lk running threshold push_ok used E1 E2 E3 E4 E5 E6 E7 E8 E9 E10 E11 E12 E13 Hd Hn ops s0 ws g s ys W N G1 G2 G3 R Hr) as X.
  destruct (w_sent _ _ _ _ _ _ _ _ _ _ _ X Nr) as (_ & _ & _ & Es). fold got in Es. fold sent in Es.
  assert (U : words_used (em_dropouts c) used (chain_ops ops) = used).
  { clear - Nr. induction (chain_ops ops) as [|o l IH] using rev_ind; [reflexivity|]. rewrite words_snoc.
    assert (Nl : ~ In XRestart l) by (intro H; apply Nr; apply in_or_app; left; exact H).
    destruct o; auto. exfalso. apply Nr. apply in_or_app. right. left. reflexivity. }
  rewrite U in Es.
  assert (Fr : flat_map e_frames (map (pw_slot ff stride c t0 used) got) = flat_map (fun i => map (pw_slot_frame ff stride c t0 used i) (seq 0 12)) got).
  { clear. induction got as [|i l IH]; [reflexivity|]. cbn [map flat_map]. rewrite IH. reflexivity. }
  rewrite Fr in Es.
  assert (Gs : good_state (@errst_new frame)).
  { unfold good_state, errst_new, is_u64, two64. cbn [es_counters es_processed]. split; [reflexivity|]. split; [|lia]. repeat constructor; lia. }
  destruct (c23_sublist (fun f => ff_errors ff (f_bytes f)) threshold push_ok (flat_map (fun i => map (pw_slot_frame ff stride c t0 used i) (seq 0 12)) got) _ Gs)
    as (st & Est & H1 & H2). cbn [errst_new es_sent app] in Est. rewrite Est in Es. rewrite Es. split; [exact H1|]. split; [exact H2|].
  intros Ht S Nd. rewrite <- Est.
  assert (Lf : List.length (flat_map (fun i => map (pw_slot_frame ff stride c t0 used i) (seq 0 12)) got) = (12 * List.length got)%nat).
  { clear. induction got as [|i l IH]; [reflexivity|]. cbn [flat_map List.length]. rewrite app_length, map_length, seq_length, IH. lia. }
  pose proof (c23_rate (fun f => ff_errors ff (f_bytes f)) threshold push_ok errst_new
    (flat_map (fun i => map (pw_slot_frame ff stride c t0 used i) (seq 0 12)) got) S Gs eq_refl eq_refl Ht Nd) as Rt.
  rewrite Lf in Rt. rewrite Nat2Z.inj_mul in Rt. apply Rt.
  pose proof (flow_count (em_dropouts c) (chain_ops ops)) as Fc. fold got in Fc. pose proof (chain_ops_length ops) as Lc. unfold two64 in E2. lia.
Qed.
Print Assumptions C81_forwarded_frames.

(** C81. The link counts as discontinuities exactly the places where slots are missing between elements received in this run, plus one
    for the first element unless its time is 300 (32-bit int). *)
Theorem C81_missing_slots_are_counted :
  forall (ff : frame_format) (stride : nat) (limit : Z) (ok : list Z -> Prop) (c : emu_conf) (t0 dnf n : Z) (lk : link) (running : bool)
         (threshold : Z) (push_ok : nat -> bool) (used : nat) (ws : list Z) (g : gen) (s0 s : pwib) (ops : list pwib_op) (ys : list pwib_out),
  good_pwib ff stride limit ok c t0 -> 0 <= dnf -> 2 <= n <= 2 ^ 24 ->
  gen_words (em_tables c) used gen_new = Ok (ws, g) -> pw_new c g n = Ok s0 -> good_pwib_history c limit t0 ops ->
  pw_run ff stride c dnf lk running threshold push_ok s0 ops = Ok (s, ys) -> ~ In (PwOut (OutWrite false)) ys ->
  ck_ctr (ls_check (ch_link (pw_chain s))) =
    i32 (count_neighbours (jumps 300) 0 (map (slot_time c t0) (fl_got (flow_run (em_dropouts c) (chain_ops ops))))).
Proof.
  intros ff stride limit ok c t0 dnf n lk running threshold push_ok used ws g s0 s ops ys
    (E1 & E2 & E3 & E4 & E5 & E6 & E7 & E8 & E9 & E10 & E11 & E12 & E13) Hd Hn W N (G1 & G2 & G3) R Hr.
  pose proof (winv_after ff stride limit ok c t0 dnf n lk running threshold push_ok used E1 E2 E3 E4 E5 E6 E7 E8 E9 E10 E11 E12 E13 Hd Hn ops s0 ws g s ys W N G1 G2 G3 R Hr) as X.
  destruct (w_check _ _ _ _ _ _ _ _ _ _ _ X) as [(A & _) _]. exact A.
Qed.
Print Assumptions C81_missing_slots_are_counted.

(** C81. The assumptions on the accessors hold for the frame header of detdataformats: all times below 2^63 in frames without the z
    flag, and all times below 2^48 in any frame. *)
Theorem C81_frame_header : forall stride, (16 <= stride)%nat ->
  lawful wib_format stride (2 ^ 63) z_clear /\ lawful wib_format stride (2 ^ 48) (fun _ => True).
Proof.
  intros stride Hs.
  assert (E : forall w f, List.length f = stride -> List.length (firstn 6 f ++ le 2 w ++ skipn 8 f) = stride /\
     wib_get (firstn 6 f ++ le 2 w ++ skipn 8 f) = wib_get f /\ unle (firstn 2 (skipn 6 (firstn 6 f ++ le 2 w ++ skipn 8 f))) = w mod 65536).
  { intros w f Hf. do 16 (destruct f as [|? f]; [cbn [List.length] in Hf; lia|]). cbn [firstn skipn app]. pose proof (unle_le 2 w) as U.
    destruct (le 2 w) as [|a [|b [|? ?]]] eqn:El; try discriminate. cbn [app firstn skipn List.length] in *. split; [lia|]. split; [reflexivity|].
    rewrite U. reflexivity. }
  assert (A : forall ts f, List.length f = stride -> List.length (wib_set ts f) = stride /\
      firstn 6 (skipn 8 (wib_set ts f)) = le 6 ts /\
      (if nth 15 f 0 <? 128 then firstn 2 (skipn 14 (wib_set ts f)) = le 2 (ts / 2 ^ 48 mod 32768) /\ nth 15 (wib_set ts f) 0 < 128
       else nth 15 (wib_set ts f) 0 = nth 15 f 0)).
  { intros ts f Hf. unfold wib_set. do 16 (destruct f as [|? f]; [cbn [List.length] in Hf; lia|]).
    cbn [firstn skipn app nth]. set (v := ts / 2 ^ 48 mod 32768).
    assert (Hv : 0 <= v < 32768) by (apply Z.mod_pos_bound; lia). clearbody v.
    pose proof (le_length 6 ts) as L6.
    destruct (le 6 ts) as [|x0 [|x1 [|x2 [|x3 [|x4 [|x5 [|? ?]]]]]]]; try discriminate. clear L6.
    destruct (z14 <? 128); cbn [app skipn firstn nth].
    - assert (Le2 : le 2 v = [v mod 256; v / 256 mod 256]) by reflexivity. rewrite Le2. cbn [app firstn skipn nth List.length] in *.
      split; [lia|]. split; [reflexivity|]. split; [reflexivity|]. Z.div_mod_to_equations. lia.
    - cbn [List.length] in *. split; [lia|]. split; reflexivity. }
  assert (P48 : 2 ^ 48 = 281474976710656) by reflexivity. assert (P63 : 2 ^ 63 = 9223372036854775808) by reflexivity.
  split; constructor; cbn [wib_format ff_set ff_get ff_errors ff_set_errors]; try exact E.
  - intros ts f Hf Hz Ht. destruct (A ts f Hf) as (A1 & A2 & A3). split; [exact A1|]. unfold z_clear in Hz. unfold wib_get. rewrite A2.
    rewrite (proj2 (Z.ltb_lt _ _) (proj2 Hz)) in A3. destruct A3 as (A3 & A4). rewrite (proj2 (Z.ltb_lt _ _) A4), A3, !unle_le.
    change (256 ^ Z.of_nat 6) with (2 ^ 48). change (256 ^ Z.of_nat 2) with 65536. rewrite P48, P63 in *. Z.div_mod_to_equations. lia.
  - intros ts f Hf _ Ht. destruct (A ts f Hf) as (A1 & A2 & A3). split; [exact A1|]. unfold wib_get. rewrite A2, unle_le.
    change (256 ^ Z.of_nat 6) with (2 ^ 48). destruct (nth 15 f 0 <? 128) eqn:Ez.
    + destruct A3 as (A3 & A4). rewrite (proj2 (Z.ltb_lt _ _) A4), A3, unle_le. change (256 ^ Z.of_nat 2) with 65536. rewrite P48 in *.
      Z.div_mod_to_equations. lia.
    + rewrite A3, Ez. rewrite Z.add_0_r. apply Z.mod_small. exact Ht.
Qed.
Print Assumptions C81_frame_header.

(** A file of two elements of twelve frames of 16 bytes, each third slot left out. *)
Definition ex_wib (dropouts : list bool) : emu_conf :=
  mk_emu (map (fun i => Z.of_nat i mod 100) (seq 0 384)) 192 12 dropouts 25 (2 ^ 50) (fun _ => 0) (mk_tables 2 [5; 256] [1; 3] [2; 4]).
Definition ex_wib_link : link := mk_link 7 8 1 0.
Definition ex_wib_ask (b e : Z) : pwib_op := PwChain (XRequest (mk_request 1 b b e 1 0)).

(** Production and consumption, two reports, requests, a clean-up and a drained restart. *)
Definition ex_wib_history : list pwib_op :=
  [PwChain (XProduce true); PwChain (XProduce true); PwChain XConsume; PwInfo; PwChain (XProduce true); PwChain (XProduce true);
   PwChain XConsume; PwChain XConsume; PwChain (XClean 1 (1, -1) max_u64); ex_wib_ask (2 ^ 50 + 300) (2 ^ 50 + 350); PwInfo;
   PwChain XRestart; PwChain (XProduce true); PwChain (XProduce true); PwChain XConsume; PwChain XConsume;
   ex_wib_ask (2 ^ 50) (2 ^ 50 + 50)].

Definition ex_codes (ys : list pwib_out) : list code := flat_map (fun y => match y with PwOut (OutReply k _) => [k] | _ => [] end) ys.
Definition ex_counts (ys : list pwib_out) : list Z := flat_map (fun y => match y with PwErrors k => [k] | _ => [] end) ys.

Lemma z_ok : forall k j, (j < 12)%nat -> z_clear (file_frame (ex_wib [true; true; false]) 16 k j).
Proof.
  intros k j _. assert (A : Forall (fun x => 0 <= x < 128) (em_source (ex_wib [true; true; false]))).
  { cbn [ex_wib em_source]. apply Forall_forall. intros x Hx. apply in_map_iff in Hx as (i & <- & _).
    pose proof (Z.mod_pos_bound (Z.of_nat i) 100 ltac:(lia)). lia. }
  unfold z_clear, file_frame, element. 
  match goal with |- 0 <= nth 15 ?l 0 < 128 => destruct (nth_in_or_default 15 l 0) as [H|H]; [|rewrite H; lia] end.
  assert (F : forall n (l : list Z), incl (firstn n l) l) by (intros n l x Hx; rewrite <- (firstn_skipn n l); apply in_or_app; auto).
  assert (S : forall n (l : list Z), incl (skipn n l) l) by (intros n l x Hx; rewrite <- (firstn_skipn n l); apply in_or_app; auto).
  apply (proj1 (Forall_forall _ _) A). apply F, S, F, S in H. exact H.
Qed.

Example C81_history_ex :
  let c := ex_wib [true; true; false] in
  good_pwib wib_format 16 (2 ^ 63) z_clear c (2 ^ 50) /\ good_pwib_history c (2 ^ 63) (2 ^ 50) ex_wib_history /\
  exists s0 s ys, pw_new c gen_new 16 = Ok s0 /\
    pw_run wib_format 16 c 0 ex_wib_link true 1 (fun _ => true) s0 ex_wib_history = Ok (s, ys) /\ ~ In (PwOut (OutWrite false)) ys /\
    fl_got (flow_run [true; true; false] (chain_ops ex_wib_history)) = [0%nat; 1%nat] /\
    words_used [true; true; false] 0 (chain_ops ex_wib_history) = 36%nat /\
    ex_codes ys = [kFound; kFound] /\ ex_counts ys = [5; 13] /\ ck_ctr (ls_check (ch_link (pw_chain s))) = 1.
Proof.
  intro c. split; [|split].
  - split; [apply C81_frame_header; lia|]. repeat split; try (vm_compute; congruence); try (cbn; lia). all: apply z_ok; assumption.
  - split; [|split; [|vm_compute; reflexivity]].
    + repeat (apply Forall_cons || apply Forall_nil); cbn [good_call ex_wib_ask rq_begin rq_end]; auto; try (cbn; lia); try exact I.
      split; [lia|]. split; [vm_compute; intuition congruence|]. intro E. vm_compute in E. discriminate.
    + intros a b E. set (l := chain_ops ex_wib_history) in *.
      assert (L : a = firstn (List.length a) l) by (rewrite E, firstn_app, firstn_all, Nat.sub_diag; cbn; now rewrite app_nil_r).
      assert (X : nth_error l (List.length a) = Some XRestart) by (rewrite E, nth_error_app2, Nat.sub_diag by lia; reflexivity).
      assert (B : (List.length a < 15)%nat) by (change 15%nat with (List.length l); apply nth_error_Some; congruence).
      rewrite L. clear L E. revert X B. generalize (List.length a). intros m X B.
      do 15 (destruct m as [|m]; [vm_compute in X; try discriminate; reflexivity|]). lia.
  - eexists _, _, _. split; [reflexivity|]. split; [vm_compute; reflexivity|].
    split; [vm_compute; intuition discriminate|]. vm_compute. repeat split; reflexivity.
Qed.

(** Before the restart: no restart, three elements, 18 error bits reported, and forwarded frames within the rate. *)
Example C81_errors_ex :
  let c := ex_wib [true; true; false] in let ops := firstn 11 ex_wib_history in
  ~ In XRestart (chain_ops ops) /\ fl_got (flow_run [true; true; false] (chain_ops ops)) = [0%nat; 1%nat; 3%nat] /\
  error_bits c 0 [0%nat; 1%nat; 3%nat] = 18 /\
  exists s0 s ys, pw_new c gen_new 16 = Ok s0 /\
    pw_run wib_format 16 c 0 ex_wib_link true 1 (fun _ => true) s0 ops = Ok (s, ys) /\ reported ops ys = 18 /\
    map (fun f => wib_get (f_bytes f) - 2 ^ 50) (es_sent (pw_errors s)) = [50; 225] /\
    forwarded (fun f => ff_errors wib_format (f_bytes f)) [0; 2; 8] (es_sent (pw_errors s)) = 2.
Proof.
  intros c ops. split; [vm_compute; intuition discriminate|]. split; [vm_compute; reflexivity|]. split; [vm_compute; reflexivity|].
  eexists _, _, _. split; [reflexivity|]. split; [vm_compute; reflexivity|]. split; [vm_compute; reflexivity|]. split; vm_compute; reflexivity.
Qed.
