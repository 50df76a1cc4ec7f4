(** C44: zero-copy recording. *)
From Coq Require Import ZArith List Bool Lia ZifyBool.
From Verif Require Import Base_model Ring_model Ring_spec Record_model Zcopy_model Zcopy_spec
  Zcopy_proofs Zcopy_proofs2 Zcopy_proofs3 Zcopy_proofs4 Zcopy_proofs5 Zcopy_proofs6 Zcopy_proofs7.
Import ListNotations.
Open Scope Z_scope.

(** A concrete readout: elements are their own timestamps, 6 bytes long; chunks of 4 bytes aligned to 4; the buffer starts
    at address 16, so every second slot is aligned. *)
Definition zx_ts (x : Z) : Z := x.
Definition zx_quota (o : Z) : Z := o / 2.
Notation zx_run := (zrun zx_ts 3 zx_quota 6 4 4 16).
Definition zrecs (k : nat) : list (zaction (E := Z)) := repeat (ZRec false 100) k.
Definition zcleans (k : nat) : list (zaction (E := Z)) := repeat ZClean k.

(** Data 10, 20 and 30; recording; more data, with a clean-up during the recording; more data wrapping around. *)
Definition zx_schedule : list (zaction (E := Z)) :=
  [ZWrite 10; ZWrite 20; ZWrite 30; ZStart] ++ zrecs 330 ++ [ZWrite 40; ZWrite 50; ZWrite 60; ZWrite 70] ++ zrecs 120 ++ zcleans 10 ++
  [ZWrite 80; ZWrite 90] ++ zrecs 300.
Definition zx_end_schedule : list (zaction (E := Z)) := zx_schedule ++ [ZWrite 100] ++ zrecs 150 ++ repeat (ZRec true 100) 194.
Definition zx_top_schedule : list (zaction (E := Z)) := zx_schedule ++ [ZWrite 100] ++ zrecs 129.
Definition zx_mid : zstate := match zx_run (zinit 8) zx_schedule with Some s => s | None => zinit 8 end.
Definition zx_end : zstate := match zx_run (zinit 8) zx_end_schedule with Some s => s | None => zinit 8 end.
Definition zx_top : zstate := match zx_run (zinit 8) zx_top_schedule with Some s => s | None => zinit 8 end.

Fixpoint sorted_from (a : Z) (l : list Z) : bool := match l with [] => true | x :: l' => (a <=? x) && sorted_from x l' end.
Lemma sorted_from_in : forall l a x, sorted_from a l = true -> In x l -> a <= x.
Proof. induction l as [|y l IH]; intros a x H; [intros []|]; intros [<-|Hx]; cbn in H; [lia|]. specialize (IH y x ltac:(lia) Hx). lia. Qed.
Lemma zx_ordered : forall l, sorted_from 1 l = true -> ordered_data zx_ts l.
Proof.
  intros l H. split; [intros x Hx; exact (sorted_from_in l 1 x H Hx)|]. revert H. generalize 1.
  induction l as [|y l IH]; intros a H i j u v Hij Hu Hv; [destruct i; discriminate|]. cbn in H. unfold zx_ts in *.
  destruct i as [|i].
  - injection Hu as ->. destruct j as [|j]; [injection Hv as ->; lia|].
    apply (sorted_from_in l u v); [lia|]. cbn in Hv. exact (nth_error_In _ _ Hv).
  - destruct j as [|j]; [lia|]. exact (IH y ltac:(lia) i j u v ltac:(lia) Hu Hv).
Qed.

(** Whatever the interleaving of arrivals, clean-ups and the recording, as long as no write is cut short and the search for an aligned
    starting point succeeds: the file is a contiguous piece of the stream of accepted elements, beginning with the first
    aligned element stored when the recording began; every element of it that has been removed, or that the clean-up is
    allowed to remove, is completely in the file. After the end the file consists of whole elements. *)
Theorem C44_contiguous :
  forall (E : Type) (ts : E -> Z) limit quota n P chunk align addr0 (acts : list zaction) s,
  0 < P -> 2 <= n -> 0 <= chunk -> align <> 0 -> supported_size n ->
  zrun ts limit quota P chunk align addr0 (zinit n) acts = Some s ->
  ordered_data ts (s_all (z_core s)) -> z_short s = false -> z_lost s = false ->
  if z_open s then
    match z_wp s with
    | None => z_file s = []
    | Some _ => exists k0, first_aligned n P align addr0 (z_oldest s) k0 /\
        z_file s = firstn (length (z_file s)) (stream P (skipn k0 (s_all (z_core s)))) /\
        forall i x, (k0 <= i)%nat -> nth_error (s_all (z_core s)) i = Some x ->
          (i < s_popped (z_core s))%nat \/  ts x < s_next (z_core s) ->
          (Z.of_nat i + 1 - Z.of_nat k0) * P <= Z.of_nat (length (z_file s))
    end
  else exists k0 m, (m = 0%nat \/  first_aligned n P align addr0 (z_oldest s) k0) /\
    z_file s = stream P (firstn m (skipn k0 (s_all (z_core s)))).
Proof. intros. eapply contiguous_lemma; eassumption. Qed.
Print Assumptions C44_contiguous.

Example C44_contiguous_ex :
  zx_run (zinit 8) zx_schedule = Some zx_mid /\ ordered_data zx_ts (s_all (z_core zx_mid)) /\
  z_short zx_mid = false /\ z_lost zx_mid = false /\ z_open zx_mid = true /\ s_popped (z_core zx_mid) = 3%nat /\
  s_all (z_core zx_mid) = [10; 20; 30; 40; 50; 60; 70; 80; 90] /\
  z_file zx_mid = stream 6 [10; 20; 30; 40; 50; 60; 70; 80] /\
  zx_run (zinit 8) zx_end_schedule = Some zx_end /\ z_open zx_end = false /\
  z_file zx_end = stream 6 [10; 20; 30; 40; 50; 60; 70; 80; 90] /\ z_counted zx_end = 54.
Proof.
  split; [vm_compute; reflexivity|]. split; [apply zx_ordered; vm_compute; reflexivity|]. vm_compute. repeat split; reflexivity.
Qed.

(** One pass of the recording, when no clean-up is under way and writes succeed, leaves the buffer content alone and
    either comes within one chunk of the newest element or writes at least 99 chunks. *)
Theorem C44_progress :
  forall (E : Type) (ts : E -> Z) limit quota n P chunk align addr0 ret (acts : list zaction) s k0,
  0 < P -> 2 <= n -> 0 <= chunk -> align <> 0 -> supported_size n -> chunk <= ret /\ n * P <= ret ->
  zrun ts limit quota P chunk align addr0 (zinit n) acts = Some s ->
  ordered_data ts (s_all (z_core s)) -> s_crashed (z_core s) = false -> z_lost s = false -> z_short s = false ->
  z_open s = true -> z_pc s = ZTop -> z_wp s <> None -> s_cpc (z_core s) = CIdle -> s_requested (z_core s) = false ->
  first_aligned n P align addr0 (z_oldest s) k0 ->
  exists m s', zrun ts limit quota P chunk align addr0 s (repeat (ZRec false ret) m) = Some s' /\ z_pc s' = ZTop /\
    zstored s' = zstored s /\ z_oldest s' = z_oldest s /\
    (newest P s - chunk <= written_to P k0 s' \/
     Z.of_nat (length (z_file s)) + 99 * chunk <= Z.of_nat (length (z_file s'))).
Proof. intros. eapply pass_lemma; eassumption. Qed.
Print Assumptions C44_progress.

Example C44_progress_ex :
  zx_run (zinit 8) zx_top_schedule = Some zx_top /\ ordered_data zx_ts (s_all (z_core zx_top)) /\
  s_crashed (z_core zx_top) = false /\ z_lost zx_top = false /\ z_short zx_top = false /\ z_open zx_top = true /\
  z_pc zx_top = ZTop /\ z_wp zx_top = Some 16 /\ s_cpc (z_core zx_top) = CIdle /\ s_requested (z_core zx_top) = false /\
  first_aligned 8 6 4 16 (z_oldest zx_top) 0 /\
  length (z_file zx_top) = 48%nat /\ newest 6 zx_top = 54 /\
  exists s', zx_run zx_top (zrecs 209) = Some s' /\ z_pc s' = ZTop /\ written_to 6 0 s' = 52.
Proof.
  split; [vm_compute; reflexivity|]. split; [apply zx_ordered; vm_compute; reflexivity|].
  repeat (split; [vm_compute; reflexivity|]). split; [split; [vm_compute; lia|split; [reflexivity|intros j Hj; vm_compute in Hj; lia]]|].
  repeat (split; [vm_compute; reflexivity|]). eexists. split; [vm_compute; reflexivity|]. split; vm_compute; reflexivity.
Qed.

(** The number of bytes reported is the length of the file as long as no write is cut short. *)
Theorem C44_bytes_reported :
  forall (E : Type) (ts : E -> Z) limit quota n P chunk align addr0 (acts : list zaction) s,
  0 < P -> 2 <= n -> 0 <= chunk -> align <> 0 -> supported_size n ->
  zrun ts limit quota P chunk align addr0 (zinit n) acts = Some s ->
  ordered_data ts (s_all (z_core s)) -> z_short s = false -> z_lost s = false -> z_open s = true ->
  (match z_pc s with ZCopy _ _ _ _ | ZCopyLast _ _ => False | _ => True end) -> z_counted s = Z.of_nat (length (z_file s)).
Proof. intros. eapply counted_lemma with (n := n); eassumption. Qed.
Print Assumptions C44_bytes_reported.

Example C44_bytes_reported_ex : z_counted zx_mid = 48 /\ z_pc zx_mid = ZChunk 36.
Proof. vm_compute. split; reflexivity. Qed.

(** The recording never reads outside the buffer or memory never written. *)
Theorem C44_no_crash :
  forall (E : Type) (ts : E -> Z) limit quota n P chunk align addr0 (acts : list zaction) s,
  0 < P -> 2 <= n -> 0 <= chunk -> align <> 0 -> supported_size n -> 0 <= limit -> (forall o, 0 < o -> quota o < o) ->
  zrun ts limit quota P chunk align addr0 (zinit n) acts = Some s ->
  ordered_data ts (s_all (z_core s)) -> z_lost s = false -> s_crashed (z_core s) = false.
Proof. intros E ts limit quota n P chunk align addr0 acts s HP Hn Hc Ha Hs Hl Hq. exact (no_crash_lemma ts limit quota n P chunk align addr0 HP Hn Hc Ha acts s Hs Hl Hq). Qed.
Print Assumptions C44_no_crash.

Example C44_no_crash_ex : (forall o, 0 < o -> zx_quota o < o) /\ s_crashed (z_core zx_end) = false /\ s_popped (z_core zx_end) = 3%nat.
Proof. split; [intros o Ho; apply Z.div_lt; lia|]. vm_compute. split; reflexivity. Qed.

(** The address handed to the unbuffered file is always aligned if the buffer and the chunk size are. *)
Theorem C44_write_pointer_aligned :
  forall (E : Type) (ts : E -> Z) limit quota n P chunk align addr0 (acts : list zaction) s w,
  align <> 0 -> addr0 mod align = 0 -> chunk mod align = 0 -> zrun ts limit quota P chunk align addr0 (zinit n) acts = Some s ->
  z_wp s = Some w -> w mod align = 0.
Proof. intros E ts limit quota n P chunk align addr0 acts s w Hz Ha Hc H Hw. exact (aligned_lemma ts limit quota n P chunk align addr0 Hz acts s w Ha Hc H Hw). Qed.
Print Assumptions C44_write_pointer_aligned.

Example C44_write_pointer_aligned_ex : z_wp zx_end = Some 20.
Proof. vm_compute. reflexivity. Qed.

(** Finding: if no stored element is aligned when the recording begins, the recording thread searches for ever: whatever
    happens afterwards, it stays in the search, writes nothing, and no clean-up removes anything, so the buffer keeps
    its content and refuses data once full. *)
Theorem C44_no_aligned_element_hangs :
  forall (E : Type) (ts : E -> Z) limit quota n P chunk align addr0 (acts : list zaction) s,
  2 <= n -> align <> 0 -> supported_size n -> (addr0 + (2 ^ 32 - 1) * P) mod align <> 0 ->
  zrun ts limit quota P chunk align addr0 (zinit n) acts = Some s -> (forall x, In x (s_all (z_core s)) -> 1 <= ts x) ->
  s_crashed (z_core s) = false -> z_pc s = ZBegin -> zstored s <> [] ->
  (forall i, (s_popped (z_core s) <= i < length (s_all (z_core s)))%nat -> ~ aligned n P align addr0 i) ->
  exists s1, zrun ts limit quota P chunk align addr0 s (repeat (ZRec false 0) (length (zstored s) + 2)) = Some s1 /\
    z_pc s1 <> ZIdle /\
    forall acts' s', zrun ts limit quota P chunk align addr0 s1 acts' = Some s' -> (forall x, In x (s_all (z_core s')) -> 1 <= ts x) ->
      z_pc s' = z_pc s1 /\ z_file s' = z_file s1 /\ s_popped (z_core s') = s_popped (z_core s1) /\
      zstored s' = firstn (Z.to_nat (n - 1)) (zstored s1 ++ zarrivals acts').
Proof.
  intros E ts limit quota n P chunk align addr0 acts s Hn Ha Hs He H Hp Hc Hpc Hst Hal.
  destruct (reach_hang_lemma ts limit quota n P chunk align addr0 Hn Ha acts s Hs H Hp Hc Hpc) as (s1 & R1 & R2).
  - destruct (Nat.le_gt_cases (length (s_all (z_core s))) (s_popped (z_core s))) as [L|L]; [|exact L].
    exfalso. apply Hst. apply skipn_all2. exact L.
  - exact Hal.
  - exists s1. split; [exact R1|]. split; [rewrite R2; discriminate|]. intros acts' s' H' Hp'. rewrite R2.
    eapply (hang_lemma ts limit quota n P chunk align addr0 Hn Ha (acts ++ repeat (ZRec false 0) (length (zstored s) + 2)) s1 acts' s' Hs);
      try assumption. rewrite (zrun_app _ _ _ _ _ _ _ _ _ _ _ H). exact R1.
Qed.
Print Assumptions C44_no_aligned_element_hangs.

(** With the element and block sizes of WIB data (5568, 4096) only every 64th slot is aligned. *)
Notation zw_run := (zrun zx_ts 3 zx_quota 5568 8388608 4096 1048576).
Definition zw_schedule : list (zaction (E := Z)) :=
  [ZWrite 10; ZWrite 20; ZWrite 30; ZWrite 40; ZWrite 50] ++ zcleans 8 ++ [ZStart] ++ zrecs 2.
Definition zw_state : zstate := match zw_run (zinit 64) zw_schedule with Some s => s | None => zinit 64 end.
Example C44_no_aligned_element_hangs_ex :
  zw_run (zinit 64) zw_schedule = Some zw_state /\ (1048576 + (2 ^ 32 - 1) * 5568) mod 4096 = 2624 /\
  s_crashed (z_core zw_state) = false /\ z_pc zw_state = ZBegin /\ zstored zw_state = [30; 40; 50] /\
  (forall i, (s_popped (z_core zw_state) <= i < length (s_all (z_core zw_state)))%nat -> ~ aligned 64 5568 4096 1048576 i) /\
  exists s1 s', zw_run zw_state (repeat (ZRec false 0) 5) = Some s1 /\
    zw_run s1 ([ZWrite 60; ZWrite 70] ++ zcleans 4 ++ zrecs 200 ++ [ZRec true 0]) = Some s' /\
    z_pc s' = ZSkip (2 ^ 32 - 1) /\ zstored s' = [30; 40; 50; 60; 70].
Proof.
  do 5 (split; [vm_compute; reflexivity|]). split.
  - intros i Hi. vm_compute in Hi. assert (i = 2 \/ i = 3 \/ i = 4)%nat as [-> | [-> | ->]] by lia; vm_compute; discriminate.
  - do 2 eexists. split; [vm_compute; reflexivity|]. split; [vm_compute; reflexivity|]. split; vm_compute; reflexivity.
Qed.

(** Finding: the file is closed at the end of the first recording and never opened again: nothing recorded later reaches
    it, whatever happens. *)
Theorem C44_later_recordings_lost :
  forall (E : Type) (ts : E -> Z) limit quota P chunk align addr0 (s : zstate (E := E)) acts s',
  0 < P -> z_open s = false -> z_pc s = ZIdle -> zrun ts limit quota P chunk align addr0 s acts = Some s' -> z_file s' = z_file s.
Proof. intros E ts limit quota P chunk align addr0 s acts s' HP Ho Hp H. eapply closed_run; [exact HP|exact Ho|rewrite Hp; exact I|exact H]. Qed.
Print Assumptions C44_later_recordings_lost.

Definition zx_second : zstate :=
  match zx_run zx_end ([ZStart] ++ zrecs 100 ++ repeat (ZRec true 100) 119) with Some s => s | None => zinit 8 end.
Example C44_later_recordings_lost_ex :
  z_open zx_end = false /\ z_pc zx_end = ZIdle /\
  zx_run zx_end ([ZStart] ++ zrecs 100 ++ repeat (ZRec true 100) 119) = Some zx_second /\
  length (z_file zx_second) = 54%nat /\ z_counted zx_second = 30 /\ z_warnings zx_second = 0.
Proof. vm_compute. repeat split; reflexivity. Qed.

(** Finding: a write that fails is taken for a success: the bytes are counted, no warning is given, the data may be removed. *)
Theorem C44_failed_write_reported_refuted :
  exists acts s, zx_run (zinit 8) acts = Some s /\ ordered_data zx_ts (s_all (z_core s)) /\ s_crashed (z_core s) = false /\
    z_lost s = false /\ z_open s = true /\ z_file s = [] /\ z_counted s = 20 /\ z_warnings s = 0 /\ s_popped (z_core s) = 2%nat.
Proof.
  exists ([ZWrite 10; ZWrite 20; ZWrite 30; ZWrite 40; ZWrite 50] ++ [ZStart] ++ repeat (ZRec false (-1)) 212 ++ zcleans 8).
  eexists. split; [vm_compute; reflexivity|]. split; [apply zx_ordered; vm_compute; reflexivity|]. vm_compute. repeat split; reflexivity.
Qed.
Print Assumptions C44_failed_write_reported_refuted.

(** Finding: with the default alignment setting (0, no alignment), which conf reports but accepts, no recording ever writes a byte, and a
    recording that finds data in the buffer ends the process by a division by zero within five of its own steps. *)
Theorem C44_no_alignment_crashes :
  forall (E : Type) (ts : E -> Z) limit quota n P chunk addr0 (acts : list zaction) s,
  supported_size n -> zrun ts limit quota P chunk 0 addr0 (zinit n) acts = Some s ->
  z_file s = [] /\
  (s_crashed (z_core s) = false -> z_pc s = ZTop -> s_requested (z_core s) = false -> zstored s <> [] ->
   forall ret, exists s', zrun ts limit quota P chunk 0 addr0 s (repeat (ZRec false ret) 5) = Some s' /\ s_crashed (z_core s') = true).
Proof.
  intros E ts limit quota n P chunk addr0 acts s Hn H. split; [exact (unaligned_file ts limit quota n P chunk addr0 acts s Hn H)|].
  intros Hc Hp Hq Hs ret. exact (unaligned_crash ts limit quota n P chunk addr0 acts s ret Hn H Hc Hp Hq Hs).
Qed.
Print Assumptions C44_no_alignment_crashes.

Example C44_no_alignment_crashes_ex :
  match zrun zx_ts 4 zx_quota 4 8 0 4096 (zinit 8) ([ZStart] ++ repeat (ZRec false 8) 6 ++ [ZWrite 10]) with
  | Some s => s_crashed (z_core s) = false /\ z_pc s = ZTop /\ s_requested (z_core s) = false /\ zstored s = [10]
  | None => False
  end.
Proof. vm_compute. repeat split; reflexivity. Qed.
