(** Property C82: the memory of raw trigger primitives from the file to the latency buffer. *)
From Coq Require Import ZArith List Bool Lia.
From Verif Require Import Base_model Bytes_model Ring_model Rawtp_model Rawtp_spec Rawtp_proofs Rawtp_props Tpmem_model Tpmem_spec Tpmem_proofs.
Import ListNotations.
Open Scope Z_scope.

(** C82. Whatever the heap contains, in every history of production (pushes may time out), consumption, clean-ups, looks and restarts the
    link works like a device that holds the numbers of frames: the processor and everybody who walks over the buffer see the frames of
    the file, in order, and no object is used after it was released or released twice (both would be [Crash]). *)
Theorem C82_frames_of_the_file : forall bl junk n ops,
  Forall well_formed bl -> bl <> [] -> 2 <= n <= 2147483648 -> pops_fit bl n d_new ops ->
  exists s0 s, tm_new n = Ok s0 /\ tm_run (concat (map file_bytes bl)) junk s0 ops = Ok (s, snd (d_run bl n d_new ops)).
Proof.
  intros bl junk n ops W Hne Hn P. destruct (tinv_new bl n Hn) as (s0 & E0 & I0 & _).
  destruct (tinv_run bl junk n W Hne Hn ops d_new 0 s0 I0 P) as (s & E & _). eauto.
Qed.
Print Assumptions C82_frames_of_the_file.

(** C82. At any time the frames alive are those in the source queue, those stored, and the last one made if its push timed out. But for
    every frame ever made one more object stays alive. *)
Theorem C82_objects_alive : forall bl junk n ops s0 s ys,
  Forall well_formed bl -> bl <> [] -> 2 <= n <= 2147483648 -> pops_fit bl n d_new ops ->
  tm_new n = Ok s0 -> tm_run (concat (map file_bytes bl)) junk s0 ops = Ok (s, ys) ->
  let d := fst (d_run bl n d_new ops) in
  live_objects false (tm_heap s) = (length (d_stored d) + length (d_waiting d) + unsent ops)%nat /\
  live_objects true (tm_heap s) = frames_made ops.
Proof.
  intros bl junk n ops s0 s ys W Hne Hn P E0 E d. destruct (tinv_new bl n Hn) as (s0' & E0' & I0 & W0). rewrite E0 in E0'. injection E0' as <-.
  destruct (tinv_run bl junk n W Hne Hn ops d_new 0 s0 I0 P) as (s' & E' & I & Wp). change (file bl) with (concat (map file_bytes bl)) in E'.
  rewrite E in E'. injection E' as <- _. destruct I as [_ New (ps & fs & _ & _ & Lw & Lp & Lq & Ow)]. fold d in Lp, Lq.
  split; [|exact New]. destruct Ow as (_ & _ & ->). rewrite !app_length, Lp, Lq, Wp, W0. cbn [opt length]. unfold last_push, unsent.
  destruct (find is_produce (rev ops)) as [[[]| | | |]|]; lia.
Qed.
Print Assumptions C82_objects_alive.

(** C82 (finding). Not even the destruction of emulator, queue and buffer releases these: every frame made costs one object for good. *)
Theorem C82_one_object_lost_per_frame : forall bl junk n ops s0 s ys,
  Forall well_formed bl -> bl <> [] -> 2 <= n <= 2147483648 -> pops_fit bl n d_new ops ->
  tm_new n = Ok s0 -> tm_run (concat (map file_bytes bl)) junk s0 ops = Ok (s, ys) ->
  exists h, tm_destroy s = Ok h /\ live_objects false h = 0%nat /\ live_objects true h = frames_made ops.
Proof.
  intros bl junk n ops s0 s ys W Hne Hn P E0 E. destruct (tinv_new bl n Hn) as (s0' & E0' & I0 & _). rewrite E0 in E0'. injection E0' as <-.
  destruct (tinv_run bl junk n W Hne Hn ops d_new 0 s0 I0 P) as (s' & E' & I & _). change (file bl) with (concat (map file_bytes bl)) in E'.
  rewrite E in E'. injection E' as <- _. eapply destroy_ok; eassumption.
Qed.
Print Assumptions C82_one_object_lost_per_frame.

(** A buffer of two places, the first frame stored, the second refused, one timed out, one waiting; then a restart with a frame waiting. *)
Definition ex_tp_history : list tm_op :=
  [TProduce Pushed; TConsume; TProduce Pushed; TConsume; TLook; TProduce TimedOut; TPop 1; TProduce Pushed; TRestart; TConsume; TProduce Pushed;
   TLook; TProduce TimedOutMoved; TProduce TimedOut].

Example C82_history_ex :
  Forall well_formed [ex_new; ex_old] /\ pops_fit [ex_new; ex_old] 2 d_new ex_tp_history /\
  d_run [ex_new; ex_old] 2 d_new ex_tp_history =
    (mk_device 3 [0%nat] [3%nat],
     [TNone; TTaken (frame_of ex_new) true; TNone; TTaken (frame_of ex_old) false; TSeen [frame_of ex_new]; TNone; TNone; TNone; TNone;
      TTaken (frame_of ex_old) true; TNone; TSeen [frame_of ex_old]; TNone; TNone]) /\
  frames_made ex_tp_history = 7%nat /\ unsent ex_tp_history = 1%nat /\
  exists s0 s ys h, tm_new 2 = Ok s0 /\ tm_run (concat (map file_bytes [ex_new; ex_old])) (fun _ _ => 77) s0 ex_tp_history = Ok (s, ys) /\
    live_objects false (tm_heap s) = 3%nat /\ live_objects true (tm_heap s) = 7%nat /\ tm_destroy s = Ok h /\ live_objects true h = 7%nat.
Proof.
  split; [exact C30_well_formed_ex|]. split; [cbn; lia|]. split; [vm_compute; reflexivity|]. split; [reflexivity|]. split; [reflexivity|].
  eexists _, _, _, _. split; [reflexivity|]. split; [vm_compute; reflexivity|]. split; [vm_compute; reflexivity|]. split; [vm_compute; reflexivity|].
  split; [vm_compute; reflexivity|]. vm_compute. reflexivity.
Qed.
