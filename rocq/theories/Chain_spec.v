(** What an emulated link is specified to answer (C69): which slots of the emulation have reached the link, and the
    frames of a slot, byte by byte. *)
From Coq Require Import ZArith List Bool.
From Verif Require Import Base_model Elem_model Emu_model Emu_spec Cleanup_spec Request_model Request_spec Link_model Chain_model.
Import ListNotations.
Open Scope Z_scope.

(** Next slot of the run, slots whose element waits in the queue, slots whose element the link has received in this run. *)
Record flow : Type := mk_flow { fl_next : nat; fl_waiting : list nat; fl_got : list nat }.

Definition flow_step (dropouts : list bool) (s : flow) (o : chain_op) : flow :=
  match o with
  | XProduce room =>
    mk_flow (S (fl_next s)) (fl_waiting s ++ if creates dropouts (fl_next s) && room then [fl_next s] else []) (fl_got s)
  | XConsume => match fl_waiting s with [] => s | i :: w => mk_flow (fl_next s) w (fl_got s ++ [i]) end
  | XRestart => mk_flow 0 (fl_waiting s) []
  | _ => s
  end.

Definition flow_run (dropouts : list bool) (ops : list chain_op) : flow :=
  fold_left (flow_step dropouts) ops (mk_flow 0 [] []).

(** Calls as they must be. *)
Definition good_call (o : chain_op) : Prop :=
  match o with
  | XClean limit pct _ => 0 <= limit /\ proper_share pct /\ ~ full_share pct
  | XRequest dr => rq_begin dr <= rq_end dr
  | _ => True
  end.

(** A clean-up. *)
Definition is_clean (o : chain_op) : Prop := match o with XClean _ _ _ => True | _ => False end.

(** Nothing waits in the queue at a restart. *)
Definition drained (dropouts : list bool) (ops : list chain_op) : Prop :=
  forall a b, ops = a ++ XRestart :: b -> fl_waiting (flow_run dropouts a) = [].

(** Byte [k] of a frame whose timestamp is [ts] and which had [b] there in the file. *)
Definition stamped_byte (p1 p2 : nat) (ts : Z) (k : nat) (b : Z) : Z :=
  if (p1 <=? k)%nat && (k <? p1 + 4)%nat then ts / 256 ^ Z.of_nat (k - p1) mod 256
  else if (p2 <=? k)%nat && (k <? p2 + 4)%nat then ts / 256 ^ Z.of_nat (4 + (k - p2)) mod 256
  else b.

(** Frame [j] of slot [i]: the bytes of the file, cyclically, with the emulated time. *)
Definition slot_frame (c : emu_conf) (p1 p2 stride : nat) (t0 : Z) (i j : nat) : frame :=
  let ts := t0 + (Z.of_nat i * 12 + Z.of_nat j) * em_tick c in
  let file := element (em_source c) (em_size c) (produced (em_dropouts c) i) in
  mk_frame ts (map (fun k => stamped_byte p1 p2 ts k (nth (j * stride + k) file 0)) (seq 0 stride)).

Definition slot_elem (c : emu_conf) (p1 p2 stride : nat) (t0 : Z) (i : nat) : elem :=
  mk_elem (map (slot_frame c p1 p2 stride t0 i) (seq 0 12)).

(** Time of a slot. *)
Definition slot_time (c : emu_conf) (t0 : Z) (i : nat) : Z := t0 + Z.of_nat i * (12 * em_tick c).

(** The answer when the slots [stored] are in the buffer. *)
Definition answer (c : emu_conf) (t0 : Z) (running : bool) (stored : list nat) (b e : Z) : code :=
  match stored with
  | [] => kNotFound
  | i :: _ => if (slot_time c t0 i <=? b) && (e <=? slot_time c t0 (last stored 0%nat)) then kFound
              else if (b <? slot_time c t0 i) || negb running then kNotFound else kNotYet
  end.

(** Nothing is dropped and no push is lost. *)
Definition lossless (dropouts : list bool) (ops : list chain_op) : Prop :=
  Forall (fun b => b = true) dropouts /\ Forall (fun o => match o with XProduce room => room = true | _ => True end) ops.

(** Frame [m] of a run without losses, and how many of its frames are earlier than [t]. *)
Definition run_frame (c : emu_conf) (p1 p2 stride : nat) (t0 : Z) (m : nat) : frame :=
  slot_frame c p1 p2 stride t0 (m / 12) (m mod 12).
Definition frames_before (c : emu_conf) (t0 t : Z) : nat := Z.to_nat ((t - t0 + em_tick c - 1) / em_tick c).
