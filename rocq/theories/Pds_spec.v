(** What an emulated photon detector link is specified to do (C80): a device that holds slot numbers of the emulation. *)
From Coq Require Import ZArith List Bool.
From Verif Require Import Base_model Elem_model Emu_model Float_model Cleanup_spec Request_model Request_spec Link_model Chain_model Chain_spec.
Import ListNotations.
Open Scope Z_scope.

Section Device.
Variable c : emu_conf.
Variable t0 : Z.
(** Is there room for one more element? What does a clean-up leave? *)
Variable room : list nat -> bool.
Variable keep : Z -> float32 -> Z -> list nat -> list nat.

(** The slots on their way to the link and the slots in its buffer, oldest first. *)
Definition device_step (d : flow * list nat) (o : chain_op) : flow * list nat :=
  (flow_step (em_dropouts c) (fst d) o,
   match o with
   | XConsume => match fl_waiting (fst d) with i :: _ => if room (snd d) then snd d ++ [i] else snd d | [] => snd d end
   | XClean limit pct next => keep limit pct next (snd d)
   | XRestart => []
   | _ => snd d
   end).
Definition device (ops : list chain_op) : flow * list nat := fold_left device_step ops (mk_flow 0 [] [], []).
Definition stored (ops : list chain_op) : list nat := snd (device ops).

(** What the call [o] after the calls [ops] must return. [seen]: the elements looked at by a request that begins at [b]. *)
Variable seen : Z -> list elem -> list elem.
Definition right_out (p1 p2 stride : nat) (dnf : Z) (lk : link) (running : bool) (ops : list chain_op) (o : chain_op) (y : link_out) : Prop :=
  match o with
  | XConsume => y = match fl_waiting (fst (device ops)) with [] => OutNone | _ => OutWrite (room (stored ops)) end
  | XRequest dr =>
    match answer c t0 running (stored ops) (rq_begin dr) (rq_end dr) with
    | kFound => y = OutReply kFound (Some (mk_fragment (create_fragment_header lk dr)
                      (window_bytes (seen (rq_begin dr) (map (slot_elem c p1 p2 stride t0) (stored ops))) (rq_begin dr) (rq_end dr))))
    | kNotYet => y = OutReply kNotYet None
    | kNotFound => exists fr, y = OutReply kNotFound (Some fr) /\ mirrors lk dr (fg_header fr) /\ fg_bytes fr = [] /\
                     Z.testbit (h_error_bits (fg_header fr)) dnf = true
    end
  | _ => y = OutNone
  end.
End Device.

(** The ring of [n] entries: room for n - 1; a clean-up of more than [limit] elements takes the share [pct] of them from the
    oldest on, but nothing from time [next] on; requests look at everything. *)
Definition ring_room (n : Z) (l : list nat) : bool := Z.of_nat (length l) <? n - 1.
Definition ring_keep (c : emu_conf) (t0 : Z) (limit : Z) (pct : float32) (next : Z) (l : list nat) : list nat :=
  if Z.of_nat (length l) <=? limit then l
  else skipn (Nat.min (Z.to_nat (share pct (Z.of_nat (length l)))) (length (filter (fun i => slot_time c t0 i <? next) l))) l.
Definition ring_seen (b : Z) (l : list elem) : list elem := l.

(** The skip list: always room; a clean-up looks at the time from the oldest to the newest element, and if it exceeds ten
    million ticks leaves what is less than that from the newest; requests look at elements that begin in the window only. *)
Definition list_room (l : list nat) : bool := true.
Definition list_keep (c : emu_conf) (t0 : Z) (limit : Z) (pct : float32) (next : Z) (l : list nat) : list nat :=
  let newest := slot_time c t0 (last l 0%nat) in
  if newest - slot_time c t0 (hd 0%nat l) >? 10000000 then filter (fun i => newest - slot_time c t0 i <? 10000000) l else l.
Definition list_seen (b : Z) (l : list elem) : list elem := filter (fun e => b <=? e_ts e) l.

(** Calls as they must be. *)
Definition good_ring_call (o : chain_op) : Prop :=
  match o with XClean limit pct _ => 0 <= limit /\ proper_share pct /\ ~ full_share pct | _ => True end.
Definition good_list_call (o : chain_op) : Prop :=
  match o with XRequest dr => rq_begin dr <= rq_end dr | _ => True end.
