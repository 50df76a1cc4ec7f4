(** Specification of the software trigger primitive generation as a whole, over the calls made and the events seen. *)
From Coq Require Import ZArith List Bool.
From Verif Require Import Base_model Expand_model Hits_model Tp_model Tp_spec Swtpg_model.
Import ListNotations.
Open Scope Z_scope.

(** The superchunks processed since the last start, and the number processed since conf. *)
Definition chunks_of (l : list act) : list (Z * memory) :=
  fold_left (fun acc a => match a with Start => [] | Chunk ts mem => acc ++ [(ts, mem)] | _ => acc end) l [].
Definition count_chunks (l : list act) : Z :=
  fold_left (fun n a => match a with Chunk _ _ => n + 1 | _ => n end) l 0.

(** Events of the buffer since the last start. *)
Definition tp_events (e : list ev) : list (event prim) := flat_map (fun x => match x with Tp y => [y] | _ => [] end) e.
Definition this_run (e : list ev) : list (event prim) := since_reset (tp_events e).
(** Primitives offered to the buffer, with its decision. *)
Definition decisions (e : list (event prim)) : list (prim * bool) :=
  flat_map (fun x => match x with EAdd q b => [(q, b)] | _ => [] end) e.
(** A primitive found in the superchunk of time [ts] is accepted if it began less than [timeout] ago, on the 64-bit clock of its start. *)
Definition on_time (timeout ts : Z) (q : prim) : bool := ts <? (time_start q + timeout) mod 2 ^ 64.
(** The decisions still to be taken on the superchunk in hand. *)
Definition in_hand {heap} (timeout : Z) (s : proc heap) : list (prim * bool) :=
  match sp_hand s with Some (ts, _, qs) => map (fun q => (q, on_time timeout ts q)) qs | None => [] end.
(** The decisions the superchunks [chunks] with primitives [out] call for. *)
Definition expected_decisions (timeout : Z) (chunks : list (Z * memory)) (out : list (list prim)) : list (prim * bool) :=
  flat_map (fun x => map (fun q => (q, on_time timeout (fst (fst x)) q)) (snd x)) (combine chunks out).

(** Time stamps do not go back and no step is larger than [d]. *)
Fixpoint paced (d : Z) (l : list Z) : Prop :=
  match l with
  | a :: (b :: _) as r => a <= b <= a + d /\ paced d r
  | _ => True
  end.

(** Primitives dropped since the last read-out or start. *)
Definition dropped_unread (e : list ev) : Z :=
  fold_left (fun n x => match x with Tp (EAdd _ false) => n + 1 | Tp EReset | Dropped _ => 0 | _ => n end) e 0.
(** Hits of the superchunks finished since the last read-out or start; and of the one in hand. *)
Definition hits_unread (e : list ev) : Z * Z :=
  fold_left (fun n x => match x with
                        | Tp (EAdd _ _) => (fst n, snd n + 1)
                        | Done => (fst n + snd n, 0)
                        | Tp EReset => (0, 0)
                        | Hits _ => (0, snd n)
                        | _ => n end) e (0, 0).
