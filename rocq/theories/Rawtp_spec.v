(** Specification vocabulary for C30 and C31: what a raw TP file consists of. *)
From Coq Require Import ZArith List Bool.
From Verif Require Import Base_model.
Import ListNotations.
Open Scope Z_scope.

(** The two file formats. [New hits-count bytes]: 24-byte header then hits. [Old head hits ped]: 12-byte header,
    12-byte hits, and a closing 12-byte subframe ending in the marker EF BE AD DE. *)
Inductive block :=
| New (bs : list Z)
| Old (head : list Z) (hits : list (list Z)) (ped : list Z).

Definition byte_at (l : list Z) (i : nat) : Z := nth i l 0.
Definition marker : list Z := [239; 190; 173; 222].
Definition ends_with_marker (sub : list Z) : Prop := skipn 8 sub = marker.

(** The bytes of the block in the file. *)
Definition file_bytes (b : block) : list Z :=
  match b with New bs => bs | Old head hits ped => head ++ concat hits ++ ped end.

Definition all_bytes (l : list Z) : Prop := Forall (fun b => 0 <= b < 256) l.

(** Well-formed blocks of at least two hits. In the new format bytes 18-19 hold the number of hits and bytes 20-21
    the tag BEEF; in the old format no subframe but the last ends with the marker, and the first hit does not hold
    BEEF in its bytes 8-9 (where the parser looks for the tag). *)
Definition well_formed (b : block) : Prop :=
  match b with
  | New bs => exists n, (2 <= n)%nat /\ Z.of_nat n < 65536 /\ length bs = (24 + 12 * n)%nat /\ all_bytes bs /\
                byte_at bs 18 = Z.of_nat n mod 256 /\ byte_at bs 19 = Z.of_nat n / 256 /\
                byte_at bs 20 = 239 /\ byte_at bs 21 = 190
  | Old head hits ped =>
      length head = 12%nat /\ length ped = 12%nat /\ (2 <= length hits)%nat /\ Z.of_nat (length hits) < 65536 /\
      Forall (fun h => length h = 12%nat) hits /\
      all_bytes head /\ all_bytes ped /\ Forall all_bytes hits /\
      ends_with_marker ped /\ ~ ends_with_marker head /\ Forall (fun h => ~ ends_with_marker h) hits /\
      (forall h, nth_error hits 0 = Some h -> ~ (byte_at h 8 = 239 /\ byte_at h 9 = 190))
  end.

Definition lo (n : nat) : Z := Z.of_nat n mod 256.
Definition hi (n : nat) : Z := Z.of_nat n / 256.

(** The frame handed to the queue for a block. New format: the block itself. Old format: header, closing subframe
    with the hit count stored in its bytes 6-7, hits in order - with the first four bytes of the second hit replaced
    by the hit count. *)
Definition frame_of (b : block) : list Z :=
  match b with
  | New bs => bs
  | Old head hits ped =>
      let n := length hits in
      head ++ (firstn 6 ped ++ [lo n; hi n] ++ skipn 8 ped) ++
      match hits with
      | h1 :: h2 :: rest => h1 ++ ([lo n; hi n; 0; 0] ++ skipn 4 h2) ++ concat rest
      | _ => concat hits
      end
  end.
