(** Property C36: the source emulator. *)
From Coq Require Import ZArith List Bool Lia.
From Verif Require Import Base_model Bytes_model Bytes_proofs Ebg_model Ebg_spec Ebg_proofs Emu_model Emu_spec Emu_proofs.
Import ListNotations.
Open Scope Z_scope.

(** A file holding two complete elements of three bytes and a rest of one byte; dropout table of three entries. *)
Notation ex_tables := (mk_tables 2 [5; 6] [1; 1] [2; 1]).
Notation ex_conf t0 := (mk_emu [1; 2; 3; 4; 5; 6; 7] 3 2 [true; false; true] 25 t0 (fun e => nth 0 e 0) ex_tables).

(** C36. For every file with at least one complete element, every non-empty dropout table, error tables, clock tick,
    queue behaviour and number of turns, the run never reads outside the file and emits exactly the specified slots:
    slot i carries t0 + i*12*tick, holds a payload iff its cyclic dropout entry says so, the k-th payload is element
    k mod (number of complete elements) and takes the next error words of the generator's stream (of which [used] were
    taken by earlier runs); a queue that refuses changes nothing else; all payloads are counted. *)
Theorem C36_slots : forall c used ws g queue,
  (0 < em_size c)%nat -> (em_size c <= length (em_source c))%nat ->
  Z.of_nat (length (em_source c) / em_size c) < two32 -> em_dropouts c <> [] -> tables_ok (em_tables c) ->
  gen_words (em_tables c) used gen_new = Ok (ws, g) ->
  let t0 := if em_t0 c >=? 0 then em_t0 c else em_get_ts c (firstn (em_size c) (em_source c)) in
  exists s, emu_run c g queue =
      Ok (map (fun x => slot c t0 used (fst x) (snd x)) (combine (seq 0 (length queue)) queue), s) /\
    es_count s = i32 (Z.of_nat (produced (em_dropouts c) (length queue))).
Proof.
  intros c used ws g queue S0 N0 NB D0 T W t0. destruct (begin_inv c S0 N0 D0 used g (ex_intro _ ws W)) as (s0 & B & I).
  destruct (many_slots c S0 N0 NB D0 T _ used queue 0 s0 I) as (s1 & L & I1). exists s1. unfold emu_run. rewrite B. cbn [bind].
  split; [exact L|]. exact (i_count _ _ _ _ _ I1).
Qed.
Print Assumptions C36_slots.
Example C36_slots_ex :
  (do r <- emu_run (ex_conf (-1)) gen_new [true; true; true; false; true]; Ok (fst r)) =
  Ok [Some (mk_payload [1; 2; 3] 1 [0; 0] true); None; Some (mk_payload [4; 5; 6] 601 [6; 0] true);
      Some (mk_payload [1; 2; 3] 901 [5; 0] false); None].
Proof. vm_compute. reflexivity. Qed.

(** C36. Without dropouts (rate zero) slot k holds payload k. *)
Theorem C36_rate_zero : forall draws i, creates (make_dropouts true draws) i = true /\ produced (make_dropouts true draws) i = i.
Proof.
  intros draws i. assert (C : forall j, creates (make_dropouts true draws) j = true).
  { intros j. unfold creates, make_dropouts. cbn [length]. rewrite Nat.mod_1_r. reflexivity. }
  split; [apply C|]. unfold produced. rewrite <- (seq_length i 0) at 2. f_equal. induction (seq 0 i) as [|x l IH]; cbn [filter]; auto.
  rewrite C. now f_equal.
Qed.
Print Assumptions C36_rate_zero.
Example C36_rate_zero_ex : creates (make_dropouts false [true; false]) 3 = false /\ produced (make_dropouts false [true; false]) 3 = 2%nat.
Proof. vm_compute. auto. Qed.

(** C36 (finding). A file smaller than one element: reading the first timestamp from it, or the first payload, is an
    access outside the file buffer. *)
Theorem C36_small_file_faults : forall c g queue i, (length (em_source c) < em_size c)%nat -> (i < length queue)%nat ->
  creates (em_dropouts c) i = true -> emu_run c g queue = Crash.
Proof.
  intros c g queue i Sm L C. unfold emu_run, emu_begin.
  assert (K : forall queue s j, es_drop s = (j mod length (em_dropouts c))%nat -> (j <= i < j + length queue)%nat ->
              es_offset s = 0 -> emu_loop c queue s = Crash).
  { clear L queue. induction queue as [|q queue IH]; cbn [length emu_loop]; intros s j D L O; [lia|]. unfold emu_slot. rewrite O.
    assert (D0 : (0 < length (em_dropouts c))%nat).
    { destruct (em_dropouts c); [|cbn; lia]. unfold creates in C. now destruct (i mod length (@nil bool))%nat. }
    rewrite (nth_error_nth' _ false) by (rewrite D; apply Nat.mod_upper_bound; lia).
    rewrite D. fold (creates (em_dropouts c) j). destruct (creates (em_dropouts c) j) eqn:Cj.
    - rewrite rd_crash; [reflexivity|]. destruct ((0 =? _) || _); lia.
    - cbn [bind snd fst]. rewrite (IH _ (S j)).
      + reflexivity.
      + cbn [es_drop]. exact (mod_succ j _ D0).
      + destruct (Nat.eq_dec j i) as [->|]; [congruence|lia].
      + cbn [es_offset]. now destruct ((0 =? _) || _). }
  destruct (em_t0 c >=? 0).
  - cbn [bind]. apply (K _ _ 0%nat); cbn [es_drop es_offset]; auto; [|lia].
    rewrite Nat.mod_0_l; [reflexivity|]. intros E0. unfold creates in C. apply length_zero_iff_nil in E0. rewrite E0 in C.
    now destruct (i mod length (@nil bool))%nat.
  - rewrite rd_crash by lia. reflexivity.
Qed.
Print Assumptions C36_small_file_faults.
Example C36_small_file_faults_ex :
  emu_run (mk_emu [1; 2] 3 2 [false; true] 25 0 (fun e => nth 0 e 0) ex_tables) gen_new [true; true] = Crash /\
  creates [false; true] 1 = true.
Proof. vm_compute. auto. Qed.

(** C36 (finding). A non-zero dropout rate with a population of size zero: the first turn reads outside the table. *)
Theorem C36_empty_population_faults : forall c g q queue, em_dropouts c = make_dropouts false [] -> emu_run c g (q :: queue) = Crash.
Proof.
  intros c g q queue E. unfold emu_run. destruct (emu_begin c g) as [s|]; [|reflexivity]. cbn [bind emu_loop]. unfold emu_slot.
  rewrite E. cbn [make_dropouts]. now destruct (es_drop s).
Qed.
Print Assumptions C36_empty_population_faults.
Example C36_empty_population_faults_ex :
  emu_run (mk_emu [1; 2; 3] 3 2 (make_dropouts false []) 25 0 (fun e => nth 0 e 0) ex_tables) gen_new [true] = Crash.
Proof. vm_compute. reflexivity. Qed.
