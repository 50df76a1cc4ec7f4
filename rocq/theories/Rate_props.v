(** Property C33: the rate limiter. *)
From Coq Require Import ZArith List Bool Lia Sorted.
From Verif Require Import Base_model Rate_model Rate_spec Rate_proofs.
Import ListNotations.
Open Scope Z_scope.

(** C33. With a fixed period, the k-th return (k = 1, 2, ...) after initialisation at t0 is not before t0 + k*period. *)
Theorem C33_kth_return : forall P t0 l s', 0 <= P < 2 ^ 62 -> clock_ok t0 l -> calls l -> rl_run (rl_init P t0) l = Some s' ->
  forall k t, nth_error (returns l) k = Some t -> t0 + (Z.of_nat k + 1) * P <= t.
Proof. exact c33_kth. Qed.
Print Assumptions C33_kth_return.

Notation ex_calls := [Call [1000; 1000003] 1000010; Call [2000000] 2000001; Call [2500000; 3000001] 3000001].
Example C33_kth_return_ex : clock_ok 7 ex_calls /\ exists s, rl_run (rl_init 999993 7) ex_calls = Some s.
Proof.
  split; [|eexists; vm_compute; reflexivity]. split; [|split; [lia|split]].
  - cbn. repeat (constructor; [|constructor; lia]). repeat constructor.
  - cbn. repeat (constructor; [lia|]). constructor.
  - repeat (constructor; [exact I|]). constructor.
Qed.

(** C33. In any history (including changes of the period) each call moves the deadline forward by at least the
    period, to at most one period after the last clock value read; the call does not return before the previous
    deadline; and after falling behind by more than the slack the schedule restarts from the last clock value read. *)
Theorem C33_deadline_moves_forward : forall P0 t0 l rs t s1 s2, 0 <= P0 < 2 ^ 62 -> clock_ok t0 (l ++ [Call rs t]) ->
  rl_run (rl_init P0 t0) l = Some s1 -> rl_limit rs s1 = Some s2 ->
  rl_deadline s1 + rl_period s1 <= rl_deadline s2 <= rl_now s2 + rl_period s1 /\
  rl_now s2 <= t /\
  (rl_deadline s1 <= t) /\
  (rl_deadline s1 + max_overshoot < rl_now s1 -> rl_deadline s2 = rl_now s1 + rl_period s1).
Proof. exact c33_deadline. Qed.
Print Assumptions C33_deadline_moves_forward.
Example C33_deadline_ex :
  rl_run (rl_init 1000000 0) [Adjust 2000000; Call [50000000] 50000000; Call [] 50000000; Call [51000000; 52000000] 52000000]
  = Some (mk_rl 52000000 54000000 2000000).
Proof. vm_compute. reflexivity. Qed.

(** C33. Whatever happened before, n consecutive calls with the same period that return within an interval of
    length T satisfy (n - 4) * period <= T + 2 * slack. *)
Theorem C33_calls_in_an_interval : forall P0 t0 l1 e l2 s1 s',
  0 <= P0 < 2 ^ 62 -> clock_ok t0 (l1 ++ e :: l2) -> calls (e :: l2) ->
  rl_run (rl_init P0 t0) l1 = Some s1 -> rl_run s1 (e :: l2) = Some s' ->
  (Z.of_nat (length (e :: l2)) - 4) * rl_period s1 <= last (returns (e :: l2)) 0 - hd 0 (returns (e :: l2)) + 2 * max_overshoot.
Proof. exact c33_window. Qed.
Print Assumptions C33_calls_in_an_interval.

(** C33. The slack counts twice: because the clock is not read while the limiter is behind, 21 calls with a period of
    1 ms can return at the same instant, although the slack of 10 ms is worth 10 calls. *)
Theorem C33_single_slack_refuted : exists P0 t0 l1 e l2 s1 s',
  0 <= P0 < 2 ^ 62 /\ clock_ok t0 (l1 ++ e :: l2) /\ calls (e :: l2) /\
  rl_run (rl_init P0 t0) l1 = Some s1 /\ rl_run s1 (e :: l2) = Some s' /\
  last (returns (e :: l2)) 0 - hd 0 (returns (e :: l2)) + max_overshoot < (Z.of_nat (length (e :: l2)) - 1) * rl_period s1.
Proof.
  exists 1000000, 0, [Call [11000000] 11000000], (Call [] 22000000),
    (repeat (Call [] 22000000) 9 ++ [Call [22000000] 22000000] ++ repeat (Call [] 22000000) 10), (mk_rl 11000000 2000000 1000000),
    (mk_rl 22000000 23000000 1000000).
  split; [lia|]. split; [|split; [|split; [|split]]].
  - split; [|split; [lia|split]].
    + cbn. repeat (constructor; [|constructor; lia]). repeat constructor.
    + cbn. repeat (constructor; [lia|]). constructor.
    + cbn. repeat (constructor; [exact I|]). constructor.
  - cbn. repeat (constructor; [exact I|]). constructor.
  - vm_compute. reflexivity.
  - vm_compute. reflexivity.
  - vm_compute. reflexivity.
Qed.
Print Assumptions C33_single_slack_refuted.

(** C33. A call that has to wait returns with the first clock value that is not before the deadline: it never waits
    longer than that. *)
Theorem C33_returns_at_the_deadline : forall s pre r,
  rl_now s < rl_deadline s -> 0 <= rl_deadline s < 2 ^ 63 -> Forall (fun x => x < rl_deadline s) pre -> rl_deadline s <= r ->
  exists s', rl_limit (pre ++ [r]) s = Some s' /\ rl_now s' = r.
Proof.
  intros s pre r Hn Hd Hp Hr. unfold rl_limit, u64. rewrite Z.mod_small by (unfold two64, max_overshoot; lia).
  destruct (Z.gtb_spec (rl_now s) (rl_deadline s + max_overshoot)) as [G|G]; [unfold max_overshoot in G; lia|].
  rewrite spin_first by assumption. eexists. split; reflexivity.
Qed.
Print Assumptions C33_returns_at_the_deadline.
Example C33_returns_ex : rl_limit ([3; 4; 9] ++ [10]) (mk_rl 1 10 5) = Some (mk_rl 10 15 5).
Proof. vm_compute. reflexivity. Qed.
