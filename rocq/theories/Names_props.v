(** Property C75: names of threads and pinning by name. *)
From Coq Require Import String Ascii ZArith List Bool Lia.
From Verif Require Import Base_model Names_model Names_spec.
Import ListNotations.
Open Scope string_scope.
Open Scope Z_scope.

(** * Decimal texts *)
Lemma length_app : forall a b, String.length (a ++ b) = (String.length a + String.length b)%nat.
Proof. induction a as [|c a IH]; intros b; [reflexivity|]. cbn. rewrite IH. reflexivity. Qed.
Lemma app_str_assoc : forall a b c : string, (a ++ b) ++ c = a ++ (b ++ c).
Proof. induction a as [|x a IH]; intros b c; [reflexivity|]. cbn. rewrite IH. reflexivity. Qed.
Lemma app_nil_str : forall a, a ++ "" = a.
Proof. induction a as [|x a IH]; [reflexivity|]. cbn. rewrite IH. reflexivity. Qed.

Lemma digit_inj : forall a b, 0 <= a < 10 -> 0 <= b < 10 -> digit_char a = digit_char b -> a = b.
Proof.
  intros a b Ha Hb H. unfold digit_char in H. apply (f_equal nat_of_ascii) in H. rewrite !nat_ascii_embedding in H by lia. lia.
Qed.
Lemma snoc_inj : forall a b x y, a ++ String x "" = b ++ String y "" -> a = b /\ x = y.
Proof.
  induction a as [|c a IH]; intros [|d b] x y H; cbn in H.
  - injection H as ->. auto.
  - injection H as -> H. destruct b; discriminate.
  - injection H as -> H. destruct a; discriminate.
  - injection H as -> H. apply IH in H as [-> ->]. auto.
Qed.

(** [k] digits suffice. *)
Lemma decimal_step : forall f z, 10 <= z -> decimal (S f) z = decimal f (z / 10) ++ String (digit_char (z mod 10)) "".
Proof. intros f z H. cbn [decimal]. destruct (Z.ltb_spec z 10); [lia|reflexivity]. Qed.
Lemma decimal_small : forall f z, z < 10 -> decimal (S f) z = String (digit_char z) "".
Proof. intros f z H. cbn [decimal]. destruct (Z.ltb_spec z 10); [reflexivity|lia]. Qed.

Lemma pow_step : forall k : nat, 10 ^ Z.of_nat (S k) = 10 * 10 ^ Z.of_nat k.
Proof. intros k. rewrite Nat2Z.inj_succ, Z.pow_succ_r by lia. reflexivity. Qed.

Lemma decimal_fuel : forall f g z, 0 <= z < 10 ^ Z.of_nat (S f) -> decimal (S f + g) z = decimal (S f) z.
Proof.
  induction f as [|f IH]; intros g z H.
  - change (10 ^ Z.of_nat 1) with 10 in H. cbn [Nat.add]. rewrite !decimal_small by lia. reflexivity.
  - change (S (S f) + g)%nat with (S (S f + g)). destruct (Z.lt_ge_cases z 10) as [L|L]; [rewrite !decimal_small by lia; reflexivity|]. rewrite (decimal_step (S f + g)), (decimal_step (S f)) by exact L. f_equal.
    rewrite pow_step in H. apply (IH g (z / 10)). split; [apply Z.div_pos; lia|]. apply Z.div_lt_upper_bound; lia.
Qed.

Lemma decimal_inj : forall f z z', 0 <= z < 10 ^ Z.of_nat f -> 0 <= z' < 10 ^ Z.of_nat f -> decimal f z = decimal f z' -> z = z'.
Proof.
  induction f as [|f IH]; intros z z' H H' E; [change (10 ^ Z.of_nat 0) with 1 in *; lia|]. rewrite pow_step in *.
  assert (N : forall y, 10 <= y -> y < 10 * 10 ^ Z.of_nat f -> decimal f (y / 10) <> "").
  { intros y Hy Hy' X. destruct f as [|f']; [change (10 ^ Z.of_nat 0) with 1 in Hy'; lia|]. cbn [decimal] in X. destruct (y / 10 <? 10); [discriminate|]. destruct (decimal f' _); discriminate. }
  destruct (Z.lt_ge_cases z 10) as [L|L], (Z.lt_ge_cases z' 10) as [L'|L'].
  - rewrite !decimal_small in E by lia. injection E as E. apply digit_inj in E; lia.
  - rewrite decimal_small, decimal_step in E by lia. specialize (N z' L' ltac:(lia)). destruct (decimal f (z' / 10)) as [|c [|d r]]; [congruence|discriminate|discriminate].
  - rewrite decimal_step, decimal_small in E by lia. specialize (N z L ltac:(lia)). destruct (decimal f (z / 10)) as [|c [|d r]]; [congruence|discriminate|discriminate].
  - rewrite !decimal_step in E by lia. apply snoc_inj in E as [E1 E2]. apply digit_inj in E2; [|apply Z.mod_pos_bound; lia|apply Z.mod_pos_bound; lia].
    apply IH in E1; [|split; [apply Z.div_pos; lia|apply Z.div_lt_upper_bound; lia]|split; [apply Z.div_pos; lia|apply Z.div_lt_upper_bound; lia]].
    pose proof (Z.div_mod z 10 ltac:(lia)). pose proof (Z.div_mod z' 10 ltac:(lia)). lia.
Qed.

Lemma decimal_length : forall f z, 0 <= z < 10 ^ Z.of_nat (S f) -> (String.length (decimal (S f) z) <= S f)%nat.
Proof.
  induction f as [|f IH]; intros z H.
  - change (10 ^ Z.of_nat 1) with 10 in H. rewrite decimal_small by lia. cbn. lia.
  - destruct (Z.lt_ge_cases z 10) as [L|L]; [rewrite decimal_small by lia; cbn; lia|]. rewrite decimal_step by lia. rewrite length_app. cbn [String.length].
    rewrite pow_step in H. pose proof (IH (z / 10) ltac:(split; [apply Z.div_pos; lia|apply Z.div_lt_upper_bound; lia])). lia.
Qed.
Lemma decimal_long : forall k f z, 10 ^ Z.of_nat k <= z -> z < 10 ^ Z.of_nat f -> (k < String.length (decimal f z))%nat.
Proof.
  induction k as [|k IH]; intros f z H H'.
  - change (10 ^ Z.of_nat 0) with 1 in H. destruct f as [|f]; [change (10 ^ Z.of_nat 0) with 1 in H'; lia|]. cbn [decimal]. destruct (z <? 10); [cbn; lia|]. rewrite length_app. cbn. lia.
  - rewrite pow_step in H. assert (10 ^ Z.of_nat k > 0) by (apply Z.lt_gt, Z.pow_pos_nonneg; lia).
    destruct f as [|f]; [change (10 ^ Z.of_nat 0) with 1 in H'; lia|]. rewrite pow_step in H'. rewrite decimal_step by lia. rewrite length_app. cbn [String.length].
    pose proof (IH f (z / 10) ltac:(apply Z.div_le_lower_bound; lia) ltac:(apply Z.div_lt_upper_bound; lia)). lia.
Qed.

(** * Truncation *)
Lemma substring_short : forall n s, (String.length s <= n)%nat -> substring 0 n s = s.
Proof. induction n as [|n IH]; intros [|c s] H; cbn in *; try reflexivity; try lia. rewrite IH by lia. reflexivity. Qed.
Lemma substring_prefix : forall n a b, (n <= String.length a)%nat -> substring 0 n (a ++ b) = substring 0 n a.
Proof. induction n as [|n IH]; intros [|c a] b H; cbn in *; try lia; try (destruct b; reflexivity); try reflexivity. rewrite IH by lia. reflexivity. Qed.

Lemma int_small : forall e, 0 <= e < 2 ^ 31 -> int_text (i32 e) = decimal 10 e.
Proof.
  intros e H. assert (i32 e = e) as ->.
  { unfold i32, two32. change (2 ^ 31) with 2147483648 in *. rewrite Z.mod_small by lia. lia. }
  unfold int_text. destruct (Z.ltb_spec e 0); [lia|reflexivity].
Qed.

Lemma role_length : forall r, proper r -> Z.of_nat (String.length (role_text r ++ "-")) + room r = 15.
Proof.
  intros r P. destruct r; try reflexivity. cbn [proper] in P. unfold role_text, room. destruct (Z.ltb_spec task 10); [|lia].
  rewrite app_str_assoc, !length_app. change 20%nat with (S 19). rewrite decimal_small by lia. reflexivity.
Qed.
Lemma room_bounds : forall r, proper r -> 1 <= room r <= 7.
Proof. intros r P. destruct r; cbn in *; try lia. destruct (Z.ltb_spec task 10); lia. Qed.

Lemma fits_name : forall r e, fits r e -> role_name r e = role_text r ++ "-" ++ decimal 10 e.
Proof.
  intros r e [P H]. unfold role_name, thread_name. pose proof (room_bounds r P) as B. pose proof (role_length r P) as L.
  assert (e < 10 ^ 7) by (eapply Z.lt_le_trans; [apply H|apply Z.pow_le_mono_r; lia]). change (10 ^ 7) with 10000000 in *. rewrite int_small by (change (2 ^ 31) with 2147483648; lia).
  apply substring_short. rewrite <- app_str_assoc, length_app.
  assert (exists f, room r = Z.of_nat (S f)) as (f & E) by (exists (Z.to_nat (room r - 1)); lia). rewrite E in *.
  pose proof (decimal_length f e (proj2 (conj P H))) as D.
  assert (decimal 10 e = decimal (S f) e) as ->.
  { replace 10%nat with (S f + (10 - S f))%nat by lia. apply decimal_fuel. exact H. }
  lia.
Qed.

Lemma first_digit : forall f z, 0 <= z -> exists d s, 0 <= d < 10 /\ decimal (S f) z = String (digit_char d) s.
Proof.
  induction f as [|f IH]; intros z H.
  - cbn [decimal]. destruct (Z.ltb_spec z 10); [exists z, ""; split; [lia|reflexivity]|]. exists (z mod 10), "". split; [apply Z.mod_pos_bound; lia|reflexivity].
  - destruct (Z.lt_ge_cases z 10) as [L|L]; [rewrite decimal_small by lia; exists z, ""; split; [lia|reflexivity]|]. rewrite decimal_step by lia.
    destruct (IH (z / 10) ltac:(apply Z.div_pos; lia)) as (d & s & D & ->). exists d. eexists. split; [exact D|reflexivity].
Qed.
Lemma digit_not_t : forall d, 0 <= d < 10 -> digit_char d <> "t"%char.
Proof. intros d H E. unfold digit_char in E. apply (f_equal nat_of_ascii) in E. rewrite nat_ascii_embedding in E by lia. change (nat_of_ascii "t") with 116%nat in E. lia. Qed.

Lemma below_ten : forall r e, fits r e -> 0 <= e < 10 ^ Z.of_nat 10.
Proof. intros r e [P H]. pose proof (room_bounds r P). split; [lia|]. eapply Z.lt_le_trans; [apply H|]. apply Z.pow_le_mono_r; lia. Qed.

(** C75. As long as the number of the link fits, the name of a worker thread tells its role and its link. *)
Theorem C75_names_distinct :
  forall (r r' : role) (e e' : Z), fits r e -> fits r' e' -> role_name r e = role_name r' e' -> r = r' /\ e = e'.
Proof.
  intros r r' e e' F F' H. rewrite !fits_name in H by assumption. pose proof (below_ten _ _ F) as B. pose proof (below_ten _ _ F') as B'.
  assert (D : decimal 10 e = decimal 10 e' -> e = e') by (apply decimal_inj; assumption).
  destruct (first_digit 9 e ltac:(lia)) as (d & s & Hd & E). destruct (first_digit 9 e' ltac:(lia)) as (d' & s' & Hd' & E').
  pose proof (digit_not_t d Hd) as T. pose proof (digit_not_t d' Hd') as T'.
  destruct F as [P _], F' as [P' _]. change (S 9) with 10%nat in E, E'. set (x := decimal 10 e) in *. set (x' := decimal 10 e') in *. clearbody x x'.
  assert (X : forall i, 0 <= i < 10 -> decimal 20 i = String (digit_char i) "") by (intros i Hi; apply decimal_small; lia).
  destruct r, r'; cbn [proper role_text] in *; rewrite ?X in H by assumption; cbn in H; try discriminate H.
  all: try (injection H as H; split; [reflexivity|apply D; exact H]).
  - injection H as H1 H2. apply digit_inj in H1; [|assumption|assumption]. rewrite H1. split; [reflexivity|apply D; exact H2].
  - injection H as H. rewrite E in H. injection H as H _. congruence.
  - injection H as H. rewrite E' in H. injection H as H _. congruence.
Qed.

Example C75_names_distinct_ex : fits Recording 99999 /\ fits (Post 0) 9 /\ fits TpProducer 12 /\
  role_name Recording 99999 = "recording-99999" /\ role_name (Post 0) 9 = "postprocess-0-9" /\ role_name TpProducer 12 = "fakeprod-tp-12".
Proof. unfold fits. cbn. repeat split; lia. Qed.

(** C75. If it does not fit, the thread has the name of the same thread of another link, the one whose number lacks the last digit. *)
Theorem C75_names_shared :
  forall (r : role) (e : Z), proper r -> 10 ^ room r <= e < 2 ^ 31 -> role_name r e = role_name r (e / 10) /\ 0 < e / 10 < e.
Proof.
  intros r e P H. pose proof (room_bounds r P) as B. pose proof (role_length r P) as L.
  assert (10 <= 10 ^ room r) by (replace 10 with (10 ^ 1) at 1 by reflexivity; apply Z.pow_le_mono_r; lia). change (2 ^ 31) with 2147483648 in *.
  assert (Q : 0 < e / 10 < e) by (split; [apply Z.div_str_pos; lia|apply Z.div_lt; lia]). split; [|exact Q].
  unfold role_name, thread_name. rewrite !int_small by (change (2 ^ 31) with 2147483648; lia).
  change 10%nat with (S 9). rewrite (decimal_step 9 e) by lia. rewrite <- !app_str_assoc.
  assert (decimal (S 9) (e / 10) = decimal 9 (e / 10)) as ->.
  { apply (decimal_fuel 8 1). change (10 ^ Z.of_nat 9) with 1000000000. split; [lia|]. apply Z.div_lt_upper_bound; lia. }
  apply substring_prefix. rewrite length_app.
  assert (exists k, room r = Z.of_nat (S k)) as (k & E) by (exists (Z.to_nat (room r - 1)); lia). rewrite E in *. rewrite pow_step in H.
  pose proof (decimal_long k 9 (e / 10) ltac:(apply Z.div_le_lower_bound; lia) ltac:(change (10 ^ Z.of_nat 9) with 1000000000; apply Z.div_lt_upper_bound; lia)). lia.
Qed.

Example C75_names_shared_ex : role_name (Post 0) 12 = "postprocess-0-1" /\ role_name (Post 0) 1 = "postprocess-0-1" /\ role_name TpProducer 1234 = role_name TpProducer 123.
Proof. vm_compute. repeat split; reflexivity. Qed.

(** C75. In a generated configuration with fewer than 100000 links two handlers have threads with the same name if and only if they are the
    data handler and the software trigger primitive handler of the same number, and then all their threads have. *)
Theorem C75_generated_names :
  forall (n t : nat) (h h' : handler) (e e' : Z) (r r' : role), Z.of_nat (n + t) <= 100000 -> In (h, e) (generated_handlers n t) -> In (h', e') (generated_handlers n t) ->
  of_handler r -> of_handler r' -> (h, e) <> (h', e') ->
  (role_name r e = role_name r' e' <-> r = r' /\ e = e' /\ (h = DataH /\ h' = SwTpH \/ h = SwTpH /\ h' = DataH)).
Proof.
  intros n t h h' e e' r r' N I I' R R' D.
  assert (G : forall h e, In (h, e) (generated_handlers n t) -> 0 <= e < Z.of_nat (n + t) /\ (h = RawTpH <-> Z.of_nat n <= e)).
  { clear. intros h e I. unfold generated_handlers in I. rewrite !in_app_iff, !in_map_iff in I. destruct I as [(i & E & I)|[(i & E & I)|(i & E & I)]]; injection E as <- <-; apply in_seq in I;
    (split; [lia|split; [try discriminate; intros; lia|intros; try reflexivity; lia]]). }
  assert (Fi : forall r e, of_handler r -> 0 <= e < 100000 -> fits r e).
  { clear. intros r e R H. destruct R as [<-|[<-|[<-|[<-|[<-|[]]]]]]; split; cbn; auto; lia. }
  destruct (G h e I) as [B K]. destruct (G h' e' I') as [B' K']. split.
  - intros E. apply C75_names_distinct in E as [-> ->]; [|apply Fi; [assumption|lia]|apply Fi; [assumption|lia]]. split; [reflexivity|]. split; [reflexivity|].
    destruct h, h'; auto; try congruence; exfalso; [assert (DataH = RawTpH) by tauto|assert (SwTpH = RawTpH) by tauto|assert (DataH = RawTpH) by tauto|assert (SwTpH = RawTpH) by tauto]; discriminate.
  - intros (-> & -> & _). reflexivity.
Qed.

Example C75_generated_names_ex : In (DataH, 1) (generated_handlers 2 1) /\ In (SwTpH, 1) (generated_handlers 2 1) /\ In (RawTpH, 2) (generated_handlers 2 1).
Proof. vm_compute. tauto. Qed.

(** C75. Of the post-processing threads of a link only the last one gets a name. *)
Theorem C75_only_last_task_named :
  forall (element : Z) (threads : list string) (last : string),
  post_conf element (threads ++ [last]) = (threads ++ [role_name (Post (Z.of_nat (length threads))) element])%list.
Proof.
  intros element threads last. unfold post_conf.
  assert (SL : forall x l y, set_last x (l ++ [y]) = (l ++ [x])%list).
  { intros x l y. induction l as [|a l IH]; [reflexivity|]. cbn [app set_last]. rewrite IH. destruct (l ++ [y])%list eqn:Z; [destruct l; discriminate|reflexivity]. }
  assert (NT : forall k i y, name_tasks (S k) i element (threads ++ [y]) = (threads ++ [role_name (Post (i + Z.of_nat k)) element])%list).
  { induction k as [|k IH]; intros i y.
    - cbn [name_tasks]. rewrite SL. replace (i + Z.of_nat 0) with i by lia. reflexivity.
    - change (name_tasks (S (S k)) i element (threads ++ [y])) with (name_tasks (S k) (i + 1) element (set_last (role_name (Post i) element) (threads ++ [y]))).
      rewrite SL, IH. replace (i + 1 + Z.of_nat k) with (i + Z.of_nat (S k)) by lia. reflexivity. }
  rewrite app_length. cbn [length]. rewrite Nat.add_1_r, NT. rewrite Z.add_0_l. reflexivity.
Qed.

Example C75_only_last_task_named_ex : post_conf 3 ["daq_application"; "daq_application"] = ["daq_application"; "postprocess-1-3"].
Proof. vm_compute. reflexivity. Qed.

(** * Pinning *)
Lemma app_name_spec : forall cmd a, app_name cmd = Some a <-> exists before after, cmd = (before ++ "--name" :: a :: after)%list /\ ~ In "--name" before.
Proof.
  induction cmd as [|x cmd IH]; intros a; cbn [app_name].
  - split; [discriminate|]. intros (b & c & E & _). destruct b; discriminate.
  - destruct (String.eqb_spec x "--name") as [->|N].
    + split.
      * destruct cmd as [|b cmd]; [discriminate|]. intros E. injection E as ->. exists [], cmd. split; [reflexivity|]. intros [].
      * intros (b & c & E & NI). destruct b as [|y b]; [injection E as ->; reflexivity|]. injection E as <- E. exfalso. apply NI. left. reflexivity.
    + rewrite IH. split; intros (b & c & E & NI).
      * exists (x :: b), c. split; [rewrite E; reflexivity|]. intros [X|X]; [congruence|contradiction].
      * destruct b as [|y b]; [injection E as E _; congruence|]. injection E as <- E. exists b, c. split; [exact E|]. intros X. apply NI. right. exact X.
Qed.

Lemma new_mask_wanted : forall pins cmd name m, new_mask pins cmd name = m <-> wanted pins cmd name m.
Proof.
  intros pins cmd name m. unfold new_mask, wanted. split.
  - intros <-. destruct (app_name cmd) as [a|] eqn:E.
    + destruct (pins a name) as [m|] eqn:P.
      * left. apply app_name_spec in E as (b & c & E & N). exists b, a, c. auto.
      * right. split; [|reflexivity]. intros b a' c X N. assert (app_name cmd = Some a') by (apply app_name_spec; eauto). congruence.
    + right. split; [|reflexivity]. intros b a' c X N. assert (app_name cmd = Some a') by (apply app_name_spec; eauto). congruence.
  - intros [(b & a & c & E & N & P)|[H ->]].
    + rewrite (proj2 (app_name_spec cmd a)) by eauto. rewrite P. reflexivity.
    + destruct (app_name cmd) as [a|] eqn:E; [|reflexivity]. apply app_name_spec in E as (b & c & E & N). rewrite (H b a c E N). reflexivity.
Qed.

(** What the script leaves of a thread, given whether it was reached. *)
Definition served (set_affinity : list Z -> option (list Z)) (pins : pin_file) (cmd : list string) (t t' : thread) : Prop :=
  th_name t' = th_name t /\ exists m, wanted pins cmd (th_name t) m /\ set_affinity m = Some (th_mask t').

(** C75. If every mask is accepted the balancer goes through to the end: every thread of every process whose name contains the target gets the mask the
    file has for the application and the name of the thread, and all CPUs if it has none, whatever its mask was before; nothing else changes. *)
Theorem C75_balanced :
  forall (set_affinity : list Z -> option (list Z)) (pins : pin_file) (target : string) (l : list process),
  (forall m, set_affinity m <> None) ->
  snd (balance set_affinity pins target l) = true /\
  Forall2 (fun p p' => pr_name p' = pr_name p /\ pr_cmdline p' = pr_cmdline p /\
             if contains target (pr_name p) then Forall2 (served set_affinity pins (pr_cmdline p)) (pr_threads p) (pr_threads p') else p' = p)
          l (fst (balance set_affinity pins target l)).
Proof.
  intros sa pins target l A.
  assert (T : forall cmd ts, snd (balance_threads sa pins cmd ts) = true /\ Forall2 (served sa pins cmd) ts (fst (balance_threads sa pins cmd ts))).
  { intros cmd ts. induction ts as [|t ts [IH1 IH2]]; [split; [reflexivity|constructor]|]. cbn [balance_threads]. destruct (sa (new_mask pins cmd (th_name t))) as [m|] eqn:E; [|destruct (A _ E)].
    destruct (balance_threads sa pins cmd ts) as [r go]. cbn in *. split; [exact IH1|]. constructor; [|exact IH2]. split; [reflexivity|].
    eexists. split; [apply new_mask_wanted; reflexivity|exact E]. }
  induction l as [|p l [IH1 IH2]]; [split; [reflexivity|constructor]|]. cbn [balance]. destruct (contains target (pr_name p)) eqn:C.
  - destruct (T (pr_cmdline p) (pr_threads p)) as [T1 T2]. destruct (balance_threads sa pins (pr_cmdline p) (pr_threads p)) as [ts go]. cbn in T1, T2. subst go.
    destruct (balance sa pins target l) as [r go]. cbn in *. split; [exact IH1|]. constructor; [|exact IH2]. cbn. rewrite C. auto.
  - destruct (balance sa pins target l) as [r go]. cbn in *. split; [exact IH1|]. constructor; [|exact IH2]. rewrite C. auto.
Qed.

Example C75_balanced_ex :
  balance (fun m => Some (match m with [] => [0; 1; 2; 3] | _ => m end)) (fun a n => if String.eqb a "mini0" && String.eqb n "consumer-0" then Some [2] else None) "daq_app"
    [mk_process "bash" ["bash"] [mk_thread "bash" [1]];
     mk_process "daq_application" ["daq_application"; "--name"; "mini0"; "-c"] [mk_thread "consumer-0" [0]; mk_thread "cleanup-0" [1]; mk_thread "consumer-0" [3]]] =
  ([mk_process "bash" ["bash"] [mk_thread "bash" [1]];
    mk_process "daq_application" ["daq_application"; "--name"; "mini0"; "-c"] [mk_thread "consumer-0" [2]; mk_thread "cleanup-0" [0; 1; 2; 3]; mk_thread "consumer-0" [2]]], true).
Proof. vm_compute. reflexivity. Qed.

(** C75. If a mask is refused the script ends there: the threads before are served, that one and all after it keep their masks. *)
Theorem C75_refused_mask_ends :
  forall (set_affinity : list Z -> option (list Z)) (pins : pin_file) (target : string) (l : list process),
  snd (balance set_affinity pins target l) = false ->
  exists l1 p l2 t1 t t2 l1' t1',
    l = (l1 ++ p :: l2)%list /\ contains target (pr_name p) = true /\ pr_threads p = (t1 ++ t :: t2)%list /\
    (exists m, wanted pins (pr_cmdline p) (th_name t) m /\ set_affinity m = None) /\
    fst (balance set_affinity pins target l) = (l1' ++ mk_process (pr_name p) (pr_cmdline p) (t1' ++ t :: t2) :: l2)%list /\
    Forall2 (served set_affinity pins (pr_cmdline p)) t1 t1' /\
    Forall2 (fun p p' => pr_name p' = pr_name p /\ pr_cmdline p' = pr_cmdline p /\
               if contains target (pr_name p) then Forall2 (served set_affinity pins (pr_cmdline p)) (pr_threads p) (pr_threads p') else p' = p) l1 l1'.
Proof.
  intros sa pins target.
  assert (T : forall cmd ts, (snd (balance_threads sa pins cmd ts) = true -> Forall2 (served sa pins cmd) ts (fst (balance_threads sa pins cmd ts))) /\
    (snd (balance_threads sa pins cmd ts) = false -> exists t1 t t2 t1', ts = (t1 ++ t :: t2)%list /\ (exists m, wanted pins cmd (th_name t) m /\ sa m = None) /\
       fst (balance_threads sa pins cmd ts) = (t1' ++ t :: t2)%list /\ Forall2 (served sa pins cmd) t1 t1')).
  { intros cmd ts. induction ts as [|t ts [IH1 IH2]]; [split; [intros _; constructor|discriminate]|]. cbn [balance_threads]. destruct (sa (new_mask pins cmd (th_name t))) as [m|] eqn:E.
    - assert (S : served sa pins cmd t (mk_thread (th_name t) m)) by (split; [reflexivity|]; eexists; split; [apply new_mask_wanted; reflexivity|exact E]).
      destruct (balance_threads sa pins cmd ts) as [r go]. cbn [fst snd] in *. split.
      + intros G. constructor; [exact S|apply IH1, G].
      + intros G. destruct (IH2 G) as (t1 & u & t2 & t1' & -> & M & -> & F). exists (t :: t1), u, t2, (mk_thread (th_name t) m :: t1'). repeat split; auto.
    - split; [discriminate|]. intros _. exists [], t, ts, []. split; [reflexivity|]. split; [|split; [reflexivity|constructor]].
      eexists. split; [apply new_mask_wanted; reflexivity|exact E]. }
  induction l as [|p l IH]; intros H; [discriminate|]. cbn [balance] in *. destruct (contains target (pr_name p)) eqn:C.
  - destruct (T (pr_cmdline p) (pr_threads p)) as [T1 T2]. destruct (balance_threads sa pins (pr_cmdline p) (pr_threads p)) as [ts go]. cbn [fst snd] in T1, T2. destruct go.
    + destruct (balance sa pins target l) as [r go]. cbn [fst snd] in *. destruct (IH H) as (l1 & q & l2 & t1 & t & t2 & l1' & t1' & -> & Cq & Eq & M & -> & F1 & F2).
      exists (p :: l1), q, l2, t1, t, t2, (mk_process (pr_name p) (pr_cmdline p) ts :: l1'), t1'. split; [reflexivity|]. split; [exact Cq|]. split; [exact Eq|]. split; [exact M|]. split; [reflexivity|].
      split; [exact F1|]. constructor; [|exact F2]. cbn. rewrite C. auto.
    + destruct (T2 eq_refl) as (t1 & t & t2 & t1' & E & M & -> & F). exists [], p, l, t1, t, t2, [], t1'. split; [reflexivity|]. split; [exact C|]. split; [exact E|]. split; [exact M|].
      split; [reflexivity|]. split; [exact F|constructor].
  - destruct (balance sa pins target l) as [r go]. cbn [fst snd] in *. destruct (IH H) as (l1 & q & l2 & t1 & t & t2 & l1' & t1' & -> & Cq & Eq & M & -> & F1 & F2).
    exists (p :: l1), q, l2, t1, t, t2, (p :: l1'), t1'. split; [reflexivity|]. split; [exact Cq|]. split; [exact Eq|]. split; [exact M|]. split; [reflexivity|].
    split; [exact F1|]. constructor; [|exact F2]. rewrite C. auto.
Qed.

Example C75_refused_mask_ends_ex :
  balance (fun m => match m with [9] => None | [] => Some [0; 1] | _ => Some m end) (fun a n => if String.eqb n "cleanup-0" then Some [9] else None) "daq"
    [mk_process "daq_application" ["x"; "--name"; "mini0"] [mk_thread "consumer-0" [0]; mk_thread "cleanup-0" [1]; mk_thread "requests-0" [1]]] =
  ([mk_process "daq_application" ["x"; "--name"; "mini0"] [mk_thread "consumer-0" [0; 1]; mk_thread "cleanup-0" [1]; mk_thread "requests-0" [1]]], false).
Proof. vm_compute. reflexivity. Qed.

Print Assumptions C75_names_distinct.
Print Assumptions C75_names_shared.
Print Assumptions C75_generated_names.
Print Assumptions C75_only_last_task_named.
Print Assumptions C75_balanced.
Print Assumptions C75_refused_mask_ends.
