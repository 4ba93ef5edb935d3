(** Properties C10, C11.  Theorems only. *)
From Verif Require Import Common Ring_Model MovSum_Model MovSum_Spec MovSum_Proof.
Local Open Scope Z_scope.

(** C10: for every window 1..2^31 and every sequence of samples / clear / fill the
    accumulator never overflows and sum() is the exact sum of the window (reduced to
    the 32-bit result type only if it does not fit). *)
Theorem C10_int_moving_sum_exact :
  forall (W : N) (ops : list (ms_op Z)),
  (1 <= W <= 2 ^ 31)%N -> Forall (op_all int32_range) ops ->
  exists m0 m, int_make W = Some m0 /\ int_run m0 ops = Some m /\ ms_size m = W /\
    int_sum m = to_int32 (zsum (window 0 (N.to_nat W) ops)) /\
    (int32_range (zsum (window 0 (N.to_nat W) ops)) -> int_sum m = zsum (window 0 (N.to_nat W) ops)).
Proof. exact int_moving_sum_spec. Qed.
Print Assumptions C10_int_moving_sum_exact.

(** C10: what a call returns is the sum that sum() reports afterwards, so the exact sum of the new window. *)
Theorem C10_call_returns_sum :
  forall (W : N) (ops : list (ms_op Z)) (x : Z),
  (1 <= W <= 2 ^ 31)%N -> Forall (op_all int32_range) ops -> int32_range x ->
  exists m0 m o m', int_make W = Some m0 /\ int_run m0 ops = Some m /\
    ms_step (fun a s => check64 (a + s)) (fun a s => check64 (a - s)) to_int32 m x = Some (o, m') /\
    o = ms_value to_int32 m' /\ ms_value to_int32 m' = int_sum m' /\
    o = to_int32 (zsum (window 0 (N.to_nat W) (ops ++ [MSample x]))).
Proof.
  intros W ops x HW Hops Hx.
  destruct (int_moving_sum_spec W ops HW Hops) as (m0 & m & E0 & E & _).
  destruct (int_moving_sum_spec W (ops ++ [MSample x]) HW) as (m0' & m1 & E0' & E1 & _ & S1 & _).
  { apply Forall_app. split; [exact Hops|]. constructor; [exact Hx|constructor]. }
  rewrite E0 in E0'. injection E0' as <-.
  assert (A : forall l a b, int_run a (l ++ [MSample x]) = Some b -> forall c, int_run a l = Some c -> int_run c [MSample x] = Some b).
  { induction l as [|op l IH]; intros a b H c Hc; [injection Hc as <-; exact H|].
    unfold int_run in *. cbn [app ms_run] in H, Hc. destruct (ms_apply _ _ _ _ _ _ a op) as [a'|]; [|discriminate]. cbn [bind] in H, Hc. exact (IH a' b H c Hc). }
  pose proof (A ops m0 m1 E1 m E) as R. unfold int_run in R. cbn [ms_run ms_apply] in R.
  destruct (ms_step (fun a s => check64 (a + s)) (fun a s => check64 (a - s)) to_int32 m x) as [[o m']|] eqn:Es; [|discriminate].
  cbn [bind snd] in R. injection R as ->.
  exists m0, m, o, m1. split; [exact E0|]. split; [exact E|]. split; [exact Es|].
  assert (O : o = ms_value to_int32 m1).
  { unfold ms_step in Es. destruct (check64 _) as [a1|]; [|discriminate]. cbn [bind] in Es. destruct (rb_get _ _) as [old|]; [|discriminate]. cbn [bind] in Es.
    destruct (check64 _) as [a2|]; [|discriminate]. cbn [bind] in Es. destruct (rb_push _ _) as [b|]; [|discriminate]. cbn [bind] in Es. injection Es as <- <-. reflexivity. }
  split; [exact O|]. split; [reflexivity|]. rewrite O, <- S1. reflexivity.
Qed.
Print Assumptions C10_call_returns_sum.

Example C10_example :
  Forall (op_all int32_range) [MSample 5; MSample (-3); MFill 7; MSample 1; MSample 2] /\
  exists m0 m, int_make 3 = Some m0 /\
    int_run m0 [MSample 5; MSample (-3); MFill 7; MSample 1; MSample 2] = Some m /\ int_sum m = 10 /\
    window 0 3 [MSample 5; MSample (-3); MFill 7; MSample 1; MSample 2] = [2; 1; 7].
Proof.
  split; [repeat constructor; cbn; unfold int32_range; lia|].
  eexists; eexists. split; [vm_compute; reflexivity|]. split; [vm_compute; reflexivity|].
  split; vm_compute; reflexivity.
Qed.

(** C11 (partial): the average is the truncated mean when the window sum is not negative. *)
Theorem C11_int_average_partial :
  forall (W : N) (ops : list (ms_op Z)),
  (1 <= W <= 2 ^ 31)%N -> Forall (op_all int32_range) ops ->
  exists m0 m, int_make W = Some m0 /\ int_run m0 ops = Some m /\
    (0 <= zsum (window 0 (N.to_nat W) ops) < 2 ^ 31 ->
     int_average m = Some (zsum (window 0 (N.to_nat W) ops) / Z.of_N W)).
Proof. exact int_average_spec. Qed.
Print Assumptions C11_int_average_partial.

(** C11: with a power-of-two window the result is right for negative sums as well:
    the mean rounded towards minus infinity. *)
Theorem C11_int_average_power_of_two :
  forall (k : N) (ops : list (ms_op Z)),
  (k <= 31)%N -> Forall (op_all int32_range) ops ->
  exists m0 m, int_make (2 ^ k) = Some m0 /\ int_run m0 ops = Some m /\
    (int32_range (zsum (window 0 (N.to_nat (2 ^ k)) ops)) ->
     int_average m = Some (zsum (window 0 (N.to_nat (2 ^ k)) ops) / 2 ^ Z.of_N k)).
Proof. exact int_average_pow2. Qed.
Print Assumptions C11_int_average_power_of_two.

(** C11: what a negative sum [s] gives in general: [(2^64 + s) / W], the low 32 bits. *)
Theorem C11_int_average_negative :
  forall (W : N) (ops : list (ms_op Z)),
  (1 <= W <= 2 ^ 31)%N -> Forall (op_all int32_range) ops ->
  exists m0 m, int_make W = Some m0 /\ int_run m0 ops = Some m /\
    (- 2 ^ 31 <= zsum (window 0 (N.to_nat W) ops) < 0 ->
     int_average m = Some (to_int32 ((2 ^ 64 + zsum (window 0 (N.to_nat W) ops)) / Z.of_N W))).
Proof. exact int_average_neg. Qed.
Print Assumptions C11_int_average_negative.

Example C11_example :
  Forall (op_all int32_range) [MSample (-7); MSample 2; MSample (-4)] /\
  exists m0 m, int_make (2 ^ 1) = Some m0 /\
    int_run m0 [MSample (-7); MSample 2; MSample (-4)] = Some m /\ int_average m = Some (-1).
Proof.
  split; [repeat constructor; cbn; unfold int32_range; lia|].
  eexists; eexists. split; [vm_compute; reflexivity|]. split; [vm_compute; reflexivity|]. vm_compute; reflexivity.
Qed.

(** C11 refuted: three samples of -1 in a window of 3 average to 1431655764. *)
Theorem C11_int_average_negative_refuted :
  exists W ops m0 m, Forall (op_all int32_range) ops /\ int_make W = Some m0 /\
    int_run m0 ops = Some m /\ int_sum m = -3 /\ W = 3%N /\ int_average m = Some 1431655764.
Proof.
  exists 3%N, [MSample (-1); MSample (-1); MSample (-1)]. eexists; eexists.
  split; [repeat constructor; cbn; unfold int32_range; lia|].
  split; [vm_compute; reflexivity|]. split; [vm_compute; reflexivity|].
  vm_compute. auto.
Qed.
Print Assumptions C11_int_average_negative_refuted.

(** C11 refuted: a window of size 0 can be constructed, and averaging divides by zero. *)
Theorem C11_average_zero_window_refuted :
  exists m, int_make 0 = Some m /\ int_average m = None.
Proof. eexists. split; [vm_compute; reflexivity|]. vm_compute; reflexivity. Qed.
Print Assumptions C11_average_zero_window_refuted.
