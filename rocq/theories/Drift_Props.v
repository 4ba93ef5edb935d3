(** C12, continued: the float moving sum and average on arbitrary finite floats, where the
    double accumulator is no longer exact: how far it drifts. *)
From Coq Require Import Reals Lra Lia.
From Flocq Require Import Core.Core IEEE754.BinarySingleNaN.
From Verif Require Import Common Ring_Model MovSum_Model MovSum_Spec Float FloatFacts
  MovSumF_Model MovSumF_Spec MovSumF_Proof Drift_Proof.
Local Open Scope R_scope.

(** C12, drift: for every window up to 2^29, every sequence of up to 2^48 samples (two centuries
    of audio at 44.1 kHz) of magnitude at most B, and of clear()s, the accumulator is within
    n (W+1) B 2^-51 of the exact sum of the window after n calls, and the average within that over
    W, plus 2^-21 B, of the exact average. *)
Theorem C12_float_drift_bound :
  forall (W : N) (ops : list (ms_op f32)) (B : R),
  (1 <= W <= 2 ^ 29)%N -> bpow radix2 (-100) <= B <= bpow radix2 90 -> (Z.of_nat (length ops) <= 2 ^ 48)%Z ->
  Forall (op_all (fun x => is_finite x = true /\ Rabs (B2R x) <= B)) ops -> (forall v, ~ In (MFill v) ops) ->
  let exact := rsum (window fzero (N.to_nat W) ops) in
  let n := INR (length ops) in let k := INR (N.to_nat W) in
  exists m0 m, fs_make W = Some m0 /\ fs_run m0 ops = Some m /\
    is_finite (ms_sum m) = true /\ Rabs (B2R (ms_sum m) - exact) <= n * ((k + 1) * B * bpow radix2 (-51)) /\
    is_finite (fs_average m) = true /\
    Rabs (B2R (fs_average m) - exact / k) <= n * ((k + 1) * B * bpow radix2 (-51)) / k + bpow radix2 (-21) * B.
Proof.
  intros W ops B HW HB Hn Ho Hf exact n k.
  assert (B0 : 0 < B) by (pose proof (bpow_gt_0 radix2 (-100)); lra).
  assert (HB9 : bpow radix2 (-900) <= B <= bpow radix2 900).
  { assert (bpow radix2 (-900) <= bpow radix2 (-100)) by (apply bpow_le; lia). assert (bpow radix2 90 <= bpow radix2 900) by (apply bpow_le; lia). lra. }
  assert (W63 : (1 <= W <= 2 ^ 63)%N) by (change (2 ^ 63)%N with 9223372036854775808%N; change (2 ^ 29)%N with 536870912%N in HW; lia).
  destruct (dinv_make W B W63 ltac:(lra)) as (m0 & E0 & I0).
  destruct (dinv_run W B ops HW HB9) with (n := 0%nat) (m := m0) (w := repeat (fzero : f32) (N.to_nat W)) as (m & E & I); auto.
  { apply Forall_forall. intros o Hin. destruct o as [s| |v]; cbn; auto. exact (Hf v Hin). }
  destruct I as ((l & _ & Hs & _) & Lw & Hw & F & D). cbn [Nat.add] in D. fold n k in D.
  change (fold_left (win_step fzero (N.to_nat W)) ops (repeat fzero (N.to_nat W))) with (window fzero (N.to_nat W) ops) in Lw, Hw, D. fold exact in D.
  exists m0, m. split; [exact E0|]. split; [exact E|]. split; [exact F|]. split; [exact D|].
  pose proof (dinv_small W B (length ops) ltac:(lia) ltac:(lra) Hn) as Sm. fold n k in Sm.
  pose proof (rsum_bound B _ Hw) as Rb. rewrite Lw in Rb. fold exact k in Rb.
  destruct (avg_acc W m B HW Hs F HB) as [Fa Ea].
  { fold k. replace (B2R (ms_sum m)) with ((B2R (ms_sum m) - exact) + exact) by ring. eapply Rle_trans; [apply Rabs_triang|]. lra. }
  split; [exact Fa|]. fold k in Ea.
  assert (K1 : 1 <= k) by (unfold k; change 1 with (INR 1); apply le_INR; lia).
  replace (B2R (fs_average m) - exact / k) with ((B2R (fs_average m) - B2R (ms_sum m) / k) + (B2R (ms_sum m) - exact) / k) by (unfold Rdiv; ring).
  eapply Rle_trans; [apply Rabs_triang|]. rewrite Rplus_comm. apply Rplus_le_compat; [|exact Ea].
  unfold Rdiv. rewrite Rabs_mult, (Rabs_pos_eq (/ k)) by (apply Rlt_le, Rinv_0_lt_compat; lra).
  apply Rmult_le_compat_r; [apply Rlt_le, Rinv_0_lt_compat; lra|exact D].
Qed.
Print Assumptions C12_float_drift_bound.

(** C12, found: outside 24-bit PCM the sum is not exact, does not recover when the window has
    moved on, and may be negative although no sample is: after 1, 2^-60, 0 a window of one sample
    (holding 0) sums to -2^-60. *)
Theorem C12_general_floats_refuted :
  ~ (forall (W : N) (ops : list (ms_op f32)) m0 m, fs_make W = Some m0 -> fs_run m0 ops = Some m ->
     (forall x, In (MSample x) ops -> is_finite x = true /\ 0 <= B2R x <= 1) -> flt (fs_sum m) fzero = false).
Proof.
  intros Q. destruct (fs_run_test 1 [MSample (mk32 1 0); MSample (mk32 1 (-60)); MSample fzero] (fun m => flt (fs_sum m) fzero)) as (m0 & m & E0 & E & H); [vm_compute; reflexivity|].
  rewrite (Q _ _ _ _ E0 E) in H; [discriminate H|].
  destruct (mk32_small 1 0) as [V1 F1]; [reflexivity|lia|]. destruct (mk32_small 1 (-60)) as [V2 F2]; [reflexivity|lia|].
  change (bpow radix2 0) with 1 in V1. assert (B60 : 0 <= bpow radix2 (-60) <= 1) by (split; [apply bpow_ge_0|apply (bpow_le radix2 (-60) 0); lia]).
  assert (G : forall x y : f32, (MSample x = MSample y :> ms_op f32) -> x = y) by (intros x y X; injection X; auto).
  intros x [X|[X|[X|[]]]]; apply G in X; rewrite <- X; (split; [assumption || reflexivity|]); rewrite ?V1, ?V2; cbn [B2R fzero]; lra.
Qed.
Print Assumptions C12_general_floats_refuted.

(** floats that are not 24-bit PCM: thirds and 2^-60 in a window of two *)
Example C12_drift_example : Forall (op_all (fun x => is_finite x = true /\ Rabs (B2R x) <= 1)) [MSample (mk32 11184811 (-25)); MClear; MSample (mk32 1 (-60))].
Proof.
  destruct (mk32_small 11184811 (-25)) as [V1 F1]; [reflexivity|lia|]. destruct (mk32_small 1 (-60)) as [V2 F2]; [reflexivity|lia|].
  assert (B60 : 0 <= bpow radix2 (-60) <= 1) by (split; [apply bpow_ge_0|apply (bpow_le radix2 (-60) 0); lia]).
  constructor; [|constructor; [exact I|constructor; [|constructor]]]; cbn [op_all].
  - split; [exact F1|]. rewrite V1. change (bpow radix2 (-25)) with (/ 33554432). rewrite Rabs_pos_eq by lra. lra.
  - split; [exact F2|]. rewrite V2. rewrite Rabs_pos_eq by lra. lra.
Qed.
