(** Property C12 (basic_moving_sum<float> on 24-bit PCM).  Theorems only. *)
From Coq Require Import Reals.
From Flocq Require Import Core.Core IEEE754.BinarySingleNaN.
From Verif Require Import Common Ring_Model MovSum_Model MovSum_Spec Float FloatFacts
  MovSumF_Model MovSumF_Spec MovSumF_Proof.

(** C12: for windows up to 2^29 and every sequence of PCM samples and clear() (and, for
    power-of-two windows, fill()) of any length, the binary64 accumulator is exactly the
    real sum of the window; sum() is that sum correctly rounded to binary32; the
    average is finite, is the rounded quotient and stays in [-1, 1]. *)
Theorem C12_float_moving_sum_no_drift :
  forall (W : N) (ops : list (ms_op f32)),
  (1 <= W <= 2 ^ 29)%N -> Forall (op_all pcm24) ops ->
  ((exists j, W = (2 ^ j)%N) \/ forall v, ~ In (MFill v) ops) ->
  let exact := rsum (window fzero (N.to_nat W) ops) in
  exists m0 m, fs_make W = Some m0 /\ fs_run m0 ops = Some m /\
    is_finite (ms_sum m) = true /\ B2R (ms_sum m) = exact /\
    is_finite (fs_sum m) = true /\ B2R (fs_sum m) = rnd 24 128 exact /\
    is_finite (fs_average m) = true /\
    B2R (fs_average m) = rnd 24 128 (rnd 24 128 exact / rnd 24 128 (IZR (Z.of_N W))) /\
    (Rabs (B2R (fs_average m)) <= 1)%R.
Proof.
  intros W ops HW Hops Hf exact.
  destruct (fs_exact W ops HW Hops Hf) as (m0 & m & E0 & E & Hs & F & S & WL & WG).
  exists m0, m. destruct (fs_out W m _ HW Hs F S WL WG) as (F1 & S1 & F2 & S2 & B).
  repeat (split; [assumption|]). assumption.
Qed.
Print Assumptions C12_float_moving_sum_no_drift.

(** C12 is false for fill() on other windows: the float product val * size is rounded,
    and the error stays in the accumulator for ever: filling a window of 3 with
    k = 8388607/2^23 and then feeding three zeros leaves a non-zero sum. *)
Theorem C12_fill_residual_refuted :
  exists (v : f32) m0 m, pcm24 v /\ fs_make 3 = Some m0 /\
    fs_run m0 [MFill v; MSample fzero; MSample fzero; MSample fzero] = Some m /\
    window fzero 3 [MFill v; MSample fzero; MSample fzero; MSample fzero] = [fzero; fzero; fzero] /\
    feq (fs_sum m) fzero = false.
Proof.
  assert (P : pcm24 (mk32 8388607 (-23))).
  { split; [vm_compute; reflexivity|]. exists 8388607%Z. split; [vm_compute; discriminate|].
    destruct (fmk_exact (prec:=24) (emax:=128) 8388607 (-23)) as [E F].
    - apply fmt_F2R; vm_compute; [reflexivity|discriminate].
    - rewrite Rabs_pos_eq by (apply Rmult_le_pos; [apply IZR_le; discriminate|apply bpow_ge_0]).
      apply Rlt_trans with (IZR 8388608 * bpow radix2 (-23))%R.
      + apply Rmult_lt_compat_r; [apply bpow_gt_0|]. apply IZR_lt. reflexivity.
      + change (IZR 8388608) with (bpow radix2 23). rewrite <- bpow_plus. apply bpow_lt. reflexivity.
    - exact E. }
  destruct (fs_run_test 3 [MFill (mk32 8388607 (-23)); MSample fzero; MSample fzero; MSample fzero]
    (fun m => negb (feq (fs_sum m) fzero))) as (m0 & m & E0 & E & H); [vm_compute; reflexivity|].
  exists (mk32 8388607 (-23)), m0, m. split; [exact P|]. split; [exact E0|]. split; [exact E|].
  split; [reflexivity|]. destruct (feq (fs_sum m) fzero); [discriminate H|reflexivity].
Qed.
Print Assumptions C12_fill_residual_refuted.

Example C12_example :
  exists m0 m, fs_make 3 = Some m0 /\
    fs_run m0 [MSample (mk32 1 (-23)); MSample (mk32 (-3) (-2)); MSample (mk32 1 0); MSample (mk32 1 (-1))] = Some m /\
    feq (fs_sum m) (mk32 3 (-2)) = true.
Proof. refine (fs_run_test 3 _ (fun m => feq (fs_sum m) (mk32 3 (-2))) _). vm_compute; reflexivity. Qed.
