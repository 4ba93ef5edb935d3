(** The coefficients of the resonant filter: the feedback, and the cutoff coefficient of a frequency. *)
From Coq Require Import Reals Lra Lia ZArith.
From Flocq Require Import Core.Core IEEE754.BinarySingleNaN.
From Verif Require Import Common Float FloatFacts FloatRel FloatLerp Env_Proof Filt_Proof Dyn_Proof Sin_Proof Fft_Model Fast_Model Fast_Sin Fast_Tan Bq_Model Bq_Float Reso_Model Reso_Proof Reso_Float.
Local Open Scope R_scope.
Local Notation fin x := (is_finite x = true).
Local Notation v x := (B2R x).
Local Notation rn := (rnd 24 128).
Local Notation u := (/ 16777216).
Local Notation h := (bpow radix2 (-150)).

Lemma h_tiny : 0 < h <= 0.000000000001.
Proof. split; [apply bpow_gt_0|]. apply Rle_trans with (bpow radix2 (-60)); [apply bpow_le; lia|change (bpow radix2 (-60)) with (/ 1152921504606846976); lra]. Qed.
Lemma feedback_ok (f r : f32) : fin f -> fin r -> 0 < v f <= 3 / 4 -> 0 <= v r <= 1 ->
  let fb := rs_feedback ops32 f r in
  fin fb /\ 0 <= v fb /\ Rabs (v fb - (v r + v r / (1 - v f))) <= bpow radix2 (-19).
Proof.
  intros Ff Fr Hf Hr. cbn zeta. unfold rs_feedback. cbn [add quo sub one ops32]. change (bpow radix2 (-19)) with (/ 524288). pose proof h_tiny as hp.
  destruct (int32 1 ltac:(reflexivity)) as [V1 F1]. set (F := v f) in *. set (R := v r) in *.
  assert (B8 : 8 <= bpow radix2 101) by (change 8 with (bpow radix2 3); apply bpow_le; lia).
  destruct (op_sub (mk32 1 0) f 1 F1 Ff ltac:(lra)) as (Fd & Ed); [rewrite V1; fold F; apply Rabs_le; lra|]. rewrite V1 in Ed. fold F in Ed. set (d := fsub (mk32 1 0) f) in *.
  set (D := v d) in *. apply Rabs_le_inv in Ed. assert (D1 : 0.2499 <= D <= 1.0001) by lra.
  assert (ID : 0 < / D <= 4.002). { split; [apply Rinv_0_lt_compat; lra|]. apply Rle_trans with (/ 0.2499); [apply Rinv_le_contravar; lra|lra]. }
  assert (Q : 0 <= R / D <= 4.002). { split; [apply Rmult_le_pos; lra|]. unfold Rdiv. apply Rle_trans with (1 * 4.002); [apply Rmult_le_compat; lra|lra]. }
  assert (L128 : forall z, Rabs z <= 8 -> Rabs (rn z) < bpow radix2 128) by (intros z Hz; apply (big_lt 8); lra).
  destruct (fdiv_R r d Fr) as (Vq & Fq); [fold D; lra|fold R D; apply L128; rewrite Rabs_pos_eq; lra|]. fold R D in Vq. set (q := fdiv r d) in *.
  assert (Q2 : 0 <= v q) by (rewrite Vq; apply rnd_ge_fmt; [apply fmt_0|lra]).
  pose proof (op_err (R / D) 4.002 ltac:(rewrite Rabs_pos_eq; lra)) as Eq. rewrite <- Vq in Eq. apply Rabs_le_inv in Eq.
  destruct (fadd_R r q Fr Fq) as (Va & Fa); [fold R; apply L128; rewrite Rabs_pos_eq; lra|]. fold R in Va. split; [exact Fa|]. split; [rewrite Va; apply rnd_ge_fmt; [apply fmt_0|lra]|].
  pose proof (op_err (R + v q) 5.1 ltac:(rewrite Rabs_pos_eq; lra)) as Ea. rewrite <- Va in Ea. apply Rabs_le_inv in Ea.
  assert (IF : 0 < / (1 - F) <= 4). { split; [apply Rinv_0_lt_compat; lra|]. apply Rle_trans with (/ (1 / 4)); [apply Rinv_le_contravar; lra|lra]. }
  assert (X : Rabs (R / D - R / (1 - F)) <= 16.1 * (u + h)).
  { replace (R / D - R / (1 - F)) with (R * / D * / (1 - F) * ((1 - F) - D)) by (field; lra). rewrite Rabs_mult. apply Rmult_le_compat; [apply Rabs_pos|apply Rabs_pos| |apply Rabs_le; lra].
    rewrite Rabs_pos_eq by (apply Rmult_le_pos; [apply Rmult_le_pos; lra|lra]). apply Rle_trans with (1 * 4.002 * 4); [|lra]. apply Rmult_le_compat; [apply Rmult_le_pos; lra|lra| |lra]. apply Rmult_le_compat; lra. }
  apply Rabs_le_inv in X. apply Rabs_le. lra.
Qed.

(** the resonance whose exact feedback is the float one *)
Lemma effective (f r : f32) : fin f -> fin r -> 0 < v f <= 3 / 4 -> 0 <= v r < 1 -> / 128 <= v f * (1 - v r) ->
  exists r', v (rs_feedback ops32 f r) = rs_feedback opsR (v f) r' /\ 0 <= r' < 1 /\ / 129 <= v f * (1 - r') /\ 0.9999 * (1 - v r) <= 1 - r' /\ v (rs_feedback ops32 f r) <= 5.001.
Proof.
  intros Ff Fr Hf Hr Hd. destruct (feedback_ok f r Ff Fr Hf ltac:(lra)) as (Fb & B0 & E). cbn zeta in *. set (H := v (rs_feedback ops32 f r)) in *. set (F := v f) in *. set (R := v r) in *.
  change (bpow radix2 (-19)) with (/ 524288) in E.
  assert (RE : R + R / (1 - F) = R * ((2 - F) / (1 - F))) by (field; lra). rewrite RE in E.
  exists (H * ((1 - F) / (2 - F))). assert (C : 0 < (1 - F) / (2 - F) <= 1 / 2).
  { split; [apply Rdiv_lt_0_compat; lra|]. apply (Rmult_le_reg_r (2 - F)); [lra|]. unfold Rdiv at 1. rewrite Rmult_assoc, Rinv_l by lra. lra. }
  set (c := (1 - F) / (2 - F)) in *.
  assert (X : Rabs (H * c - R) <= / 1048576).
  { replace (H * c - R) with (c * (H - R * ((2 - F) / (1 - F)))) by (unfold c; field; lra). rewrite Rabs_mult, (Rabs_pos_eq c) by lra.
    apply Rle_trans with (1 / 2 * / 524288); [apply Rmult_le_compat; [lra|apply Rabs_pos|lra|exact E]|lra]. }
  apply Rabs_le_inv in X. assert (Q : / 96 <= 1 - R). { apply (Rmult_le_reg_l F); [lra|]. apply Rle_trans with (/ 128); [lra|exact Hd]. }
  assert (FX : F * (H * c - R) <= 3 / 4 * / 1048576). { apply Rle_trans with (F * / 1048576); [apply Rmult_le_compat_l; lra|apply Rmult_le_compat_r; lra]. }
  split; [unfold rs_feedback; cbn [add quo sub one opsR]; unfold c; field; lra|]. split; [split; [apply Rmult_le_pos; lra|lra]|]. split; [lra|]. split; [lra|].
  apply Rabs_le_inv in E. assert (C2 : (2 - F) / (1 - F) <= 5). { apply (Rmult_le_reg_r (1 - F)); [lra|]. unfold Rdiv. rewrite Rmult_assoc, Rinv_l by lra. lra. }
  assert (C3 : 0 <= (2 - F) / (1 - F)) by (apply Rlt_le, Rdiv_lt_0_compat; lra).
  assert (R * ((2 - F) / (1 - F)) <= 1 * 5) by (apply Rmult_le_compat; lra). lra.
Qed.

(** 2 fastsin(pi f / sps) *)
Lemma coeff_near (f : f64) (n : Z) : fin f -> (1 <= n < 2 ^ 32)%Z -> 0 <= v f <= IZR n / 2 ->
  fin (rs_coeff f n) /\ Rabs (v (rs_coeff f n) - 2 * sin (PI * v f / IZR n)) <= 0.000104.
Proof.
  intros F Hn Hf. change (2 ^ 32)%Z with 4294967296%Z in Hn. pose proof h_tiny as hp.
  assert (N1 : 1 <= IZR n) by (apply IZR_le; lia). assert (N2 : IZR n <= 4294967296) by (apply IZR_le; lia).
  destruct (mk64_small n 0 ltac:(change (2 ^ 53)%Z with 9007199254740992%Z; lia) ltac:(lia)) as (Vn & Fn). cbn [bpow] in Vn. rewrite Rmult_1_r in Vn.
  destruct (mk64_small 884279719003555 (-48) ltac:(lia) ltac:(lia)) as (Vp & Fp). fold pi64 in Vp, Fp. change (bpow radix2 (-48)) with (/ 281474976710656) in Vp.
  set (p := v pi64) in *. assert (Bp : 3.1415926535 <= p <= 3.1415926537) by lra.
  (* float(f) *)
  destruct (fconv_R (p := 53) (e := 1024) (p' := 24) (e' := 128) f F) as (Vg & Fg).
  { apply (big_lt (IZR n)); [|rewrite Rabs_pos_eq; lra]. split; [lra|]. apply Rle_trans with (bpow radix2 32); [change (bpow radix2 32) with 4294967296; lra|apply bpow_le; lia]. }
  fold (to32 f) in Vg, Fg. pose proof (op_err (v f) (IZR n / 2) ltac:(rewrite Rabs_pos_eq; lra)) as Eg. rewrite <- Vg in Eg. apply Rabs_le_inv in Eg.
  assert (G0 : 0 <= v (to32 f)) by (rewrite Vg; apply rnd_ge_fmt; [apply fmt_0|lra]).
  destruct (to64_R _ Fg) as [Vh Fh]. set (g := to64 (to32 f)) in *.
  assert (HN : h <= 0.000000000001 * IZR n) by lra.
  assert (Gf : Rabs (v g - v f) <= 0.00000003 * IZR n) by (rewrite Vh; apply Rabs_le; lra). apply Rabs_le_inv in Gf.
  assert (G1 : fmt 53 1024 (bpow radix2 40)) by (apply fmt_bpow; cbn; lia). assert (G2 : bpow radix2 40 < bpow radix2 1024) by (apply bpow_lt; lia). assert (E40 : bpow radix2 40 = 1099511627776) by reflexivity.
  assert (Bm : 0 <= p * v g <= 1.58 * IZR n). { split; [apply Rmult_le_pos; lra|]. assert (X := Rmult_le_compat p 3.15 (v g) (0.5001 * IZR n) ltac:(lra) ltac:(lra) ltac:(lra) ltac:(lra)). lra. }
  destruct (fmul_bnd pi64 g (bpow radix2 40) Fp Fh G1 G2) as (M & FM & _); [rewrite Rabs_pos_eq; fold p; lra|]. fold p in M.
  assert (R1 : Rabs (v (fmul pi64 g) - p * v g) <= / 1000000000 * IZR n). { rewrite M. eapply Rle_trans; [apply rd_err_all|]. rewrite Rabs_pos_eq by lra. assert (Q0 : bpow radix2 (-1000) <= bpow radix2 (-50)) by (apply bpow_le; lia). change (bpow radix2 (-50)) with (/ 1125899906842624) in Q0. change (bpow radix2 (-53)) with (/ 9007199254740992). lra. }
  set (m := v (fmul pi64 g)) in *. apply Rabs_le_inv in R1.
  assert (over : forall a k, Rabs a <= k * IZR n -> Rabs (a / IZR n) <= k).
  { intros a k Ha. unfold Rdiv. rewrite Rabs_mult, (Rabs_pos_eq (/ IZR n)) by (left; apply Rinv_0_lt_compat; lra). apply (Rmult_le_reg_r (IZR n)); [lra|]. rewrite Rmult_assoc, Rinv_l, Rmult_1_r by lra. exact Ha. }
  assert (Q2 : Rabs (m / IZR n - p * v f / IZR n) <= 0.0000001).
  { replace (m / IZR n - p * v f / IZR n) with ((m - p * v f) / IZR n) by (field; lra). apply over. replace (m - p * v f) with ((m - p * v g) + p * (v g - v f)) by ring. eapply Rle_trans; [apply Rabs_triang|].
    rewrite Rabs_mult, (Rabs_pos_eq p) by lra. assert (X := Rmult_le_compat p 3.15 (Rabs (v g - v f)) (0.00000003 * IZR n) ltac:(lra) (Rabs_pos _) ltac:(lra) ltac:(apply Rabs_le; lra)).
    assert (Rabs (m - p * v g) <= / 1000000000 * IZR n) by (apply Rabs_le; lra). lra. }
  apply Rabs_le_inv in Q2.
  set (r := v f / IZR n). assert (Br : 0 <= r <= 1 / 2).
  { unfold r. split; [apply Rmult_le_pos; [lra|left; apply Rinv_0_lt_compat; lra]|]. apply (Rmult_le_reg_r (IZR n)); [lra|]. unfold Rdiv. rewrite Rmult_assoc, Rinv_l by lra. lra. }
  replace (p * v f / IZR n) with (p * r) in Q2 by (unfold r; field; lra).
  assert (Bpr : 0 <= p * r <= 1.5708). { split; [apply Rmult_le_pos; lra|]. assert (X := Rmult_le_compat p 3.1415926537 r (1 / 2) ltac:(lra) ltac:(lra) ltac:(lra) ltac:(lra)). lra. }
  destruct (fdiv_bnd (fmul pi64 g) (mk64 n 0) (bpow radix2 40) FM) as (D & FD & _); [rewrite Vn; lra|exact G1|exact G2|rewrite Vn; fold m; apply Rabs_le; lra|]. rewrite Vn in D. fold m in D.
  assert (R2 : Rabs (v (fdiv (fmul pi64 g) (mk64 n 0)) - m / IZR n) <= / 1000000000). { rewrite D. eapply Rle_trans; [apply rd_err_all|]. assert (Rabs (m / IZR n) <= 2) by (apply Rabs_le; lra). assert (Q0 : bpow radix2 (-1000) <= bpow radix2 (-50)) by (apply bpow_le; lia). change (bpow radix2 (-50)) with (/ 1125899906842624) in Q0. change (bpow radix2 (-53)) with (/ 9007199254740992). lra. }
  set (q := fdiv (fmul pi64 g) (mk64 n 0)) in *. apply Rabs_le_inv in R2.
  assert (Bq : Rabs (v q) <= 2) by (apply Rabs_le; lra). assert (B101 : 4 <= bpow radix2 101) by (change 4 with (bpow radix2 2); apply bpow_le; lia).
  destruct (fconv_R (p := 53) (e := 1024) (p' := 24) (e' := 128) q FD) as (C & FC); [apply (big_lt 2); lra|]. fold (to32 q) in C, FC.
  pose proof (op_err _ _ Bq) as Eq. rewrite <- C in Eq. apply Rabs_le_inv in Eq. set (t := to32 q) in *.
  assert (PP := PI_tight). assert (Er : PI * v f / IZR n = PI * r) by (unfold r; field; lra). rewrite Er.
  assert (Dp : Rabs ((p - PI) * r) <= 0.0000001 * (1 / 2)). { rewrite Rabs_mult. apply Rmult_le_compat; try apply Rabs_pos; apply Rabs_le; lra. }
  apply Rabs_le_inv in Dp. assert (Et : Rabs (v t - PI * r) <= 0.0000004) by (apply Rabs_le; lra).
  destruct (fastsin_near t FC ltac:(apply Rabs_le; lra)) as (Fs & Es & _). pose proof (sin_lip (v t) (PI * r)) as L.
  assert (Es2 : Rabs (v (fastsin t) - sin (PI * r)) <= 0.0000517). { replace (v (fastsin t) - sin (PI * r)) with ((v (fastsin t) - sin (v t)) + (sin (v t) - sin (PI * r))) by ring. eapply Rle_trans; [apply Rabs_triang|]. lra. }
  apply Rabs_le_inv in Es2. pose proof (SIN_bound (PI * r)) as SB.
  destruct (mk32_small 1 1 ltac:(reflexivity) ltac:(lia)) as [V2 F2]. change (bpow radix2 1) with 2 in V2. rewrite Rmult_1_l in V2.
  destruct (op_mul (mk32 1 1) (fastsin t) 3 F2 Fs ltac:(lra)) as (Fo & Eo); [rewrite V2; apply Rabs_le; lra|]. rewrite V2 in Eo.
  unfold rs_coeff. fold g q t. split; [exact Fo|]. apply Rabs_le_inv in Eo. apply Rabs_le. lra.
Qed.
Lemma coeff_range (f : f64) (n : Z) : fin f -> (1 <= n < 2 ^ 32)%Z -> 0.00004 * IZR n <= v f <= 0.119 * IZR n -> 0 < v (rs_coeff f n) <= 3 / 4.
Proof.
  intros F Hn Hf. assert (N1 : 1 <= IZR n) by (apply IZR_le; lia). destruct (coeff_near f n F Hn ltac:(lra)) as (_ & E). apply Rabs_le_inv in E.
  set (r := v f / IZR n). assert (Br : 0.00004 <= r <= 0.119). { split; apply (Rmult_le_reg_r (IZR n)); try lra; unfold r, Rdiv; rewrite Rmult_assoc, Rinv_l by lra; lra. }
  replace (PI * v f / IZR n) with (PI * r) in E by (unfold r; field; lra). assert (PP := PI_tight).
  assert (A : 3.1415926 * 0.00004 <= PI * r) by (apply Rmult_le_compat; lra). assert (B : PI * r <= 3.1415927 * 0.119) by (apply Rmult_le_compat; lra).
  pose proof (sin_cub (PI * r) ltac:(lra)) as [S1 S2]. set (x := PI * r) in *.
  assert (C : x ^ 3 / 6 <= x / 6). { assert (x ^ 3 <= x); [|lra]. replace (x ^ 3) with (x * (x * x)) by ring. rewrite <- (Rmult_1_r x) at 4. apply Rmult_le_compat_l; [lra|]. apply Rle_trans with (1 * 1); [apply Rmult_le_compat; lra|lra]. }
  lra.
Qed.
