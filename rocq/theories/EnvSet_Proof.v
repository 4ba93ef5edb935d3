(** The float setters attack(float, sps) and release(float, sps) of the followers. *)
From Coq Require Import Reals Lra Psatz.
From Flocq Require Import Core.Core IEEE754.BinarySingleNaN.
From Verif Require Import Common CommonFacts Float FloatFacts FloatLerp FloatRel Env_Model Env_Spec Env_Proof Coeff_Proof Expo.
Local Open Scope R_scope.
Local Notation rn := (rnd 24 128).

Lemma env_coeff_f_exp (sps : Z) (d : f32) : (0 < sps < 2 ^ 24)%Z -> is_finite d = true -> B2R d <= bpow radix2 90 ->
  2 <= IZR sps * B2R d ->
  coefficient (env_coeff_f sps d) /\
  Rabs (B2R (env_coeff_f sps d) - exp (- (2 / (IZR sps * B2R d)))) <= (2 / (IZR sps * B2R d)) ^ 4 / 24 + bpow radix2 (-20).
Proof.
  intros Hs Fd Ud L. unfold env_coeff_f. change (2 ^ 24)%Z with 16777216%Z in Hs.
  destruct (int32 sps) as [Vs Fs]; [change (2 ^ 24)%Z with 16777216%Z; lia|].
  destruct (int32 (-2) ltac:(reflexivity)) as [V2 F2].
  assert (S0 : 0 < IZR sps <= bpow radix2 24) by (split; [apply IZR_lt; lia|apply (IZR_le _ 16777216); lia]).
  assert (D0 : 0 < B2R d). { destruct (Rlt_or_le 0 (B2R d)) as [|C]; [assumption|exfalso]. assert (IZR sps * B2R d <= IZR sps * 0) by (apply Rmult_le_compat_l; lra). lra. }
  assert (U : Rabs (IZR sps * B2R d) <= bpow radix2 114).
  { rewrite Rabs_pos_eq by lra. change 114%Z with (24 + 90)%Z. rewrite bpow_plus. apply Rmult_le_compat; lra. }
  assert (F114 : fmt 24 128 (bpow radix2 114)) by (apply fmt_bpow; unfold SpecFloat.emin; lia).
  set (n := IZR sps * B2R d) in *.
  assert (E32 := rnd_rel32_pos n). specialize (E32 ltac:(apply Rle_trans with 2; [change 2 with (bpow radix2 1); apply bpow_le; lia|exact L])).
  assert (En : n = B2R (mk32 sps 0) * B2R d) by (rewrite Vs; reflexivity).
  destruct (fmul_bnd (mk32 sps 0) d (bpow radix2 114) Fs Fd F114) as (Vp & Fp & Bp); [apply bpow_lt; lia|rewrite <- En; exact U|].
  rewrite <- En in Vp. rewrite <- Vp in E32.
  assert (P2 : 2 <= B2R (fmul (mk32 sps 0) d)).
  { rewrite Vp. apply rnd_ge_fmt; [change 2 with (bpow radix2 1); apply fmt_bpow; unfold SpecFloat.emin; lia|exact L]. }
  set (q := fmul (mk32 sps 0) d) in *. clearbody q.
  assert (Q : -1 <= -2 / B2R q <= 0).
  { assert (I0 : 0 < / B2R q) by (apply Rinv_0_lt_compat; lra).
    assert (I1 : B2R q * / B2R q = 1) by (apply Rinv_r; lra). unfold Rdiv. nra. }
  assert (Dq : Rabs (-2 / B2R q - - (2 / n)) <= / 16777216).
  { replace (-2 / B2R q - - (2 / n)) with ((B2R q - n) * (2 / (B2R q * n))) by (field; lra).
    rewrite Rabs_mult. assert (P : 0 < 2 / (B2R q * n)) by (apply Rdiv_lt_0_compat; [lra|nra]). rewrite (Rabs_pos_eq (2 / _)) by lra.
    apply Rle_trans with (/ 16777216 * n * (2 / (B2R q * n))); [apply Rmult_le_compat_r; [lra|apply Rabs_le; lra]|].
    replace (/ 16777216 * n * (2 / (B2R q * n))) with (/ 16777216 * (2 / B2R q)) by (field; lra).
    assert (2 / B2R q <= 1) by lra. lra. }
  assert (G1 : fmt 24 128 1) by (apply (fmt_int 1); reflexivity). assert (Gm : fmt 24 128 (-1)) by (apply (fmt_int (-1)); reflexivity).
  destruct (fdiv_bnd (mk32 (-2) 0) q 1 F2 ltac:(lra) G1 ltac:(apply (bpow_lt radix2 0 128); lia)) as (Vq & Fq & _).
  { rewrite V2. apply Rabs_le. lra. }
  rewrite V2 in Vq.
  assert (R1 : -1 <= B2R (fdiv (mk32 (-2) 0) q) <= 0).
  { rewrite Vq. split; [apply rnd_ge_fmt; [exact Gm|lra]|apply rnd_le_fmt; [apply fmt_0|lra]]. }
  pose proof (err32 (-2 / B2R q) 0 ltac:(lia) ltac:(change (bpow radix2 0) with 1; apply Rabs_le; lra)) as Ex. change (bpow radix2 (0 - 25)) with (/ 33554432) in Ex.
  rewrite <- Vq in Ex. set (x := fdiv (mk32 (-2) 0) q) in *. clearbody x. clear Vq.
  split; [exact (fast_exp3_coeff x Fq R1)|].
  pose proof (fast_exp3_val x Fq R1) as Ef.
  set (t := 2 / n) in *.
  assert (Ht : 0 <= t <= 1).
  { assert (I0 : 0 < / n) by (apply Rinv_0_lt_compat; lra). assert (I1 : n * / n = 1) by (apply Rinv_r; lra). unfold t, Rdiv. nra. }
  pose proof (exp3_poly_exp t ltac:(lra)) as Xe.
  assert (Dx : Rabs (B2R x - - t) <= / 11000000) by (apply Rabs_le; apply Rabs_le_inv in Ex; apply Rabs_le_inv in Dq; lra).
  set (X := B2R x) in *. clearbody X t.
  assert (K : Rabs (exp3_poly X - exp3_poly (- t)) <= / 11000000).
  { replace (exp3_poly X - exp3_poly (- t)) with ((X - - t) * (1 + (X + - t) / 2 + (X * X + X * - t + t * t) / 6)) by (unfold exp3_poly; field).
    rewrite Rabs_mult. pose proof (Rabs_pos (X - - t)).
    assert (Rabs (1 + (X + - t) / 2 + (X * X + X * - t + t * t) / 6) <= 1) by (apply Rabs_le; nra). nra. }
  change (bpow radix2 (-21)) with (/ 2097152) in Ef. change (bpow radix2 (-20)) with (/ 1048576).
  apply Rabs_le. apply Rabs_le_inv in Ef. apply Rabs_le_inv in K. lra.
Qed.
