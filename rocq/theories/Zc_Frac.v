(** The fractional period is the distance of the interpolated crossings. *)
From Coq Require Import Reals Lra.
From Flocq Require Import Core.Core IEEE754.BinarySingleNaN.
From Verif Require Import Common Float FloatFacts FloatRel FloatLerp Zc_Model Zc_Spec.
Local Open Scope R_scope.

Lemma dx_val e : proper_crossing e -> let d := B2R (zi_prev e) / (B2R (zi_prev e) - B2R (zi_curr e)) in
  is_finite (zi_dx e) = true /\ 0 <= d <= 1 /\ Rabs (B2R (zi_dx e) - d) <= 3 / 16777216.
Proof.
  intros (Fp & Fc & Sg & Bd) d. unfold zi_dx. unfold d. clear d.
  set (p := B2R (zi_prev e)) in *. set (c := B2R (zi_curr e)) in *.
  assert (F126 : fmt 24 128 (bpow radix2 126)) by (apply fmt_bpow; unfold SpecFloat.emin; lia).
  assert (L : bpow radix2 126 < bpow radix2 128) by (apply bpow_lt; lia).
  destruct (fsub_bnd (zi_curr e) (zi_prev e) (bpow radix2 126) Fc Fp F126 L) as (Vs & Fs & _).
  { fold p c. rewrite Rabs_pos_eq by lra. exact Bd. }
  fold p c in Vs. set (s := B2R (fsub (zi_curr e) (zi_prev e))) in *.
  assert (Gs : c <= s /\ - p <= s).
  { rewrite Vs. split; apply rnd_ge_fmt.
    - apply generic_format_B2R. - lra.
    - replace (- p) with (B2R (fneg (zi_prev e))) by apply fneg_R'. apply generic_format_B2R.
    - lra. }
  assert (E1 : Rabs (s - (c - p)) <= / 16777216 * (c - p)).
  { pose proof (rnd_err_all (c - p)) as Q. rewrite <- Vs in Q.
    (* a difference of floats below the normal range is exact *)
    destruct (Rle_lt_dec (bpow radix2 (-126)) (Rabs (c - p))) as [H|H].
    - pose proof (rnd_rel32 _ H) as R1. rewrite <- Vs in R1. rewrite (Rabs_pos_eq (c - p)) in R1 by lra. exact R1.
    - assert (X : s = c - p).
      { rewrite Vs. apply rnd_fmt. apply (sub_small_exact p c); [apply generic_format_B2R|apply generic_format_B2R|]. apply Rlt_le_trans with (1 := H). apply bpow_le. lia. }
      rewrite X, Rminus_diag_eq, Rabs_R0 by reflexivity. apply Rmult_le_pos; lra. }
  assert (Ps : 0 < s) by lra. fold s in Fs.
  assert (Q01 : 0 <= - p / s <= 1).
  { split; [apply Rmult_le_pos; [lra|left; apply Rinv_0_lt_compat; exact Ps]|]. apply (Rmult_le_reg_r s); [exact Ps|]. unfold Rdiv. rewrite Rmult_assoc, Rinv_l, Rmult_1_r, Rmult_1_l by lra. lra. }
  assert (F1 : fmt 24 128 1) by (change 1 with (bpow radix2 0); apply fmt_bpow; unfold SpecFloat.emin; lia).
  destruct (fdiv_bnd (fneg (zi_prev e)) (fsub (zi_curr e) (zi_prev e)) 1 (fneg_fin' _ Fp)) as (Vd & Fd & _); [fold s; lra|exact F1|change 1 with (bpow radix2 0); apply bpow_lt; lia| |].
  { rewrite fneg_R'. fold p s. apply Rabs_le. lra. }
  rewrite fneg_R' in Vd. fold p s in Vd.
  assert (Pc : 0 < c - p) by lra.
  set (d := p / (p - c)).
  assert (D : d = - p / (c - p)) by (unfold d; field; lra).
  assert (D01 : 0 <= d <= 1).
  { rewrite D. split; [apply Rmult_le_pos; [lra|left; apply Rinv_0_lt_compat; exact Pc]|]. apply (Rmult_le_reg_r (c - p)); [exact Pc|]. unfold Rdiv. rewrite Rmult_assoc, Rinv_l, Rmult_1_r, Rmult_1_l by lra. lra. }
  split; [exact Fd|]. split; [exact D01|].
  pose proof (rnd_err_all (- p / s)) as E2. rewrite <- Vd in E2. rewrite (Rabs_pos_eq (- p / s)) in E2 by lra.
  assert (T : bpow radix2 (-150) <= / 16777216 * / 4) by (replace (/ 16777216 * / 4) with (bpow radix2 (-26)) by (change (bpow radix2 (-26)) with (/ 67108864); lra); apply bpow_le; lia).
  (* -p/s - d = d * (c - p - s) / s *)
  assert (K : Rabs (- p / s - d) <= / 16777216 * (1 + / 1000)).
  { replace (- p / s - d) with (d * ((c - p - s) * / s)) by (rewrite D; field; lra).
    rewrite !Rabs_mult, (Rabs_pos_eq d) by lra. rewrite <- (Rmult_1_l (/ 16777216 * _)).
    apply Rmult_le_compat; [lra|rewrite <- Rabs_mult; apply Rabs_pos|lra|].
    rewrite (Rabs_pos_eq (/ s)) by (left; apply Rinv_0_lt_compat; exact Ps). rewrite Rabs_minus_sym.
    apply (Rmult_le_reg_r s); [exact Ps|]. rewrite Rmult_assoc, Rinv_l, Rmult_1_r by lra.
    apply Rabs_le_inv in E1. apply Rle_trans with (/ 16777216 * (c - p)); [apply Rabs_le; lra|]. lra. }
  apply Rabs_le_inv in E2, K. apply Rabs_le. lra.
Qed.

Lemma frac_period_val e f p : proper_crossing e -> proper_crossing f ->
  (0 <= zi_lead f - zi_lead e < 2 ^ 24)%Z -> zi_frac_period e f = Some p ->
  is_finite p = true /\ Rabs (B2R p - (crossing f - crossing e)) <= (IZR (zi_lead f - zi_lead e) + 10) / 16777216.
Proof.
  intros He Hf Hd S. unfold zi_frac_period in S. replace (zi_lead e <=? zi_lead f)%Z with true in S by (symmetry; apply Z.leb_le; lia).
  injection S as <-. destruct (dx_val e He) as (Fe & De & Ee). destruct (dx_val f Hf) as (Ff & Df & Ef).
  destruct (mk32_small (zi_lead f - zi_lead e) 0) as [Vm Fm]; [lia|lia|]. change (bpow radix2 0) with 1 in Vm. rewrite Rmult_1_r in Vm.
  unfold crossing. set (de := B2R (zi_prev e) / _) in *. set (df := B2R (zi_prev f) / _) in *. rewrite minus_IZR in *.
  set (xe := zi_dx e) in *. set (xf := zi_dx f) in *. clearbody de df xe xf. apply Rabs_le_inv in Ee, Ef.
  assert (Hz : 0 <= IZR (zi_lead f) - IZR (zi_lead e) <= 16777216).
  { rewrite <- minus_IZR. split; [apply (IZR_le 0); lia|apply (IZR_le _ 16777216); lia]. }
  assert (F2 : fmt 24 128 2) by (change 2 with (bpow radix2 1); apply fmt_bpow; unfold SpecFloat.emin; lia).
  destruct (fsub_bnd xf xe 2 Ff Fe F2) as (Vs & Fs & Bs); [change 2 with (bpow radix2 1); apply bpow_lt; lia|apply Rabs_le; lra|].
  assert (F25 : fmt 24 128 (bpow radix2 25)) by (apply fmt_bpow; unfold SpecFloat.emin; lia).
  apply Rabs_le_inv in Bs.
  set (m := mk32 _ 0) in *. set (z := IZR (zi_lead f) - IZR (zi_lead e)) in *.
  destruct (fadd_bnd m (fsub xf xe) (bpow radix2 25) Fm Fs F25) as (Va & Fa & _); [apply bpow_lt; lia|rewrite Vm; change (bpow radix2 25) with 33554432; apply Rabs_le; lra|].
  split; [exact Fa|]. rewrite Vm in Va.
  pose proof (rnd_err_all (B2R xf - B2R xe)) as E1. rewrite <- Vs in E1.
  pose proof (rnd_err_all (z + B2R (fsub xf xe))) as E2. rewrite <- Va in E2.
  assert (A1 : Rabs (B2R xf - B2R xe) <= 1.5) by (apply Rabs_le; lra).
  assert (A2 : Rabs (z + B2R (fsub xf xe)) <= z + 2) by (apply Rabs_le; lra).
  assert (T : bpow radix2 (-150) <= / 16777216 * / 4) by (replace (/ 16777216 * / 4) with (bpow radix2 (-26)) by (change (bpow radix2 (-26)) with (/ 67108864); lra); apply bpow_le; lia).
  replace (IZR (zi_lead f) - 1 + df - (IZR (zi_lead e) - 1 + de)) with (z + (df - de)) by (unfold z; ring).
  set (r := B2R (fadd _ _)) in *. set (w := B2R (fsub xf xe)) in *. clearbody z r w.
  assert (E1' : Rabs (w - (B2R xf - B2R xe)) <= 1.75 / 16777216) by lra.
  assert (E2' : Rabs (r - (z + w)) <= (z + 2.25) / 16777216) by lra.
  apply Rabs_le_inv in E1', E2'. apply Rabs_le. lra.
Qed.
