(** The step b + c*(t - b) of the one-pole filters and envelope followers, in binary32:
    for a coefficient 0 <= c < 1 the rounded result lies between b and t. *)
From Coq Require Import ZArith Reals Bool Lia Lra Psatz.
From Flocq Require Import Core.Core IEEE754.BinarySingleNaN.
From Flocq Require Import Relative.
From Verif Require Import Float FloatFacts Env_Spec.
Local Open Scope R_scope.

Local Notation rn := (rnd 24 128).
Local Notation ft := (fmt 24 128).
Local Notation ex := (fx (prec:=24) (emax:=128)).

Lemma ex_FLT e : ex e = FLT_exp (-149) 24 e.
Proof. reflexivity. Qed.
Global Instance ex_nnan : Exp_not_FTZ (fx (prec:=24) (emax:=128)).
Proof. change (Exp_not_FTZ (FLT_exp (-149) 24)). apply FLT_exp_monotone_not_FTZ || (unfold Exp_not_FTZ, FLT_exp; intros; lia). Qed.

(** rounding c*d of a coefficient below 1 goes at least one step below d *)
Lemma mul_pred c d : ft c -> ft d -> 0 <= c < 1 -> bpow radix2 (-125) <= d -> rn (c * d) <= pred radix2 ex d.
Proof.
  intros Fc Fd Hc Hd. assert (P : 0 < d) by (apply Rlt_le_trans with (2 := Hd); apply bpow_gt_0).
  assert (Hc' : c <= 1 - bpow radix2 (-24)).
  { assert (F1 : ft 1) by (change 1 with (bpow radix2 0); apply fmt_bpow; unfold SpecFloat.emin; lia).
    pose proof (pred_ge_gt radix2 ex c 1 Fc F1 (proj2 Hc)) as Q.
    replace (pred radix2 ex 1) with (1 - bpow radix2 (-24)) in Q; [exact Q|].
    change 1 with (bpow radix2 0) at 2. rewrite pred_bpow. reflexivity. }
  assert (Pp : 0 < pred radix2 ex d).
  { apply Rlt_le_trans with (bpow radix2 (-126)); [apply bpow_gt_0|].
    apply (pred_ge_gt radix2 ex); [apply fmt_bpow; unfold SpecFloat.emin; lia|exact Fd|].
    apply Rlt_le_trans with (2 := Hd). apply bpow_lt. lia. }
  assert (Fp : ft (pred radix2 ex d)) by (apply generic_format_pred; [apply fx_valid|exact Fd]).
  unfold rnd. apply (round_N_le_midp radix2 ex (fun t => negb (Z.even t))); [exact Fp|].
  rewrite (succ_pred radix2 ex d Fd).
  pose proof (pred_plus_ulp radix2 ex d P Fd) as Q.
  assert (L126 : bpow radix2 (-126) <= pred radix2 ex d).
  { apply (pred_ge_gt radix2 ex); [apply fmt_bpow; unfold SpecFloat.emin; lia|exact Fd|].
    apply Rlt_le_trans with (2 := Hd). apply bpow_lt. lia. }
  assert (U : ulp radix2 ex (pred radix2 ex d) <= pred radix2 ex d * bpow radix2 (1 - 24)).
  { pose proof (ulp_FLT_le radix2 (-149) 24 (pred radix2 ex d)) as U. rewrite Rabs_pos_eq in U by lra.
    apply U. exact L126. }
  change (bpow radix2 (1 - 24)) with (/ 8388608) in U. change (bpow radix2 (-24)) with (/ 16777216) in Hc'.
  nra.
Qed.

(** a float difference that rounds away from zero is not tiny *)
Lemma sub_small_exact b t : ft b -> ft t -> Rabs (t - b) < bpow radix2 (-125) -> ft (t - b).
Proof.
  intros Fb Ft H. unfold fmt. change ex with (FLT_exp (-149) 24).
  apply generic_format_FLT. 
  assert (M : forall x, ft x -> exists m, x = IZR m * bpow radix2 (-149)).
  { intros x Fx. unfold fmt in Fx. apply FLT_format_generic in Fx; [|exact prec32_gt_0].
    destruct Fx as [f Hf1 Hf2 Hf3]. destruct f as [m e]. cbn [Fnum Fexp] in *. exists (m * 2 ^ (e + 149))%Z.
    rewrite mult_IZR, Hf1. unfold F2R. cbn [Fnum Fexp]. rewrite Rmult_assoc. f_equal.
    change (2 ^ (e + 149))%Z with (Zpower radix2 (e + 149)). rewrite (IZR_Zpower radix2) by (change (-149 <= e)%Z in Hf3; lia). rewrite <- bpow_plus. f_equal. lia. }
  destruct (M b Fb) as [mb ->]. destruct (M t Ft) as [mt ->].
  rewrite <- Rmult_minus_distr_r, <- minus_IZR in *. exists (Float radix2 (mt - mb) (-149)).
  - reflexivity.
  - cbn [Fnum]. rewrite Rabs_mult, (Rabs_pos_eq (bpow _ _)) in H by apply bpow_ge_0. rewrite <- abs_IZR in H.
    apply lt_IZR. apply Rmult_lt_reg_r with (bpow radix2 (-149)); [apply bpow_gt_0|].
    apply Rlt_le_trans with (1 := H). change (IZR (Z.pow radix2 24)) with (bpow radix2 24). rewrite <- bpow_plus. apply Rle_refl.
  - cbn. lia.
Qed.

(** the step on reals with rounding, base below target *)
Lemma lerp_up b t c : ft b -> ft t -> ft c -> 0 <= c < 1 -> b <= t ->
  b <= rn (b + rn (c * rn (t - b))) <= t.
Proof.
  intros Fb Ft Fc Hc L. set (d := rn (t - b)). set (p := rn (c * d)).
  assert (Fd : ft d) by (apply generic_format_round; [apply fx_valid|apply valid_rnd_N]).
  assert (D0 : 0 <= d) by (apply rnd_ge_fmt; [apply fmt_0|lra]).
  assert (P0 : 0 <= p) by (apply rnd_ge_fmt; [apply fmt_0|apply Rmult_le_pos; lra]).
  assert (Pd : p <= d) by (apply rnd_le_fmt; [exact Fd|nra]).
  assert (U : p <= t - b).
  { destruct (Rle_lt_dec d (t - b)) as [Q|Q]; [lra|].
    destruct (Rlt_le_dec (t - b) (bpow radix2 (-125))) as [S|S].
    - exfalso. assert (E : ft (t - b)) by (apply sub_small_exact; auto; rewrite Rabs_pos_eq; lra).
      unfold d in Q. rewrite rnd_fmt in Q by exact E. lra.
    - apply Rle_trans with (pred radix2 ex d).
      + apply mul_pred; auto. lra.
      + apply Rnot_lt_le. intros X.
        assert (Fp : ft (pred radix2 ex d)) by (apply generic_format_pred; [apply fx_valid|exact Fd]).
        assert (Y : d <= pred radix2 ex d) by (apply rnd_le_fmt; [exact Fp|lra]).
        pose proof (pred_lt_id radix2 ex d ltac:(pose proof (bpow_gt_0 radix2 (-125)); lra)). lra. }
  split; [apply rnd_ge_fmt; [exact Fb|lra]|apply rnd_le_fmt; [exact Ft|lra]].
Qed.
Lemma lerp_between b t c : ft b -> ft t -> ft c -> 0 <= c < 1 ->
  Rmin b t <= rn (b + rn (c * rn (t - b))) <= Rmax b t.
Proof.
  intros Fb Ft Fc Hc. destruct (Rle_lt_dec b t) as [L|L].
  - rewrite Rmin_left, Rmax_right by lra. apply lerp_up; auto.
  - rewrite Rmin_right, Rmax_left by lra.
    pose proof (lerp_up (- b) (- t) c (fmt_opp _ Fb) (fmt_opp _ Ft) Fc Hc ltac:(lra)) as Q.
    replace (- t - - b) with (- (t - b)) in Q by ring. rewrite rnd_opp in Q.
    replace (c * - rn (t - b)) with (- (c * rn (t - b))) in Q by ring. rewrite rnd_opp in Q.
    rewrite <- Ropp_plus_distr, rnd_opp in Q. lra.
Qed.

(** the same in terms of the float operations *)
Lemma lerp_f32 (b t c : f32) : bounded b -> bounded t -> coefficient c ->
  let r := fadd b (fmul c (fsub t b)) in
  bounded r /\ Rmin (B2R b) (B2R t) <= B2R r <= Rmax (B2R b) (B2R t).
Proof.
  intros [Fb Bb] [Ft Bt] [Fc Hc]. cbn zeta.
  assert (Ep : bpow radix2 127 = 2 * bpow radix2 126) by (change 127%Z with (1 + 126)%Z; rewrite bpow_plus; reflexivity).
  assert (L : bpow radix2 127 < bpow radix2 128) by (apply bpow_lt; lia).
  assert (L6 : bpow radix2 126 < bpow radix2 128) by (apply bpow_lt; lia).
  assert (F7 : ft (bpow radix2 127)) by (apply fmt_bpow; unfold SpecFloat.emin; lia).
  destruct (fsub_bnd t b (bpow radix2 127) Ft Fb F7 L) as (Vd & Fd & Bd).
  { rewrite Ep. unfold Rminus. eapply Rle_trans; [apply Rabs_triang|]. rewrite Rabs_Ropp. lra. }
  destruct (fmul_bnd c (fsub t b) (bpow radix2 127) Fc Fd F7 L) as (Vp & Fp & Bp).
  { rewrite Rabs_mult, (Rabs_pos_eq (B2R c)) by lra. pose proof (Rabs_pos (B2R (fsub t b))). nra. }
  pose proof (lerp_between (B2R b) (B2R t) (B2R c) (fmt_v b) (fmt_v t) (fmt_v c) Hc) as Q.
  rewrite <- Vd, <- Vp in Q.
  assert (Bq : Rabs (rn (B2R b + B2R (fmul c (fsub t b)))) <= bpow radix2 126).
  { apply Rabs_le. apply Rabs_le_inv in Bb. apply Rabs_le_inv in Bt.
    pose proof (Rmin_l (B2R b) (B2R t)). pose proof (Rmax_l (B2R b) (B2R t)).
    assert (- bpow radix2 126 <= Rmin (B2R b) (B2R t)) by (apply Rmin_glb; lra).
    assert (Rmax (B2R b) (B2R t) <= bpow radix2 126) by (apply Rmax_lub; lra). lra. }
  destruct (fadd_R b (fmul c (fsub t b)) Fb Fp) as [V F]; [lra|].
  rewrite V. split; [split; [exact F|rewrite V; exact Bq]|exact Q].
Qed.

(** ... and how far it is from the real-number step *)
Lemma rnd_err_all x : Rabs (rn x - x) <= / 16777216 * Rabs x + bpow radix2 (-150).
Proof.
  pose proof (bpow_ge_0 radix2 (-150)). pose proof (Rabs_pos x).
  destruct (Rle_lt_dec (bpow radix2 (-126)) (Rabs x)) as [L|L].
  - pose proof (relative_error_N_FLT radix2 (-149) 24 eq_refl (fun t => negb (Z.even t)) x L) as E.
    change (bpow radix2 (- (24) + 1)) with (/ 8388608) in E. change (round radix2 (FLT_exp (-149) 24) (Znearest (fun t => negb (Z.even t))) x) with (rn x) in E. lra.
  - pose proof (rnd_err (prec:=24) (emax:=128) x (-125)) as E. change (-125 - 24 - 1)%Z with (-150)%Z in E.
    assert (Rabs (rn x - x) <= bpow radix2 (-150)); [|lra]. apply E; [unfold SpecFloat.emin; lia|].
    apply Rlt_le. apply Rlt_trans with (1 := L). apply bpow_lt. lia.
Qed.
Lemma lerp_err (b t c : f32) M : bounded b -> bounded t -> coefficient c -> Rabs (B2R b) <= M -> Rabs (B2R t) <= M ->
  Rabs (B2R (fadd b (fmul c (fsub t b))) - (B2R b + B2R c * (B2R t - B2R b))) <= bpow radix2 (-21) * M + bpow radix2 (-147).
Proof.
  intros [Fb Bb] [Ft Bt] [Fc Hc] Mb Mt.
  pose proof (lerp_f32 b t c (conj Fb Bb) (conj Ft Bt) (conj Fc Hc)) as [_ _].
  assert (Ep : bpow radix2 127 = 2 * bpow radix2 126) by (change 127%Z with (1 + 126)%Z; rewrite bpow_plus; reflexivity).
  assert (L : bpow radix2 127 < bpow radix2 128) by (apply bpow_lt; lia).
  assert (F7 : ft (bpow radix2 127)) by (apply fmt_bpow; unfold SpecFloat.emin; lia).
  destruct (fsub_bnd t b (bpow radix2 127) Ft Fb F7 L) as (Vd & Fd & Bd).
  { rewrite Ep. unfold Rminus. eapply Rle_trans; [apply Rabs_triang|]. rewrite Rabs_Ropp. lra. }
  destruct (fmul_bnd c (fsub t b) (bpow radix2 127) Fc Fd F7 L) as (Vp & Fp & Bp).
  { rewrite Rabs_mult, (Rabs_pos_eq (B2R c)) by lra. pose proof (Rabs_pos (B2R (fsub t b))). nra. }
  assert (L6 : bpow radix2 126 < bpow radix2 128) by (apply bpow_lt; lia).
  pose proof (lerp_between (B2R b) (B2R t) (B2R c) (fmt_v b) (fmt_v t) (fmt_v c) Hc) as Q.
  rewrite <- Vd, <- Vp in Q.
  assert (Bq : Rabs (rn (B2R b + B2R (fmul c (fsub t b)))) <= bpow radix2 126).
  { apply Rabs_le. apply Rabs_le_inv in Bb. apply Rabs_le_inv in Bt.
    assert (- bpow radix2 126 <= Rmin (B2R b) (B2R t)) by (apply Rmin_glb; lra).
    assert (Rmax (B2R b) (B2R t) <= bpow radix2 126) by (apply Rmax_lub; lra). lra. }
  destruct (fadd_R b (fmul c (fsub t b)) Fb Fp) as [V _]; [lra|]. rewrite V.
  set (p := B2R (fmul c (fsub t b))) in *. set (d := B2R (fsub t b)) in *. set (vb := B2R b) in *. set (vt := B2R t) in *. set (vc := B2R c) in *.
  pose proof (rnd_err_all (vt - vb)) as E1. rewrite <- Vd in E1.
  pose proof (rnd_err_all (vc * d)) as E2. rewrite <- Vp in E2.
  pose proof (rnd_err_all (vb + p)) as E3.
  set (e := bpow radix2 (-150)) in *.
  assert (Ee : bpow radix2 (-147) = 8 * e) by (unfold e; change (-147)%Z with (3 + -150)%Z; rewrite bpow_plus; reflexivity).
  assert (Ee0 : 0 < e) by (apply bpow_gt_0). clearbody e. rewrite Ee. change (bpow radix2 (-21)) with (/ 2097152).
  assert (A1 : Rabs (vt - vb) <= 2 * M) by (unfold Rminus; eapply Rle_trans; [apply Rabs_triang|]; rewrite Rabs_Ropp; lra).
  assert (M0 : 0 <= M) by (pose proof (Rabs_pos vb); lra).
  assert (A2 : Rabs d <= 2 * M + / 16777216 * (2 * M) + e).
  { replace d with ((vt - vb) + (d - (vt - vb))) by ring. eapply Rle_trans; [apply Rabs_triang|]. lra. }
  assert (A3 : Rabs (vc * d) <= Rabs d).
  { rewrite Rabs_mult, (Rabs_pos_eq vc) by lra. pose proof (Rabs_pos d). nra. }
  assert (A4 : Rabs p <= Rabs d + / 16777216 * Rabs d + e).
  { replace p with (vc * d + (p - vc * d)) by ring. eapply Rle_trans; [apply Rabs_triang|]. lra. }
  assert (A5 : Rabs (vb + p) <= M + Rabs p) by (eapply Rle_trans; [apply Rabs_triang|]; lra).
  assert (A6 : Rabs (vc * (d - (vt - vb))) <= Rabs (d - (vt - vb))).
  { rewrite Rabs_mult, (Rabs_pos_eq vc) by lra. pose proof (Rabs_pos (d - (vt - vb))). nra. }
  replace (rn (vb + p) - (vb + vc * (vt - vb))) with ((rn (vb + p) - (vb + p)) + ((p - vc * d) + vc * (d - (vt - vb)))) by ring.
  eapply Rle_trans; [apply Rabs_triang|].
  eapply Rle_trans; [apply Rplus_le_compat_l, Rabs_triang|]. lra.
Qed.
