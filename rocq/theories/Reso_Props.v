(** C50: the resonant low-pass filter. *)
From Coq Require Import Reals Lra Lia List.
From Flocq Require Import Core.Core IEEE754.BinarySingleNaN.
From Verif Require Import Common Float FloatFacts Env_Proof Fast_Model Fast_Sin Bq_Model Bq_Spec Bq_Lin Bq_Proof Bq_Float Bq_Allpass Reso_Model Reso_Proof Reso_Float Reso_Coef.
Import ListNotations.
Local Open Scope R_scope.

(** "Two first order low-pass filters in series, with some of the difference fed back": over the reals the output
    satisfies y[n] = f^2 x[n] + T y[n-1] - D y[n-2]. *)
Theorem C50_difference_equation :
  forall f r x, f <> 1 ->
  difference_equation (f * f) 0 0 (- (2 * (1 - f) + f * r * (2 - f))) ((1 - f) * (1 - f) + f * r * (2 - f)) x (rs_out opsR (rs_make opsR f r) x).
Proof. intros f r x H. exact (reso_eq f r x H). Qed.
Print Assumptions C50_difference_equation.

(** Stable for every resonance below 1 and every cutoff: unit gain at DC, the gain f^2 / ((2-f)^2 + 2 f r (2-f)) at
    Nyquist, and for f < 1 outputs of at most 4 B / (1 - r)^2 for inputs of at most B. *)
Theorem C50_stable :
  forall f r, 0 < f < 2 -> f <> 1 -> 0 <= r < 1 ->
  let sys := rs_out opsR (rs_make opsR f r) in
  poles_inside (- (2 * (1 - f) + f * r * (2 - f))) ((1 - f) * (1 - f) + f * r * (2 - f)) /\
  response sys 0 1 0 /\ response sys PI (f * f / ((2 - f) * (2 - f) + 2 * f * r * (2 - f))) 0 /\
  (f < 1 -> forall x B, (forall t, Rabs (x t) <= B) -> forall n, Rabs (sys x n) <= 4 * B / ((1 - r) * (1 - r))).
Proof.
  intros f r Hf F1 Hr sys. pose proof (reso_tri f r Hf Hr) as T.
  assert (X : forall x n, sys x n = bq_out opsR (bq_make opsR (rc f r)) x n) by (intros x n; apply reso_bq; exact F1).
  assert (F2 : 0 < f * f) by (apply Rmult_lt_0_compat; lra). assert (G2 : 0 < (2 - f) * (2 - f)) by (apply Rmult_lt_0_compat; lra).
  assert (P0 : 0 <= f * r * (2 - f)) by (apply Rmult_le_pos; [apply Rmult_le_pos; lra|lra]).
  split; [|split; [|split]].
  - fold (rT f r) (rD f r). destruct (triangle_radius _ _ T) as (q & Hq & R1). intros u v E1 E2.
    assert (N := radius_roots _ _ _ Hq u v E1 E2). assert (S := nrm_sq (u, v)). cbn [fst snd] in S. rewrite <- S.
    assert (P := nrm_nonneg (u, v)). apply Rle_lt_trans with (q * q); [apply sq_le; assumption|]. replace 1 with (1 * 1) by ring. destruct Hq as (R0 & _). apply Rmult_le_0_lt_compat; lra.
  - apply (resp_ext _ _ _ _ _ X). apply respond; [exact T| |]; cbn [bq_make bq_c rc k0 k1 k2 k3 k4]; rewrite ?cos_0, ?sin_0; unfold rT, rD; ring.
  - apply (resp_ext _ _ _ _ _ X). apply respond; [exact T| |]; cbn [bq_make bq_c rc k0 k1 k2 k3 k4]; rewrite ?cos_PI, ?sin_PI, ?cos_0, ?sin_0; unfold rT, rD; [|ring]. assert (Z : 0 < (2 - f) * (2 - f) + 2 * f * r * (2 - f)) by lra. field. lra.
  - intros L x B Hx n. rewrite X. assert (B0 : 0 <= B) by (pose proof (Hx 0%nat); pose proof (Rabs_pos (x 0%nat)); lra).
    pose proof (reso_radius f r ltac:(lra) Hr) as R. assert (Q0 : 0 < f * (1 - r)) by (apply Rmult_lt_0_compat; lra).
    assert (SB := second_bound (1 - f * (1 - r) / 2) (- rT f r) (rD f r) (pad (bq_out opsR (bq_make opsR (rc f r)) x)) R ltac:(lra) (f * f * B) (S n)).
    cbn [pad] in SB. rewrite Rabs_R0, Rmult_0_r, !Rplus_0_l in SB.
    replace (4 * B / ((1 - r) * (1 - r))) with (f * f * B / (1 - (1 - f * (1 - r) / 2)) / (1 - (1 - f * (1 - r) / 2))) by (field; lra).
    apply SB with (t := S (S n)); [apply Rmult_le_pos; lra| |lia]. intros t Ht. exists (f * f * x t). split.
    + cbn [pad]. rewrite (diff_eq (rc f r)). cbn [rc k0 k1 k2 k3 k4]. rewrite !Rmult_0_l, !Rplus_0_r. f_equal; [f_equal|]; f_equal; unfold ago, pad; destruct t as [|[|t]]; cbn [Nat.leb Nat.sub]; rewrite ?Nat.sub_0_r; reflexivity.
    + rewrite Rabs_mult, (Rabs_pos_eq (f * f)) by lra. apply Rmult_le_compat_l; [lra|apply Hx].
Qed.
Print Assumptions C50_stable.

(** With resonance 1 the filter never comes to rest after an impulse; with more it diverges. *)
Theorem C50_resonance_one_or_more :
  forall f r, 0 < f < 1 -> 1 <= r ->
  let y := rs_out opsR (rs_make opsR f r) impulse in
  (exists d, 0 < d /\ forall n, exists t, (n <= t)%nat /\ d <= Rabs (y t)) /\ (1 < r -> forall M, exists t, M < Rabs (y t)).
Proof.
  intros f r Hf Hr y. pose proof (fun n => ring_down f r n ltac:(lra)) as E. cbn zeta in E. fold y in E.
  set (T := rT f r) in *. set (D := rD f r) in *. assert (P : f * (2 - f) <= f * r * (2 - f)). { replace (f * r * (2 - f)) with (f * (2 - f) * r) by ring. rewrite <- (Rmult_1_r (f * (2 - f))) at 1. apply Rmult_le_compat_l; [apply Rmult_le_pos; lra|lra]. }
  assert (D1 : 1 <= D). { unfold D, rD. assert (f * (2 - f) = 1 - (1 - f) * (1 - f)) by ring. lra. }
  assert (T0 : 0 <= T). { unfold T, rT. assert (0 <= f * (2 - f)) by (apply Rmult_le_pos; lra). lra. }
  set (K := 1 + T + D). assert (K1 : 1 <= K) by (unfold K; lra). set (c := f * f * (f * f)) in *. assert (C0 : 0 < c) by (unfold c; assert (0 < f * f) by (apply Rmult_lt_0_compat; lra); apply Rmult_lt_0_compat; assumption).
  (* one of two consecutive samples is at least sqrt (c D^n / K) *)
  assert (G : forall n e, 0 <= e -> e * e * K <= c * D ^ n -> e <= Rabs (y n) \/ e <= Rabs (ago y n 1)).
  { intros n e He H. destruct (Rle_lt_dec e (Rabs (y n))) as [A|A]; [left; exact A|]. destruct (Rle_lt_dec e (Rabs (ago y n 1))) as [B|B]; [right; exact B|]. exfalso.
    specialize (E n). set (a := y n) in *. set (b := ago y n 1) in *. pose proof (Rabs_pos a). pose proof (Rabs_pos b).
    assert (A2 : a * a < e * e). { rewrite <- (Rabs_pos_eq (a * a)) by apply Rle_0_sqr. rewrite Rabs_mult. apply Rmult_le_0_lt_compat; assumption. }
    assert (B2 : b * b <= e * e). { rewrite <- (Rabs_pos_eq (b * b)) by apply Rle_0_sqr. rewrite Rabs_mult. apply Rmult_le_compat; lra. }
    assert (AB : - (a * b) <= e * e). { apply Rle_trans with (Rabs (a * b)); [rewrite <- Rabs_Ropp; apply Rle_abs|]. rewrite Rabs_mult. apply Rmult_le_compat; lra. }
    assert (TAB : T * - (a * b) <= T * (e * e)) by (apply Rmult_le_compat_l; assumption). assert (DB : D * (b * b) <= D * (e * e)) by (apply Rmult_le_compat_l; lra).
    unfold K in H. lra. }
  assert (Dn : forall n, 1 <= D ^ n) by (intros n; apply pow_R1_Rle; exact D1).
  split.
  - set (d := Rmin 1 (c / K)). assert (CK : 0 < c / K) by (apply Rdiv_lt_0_compat; lra). assert (Hd : 0 < d) by (apply Rmin_glb_lt; lra). exists d. split; [exact Hd|].
    assert (DD : d * d * K <= c).
    { assert (d * d <= 1 * (c / K)) by (apply Rmult_le_compat; [lra|lra|apply Rmin_l|apply Rmin_r]). apply Rle_trans with (1 * (c / K) * K); [apply Rmult_le_compat_r; lra|]. right. field. lra. }
    intros n. destruct (G (S n) d ltac:(lra)) as [A|A].
    { apply Rle_trans with (c * 1); [lra|]. apply Rmult_le_compat_l; [lra|apply Dn]. }
    + exists (S n). split; [lia|exact A].
    + exists n. split; [lia|]. unfold ago in A. cbn [Nat.leb Nat.sub] in A. rewrite Nat.sub_0_r in A. exact A.
  - intros R1 M. assert (D2 : 1 < D). { unfold D, rD. assert (f * (2 - f) * 1 < f * (2 - f) * r) by (apply Rmult_lt_compat_l; [apply Rmult_lt_0_compat; lra|lra]). assert (f * (2 - f) = 1 - (1 - f) * (1 - f)) by ring. replace (f * r * (2 - f)) with (f * (2 - f) * r) by ring. lra. }
    set (m := Rmax 0 M + 1). assert (M0 : 0 <= m) by (unfold m; pose proof (Rmax_l 0 M); lra). assert (M1 : M < m) by (unfold m; pose proof (Rmax_r 0 M); lra).
    destruct (Pow_x_infinity D ltac:(rewrite Rabs_pos_eq; lra) (m * m * K / c)) as (N & HN).
    specialize (HN (S N) ltac:(lia)). rewrite Rabs_pos_eq in HN by (pose proof (Dn (S N)); lra).
    destruct (G (S N) m M0) as [A|A].
    { apply Rle_trans with (c * (m * m * K / c)); [right; field; lra|apply Rmult_le_compat_l; lra]. }
    + exists (S N). lra.
    + exists N. unfold ago in A. cbn [Nat.leb Nat.sub] in A. rewrite Nat.sub_0_r in A. lra.
Qed.
Print Assumptions C50_resonance_one_or_more.

(** Without resonance the output stays in any range that contains 0 and the inputs. *)
Theorem C50_no_resonance_no_overshoot :
  forall f x lo hi, 0 < f < 1 -> lo <= 0 <= hi -> (forall t, lo <= x t <= hi) ->
  forall n, lo <= rs_out opsR (rs_make opsR f 0) x n <= hi.
Proof.
  intros f x lo hi Hf H0 Hx n. unfold rs_out.
  assert (mix : forall a b, lo <= a <= hi -> lo <= b <= hi -> lo <= (1 - f) * a + f * b <= hi).
  { intros a b Ha Hb. assert ((1 - f) * lo <= (1 - f) * a <= (1 - f) * hi) by (split; apply Rmult_le_compat_l; lra). assert (f * lo <= f * b <= f * hi) by (split; apply Rmult_le_compat_l; lra). lra. }
  assert (I : forall k, lo <= rs_y0 (rs_feed opsR (rs_make opsR f 0) x k) <= hi /\ lo <= rs_y1 (rs_feed opsR (rs_make opsR f 0) x k) <= hi).
  { induction k as [|k [I0 I1]]; [cbn; lra|]. cbn [rs_feed rs_step rs_y0 rs_y1]. destruct (feed_par opsR (rs_make opsR f 0) x k) as (-> & -> & _).
    cbn [rs_make rs_f rs_fb rs_feedback add opsR quo sub one mul]. set (a := rs_y0 _) in *. set (b := rs_y1 _) in *.
    assert (E : a + f * (x k - a + (0 + 0 / (1 - f)) * (a - b)) = (1 - f) * a + f * x k) by (field; lra). rewrite E.
    pose proof (mix a (x k) I0 (Hx k)) as A. set (c := (1 - f) * a + f * x k) in *. split; [exact A|].
    replace (b + f * (c - b)) with ((1 - f) * b + f * c) by ring. apply mix; assumption. }
  apply I.
Qed.
Print Assumptions C50_no_resonance_no_overshoot.

(** The setters: after any history of samples and settings the coefficients are those of a filter made with the
    last cutoff and the last resonance, and a setter never changes what the filter returns. *)
Definition last_cutoff {T} (f0 : T) (cs : list (@rs_op T)) : T := fold_left (fun f c => match c with RCutoff f' => f' | _ => f end) cs f0.
Definition last_resonance {T} (r0 : T) (cs : list (@rs_op T)) : T := fold_left (fun r c => match c with RResonance r' => r' | _ => r end) cs r0.
Theorem C50_setters :
  forall (f r : f32) (cs : list rs_op),
  let m := rs_run ops32 (rs_make ops32 f r) cs in let m' := rs_make ops32 (last_cutoff f cs) (last_resonance r cs) in
  rs_f m = rs_f m' /\ rs_reso m = rs_reso m' /\ rs_fb m = rs_fb m' /\
  (forall c, match c with RSample _ => True | _ => rs_y1 (rs_do ops32 m c) = rs_y1 m /\ rs_y0 (rs_do ops32 m c) = rs_y0 m end).
Proof.
  intros f r cs. cbn zeta. unfold rs_run.
  assert (G : forall cs (m : reso f32), rs_fb m = rs_feedback ops32 (rs_f m) (rs_reso m) ->
    let m' := fold_left (rs_do ops32) cs m in rs_f m' = last_cutoff (rs_f m) cs /\ rs_reso m' = last_resonance (rs_reso m) cs /\ rs_fb m' = rs_feedback ops32 (rs_f m') (rs_reso m')).
  { clear. induction cs as [|c cs IH]; intros m E; cbn [fold_left]; [cbn zeta; auto|].
    destruct (IH (rs_do ops32 m c)) as (A & B & C). { destruct c; cbn [rs_do rs_step rs_cutoff rs_resonance rs_fb rs_f rs_reso]; [exact E|reflexivity|reflexivity]. }
    cbn zeta. rewrite A, B. repeat split; [destruct c; reflexivity|destruct c; reflexivity|]. rewrite <- A, <- B. exact C. }
  destruct (G cs (rs_make ops32 f r) eq_refl) as (A & B & C). cbn [rs_make rs_f rs_reso rs_fb] in *. rewrite A, B in C.
  split; [exact A|]. split; [exact B|]. split; [exact C|]. intros [s|f'|r']; [exact I| |]; split; reflexivity.
Qed.
Print Assumptions C50_setters.

(** "_f can't be == 1.0": then the very first output is not a number, whatever the resonance and the sample. *)
Theorem C50_cutoff_one : forall r s : f32, rs_y1 (rs_step ops32 (rs_make ops32 (mk32 1 0) r) s) = B754_nan.
Proof.
  intros r s. cbn [rs_step rs_make rs_y1 rs_y0 rs_f rs_fb]. unfold rs_feedback. cbn [add sub mul quo one zro ops32].
  assert (E : fsub (mk32 1 0) (mk32 1 0) = (fzero : f32)) by (vm_compute; reflexivity). rewrite E.
  assert (F : fmul (fadd r (fdiv r fzero)) (fsub fzero fzero) = (B754_nan : f32)) by (destruct r as [[]|[]| |[]]; reflexivity). rewrite F.
  assert (A : forall x : f32, fadd x B754_nan = B754_nan) by (intros [| | |]; reflexivity). rewrite A.
  assert (M : fmul (mk32 1 0) B754_nan = (B754_nan : f32)) by (vm_compute; reflexivity). rewrite M, A. reflexivity.
Qed.
Print Assumptions C50_cutoff_one.

(** In floats: for cutoffs up to 3/4 and f (1 - r) of at least 1/128, every output is finite and at most
    17 B / (1 - r)^2, and the filter follows the exact one that has the same two coefficients. *)
Theorem C50_float :
  forall (f r : f32) (x : nat -> f32) (B : R) (n : nat),
  is_finite f = true -> is_finite r = true -> 0 < B2R f <= 3 / 4 -> 0 <= B2R r < 1 -> / 128 <= B2R f * (1 - B2R r) ->
  (forall t, is_finite (x t) = true /\ Rabs (B2R (x t)) <= B) -> B <= bpow radix2 60 ->
  let m := rs_make ops32 f r in let y := rs_out ops32 m x n in
  let limit := 17 * B / ((1 - B2R r) * (1 - B2R r)) + bpow radix2 (-90) in
  is_finite y = true /\ Rabs (B2R y) <= limit /\
  Rabs (B2R (rs_fb m) - (B2R r + B2R r / (1 - B2R f))) <= bpow radix2 (-19) /\
  Rabs (B2R y - rs_out opsR (mkReso (B2R f) (B2R (rs_fb m)) (B2R r) 0 0) (fun t => B2R (x t)) n) <= 0.000028 / (B2R f * (1 - B2R r) * (B2R f * (1 - B2R r))) * limit.
Proof.
  intros f r x B n Ff Fr Hf Hr Hd Hx HB. cbn zeta. destruct (feedback_ok f r Ff Fr Hf ltac:(lra)) as (Fb & B0 & EB). cbn zeta in *.
  destruct (effective f r Ff Fr Hf Hr Hd) as (r' & Er & Hr' & Hd' & Q & H5).
  change (rs_fb (rs_make ops32 f r)) with (rs_feedback ops32 f r). set (fb := rs_feedback ops32 f r) in *.
  change (rs_make ops32 f r) with (mkReso f fb r fzero fzero).
  pose proof (run_ok f fb r x B r' Ff Fb Hf ltac:(lra) Hr' Er Hd' Hx HB (S n)) as [(_ & Fy & My & _) _].
  pose proof (track f fb r x B r' Ff Fb Hf ltac:(lra) Hr' Er Hd' Hx HB n) as Tr.
  destruct (rM_facts f fb x B r' Hf Hr' Hd' Hx HB) as (MP & _ & _ & Hh & HD & _ & _). pose proof (rB0 x B Hx) as BP.
  set (F := B2R f) in *. set (q := 1 - B2R r) in *. set (q' := 1 - r') in *. assert (Q0 : 0 < q <= 1) by (unfold q; lra).
  assert (QQ : 0.9998 * (q * q) <= q' * q'). { apply Rle_trans with (0.9999 * q * (0.9999 * q)); [assert (0 <= q * q) by apply Rle_0_sqr; lra|apply Rmult_le_compat; lra]. }
  assert (QP : 0 < q * q) by (apply Rmult_lt_0_compat; lra). assert (FP : 0 < F * F) by (apply Rmult_lt_0_compat; lra).
  assert (T0 := bpow_gt_0 radix2 (-120)).
  assert (DD' : / 16641 <= F * q' * (F * q')). { replace (/ 16641) with (/ 129 * / 129) by lra. apply Rmult_le_compat; lra. }
  assert (L : rM f B r' <= 17 * B / (q * q) + bpow radix2 (-90)).
  { unfold rM, rG, rDd. fold F q'. replace (4 * (4 / (F * q' * (F * q'))) * (F * F * B + bpow radix2 (-120))) with (16 * (B / (q' * q')) + 16 * bpow radix2 (-120) / (F * q' * (F * q'))) by (field; split; lra).
    apply Rplus_le_compat.
    - apply (Rmult_le_reg_r (q' * q')); [lra|]. replace (16 * (B / (q' * q')) * (q' * q')) with (16 * B) by (field; lra).
      apply Rle_trans with (17 * B / (q * q) * (0.9998 * (q * q))); [replace (17 * B / (q * q) * (0.9998 * (q * q))) with (17 * 0.9998 * B) by (field; lra); lra|apply Rmult_le_compat_l; [apply Rmult_le_pos; [lra|apply Rlt_le, Rinv_0_lt_compat; exact QP]|exact QQ]].
    - apply Rle_trans with (16 * bpow radix2 (-120) * 16641).
      + unfold Rdiv. apply Rmult_le_compat_l; [lra|]. replace 16641 with (/ / 16641) by lra. apply Rinv_le_contravar; lra.
      + assert (bpow radix2 (-90) = 1073741824 * bpow radix2 (-120)) by (change (-90)%Z with (30 + -120)%Z; rewrite bpow_plus; reflexivity). lra. }
  split; [exact Fy|]. split; [eapply Rle_trans; [exact My|exact L]|]. split; [exact EB|].
  eapply Rle_trans; [exact Tr|]. set (lim := 17 * B / (q * q) + bpow radix2 (-90)) in *.
  assert (W : rW f B r' <= / 16777216 * (112 * rM f B r')) by (unfold rW, rE0, rE1; lra).
  assert (W0 : 0 <= rW f B r') by (destruct (rW_facts f fb x B r' Hf Hr' Hd' Hx HB) as (a & b & _); unfold rW; lra).
  assert (DD : 0.9998 * (F * q * (F * q)) <= F * q' * (F * q')). { replace (F * q * (F * q)) with (F * F * (q * q)) by ring. replace (F * q' * (F * q')) with (F * F * (q' * q')) by ring. rewrite (Rmult_comm 0.9998), Rmult_assoc, (Rmult_comm (q * q)). apply Rmult_le_compat_l; lra. }
  assert (DP : 0 < F * q * (F * q)) by (replace (F * q * (F * q)) with (F * F * (q * q)) by ring; apply Rmult_lt_0_compat; assumption).
  assert (G : rG f r' <= 4.001 / (F * q * (F * q))).
  { unfold rG. fold F q'. apply (Rmult_le_reg_r (F * q' * (F * q'))); [lra|]. replace (4 / (F * q' * (F * q')) * (F * q' * (F * q'))) with 4 by (field; lra).
    apply Rle_trans with (4.001 / (F * q * (F * q)) * (0.9998 * (F * q * (F * q)))); [replace (4.001 / (F * q * (F * q)) * (0.9998 * (F * q * (F * q)))) with (4.001 * 0.9998) by (field; lra); lra|apply Rmult_le_compat_l; [apply Rlt_le, Rdiv_lt_0_compat; lra|exact DD]]. }
  assert (G0 : 0 <= rG f r') by (destruct (rG_range f r' Hf Hr' Hd'); lra).
  apply Rle_trans with (/ 16777216 * (112 * lim) * (4.001 / (F * q * (F * q)))); [apply Rmult_le_compat; lra|].
  replace (/ 16777216 * (112 * lim) * (4.001 / (F * q * (F * q)))) with ((/ 16777216 * 112 * 4.001) * (/ (F * q * (F * q)) * lim)) by (field; lra).
  replace (0.000028 / (F * q * (F * q)) * lim) with (0.000028 * (/ (F * q * (F * q)) * lim)) by (field; lra).
  apply Rmult_le_compat_r; [apply Rmult_le_pos; [apply Rlt_le, Rinv_0_lt_compat; exact DP|lra]|lra].
Qed.
Print Assumptions C50_float.

(** The coefficient of a frequency is 2 sin(pi f / sps) to 0.000104 up to Nyquist, and is in the range of [C50_float]
    from 0.004 % to 11.9 % of the sampling rate. *)
Theorem C50_frequency :
  forall (f : f64) (sps : Z) (r : f32) (m : reso f32), is_finite f = true -> (1 <= sps < 2 ^ 32)%Z -> 0 <= B2R f <= IZR sps / 2 ->
  let c := rs_f (rs_make_freq f sps r) in
  is_finite c = true /\ Rabs (B2R c - 2 * sin (PI * B2R f / IZR sps)) <= 0.000104 /\
  (0.00004 * IZR sps <= B2R f <= 0.119 * IZR sps -> 0 < B2R c <= 3 / 4) /\
  rs_f (rs_cutoff_freq m f sps) = c /\ rs_fb (rs_cutoff_freq m f sps) = rs_fb (rs_make_freq f sps (rs_reso m)).
Proof.
  intros f sps r m F Hn Hf. cbn zeta. destruct (coeff_near f sps F Hn Hf) as [Fc Ec]. split; [exact Fc|]. split; [exact Ec|]. split; [|split; reflexivity].
  intros H. exact (coeff_range f sps F Hn H).
Qed.
Print Assumptions C50_frequency.

(** The hypotheses are met: a cutoff coefficient of 1/4 with resonance 1/2 on a unit square wave. *)
Example C50_example :
  let f := mk32 1 (-2) in let r := mk32 1 (-1) in let x := fun t => if Nat.even t then mk32 1 0 else mk32 (-1) 0 in
  is_finite f = true /\ is_finite r = true /\ 0 < B2R f <= 3 / 4 /\ 0 <= B2R r < 1 /\ / 128 <= B2R f * (1 - B2R r) /\
  (forall t, is_finite (x t) = true /\ Rabs (B2R (x t)) <= 1) /\ 1 <= bpow radix2 60 /\ rs_out ops32 (rs_make ops32 f r) x 2 <> fzero.
Proof.
  destruct (mk32_small 1 (-2)) as [V1 F1]; [reflexivity|lia|]. destruct (mk32_small 1 (-1)) as [V2 F2]; [reflexivity|lia|]. destruct (int32 1 ltac:(reflexivity)) as [V3 F3]. destruct (int32 (-1) ltac:(reflexivity)) as [V4 F4].
  change (bpow radix2 (-2)) with (/ 4) in V1. change (bpow radix2 (-1)) with (/ 2) in V2. cbn zeta. rewrite V1, V2.
  split; [exact F1|]. split; [exact F2|]. split; [lra|]. split; [lra|]. split; [lra|]. split; [|split].
  - intros t. destruct (Nat.even t); [rewrite V3|rewrite V4]; (split; [assumption|apply Rabs_le; lra]).
  - change 1 with (bpow radix2 0). apply bpow_le. lia.
  - intros E. assert (G : feq (rs_out ops32 (rs_make ops32 (mk32 1 (-2)) (mk32 1 (-1))) (fun t => if Nat.even t then mk32 1 0 else mk32 (-1) 0) 2) fzero = false) by (vm_compute; reflexivity).
    rewrite E in G. vm_compute in G. discriminate G.
Qed.
Example C50_frequency_example : is_finite (mk64 1000 0) = true /\ 0.00004 * IZR 44100 <= B2R (mk64 1000 0) <= 0.119 * IZR 44100.
Proof. destruct (mk64_small 1000 0) as [V F]; [reflexivity|lia|]. split; [exact F|]. rewrite V. change (bpow radix2 0) with 1. lra. Qed.
