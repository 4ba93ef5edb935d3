(** Property C29: the first-order filters.  Theorems only. *)
From Coq Require Import Reals Lra Psatz.
From Flocq Require Import Core.Core IEEE754.BinarySingleNaN.
From Verif Require Import Common Float FloatFacts FloatLerp Env_Model Env_Spec Env_Proof Coeff_Proof Filt_Model Filt_Spec Filt_Proof.
Local Open Scope R_scope.

(** C29, fixed-point leaky integrator: with gain k > 1 and inputs of magnitude at most S,
    where k*S + k fits in int, no arithmetic overflows and |y| stays below k*S + k. *)
Theorem C29_fixed_point_bounded :
  forall (k S y : Z) (xs : list Z), (1 < k -> 0 <= S -> k * S + k <= 2147483647 ->
  Forall (fun s => Z.abs s <= S) xs -> Z.abs y <= k * S + k - 1 ->
  exists y', fpli_run k y xs = Some y' /\ Z.abs y' <= k * S + k - 1)%Z.
Proof. intros k S y xs Hk HS HB Hx Hy. exact (fpli_run_ok k S Hk HS HB xs y Hx Hy). Qed.
Print Assumptions C29_fixed_point_bounded.

(** ... and for a constant input s the gain is k: after at most |y - k*s| samples the output
    divided by k is exactly s, and from then on the output does not change. *)
Theorem C29_fixed_point_settles :
  forall (k S s y : Z) (m : nat), (1 < k -> 0 <= S -> k * S + k <= 2147483647 -> Z.abs s <= S ->
  Z.abs y <= k * S + k - 1 -> Z.abs (y - k * s) <= Z.of_nat m ->
  exists y', fpli_run k y (repeat s m) = Some y' /\ Z.quot y' k = s /\ fpli_step k y' s = Some y')%Z.
Proof.
  intros k S s y m Hk HS HB Hs Hy Hm. destruct (fpli_settles k S s Hk HS HB Hs m y Hy Hm) as (y' & E & Q & B).
  exists y'. split; [exact E|]. split; [exact Q|]. exact (fpli_stays k S s Hk HS HB Hs y' B Q).
Qed.
Print Assumptions C29_fixed_point_settles.
Example fixed_point_settles_meets : (fpli_run 16 0 (repeat 100 1600) = Some 1600)%Z.
Proof. vm_compute. reflexivity. Qed.

(** C29, range: leaky_integrator and one_pole_lowpass with a coefficient in [0,1), and
    moving_average2, keep every output within any interval that contains the state and all
    the inputs. *)
Theorem C29_output_in_range :
  forall (lo hi : R) (a y : f32) (xs : list f32), coefficient a -> bounded y -> lo <= B2R y <= hi -> all_within lo hi xs ->
  all_within lo hi (filt_run (leaky_step a) y xs) /\ all_within lo hi (filt_run (lowpass_step a) y xs) /\
  all_within lo hi (filt_run ma2_step y xs).
Proof.
  intros lo hi a y xs Ha By Ry Hx. split; [|split]; apply filt_run_range; auto; intros; [apply leaky_between|apply lowpass_between|apply ma2_between]; auto.
Qed.
Print Assumptions C29_output_in_range.

(** C29, unity DC gain and settling: for a constant input s and |state|, |s| <= M the distance
    to s shrinks by the coefficient with every sample, up to an accumulated rounding allowance. *)
Theorem C29_constant_input_converges :
  forall (a s y : f32) (M : R) (n : nat), coefficient a -> bounded s -> bounded y -> Rabs (B2R s) <= M -> Rabs (B2R y) <= M ->
  Rabs (B2R (filt_last (leaky_step a) y (repeat s n)) - B2R s) <= B2R a ^ n * Rabs (B2R y - B2R s) + step_err M / (1 - B2R a) /\
  (0 < B2R a ->
   Rabs (B2R (filt_last (lowpass_step a) y (repeat s n)) - B2R s) <= (1 - B2R a) ^ n * Rabs (B2R y - B2R s) + step_err M / B2R a).
Proof.
  intros a s y M n Ha Bs By Ms My. split; [apply leaky_converge; auto|]. intros Pa. apply lowpass_converge; auto.
Qed.
Print Assumptions C29_constant_input_converges.

(** C29, cutoff frequencies between 0.001% and 15% of the sampling rate give a coefficient in
    [0,1) (leaky_integrator) or (0,1) (one_pole_lowpass), the latter within 2^-20 of
    1 - (1 + x + x^2/2 + x^3/6), x = -2 pi f / sps as a float. *)
Theorem C29_cutoff_coefficients :
  forall (a x : f32) (f sps : R), 0 < sps -> 0.00001 * sps <= f <= 0.15 * sps ->
  (cutoff_coeff a f sps -> coefficient a) /\
  (lowpass_arg x f sps -> coefficient (lowpass_coeff x) /\ 0 < B2R (lowpass_coeff x) /\
     let X := B2R x in Rabs (B2R (lowpass_coeff x) - (1 - (1 + X + X * X / 2 + X * X * X / 6))) <= bpow radix2 (-20)).
Proof.
  intros a x f sps Hs Hf. split; [apply cutoff_ok; auto|]. intros Hx.
  destruct (lowpass_arg_ok x f sps Hs Hf Hx) as [F B]. exact (lowpass_coeff_ok x F B).
Qed.
Print Assumptions C29_cutoff_coefficients.
(** 1 kHz at 44.1 kHz meets both hypotheses *)
Example cutoff_1k_meets : cutoff_coeff (mk32 14386880 (-24)) 1000 44100 /\ lowpass_arg (mk32 (-9561345) (-26)) 1000 44100.
Proof.
  pose proof PI_tight as P. unfold cutoff_coeff, lowpass_arg. change (bpow radix2 (-20)) with (/ 1048576).
  destruct (mk32_small 14386880 (-24) ltac:(reflexivity) ltac:(lia)) as [V1 F1]. destruct (mk32_small (-9561345) (-26) ltac:(reflexivity) ltac:(lia)) as [V2 F2].
  change (bpow radix2 (-24)) with (/ 16777216) in V1. change (bpow radix2 (-26)) with (/ 67108864) in V2.
  split; (split; [assumption|]); [rewrite V1|rewrite V2]; apply Rabs_le; lra.
Qed.

(** C29, exp_moving_average<n>, n from 1 to 65535: for inputs of magnitude at most B the
    output stays finite and within 1% of B, and for a constant input it converges to it
    with ratio b' = 1 - 2/(n+1) (up to 2^-24). *)
Theorem C29_exp_moving_average_bounded :
  forall (n : Z) (B : R) (y : f32) (xs : list f32), (1 <= n <= 65535)%Z -> 0 <= B <= bpow radix2 120 ->
  is_finite y = true -> Rabs (B2R y) <= 1.01 * (B + bpow radix2 (-120)) ->
  (forall x, In x xs -> is_finite x = true /\ Rabs (B2R x) <= B) ->
  forall o, In o (filt_run (ema_step (ema_b n) (ema_b' n)) y xs) -> is_finite o = true /\ Rabs (B2R o) <= 1.01 * (B + bpow radix2 (-120)).
Proof. intros n B y xs Hn HB Fy By Hx. exact (ema_run_bound n B Hn HB xs y Fy By Hx). Qed.
Print Assumptions C29_exp_moving_average_bounded.

Theorem C29_exp_moving_average_converges :
  forall (n : Z) (B : R) (y s : f32) (k : nat), (1 <= n <= 65535)%Z -> 0 <= B <= bpow radix2 120 ->
  is_finite s = true -> Rabs (B2R s) <= B -> is_finite y = true -> Rabs (B2R y) <= 1.01 * (B + bpow radix2 (-120)) ->
  Rabs (B2R (ema_b' n) - (1 - 2 / IZR (n + 1))) <= bpow radix2 (-24) /\ 0 <= B2R (ema_b' n) < 1 /\
  Rabs (B2R (filt_last (ema_step (ema_b n) (ema_b' n)) y (repeat s k)) - B2R s)
   <= B2R (ema_b' n) ^ k * Rabs (B2R y - B2R s) + step_err (1.01 * (B + bpow radix2 (-120))) / (1 - B2R (ema_b' n)).
Proof.
  intros n B y s k Hn HB Fs Bs Fy By. destruct (ema_coeffs n Hn) as (Fb & Fb' & Hb' & Hd & Hb & Hv).
  split; [|split; [exact Hb'|exact (ema_converge n s B Hn HB Fs Bs k y Fy By)]].
  change (bpow radix2 (-25)) with (/ 33554432) in *. change (bpow radix2 (-24)) with (/ 16777216).
  apply Rabs_le_inv in Hd, Hv. apply Rabs_le. lra.
Qed.
Print Assumptions C29_exp_moving_average_converges.

(** C29, dc_block with a pole in [0, 1 - 2^-12]: for inputs of magnitude at most B the output
    never exceeds about twice B ... *)
Theorem C29_dc_block_bounded :
  forall (p : f32) (B : R) (xs : list f32), is_finite p = true -> 0 <= B2R p <= 1 - bpow radix2 (-12) -> 0 <= B <= bpow radix2 120 ->
  (forall x, In x xs -> is_finite x = true /\ Rabs (B2R x) <= B) ->
  forall o, In o (dc_run p (fzero, fzero) xs) -> is_finite o = true /\ Rabs (B2R o) <= 2.02 * (B + bpow radix2 (-120)).
Proof.
  intros p B xs Fp Hp HB Hx o Ho.
  assert (Z : B2R (fzero : f32) = 0) by reflexivity. pose proof (bpow_gt_0 radix2 (-120)).
  destruct (dc_run_bound p B Fp Hp HB xs fzero fzero eq_refl eq_refl) with (o := o) as [F E]; auto.
  - rewrite Z, Rabs_R0. lra.
  - rewrite Z, Rminus_0_r, Rabs_R0. nra.
  - split; [exact F|]. lra.
Qed.
Print Assumptions C29_dc_block_bounded.

(** ... and a constant input dies away: k+1 samples after the input became constant the
    output is at most (1 - 2^-13)^(k+1) times the output then, plus 2^-137. *)
Theorem C29_dc_block_removes_dc :
  forall (p s y : f32) (k : nat), is_finite p = true -> 0 <= B2R p <= 1 - bpow radix2 (-12) -> is_finite s = true -> is_finite y = true ->
  let y' := nth k (dc_run p (s, y) (repeat s (S k))) fzero in
  is_finite y' = true /\ Rabs (B2R y') <= (1 - / 8192) ^ S k * Rabs (B2R y) + bpow radix2 (-137).
Proof. intros p s y k Fp Hp Fs Fy. exact (dc_const_run p s Fp Hp Fs k y Fy). Qed.
Print Assumptions C29_dc_block_removes_dc.

(** C29 does not extend to all cutoff frequencies below Nyquist: with a cutoff from 0.33 sps
    to 0.5 sps the leaky integrator, once its state is at least 2^-100, overflows during
    silence; and the one-pole low-pass set to 0.45 sps does the same. *)
Theorem C29_stable_below_nyquist_refuted :
  (forall (a y : f32) (f sps : R), 0 < sps -> 0.33 * sps <= f <= 0.5 * sps -> cutoff_coeff a f sps ->
     bpow radix2 (-100) <= Rabs (B2R y) -> exists n, is_finite (filt_last (leaky_step a) y (repeat fzero n)) = false) /\
  (exists x : f32, lowpass_arg x (0.45 * 44100) 44100 /\
     forall y : f32, bpow radix2 (-100) <= Rabs (B2R y) -> exists n, is_finite (filt_last (lowpass_step (lowpass_coeff x)) y (repeat fzero n)) = false).
Proof.
  pose proof PI_tight as P. split.
  - intros a y f sps Hs Hf [Fa Ha] Hy. apply Rabs_le_inv in Ha. change (bpow radix2 (-20)) with (/ 1048576) in Ha.
    assert (Q : 0.33 <= f / sps <= 0.5).
    { split; [apply Rmult_le_reg_r with sps|apply Rmult_le_reg_r with sps]; auto; unfold Rdiv; rewrite Rmult_assoc, Rinv_l by lra; lra. }
    replace (2 * PI * f / sps) with (2 * PI * (f / sps)) in Ha by (field; lra). set (q := f / sps) in *.
    destruct (grows_escapes (fun y => leaky_step a y fzero)) with (y := y) as [n Hn]; [|exact Hy|exists n; rewrite filt_last_iter; exact Hn].
    intros z Fz F L. apply leaky_grows; auto. nra.
  - exists lp_045. split.
    + destruct (mk32_small (-11859115) (-22) ltac:(reflexivity) ltac:(lia)) as [V F]. change (bpow radix2 (-22)) with (/ 4194304) in V.
      split; [exact F|]. unfold lp_045. rewrite V. change (bpow radix2 (-20)) with (/ 1048576). apply Rabs_le. lra.
    + pose proof lp_045_coeff as T. apply andb_prop in T. destruct T as [T T3]. apply andb_prop in T. destruct T as [T1 T2].
      intros y Hy. destruct (grows_escapes (fun y => lowpass_step (lowpass_coeff lp_045) y fzero)) with (y := y) as [n Hn]; [|exact Hy|exists n; rewrite filt_last_iter; exact Hn].
      intros z Fz F L. apply lowpass_grows; auto. clear - T1 T2 T3. set (a := lowpass_coeff lp_045) in *. clearbody a.
      destruct (int32 3 ltac:(reflexivity)) as [V3 F3]. apply (fle_true a (mk32 3 0) T1 F3) in T3. rewrite V3 in T3.
      apply (fle_true (mk32 5 (-1)) a (proj2 (mk32_small 5 (-1) ltac:(reflexivity) ltac:(lia))) T1) in T2.
      rewrite (proj1 (mk32_small 5 (-1) ltac:(reflexivity) ltac:(lia))) in T2. change (bpow radix2 (-1)) with (/ 2) in T2. lra.
Qed.
Print Assumptions C29_stable_below_nyquist_refuted.

(** C29, unity gain is lost by rt_exp_moving_average::length(n), which leaves b_ unchanged:
    a filter made with length 3, set to length 1, turns a constant 1 into exactly 2. *)
Theorem C29_length_keeps_unity_gain_refuted :
  exists (n n' : Z), let r := rt_run (rt_length (rt_make n fzero) n') (repeat (mk32 1 0) 40) in B2R (rt_y r) = 2.
Proof.
  exists 3%Z, 1%Z. cbv zeta. destruct (int32 2 ltac:(reflexivity)) as [V F]. rewrite <- V.
  apply feq_true; [|exact F|exact rt_stale].
  assert (T : is_finite (rt_y (rt_run (rt_length (rt_make 3 fzero) 1) (repeat (mk32 1 0) 40))) = true) by (vm_compute; reflexivity).
  exact T.
Qed.
Print Assumptions C29_length_keeps_unity_gain_refuted.
