(** C45: fastsin, fasttan, fast_tan, fast_rational_tanh, and the allpass pole computed with fasttan. *)
From Coq Require Import ZArith Reals Lra Lia.
From Flocq Require Import Core.Core IEEE754.BinarySingleNaN.
From Verif Require Import Common Float FloatFacts Fast_Model Bq_Model Bq_Spec Bq_Allpass Fast_Sin Fast_Tan Fast_Rat.
Local Open Scope R_scope.
Local Notation finite x := (is_finite x = true).

Theorem C45_sine :
  forall x : f32, finite x -> Rabs (B2R x) <= 3.1415928 ->
  finite (fastsin x) /\ Rabs (B2R (fastsin x) - sin (B2R x)) <= 0.0000512 /\ B2R (fastsin (fneg x)) = - B2R (fastsin x).
Proof.
  intros x F H. destruct (fastsin_near x F H) as (G & E & _). split; [exact G|]. split; [exact E|]. apply fastsin_odd; [exact F|lra].
Qed.
Print Assumptions C45_sine.
Theorem C45_tangent :
  forall x : f32, finite x -> Rabs (B2R x) <= 0.7854 ->
  (finite (fasttan x) /\ Rabs (B2R (fasttan x) - tan (B2R x)) <= 0.00017) /\
  (finite (fast_tan x) /\ Rabs (B2R (fast_tan x) - tan (B2R x)) <= 0.0012 /\ B2R (fast_tan (fneg x)) = - B2R (fast_tan x)).
Proof.
  intros x F H. split; [apply tan_near; assumption|]. destruct (fast_tan_near x F H) as (G & E). split; [exact G|]. split; [exact E|]. apply fast_tan_odd; assumption.
Qed.
Print Assumptions C45_tangent.
Theorem C45_hyperbolic_tangent :
  forall x : f32, finite x -> Rabs (B2R x) <= 3 ->
  finite (fast_rational_tanh x) /\ Rabs (B2R (fast_rational_tanh x)) <= 1.000001 /\ Rabs (B2R (fast_rational_tanh x) - tanh (B2R x)) <= 0.0242 /\
  B2R (fast_rational_tanh (fneg x)) = - B2R (fast_rational_tanh x).
Proof.
  intros x F H. destruct (tanh_ok x F H) as (G & E & D). split; [exact G|]. split; [exact E|]. split; [exact D|]. apply fast_tanh_odd; assumption.
Qed.
Print Assumptions C45_hyperbolic_tangent.

(** one_pole_allpass(freq, sps) and pivot(freq, sps): the pole is within 0.00018 of the exact one for every
    frequency up to Nyquist; it is strictly inside the unit circle, so that the filter has unit gain at every
    frequency, unless freq is within 0.0003 % of 0 or of Nyquist *)
Theorem C45_allpass_pole :
  forall (freq : f64) (sps : Z), finite freq -> (1 <= sps < 2 ^ 32)%Z -> 0 <= B2R freq <= IZR sps / 2 ->
  finite (ap_pole32 freq sps) /\ Rabs (B2R (ap_pole32 freq sps) - ap_pole (B2R freq) (IZR sps)) <= 0.00018.
Proof. exact pole_ok. Qed.
Print Assumptions C45_allpass_pole.
Theorem C45_allpass_stable :
  forall (freq : f64) (sps : Z), finite freq -> (1 <= sps < 2 ^ 32)%Z ->
  0.000003 * IZR sps <= B2R freq <= (1 / 2 - 0.000003) * IZR sps ->
  Rabs (B2R (ap_pole32 freq sps)) <= 1 - bpow radix2 (-18) /\
  forall w, exists th, response (ap_out opsR (B2R (ap_pole32 freq sps)) 0) w 1 th.
Proof.
  intros freq sps F Hn Hf. assert (P := pole_inside freq sps F Hn Hf). split; [exact P|]. intros w. apply ap_gain. apply Rabs_le_inv in P. lra.
Qed.
Print Assumptions C45_allpass_stable.
(** the same for any way of rounding the angle that stays within 10^-7 of pi freq / sps - pi / 4 *)
Theorem C45_allpass_any_angle :
  forall (theta : f32) r, finite theta -> 0.000003 <= r <= 1 / 2 - 0.000003 -> Rabs (B2R theta - (PI * r - PI / 4)) <= 0.0000001 ->
  Rabs (B2R (fasttan theta)) <= 1 - bpow radix2 (-18) /\ Rabs (B2R (fasttan theta) - tan (PI * r - PI / 4)) <= 0.00018.
Proof. exact any_angle. Qed.
Print Assumptions C45_allpass_any_angle.

(** inputs that meet the hypotheses: 3/2, 1/2, 2 and a pivot of 1 kHz at 44.1 kHz *)
Example C45_case :
  finite (mk32 3 (-1)) /\ Rabs (B2R (mk32 3 (-1))) <= 3.1415928 /\ finite (mk32 1 (-1)) /\ Rabs (B2R (mk32 1 (-1))) <= 0.7854 /\
  finite (mk32 2 0) /\ Rabs (B2R (mk32 2 0)) <= 3 /\ finite (mk64 1000 0) /\ 0.000003 * 44100 <= B2R (mk64 1000 0) <= (1 / 2 - 0.000003) * 44100.
Proof.
  destruct (mk32_small 3 (-1) ltac:(reflexivity) ltac:(lia)) as (E1 & F1). destruct (mk32_small 1 (-1) ltac:(reflexivity) ltac:(lia)) as (E2 & F2).
  destruct (mk32_small 2 0 ltac:(reflexivity) ltac:(lia)) as (E3 & F3). destruct (mk64_small 1000 0 ltac:(reflexivity) ltac:(lia)) as (E4 & F4).
  rewrite E1, E2, E3, E4. change (bpow radix2 0) with 1. change (bpow radix2 (-1)) with (/ 2). repeat split; try assumption; try lra; rewrite Rabs_pos_eq; lra.
Qed.
