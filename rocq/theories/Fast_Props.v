(** C44: the fast approximations of base.hpp, for every float in their range. *)
From Coq Require Import ZArith Reals Lra Lia List.
From Flocq Require Import Core.Core IEEE754.BinarySingleNaN.
From Verif Require Import Common Float FloatFacts Env_Model Fast_Model Fast_Spec Fast_Bits Fast_Log Fast_Pow Fast_More.
Import ListNotations.
Local Open Scope R_scope.
Local Notation finite x := (is_finite x = true).

(** fast_inverse(x) is 1/x within 5.06 %, for every normal positive x below 2^125 *)
Theorem C44_inverse :
  forall x : f32, finite x -> bpow radix2 (-126) <= B2R x < bpow radix2 125 ->
  exists y, fast_inverse x = Some y /\ finite y /\ 0 < B2R y /\ Rabs (B2R x * B2R y - 1) <= 0.0506.
Proof. exact inverse_ok. Qed.
Print Assumptions C44_inverse.
(** but not for negative x: there the subtraction overflows int, whatever the value *)
Theorem C44_inverse_of_negative_refuted :
  forall x : f32, finite x -> - bpow radix2 126 < B2R x < 0 -> fast_inverse x = None.
Proof. exact inverse_neg. Qed.
Print Assumptions C44_inverse_of_negative_refuted.
Theorem C44_division :
  forall a b : f32, finite a -> finite b -> bpow radix2 (-126) <= B2R b < bpow radix2 125 -> Rabs (B2R a / B2R b) <= bpow radix2 127 ->
  exists y, fast_div a b = Some y /\ finite y /\ Rabs (B2R y - B2R a / B2R b) <= 0.0507 * Rabs (B2R a / B2R b) + bpow radix2 (-140).
Proof. exact div_ok. Qed.
Print Assumptions C44_division.

(** logarithms: absolute error, for every normal positive x; order preserved for every positive x *)
Theorem C44_log2 :
  forall x : f32, finite x -> bpow radix2 (-126) <= B2R x -> finite (fast_log2 x) /\ Rabs (B2R (fast_log2 x) - log2 (B2R x)) <= 0.0574.
Proof. exact log2_ok. Qed.
Print Assumptions C44_log2.
Theorem C44_log10 :
  forall x : f32, finite x -> bpow radix2 (-126) <= B2R x -> finite (fast_log10 x) /\ Rabs (B2R (fast_log10 x) - log10 (B2R x)) <= 0.0176.
Proof. exact log10_ok. Qed.
Print Assumptions C44_log10.
Theorem C44_log2_monotone :
  forall x y : f32, finite x -> finite y -> 0 < B2R x <= B2R y ->
  finite (fast_log2 x) /\ finite (fast_log2 y) /\ B2R (fast_log2 x) <= B2R (fast_log2 y).
Proof. exact log2_mono. Qed.
Print Assumptions C44_log2_monotone.

(** powers of two: between 0.96 and 1.021 times the exact one, order preserved; below -126 flushed to a
    subnormal *)
Theorem C44_pow2 :
  forall p : f32, finite p -> -125.9 <= B2R p <= 128 ->
  exists y, fast_pow2 p = Some y /\ finite y /\ 0.96 * Rpower 2 (B2R p) <= B2R y <= 1.021 * Rpower 2 (B2R p).
Proof. exact pow2_ok. Qed.
Print Assumptions C44_pow2.
Theorem C44_pow2_flushes :
  forall p : f32, finite p -> B2R p <= -126 ->
  exists y, fast_pow2 p = Some y /\ finite y /\ 0.94 * bpow radix2 (-126) <= B2R y < bpow radix2 (-126).
Proof. exact pow2_flush. Qed.
Print Assumptions C44_pow2_flushes.
Theorem C44_pow2_monotone :
  forall p q : f32, finite p -> finite q -> B2R p <= B2R q <= 128 ->
  exists y z, fast_pow2 p = Some y /\ fast_pow2 q = Some z /\ finite y /\ finite z /\ B2R y <= B2R z.
Proof. exact pow2_mono. Qed.
Print Assumptions C44_pow2_monotone.
(** "overflow gives a large result": instead the result turns negative, and beyond 386 the conversion to
    uint32_t is undefined *)
Theorem C44_pow2_overflow_refuted :
  (forall p : f32, finite p -> 129.1 <= B2R p <= 384 -> exists y, fast_pow2 p = Some y /\ finite y /\ B2R y < 0) /\
  (forall p : f32, finite p -> 386 <= B2R p <= 1024 -> fast_pow2 p = None).
Proof. split; [exact pow2_negative|exact pow2_undefined]. Qed.
Print Assumptions C44_pow2_overflow_refuted.
(** fast_pow10(x) uses an approximate log2(10), so its error grows with x: it is within 2^0.058 of
    (10 / 2^0.01462)^x *)
Theorem C44_pow10 :
  forall x : f32, finite x -> Rabs (B2R x) <= 38 ->
  exists y, fast_pow10 x = Some y /\ finite y /\ 0 < B2R y /\ Rabs (log2 (B2R y) - B2R x * (log2 10 - 0.01462)) <= 0.058.
Proof. exact pow10_ok. Qed.
Print Assumptions C44_pow10.

(** fast_exp3 ... fast_exp9 on [-1, 1]: the remainder of the series of degree n, plus 2^-16 *)
Theorem C44_exp_series :
  forall f n, In (f, n) [(fast_exp3, 3%nat); (fast_exp4, 4%nat); (fast_exp5, 5%nat); (fast_exp6, 6%nat); (fast_exp7, 7%nat); (fast_exp8, 8%nat); (fast_exp9, 9%nat)] ->
  forall x : f32, finite x -> Rabs (B2R x) <= 1 ->
  finite (f x) /\ Rabs (B2R (f x) - exp (B2R x)) <= 3 * (Rabs (B2R x) ^ (n + 1) / INR (fact (n + 1))) + bpow radix2 (-16).
Proof. exact exps_ok. Qed.
Print Assumptions C44_exp_series.

(** inputs that meet the hypotheses: 3, 10, 2.5, 200, 500 and 1/2 *)
Example C44_case :
  finite (mk32 3 0) /\ bpow radix2 (-126) <= B2R (mk32 3 0) < bpow radix2 125 /\ finite (mk32 5 (-1)) /\ -125.9 <= B2R (mk32 5 (-1)) <= 128 /\
  finite (mk32 200 0) /\ 129.1 <= B2R (mk32 200 0) <= 384 /\ finite (mk32 500 0) /\ 386 <= B2R (mk32 500 0) <= 1024 /\
  finite (mk32 1 (-1)) /\ Rabs (B2R (mk32 1 (-1))) <= 1.
Proof.
  assert (A : bpow radix2 (-126) <= 1) by (apply (bpow_le radix2 (-126) 0); lia). assert (B : 4 <= bpow radix2 124) by (apply (bpow_le radix2 2 124); lia).
  assert (C : bpow radix2 124 < bpow radix2 125) by (apply bpow_lt; lia).
  destruct (mk32_small 3 0 ltac:(reflexivity) ltac:(lia)) as (E1 & F1). destruct (mk32_small 5 (-1) ltac:(reflexivity) ltac:(lia)) as (E2 & F2).
  destruct (mk32_small 200 0 ltac:(reflexivity) ltac:(lia)) as (E3 & F3). destruct (mk32_small 500 0 ltac:(reflexivity) ltac:(lia)) as (E4 & F4).
  destruct (mk32_small 1 (-1) ltac:(reflexivity) ltac:(lia)) as (E5 & F5). rewrite E1, E2, E3, E4, E5. change (bpow radix2 0) with 1. change (bpow radix2 (-1)) with (/ 2).
  repeat split; try assumption; try lra. rewrite Rabs_pos_eq; lra.
Qed.
