(** Specification vocabulary for the first-order filters (C29). *)
From Coq Require Import Reals.
From Flocq Require Import Core.Core IEEE754.BinarySingleNaN.
From Verif Require Import Common Float Env_Spec.
Local Open Scope R_scope.

(** all samples of a run are finite and within [lo,hi] (and of magnitude at most 2^126) *)
Definition all_within (lo hi : R) (xs : list f32) : Prop := forall x, In x xs -> bounded x /\ lo <= B2R x <= hi.
(** rounding allowance of one filter step for values of magnitude up to M *)
Definition step_err (M : R) : R := bpow radix2 (-21) * M + bpow radix2 (-147).
(** the float [a] is the leaky-integrator / dc-blocker coefficient 1 - 2 pi f / sps, up to
    2^-20 (the code computes it in long double and narrows it, which is platform dependent) *)
Definition cutoff_coeff (a : f32) (f sps : R) : Prop :=
  is_finite a = true /\ Rabs (B2R a - (1 - 2 * PI * f / sps)) <= bpow radix2 (-20).
(** the float [x] is -2 pi f / sps up to 2^-20 *)
Definition lowpass_arg (x : f32) (f sps : R) : Prop :=
  is_finite x = true /\ Rabs (B2R x - - (2 * PI * f / sps)) <= bpow radix2 (-20).
(** a run of floats that leaves every bound: for every B some sample is above B in magnitude,
    infinite or NaN *)
Definition escapes (out : nat -> f32) : Prop :=
  forall B, exists n, is_finite (out n) = false \/ B <= Rabs (B2R (out n)).
