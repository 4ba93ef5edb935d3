(** Specification vocabulary for the smoothed and RMS followers (C47). *)
From Coq Require Import Reals.
From Flocq Require Import Core.Core IEEE754.BinarySingleNaN.
From Verif Require Import Common Float Env_Model MovSumF_Spec.
Local Open Scope R_scope.

(** what the fast envelope follower (C22) puts out, sample by sample *)
Definition follower_outputs (div : nat) (hold : N) (xs : list f32) : list f32 :=
  map (fun i => match fe_run (fe_make (S div) hold) (firstn (S i) xs) with Some e => fe_peak e | None => fzero end) (seq 0 (length xs)).
(** the mean of the last [W] of a list of numbers, with zeros before its start *)
Definition last_mean (W : nat) (l : list f32) : R := rsum (firstn W (rev l ++ repeat fzero W)) / INR W.
(** how far the computed mean may be from it after n samples of magnitude at most B *)
Definition mean_error (W : nat) (B : R) (n : nat) : R :=
  INR n * ((INR W + 1) * B * bpow radix2 (-51)) / INR W + bpow radix2 (-21) * B.
(** sample magnitudes the theorems cover *)
Definition input_range (B : R) : Prop := bpow radix2 (-40) <= B <= bpow radix2 40.
(** [d], in dB, is the level of a signal whose mean square is [e]: 20 log10 of its root, within the
    stated tolerance, and -60.5 dB for mean squares below 10^-6 *)
Definition level_ok (e : R) (d : f64) : Prop :=
  is_finite d = true /\ -60.5 <= B2R d <= 60.5 /\
  (e < 0.0000009999998 -> B2R d = -60.5) /\
  (1 / 8 < e < 8 -> Rabs (B2R d - 20 * ln (sqrt e) / ln 10) <= 0.0001) /\
  (1 / 1024 < e < 1024 -> Rabs (B2R d - 20 * ln (sqrt e) / ln 10) <= 0.0091) /\
  (0.0000010000002 < e < 1048576 -> Rabs (B2R d - 20 * ln (sqrt e) / ln 10) <= 0.27).
