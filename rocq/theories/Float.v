(** binary32 / binary64 arithmetic for the model: Flocq's IEEE-754 formats with one
    NaN, round to nearest even.  Models [float] / [double] of C++ on a platform with
    FLT_EVAL_METHOD = 0 and no fused multiply-add contraction (assumption in DESIGN.md). *)
From Coq Require Import ZArith Reals Bool.
From Flocq Require Import Core.Core IEEE754.BinarySingleNaN.

Global Instance prec32_gt_0 : Prec_gt_0 24 := eq_refl.
Global Instance prec32_lt : Prec_lt_emax 24 128 := eq_refl.
Global Instance prec64_gt_0 : Prec_gt_0 53 := eq_refl.
Global Instance prec64_lt : Prec_lt_emax 53 1024 := eq_refl.

Definition f32 := binary_float 24 128.
Definition f64 := binary_float 53 1024.

(** arithmetic operators, generic in the format *)
Section Ops.
Context {prec emax : Z} {Hp : Prec_gt_0 prec} {He : Prec_lt_emax prec emax}.
Notation fl := (binary_float prec emax).
Definition fadd (x y : fl) : fl := Bplus mode_NE x y.
Definition fsub (x y : fl) : fl := Bminus mode_NE x y.
Definition fmul (x y : fl) : fl := Bmult mode_NE x y.
Definition fdiv (x y : fl) : fl := Bdiv mode_NE x y.
Definition fneg (x : fl) : fl := Bopp x.
(** [a < b], [a > b], [a <= b], [a >= b], [a == b] (all false on NaN) *)
Definition flt (x y : fl) : bool := Bltb x y.
Definition fgt (x y : fl) : bool := Bltb y x.
Definition fle (x y : fl) : bool := Bleb x y.
Definition fge (x y : fl) : bool := Bleb y x.
Definition feq (x y : fl) : bool := Beqb x y.
(** the value m * 2^e rounded: literals and conversions from integers *)
Definition fmk (m e : Z) : fl := binary_normalize prec emax Hp He mode_NE m e false.
Definition fzero : fl := B754_zero false.
(** std::floor; conversion to an integer truncates ([None]: NaN or infinity, undefined) *)
Definition ffloor (x : fl) : fl := Bnearbyint mode_DN x.
Definition ftrunc (x : fl) : option Z := if is_finite x then Some (Btrunc x) else None.
(** std::max(a, b) = (a < b)? b : a; std::min(a, b) = (b < a)? b : a *)
Definition fmax (a b : fl) : fl := if flt a b then b else a.
Definition fmin (a b : fl) : fl := if flt b a then b else a.
End Ops.

(** conversions between the formats *)
Definition fconv {p e p' e' : Z} {Hp' : Prec_gt_0 p'} {He' : Prec_lt_emax p' e'}
  (x : binary_float p e) : binary_float p' e' :=
  match x with
  | B754_zero s => B754_zero s
  | B754_infinity s => B754_infinity s
  | B754_nan => B754_nan
  | B754_finite s m ex _ => binary_normalize p' e' Hp' He' mode_NE (cond_Zopp s (Zpos m)) ex s
  end.
Definition to32 (x : f64) : f32 := fconv x.
Definition to64 (x : f32) : f64 := fconv x.
Definition mk32 (m e : Z) : f32 := fmk m e.
Definition mk64 (m e : Z) : f64 := fmk m e.
