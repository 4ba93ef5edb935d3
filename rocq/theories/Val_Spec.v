(** What the quantities of Val_Model should do, in terms of real numbers only. *)
From Coq Require Import ZArith Reals Bool.
From Flocq Require Import Core.Core IEEE754.BinarySingleNaN.
From Verif Require Import Float.
Open Scope R_scope.

(** a quantity that is a number: finite or infinite, not NaN *)
Definition is_number (x : f64) : Prop := is_nan x = false.
(** the number a quantity carries, the infinities lying beyond every finite double *)
Definition carried (x : f64) : R :=
  match x with
  | B754_infinity false => bpow radix2 1024
  | B754_infinity true => - bpow radix2 1024
  | _ => B2R x
  end.
(** [x] is a correctly rounded result for the exact value [r]: finite, and no finite double
    is nearer to [r] *)
Definition nearest (x : f64) (r : R) : Prop :=
  is_finite x = true /\ forall z : f64, is_finite z = true -> Rabs (B2R x - r) <= Rabs (B2R z - r).
(** [r] is the value of some finite double *)
Definition representable (r : R) : Prop := exists z : f64, is_finite z = true /\ B2R z = r.
(** the largest finite double *)
Definition largest : R := bpow radix2 1024 - bpow radix2 971.
