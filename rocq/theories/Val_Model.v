(** q_lib/include/q/support/value.hpp, frequency.hpp, decibel.hpp (operators) and
    literals.hpp: quantities that carry a unit.

    A [frequency], a [duration], a [period] and a [decibel] hold one [double] ([rep] /
    [val]); the model of such a quantity is that binary64 number.  The unit itself is a
    static type in C++ and has no run-time effect, so the same model functions serve the
    four types.  [phase] (an unsigned integer) is modelled in Phase_Model. *)
From Coq Require Import ZArith NArith Reals Bool.
From Flocq Require Import IEEE754.BinarySingleNaN.
From Verif Require Import Float.

(** value.hpp 58-175, decibel.hpp 104-132: the six comparisons (quantity with quantity; the
    mixed forms compare the same carried number) *)
Definition u_eq (a b : f64) : bool := feq a b.
Definition u_ne (a b : f64) : bool := negb (feq a b).
Definition u_lt (a b : f64) : bool := flt a b.
Definition u_le (a b : f64) : bool := fle a b.
Definition u_gt (a b : f64) : bool := fgt a b.
Definition u_ge (a b : f64) : bool := fge a b.

(** value.hpp 30-31, decibel.hpp 26-27: unary plus and minus *)
Definition u_plus (a : f64) : f64 := a.
Definition u_neg (a : f64) : f64 := fneg a.

(** value.hpp 206-228, decibel.hpp 41-103: quantity with quantity *)
Definition u_add (a b : f64) : f64 := fadd a b.
Definition u_sub (a b : f64) : f64 := fsub a b.
Definition u_mul (a b : f64) : f64 := fmul a b.
Definition u_div (a b : f64) : f64 := fdiv a b.

(** value.hpp 178-203, decibel.hpp 29-32: compound assignment, as the new carried number *)
Definition u_add_assign (rep rhs : f64) : f64 := fadd rep rhs.
Definition u_sub_assign (rep rhs : f64) : f64 := fsub rep rhs.
Definition u_mul_assign (rep rhs : f64) : f64 := fmul rep rhs.
Definition u_div_assign (rep rhs : f64) : f64 := fdiv rep rhs.

(** a plain number of another arithmetic type used with a quantity is converted to double
    by the usual arithmetic conversions: a double is itself, a float and a 32-bit int
    convert exactly *)
Inductive scalar := Dbl (x : f64) | Flt (x : f32) | Int (n : Z).
Definition of_scalar (k : scalar) : f64 :=
  match k with Dbl x => x | Flt x => to64 x | Int n => mk64 n 0 end.
(** value.hpp 231-267 (number first), 270-300 (number second); decibel.hpp 56-103 *)
Definition s_add (k : scalar) (b : f64) : f64 := fadd (of_scalar k) b.
Definition s_sub (k : scalar) (b : f64) : f64 := fsub (of_scalar k) b.
Definition s_mul (k : scalar) (b : f64) : f64 := fmul (of_scalar k) b.
Definition s_div (k : scalar) (b : f64) : f64 := fdiv (of_scalar k) b.
Definition add_s (a : f64) (k : scalar) : f64 := fadd a (of_scalar k).
Definition sub_s (a : f64) (k : scalar) : f64 := fsub a (of_scalar k).
Definition mul_s (a : f64) (k : scalar) : f64 := fmul a (of_scalar k).
Definition div_s (a : f64) (k : scalar) : f64 := fdiv a (of_scalar k).

(** frequency.hpp 55, 64-67: period(frequency) and frequency::period() *)
Definition period_of (f : f64) : f64 := fdiv (mk64 1 0) f.
(** frequency.hpp 59-61: frequency(duration) *)
Definition frequency_of (d : f64) : f64 := fdiv (mk64 1 0) d.

(** literals.hpp 25-100, the forms with an integer operand (unsigned long long, converted to
    double).  The forms with a long double operand are not modelled (80-bit arithmetic). *)
Definition lit_1e3 : f64 := mk64 1000 0.
Definition lit_1e6 : f64 := mk64 1000000 0.
(** 1e-3 and 1e-6 as doubles *)
Definition lit_1em3 : f64 := mk64 4611686018427388 (-62).
Definition lit_1em6 : f64 := mk64 4722366482869645 (-72).
Definition lit_Hz (n : N) : f64 := mk64 (Z.of_N n) 0.
Definition lit_kHz (n : N) : f64 := fmul (mk64 (Z.of_N n) 0) lit_1e3.
Definition lit_MHz (n : N) : f64 := fmul (mk64 (Z.of_N n) 0) lit_1e6.
Definition lit_s (n : N) : f64 := mk64 (Z.of_N n) 0.
Definition lit_ms (n : N) : f64 := fmul (mk64 (Z.of_N n) 0) lit_1em3.
Definition lit_us (n : N) : f64 := fmul (mk64 (Z.of_N n) 0) lit_1em6.
Definition lit_dB (n : N) : f64 := mk64 (Z.of_N n) 0.
