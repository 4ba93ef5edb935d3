(** What the biquad and allpass theorems say, in terms of signals (functions of the sample number). *)
From Coq Require Import Reals.
Local Open Scope R_scope.

(** the sample k before sample t (0 before the beginning) *)
Definition ago (x : nat -> R) (t k : nat) : R := if Nat.leb k t then x (t - k)%nat else 0.
(** y[t] = a0 x[t] + a1 x[t-1] + a2 x[t-2] - a3 y[t-1] - a4 y[t-2] *)
Definition difference_equation (a0 a1 a2 a3 a4 : R) (x y : nat -> R) : Prop :=
  forall t, y t = a0 * x t + a1 * ago x t 1 + a2 * ago x t 2 - a3 * ago y t 1 - a4 * ago y t 2.

(** both poles, the complex roots u + iv of z^2 + a3 z + a4, are strictly inside the unit circle *)
Definition poles_inside (a3 a4 : R) : Prop :=
  forall u v, u * u - v * v + a3 * u + a4 = 0 -> 2 * u * v + a3 * v = 0 -> u * u + v * v < 1.

(** both poles have modulus at most r *)
Definition pole_radius (r a3 a4 : R) : Prop := 0 < r /\ Rabs a4 <= r * r /\ Rabs a3 * r <= r * r + a4.

(** a sinusoid of amplitude A, angular frequency w per sample and phase ph: w = 0 is a constant,
    w = PI alternates in sign every sample *)
Definition tone (A w ph : R) (t : nat) : R := A * cos (w * INR t + ph).
(** y approaches z *)
Definition settles_to (y z : nat -> R) : Prop :=
  forall eps, 0 < eps -> exists n, forall t, (n <= t)%nat -> Rabs (y t - z t) < eps.
(** A system (signals to signals) has gain g and phase shift th at w: whatever the amplitude and the phase
    of the sinusoid fed to it, the output settles to the sinusoid g times as large, shifted by th. *)
Definition response (sys : (nat -> R) -> nat -> R) (w g th : R) : Prop :=
  forall A ph, settles_to (sys (tone A w ph)) (tone (g * A) w (ph + th)).

(** energy of the first n samples *)
Fixpoint energy (x : nat -> R) (n : nat) : R := match n with O => 0 | S m => energy x m + x m * x m end.
