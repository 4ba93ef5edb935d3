(** Specification for the transform: the discrete Fourier transform of N complex numbers,
    written with real sums, and the real numbers as arithmetic for the model. *)
From Coq Require Import Reals List.
From Verif Require Import Fft_Model.
Import ListNotations.
Local Open Scope R_scope.

(** f 0 + f 1 + ... + f (n-1) *)
Fixpoint sum (n : nat) (f : nat -> R) : R :=
  match n with O => 0 | S m => sum m f + f m end.
(** X_k = sum over n < N of (x n + i y n) * exp (- 2 pi i n k / N) *)
Definition phi (N n k : nat) : R := 2 * PI * INR n * INR k / INR N.
Definition dft_re (N : nat) (x y : nat -> R) (k : nat) : R :=
  sum N (fun n => x n * cos (phi N n k) + y n * sin (phi N n k)).
Definition dft_im (N : nat) (x y : nat -> R) (k : nat) : R :=
  sum N (fun n => y n * cos (phi N n k) - x n * sin (phi N n k)).

(** the interleaved layout: real and imaginary part of entry n *)
Definition re (d : list R) (n : nat) : R := nth (2 * n) d 0.
Definition im (d : list R) (n : nat) : R := nth (2 * n + 1) d 0.

(** exact arithmetic, exact sines *)
Definition arithR : arith R :=
  Arith R 0 1 (-2) Rplus Rminus Rmult Ropp (fun B A => sin (INR A * PI / INR B)).
