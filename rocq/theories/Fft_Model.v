(** Model of q_lib/include/q/fft/fft.hpp, generic in the arithmetic of the data: the code
    computes in double ([arith64]); the theorems about exact arithmetic use the real numbers
    ([arithR] in Fft_Spec).  [None]: an access outside the array, or a signed overflow. *)
From Coq Require Import ZArith NArith List Bool.
From Verif Require Import Common Float.
Import ListNotations.
Local Open Scope nat_scope.

(** the operators applied to the data and the two compile-time functions of fft.hpp:31-45;
    [a_sin B A] is detail::sin(B, A) = sin(A pi / B) *)
Record arith (T : Type) := Arith
  { a_zero : T; a_one : T; a_mtwo : T; a_add : T -> T -> T; a_sub : T -> T -> T; a_mul : T -> T -> T;
    a_neg : T -> T; a_sin : nat -> nat -> T }.
Arguments a_zero {T}. Arguments a_one {T}. Arguments a_mtwo {T}. Arguments a_add {T}. Arguments a_sub {T}.
Arguments a_mul {T}. Arguments a_neg {T}. Arguments a_sin {T}.

Section Fft.
Context {T : Type} (K : arith T).
Notation "x '+' y" := (a_add K x y) : fft_scope.
Notation "x '-' y" := (a_sub K x y) : fft_scope.
Notation "x '*' y" := (a_mul K x y) : fft_scope.
Delimit Scope fft_scope with T.

(** [data[i]] and [data[i] = v] on the caller's array *)
Definition rd (d : list T) (i : nat) : option T := nth_error d i.
Definition wr (d : list T) (i : nat) (v : T) : option (list T) :=
  if i <? length d then Some (lset d i v) else None.

(** fft.hpp:64-77, one iteration of the loop for [data + off]; [i] is the loop variable *)
Definition butterfly (N off i : nat) (w : T * T) (d : list T) : option (list T) :=
  do xr <- rd d (off + i + N) ; do xi <- rd d (off + i + N + 1) ;
  do ar <- rd d (off + i) ; do ai <- rd d (off + i + 1) ;
  let tempr := (xr * fst w - xi * snd w)%T in
  let tempi := (xr * snd w + xi * fst w)%T in
  do d <- wr d (off + i + N) (ar - tempr)%T ;
  do d <- wr d (off + i + N + 1) (ai - tempi)%T ;
  do d <- wr d (off + i) (ar + tempr)%T ;
  wr d (off + i + 1) (ai + tempi)%T.
(** fft.hpp:73-76: the next twiddle factor; [p] is (wpr, wpi) *)
Definition twiddle (p w : T * T) : T * T :=
  ((fst w + (fst w * fst p - snd w * snd p))%T, (snd w + (snd w * fst p + fst w * snd p))%T).
(** fft.hpp:64-77; [n] iterations are left *)
Fixpoint dl_loop (N off : nat) (p : T * T) (n i : nat) (w : T * T) (d : list T) : option (list T) :=
  match n with
  | O => Some d
  | S n => do d' <- butterfly N off i w d ; dl_loop N off p n (i + 2) (twiddle p w) d'
  end.
(** fft.hpp:57-61: (wpr, wpi) for size N *)
Definition step_factor (N : nat) : T * T :=
  let wtemp := a_neg K (a_sin K N 1) in
  ((a_mtwo K * wtemp * wtemp)%T, a_neg K (a_sin K N 2)).

(** fft.hpp:114-126 *)
Definition dl2 (off : nat) (d : list T) : option (list T) :=
  do tr <- rd d (off + 2) ; do ti <- rd d (off + 3) ; do a <- rd d off ; do b <- rd d (off + 1) ;
  do d <- wr d (off + 2) (a - tr)%T ; do d <- wr d (off + 3) (b - ti)%T ;
  do d <- wr d off (a + tr)%T ; wr d (off + 1) (b + ti)%T.
(** fft.hpp:85-110 *)
Definition dl4 (off : nat) (d : list T) : option (list T) :=
  do d <- dl2 off d ;
  (* 91-97 *)
  do tr <- rd d (off + 6) ; do ti <- rd d (off + 7) ; do a <- rd d (off + 4) ; do b <- rd d (off + 5) ;
  do d <- wr d (off + 6) (b - ti)%T ; do d <- wr d (off + 7) (tr - a)%T ;
  do d <- wr d (off + 4) (a + tr)%T ; do d <- wr d (off + 5) (b + ti)%T ;
  (* 99-104 *)
  do tr <- rd d (off + 4) ; do ti <- rd d (off + 5) ; do a <- rd d off ; do b <- rd d (off + 1) ;
  do d <- wr d (off + 4) (a - tr)%T ; do d <- wr d (off + 5) (b - ti)%T ;
  do d <- wr d off (a + tr)%T ; do d <- wr d (off + 1) (b + ti)%T ;
  (* 105-110 *)
  do tr <- rd d (off + 6) ; do ti <- rd d (off + 7) ; do a <- rd d (off + 2) ; do b <- rd d (off + 3) ;
  do d <- wr d (off + 6) (a - tr)%T ; do d <- wr d (off + 7) (b - ti)%T ;
  do d <- wr d (off + 2) (a + tr)%T ; wr d (off + 3) (b + ti)%T.
(** fft.hpp:47-126: danielson_lanczos<2^k>::apply(data + off); there is no instance for
    k = 0 (danielson_lanczos<1> would need <0>, ...) *)
Fixpoint dl (k off : nat) (d : list T) : option (list T) :=
  match k with
  | O => None
  | 1 => dl2 off d
  | 2 => dl4 off d
  | S k' =>
      let N := 2 ^ k in
      do d <- dl k' off d ; do d <- dl k' (off + N) d ;
      dl_loop N off (step_factor N) (N / 2) 0 (a_one K, a_zero K) d
  end.

Definition int_ok (n : nat) : bool := (N.of_nat n <? 2 ^ 31)%N.
(** fft.hpp:139-145: the inner loop and [j += m]; it runs while m >= 2, m is halved *)
Fixpoint next_j (fuel j m : nat) : option nat :=
  match fuel with
  | O => None
  | S f => if (2 <=? m) && (m <? j) then next_j f (j - m) (m / 2)
           else if int_ok (j + m) then Some (j + m) else None
  end.
Definition swap (d : list T) (a b : nat) : option (list T) :=
  do x <- rd d a ; do y <- rd d b ; do d <- wr d a y ; wr d b x.
(** fft.hpp:131-146 for the remaining [n] iterations, at i, j *)
Fixpoint scramble_loop (N n i j : nat) (d : list T) : option (list T) :=
  match n with
  | O => Some d
  | S n =>
      do d <- (if i <? j then do d <- swap d (j - 1) (i - 1) ; swap d j i else Some d) ;
      do j <- next_j 32 j N ;
      if int_ok (i + 2) then scramble_loop N n (i + 2) j d else None
  end.
(** fft.hpp:128-147; [int m = N] *)
Definition scramble (N : nat) (d : list T) : option (list T) :=
  if int_ok N then scramble_loop N N 1 1 d else None.
(** fft.hpp:150-156 for N = 2^k *)
Definition fft (k : nat) (d : list T) : option (list T) :=
  do d <- scramble (2 ^ k) d ; dl k 0 d.
End Fft.

(** base.hpp:34, the double nearest to the literal *)
Definition pi64 : f64 := mk64 884279719003555 (-48).
Definition nat64 (n : nat) : f64 := mk64 (Z.of_nat n) 0.
(** fft.hpp:31-35: [n] = (N - M)/2 levels are left, [x] = A*pi/B *)
Fixpoint sin_cos_series (n : nat) (M : Z) (x : f64) : f64 :=
  match n with
  | O => mk64 1 0
  | S n => fsub (mk64 1 0) (fmul (fdiv (fdiv (fmul x x) (mk64 M 0)) (mk64 (M + 1) 0)) (sin_cos_series n (M + 2) x))
  end.
(** [A*pi/B] *)
Definition angle64 (B A : nat) : f64 := fdiv (fmul (nat64 A) pi64) (nat64 B).
(** fft.hpp:37-40: 16 levels from M = 2 to 34 *)
Definition sin64 (B A : nat) : f64 := fmul (angle64 B A) (sin_cos_series 16 2 (angle64 B A)).
(** fft.hpp:42-45 (unused by the transform) *)
Definition cos64 (B A : nat) : f64 := sin_cos_series 16 1 (angle64 B A).
Definition arith64 : arith f64 :=
  Arith f64 fzero (mk64 1 0) (mk64 (-2) 0) fadd fsub fmul fneg sin64.
