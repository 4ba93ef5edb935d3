(** support/base.hpp:44-170 and detail/fast_math.hpp: the fast approximations.
    Reinterpreting a float as an integer and back (reinterpret_cast, union) is modelled as the IEEE
    binary32 encoding; the payload of a NaN is not modelled. *)
From Coq Require Import ZArith List Bool.
From Flocq Require Import Core.Core IEEE754.BinarySingleNaN.
From Verif Require Import Common Float Db_Model Fft_Model.
Import ListNotations.
Local Open Scope Z_scope.

(** the encoding of a float in 32 bits: sign, 8 bits of exponent, 23 bits of fraction *)
Definition bits_of (x : f32) : Z :=
  let sg (s : bool) := if s then 2 ^ 31 else 0 in
  match x with
  | B754_zero s => sg s
  | B754_infinity s => sg s + 255 * 2 ^ 23
  | B754_nan => 255 * 2 ^ 23 + 2 ^ 22
  | B754_finite s m e _ => sg s + (if Zpos m <? 2 ^ 23 then Zpos m else (e + 150) * 2 ^ 23 + (Zpos m - 2 ^ 23))
  end.
(** the float encoded by 32 bits *)
Definition of_bits (n : Z) : f32 :=
  let e := n / 2 ^ 23 mod 256 in
  let f := n mod 2 ^ 23 in
  let a := if e =? 255 then (if f =? 0 then B754_infinity false else B754_nan)
           else if e =? 0 then mk32 f (-149) else mk32 (2 ^ 23 + f) (e - 150) in
  if n / 2 ^ 31 mod 2 =? 1 then fneg a else a.
(** the decimal literal n / 10^k as a float of exponent -e: the nearest multiple of 2^-e *)
Definition lit (n k e : Z) : f32 := mk32 ((2 * n * 2 ^ e + 10 ^ k) / (2 * 10 ^ k)) (- e).

(** base.hpp:125-130 [fast_inverse]: on the bits taken as a signed 32-bit integer; [None]: signed overflow *)
Definition fast_inverse (val : f32) : option f32 :=
  let u := bits_of val in
  let x := if u <? 2 ^ 31 then u else u - 2 ^ 32 in
  let y := 0x7EF311C2 - x in
  if (- 2 ^ 31 <=? y) && (y <? 2 ^ 31) then Some (of_bits (y mod 2 ^ 32)) else None.
(** base.hpp:135-138 [fast_div] *)
Definition fast_div (a b : f32) : option f32 := option_map (fmul a) (fast_inverse b).

(** fast_math.hpp:383-390 [fasterlog2] (base.hpp:143-146 [fast_log2]): the bits converted to float,
    times 2^-23, minus 126.94269504f *)
Definition c_log : f32 := lit 12694269504 8 17.
Definition fast_log2 (x : f32) : f32 := fsub (fmul (mk32 (bits_of x) 0) (mk32 1 (-23))) c_log.
(** base.hpp:159-162 [fast_log10] *)
Definition fast_log10 (x : f32) : f32 := fmul (lit 301029995663981 15 25) (fast_log2 x).
(** fast_math.hpp:250-256 [fasterpow2] (base.hpp:151-154 [fast_pow2]); [None]: the conversion to
    uint32_t is undefined *)
Definition fast_pow2 (p : f32) : option f32 :=
  let clipp := if flt p (mk32 (-126) 0) then mk32 (-126) 0 else p in
  do i <- to_u32 (fmul (mk32 1 23) (fadd clipp c_log)) ;
  Some (of_bits i).
(** fast_math.hpp:1190-1195 [fasterpow] with x = 10 (base.hpp:167-170 [fast_pow10]) *)
Definition fast_pow10 (x : f32) : option f32 := fast_pow2 (fmul x (fast_log2 (mk32 10 0))).

(** base.hpp:71-109 [fast_exp3] ... [fast_exp9]: (c_0 + x (c_1 + ... x (c_n + x))) * k; the c_i are ints
    converted to float *)
Fixpoint horner (cs : list Z) (x : f32) : f32 :=
  match cs with
  | [] => x
  | c :: cs' => fadd (mk32 c 0) (match cs' with [] => x | _ => fmul x (horner cs' x) end)
  end.
Definition fast_exp4 (x : f32) : f32 := fmul (horner [24; 24; 12; 4] x) (lit 41666666 9 28).
Definition fast_exp5 (x : f32) : f32 := fmul (horner [120; 120; 60; 20; 5] x) (lit 83333333 10 30).
Definition fast_exp6 (x : f32) : f32 := fmul (horner [720; 720; 360; 120; 30; 6] x) (lit 13888888 10 33).
Definition fast_exp7 (x : f32) : f32 := fmul (horner [5040; 5040; 2520; 840; 210; 42; 7] x) (lit 19841269 11 36).
Definition fast_exp8 (x : f32) : f32 := fmul (horner [40320; 40320; 20160; 6720; 1680; 336; 56; 8] x) (lit 24801587301 15 39).
Definition fast_exp9 (x : f32) : f32 := fmul (horner [362880; 362880; 181440; 60480; 15120; 3024; 504; 72; 9] x) (lit 275573192 14 42).
(** base.hpp:48-58 [fast_tan] *)
Definition fast_tan (x : f32) : f32 :=
  let sqr := fmul x x in
  let r := lit 2033 4 26 in
  let r := fmul r sqr in
  let r := fadd r (lit 31755 5 25) in
  let r := fmul r sqr in
  let r := fadd r (mk32 1 0) in
  fmul r x.
(** base.hpp:63-66 [fast_rational_tanh] *)
Definition fast_rational_tanh (x : f32) : f32 :=
  fdiv (fmul x (fadd (mk32 27 0) (fmul x x))) (fadd (mk32 27 0) (fmul (fmul (mk32 9 0) x) x)).

(** fast_math.hpp:1353-1376 [fastsin]: [fabs]: the sign bit cleared; [sgn c x]: the sign of x put on, or
    (s.i ^= sign) exclusive-ored into, the constant c *)
Definition sign_bit (x : f32) : bool := Bsign x.
Definition flip (s : bool) (c : f32) : f32 := if s then fneg c else c.
Definition fastsin (x : f32) : f32 :=
  let qpprox := fsub (fmul (lit 12732395447351627 16 23) x) (fmul (fmul (lit 40528473456935109 17 25) x) (Babs x)) in
  let qpproxsq := fmul qpprox qpprox in
  let s := sign_bit x in
  fadd (fmul (lit 78444488374548933 17 24) qpprox)
    (fmul qpproxsq (fadd (flip s (lit 20363937680730309 17 26))
      (fmul qpproxsq (fadd (flip s (lit 15124940802184233 18 30))
        (fmul qpproxsq (flip s (fneg (lit 32225901625579573 19 32)))))))).
(** fast_math.hpp:1455-1460 [fasttan] *)
Definition halfpi : f32 := lit 15707963267948966 16 23.
Definition fasttan (x : f32) : f32 := fdiv (fastsin x) (fastsin (fadd x halfpi)).
(** fx/allpass.hpp:26-28 and 38-41 [one_pole_allpass(freq, sps)], [pivot]: the pole
    fasttan(pi * double(freq) / sps - 0.25_pi); sps: uint32_t converted to double. 0.25_pi is a long double:
    the subtraction is modelled in double (as where long double is double), and the theorems on [fasttan]
    hold for every float within 10^-7 of the exact angle, so for a wider subtraction as well *)
Definition ap_angle32 (freq : f64) (sps : Z) : f32 := to32 (fsub (fdiv (fmul pi64 freq) (mk64 sps 0)) (mk64 884279719003555 (-50))).
Definition ap_pole32 (freq : f64) (sps : Z) : f32 := fasttan (ap_angle32 freq sps).
