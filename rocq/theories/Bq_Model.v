(** Model of fx/biquad.hpp (biquad and the cookbook designs), fx/allpass.hpp (one_pole_allpass,
    polyphase_allpass) and hilbert_quadrature of fx/special.hpp.

    The code is written once over a record of arithmetic operations and instantiated twice: with
    IEEE binary32 ([ops32], what the filters compute with), and with exact real numbers ([opsR]).
    The designs are computed in double ([ops64]) from sin and cos of libm and then converted to
    float; their real instance is the design the source comment refers to (Audio-EQ Cookbook). *)
From Coq Require Import Reals List.
From Flocq Require Import Core.Core IEEE754.BinarySingleNaN.
From Verif Require Import Common Float.
Import ListNotations.

Record ops (T : Type) := mkOps { zro : T; one : T; two : T; add : T -> T -> T; sub : T -> T -> T; mul : T -> T -> T; quo : T -> T -> T; neg : T -> T }.
Arguments zro {T}. Arguments one {T}. Arguments two {T}. Arguments add {T}. Arguments sub {T}. Arguments mul {T}.
Arguments quo {T}. Arguments neg {T}.
Definition opsR : ops R := mkOps R 0%R 1%R 2%R Rplus Rminus Rmult Rdiv Ropp.
Definition ops32 : ops f32 := mkOps f32 fzero (mk32 1 0) (mk32 1 1) fadd fsub fmul fdiv fneg.
Definition ops64 : ops f64 := mkOps f64 fzero (mk64 1 0) (mk64 1 1) fadd fsub fmul fdiv fneg.

(** biquad.hpp:18-60: coefficients a0..a4 and the four sample delays *)
Record coefs (T : Type) := mkCoefs { k0 : T; k1 : T; k2 : T; k3 : T; k4 : T }.
Arguments mkCoefs {T}. Arguments k0 {T}. Arguments k1 {T}. Arguments k2 {T}. Arguments k3 {T}. Arguments k4 {T}.
Record biquad (T : Type) := mkBq { bq_c : coefs T; bx1 : T; bx2 : T; by1 : T; by2 : T }.
Arguments mkBq {T}. Arguments bq_c {T}. Arguments bx1 {T}. Arguments bx2 {T}. Arguments by1 {T}. Arguments by2 {T}.

(** biquad.hpp:22-25 *)
Definition bq_make {T} (o : ops T) (c : coefs T) : biquad T := mkBq c (zro o) (zro o) (zro o) (zro o).
(** biquad.hpp:27-41; a0 * s + a1 * x1 + a2 * x2 - a3 * y1 - a4 * y2 associates to the left *)
Definition bq_step {T} (o : ops T) (b : biquad T) (s : T) : biquad T * T :=
  let c := bq_c b in
  let r := sub o (sub o (add o (add o (mul o (k0 c) s) (mul o (k1 c) (bx1 b))) (mul o (k2 c) (bx2 b)))
                        (mul o (k3 c) (by1 b))) (mul o (k4 c) (by2 b)) in
  (mkBq c s (bx1 b) r (by1 b), r).
(** biquad.hpp:43-50: the coefficients change, the delays stay *)
Definition bq_config {T} (b : biquad T) (c : coefs T) : biquad T := mkBq c (bx1 b) (bx2 b) (by1 b) (by2 b).

(** the filter fed with the samples x 0, x 1, ...: state after n samples and the n-th output *)
Fixpoint bq_feed {T} (o : ops T) (b : biquad T) (x : nat -> T) (n : nat) : biquad T :=
  match n with O => b | S m => fst (bq_step o (bq_feed o b x m) (x m)) end.
Definition bq_out {T} (o : ops T) (b : biquad T) (x : nat -> T) (n : nat) : T := snd (bq_step o (bq_feed o b x n) (x n)).

(** the same when config(c k) is called before sample k (every history of config calls is of this
    form: repeating the old coefficients changes nothing) *)
Fixpoint bq_feed_cfg {T} (o : ops T) (b : biquad T) (c : nat -> coefs T) (x : nat -> T) (n : nat) : biquad T :=
  match n with O => b | S m => fst (bq_step o (bq_config (bq_feed_cfg o b c x m) (c m)) (x m)) end.
Definition bq_out_cfg {T} (o : ops T) (b : biquad T) (c : nat -> coefs T) (x : nat -> T) (n : nat) : T :=
  snd (bq_step o (bq_config (bq_feed_cfg o b c x n) (c n)) (x n)).

(** ** Designs (biquad.hpp:70-325).  biquad.hpp:74-109: the working values of config_biquad *)
Record design (T : Type) := mkDesign { d_b0 : T; d_b1 : T; d_b2 : T; d_a0 : T; d_a1 : T; d_a2 : T }.
Arguments mkDesign {T}. Arguments d_b0 {T}. Arguments d_b1 {T}. Arguments d_b2 {T}. Arguments d_a0 {T}. Arguments d_a1 {T}. Arguments d_a2 {T}.
(** biquad.hpp:96-104: b0/a0, b1/a0, b2/a0, a1/a0, a2/a0, converted to the sample type by [cv] *)
Definition design_coefs {T U} (o : ops T) (cv : T -> U) (d : design T) : coefs U :=
  mkCoefs (cv (quo o (d_b0 d) (d_a0 d))) (cv (quo o (d_b1 d) (d_a0 d))) (cv (quo o (d_b2 d) (d_a0 d)))
          (cv (quo o (d_a1 d) (d_a0 d))) (cv (quo o (d_a2 d) (d_a0 d))).

(** biquad.hpp:90-94: alpha = sin / (2 * q) *)
Definition alpha_q {T} (o : ops T) (sn q : T) : T := quo o sn (mul o (two o) q).

Section Designs.
Context {T : Type} (o : ops T).
(** sin, cos: std::sin(omega), std::cos(omega); al: alpha; a: pow(10, dB/40); be: sqrt(a + a) *)
Variables (sn cs al a be : T).
Local Notation "1" := (one o). Local Notation "2" := (two o).
Local Infix "+" := (add o). Local Infix "-" := (sub o). Local Infix "*" := (mul o). Local Infix "/" := (quo o).
Local Notation "- x" := (neg o x).
Local Notation m2 := (neg o (two o)). (* the literal -2.0 *)
(** biquad.hpp:132-140 *)
Definition cfg_lowpass : design T := mkDesign ((1 - cs) / 2) (1 - cs) ((1 - cs) / 2) (1 + al) (m2 * cs) (1 - al).
(** biquad.hpp:153-161 *)
Definition cfg_highpass : design T := mkDesign ((1 + cs) / 2) (- (1 + cs)) ((1 + cs) / 2) (1 + al) (m2 * cs) (1 - al).
(** biquad.hpp:179-187 *)
Definition cfg_bandpass_csg : design T := mkDesign (sn / 2) (zro o) (- sn / 2) (1 + al) (m2 * cs) (1 - al).
(** biquad.hpp:205-213 *)
Definition cfg_bandpass_cpg : design T := mkDesign al (zro o) (- al) (1 + al) (m2 * cs) (1 - al).
(** biquad.hpp:231-239 *)
Definition cfg_notch : design T := mkDesign 1 (m2 * cs) 1 (1 + al) (m2 * cs) (1 - al).
(** biquad.hpp:251-259 *)
Definition cfg_allpass : design T := mkDesign (1 - al) (m2 * cs) (1 + al) (1 + al) (m2 * cs) (1 - al).
(** biquad.hpp:277-285 *)
Definition cfg_peaking : design T := mkDesign (1 + al * a) (m2 * cs) (1 - al * a) (1 + al / a) (m2 * cs) (1 - al / a).
(** biquad.hpp:297-305; alpha is not used *)
Definition cfg_lowshelf : design T :=
  mkDesign (a * ((a + 1) - (a - 1) * cs + be * sn)) (2 * a * ((a - 1) - (a + 1) * cs)) (a * ((a + 1) - (a - 1) * cs - be * sn))
           ((a + 1) + (a - 1) * cs + be * sn) (m2 * ((a - 1) + (a + 1) * cs)) ((a + 1) + (a - 1) * cs - be * sn).
(** biquad.hpp:317-325; alpha is not used *)
Definition cfg_highshelf : design T :=
  mkDesign (a * ((a + 1) + (a - 1) * cs + be * sn)) (m2 * a * ((a - 1) + (a + 1) * cs)) (a * ((a + 1) + (a - 1) * cs - be * sn))
           ((a + 1) - (a - 1) * cs + be * sn) (2 * ((a - 1) - (a + 1) * cs)) ((a + 1) - (a - 1) * cs - be * sn).
End Designs.

(** The designs over the exact reals, from the public parameters.  biquad.hpp:76-80 (omega, sin,
    cos), 82-86 (alpha from a bandwidth in octaves), 116-120 (a, beta).  Simplified: exact pi, sin,
    cos, sinh, log, pow and sqrt instead of libm's doubles. *)
Section RealDesigns.
Local Open Scope R_scope.
Inductive width := Q (q : R) | BW (octaves : R).
Definition omega (f sps : R) : R := 2 * PI * f / sps.
Definition alpha (f sps : R) (w : width) : R :=
  match w with
  | Q q => alpha_q opsR (sin (omega f sps)) q
  | BW v => sin (omega f sps) * sinh (ln 2 / 2 * v * omega f sps / sin (omega f sps))
  end.
Definition amp (db : R) : R := Rpower 10 (db / 40).
Inductive shape := Lowpass | Highpass | Bandpass_csg | Bandpass_cpg | Notch | Allpass | Peaking (db : R) | Lowshelf (db : R) | Highshelf (db : R).
Definition cfg (s : shape) (f sps : R) (w : width) : design R :=
  let sn := sin (omega f sps) in let cs := cos (omega f sps) in let al := alpha f sps w in
  match s with
  | Lowpass => cfg_lowpass opsR cs al
  | Highpass => cfg_highpass opsR cs al
  | Bandpass_csg => cfg_bandpass_csg opsR sn cs al
  | Bandpass_cpg => cfg_bandpass_cpg opsR cs al
  | Notch => cfg_notch opsR cs al
  | Allpass => cfg_allpass opsR cs al
  | Peaking db => cfg_peaking opsR cs al (amp db)
  | Lowshelf db => cfg_lowshelf opsR sn cs (amp db) (sqrt (amp db + amp db))
  | Highshelf db => cfg_highshelf opsR sn cs (amp db) (sqrt (amp db + amp db))
  end.
(** biquad.hpp:330-660: the constructor of each filter class, e.g. lowpass(f, sps, q) *)
Definition bq_design (s : shape) (f sps : R) (w : width) : biquad R :=
  bq_make opsR (design_coefs opsR (fun x => x) (cfg s f sps w)).
End RealDesigns.
(** The same in double, from the values libm returned for sin, cos, alpha, pow and sqrt. *)
Definition bq_design64 (d : design f64) : biquad f32 := bq_make ops32 (design_coefs ops64 to32 d).

(** ** allpass.hpp:18-44 *)
Definition ap_step {T} (o : ops T) (a y s : T) : T * T :=
  let out := add o y (mul o a s) in (sub o s (mul o a out), out).
Fixpoint ap_feed {T} (o : ops T) (a y : T) (x : nat -> T) (n : nat) : T :=
  match n with O => y | S m => fst (ap_step o a (ap_feed o a y x m) (x m)) end.
Definition ap_out {T} (o : ops T) (a y : T) (x : nat -> T) (n : nat) : T := snd (ap_step o a (ap_feed o a y x n) (x n)).
(** allpass.hpp:26-28, 38-41: the pole for a 90 degree shift at f.  Simplified: exact tan instead
    of fasttan. *)
Definition ap_pole (f sps : R) : R := (tan (PI * f / sps - PI / 4))%R.

(** allpass.hpp:49-73 *)
Record polyphase (T : Type) := mkPp { pa : T; px1 : T; px2 : T; py1 : T; py2 : T }.
Arguments mkPp {T}. Arguments pa {T}. Arguments px1 {T}. Arguments px2 {T}. Arguments py1 {T}. Arguments py2 {T}.
Definition pp_make {T} (o : ops T) (a : T) : polyphase T := mkPp a (zro o) (zro o) (zro o) (zro o).
Definition pp_step {T} (o : ops T) (p : polyphase T) (s : T) : polyphase T * T :=
  let r := sub o (mul o (pa p) (add o s (py2 p))) (px2 p) in
  (mkPp (pa p) s (px1 p) r (py1 p), r).
Fixpoint pp_feed {T} (o : ops T) (p : polyphase T) (x : nat -> T) (n : nat) : polyphase T :=
  match n with O => p | S m => fst (pp_step o (pp_feed o p x m) (x m)) end.
Definition pp_out {T} (o : ops T) (p : polyphase T) (x : nat -> T) (n : nat) : T := snd (pp_step o (pp_feed o p x n) (x n)).

(** special.hpp:260-282: hilbert_quadrature: four polyphase allpasses and a delay1 on the first
    branch, four on the second.  (The order in which a braced list is evaluated is left to right.)
    fx/delay.hpp delay1: returns the previous input. *)
Record hilbert (T : Type) := mkHil { h_a : polyphase T; h_b : polyphase T; h_c : polyphase T; h_d : polyphase T; h_dly : T;
  h_w : polyphase T; h_x : polyphase T; h_y : polyphase T; h_z : polyphase T }.
Arguments mkHil {T}. Arguments h_a {T}. Arguments h_b {T}. Arguments h_c {T}. Arguments h_d {T}. Arguments h_dly {T}.
Arguments h_w {T}. Arguments h_x {T}. Arguments h_y {T}. Arguments h_z {T}.
Definition hil_step {T} (o : ops T) (h : hilbert T) (s : T) : hilbert T * (T * T) :=
  let (a, sa) := pp_step o (h_a h) s in
  let (b, sb) := pp_step o (h_b h) sa in
  let (c, sc) := pp_step o (h_c h) sb in
  let (d, sd) := pp_step o (h_d h) sc in
  let (w, sw) := pp_step o (h_w h) s in
  let (x, sx) := pp_step o (h_x h) sw in
  let (y, sy) := pp_step o (h_y h) sx in
  let (z, sz) := pp_step o (h_z h) sy in
  (mkHil a b c d sd w x y z, (h_dly h, sz)).
Definition hil_make {T} (o : ops T) (a b c d w x y z : T) : hilbert T :=
  mkHil (pp_make o a) (pp_make o b) (pp_make o c) (pp_make o d) (zro o) (pp_make o w) (pp_make o x) (pp_make o y) (pp_make o z).
Fixpoint hil_feed {T} (o : ops T) (h : hilbert T) (x : nat -> T) (n : nat) : hilbert T :=
  match n with O => h | S m => fst (hil_step o (hil_feed o h x m) (x m)) end.
Definition hil_out {T} (o : ops T) (h : hilbert T) (x : nat -> T) (n : nat) : T * T := snd (hil_step o (hil_feed o h x n) (x n)).
(** special.hpp:271-279: the pole coefficients as real numbers *)
Definition hil_R : hilbert R :=
  hil_make opsR (47940086558884 / 100000000000000)%R (87621849353931 / 100000000000000)%R (976597589508199 / 1000000000000000)%R (997499255935549 / 1000000000000000)%R
    (161758498367701 / 1000000000000000)%R (733028932341491 / 1000000000000000)%R (945349700329113 / 1000000000000000)%R (990599156684529 / 1000000000000000)%R.
(** the same converted to float: decimal -> double -> float; dec n k is the double nearest to n/10^k *)
Definition dec (n : Z) (k : Z) : f64 := fdiv (mk64 n 0) (mk64 (10 ^ k) 0).
Definition hil_32 : hilbert f32 :=
  hil_make ops32 (to32 (dec 47940086558884 14)) (to32 (dec 87621849353931 14)) (to32 (dec 976597589508199 15)) (to32 (dec 997499255935549 15))
    (to32 (dec 161758498367701 15)) (to32 (dec 733028932341491 15)) (to32 (dec 945349700329113 15)) (to32 (dec 990599156684529 15)).
