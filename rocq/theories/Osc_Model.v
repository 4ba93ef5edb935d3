(** Model of the oscillators (synth/saw, square, pulse, triangle, sin), of the
    anti-aliasing polynomials (utility/antialiasing.hpp), of table lookup
    (detail/table_lookup.hpp) and of the phase conversions (support/phase.hpp). *)
From Flocq Require Import Core.Core IEEE754.BinarySingleNaN.
From Verif Require Import Common Float Phase_Model Frac_Model Sin_Table.

(** implicit conversions uint32 / int32 -> float *)
Definition u2f (n : N) : f32 := mk32 (Z.of_N n) 0.
Definition i2f (z : Z) : f32 := mk32 z 0.
(** float(phase::one_cyc), the constants [2.0f / phase::one_cyc] (saw.hpp:21, 41) and
    [4.0f / phase::one_cyc] (triangle.hpp:21, 46) *)
Definition x2 : f32 := fdiv (mk32 2 0) (u2f one_cyc).
Definition x4 : f32 := fdiv (mk32 4 0) (u2f one_cyc).
Definition d1 : f64 := mk64 1 0.

(** saw.hpp:19-23: float product, double subtraction, float result *)
Definition saw_raw (p : N) : f64 := fsub (to64 (fmul (u2f p) x2)) d1.
Definition basic_saw (p : N) : f32 := to32 (saw_raw p).

(** square.hpp:19-23 *)
Definition basic_square (p : N) : f32 := if (p <? ph_middle)%N then mk32 1 0 else mk32 (-1) 0.
(** pulse.hpp:29-32, [shift] is the member _shift *)
Definition basic_pulse (shift p : N) : f32 := if (p <? shift)%N then mk32 1 0 else mk32 (-1) 0.

(** [std::int32_t(u)], two's complement *)
Definition to_int32 (u : N) : Z := if (u <? 2 ^ 31)%N then Z.of_N u else (Z.of_N u - 2 ^ 32)%Z.
(** base.hpp:39-43 [abs] on int32: [None] for the overflowing negation of INT_MIN *)
Definition abs32 (z : Z) : option Z :=
  if (z <? 0)%Z then (if (z =? - 2 ^ 31)%Z then None else Some (- z)%Z) else Some z.
(** triangle.hpp:19-23 *)
Definition tri_raw (u : N) : option f64 :=
  do a <- abs32 (to_int32 u) ; Some (fsub (to64 (fmul (i2f a) x4)) d1).
Definition basic_triangle (p : N) : option f32 := do r <- tri_raw p ; Some (to32 r).

(** antialiasing.hpp:13-31 *)
Definition poly_blep (p dt : N) : f32 :=
  if (p <? dt)%N then
    let t := fdiv (u2f p) (u2f dt) in
    fsub (fsub (fadd t t) (fmul t t)) (mk32 1 0)
  else if (sub32 ph_end dt <? p)%N then
    let t := fdiv (fneg (u2f (sub32 ph_end p))) (u2f dt) in
    fadd (fadd (fadd (fmul t t) t) t) (mk32 1 0)
  else fzero.

(** saw.hpp:38-46 *)
Definition saw (p dt : N) : f32 := to32 (fsub (saw_raw p) (to64 (poly_blep p dt))).
(** square.hpp:38-50 *)
Definition square (p dt : N) : f32 :=
  fsub (fadd (basic_square p) (poly_blep p dt)) (poly_blep (add32 p ph_middle) dt).
(** pulse.hpp:52-64 *)
Definition pulse (shift p dt : N) : f32 :=
  fsub (fadd (basic_pulse shift p) (poly_blep p dt)) (poly_blep (add32 p (sub32 ph_end shift)) dt).

(** antialiasing.hpp:33-51 with [scale] = 4 (the only use): evaluated in float, returned
    as double; [float(dt)] is phase.hpp:141-145 *)
Definition phase_to_float (p : N) : f32 := fdiv (u2f p) (mk32 1 32).
Definition blamp_c (neg : bool) : f32 :=
  fdiv (if neg then fneg (mk32 4 0) else mk32 4 0) (mk32 3 0).
Definition poly_blamp (p dt : N) : f64 :=
  if (p <? dt)%N then
    let t := fsub (fdiv (u2f p) (u2f dt)) (mk32 1 0) in
    to64 (fmul (fmul (fmul (fmul (blamp_c true) (phase_to_float dt)) t) t) t)
  else if (sub32 ph_end dt <? p)%N then
    let t := fadd (fneg (fdiv (u2f (sub32 ph_end p)) (u2f dt))) (mk32 1 0) in
    to64 (fmul (fmul (fmul (fmul (blamp_c false) (phase_to_float dt)) t) t) t)
  else to64 fzero.
(** triangle.hpp:38-60 *)
Definition edge1 : N := (ph_end / 4)%N.
Definition edge2 : N := sub32 ph_end edge1.
Definition triangle (p dt : N) : option f32 :=
  do r <- tri_raw (add32 p edge1) ;
  Some (to32 (fsub (fadd r (poly_blamp (add32 p edge1) dt)) (poly_blamp (add32 p edge2) dt))).

(** detail/sin_table.hpp:18: each literal is a double converted to float *)
Definition lit15 (d : Z) : f32 := to32 (fdiv (mk64 d 0) (mk64 (10 ^ 15) 0)).
Definition sin_table : list f32 := map lit15 sin_literals.
(** table_lookup.hpp:15-36: 10-bit index, 22-bit fraction times 2^-22 in float *)
Definition table_lookup (ph : N) (table : list f32) : option f32 :=
  let index := N.shiftr ph 22 in
  do v1 <- vget table index ;
  do v2 <- vget table (index + 1)%N ;
  Some (linear_interpolate v1 v2
          (fmul (u2f (N.land ph 4194303)) (fdiv (mk32 1 0) (i2f 4194304)))).
(** sin_table.hpp:150-153 [sin_gen], synth/sin.hpp:19-22 *)
Definition sin_synth (p : N) : option f32 := table_lookup p sin_table.

(** phase.hpp:118-126 [frac_phase(float)]: [None] for the failed assertion (also NaN) *)
Definition frac_phase (frac : f32) : option N :=
  if fge frac fzero then
    if fge frac (mk32 1 0) then Some ph_end
    else match ftrunc (fmul (mk32 1 32) frac) with
         | Some z => if ((0 <=? z) && (z <? 2 ^ 32))%Z then Some (Z.to_N z) else None
         | None => None
         end
  else None.
(** phase.hpp:108-116 [frac_phase(double)] *)
Definition frac_phase64 (frac : f64) : option N :=
  if fge frac fzero then
    if fge frac d1 then Some ph_end
    else match ftrunc (fmul (mk64 1 32) frac) with
         | Some z => if ((0 <=? z) && (z <? 2 ^ 32))%Z then Some (Z.to_N z) else None
         | None => None
         end
  else None.
(** phase.hpp:137-139: [(pow2<double>(32) * double(freq)) / sps]; [None] when the
    conversion to uint32 is undefined *)
Definition phase_of_freq (freq : f64) (sps : N) : option N :=
  match ftrunc (fdiv (fmul (mk64 1 32) freq) (mk64 (Z.of_N sps) 0)) with
  | Some z => if ((0 <=? z) && (z <? 2 ^ 32))%Z then Some (Z.to_N z) else None
  | None => None
  end.
(** phase.hpp:147-151 *)
Definition phase_to_double (p : N) : f64 := fdiv (mk64 (Z.of_N p) 0) (mk64 1 32).
