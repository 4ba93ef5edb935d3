(** What a recorded edge means, in terms of the signal alone.

    The collector adds half the (negative) hysteresis to every sample; [h k] is the
    k-th such conditioned sample (k = 0, 1, ...), and [h (-1) = 0]. *)
From Flocq Require Import Core.Core IEEE754.BinarySingleNaN.
From Verif Require Import Common Float Zc_Model.
Local Open Scope Z_scope.

Definition conditioned (hyst : f32) (xs : list f32) (k : Z) : f32 :=
  if k <? 0 then fzero
  else nth (Z.to_nat k) (map (fun x => fadd x (fdiv hyst (mk32 2 0))) xs) fzero.

(** the sample that ends a pulse: not above zero, and below the hysteresis level *)
Definition closes (hyst s : f32) : Prop := flt fzero s = false /\ flt s hyst = true.

(** from position [lead] up to (not including) [up], with [o] the absolute position of
    frame 0: starts with a sample above zero, no sample closes it, [_crossing] holds the
    two samples around the leading edge and [_peak] is the largest sample *)
Record pulse_upto (h : Z -> f32) (hyst : f32) (o up : Z) (e : zinfo) : Prop := mkPulse
  { pu_abs   : 0 <= o + zi_lead e;
    pu_len   : zi_lead e < up;
    pu_curr  : zi_curr e = h (o + zi_lead e);
    pu_prev  : zi_prev e = h (o + zi_lead e - 1);
    pu_above : flt fzero (zi_curr e) = true;
    pu_ppos  : flt fzero (zi_peak e) = true;
    pu_open  : forall k, zi_lead e <= k < up -> ~ closes hyst (h (o + k));
    pu_peak  : exists k, zi_lead e <= k < up /\ zi_peak e = h (o + k);
    pu_max   : forall k, zi_lead e <= k < up -> flt (zi_peak e) (h (o + k)) = false }.

(** a completed pulse: ended by the sample at the trailing edge *)
Definition pulse (h : Z -> f32) (hyst : f32) (o : Z) (e : zinfo) : Prop :=
  pulse_upto h hyst o (zi_trail e) e /\ closes hyst (h (o + zi_trail e)).

(** no sample above zero strictly between two positions *)
Definition quiet (h : Z -> f32) (o a b : Z) : Prop :=
  forall k, a < k < b -> flt fzero (h (o + k)) = false.

(** The time (in samples, on the scale of the edges) at which the straight line through the two
    samples around a leading edge -- [_crossing.first] at lead-1, [_crossing.second] at lead --
    passes zero. *)
From Coq Require Import Reals.
Definition crossing (e : zinfo) : R :=
  (IZR (zi_lead e) - 1 + B2R (zi_prev e) / (B2R (zi_prev e) - B2R (zi_curr e)))%R.
(** the two samples are numbers on the two sides of zero, no more than 2^126 apart *)
Definition proper_crossing (e : zinfo) : Prop :=
  is_finite (zi_prev e) = true /\ is_finite (zi_curr e) = true /\
  (B2R (zi_prev e) <= 0 < B2R (zi_curr e))%R /\ (B2R (zi_curr e) - B2R (zi_prev e) <= bpow radix2 126)%R.
