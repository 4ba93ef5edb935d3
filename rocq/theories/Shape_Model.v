(** Model of fx/waveshaper.hpp in binary32 / binary64. *)
From Flocq Require Import Core.Core IEEE754.BinarySingleNaN.
From Verif Require Import Common Float.

(** clip::operator(), waveshaper.hpp:28-31 *)
Definition clip (mx s : f32) : f32 :=
  if fgt s mx then mx else if flt s (fneg mx) then fneg mx else s.

(** soft_clip::operator(), waveshaper.hpp:41-45; the literals 1.5 and 0.5 are double, so
    the polynomial is evaluated in double from left to right and rounded to float on
    return.  [_max] is the default 1.0f (25-26). *)
Definition soft_clip (s : f32) : f32 :=
  let s := to64 (clip (mk32 1 0) s) in
  to32 (fsub (fmul (mk64 3 (-1)) s) (fmul (fmul (fmul (mk64 1 (-1)) s) s) s)).
