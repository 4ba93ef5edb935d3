(** Model of utility/interpolation.hpp, utility/fractional_ring_buffer.hpp and the
    fractional [delay] of fx/delay.hpp in binary32. *)
From Flocq Require Import Core.Core IEEE754.BinarySingleNaN.
From Verif Require Import Common Ring_Model Float.

(** [std::size_t(index)] for a float index: truncation; undefined ([None]) for NaN, infinity
    or a truncated value outside size_t (used at interpolation.hpp:22, 31, 32). *)
Definition to_size (index : f32) : option N :=
  match ftrunc index with
  | Some z => if ((0 <=? z) && (z <? 2 ^ 64))%Z then Some (Z.to_N z) else None
  | None => None
  end.
(** support/base.hpp:114-117 *)
Definition linear_interpolate (y1 y2 mu : f32) : f32 := fadd y1 (fmul mu (fsub y2 y1)).
(** [index - std::floor(index)], interpolation.hpp:33 *)
Definition frac_mu (index : f32) : f32 := fsub index (ffloor index).

(** The class templates, generic in the sample type T, the Index type (with its
    conversion to size_t) and the arithmetic of the interpolation. *)
Section Frac.
Context {T I : Type} (zero : T) (tosize : I -> option N) (interp : T -> T -> I -> T).

(** interpolation.hpp:26-36 [linear] on a ring_buffer, i.e.
    fractional_ring_buffer.hpp:35-39 [operator[]] (default interpolation, line 22). *)
Definition gfrac_get (r : ring T) (index : I) : option T :=
  do i <- tosize index ;
  do y1 <- rb_get r i ;
  do y2 <- rb_get r (add64 i 1) ;
  Some (interp y1 y2 index).
(** interpolation.hpp:17-24 [none] *)
Definition gfrac_get_none (r : ring T) (index : I) : option T :=
  do i <- tosize index ; rb_get r i.

(** fx/delay.hpp:66-68 with Base = fractional_ring_buffer (storage value-initialised) *)
Definition gdelay_make (n : N) : option (ring T) := rb_make zero n.
(** fx/delay.hpp:85-91 [operator()(float val, Index i)]: read, then push *)
Definition gdelay_step (r : ring T) (x : T) (index : I) : option (T * ring T) :=
  do y <- gfrac_get r index ;
  do r' <- rb_push r x ;
  Some (y, r').
Fixpoint gdelay_run (r : ring T) (calls : list (T * I)) : option (list T) :=
  match calls with
  | [] => Some []
  | (x, i) :: cs =>
      do yr <- gdelay_step r x i ;
      do ys <- gdelay_run (snd yr) cs ;
      Some (fst yr :: ys)
  end.
End Frac.

(** [delay] of fx/delay.hpp:100: float samples, float index *)
Definition lerp (y1 y2 index : f32) : f32 := linear_interpolate y1 y2 (frac_mu index).
Definition delay_make : N -> option (ring f32) := gdelay_make fzero.
Definition delay_run : ring f32 -> list (f32 * f32) -> option (list f32) := gdelay_run to_size lerp.
