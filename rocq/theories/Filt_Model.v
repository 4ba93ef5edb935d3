(** Model of the first-order filters: fx/lowpass.hpp (fixed_pt_leaky_integrator,
    leaky_integrator, one_pole_lowpass), fx/moving_average.hpp (exp_moving_average,
    rt_exp_moving_average, moving_average2), fx/special.hpp (dc_block).  Each step returns
    the new value of y, which is also the output.  The coefficients computed in long double
    (lowpass.hpp:71, 108, special.hpp:79) are parameters: see [cutoff_coeff] in Filt_Spec. *)
From Flocq Require Import Core.Core IEEE754.BinarySingleNaN.
From Verif Require Import Common Float Env_Model.

(** lowpass.hpp:41-45, T = int: truncating division; [None] if a result leaves int *)
Definition in_int (z : Z) : bool := ((-2147483648 <=? z) && (z <=? 2147483647))%Z.
Definition chk (z : Z) : option Z := if in_int z then Some z else None.
Definition fpli_step (k y s : Z) : option Z :=
  do q <- (if (k =? 0)%Z then None else chk (Z.quot y k)) ;
  do d <- chk (s - q)%Z ;
  chk (y + d)%Z.
Fixpoint fpli_run (k y : Z) (xs : list Z) : option Z :=
  match xs with [] => Some y | s :: t => do y' <- fpli_step k y s ; fpli_run k y' t end.

(** lowpass.hpp:74-77 *)
Definition leaky_step (a y s : f32) : f32 := fadd s (fmul a (fsub y s)).
(** lowpass.hpp:111-114 *)
Definition lowpass_step (a y s : f32) : f32 := fadd y (fmul a (fsub s y)).
(** lowpass.hpp:107-109, 126-129: 1.0 - fast_exp3(x): the float result is promoted to double,
    the difference narrowed to float *)
Definition lowpass_coeff (x : f32) : f32 := to32 (fsub (mk64 1 0) (to64 (fast_exp3 x))).

(** moving_average.hpp:145-146, 178-179: b = 2.0f/(n+1), b_ = 1.0f - b; n+1 is computed in
    size_t (exp_moving_average, n is a template argument) and converted to float *)
Definition ema_b (n : Z) : f32 := fdiv (mk32 2 0) (mk32 (n + 1) 0).
Definition ema_b' (n : Z) : f32 := fsub (mk32 1 0) (ema_b n).
(** moving_average.hpp:152-155, 192-195 *)
Definition ema_step (b b' y s : f32) : f32 := fadd (fmul b s) (fmul b' y).
(** rt_exp_moving_average, moving_average.hpp:175-215: members b, b_, y; length(n) and
    width(n) (187-190, 208-211) assign b only *)
Record rt_ema := mkRt { rt_b : f32; rt_b' : f32; rt_y : f32 }.
Definition rt_make (n : Z) (y : f32) : rt_ema := mkRt (ema_b n) (ema_b' n) y.
Definition rt_length (r : rt_ema) (n : Z) : rt_ema := mkRt (ema_b n) (rt_b' r) (rt_y r).
Definition rt_step (r : rt_ema) (s : f32) : rt_ema :=
  mkRt (rt_b r) (rt_b' r) (ema_step (rt_b r) (rt_b' r) (rt_y r) s).
Fixpoint rt_run (r : rt_ema) (xs : list f32) : rt_ema :=
  match xs with [] => r | s :: t => rt_run (rt_step r s) t end.

(** moving_average.hpp:226-229: (s + y) / 2 *)
Definition ma2_step (y s : f32) : f32 := fdiv (fadd s y) (mk32 2 0).

(** special.hpp:82-87: y = s - x + _pole * y; x = s *)
Definition dc_step (pole : f32) (st : f32 * f32) (s : f32) : f32 * f32 :=
  let '(x, y) := st in (s, fadd (fsub s x) (fmul pole y)).

(** outputs of a filter whose state is its last output *)
Fixpoint filt_run (step : f32 -> f32 -> f32) (y : f32) (xs : list f32) : list f32 :=
  match xs with [] => [] | s :: t => step y s :: filt_run step (step y s) t end.
Fixpoint filt_last (step : f32 -> f32 -> f32) (y : f32) (xs : list f32) : f32 :=
  match xs with [] => y | s :: t => filt_last step (step y s) t end.
Fixpoint dc_run (pole : f32) (st : f32 * f32) (xs : list f32) : list f32 :=
  match xs with [] => [] | s :: t => let st' := dc_step pole st s in snd st' :: dc_run pole st' t end.
