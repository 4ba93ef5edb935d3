(** basic_moving_sum<float> and basic_moving_average<float>
    (fx/moving_average.hpp:19-121): samples are binary32, the accumulator
    decltype(promote(float())) is binary64 (infra's promote, external: assumed). *)
From Coq Require Import Reals.
From Flocq Require Import Core.Core IEEE754.BinarySingleNaN.
From Verif Require Import Common Ring_Model MovSum_Model Float.

Definition fs_make := ms_make (T:=f32) fzero (fzero : f64).
(** moving_average.hpp:66: float times size_t is a float product, then widened *)
Definition fs_scale (v : f32) (n : N) : option f64 := Some (to64 (fmul v (mk32 (Z.of_N n) 0))).
Definition fs_run := ms_run (T:=f32) fzero (fzero : f64)
  (fun a s => Some (fadd a (to64 s))) (fun a s => Some (fsub a (to64 s))) fs_scale to32.
(** sum(), moving_average.hpp:47-50 *)
Definition fs_sum (m : movsum f32 f64) : f32 := to32 (ms_sum m).
(** moving_average.hpp:116-120: float divided by size_t is a float quotient *)
Definition fs_average (m : movsum f32 f64) : f32 := fdiv (fs_sum m) (mk32 (Z.of_N (ms_size m)) 0).
