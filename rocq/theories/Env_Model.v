(** Model of fx/envelope.hpp: envelope_follower, peak_envelope_follower,
    basic_fast_envelope_follower, and of fast_exp3 (support/base.hpp).  Not modelled:
    smoothed_fast_envelope_follower, fast_rms_envelope_follower. *)
From Flocq Require Import Core.Core IEEE754.BinarySingleNaN.
From Verif Require Import Common Float.

(** support/base.hpp:71-74; the literal 0.16666666f is 8333333/50000000 rounded *)
Definition sixth : f32 := fdiv (mk32 8333333 0) (mk32 50000000 0).
Definition fast_exp3 (x : f32) : f32 :=
  fmul (fadd (mk32 6 0) (fmul x (fadd (mk32 6 0) (fmul x (fadd (mk32 3 0) x))))) sixth.

(** envelope.hpp:25-26, 69, 48-49: fast_exp3(-2.0f / (sps * double(d))); the quotient is a
    double narrowed to float *)
Definition env_coeff (sps : Z) (d : f64) : f32 :=
  fast_exp3 (to32 (fdiv (mk64 (-2) 0) (fmul (mk64 sps 0) d))).
(** envelope.hpp:52-60, 92-95: the same in float arithmetic *)
Definition env_coeff_f (sps : Z) (d : f32) : f32 :=
  fast_exp3 (fdiv (mk32 (-2) 0) (fmul (mk32 sps 0) d)).

(** envelope.hpp:29-32 *)
Definition ef_step (attack release y s : f32) : f32 :=
  fadd s (fmul (if fgt s y then attack else release) (fsub y s)).
(** envelope.hpp:73-80 *)
Definition pf_step (release y s : f32) : f32 :=
  if fgt s y then s else fadd s (fmul release (fsub y s)).
Fixpoint env_run (step : f32 -> f32 -> f32) (y : f32) (xs : list f32) : list f32 :=
  match xs with [] => [] | s :: t => step y s :: env_run step (step y s) t end.

(** basic_fast_envelope_follower, envelope.hpp:118-160: data members *)
Record fenv := mkFenv { fe_y : list f32; fe_peak : f32; fe_tick : N; fe_i : N; fe_reset : N }.
(** envelope.hpp:128-132; [size] is div+1; hold_samples is narrowed to uint16_t *)
Definition fe_make (size : nat) (hold : N) : fenv :=
  mkFenv (repeat fzero size) fzero 0 0 (hold mod 65536).
(** std::max_element *)
Definition max_element (l : list f32) : option f32 :=
  match l with [] => None | a :: t => Some (fold_left fmax t a) end.
(** envelope.hpp:134-151 *)
Definition fe_step (e : fenv) (s : f32) : option fenv :=
  let y1 := map (fun y => fmax s y) (fe_y e) in
  do st <- (if (fe_tick e =? fe_reset e)%N
            then do y2 <- vset y1 (fe_i e mod N.of_nat (length (fe_y e))) fzero ;
                 Some (y2, 0%N, ((fe_i e + 1) mod 65536)%N)
            else Some (y1, ((fe_tick e + 1) mod 65536)%N, fe_i e)) ;
  let '(y2, tick, i) := st in
  do pk <- max_element y2 ;
  Some (mkFenv y2 pk tick i (fe_reset e)).
Fixpoint fe_run (e : fenv) (xs : list f32) : option fenv :=
  match xs with [] => Some e | x :: t => do e' <- fe_step e x ; fe_run e' t end.
