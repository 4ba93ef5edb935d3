(** Model of q_lib/include/q/pitch/dual_pitch_detector.hpp: two pitch detectors, one fed with
    the signal and one with its negation, on top of Pitch_Model. *)
From Flocq Require Import Core.Core IEEE754.BinarySingleNaN.
From Verif Require Import Common Float Zc_Model PD_Model Pitch_Model Filt_Model.

(** dual_pitch_detector.hpp:37-42 *)
Record dual := mkDual { d_1 : pit; d_2 : pit; d_cur : info; d_mean : f32; d_pred : f32; d_first : bool }.

Section Dual.
Variable oob : f32 -> Z.

(** dual_pitch_detector.hpp:48-58; the pitch detectors from the parameters of [pit_make] *)
Definition dual_make (hyst : f32) (window min : N) (range : Z) (sps : N) (lowest highest : f64) : option dual :=
  do t <- pit_make hyst window min range sps ;
  Some (mkDual t t info0 (to32 (fadd lowest (fdiv (fsub highest lowest) (mk64 2 0)))) fzero true).

(** dual_pitch_detector.hpp:60-64 *)
Definition within_octave (mean f : f32) : bool :=
  if fgt f mean then flt f (fmul mean (z32 2)) else fgt f (fdiv mean (z32 2)).

(** dual_pitch_detector.hpp:119-138: the detectors (their prediction caches may change) and the
    new _predicted_frequency *)
Definition dual_compute (d : dual) : option dual :=
  do r1 <- predict_frequency (d_1 d) ;
  let f1 := snd r1 in
  if fgt f1 fzero then
    do r2 <- predict_frequency (d_2 d) ;
    let f2 := snd r2 in
    let ok := (fgt f2 fzero && flt (fabs (fsub f1 f2)) (fdiv f1 (z32 10)) && (d_first d || within_octave (d_mean d) f1))%bool in
    Some (mkDual (fst r1) (fst r2) (d_cur d) (d_mean d) (if ok then f1 else fzero) (d_first d))
  else Some (mkDual (fst r1) (d_2 d) (d_cur d) (d_mean d) fzero (d_first d)).

(** dual_pitch_detector.hpp:73-80: the reading nearer to the mean, the second on a tie *)
Definition dual_choose (i1 i2 : info) (mean : f32) : info :=
  let d1 := fabs (fsub (i_freq i1) mean) in
  let d2 := fabs (fsub (i_freq i2) mean) in
  if flt d1 d2 then i1 else i2.

(** moving_average.hpp:142-169 for n = 8 (dual_pitch_detector.hpp:35) *)
Definition dual_average (mean f : f32) : f32 := ema_step (ema_b 8) (ema_b' 8) mean f.

(** dual_pitch_detector.hpp:66-109: new state and the returned bool *)
Definition dual_step (d : dual) (s : f32) : option (dual * bool) :=
  do r1 <- pit_step oob (d_1 d) s ;
  do r2 <- pit_step oob (d_2 d) (fneg s) ;
  let t1 := fst r1 in let t2 := fst r2 in
  let ready := (snd r1 || snd r2)%bool in
  let keep := mkDual t1 t2 (d_cur d) (d_mean d) (d_pred d) (d_first d) in
  if ready then
    let i := dual_choose (t_cur t1) (t_cur t2) (d_mean d) in
    let a := if (negb (indeterminate t1) && negb (indeterminate t2))%bool then
               if d_first d then mkDual t1 t2 i (i_freq i) fzero false
               else if within_octave (d_mean d) (i_freq i) then mkDual t1 t2 i (dual_average (d_mean d) (i_freq i)) fzero (d_first d)
               else keep
             else keep in
    if (indeterminate t1 && indeterminate t2)%bool then
      do c <- dual_compute a ;
      Some (mkDual (d_1 c) (d_2 c) info0 (d_mean c) (d_pred c) (d_first c), ready)
    else Some (a, ready)
  else Some (keep, ready).

(** dual_pitch_detector.hpp:112-117: new state (caches) and the result *)
Definition dual_predict (d : dual) : option (dual * f32) :=
  do c <- (if feq (d_pred d) fzero then dual_compute d else Some d) ;
  Some (c, d_pred c).

(** dual_pitch_detector.hpp:26-28 *)
Definition dual_frequency (d : dual) : f32 := i_freq (d_cur d).
Definition dual_periodicity (d : dual) : f32 := i_pty (d_cur d).

(** a history of calls of operator() and predict_frequency() *)
Fixpoint dual_calls (d : dual) (cs : list pd_call) : option dual :=
  match cs with
  | [] => Some d
  | Sample s :: r => do x <- dual_step d s ; dual_calls (fst x) r
  | Predict :: r => do x <- dual_predict d ; dual_calls (fst x) r
  end.
End Dual.
