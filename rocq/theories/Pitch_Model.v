(** Model of q_lib/include/q/pitch/pitch_detector.hpp on top of the period detector model.
    [oob]: what the target does for a float to int conversion that C++ leaves undefined. *)
From Flocq Require Import Core.Core IEEE754.BinarySingleNaN.
From Verif Require Import Common Float Zc_Model PD_Model.

(** pitch_detector.hpp:31-32: 0.95f and 0.90f, the nearest floats *)
Definition onset_periodicity : f32 := mk32 15938355 (-24).
Definition min_periodicity : f32 := mk32 15099494 (-24).

(** pitch_detector.hpp:21-25 and the members at 61-64 *)
Record info := mkInf { i_freq : f32; i_pty : f32 }.
Definition info0 : info := mkInf fzero fzero.
Record pit := mkPit { t_pd : pd; t_cur : info; t_sps : N; t_frames : N }.

Section Pitch.
Variable oob : f32 -> Z.

(** pitch_detector.hpp:70-78, from the parameters of [pd_make] *)
Definition pit_make (hyst : f32) (window min : N) (range : Z) (sps : N) : option pit :=
  do p <- pd_make hyst window min range ; Some (mkPit p info0 sps 0).

(** pitch_detector.hpp:80-124: the result and [shift] *)
Definition bias_pick (p : pd) (cur : info) (frames : N) (inc : info) : info * bool :=
  let error := fdiv (i_freq cur) (z32 32) in
  let diff := fabs (fsub (i_freq cur) (i_freq inc)) in
  let tail := if fgt (p_periodicity p) min_periodicity then (inc, true) else (cur, false) in
  if flt diff error then (inc, false)
  else if (1 <? frames)%N then
    if fgt (i_freq cur) (i_freq inc) then
      let multiple := f2int oob (fround (fdiv (i_freq cur) (i_freq inc))) in
      if (1 <? multiple)%Z then
        let f := fmul (i_freq inc) (z32 multiple) in
        if flt (fabs (fsub (i_freq cur) f)) error then (mkInf f (i_pty inc), false) else tail
      else tail
    else
      let multiple := f2int oob (fround (fdiv (i_freq inc) (i_freq cur))) in
      if (1 <? multiple)%Z then
        let f := fdiv (i_freq inc) (z32 multiple) in
        if flt (fabs (fsub (i_freq cur) f)) error then (mkInf f (i_pty inc), false) else tail
      else tail
  else tail.
(** pitch_detector.hpp:126-152 *)
Definition bias (t : pit) (inc : info) : pit :=
  let fr := add64 (t_frames t) 1 in
  let '(result, shift) := bias_pick (t_pd t) (t_cur t) fr inc in
  if shift then
    let p := p_periodicity (t_pd t) in
    if fge p onset_periodicity then mkPit (t_pd t) result (t_sps t) 0
    else if flt p min_periodicity then mkPit (t_pd t) info0 (t_sps t) fr
    else mkPit (t_pd t) (t_cur t) (t_sps t) fr
  else mkPit (t_pd t) result (t_sps t) fr.
(** pitch_detector.hpp:196-201 *)
Definition calculate_frequency (t : pit) : f32 :=
  if feq (p_period (t_pd t)) (z32 (-1)) then fzero
  else fdiv (z32 (Z.of_N (t_sps t))) (p_period (t_pd t)).
(** pitch_detector.hpp:154-194: new state and the returned bool *)
Definition pit_step (t : pit) (s : f32) : option (pit * bool) :=
  do p <- pd_step oob (t_pd t) s ;
  let c := if zc_is_reset (p_zc p) then info0 else t_cur t in
  let t1 := mkPit p c (t_sps t) (t_frames t) in
  if z_ready (p_zc p) then
    if feq (p_periodicity p) (z32 (-1)) then Some (mkPit p info0 (t_sps t) (t_frames t), false)
    else
      let y := p_periodicity p in
      let f := calculate_frequency t1 in
      if feq (i_freq c) fzero then
        if (fge y onset_periodicity && fgt f fzero)%bool then Some (mkPit p (mkInf f y) (t_sps t) 0, true)
        else Some (t1, true)
      else
        let t2 := if flt y min_periodicity then mkPit p c (t_sps t) 0 else t1 in
        Some (if fgt f fzero then bias t2 (mkInf f y) else t2, true)
  else Some (t1, false).
(** pitch_detector.hpp:203-208 *)
Definition predict_frequency (t : pit) : option (pit * f32) :=
  do r <- pd_predict (t_pd t) ;
  Some (mkPit (fst r) (t_cur t) (t_sps t) (t_frames t),
        if feq (snd r) (z32 (-1)) then fzero else fdiv (z32 (Z.of_N (t_sps t))) (snd r)).
(** pitch_detector.hpp:43-46, 53 *)
Definition get_frequency (t : pit) : f32 := i_freq (t_cur t).
Definition get_periodicity (t : pit) : f32 := i_pty (t_cur t).
Definition is_note_shift (t : pit) : bool := (t_frames t =? 0)%N.
Definition indeterminate (t : pit) : bool := feq (i_freq (t_cur t)) fzero.

(** a history of calls of operator() and predict_frequency() *)
Fixpoint pit_calls (t : pit) (cs : list pd_call) : option pit :=
  match cs with
  | [] => Some t
  | Sample s :: r => do x <- pit_step t s ; pit_calls (fst x) r
  | Predict :: r => do x <- predict_frequency t ; pit_calls (fst x) r
  end.
End Pitch.
