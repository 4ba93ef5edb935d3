(** Properties C09, C13, C24, C25, C39 for float (binary32): the order hypotheses of the
    generic theorems hold.  Theorems only. *)
From Coq Require Import Reals Lra.
From Flocq Require Import Core.Core IEEE754.BinarySingleNaN.
From Verif Require Import Common Float FloatFacts Detect_Model Detect_Spec Detect_Proof
  MovMax_Model MovMax_Proof DetectF_Proof.

(** C25: the Schmitt trigger of any finite hysteresis h >= 0 is the latch "last decisive
    input", for every sequence of float inputs, NaN and infinities included. *)
Theorem C25_schmitt_trigger_float :
  forall (h : f32) (evs : list (f32 * f32)), is_finite h = true -> (0 <= B2R h)%R ->
  let up (e : f32 * f32) := flt (fadd (snd e) h) (fst e) in
  let down (e : f32 * f32) := flt (fst e) (fsub (snd e) h) in
  forall t y, nth_error (run (schmitt_step flt fadd fsub h) false evs) t = Some y ->
    (y = true <-> latch_on up down false evs t).
Proof. intros h evs F H up down. apply schmitt_latch. intros e _. apply hyst_excl; assumption. Qed.
Print Assumptions C25_schmitt_trigger_float.

Theorem C25_window_comparator_float :
  forall (low high : f32) (init : bool) (evs : list f32), is_finite low = true -> is_finite high = true ->
  (B2R low <= B2R high)%R ->
  let up s := flt high s in
  let down s := flt s low in
  forall t y, nth_error (run (window_step flt low high) init evs) t = Some y ->
    (y = true <-> latch_on up down init evs t).
Proof. intros low high init evs Fl Fh H up down. apply window_latch. intros e _. apply level_excl; assumption. Qed.
Print Assumptions C25_window_comparator_float.

Theorem C24_noise_gate_float :
  forall (onset release : f32) (envs : list f32), is_finite onset = true -> is_finite release = true ->
  (B2R release <= B2R onset)%R ->
  forall t y, nth_error (run (gate_step flt onset release) false envs) t = Some y ->
    (y = true <-> latch_on (fun e => flt onset e) (fun e => flt e release) false envs t).
Proof. intros onset release envs Fo Fr H. apply gate_latch. intros e _. apply level_excl; assumption. Qed.
Print Assumptions C24_noise_gate_float.

Theorem C39_zero_cross_float :
  forall (h : f32) (evs : list f32), is_finite h = true -> (0 <= B2R h)%R ->
  let up s := flt (fadd fzero h) s in
  let down s := flt s (fsub fzero h) in
  forall t y, nth_error (run (zero_cross_step flt fadd fsub fzero h) false evs) t = Some y ->
    (y = true <-> latch_on up down false evs t).
Proof. intros h evs F H up down. apply zero_cross_latch. intros e _. apply hyst_excl; assumption. Qed.
Print Assumptions C39_zero_cross_float.

Theorem C39_peak_float :
  forall (sens h : f32) (evs : list (f32 * f32)), is_finite h = true -> (0 <= B2R h)%R ->
  let up (e : f32 * f32) := flt (fadd (fmul (snd e) sens) h) (fst e) in
  let down (e : f32 * f32) := flt (fst e) (fsub (fmul (snd e) sens) h) in
  forall t y, nth_error (run (peak_step flt fadd fsub fmul sens h) false evs) t = Some y ->
    (y = true <-> latch_on up down false evs t).
Proof. intros sens h evs F H up down. apply peak_latch. intros e _. apply hyst_excl; assumption. Qed.
Print Assumptions C39_peak_float.

(** C13 for float samples other than NaN *)
Theorem C13_median3_float :
  forall (xs : list f32) (init : f32), Forall (fun x => is_nan x = false) (init :: xs) ->
  forall (t : nat) (a : f32), nth_error xs t = Some a ->
  exists m, nth_error (run (median_step flt) (init, init) xs) t = Some m /\
    is_median flt m a (nth t (init :: xs) init) (nth t (init :: init :: xs) init).
Proof. exact median_float. Qed.
Print Assumptions C13_median3_float.

(** C09 for float samples other than NaN, with the code's floor value -3.40e38f *)
Theorem C09_moving_maximum_float :
  forall (size : N) (xs : list f32), (1 <= size <= 2 ^ 62)%N ->
  Forall (fun x => is_nan x = false) xs ->
  let floor := mk32 (-34 * 10 ^ 37) 0 in
  exists m ys, mm_make floor size = Some m /\ mm_run flt m xs = Some ys /\ length ys = length xs /\
    forall t v, nth_error ys t = Some v ->
      let win := firstn (N.to_nat size) (rev (firstn (S t) xs)) in
      In v (floor :: win) /\ (forall y, In y win -> flt v y = false) /\
      ((forall y, In y xs -> flt floor y = true) -> In v win).
Proof. exact movmax_float. Qed.
Print Assumptions C09_moving_maximum_float.

Example C09_float_example :
  (match mm_make (mk32 (-34 * 10 ^ 37) 0) 2 with
   | Some m => match mm_run flt m [mk32 1 0; mk32 (-1) 0; mk32 (-3) 0; mk32 5 (-1)] with
               | Some [a; b; c; d] => feq a (mk32 1 0) && feq b (mk32 1 0) && feq c (mk32 (-1) 0) && feq d (mk32 5 (-1))
               | _ => false end
   | None => false end = true) /\
  run (schmitt_step flt fadd fsub (mk32 1 (-1))) false
    [(mk32 1 0, fzero); (mk32 1 (-2), fzero); (B754_nan, fzero); (mk32 (-1) 0, fzero); (B754_infinity false, mk32 1 0)]
  = [true; true; true; false; true].
Proof. split; vm_compute; reflexivity. Qed.
