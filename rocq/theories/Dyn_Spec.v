(** Specification vocabulary for the dynamics processors (C23). *)
From Coq Require Import Reals.
From Flocq Require Import Core.Core IEEE754.BinarySingleNaN.
From Verif Require Import Common Float Dyn_Model.
Local Open Scope R_scope.

(** a level in decibels: finite and at most 2^100 in magnitude *)
Definition db_level (x : f64) : Prop := is_finite x = true /\ Rabs (B2R x) <= bpow radix2 100.
(** a ratio: a finite float in [0,m] *)
Definition ratio_in (m : R) (r : f32) : Prop := is_finite r = true /\ 0 <= B2R r <= m.
(** the ideal static curves: gain in dB for an envelope e, threshold t, ratio r, knee width w *)
Definition comp_curve (t r e : R) : R := if Rle_dec e t then 0 else (1 - r) * (t - e).
Definition exp_curve (t r e : R) : R := if Rle_dec t e then 0 else r * (e - t).
Definition soft_curve (t w r e : R) : R :=
  if Rle_dec e (t - w / 2) then 0
  else if Rle_dec e (t + w / 2) then - (1 - r) * (e - (t - w / 2)) * (e - (t - w / 2)) / (2 * w)
  else (1 - r) * (t - e).
(** relative rounding allowance of the double computations *)
Definition db_eps : R := bpow radix2 (-24).
(** arguments last set: the effective threshold, width and ratio after a history of setters *)
Definition last_threshold (t : db) (cs : list comp_call) : db :=
  fold_left (fun t c => match c with CThreshold t' => t' | _ => t end) cs t.
Definition last_ratio (r : f32) (cs : list comp_call) : f32 :=
  fold_left (fun r c => match c with CRatio r' => r' | _ => r end) cs r.
Definition last_soft (twr : db * db * f32) (cs : list soft_call) : db * db * f32 :=
  fold_left (fun '(t, w, r) c => match c with SThreshold t' => (t', w, r) | SWidth w' => (t, w', r) | SRatio r' => (t, w, r') end) cs twr.
(** threshold up to 2^99 dB in magnitude, knee width between 2^-100 and 2^99 dB *)
Definition knee_ok (t w : db) : Prop := db_level t /\ is_finite w = true /\ bpow radix2 (-100) <= B2R w <= bpow radix2 99 /\ Rabs (B2R t) <= bpow radix2 99.
