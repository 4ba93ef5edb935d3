(** Model of fx/dynamic.hpp: compressor, soft_knee_compressor, expander, agc.  A [decibel]
    (support/decibel.hpp:15-36) carries a double; +, -, scaling, quotient and comparison
    (decibel.hpp:42-131) are those of the carried doubles. *)
From Flocq Require Import Core.Core IEEE754.BinarySingleNaN.
From Verif Require Import Common Float.

(** decibel.hpp:42-46, 48-50, 52-55: a - b, a + b, a * b *)
Definition db := f64.
Definition db_sub (a b : db) : db := fsub a b.
Definition db_add (a b : db) : db := fadd a b.
Definition db_mul (a b : db) : db := fmul a b.
(** decibel.hpp:57-60 (a * double), 77-80 (float * b: the float is promoted), 87-90 (a / b) *)
Definition db_scale (a : db) (b : f64) : db := fmul a b.
Definition db_fscale (a : f32) (b : db) : db := fmul (to64 a) b.
Definition db_div (a b : db) : db := fdiv a b.
(** 0_dB; the double literal 0.5 *)
Definition db_zero : db := fzero.
Definition half64 : f64 := mk64 1 (-1).

(** dynamic.hpp:49-75 *)
Record compressor := mkComp { c_threshold : db; c_slope : f32 }.
Definition comp_make (t : db) (ratio : f32) : compressor := mkComp t (fsub (mk32 1 0) ratio).
Definition comp_threshold (c : compressor) (t : db) : compressor := mkComp t (c_slope c).
Definition comp_ratio (c : compressor) (ratio : f32) : compressor := mkComp (c_threshold c) (fsub (mk32 1 0) ratio).
Definition comp_gain (c : compressor) (env : db) : db :=
  if fle env (c_threshold c) then db_zero else db_fscale (c_slope c) (db_sub (c_threshold c) env).

(** dynamic.hpp:78-126 *)
Record softknee := mkSoft { k_threshold : db; k_width : db; k_lower : db; k_upper : db; k_slope : f32 }.
Definition soft_make (t w : db) (ratio : f32) : softknee :=
  mkSoft t w (db_sub t (db_scale w half64)) (db_add t (db_scale w half64)) (fsub (mk32 1 0) ratio).
Definition soft_threshold (k : softknee) (t : db) : softknee :=
  mkSoft t (k_width k) (db_sub t (db_scale (k_width k) half64)) (db_add t (db_scale (k_width k) half64)) (k_slope k).
Definition soft_width (k : softknee) (w : db) : softknee :=
  mkSoft (k_threshold k) w (db_sub (k_threshold k) (db_scale w half64)) (db_add (k_threshold k) (db_scale w half64)) (k_slope k).
Definition soft_ratio (k : softknee) (ratio : f32) : softknee :=
  mkSoft (k_threshold k) (k_width k) (k_lower k) (k_upper k) (fsub (mk32 1 0) ratio).
(** dynamic.hpp:90-106; _slope * ((env - _lower) / _width) * 0.5 associates to the left *)
Definition soft_gain (k : softknee) (env : db) : db :=
  if fle env (k_lower k) then db_zero
  else if fle env (k_upper k) then
    let soft_slope := db_scale (db_fscale (k_slope k) (db_div (db_sub env (k_lower k)) (k_width k))) half64 in
    db_mul soft_slope (db_sub (k_lower k) env)
  else db_fscale (k_slope k) (db_sub (k_threshold k) env).

(** dynamic.hpp:140-166 *)
Record expander := mkExp { x_threshold : db; x_slope : f32 }.
Definition exp_make (t : db) (ratio : f32) : expander := mkExp t ratio.
Definition exp_threshold (c : expander) (t : db) : expander := mkExp t (x_slope c).
Definition exp_ratio (c : expander) (ratio : f32) : expander := mkExp (x_threshold c) ratio.
Definition exp_gain (c : expander) (env : db) : db :=
  if fle (x_threshold c) env then db_zero else db_fscale (x_slope c) (db_sub env (x_threshold c)).

(** dynamic.hpp:173-193 *)
Definition agc_gain (max env ref : db) : db :=
  let g := db_sub ref env in
  if flt max g then db_sub max (db_sub g max) else g.

(** a history of setter calls *)
Inductive soft_call := SThreshold (t : db) | SWidth (w : db) | SRatio (r : f32).
Definition soft_call1 (k : softknee) (c : soft_call) : softknee :=
  match c with SThreshold t => soft_threshold k t | SWidth w => soft_width k w | SRatio r => soft_ratio k r end.
Inductive comp_call := CThreshold (t : db) | CRatio (r : f32).
Definition comp_call1 (k : compressor) (c : comp_call) : compressor :=
  match c with CThreshold t => comp_threshold k t | CRatio r => comp_ratio k r end.
Definition exp_call1 (k : expander) (c : comp_call) : expander :=
  match c with CThreshold t => exp_threshold k t | CRatio r => exp_ratio k r end.
