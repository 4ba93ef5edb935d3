(** Model of [dynamic_smoother], fx/special.hpp:215-250. *)
From Flocq Require Import Core.Core IEEE754.BinarySingleNaN.
From Verif Require Import Common Float.

(** special.hpp:247-249; [wc] is only read while [g0] is computed and is not kept here *)
Record smoother := mkSmo { ds_sense : f32; ds_g0 : f32; ds_low1 : f32; ds_low2 : f32 }.
(** special.hpp:225-226 and 243-244: g0 from gc, the double std::tan(pi * wc) returns *)
Definition ds_coeff (gc : f64) : f32 := to32 (fdiv (fmul (to64 (mk32 2 0)) gc) (fadd (to64 (mk32 1 0)) gc)).
(** special.hpp:221-227 *)
Definition ds_make (sensitivity : f32) (gc : f64) : smoother :=
  mkSmo (fmul sensitivity (mk32 4 0)) (ds_coeff gc) fzero fzero.
(** special.hpp:217-219: sensitivity 0.5 *)
Definition ds_make_default (gc : f64) : smoother := ds_make (mk32 1 (-1)) gc.
(** std::min(x, 1.0f) *)
Definition min1 (x : f32) : f32 := if flt (mk32 1 0) x then mk32 1 0 else x.
(** special.hpp:229-238: the output is the second state before the update *)
Definition ds_step (st : smoother) (s : f32) : f32 * smoother :=
  let lowlz := ds_low1 st in
  let low2z := ds_low2 st in
  let bandz := fsub lowlz low2z in
  let g := min1 (fadd (ds_g0 st) (fmul (ds_sense st) (Babs bandz))) in
  let low1 := fadd lowlz (fmul g (fsub s lowlz)) in
  let low2 := fadd low2z (fmul g (fsub low1 low2z)) in
  (low2z, mkSmo (ds_sense st) (ds_g0 st) low1 low2).
(** special.hpp:240-245 *)
Definition ds_base_frequency (st : smoother) (gc : f64) : smoother :=
  mkSmo (ds_sense st) (ds_coeff gc) (ds_low1 st) (ds_low2 st).

(** a call of the object *)
Inductive ds_op := DSample (s : f32) | DBase (gc : f64).
Definition ds_do (st : smoother) (o : ds_op) : smoother :=
  match o with DSample s => snd (ds_step st s) | DBase gc => ds_base_frequency st gc end.
Definition ds_run (st : smoother) (ops : list ds_op) : smoother := fold_left ds_do ops st.
