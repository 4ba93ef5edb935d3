(** Specification vocabulary for the dynamic smoother (C49). *)
From Coq Require Import Reals.
From Flocq Require Import Core.Core IEEE754.BinarySingleNaN.
From Verif Require Import Common Float Smooth_Model.
Local Open Scope R_scope.

(** what std::tan returns for a base frequency below half the sampling rate *)
Definition tan_value (gc : f64) : Prop := is_finite gc = true /\ 0 <= B2R gc <= bpow radix2 60.
(** sensitivities and signals the theorems cover *)
Definition smoother_range (sensitivity : f32) (B : R) : Prop :=
  is_finite sensitivity = true /\ 0 <= B2R sensitivity <= bpow radix2 60 /\ bpow radix2 (-100) <= B <= bpow radix2 60.
Definition op_in (B : R) (o : ds_op) : Prop :=
  match o with DSample s => is_finite s = true /\ Rabs (B2R s) <= B | DBase gc => tan_value gc end.
(** the tangent the base frequency in force stands for: the last one set, gc at first *)
Definition base_in_force (gc : f64) (ops : list ds_op) : f64 :=
  fold_left (fun g o => match o with DBase gc' => gc' | DSample _ => g end) ops gc.
