(** Specification vocabulary for the envelope followers. *)
From Coq Require Import Reals.
From Flocq Require Import Core.Core IEEE754.BinarySingleNaN.
From Verif Require Import Common Float.

(** a finite sample of magnitude at most 2^126 *)
Definition bounded (x : f32) : Prop := is_finite x = true /\ (Rabs (B2R x) <= bpow radix2 126)%R.
(** a smoothing coefficient *)
Definition coefficient (c : f32) : Prop := is_finite c = true /\ (0 <= B2R c < 1)%R.
(** [m] is a largest element of [l]: one of them, none above it *)
Definition is_max (m : f32) (l : list f32) : Prop := In m l /\ forall x, In x l -> flt m x = false.
