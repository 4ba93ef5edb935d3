(** What one call of the dual pitch detector may do, in terms of the readings [a] (of the
    detector fed with the signal) and [b] (fed with the negated signal) after the sample. *)
From Coq Require Import Reals.
From Flocq Require Import Core.Core IEEE754.BinarySingleNaN.
From Verif Require Import Common Float FloatFacts Pitch_Model Pitch_Spec.
Open Scope R_scope.

(** strictly less than an octave from the running mean, as real numbers *)
Definition octave (mean f : f32) : Prop := B2R mean / 2 < B2R f < 2 * B2R mean.
(** [i] is the reading nearer to the mean: the first only if it is strictly nearer, the second
    only if it is not further away once the distances are rounded to float *)
Definition nearer (a b : info) (mean : f32) (i : info) : Prop :=
  (i = a /\ Rabs (B2R (i_freq a) - B2R mean) < Rabs (B2R (i_freq b) - B2R mean)) \/
  (i = b /\ rnd 24 128 (Rabs (B2R (i_freq b) - B2R mean)) <= rnd 24 128 (Rabs (B2R (i_freq a) - B2R mean))).
(** no pitch *)
Definition no_pitch (i : info) : Prop := i_freq i = fzero.

(** [dual_outcome a b ready old mean first new mean' first'] *)
Inductive dual_outcome (a b : info) (old : info) (mean : f32) : bool -> bool -> info -> f32 -> bool -> Prop :=
| du_idle first : dual_outcome a b old mean false first old mean first
| du_half first : no_pitch a /\ ~ no_pitch b \/ ~ no_pitch a /\ no_pitch b -> dual_outcome a b old mean true first old mean first
| du_lost first : no_pitch a -> no_pitch b -> dual_outcome a b old mean true first info0 mean first
| du_first i : ~ no_pitch a -> ~ no_pitch b -> nearer a b mean i -> dual_outcome a b old mean true true i (i_freq i) false
| du_accept i mean' : ~ no_pitch a -> ~ no_pitch b -> nearer a b mean i -> octave mean (i_freq i) ->
    is_finite mean' = true /\ Rabs (B2R mean' - (2 / 9 * B2R (i_freq i) + 7 / 9 * B2R mean)) <= / 2097152 * B2R mean ->
    dual_outcome a b old mean true false i mean' false
| du_reject i : ~ no_pitch a -> ~ no_pitch b -> nearer a b mean i -> ~ octave mean (i_freq i) -> dual_outcome a b old mean true false old mean false.
