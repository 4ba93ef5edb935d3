(** Specification vocabulary for C55: signals with one pulse per period. *)
From Coq Require Import Reals.
From Flocq Require Import Core.Core IEEE754.BinarySingleNaN.
From Verif Require Import Common Float Zc_Model Zc_Spec.
Local Open Scope Z_scope.

(** The conditioned signal [h] ([h k]: sample [k] plus half the negative hysteresis) is not above
    zero before position [a] -- its onset, however late --, and from there on it repeats every [P]
    samples and crosses zero once per period: it rises above zero at [a], is closed by the sample at
    [c] (the first below the hysteresis level), and is not above zero from [c] to the next rise at
    [a + P]. *)
Record one_pulse (h : Z -> f32) (hyst : f32) (P a c : Z) : Prop := mkOne
  { op_order : 0 <= a < c /\ c < a + P;
    op_period : forall k, a - 1 <= k -> h (k + P) = h k;
    op_before : forall k, 0 <= k < a -> flt fzero (h k) = false;
    op_rise : flt fzero (h a) = true;
    op_lobe : forall k, a <= k < c -> ~ closes hyst (h k);
    op_close : closes hyst (h c);
    op_after : forall k, c <= k < a + P -> flt fzero (h k) = false }.

(** the conditioned version of the sample sequence [x] *)
Definition cond_of (hyst : f32) (x : Z -> f32) (k : Z) : f32 :=
  if k <? 0 then fzero else fadd (x k) (fdiv hyst (mk32 2 0)).
(** the first [n] samples *)
Definition first_samples (x : Z -> f32) (n : nat) : list f32 := map (fun k => x (Z.of_nat k)) (seq 0 n).
(** position [k] is in a pulse: [a <= k], and [a <= k < c] modulo [P] *)
Definition in_pulse (P a c k : Z) : bool := (a <=? k) && ((k - a) mod P <? c - a).
