(** What one call of the pitch detector may do, in terms of what can be observed: the current
    pitch before and after, and the state [p] of the period detector after the sample. *)
From Coq Require Import Reals.
From Flocq Require Import Core.Core IEEE754.BinarySingleNaN.
From Verif Require Import Common Float Zc_Model PD_Model Pitch_Model.

Definition positive (f : f32) : Prop := flt fzero f = true.
(** less than 1/32 apart (about half a semitone), as real numbers *)
Definition near (c f : f32) : Prop :=
  is_finite c = true /\ is_finite f = true /\ (Rabs (B2R c - B2R f) < B2R c / 32)%R.
(** the frequency of the fundamental that was just found, if there is one *)
Definition measured (p : pd) (sps : N) (f : f32) : Prop :=
  feq (p_period p) (z32 (-1)) = false /\ f = fdiv (z32 (Z.of_N sps)) (p_period p) /\ positive f.
(** an integer multiple or fraction of [f] next to [c] *)
Definition harmonic_of (c f g : f32) : Prop :=
  exists m : Z, (2 <= m)%Z /\ near c g /\
    ((fgt c f = true /\ g = fmul f (z32 m)) \/ (fgt c f = false /\ g = fdiv f (z32 m))).

(** [outcome p sps old n new n' ready]: from pitch [old], frame count [n]; [y] is the periodicity *)
Definition count (y : f32) (n : N) : N := if flt y min_periodicity then 0 else n.
Inductive outcome (p : pd) (sps : N) (old : info) (n : N) : info -> N -> bool -> Prop :=
| not_ready : z_ready (p_zc p) = false -> outcome p sps old n old n false
| lost : z_ready (p_zc p) = true -> p_periodicity p = z32 (-1) -> outcome p sps old n info0 n false
| no_onset : z_ready (p_zc p) = true -> i_freq old = fzero ->
    fge (p_periodicity p) onset_periodicity = false \/ (forall f, ~ measured p sps f) -> outcome p sps old n old n true
| onset f : z_ready (p_zc p) = true -> i_freq old = fzero -> fge (p_periodicity p) onset_periodicity = true -> measured p sps f ->
    outcome p sps old n (mkInf f (p_periodicity p)) 0 true
| no_period : z_ready (p_zc p) = true -> positive (i_freq old) -> (forall f, ~ measured p sps f) ->
    outcome p sps old n old (count (p_periodicity p) n) true
| same_note f : z_ready (p_zc p) = true -> positive (i_freq old) -> measured p sps f -> near (i_freq old) f ->
    outcome p sps old n (mkInf f (p_periodicity p)) (add64 (count (p_periodicity p) n) 1) true
| harmonic f g : z_ready (p_zc p) = true -> positive (i_freq old) -> measured p sps f -> ~ near (i_freq old) f ->
    (1 < add64 (count (p_periodicity p) n) 1)%N -> harmonic_of (i_freq old) f g ->
    outcome p sps old n (mkInf g (p_periodicity p)) (add64 (count (p_periodicity p) n) 1) true
| shift f : z_ready (p_zc p) = true -> positive (i_freq old) -> measured p sps f -> ~ near (i_freq old) f ->
    fge (p_periodicity p) onset_periodicity = true ->
    outcome p sps old n (mkInf f (p_periodicity p)) 0 true
| hold f : z_ready (p_zc p) = true -> positive (i_freq old) -> measured p sps f -> ~ near (i_freq old) f ->
    fge (p_periodicity p) onset_periodicity = false ->
    outcome p sps old n old (add64 (count (p_periodicity p) n) 1) true.

(** a frequency between 2^-100 and 2^100 *)
Definition sane (f : f32) : Prop := is_finite f = true /\ (bpow radix2 (-100) <= B2R f <= bpow radix2 100)%R.
(** [f] is the m-th subharmonic or harmonic of [c], to 3 percent *)
Definition harmonic_ratio (c f : f32) (m : Z) : Prop :=
  (2 <= m <= 15)%Z /\ ((B2R f < B2R c /\ Rabs (B2R c - IZR m * B2R f) <= B2R c / 33) \/
                     (B2R c <= B2R f /\ Rabs (B2R c - B2R f / IZR m) <= B2R c / 33))%R.
(** a periodicity *)
Definition in_unit (y : f32) : Prop := is_finite y = true /\ (0 <= B2R y <= 1)%R.
