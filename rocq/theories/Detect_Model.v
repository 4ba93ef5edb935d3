(** Model of fx/feature_detection.hpp, fx/noise_gate.hpp (control logic), and the
    boolean processors of fx/special.hpp, over an arbitrary sample type F with its
    comparisons and arithmetic (so in particular binary32 with NaN). *)
From Verif Require Import Common Ring_Model MovSum_Model.

(** run a Mealy machine over an input list, collecting outputs *)
Section Run.
Context {S I O : Type} (step : S -> I -> S * O).
Fixpoint run (s : S) (xs : list I) : list O :=
  match xs with [] => [] | x :: t => let (s', o) := step s x in o :: run s' t end.
End Run.

Section Detect.
Context {F : Type} (lt : F -> F -> bool) (add sub mul : F -> F -> F) (zero : F).
(** C++ [a > b] *)
Definition gt (a b : F) : bool := lt b a.

(** feature_detection.hpp:39-46 *)
Definition schmitt_step (h : F) (y : bool) (inp : F * F) : bool * bool :=
  let (pos, neg) := inp in
  let y' := if negb y && gt pos (add neg h) then true
            else if y && lt pos (sub neg h) then false else y in
  (y', y').

(** feature_detection.hpp:78-85 *)
Definition window_step (low high : F) (y : bool) (s : F) : bool * bool :=
  let y' := if lt s low then false else if gt s high then true else y in
  (y', y').

(** feature_detection.hpp:132-135 (member _state is never used) *)
Definition zero_cross_step (h : F) (y : bool) (s : F) : bool * bool := schmitt_step h y (s, zero).

(** feature_detection.hpp:161-164 *)
Definition peak_step (sens h : F) (y : bool) (inp : F * F) : bool * bool :=
  schmitt_step h y (fst inp, mul (snd inp) sens).

(** noise_gate.hpp:108-116, attack_window = 0; the input [s] is unused (the gate with an attack window,
    its constructors and setters: Gate_Model) *)
Definition gate_step (onset release : F) (st : bool) (env : F) : bool * bool :=
  let st' := if negb st && gt env onset then true
             else if st && lt env release then false else st in
  (st', st').
End Detect.

(** fx/special.hpp:293-305; state is _ticks (uint32) *)
Definition mono_step (n : N) (ticks : N) (val : bool) : N * bool :=
  let t := if (ticks =? 0)%N then (if val then n else 0%N) else (ticks - 1)%N in
  (t, negb (t =? 0)%N).

(** fx/special.hpp:327-332 *)
Definition edge_step (st val : bool) : bool * bool := (val, val && xorb st val).

(** fx/median.hpp:21-44; std::max(a,b) is (a<b)?b:a and std::min(a,b) is (b<a)?b:a *)
Section Median.
Context {F : Type} (lt : F -> F -> bool).
Definition fmax (a b : F) : F := if lt a b then b else a.
Definition fmin (a b : F) : F := if lt b a then b else a.
Definition median3f (a b c : F) : F := fmax (fmin a b) (fmin (fmax a b) c).
(** state (b, c); median3.hpp:34-40 *)
Definition median_step (bc : F * F) (a : F) : (F * F) * F :=
  let (b, c) := bc in ((a, b), median3f a b c).
End Median.

(** fx/special.hpp:108-152, 58-68, 76-90: linear one-tap processors over arbitrary
    arithmetic. *)
Section Lin.
Context {F : Type} (add sub mul : F -> F -> F) (half quarter : F -> F).
(** special.hpp:113-118 *)
Definition diff_step (x s : F) : F * F := (s, sub s x).
(** special.hpp:134-137 with delay2 (fx/delay.hpp:37-45) *)
Definition cdiff_step (d : F * F) (s : F) : (F * F) * F :=
  ((s, fst d), half (sub s (snd d))).
(** special.hpp:150-153 *)
Definition integ_step (gain : F) (y s : F) : F * F := let y' := add y (mul gain s) in (y', y').
(** special.hpp:60-65 *)
Definition downsample_step (x : F) (ss : F * F) : F * F :=
  let out := add x (half (fst ss)) in
  let x' := quarter (snd ss) in (x', add out x').
End Lin.
