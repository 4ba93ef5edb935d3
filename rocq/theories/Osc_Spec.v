(** What the waveforms should be, over the reals. [turn p] is the fraction of a cycle that
    the 32-bit phase [p] stands for. *)
From Coq Require Import Reals NArith ZArith.
Local Open Scope R_scope.

Definition turn (p : N) : R := IZR (Z.of_N p) / IZR (2 ^ 32).
Definition ideal_saw (phi : R) : R := 2 * phi - 1.
(** -1 at the start of the cycle, 1 in its middle *)
Definition ideal_triangle (phi : R) : R := 4 * Rmin phi (1 - phi) - 1.
Definition ideal_sin (phi : R) : R := sin (2 * PI * phi).
Definition within (lo hi x : R) : Prop := lo <= x <= hi.
