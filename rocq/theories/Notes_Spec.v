(** Equal temperament. *)
From Coq Require Import Reals.
From Verif Require Import Common Notes_Model.

(** frequency of the note [s] semitones above A4 = 440 Hz *)
Definition tempered (s : Z) : R := (440 * Rpower 2 (IZR s / 12))%R.
(** semitones of the named note relative to the A of its octave (C to G# lie below it) *)
Definition semitones (a : note_array) : Z :=
  match a with
  | arr_C => -9 | arr_Cs | arr_Db => -8 | arr_D => -7 | arr_Ds | arr_eb => -6 | arr_E => -5
  | arr_F => -4 | arr_Fs | arr_Gb => -3 | arr_G => -2 | arr_Gs | arr_Ab => -1
  | arr_A => 0 | arr_As | arr_Bb => 1 | arr_B => 2
  end.
