(** Model of support/notes.hpp and of note_frequency in support/midi.hpp; [frequency] is a
    double (support/frequency.hpp:26), [F * x] and [F / 2] are double operations
    (support/value.hpp). *)
From Flocq Require Import Core.Core IEEE754.BinarySingleNaN.
From Verif Require Import Common Float.

(** notes.hpp:15: the literal 1.059463094359295 as a double (correctly rounded: checked in
    Notes_Proof, [root12_literal]) *)
Definition root12 : f64 := mk64 2385698798484657 (-51).
(** notes.hpp:17-20 *)
Definition next_frequency (F : f64) : f64 := fmul F root12.

(** notes.hpp:74-100: f[0] = base, f[i+1] = next_frequency(f[i]), 12 entries *)
Fixpoint chain (n : nat) (F : f64) : list f64 :=
  match n with O => [] | S n' => F :: chain n' (next_frequency F) end.
Definition octave_frequencies (base : f64) : list f64 := chain 12 base.
(** notes.hpp:102-114: bases 13.75, 27.5, 55, ..., 7040 *)
Definition note_frequencies : list (list f64) :=
  map octave_frequencies
    [ mk64 55 (-2); mk64 55 (-1); mk64 55 0; mk64 110 0; mk64 220 0; mk64 440 0; mk64 880 0;
      mk64 1760 0; mk64 3520 0; mk64 7040 0 ].

(** midi.hpp:450-460; [key] is a uint8, the subtraction is in int *)
Definition note_frequency (key : N) : option f64 :=
  if (key <? 9)%N || (119 <? key)%N then Some fzero
  else
    do row <- vget note_frequencies ((key - 9) / 12)%N ;
    vget row ((key - 9) mod 12)%N.

(** notes.hpp:22-51, [octave_notes]: the twelve notes of an octave *)
Record octave_notes := mkOct { nA : f64; nAs : f64; nB : f64; nC : f64; nCs : f64; nD : f64;
  nDs : f64; nE : f64; nF : f64; nFs : f64; nG : f64; nGs : f64 }.
Definition make_octave (base : f64) : octave_notes :=
  let A := base in let As := next_frequency A in let B := next_frequency As in
  let C := fdiv (next_frequency B) (mk64 2 0) in let Cs := next_frequency C in
  let D := next_frequency Cs in let Ds := next_frequency D in let E := next_frequency Ds in
  let F := next_frequency E in let Fs := next_frequency F in let G := next_frequency Fs in
  let Gs := next_frequency G in mkOct A As B C Cs D Ds E F Fs G Gs.
(** notes.hpp:59-70 *)
Definition note : list octave_notes :=
  map make_octave [ mk64 55 (-1); mk64 55 0; mk64 110 0; mk64 220 0; mk64 440 0; mk64 880 0;
                    mk64 1760 0; mk64 3520 0; mk64 7040 0 ].

(** notes.hpp:116-312, namespace [notes]: each array lists one member of note[0..7];
    the flats alias (notes.hpp:42-47) Gs, As, Cs, Ds, Fs - but [eb] (247-257) lists E. *)
Inductive note_array := arr_Ab | arr_A | arr_As | arr_Bb | arr_B | arr_C | arr_Cs | arr_Db |
  arr_D | arr_Ds | arr_eb | arr_E | arr_F | arr_Fs | arr_Gb | arr_G | arr_Gs.
Definition member (a : note_array) (o : octave_notes) : f64 :=
  match a with
  | arr_Ab => nGs o | arr_A => nA o | arr_As => nAs o | arr_Bb => nAs o | arr_B => nB o
  | arr_C => nC o | arr_Cs => nCs o | arr_Db => nCs o | arr_D => nD o | arr_Ds => nDs o
  | arr_eb => nE o | arr_E => nE o | arr_F => nF o | arr_Fs => nFs o | arr_Gb => nFs o
  | arr_G => nG o | arr_Gs => nGs o
  end.
Definition notes_array (a : note_array) : list f64 := map (member a) (firstn 8 note).
