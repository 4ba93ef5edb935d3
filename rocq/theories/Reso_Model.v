(** Model of reso_filter (fx/lowpass.hpp:133-202), written once over a record of arithmetic operations
    (see Bq_Model.v) and instantiated with IEEE binary32 and with exact reals. *)
From Coq Require Import List ZArith.
From Verif Require Import Common Float Bq_Model Fft_Model Fast_Model.
Import ListNotations.

(** lowpass.hpp:200-201 *)
Record reso (T : Type) := mkReso { rs_f : T; rs_fb : T; rs_reso : T; rs_y0 : T; rs_y1 : T }.
Arguments mkReso {T}. Arguments rs_f {T}. Arguments rs_fb {T}. Arguments rs_reso {T}. Arguments rs_y0 {T}. Arguments rs_y1 {T}.

Section Code.
Context {T : Type} (o : ops T).
(** lowpass.hpp:160, 166, 186, 192, 197: reso + reso / (1.0f - _f) *)
Definition rs_feedback (f r : T) : T := add o r (quo o r (sub o (one o) f)).
(** lowpass.hpp:164-168 *)
Definition rs_make (f r : T) : reso T := mkReso f (rs_feedback f r) r (zro o) (zro o).
(** lowpass.hpp:170-175.  The result is the new _y1. *)
Definition rs_step (m : reso T) (s : T) : reso T :=
  let y0 := add o (rs_y0 m) (mul o (rs_f m) (add o (sub o s (rs_y0 m)) (mul o (rs_fb m) (sub o (rs_y0 m) (rs_y1 m))))) in
  let y1 := add o (rs_y1 m) (mul o (rs_f m) (sub o y0 (rs_y1 m))) in
  mkReso (rs_f m) (rs_fb m) (rs_reso m) y0 y1.
(** lowpass.hpp:188-192 *)
Definition rs_cutoff (m : reso T) (f : T) : reso T := mkReso f (rs_feedback f (rs_reso m)) (rs_reso m) (rs_y0 m) (rs_y1 m).
(** lowpass.hpp:194-198 *)
Definition rs_resonance (m : reso T) (r : T) : reso T := mkReso (rs_f m) (rs_feedback (rs_f m) r) r (rs_y0 m) (rs_y1 m).

(** a history of calls *)
Inductive rs_op := RSample (s : T) | RCutoff (f : T) | RResonance (r : T).
Definition rs_do (m : reso T) (c : rs_op) : reso T :=
  match c with RSample s => rs_step m s | RCutoff f => rs_cutoff m f | RResonance r => rs_resonance m r end.
Definition rs_run (m : reso T) (cs : list rs_op) : reso T := fold_left rs_do cs m.

(** fed with x 0, x 1, ...: state after n samples and the n-th output *)
Fixpoint rs_feed (m : reso T) (x : nat -> T) (n : nat) : reso T :=
  match n with 0 => m | S k => rs_step (rs_feed m x k) (x k) end.
Definition rs_out (m : reso T) (x : nat -> T) (n : nat) : T := rs_y1 (rs_feed m x (S n)).
End Code.
Arguments RSample {T}. Arguments RCutoff {T}. Arguments RResonance {T}.

(** lowpass.hpp:159, 184: 2.0f * fastsin(pi * float(f) / sps).  [f] is the frequency's double; float(f) is its
    conversion; pi (constants.hpp: double) times it over sps is a double, which fastsin takes as a float. *)
Definition rs_coeff (f : f64) (sps : Z) : f32 := fmul (mk32 1 1) (fastsin (to32 (fdiv (fmul pi64 (to64 (to32 f))) (mk64 sps 0)))).
(** lowpass.hpp:158-162, 182-186 *)
Definition rs_make_freq (f : f64) (sps : Z) (r : f32) : reso f32 := rs_make ops32 (rs_coeff f sps) r.
Definition rs_cutoff_freq (m : reso f32) (f : f64) (sps : Z) : reso f32 := rs_cutoff ops32 m (rs_coeff f sps).
