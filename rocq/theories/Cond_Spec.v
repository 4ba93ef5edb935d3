(** Specification of the signal conditioner (C46), in real arithmetic, in terms of what a caller
    observes: outputs, gate(), gate_env(), signal_env(). *)
From Coq Require Import Reals.
From Flocq Require Import Core.Core IEEE754.BinarySingleNaN.
From Verif Require Import Common Float Env_Spec Dyn_Model Dyn_Spec Db_Model Filt_Model Cond_Model.
Local Open Scope R_scope.

(** sensible configurations: at least 4001 samples per second, release times of two samples or
    more, compression ratio in [0,1], threshold a number of decibels, gain finite and not negative *)
Definition time_ok (sps : Z) (d : f64) : Prop :=
  is_finite d = true /\ B2R d <= bpow radix2 900 /\ 2 <= IZR sps * B2R d.
Definition cond_ok (c : cond_config) (sps : Z) : Prop :=
  (4001 <= sps < 2 ^ 32)%Z /\ time_ok sps (cc_env_release c) /\ time_ok sps (cc_gate_release c) /\
  db_level (cc_comp_threshold c) /\ ratio_in 1 (cc_comp_slope c) /\
  is_finite (cc_comp_gain c) = true /\ 0 <= B2R (cc_comp_gain c).
(** inputs the gain cannot overflow: |s| <= 2^126 and |s| * gain <= 2^126 *)
Definition input_ok (M : R) (s : f32) : Prop := bounded s /\ Rabs (B2R s) * M <= bpow radix2 126.
Definition calls_ok (M : R) (cs : list cond_call) : Prop := forall s, In (Process s) cs -> input_ok M s.

(** what the two envelopes are built from: a coefficient near exp(-2/n), n the time in samples *)
Definition smoothing (c : R) (sps : Z) (d : f64) : Prop :=
  0 <= c < 1 /\ Rabs (c - exp (- (2 / (IZR sps * B2R d)))) <= (2 / (IZR sps * B2R d)) ^ 4 / 24 + bpow radix2 (-20).

(** the amplitude factor of the compressor for the envelope [env]: the envelope's level in
    decibels, the static compression curve, converted back to an amplitude *)
Definition compression (c : cond_config) (env : f32) (a : R) : Prop :=
  exists lv g : f32, a2db env = Some lv /\
    db2a (to32 (comp_gain (comp_make (cc_comp_threshold c) (cc_comp_slope c)) (to64 lv))) = Some g /\ B2R g = a /\
    0 < a <= 1 /\ (B2R lv <= B2R (cc_comp_threshold c) -> a = 1).

(** one sample: the new observation [o] after input [s] with the previous observation [p] and the
    gate thresholds [on], [off] in force.  [ce] [ca] [cr]: smoothing coefficients of the signal
    envelope's release, the gate envelope's attack and release. *)
Definition sample_ok (c : cond_config) (ce ca cr : R) (on off : f32) (p : cond_obs) (s : f32) (o : cond_obs) : Prop :=
  let E := B2R (ob_signal_env p) in let E' := B2R (ob_signal_env o) in
  let G := B2R (ob_gate_env p) in let G' := B2R (ob_gate_env o) in
  let S := B2R s in let M := B2R (cc_comp_gain c) in
  (* the signal envelope jumps to peaks and otherwise decays towards |s| *)
  (Rabs S <= E' <= Rmax E (Rabs S) /\ (E < Rabs S -> E' = Rabs S) /\
   (Rabs S <= E -> Rabs (E' - (Rabs S + ce * (E - Rabs S))) <= bpow radix2 (-21) * E + bpow radix2 (-147))) /\
  (* the gate opens when the envelope exceeds the onset threshold, closes when it falls below the
     release threshold *)
  ob_gate o = (if ob_gate p then negb (flt (ob_signal_env o) off) else flt on (ob_signal_env o)) /\
  (* the gate envelope moves towards 1 when the gate is open, towards 0 when it is closed *)
  (if ob_gate o then G <= G' <= 1 /\ Rabs (G' - (1 + ca * (G - 1))) <= bpow radix2 (-20)
   else 0 <= G' <= G /\ Rabs (G' - cr * G) <= bpow radix2 (-20)) /\
  (* the output is the input through gate, compressor and make-up gain; it has the input's sign
     and is never louder than the input amplified by the make-up gain (rounded) *)
  (exists a, compression c (ob_signal_env o) a /\
     is_finite (ob_out o) = true /\
     Rabs (B2R (ob_out o) - S * G' * a * M) <= bpow radix2 (-22) * (Rabs S * M) + bpow radix2 (-148) * (M + Rabs S + 1) /\
     0 <= B2R (ob_out o) * S /\ Rabs (B2R (ob_out o)) <= Rabs (B2R (fmul s (cc_comp_gain c)))).

(** a history: threshold setters only change the thresholds in force (a level in decibels is
    converted to an amplitude by db2a) *)
Inductive conforms (c : cond_config) (ce ca cr : R) : f32 -> f32 -> cond_obs -> list cond_call -> list cond_obs -> Prop :=
| cf_nil on off p : conforms c ce ca cr on off p [] []
| cf_process on off p s o cs os : sample_ok c ce ca cr on off p s o -> conforms c ce ca cr on off o cs os ->
    conforms c ce ca cr on off p (Process s :: cs) (o :: os)
| cf_onset on off p t cs os : conforms c ce ca cr t off p cs os -> conforms c ce ca cr on off p (Onset t :: cs) os
| cf_release on off p t cs os : conforms c ce ca cr on t p cs os -> conforms c ce ca cr on off p (Release t :: cs) os
| cf_onset_db on off p d t cs os : db2a (to32 d) = Some t -> conforms c ce ca cr t off p cs os ->
    conforms c ce ca cr on off p (OnsetDb d :: cs) os
| cf_release_db on off p d t cs os : db2a (to32 d) = Some t -> conforms c ce ca cr on t p cs os ->
    conforms c ce ca cr on off p (ReleaseDb d :: cs) os.

(** before the first sample: gate closed, both envelopes 0 *)
Definition obs_start : cond_obs := mkObs fzero false fzero fzero.

(** the band-pass filter in front of bl_signal_conditioner: one lowpass, minus a second lowpass of
    its output *)
Definition band (a1 a2 : f32) (xs : list f32) : list f32 :=
  let u := filt_run (lowpass_step a1) fzero xs in
  map (fun q => fsub (fst q) (snd q)) (combine u (filt_run (lowpass_step a2) fzero u)).
