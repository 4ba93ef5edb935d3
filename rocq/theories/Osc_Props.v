(** Property C19 (oscillators) and the frequency conversion of C17.  Theorems only. *)
From Coq Require Import Reals Lra Psatz.
From Flocq Require Import Core.Core IEEE754.BinarySingleNaN.
From Verif Require Import Common Float FloatFacts Phase_Model Frac_Model Frac_Proof Sin_Table Osc_Model Osc_Spec Osc_Proof PhaseF_Proof Sin_Proof.
Local Open Scope R_scope.

(** C19: the naive saw is finite, in [-1,1], within 2^-23 of the ideal ramp, and rises
    with the phase. *)
Theorem C19_basic_saw :
  (forall p : N, (p < 2 ^ 32)%N -> is_finite (basic_saw p) = true /\ within (-1) 1 (B2R (basic_saw p)) /\
     Rabs (B2R (basic_saw p) - ideal_saw (turn p)) <= bpow radix2 (-23)) /\
  (forall p q : N, (p <= q)%N -> (q < 2 ^ 32)%N -> B2R (basic_saw p) <= B2R (basic_saw q)).
Proof.
  split.
  - intros p Hp. destruct (basic_saw_R p Hp) as (F & E & B). split; [exact F|]. split; [exact B|].
    destruct (saw_raw_R p Hp) as (_ & E' & B'). rewrite E' in B'. rewrite E.
    assert (P : 0 <= IZR (Z.of_N p) <= bpow radix2 32).
    { split; [apply IZR_le; lia|]. apply (IZR_le _ 4294967296). rewrite pow32_R in Hp. lia. }
    assert (X1 : Rabs (r32 (IZR (Z.of_N p)) - IZR (Z.of_N p)) <= bpow radix2 7).
    { apply (rnd_err (prec:=24) (emax:=128) _ 32); [vm_compute; discriminate|]. rewrite Rabs_pos_eq; lra. }
    set (k := r32 (IZR (Z.of_N p))) in *.
    assert (X2 : Rabs (r32 (k * bpow radix2 (-31) - 1) - (k * bpow radix2 (-31) - 1)) <= bpow radix2 (-25)).
    { apply (rnd_err (prec:=24) (emax:=128) _ 0); [vm_compute; discriminate|]. change (bpow radix2 0) with 1. apply Rabs_le. lra. }
    apply Rabs_le_inv in X1, X2.
    assert (I : ideal_saw (turn p) = IZR (Z.of_N p) * bpow radix2 (-31) - 1).
    { unfold ideal_saw, turn. change (IZR (2 ^ 32)) with (IZR 4294967296). change (bpow radix2 (-31)) with (/ IZR 2147483648). field. }
    rewrite I. change (bpow radix2 7) with 128 in X1. change (bpow radix2 (-31)) with (/ 2147483648) in *.
    change (bpow radix2 (-25)) with (/ 33554432) in *. change (bpow radix2 (-23)) with (/ 8388608). apply Rabs_le. lra.
  - intros p q H Hq. destruct (basic_saw_R p ltac:(lia)) as (_ & -> & _). destruct (basic_saw_R q Hq) as (_ & -> & _).
    apply rnd_le. apply Rplus_le_compat_r. apply Rmult_le_compat_r; [apply bpow_ge_0|]. apply rnd_le, IZR_le. lia.
Qed.
Print Assumptions C19_basic_saw.

(** C19: naive square and pulse take the values 1 and -1 only, switching exactly at the
    middle of the cycle, respectively at the shift. *)
Theorem C19_basic_square_pulse : forall p s : N,
  B2R (basic_square p) = (if (p <? 2 ^ 31 - 1)%N then 1 else -1) /\
  B2R (basic_pulse s p) = (if (p <? s)%N then 1 else -1).
Proof.
  intros p s. unfold basic_square, basic_pulse. change ph_middle with (2 ^ 31 - 1)%N.
  split; [destruct (p <? 2 ^ 31 - 1)%N|destruct (p <? s)%N]; first [exact (proj1 one_R)|exact (proj1 mone_R)].
Qed.
Print Assumptions C19_basic_square_pulse.

(** C19: the naive triangle is within 2^-23 of the ideal one and in [-1,1] at every phase
    but one. *)
Theorem C19_basic_triangle : forall p : N, (p < 2 ^ 32)%N -> p <> (2 ^ 31)%N ->
  exists v, basic_triangle p = Some v /\ is_finite v = true /\ within (-1) 1 (B2R v) /\
    Rabs (B2R v - ideal_triangle (turn p)) <= bpow radix2 (-23).
Proof.
  intros p Hp Hn. destruct (tri_raw_R p Hp Hn) as (r & Er & Fr & Vr & Br). set (a := Z.abs (to_int32 p)) in *.
  destruct (to32_bnd r Fr Br) as (F & E & B). unfold basic_triangle. rewrite Er. cbn [bind].
  eexists. split; [reflexivity|]. split; [exact F|]. split; [exact B|].
  assert (A : (0 <= a < 2 ^ 31)%Z /\ IZR a = IZR (2 ^ 32) * Rmin (turn p) (1 - turn p)).
  { unfold a, to_int32. rewrite pow32_R in Hp. change (2 ^ 31)%N with 2147483648%N in *. change (2 ^ 31)%Z with 2147483648%Z.
    change (2 ^ 32)%Z with 4294967296%Z. unfold turn. change (2 ^ 32)%Z with 4294967296%Z.
    destruct (N.ltb_spec p 2147483648) as [L|L].
    - split; [lia|]. rewrite Z.abs_eq by lia. rewrite Rmin_left; [field|].
      assert (IZR (Z.of_N p) <= 2147483648) by (apply IZR_le; lia). lra.
    - split; [lia|]. rewrite Z.abs_neq by lia. rewrite opp_IZR, minus_IZR. rewrite Rmin_right; [field|].
      assert (2147483648 <= IZR (Z.of_N p)) by (apply IZR_le; lia). lra. }
  destruct A as [A1 A2].
  assert (I : ideal_triangle (turn p) = IZR a * bpow radix2 (-30) - 1).
  { rewrite A2. unfold ideal_triangle. change (IZR (2 ^ 32)) with (IZR 4294967296). change (bpow radix2 (-30)) with (/ IZR 1073741824).
    generalize (Rmin (turn p) (1 - turn p)). intros m. field. }
  rewrite E, I, Vr in *.
  assert (X1 : Rabs (r32 (IZR a) - IZR a) <= bpow radix2 6).
  { apply (rnd_err (prec:=24) (emax:=128) _ 31); [vm_compute; discriminate|]. rewrite Rabs_pos_eq by (apply IZR_le; lia). apply (IZR_le _ (2 ^ 31)). lia. }
  set (k := r32 (IZR a)) in *.
  assert (X2 : Rabs (r32 (k * bpow radix2 (-30) - 1) - (k * bpow radix2 (-30) - 1)) <= bpow radix2 (-25)).
  { apply (rnd_err (prec:=24) (emax:=128) _ 0); [vm_compute; discriminate|]. change (bpow radix2 0) with 1. apply Rabs_le. lra. }
  apply Rabs_le_inv in X1, X2. change (bpow radix2 6) with 64 in X1. change (bpow radix2 (-30)) with (/ 1073741824) in *.
  change (bpow radix2 (-25)) with (/ 33554432) in *. change (bpow radix2 (-23)) with (/ 8388608). apply Rabs_le. lra.
Qed.
Print Assumptions C19_basic_triangle.

(** ... at which the code negates INT_MIN; the band-limited triangle meets the same value
    a quarter cycle earlier, whatever the frequency. *)
Theorem C19_triangle_undefined_refuted :
  basic_triangle (2 ^ 31) = None /\ forall dt, triangle (2 ^ 30 + 1) dt = None.
Proof. split; [vm_compute; reflexivity|]. intros dt. reflexivity. Qed.
Print Assumptions C19_triangle_undefined_refuted.

(** C19: the band-limited saw never leaves [-1,1] below the Nyquist frequency, and equals
    the naive one except within one sample of the wrap. *)
Theorem C19_saw : forall p dt : N, (p < 2 ^ 32)%N -> (dt <= 2 ^ 31)%N ->
  is_finite (saw p dt) = true /\ within (-1) 1 (B2R (saw p dt)) /\
  ((dt <= p)%N -> (p + dt < 2 ^ 32)%N -> B2R (saw p dt) = B2R (basic_saw p)).
Proof. exact saw_R. Qed.
Print Assumptions C19_saw.

(** C19: the same for the square, except at the two middle phases, ... *)
Theorem C19_square : forall p dt : N, (p < 2 ^ 32)%N -> (dt < 2 ^ 31)%N ->
  p <> (2 ^ 31 - 1)%N -> p <> (2 ^ 31)%N ->
  is_finite (square p dt) = true /\ within (-1) 1 (B2R (square p dt)) /\
  ((dt <= p)%N -> (p + dt < 2 ^ 32)%N -> (p + dt <= 2 ^ 31 \/ 2 ^ 31 + dt < p)%N ->
     B2R (square p dt) = B2R (basic_square p)).
Proof. exact square_R. Qed.
Print Assumptions C19_square.

(** ... where it jumps to -2 (at every frequency): the falling correction is evaluated
    one count before the edge. *)
Theorem C19_square_glitch_refuted : forall dt : N, (1 <= dt)%N -> (dt < 2 ^ 31)%N ->
  B2R (square (2 ^ 31) dt) = -2.
Proof. exact square_glitch. Qed.
Print Assumptions C19_square_glitch_refuted.

(** C19: pulse with its falling edge at s, when the step is shorter than both parts of the
    cycle: in [-1,1] except at the edge itself, where it is -2. *)
Theorem C19_pulse : forall s p dt : N, (s < 2 ^ 32)%N -> (p < 2 ^ 32)%N ->
  (dt <= s)%N -> (dt + s < 2 ^ 32)%N ->
  (p <> s -> is_finite (pulse s p dt) = true /\ within (-1) 1 (B2R (pulse s p dt)) /\
     ((dt <= p)%N -> (p + dt < 2 ^ 32)%N -> (p + dt <= s \/ s + dt < p)%N ->
        B2R (pulse s p dt) = B2R (basic_pulse s p))) /\
  (p = s -> (1 <= dt)%N -> B2R (pulse s p dt) = -2).
Proof.
  intros s p dt Hs Hp H1 H2. split.
  - intros Hn. exact (pulse_R s p dt Hs Hp H1 H2 Hn).
  - intros -> H0. exact (pulse_glitch s dt Hs H0 H1 H2).
Qed.
Print Assumptions C19_pulse.

(** C19: the band-limited triangle stays in [-1,1] below half the Nyquist frequency,
    except at the undefined phase. *)
Theorem C19_triangle : forall p dt : N, (p < 2 ^ 32)%N -> (dt < 2 ^ 30)%N -> p <> (2 ^ 30 + 1)%N ->
  exists v, triangle p dt = Some v /\ is_finite v = true /\ within (-1) 1 (B2R v).
Proof. exact triangle_R. Qed.
Print Assumptions C19_triangle.

(** C19: the table sine never reads outside its 1025-entry table, stays in [-1,1] and is
    within 2^-16 of the real sine, at all 2^32 phases. *)
Theorem C19_sine : forall p : N, (p < 2 ^ 32)%N ->
  exists v, sin_synth p = Some v /\ is_finite v = true /\ within (-1) 1 (B2R v) /\
    Rabs (B2R v - ideal_sin (turn p)) <= bpow radix2 (-16).
Proof. exact sin_synth_R. Qed.
Print Assumptions C19_sine.

(** C19: the width given to a pulse (a fraction of the cycle, in float or double) puts the
    edge at the floor of width * 2^32, and at the end of the cycle for widths >= 1;
    negative widths trip the assertion. *)
Theorem C19_width_to_phase :
  (forall x : f32, is_finite x = true -> 0 <= B2R x ->
     frac_phase x = Some (if Rlt_dec (B2R x) 1 then Z.to_N (Zfloor (IZR (2 ^ 32) * B2R x)) else (2 ^ 32 - 1)%N)) /\
  (forall x : f64, is_finite x = true -> 0 <= B2R x ->
     frac_phase64 x = Some (if Rlt_dec (B2R x) 1 then Z.to_N (Zfloor (IZR (2 ^ 32) * B2R x)) else (2 ^ 32 - 1)%N)) /\
  (forall x : f32, is_finite x = true -> B2R x < 0 -> frac_phase x = None).
Proof.
  split; [exact frac_phase_R|]. split; [exact frac_phase64_R|].
  intros x F H. unfold frac_phase. change (fge x fzero) with (fle fzero x).
  rewrite (proj2 (fle_false fzero x eq_refl F)) by exact H. reflexivity.
Qed.
Print Assumptions C19_width_to_phase.

(** C17: a frequency 0 <= f < sps gives a step within 1 + 2^-22 of 2^32 f / sps (so the
    frequency error is about sps / 2^32) ... *)
Theorem C17_frequency_to_step : forall (f : f64) (sps : N), (1 <= sps < 2 ^ 32)%N ->
  is_finite f = true -> 0 <= B2R f < IZR (Z.of_N sps) ->
  exists q, phase_of_freq f sps = Some q /\ (q < 2 ^ 32)%N /\
    Rabs (IZR (Z.of_N q) - IZR (2 ^ 32) * B2R f / IZR (Z.of_N sps)) <= 1 + bpow radix2 (-22).
Proof. exact phase_of_freq_R. Qed.
Print Assumptions C17_frequency_to_step.

(** ... and a frequency equal to the sampling rate (or negative) is an undefined
    conversion, not a wrap to 0. *)
Theorem C17_frequency_range_refuted :
  phase_of_freq (mk64 44100 0) 44100 = None /\ phase_of_freq (mk64 (-440) 0) 44100 = None.
Proof. split; vm_compute; reflexivity. Qed.
Print Assumptions C17_frequency_range_refuted.

(** C17: a phase read back as a fraction of a turn.  In double the answer is exactly
    p / 2^32 and converting it back gives the same phase.  In float it is finite, in [0,1],
    within 2^-25 of p / 2^32, never decreases as p grows, and is exact and converts back
    for p < 2^24 ... *)
Theorem C17_phase_to_turns :
  (forall p : N, (p < 2 ^ 32)%N ->
     is_finite (phase_to_double p) = true /\ B2R (phase_to_double p) = IZR (Z.of_N p) / IZR (2 ^ 32) /\
     frac_phase64 (phase_to_double p) = Some p) /\
  (forall p : N, (p < 2 ^ 32)%N ->
     is_finite (phase_to_float p) = true /\ within 0 1 (B2R (phase_to_float p)) /\
     Rabs (B2R (phase_to_float p) - IZR (Z.of_N p) / IZR (2 ^ 32)) <= bpow radix2 (-25)) /\
  (forall p q : N, (p <= q)%N -> (q < 2 ^ 32)%N -> B2R (phase_to_float p) <= B2R (phase_to_float q)) /\
  (forall p : N, (p < 2 ^ 24)%N ->
     B2R (phase_to_float p) = IZR (Z.of_N p) / IZR (2 ^ 32) /\ frac_phase (phase_to_float p) = Some p).
Proof.
  split; [exact phase_to_double_R|]. split; [exact phase_to_float_acc|]. split; [exact phase_to_float_mono|exact phase_to_float_low].
Qed.
Print Assumptions C17_phase_to_turns.

(** ... but above that float(phase) is not a fraction below 1 and does not convert back:
    the end of the cycle reads as 1.0f, and phase 2^24 + 1 comes back as 2^24. *)
Theorem C17_float_turns_refuted :
  exists p q : N, (p < 2 ^ 32)%N /\ B2R (phase_to_float p) = 1 /\
    (q < 2 ^ 32)%N /\ frac_phase (phase_to_float q) = Some (q - 1)%N /\ (1 <= q)%N.
Proof.
  exists (2 ^ 32 - 1)%N, (2 ^ 24 + 1)%N. split; [reflexivity|]. split.
  - destruct one_R as [E1 F1]. destruct (phase_to_float_acc (2 ^ 32 - 1) ltac:(reflexivity)) as [F _].
    rewrite <- E1. apply (feq_true _ _ F F1). vm_compute. reflexivity.
  - split; [reflexivity|]. split; [vm_compute; reflexivity|]. intros H; discriminate H.
Qed.
Print Assumptions C17_float_turns_refuted.

Example C19_witness :
  feq (basic_saw 0) (mk32 (-1) 0) = true /\ feq (basic_saw (3 * 2 ^ 30)) (mk32 1 (-1)) = true /\
  feq (saw (2 ^ 22) (2 ^ 23)) (mk32 (-383) (-9)) = true /\
  feq (square (2 ^ 22) (2 ^ 23)) (mk32 3 (-2)) = true /\
  phase_of_freq (mk64 440 0) 44100 = Some 42852281%N.
Proof. vm_compute. repeat split. Qed.
