(** Property C28 (waveshapers in binary32).  Theorems only. *)
From Coq Require Import Reals Lra.
From Flocq Require Import Core.Core IEEE754.BinarySingleNaN.
From Verif Require Import Common Float FloatFacts Shape_Model Shape_Proof.
Local Open Scope R_scope.

(** C28 (clip): for every non-negative finite limit, a finite sample is clamped to
    [-max, max] (and unchanged, as a bit pattern, inside); the infinities give +-max; NaN
    passes through. *)
Theorem C28_clip :
  forall mx : f32, is_finite mx = true -> 0 <= B2R mx ->
  (forall s : f32, is_finite s = true ->
     is_finite (clip mx s) = true /\
     B2R (clip mx s) = Rmax (- B2R mx) (Rmin (B2R mx) (B2R s)) /\
     (- B2R mx <= B2R s <= B2R mx -> clip mx s = s)) /\
  clip mx (B754_infinity false) = mx /\
  B2R (clip mx (B754_infinity true)) = - B2R mx /\ is_finite (clip mx (B754_infinity true)) = true /\
  clip mx B754_nan = B754_nan.
Proof.
  intros mx F H. assert (N : nonneg mx) by (split; assumption).
  repeat split.
  - apply (clip_fin mx s N); assumption.
  - apply (clip_fin mx s N); assumption.
  - intros [H1 H2]. unfold clip. change (fgt s mx) with (flt mx s).
    pose proof (fneg_fin mx F) as Fn. pose proof (fneg_R mx) as En.
    destruct (flt mx s) eqn:E1; [apply flt_true in E1; auto; lra|].
    destruct (flt s (fneg mx)) eqn:E2; [apply flt_true in E2; auto; lra|reflexivity].
  - exact (clip_inf mx false N).
  - rewrite (clip_inf mx true N). apply fneg_R.
  - rewrite (clip_inf mx true N). apply fneg_fin. exact F.
  - apply clip_nan.
Qed.
Print Assumptions C28_clip.

(** C28 (soft_clip): every finite or infinite input gives a finite output in [-1, 1] *)
Theorem C28_soft_clip_bounded :
  forall s : f32, is_nan s = false -> is_finite (soft_clip s) = true /\ -1 <= B2R (soft_clip s) <= 1.
Proof.
  intros s H. destruct s as [b|b| |b m e Hm]; [| |discriminate H|].
  - destruct (soft_clip_fin (B754_zero b) eq_refl) as (u & Fu & Eu & F & E). split; [exact F|]. rewrite E.
    assert (B : -1 <= B2R u <= 1). { rewrite Eu. split; [apply Rmax_l|]. apply Rmax_lub; [lra|apply Rmin_l]. }
    split; [|apply (sc_abs u B)]. apply (sc_abs u B).
  - destruct (soft_clip_inf b) as [F E]. split; [exact F|]. rewrite E. destruct b; lra.
  - destruct (soft_clip_fin (B754_finite b m e Hm) eq_refl) as (u & Fu & Eu & F & E). split; [exact F|]. rewrite E.
    assert (B : -1 <= B2R u <= 1). { rewrite Eu. split; [apply Rmax_l|]. apply Rmax_lub; [lra|apply Rmin_l]. }
    split; [|apply (sc_abs u B)]. apply (sc_abs u B).
Qed.
Print Assumptions C28_soft_clip_bounded.

(** C28 (soft_clip): monotone on all finite inputs, in spite of three roundings *)
Theorem C28_soft_clip_monotone :
  forall s t : f32, is_finite s = true -> is_finite t = true -> B2R s <= B2R t ->
  B2R (soft_clip s) <= B2R (soft_clip t).
Proof.
  intros s t Fs Ft H.
  destruct (soft_clip_fin s Fs) as (u & Fu & Eu & _ & E1). destruct (soft_clip_fin t Ft) as (w & Fw & Ew & _ & E2).
  rewrite E1, E2. apply sc_mono; rewrite ?Eu, ?Ew.
  - apply Rmax_l.
  - apply Rle_max_compat_l. apply Rle_min_compat_l. exact H.
  - apply Rmax_lub; [lra|apply Rmin_l].
Qed.
Print Assumptions C28_soft_clip_monotone.

(** C28 (soft_clip): odd; and within one double plus one float rounding of the
    polynomial (3x - x^3)/2 on [-1, 1]; constant +-1 outside *)
Theorem C28_soft_clip_odd :
  forall s : f32, is_finite s = true -> B2R (soft_clip (fneg s)) = - B2R (soft_clip s).
Proof.
  intros s Fs. destruct (soft_clip_fin s Fs) as (u & Fu & Eu & _ & E1).
  destruct (soft_clip_fin (fneg s) (fneg_fin s Fs)) as (w & Fw & Ew & _ & E2).
  rewrite E1, E2, <- sc_opp, Ew, Eu, fneg_R. f_equal.
  unfold Rmin, Rmax. repeat destruct (Rle_dec _ _); lra.
Qed.
Print Assumptions C28_soft_clip_odd.

Theorem C28_soft_clip_polynomial :
  forall s : f32, is_finite s = true ->
  (-1 <= B2R s <= 1 ->
     B2R (soft_clip s) =
       rnd 24 128 (rnd 53 1024 (3 / 2 * B2R s - rnd 53 1024 (B2R s ^ 3 / 2)))) /\
  (1 <= B2R s -> B2R (soft_clip s) = 1) /\ (B2R s <= -1 -> B2R (soft_clip s) = -1).
Proof.
  intros s Fs. destruct (soft_clip_fin s Fs) as (u & Fu & Eu & _ & E1). repeat split; intros H; rewrite E1, Eu.
  - rewrite Rmin_right by lra. rewrite Rmax_right by lra. unfold sc, cube.
    replace 1.5 with (3 / 2) by lra. replace (0.5 * B2R s * B2R s * B2R s) with (B2R s ^ 3 / 2) by lra. reflexivity.
  - rewrite Rmin_left by lra. rewrite Rmax_right by lra. exact sc_1.
  - rewrite Rmin_right by lra. rewrite Rmax_left by lra. transitivity (sc (- (1))); [f_equal; lra|]. rewrite sc_opp, sc_1. lra.
Qed.
Print Assumptions C28_soft_clip_polynomial.

Theorem C28_nan_passes : soft_clip B754_nan = B754_nan.
Proof. exact soft_clip_nan. Qed.
Print Assumptions C28_nan_passes.

Example C28_example :
  feq (clip (mk32 1 0) (mk32 5 0)) (mk32 1 0) = true /\
  feq (clip (mk32 1 0) (mk32 (-3) (-2))) (mk32 (-3) (-2)) = true /\
  feq (soft_clip (mk32 1 (-1))) (mk32 11 (-4)) = true /\
  feq (soft_clip (mk32 (-7) 3)) (mk32 (-1) 0) = true.
Proof. vm_compute. repeat split. Qed.
