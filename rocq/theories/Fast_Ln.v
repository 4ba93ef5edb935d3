(** Numerical facts about logarithms. *)
From Coq Require Import ZArith Reals Lra Lia.
From Verif Require Import Expo.
Local Open Scope R_scope.

Lemma ln_le x y : 0 < x -> x <= y -> ln x <= ln y.
Proof. intros P [L|E]; [left; apply ln_increasing; assumption|right; rewrite E; reflexivity]. Qed.
Lemma exp_lo x l m : 0 <= l <= exp (x / 2) -> m <= l * l -> m <= exp x.
Proof. intros H M. replace x with (x / 2 + x / 2) by field. rewrite exp_plus. apply Rle_trans with (1 := M). apply Rmult_le_compat; lra. Qed.
Lemma exp_hi x h m : exp (x / 2) <= h -> h * h <= m -> exp x <= m.
Proof. intros H M. replace x with (x / 2 + x / 2) by field. rewrite exp_plus. apply Rle_trans with (2 := M). generalize (exp_pos (x / 2)). intros. apply Rmult_le_compat; lra. Qed.
Lemma ln2_lo : 0.69314 < ln 2.
Proof.
  rewrite <- (ln_exp 0.69314). apply ln_increasing; [apply exp_pos|].
  assert (H : 0.50000236 <= exp (- 0.69314)).
  { apply exp_lo with 0.70710845; [split; [lra|]|lra]. apply exp_lo with 0.840897408; [split; [lra|]|lra].
    apply exp_lo with 0.917004585; [split; [lra|]|lra]. apply exp_lo with 0.957603564; [split; [lra|]|lra].
    replace (- 0.69314 / 2 / 2 / 2 / 2) with (- (0.69314 / 16)) by lra. generalize (e3 (0.69314 / 16) ltac:(lra)). lra. }
  assert (P := exp_pos 0.69314). assert (E : exp (- 0.69314) * exp 0.69314 = 1) by (rewrite <- exp_plus; match goal with |- exp ?t = 1 => replace t with 0 by lra end; apply exp_0).
  assert (0.50000236 * exp 0.69314 <= 1) by (rewrite <- E; apply Rmult_le_compat_r; lra). lra.
Qed.
Lemma ln2_hi : ln 2 < 0.69315.
Proof.
  rewrite <- (ln_exp 0.69315). apply ln_increasing; [lra|].
  assert (H : exp (- 0.69315) <= 0.499998609).
  { apply exp_hi with 0.707105797; [|lra]. apply exp_hi with 0.84089583; [|lra].
    apply exp_hi with 0.917003724; [|lra]. apply exp_hi with 0.957603114; [|lra].
    replace (- 0.69315 / 2 / 2 / 2 / 2) with (- (0.69315 / 16)) by lra. generalize (e4 (0.69315 / 16) ltac:(lra)). lra. }
  assert (P := exp_pos 0.69315). assert (E : exp (- 0.69315) * exp 0.69315 = 1) by (rewrite <- exp_plus; match goal with |- exp ?t = 1 => replace t with 0 by lra end; apply exp_0).
  assert (1 <= 0.499998609 * exp 0.69315) by (rewrite <- E; apply Rmult_le_compat_r; lra). lra.
Qed.
(** log2 (1 + f) is between f and f + 0.0864 *)
Lemma ln_above f : 0 <= f <= 1 -> f * ln 2 <= ln (1 + f).
Proof.
  intros H. rewrite <- (ln_exp (f * ln 2)). apply ln_le; [apply exp_pos|].
  set (a := ln 2). set (c := exp (f * a)). assert (Pc : 0 < c) by apply exp_pos.
  assert (E1 : exp (- (f * a)) * c = 1) by (unfold c; rewrite <- exp_plus, Rplus_opp_l; apply exp_0).
  assert (E2 : exp (a - f * a) * c = 2) by (unfold c; rewrite <- exp_plus; replace (a - f * a + f * a) with a by ring; apply exp_ln; lra).
  assert (I1 := exp_ineq1_le (- (f * a))). assert (I2 := exp_ineq1_le (a - f * a)).
  assert (J1 : (1 + - (f * a)) * c <= 1) by (rewrite <- E1; apply Rmult_le_compat_r; lra).
  assert (J2 : (1 + (a - f * a)) * c <= 2) by (rewrite <- E2; apply Rmult_le_compat_r; lra).
  assert (K1 : (1 - f) * ((1 + - (f * a)) * c) <= (1 - f) * 1) by (apply Rmult_le_compat_l; lra).
  assert (K2 : f * ((1 + (a - f * a)) * c) <= f * 2) by (apply Rmult_le_compat_l; lra).
  replace c with ((1 - f) * ((1 + - (f * a)) * c) + f * ((1 + (a - f * a)) * c)) by ring. lra.
Qed.
Lemma ln_ln2 : -0.366669 <= ln (ln 2).
Proof.
  pose proof ln2_lo. rewrite <- (ln_exp (-0.366669)). apply ln_le; [apply exp_pos|].
  generalize (e4 0.366669 ltac:(lra)). match goal with |- context [exp (- ?t)] => replace (exp (- t)) with (exp (-0.366669)) by (f_equal; lra) end. lra.
Qed.
Lemma ln_below f : 0 <= f <= 1 -> ln (1 + f) <= (f + 0.0864) * ln 2.
Proof.
  intros H. pose proof ln2_lo. pose proof ln2_hi. pose proof ln_ln2 as P. 
  assert (Q : ln ((1 + f) * ln 2) <= (1 + f) * ln 2 - 1).
  { assert (X : 0 < (1 + f) * ln 2) by (apply Rmult_lt_0_compat; lra). generalize (exp_ineq1_le (ln ((1 + f) * ln 2))). rewrite exp_ln by exact X. lra. }
  rewrite ln_mult in Q by lra. lra.
Qed.
(** log2 10, from 10^146 > 2^485 and 10^643 < 2^2136 *)
Lemma ln_Zpow (b n : positive) : ln (IZR (Z.pos b ^ Z.pos n)) = IZR (Z.pos n) * ln (IZR (Z.pos b)).
Proof.
  rewrite <- (positive_nat_Z n) at 1. rewrite <- pow_IZR, ln_pow by (apply IZR_lt; reflexivity). rewrite INR_IZR_INZ, positive_nat_Z. reflexivity.
Qed.
Lemma ln10_lo : 485 / 146 * ln 2 <= ln 10.
Proof.
  assert (L : ln (IZR (2 ^ 485)) <= ln (IZR (10 ^ 146))) by (apply ln_le; [apply IZR_lt; reflexivity|apply IZR_le, Z.leb_le; reflexivity]).
  rewrite (ln_Zpow 2 485), (ln_Zpow 10 146) in L. lra.
Qed.
Lemma ln10_hi : ln 10 <= 2136 / 643 * ln 2.
Proof.
  assert (L : ln (IZR (10 ^ 643)) <= ln (IZR (2 ^ 2136))) by (apply ln_le; [apply IZR_lt; reflexivity|apply IZR_le, Z.leb_le; reflexivity]).
  rewrite (ln_Zpow 2 2136), (ln_Zpow 10 643) in L. lra.
Qed.
