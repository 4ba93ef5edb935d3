(** The sine and cosine series of fft.hpp:31-45 over the real numbers, and pi. *)
From Coq Require Import Reals Lra Lia ZArith Machin.
From Verif Require Import Fft_Model.
Local Open Scope R_scope.

(** the nested series without rounding *)
Fixpoint serR (n : nat) (M : R) (x : R) : R :=
  match n with O => 1 | S n => 1 - x * x / M / (M + 1) * serR n (M + 2) x end.

Lemma serR_sum n : forall m x,
  serR n (INR (S m)) x = sum_f_R0 (fun i => (-1) ^ i * (x ^ (2 * i) * INR (fact m) / INR (fact (2 * i + m)))) n.
Proof.
  induction n as [|n IH]; intros m x.
  - cbn [serR sum_f_R0 Nat.mul Nat.add pow]. field. apply INR_fact_neq_0.
  - rewrite decomp_sum by lia. cbn [Nat.pred]. cbn [serR].
    replace (INR (S m) + 2) with (INR (S (S (S m)))) by (rewrite !S_INR; ring).
    rewrite (IH (S (S m)) x).
    assert (P1 : INR (S m) <> 0) by (apply not_0_INR; lia). assert (P2 : INR (S (S m)) <> 0) by (apply not_0_INR; lia).
    replace ((-1) ^ 0 * (x ^ (2 * 0) * INR (fact m) / INR (fact (2 * 0 + m)))) with 1 by (cbn [Nat.mul Nat.add pow]; field; apply INR_fact_neq_0).
    unfold Rminus. f_equal. rewrite <- Ropp_mult_distr_l_reverse, scal_sum. apply sum_eq. intros i _.
    replace (2 * S i + m)%nat with (2 * i + S (S m))%nat by lia. replace (2 * S i)%nat with (S (S (2 * i))) by lia.
    change (fact (S (S m))) with ((S (S m)) * (S m * fact m))%nat. rewrite !mult_INR.
    replace (INR (S m) + 1) with (INR (S (S m))) by (rewrite (S_INR (S m)); ring).
    assert (F := INR_fact_neq_0 (2 * i + S (S m))).
    set (f := INR (fact (2 * i + S (S m)))) in *. set (g := x ^ (2 * i)). change (x ^ S (S (2 * i))) with (x * (x * g)). change ((-1) ^ S i) with (-1 * (-1) ^ i).
    field. repeat split; assumption.
Qed.
Lemma fact_ge n : 4 ^ n <= INR (fact (n + 3)).
Proof.
  induction n as [|n IH]; [cbn; lra|]. cbn [Nat.add]. change (fact (S (n + 3))) with (S (n + 3) * fact (n + 3))%nat.
  rewrite mult_INR. cbn [pow]. assert (4 <= INR (S (n + 3))). { replace 4 with (INR 4) by (cbn; ring). apply le_INR. lia. }
  assert (0 <= 4 ^ n) by (apply pow_le; lra). apply Rmult_le_compat; lra.
Qed.
Lemma pow_small x n : 0 <= x <= 1 -> 0 <= x ^ n <= 1.
Proof. intros H. split; [apply pow_le; lra|]. rewrite <- (pow1 n). apply pow_incr. exact H. Qed.
Lemma ser_sin x : 0 <= x <= 1 -> Rabs (x * serR 16 2 x - sin x) <= / 1152921504606846976.
Proof.
  intros H. destruct (pre_sin_bound x 7 ltac:(lra) ltac:(lra)) as [L U]. change (2 * (7 + 1))%nat with 16%nat in U. change (2 * 7 + 1)%nat with 15%nat in L.
  assert (E : x * serR 16 2 x = sin_approx x 16).
  { change 2 with (INR 2). rewrite (serR_sum 16 1 x). unfold sin_approx. rewrite scal_sum. apply sum_eq. intros i _.
    unfold sin_term. change (INR (fact 1)) with 1. replace (x ^ (2 * i + 1)) with (x ^ (2 * i) * x) by (rewrite pow_add; ring). unfold Rdiv. ring. }
  rewrite E. assert (S16 : sin_approx x 16 = sin_approx x 15 + sin_term x 16) by reflexivity.
  assert (T : 0 <= sin_term x 16 <= / 1152921504606846976).
  { unfold sin_term. change (2 * 16 + 1)%nat with (30 + 3)%nat. assert (F := fact_ge 30).
    replace (4 ^ 30) with 1152921504606846976 in F by (cbn; ring).
    replace ((-1) ^ 16) with 1 by (cbn; ring). rewrite Rmult_1_l. generalize (pow_small x (30 + 3) H). intros Q.
    set (f := INR (fact (30 + 3))) in *. clearbody f. assert (0 < / f) by (apply Rinv_0_lt_compat; lra).
    assert (/ f <= / 1152921504606846976) by (apply Rinv_le_contravar; lra).
    unfold Rdiv. split; [apply Rmult_le_pos; lra|]. rewrite <- (Rmult_1_l (/ 1152921504606846976)). apply Rmult_le_compat; lra. }
  apply Rabs_le. lra.
Qed.
Lemma ser_cos x : 0 <= x <= 1 -> Rabs (serR 16 1 x - cos x) <= / 288230376151711744.
Proof.
  intros H. destruct (pre_cos_bound x 7 ltac:(lra) ltac:(lra)) as [L U]. change (2 * (7 + 1))%nat with 16%nat in U. change (2 * 7 + 1)%nat with 15%nat in L.
  assert (E : serR 16 1 x = cos_approx x 16).
  { change 1 with (INR 1) at 1. rewrite (serR_sum 16 0 x). unfold cos_approx. apply sum_eq. intros i _.
    unfold cos_term. change (INR (fact 0)) with 1. rewrite Nat.add_0_r. unfold Rdiv. ring. }
  rewrite E. assert (S16 : cos_approx x 16 = cos_approx x 15 + cos_term x 16) by reflexivity.
  assert (T : 0 <= cos_term x 16 <= / 288230376151711744).
  { unfold cos_term. change (2 * 16)%nat with (29 + 3)%nat. assert (F := fact_ge 29).
    replace (4 ^ 29) with 288230376151711744 in F by (cbn; ring).
    replace ((-1) ^ 16) with 1 by (cbn; ring). rewrite Rmult_1_l. generalize (pow_small x (29 + 3) H). intros Q.
    set (f := INR (fact (29 + 3))) in *. clearbody f. assert (0 < / f) by (apply Rinv_0_lt_compat; lra).
    assert (/ f <= / 288230376151711744) by (apply Rinv_le_contravar; lra).
    unfold Rdiv. split; [apply Rmult_le_pos; lra|]. rewrite <- (Rmult_1_l (/ 288230376151711744)). apply Rmult_le_compat; lra. }
  apply Rabs_le. lra.
Qed.
(** pi to 2^-54 *)
Lemma PI_16 : Rabs (884279719003555 / 281474976710656 - PI) <= / 4503599627370496.
Proof.
  destruct (PI_2_3_7_ineq 8) as [L U].
  unfold sum_f_R0, tg_alt, PI_2_3_7_tg, Ratan_seq in L, U. cbn [Nat.add Nat.mul pow INR] in L, U. cbv beta in L, U.
  apply Rabs_le. lra.
Qed.
