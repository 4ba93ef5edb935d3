(** Taylor bounds for exp on the negative axis. *)
From Coq Require Import Reals Lra Lia.
From Flocq Require Import Core.Core IEEE754.BinarySingleNaN.
From Verif Require Import Common Float Env_Model Coeff_Proof.
Local Open Scope R_scope.

Lemma pos_by_derivative f f' : (forall x, derivable_pt_lim f x (f' x)) -> f 0 = 0 ->
  (forall x, 0 <= x -> 0 <= f' x) -> forall x, 0 <= x -> 0 <= f x.
Proof.
  intros D Z P x Hx. destruct (Req_dec x 0) as [->|N]; [lra|].
  destruct (MVT_cor2 f f' 0 x) as (c & E & Hc); [lra|intros c _; apply D|].
  rewrite Z, !Rminus_0_r in E. rewrite E. apply Rmult_le_pos; [apply P; lra|lra].
Qed.
Lemma d_expn x : derivable_pt_lim (fun x => exp (- x)) x (- exp (- x)).
Proof.
  replace (- exp (- x)) with (exp (- x) * -1) by ring.
  apply (derivable_pt_lim_comp (fun x => - x) exp x (-1) (exp (- x))).
  - apply (derivable_pt_lim_opp id x 1). apply derivable_pt_lim_id.
  - apply derivable_pt_lim_exp.
Qed.
Lemma d_pow n x : derivable_pt_lim (fun x => x ^ S n) x (INR (S n) * x ^ n).
Proof. exact (derivable_pt_lim_pow x (S n)). Qed.
Lemma d_scal a f x l : derivable_pt_lim f x l -> derivable_pt_lim (fun x => a * f x) x (a * l).
Proof. exact (derivable_pt_lim_scal f a x l). Qed.
Lemma d_plus f g x l m : derivable_pt_lim f x l -> derivable_pt_lim g x m -> derivable_pt_lim (fun x => f x + g x) x (l + m).
Proof. exact (derivable_pt_lim_plus f g x l m). Qed.
Lemma d_minus f g x l m : derivable_pt_lim f x l -> derivable_pt_lim g x m -> derivable_pt_lim (fun x => f x - g x) x (l - m).
Proof. exact (derivable_pt_lim_minus f g x l m). Qed.
Lemma d_const a x : derivable_pt_lim (fun _ => a) x 0.
Proof. exact (derivable_pt_lim_const a x). Qed.
Lemma d_eq f x l m : derivable_pt_lim f x l -> l = m -> derivable_pt_lim f x m.
Proof. intros H <-. exact H. Qed.

Lemma e0 x : 0 <= x -> 0 <= 1 - exp (- x).
Proof. intros H. pose proof (exp_increasing (- x) 0) as E. destruct (Req_dec x 0) as [->|N]; [rewrite Ropp_0, exp_0; lra|]. rewrite exp_0 in E. specialize (E ltac:(lra)). lra. Qed.
Lemma e1 x : 0 <= x -> 0 <= exp (- x) - (1 - x ^ 1).
Proof.
  apply (pos_by_derivative (fun x => exp (- x) - (1 - x ^ 1)) (fun x => 1 - exp (- x))).
  - intros y. eapply d_eq; [apply d_minus; [apply d_expn|apply d_minus; [apply d_const|apply d_pow]]|]. cbn [INR pow]. ring.
  - rewrite Ropp_0, exp_0. cbn [pow]. lra.
  - apply e0.
Qed.
Lemma e2 x : 0 <= x -> 0 <= (1 - x ^ 1 + / 2 * x ^ 2) - exp (- x).
Proof.
  apply (pos_by_derivative (fun x => (1 - x ^ 1 + / 2 * x ^ 2) - exp (- x)) (fun x => exp (- x) - (1 - x ^ 1))).
  - intros y. eapply d_eq; [apply d_minus; [apply d_plus; [apply d_minus; [apply d_const|apply d_pow]|apply d_scal, d_pow]|apply d_expn]|]. cbn [INR pow]. field.
  - rewrite Ropp_0, exp_0. cbn [pow]. lra.
  - apply e1.
Qed.
Lemma e3 x : 0 <= x -> 0 <= exp (- x) - (1 - x ^ 1 + / 2 * x ^ 2 - / 6 * x ^ 3).
Proof.
  apply (pos_by_derivative (fun x => exp (- x) - (1 - x ^ 1 + / 2 * x ^ 2 - / 6 * x ^ 3)) (fun x => (1 - x ^ 1 + / 2 * x ^ 2) - exp (- x))).
  - intros y. eapply d_eq; [apply d_minus; [apply d_expn|apply d_minus; [apply d_plus; [apply d_minus; [apply d_const|apply d_pow]|apply d_scal, d_pow]|apply d_scal, d_pow]]|]. cbn [INR pow]. field.
  - rewrite Ropp_0, exp_0. cbn [pow]. lra.
  - apply e2.
Qed.
Lemma e4 x : 0 <= x -> 0 <= (1 - x ^ 1 + / 2 * x ^ 2 - / 6 * x ^ 3 + / 24 * x ^ 4) - exp (- x).
Proof.
  apply (pos_by_derivative (fun x => (1 - x ^ 1 + / 2 * x ^ 2 - / 6 * x ^ 3 + / 24 * x ^ 4) - exp (- x)) (fun x => exp (- x) - (1 - x ^ 1 + / 2 * x ^ 2 - / 6 * x ^ 3))).
  - intros y. eapply d_eq; [apply d_minus; [apply d_plus; [apply d_minus; [apply d_plus; [apply d_minus; [apply d_const|apply d_pow]|apply d_scal, d_pow]|apply d_scal, d_pow]|apply d_scal, d_pow]|apply d_expn]|]. cbn [INR pow]. field.
  - rewrite Ropp_0, exp_0. cbn [pow]. lra.
  - apply e3.
Qed.
Lemma exp3_poly_exp x : 0 <= x -> exp3_poly (- x) <= exp (- x) <= exp3_poly (- x) + x ^ 4 / 24.
Proof.
  intros H. pose proof (e3 x H). pose proof (e4 x H). unfold exp3_poly.
  replace (1 + - x + - x * - x / 2 + - x * - x * - x / 6) with (1 - x ^ 1 + / 2 * x ^ 2 - / 6 * x ^ 3) by field. lra.
Qed.
Lemma env_coeff_exp (sps : Z) (d : f64) : (0 < sps < 2 ^ 32)%Z -> is_finite d = true -> B2R d <= bpow radix2 900 ->
  2 <= IZR sps * B2R d ->
  Rabs (B2R (env_coeff sps d) - exp (- (2 / (IZR sps * B2R d)))) <= (2 / (IZR sps * B2R d)) ^ 4 / 24 + bpow radix2 (-20).
Proof.
  intros Hs Fd Ud L. pose proof (env_coeff_val sps d Hs Fd Ud L) as E. set (n := IZR sps * B2R d) in *.
  assert (P : 0 <= 2 / n) by (unfold Rdiv; apply Rmult_le_pos; [lra|left; apply Rinv_0_lt_compat; lra]).
  pose proof (exp3_poly_exp (2 / n) P) as X. apply Rabs_le_inv in E.
  change (bpow radix2 (-21)) with (/ 2097152) in E. change (bpow radix2 (-24)) with (/ 16777216) in E. change (bpow radix2 (-20)) with (/ 1048576).
  apply Rabs_le. lra.
Qed.
