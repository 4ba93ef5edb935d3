(** In exact arithmetic the recursion is the discrete Fourier transform. *)
From Coq Require Import ZArith List Arith Lia Reals Lra.
From Verif Require Import Fft_Model Fft_Spec Fft_Proof.
Import ListNotations.
Local Open Scope R_scope.

Lemma sum_ext n f g : (forall i, (i < n)%nat -> f i = g i) -> sum n f = sum n g.
Proof. induction n as [|n IH]; intros H; cbn [sum]; [reflexivity|]. rewrite IH, H by (intros; try apply H; lia). reflexivity. Qed.
Lemma sum_split M f : sum (2 * M) f = sum M (fun n => f (2 * n)%nat) + sum M (fun n => f (2 * n + 1)%nat).
Proof.
  induction M as [|M IH]; [cbn; lra|]. replace (2 * S M)%nat with (S (S (2 * M))) by lia. cbn [sum]. rewrite IH.
  replace (2 * M + 1)%nat with (S (2 * M)) by lia. ring.
Qed.
Lemma sum_lin M a b f g : sum M f * a + sum M g * b = sum M (fun n => f n * a + g n * b).
Proof. induction M as [|M IH]; cbn [sum]; [ring|]. rewrite <- IH. ring. Qed.

Definition theta (M j : nat) : R := 2 * PI * INR j / INR (2 * M).
Definition w_exact (M j : nat) : R * R := (cos (theta M j), - sin (theta M j)).
Notation Cadd := (cadd arithR). Notation Csub := (csub arithR). Notation Cmul := (cmul arithR).

Definition dft (N : nat) (y : nat -> R * R) (j : nat) : R * R :=
  (dft_re N (fun n => fst (y n)) (fun n => snd (y n)) j, dft_im N (fun n => fst (y n)) (fun n => snd (y n)) j).

Lemma phi_even M n j : (0 < M)%nat -> phi (2 * M) (2 * n) j = phi M n j.
Proof. intros H. unfold phi. rewrite !mult_INR. change (INR 2) with 2. field. apply not_0_INR. lia. Qed.
Lemma phi_odd M n j : (0 < M)%nat -> phi (2 * M) (2 * n + 1) j = phi M n j + theta M j.
Proof. intros H. unfold phi, theta. rewrite plus_INR, !mult_INR. change (INR 2) with 2. change (INR 1) with 1. field. apply not_0_INR. lia. Qed.

Lemma dft_split M y j : (0 < M)%nat ->
  dft (2 * M) y j = Cadd (dft M (fun n => y (2 * n)%nat) j) (Cmul (dft M (fun n => y (2 * n + 1)%nat) j) (w_exact M j)).
Proof.
  intros H. unfold dft, cadd, cmul, w_exact, dft_re, dft_im. cbn [fst snd a_add a_sub a_mul arithR]. rewrite !sum_split. f_equal.
  - f_equal; [apply sum_ext; intros n _; rewrite phi_even by exact H; reflexivity|].
    match goal with |- _ = ?a * ?c - ?b * - ?s => replace (a * c - b * - s) with (a * c + b * s) by ring end.
    rewrite sum_lin. apply sum_ext. intros n _. rewrite phi_odd, cos_plus, sin_plus by exact H. ring.
  - f_equal; [apply sum_ext; intros n _; rewrite phi_even by exact H; reflexivity|].
    match goal with |- _ = ?a * - ?s + ?b * ?c => replace (a * - s + b * c) with (a * (- s) + b * c) by ring end.
    rewrite sum_lin. apply sum_ext. intros n _. rewrite phi_odd, cos_plus, sin_plus by exact H. ring.
Qed.
Lemma dft_period M y j : (0 < M)%nat -> dft M y (j + M) = dft M y j.
Proof.
  intros H. assert (E : forall n, phi M n (j + M) = phi M n j + 2 * INR n * PI).
  { intros n. unfold phi. rewrite plus_INR. field. apply not_0_INR. lia. }
  unfold dft, dft_re, dft_im. f_equal; apply sum_ext; intros n _; rewrite E, cos_period, sin_period; reflexivity.
Qed.
Lemma w_half M j : (0 < M)%nat -> w_exact M (j + M) = (- fst (w_exact M j), - snd (w_exact M j)).
Proof.
  intros H. assert (E : theta M (j + M) = theta M j + PI).
  { unfold theta. rewrite plus_INR, mult_INR. change (INR 2) with 2. field. apply not_0_INR. lia. }
  unfold w_exact. cbn [fst snd]. rewrite E, neg_cos, neg_sin. reflexivity.
Qed.
(** the two outputs of a butterfly *)
Lemma dft_step M y j : (0 < M)%nat -> (j < 2 * M)%nat ->
  dft (2 * M) y j =
  (if (j <? M)%nat then Cadd (dft M (fun n => y (2 * n)%nat) j) (Cmul (dft M (fun n => y (2 * n + 1)%nat) j) (w_exact M j))
   else Csub (dft M (fun n => y (2 * n)%nat) (j - M)) (Cmul (dft M (fun n => y (2 * n + 1)%nat) (j - M)) (w_exact M (j - M)))).
Proof.
  intros H Hj. destruct (j <? M)%nat eqn:Q; [apply dft_split; exact H|]. apply Nat.ltb_ge in Q.
  rewrite dft_split by exact H. replace j with ((j - M) + M)%nat at 1 2 3 by lia.
  rewrite !dft_period, w_half by exact H. unfold cadd, csub, cmul. cbn [fst snd a_add a_sub a_mul arithR]. f_equal; ring.
Qed.

Lemma step_exact N : (0 < N)%nat -> step_factor arithR N = (cos (2 * PI / INR N) - 1, - sin (2 * PI / INR N)).
Proof.
  intros H. unfold step_factor. cbn [a_neg a_sin a_mul a_mtwo arithR]. change (INR 1) with 1. change (INR 2) with 2. f_equal.
  assert (E : 2 * PI / INR N = 2 * (1 * PI / INR N)) by (field; apply not_0_INR; lia). rewrite E, cos_2a_sin. ring.
Qed.
Lemma tws_exact M c : (0 < M)%nat -> tws arithR (step_factor arithR (2 * M)) (1, 0) c = w_exact M c.
Proof.
  intros H. assert (HM : INR M <> 0) by (apply not_0_INR; lia). induction c as [|c IH].
  - cbn [tws]. unfold w_exact, theta. change (INR 0) with 0. replace (2 * PI * 0 / INR (2 * M)) with 0 by (unfold Rdiv; ring). rewrite cos_0, sin_0. f_equal. ring.
  - cbn [tws]. rewrite IH, step_exact by lia. unfold twiddle, w_exact. cbn [fst snd a_add a_sub a_mul arithR].
    assert (E : theta M (S c) = theta M c + 2 * PI / INR (2 * M)).
    { unfold theta. rewrite S_INR, mult_INR. change (INR 2) with 2. field. exact HM. }
    rewrite E, cos_plus, sin_plus. f_equal; ring.
Qed.

Lemma dft_1 y j : dft 1 y j = y 0%nat.
Proof.
  unfold dft, dft_re, dft_im, phi. cbn [sum]. change (INR 0) with 0. change (INR 1) with 1.
  replace (2 * PI * 0 * INR j / 1) with 0 by field. rewrite cos_0, sin_0. destruct (y 0%nat). cbn [fst snd]. f_equal; ring.
Qed.
Lemma w10 : w_exact 1 0 = (1, 0).
Proof. unfold w_exact, theta. change (INR 0) with 0. replace (2 * PI * 0 / INR (2 * 1)) with 0 by (unfold Rdiv; ring). rewrite cos_0, sin_0. f_equal. ring. Qed.
Lemma w20 : w_exact 2 0 = (1, 0).
Proof. unfold w_exact, theta. change (INR 0) with 0. replace (2 * PI * 0 / INR (2 * 2)) with 0 by (unfold Rdiv; ring). rewrite cos_0, sin_0. f_equal. ring. Qed.
Lemma w21 : w_exact 2 1 = (0, -1).
Proof.
  unfold w_exact, theta. change (INR 1) with 1. replace (INR (2 * 2)) with 4 by (cbn; lra). replace (2 * PI * 1 / 4) with (PI / 2) by field.
  rewrite cos_PI2, sin_PI2. f_equal.
Qed.
Ltac pairs := unfold cadd, csub, cmul, mrot; cbn [fst snd a_add a_sub a_mul arithR]; apply f_equal2; ring.

Lemma fft_rec_dft k : forall y j, (j < 2 ^ k)%nat -> fft_rec arithR k y j = dft (2 ^ k) y j.
Proof.
  induction k as [|k IH]; intros y j Hj.
  { cbn [fft_rec]. symmetry. apply dft_1. }
  destruct k as [|[|k]].
  - change (2 ^ 1)%nat with (2 * 1)%nat in *. rewrite dft_step by lia. rewrite !dft_1. cbn [fft_rec].
    destruct j as [|[|j]]; [| |lia]; cbn [Nat.eqb Nat.ltb Nat.leb Nat.sub Nat.mul Nat.add]; rewrite w10; destruct (y 0%nat), (y 1%nat); pairs.
  - change (2 ^ 2)%nat with (2 * 2)%nat in *. rewrite dft_step by lia.
    change (2 * 2)%nat with 4%nat in Hj.
    assert (D : forall y i, (i < 2)%nat -> dft 2 y i = if (i =? 0)%nat then Cadd (y 0%nat) (y 1%nat) else Csub (y 0%nat) (y 1%nat)).
    { intros y0 i Hi. change 2%nat with (2 * 1)%nat. rewrite dft_step by lia. rewrite !dft_1.
      destruct i as [|[|i]]; [| |lia]; cbn [Nat.eqb Nat.ltb Nat.leb Nat.sub Nat.mul Nat.add]; rewrite w10; destruct (y0 0%nat), (y0 1%nat); pairs. }
    cbn [fft_rec].
    destruct j as [|[|[|[|j]]]]; [| | | |lia]; cbn [Nat.ltb Nat.leb Nat.sub]; rewrite !D by lia; cbn [Nat.eqb]; rewrite ?w20, ?w21;
      change (2 * 0)%nat with 0%nat; change (2 * 1)%nat with 2%nat; change (0 + 1)%nat with 1%nat; change (2 + 1)%nat with 3%nat;
      destruct (y 0%nat), (y 1%nat), (y 2%nat), (y 3%nat); pairs.
  - rewrite fft_rec_S. cbv zeta. assert (P : (0 < 2 ^ S (S k))%nat) by (apply Nat.neq_0_lt_0, Nat.pow_nonzero; lia).
    set (k2 := S (S k)) in *. rewrite Nat.pow_succ_r' in *. set (M := (2 ^ k2)%nat) in *. rewrite dft_step by lia.
    destruct (j <? M)%nat eqn:Q.
    + apply Nat.ltb_lt in Q. rewrite !IH by exact Q. change (a_one arithR) with 1. change (a_zero arithR) with 0. rewrite tws_exact by lia. reflexivity.
    + apply Nat.ltb_ge in Q. rewrite !IH by lia. change (a_one arithR) with 1. change (a_zero arithR) with 0. rewrite tws_exact by lia. reflexivity.
Qed.
