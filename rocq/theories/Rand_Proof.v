(** The generator of fast_rand is a full-period linear congruential generator. *)
From Coq Require Import Znumtheory.
From Verif Require Import Common CommonFacts Phase_Model.
Open Scope Z_scope.

Definition ra : Z := 214013.
Definition rc : Z := 2531011.

(** 1 + a + ... + a^(n-1) *)
Fixpoint gs (n : nat) : Z := match n with O => 0 | S n => ra * gs n + 1 end.
Definition ap (n : nat) : Z := ra ^ Z.of_nat n.

Lemma ap_S n : ap (S n) = ra * ap n.
Proof. unfold ap. rewrite Nat2Z.inj_succ, Z.pow_succ_r by lia. reflexivity. Qed.
Lemma ap_0 : ap 0 = 1. Proof. reflexivity. Qed.

Lemma gs_geom n : ap n = 1 + (ra - 1) * gs n.
Proof.
  induction n as [|n IH]; [reflexivity|]. rewrite ap_S, IH. cbn [gs]. ring.
Qed.
Lemma gs_add n m : gs (n + m) = ap n * gs m + gs n.
Proof.
  induction n as [|n IH].
  - cbn [Nat.add gs]. rewrite ap_0. ring.
  - cbn [Nat.add gs]. rewrite IH, ap_S. ring.
Qed.
Lemma gs_double n : gs (n + n) = gs n * (1 + ap n).
Proof. rewrite gs_add. ring. Qed.

Lemma ap_mod4 n : exists q, ap n = 4 * q + 1.
Proof.
  exists (53503 * gs n). rewrite gs_geom. unfold ra. ring.
Qed.

Lemma odd_gs n : Z.odd (gs n) = Z.odd (Z.of_nat n).
Proof.
  induction n as [|n IH]; [reflexivity|].
  cbn [gs]. rewrite Z.odd_add, Z.odd_mul, IH. rewrite Nat2Z.inj_succ, Z.odd_succ, <- Z.negb_odd.
  change (Z.odd ra) with true. change (Z.odd 1) with true. destruct (Z.odd (Z.of_nat n)); reflexivity.
Qed.

Lemma pow2_rel_odd k u : Z.odd u = true -> rel_prime (2 ^ Z.of_nat k) u.
Proof.
  intros H. induction k as [|k IH].
  - apply rel_prime_1.
  - rewrite Nat2Z.inj_succ, Z.pow_succ_r by lia. apply rel_prime_sym. apply rel_prime_mult.
    + apply rel_prime_sym. apply prime_rel_prime; [exact prime_2|].
      intros [q Q]. rewrite Q, Z.odd_mul, andb_false_r in H. discriminate.
    + apply rel_prime_sym. exact IH.
Qed.
Lemma divide_odd_cancel k u x : Z.odd u = true -> (2 ^ Z.of_nat k | x * u) -> (2 ^ Z.of_nat k | x).
Proof.
  intros H D. apply Gauss with (b := u); [rewrite Z.mul_comm; exact D|]. apply pow2_rel_odd. exact H.
Qed.

Lemma gs_divide k : forall n, (2 ^ Z.of_nat k | gs n) <-> (2 ^ Z.of_nat k | Z.of_nat n).
Proof.
  induction k as [|k IH]; intros n.
  - split; intros _; apply Z.divide_1_l.
  - rewrite Nat2Z.inj_succ, Z.pow_succ_r by lia.
    destruct (Nat.Even_or_Odd n) as [[m E]|[m E]].
    + assert (G : gs n = 2 * (gs m * (1 + 2 * (53503 * gs m)))).
      { subst n. replace (2 * m)%nat with (m + m)%nat by lia. rewrite gs_double, gs_geom. unfold ra. ring. }
      assert (O : Z.odd (1 + 2 * (53503 * gs m)) = true).
      { rewrite Z.odd_add, Z.odd_mul. reflexivity. }
      rewrite G. replace (Z.of_nat n) with (2 * Z.of_nat m) by lia. split; intros D.
      * apply Z.mul_divide_mono_l. apply IH. apply Z.mul_divide_cancel_l in D; [|discriminate].
        exact (divide_odd_cancel k _ _ O D).
      * apply Z.mul_divide_mono_l. apply Z.mul_divide_cancel_l in D; [|discriminate].
        apply Z.divide_mul_l. apply IH. exact D.
    + assert (O : Z.odd (Z.of_nat n) = true).
      { replace (Z.of_nat n) with (2 * Z.of_nat m + 1) by lia. rewrite Z.odd_add, Z.odd_mul. reflexivity. }
      split; intros [q Q]; exfalso.
      * assert (Z.odd (gs n) = false) by (rewrite Q, !Z.odd_mul, andb_false_r; reflexivity).
        rewrite odd_gs in H. congruence.
      * rewrite Q, !Z.odd_mul, andb_false_r in O. discriminate.
Qed.

(** n iterations *)
Definition lin (n : nat) (s : Z) : Z := ap n * s + rc * gs n.
Lemma lin_0 s : lin 0 s = s. Proof. unfold lin. rewrite ap_0. cbn [gs]. ring. Qed.
Lemma lin_S n s : lin (S n) s = ra * lin n s + rc.
Proof. unfold lin. rewrite ap_S. cbn [gs]. ring. Qed.
Lemma lin_add n m s : lin (n + m) s = lin n (lin m s).
Proof.
  induction n as [|n IH]; [rewrite lin_0; reflexivity|].
  change (S n + m)%nat with (S (n + m)). rewrite !lin_S, IH. reflexivity.
Qed.
Lemma lin_diff n s : lin n s - s = gs n * ((ra - 1) * s + rc).
Proof. unfold lin. rewrite gs_geom. ring. Qed.

Lemma odd_step s : Z.odd ((ra - 1) * s + rc) = true.
Proof. rewrite Z.odd_add, Z.odd_mul. reflexivity. Qed.

Lemma lin_fix k n s : (2 ^ Z.of_nat k | lin n s - s) <-> (2 ^ Z.of_nat k | Z.of_nat n).
Proof.
  rewrite lin_diff, <- gs_divide. split; intros D.
  - exact (divide_odd_cancel k _ _ (odd_step s) D).
  - apply Z.divide_mul_l. exact D.
Qed.

Lemma lin_cong n k x y : (2 ^ Z.of_nat k | x - y) -> (2 ^ Z.of_nat k | lin n x - lin n y).
Proof.
  intros D. unfold lin. replace (ap n * x + rc * gs n - (ap n * y + rc * gs n)) with (ap n * (x - y)) by ring.
  apply Z.divide_mul_r. exact D.
Qed.

Lemma reach k : forall s t, exists n, (Z.of_nat n < 2 ^ Z.of_nat k) /\ (2 ^ Z.of_nat k | lin n s - t).
Proof.
  induction k as [|k IH]; intros s t.
  - exists 0%nat. split; [reflexivity|apply Z.divide_1_l].
  - destruct (IH s t) as (n & Hn & D).
    rewrite Nat2Z.inj_succ, Z.pow_succ_r by lia.
    set (P := 2 ^ Z.of_nat k) in *. assert (0 < P) by (apply Z.pow_pos_nonneg; lia).
    destruct D as [q Q].
    destruct (Z.Even_or_Odd q) as [[r R]|[r R]].
    + exists n. split; [lia|]. exists r. rewrite Q, R. ring.
    + exists (Z.to_nat P + n)%nat. split; [rewrite Nat2Z.inj_add, Z2Nat.id; lia|].
      rewrite lin_add.
      pose proof (proj2 (lin_fix k (Z.to_nat P) (lin n s))) as F1. rewrite Z2Nat.id in F1 by lia.
      destruct (F1 (Z.divide_refl _)) as [q2 Q2]. fold P in Q2.
      destruct (Z.Even_or_Odd q2) as [[r2 R2]|[r2 R2]].
      * exfalso.
        pose proof (proj1 (lin_fix (S k) (Z.to_nat P) (lin n s))) as F2.
        rewrite Z2Nat.id in F2 by lia. rewrite Nat2Z.inj_succ, Z.pow_succ_r in F2 by lia. fold P in F2.
        destruct F2 as [z Zz]; [exists r2; rewrite Q2, R2; ring|].
        assert (W : P * (1 - 2 * z) = 0) by (clear - Zz; lia). apply Z.mul_eq_0 in W. clear - W H. lia.
      * exists (r + r2 + 1).
        replace (lin (Z.to_nat P) (lin n s) - t) with ((lin (Z.to_nat P) (lin n s) - lin n s) + (lin n s - t)) by ring.
        rewrite Q, Q2, R, R2. ring.
Qed.

Lemma iter_lin n s : (s < W32)%N -> Z.of_N (Nat.iter n rand_step s) = lin n (Z.of_N s) mod 2 ^ 32.
Proof.
  intros H. induction n as [|n IH].
  - cbn [Nat.iter nat_rect]. rewrite lin_0, Z.mod_small; [reflexivity|]. change (2 ^ 32) with 4294967296. change W32 with 4294967296%N in H. lia.
  - change (Nat.iter (S n) rand_step s) with (rand_step (Nat.iter n rand_step s)).
    unfold rand_step at 1. rewrite N2Z.inj_mod, N2Z.inj_add, N2Z.inj_mul, IH, lin_S.
    change (Z.of_N W32) with (2 ^ 32). change (Z.of_N 214013) with ra. change (Z.of_N 2531011) with rc.
    rewrite Z.add_mod, (Z.mul_mod ra (_ mod _)) by discriminate. rewrite Z.mod_mod by discriminate.
    rewrite <- Z.mul_mod, <- Z.add_mod by discriminate. reflexivity.
Qed.

Lemma mod_eq_divide x y : x mod 2 ^ 32 = y mod 2 ^ 32 <-> (2 ^ Z.of_nat 32 | x - y).
Proof.
  change (2 ^ Z.of_nat 32) with (2 ^ 32). rewrite <- Z.mod_divide by discriminate. split; intros H.
  - rewrite Zminus_mod, H, Z.sub_diag. reflexivity.
  - replace x with (y + (x - y)) by ring. rewrite Z.add_mod, H, Z.add_0_r, Z.mod_mod by discriminate. reflexivity.
Qed.

Lemma opp_mod0 x : x mod 2 ^ 32 = 0 <-> (- x) mod 2 ^ 32 = 0.
Proof. rewrite !Z.mod_divide by discriminate. symmetry. apply Z.divide_opp_r. Qed.

Lemma rand_period s m n : (s < W32)%N ->
  (Nat.iter m rand_step s = Nat.iter n rand_step s <-> (Z.of_nat m - Z.of_nat n) mod 2 ^ 32 = 0).
Proof.
  assert (A : forall m n, (n <= m)%nat -> (s < W32)%N ->
    (Nat.iter m rand_step s = Nat.iter n rand_step s <-> (Z.of_nat m - Z.of_nat n) mod 2 ^ 32 = 0)).
  { clear m n. intros m n L H.
    rewrite <- (N2Z.inj_iff (Nat.iter m rand_step s)), !iter_lin by exact H. rewrite mod_eq_divide.
    replace m with ((m - n) + n)%nat at 1 by lia. rewrite lin_add, lin_fix.
    rewrite Nat2Z.inj_sub by exact L. rewrite Z.mod_divide by discriminate. reflexivity. }
  intros H. destruct (Nat.le_gt_cases n m) as [L|L]; [apply A; auto|].
  rewrite opp_mod0. replace (- (Z.of_nat m - Z.of_nat n)) with (Z.of_nat n - Z.of_nat m) by ring.
  rewrite <- A by (auto; lia). split; intros; symmetry; assumption.
Qed.

Lemma rand_reach s t : (s < W32)%N -> (t < W32)%N ->
  exists n, (N.of_nat n < W32)%N /\ Nat.iter n rand_step s = t.
Proof.
  intros Hs Ht. destruct (reach 32 (Z.of_N s) (Z.of_N t)) as (n & Hn & D).
  exists n. split; [change W32 with 4294967296%N; change (2 ^ Z.of_nat 32) with 4294967296 in Hn; lia|].
  apply N2Z.inj. rewrite iter_lin by exact Hs. apply mod_eq_divide in D. rewrite D.
  apply Z.mod_small. change (2 ^ 32) with 4294967296. change W32 with 4294967296%N in Ht. lia.
Qed.

Lemma rand_out_range s : (rand_out s < 32768)%N.
Proof. unfold rand_out. change 32767%N with (2 ^ 15 - 1)%N. rewrite land_pow2_pred. apply N.mod_lt. discriminate. Qed.
