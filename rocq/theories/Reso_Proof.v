(** The resonant filter over the exact reals. *)
From Coq Require Import Reals Lra Lia List.
From Verif Require Import Common Float Bq_Model Bq_Spec Bq_Lin Bq_Proof Bq_Allpass Reso_Model.
Local Open Scope R_scope.

Definition rT (f r : R) : R := 2 * (1 - f) + f * r * (2 - f).
Definition rD (f r : R) : R := (1 - f) * (1 - f) + f * r * (2 - f).
Definition rc (f r : R) : coefs R := mkCoefs (f * f) 0 0 (- rT f r) (rD f r).

(** the two states, for any f and fb: the second-order recursion of the output *)
Section Run.
Context {T : Type} (o : ops T) (m : reso T) (x : nat -> T).
Lemma feed_par n : rs_f (rs_feed o m x n) = rs_f m /\ rs_fb (rs_feed o m x n) = rs_fb m /\ rs_reso (rs_feed o m x n) = rs_reso m.
Proof. induction n as [|n IH]; [auto|]. exact IH. Qed.
End Run.

Lemma two_stage (f fb : R) (m : reso R) (x : nat -> R) n : rs_f m = f -> rs_fb m = fb -> rs_y0 m = 0 -> rs_y1 m = 0 ->
  let y := rs_out opsR m x in
  y n = f * f * x n + (1 - f) * (2 + f * fb) * ago y n 1 - (1 - f) * (1 - f + f * fb) * ago y n 2.
Proof.
  intros Ef Efb E0 E1 y. set (s := fun k => rs_feed opsR m x k). assert (EY : forall k, y k = rs_y1 (s (S k))) by reflexivity. clearbody y.
  assert (Y0 : forall k, rs_y0 (s (S k)) = rs_y0 (s k) + f * (x k - rs_y0 (s k) + fb * (rs_y0 (s k) - rs_y1 (s k)))).
  { intros k. unfold s. cbn [rs_feed rs_step rs_y0]. destruct (feed_par opsR m x k) as (-> & -> & _). rewrite Ef, Efb. reflexivity. }
  assert (Y1 : forall k, rs_y1 (s (S k)) = rs_y1 (s k) + f * (rs_y0 (s (S k)) - rs_y1 (s k))).
  { intros k. unfold s at 1. cbn [rs_feed rs_step rs_y1]. fold (rs_step opsR (rs_feed opsR m x k) (x k)). change (rs_step opsR (rs_feed opsR m x k) (x k)) with (s (S k)).
    change (rs_feed opsR m x k) with (s k). destruct (feed_par opsR m x k) as (A & B & _). change (rs_feed opsR m x k) with (s k) in A, B. rewrite A, Ef.
    cbn [add opsR mul sub]. rewrite (Y0 k), B, Efb. reflexivity. }
  rewrite EY.
  assert (A1 : ago y n 1 = rs_y1 (s n)).
  { unfold ago. destruct n as [|n]; [cbn [Nat.leb]; symmetry; exact E1|]. cbn [Nat.leb Nat.sub]. rewrite Nat.sub_0_r. apply EY. }
  rewrite A1. destruct n as [|n].
  - unfold ago. cbn [Nat.leb]. rewrite Y1, Y0. change (s O) with m. rewrite E0, E1. ring.
  - assert (A2 : ago y (S n) 2 = rs_y1 (s n)).
    { unfold ago. destruct n as [|n]; [cbn [Nat.leb]; symmetry; exact E1|]. cbn [Nat.leb Nat.sub]. rewrite Nat.sub_0_r. apply EY. }
    rewrite A2. rewrite (Y1 (S n)), (Y0 (S n)), (Y1 n). ring.
Qed.

Lemma fb_eq f r : f <> 1 -> (1 - f) * (2 + f * rs_feedback opsR f r) = rT f r /\ (1 - f) * (1 - f + f * rs_feedback opsR f r) = rD f r.
Proof. intros H. unfold rs_feedback, rT, rD. cbn [add opsR quo sub one]. split; field; lra. Qed.

Lemma reso_eq f r x : f <> 1 -> difference_equation (f * f) 0 0 (- rT f r) (rD f r) x (rs_out opsR (rs_make opsR f r) x).
Proof.
  intros H t. pose proof (two_stage f (rs_feedback opsR f r) (rs_make opsR f r) x t eq_refl eq_refl eq_refl eq_refl) as E. cbn zeta in E.
  destruct (fb_eq f r H) as [A B]. rewrite A, B in E. rewrite E at 1. ring.
Qed.
Lemma reso_bq f r x n : f <> 1 -> rs_out opsR (rs_make opsR f r) x n = bq_out opsR (bq_make opsR (rc f r)) x n.
Proof.
  intros H. revert n. apply (diff_unique (f * f) 0 0 (- rT f r) (rD f r) x); [apply reso_eq; exact H|].
  exact (diff_eq (rc f r) x).
Qed.

Lemma reso_tri f r : 0 < f < 2 -> 0 <= r < 1 -> triangle (- rT f r) (rD f r).
Proof.
  intros Hf Hr. unfold triangle. rewrite Rabs_Ropp. set (P := f * (2 - f)). assert (P0 : 0 < P) by (apply Rmult_lt_0_compat; lra).
  assert (ED : rD f r = 1 - P * (1 - r)) by (unfold rD, P; ring). assert (ET : rT f r = 2 * (1 - f) + P * r) by (unfold rT, P; ring).
  assert (PQ : 0 < P * (1 - r)) by (apply Rmult_lt_0_compat; lra). assert (PR : 0 <= P * r) by (apply Rmult_le_pos; lra).
  assert (F2 : 0 < f * f) by (apply Rmult_lt_0_compat; lra). assert (G2 : 0 < (2 - f) * (2 - f)) by (apply Rmult_lt_0_compat; lra).
  assert (S1 : 0 <= (1 - f) * (1 - f)) by apply Rle_0_sqr.
  assert (EP : P = 1 - (1 - f) * (1 - f)) by (unfold P; ring).
  assert (PQ1 : P * (1 - r) <= 1). { apply Rle_trans with (P * 1); [apply Rmult_le_compat_l; lra|lra]. }
  split; apply Rabs_def1; try lra.
Qed.

(** an explicit pole radius: 1 - f (1 - r) / 2 *)
Lemma reso_radius f r : 0 < f < 1 -> 0 <= r < 1 -> in_radius (1 - f * (1 - r) / 2) (- rT f r) (rD f r).
Proof.
  intros Hf Hr. set (q := 1 - r). assert (Hq : 0 < q <= 1) by (unfold q; lra). set (d := f * q).
  assert (Hd : 0 < d < 1). { unfold d. split; [apply Rmult_lt_0_compat; lra|]. apply Rle_lt_trans with (f * 1); [apply Rmult_le_compat_l; lra|lra]. }
  assert (ED : rD f r = 1 - 2 * d + f * d) by (unfold rD, d, q; ring). assert (FD : 0 < f * d) by (apply Rmult_lt_0_compat; lra).
  assert (FD1 : f * d <= d). { apply Rle_trans with (1 * d); [apply Rmult_le_compat_r; lra|lra]. }
  assert (ET : rT f r = 2 - f * f - 2 * d + f * d) by (unfold rT, d, q; ring).
  assert (FF : f * f <= 1). { apply Rle_trans with (1 * 1); [apply Rmult_le_compat; lra|lra]. }
  assert (T0 : 0 <= rT f r). { unfold rT. assert (0 <= f * r * (2 - f)) by (apply Rmult_le_pos; [apply Rmult_le_pos; lra|lra]). lra. }
  assert (D0 : 0 <= rD f r). { unfold rD. assert (0 <= f * r * (2 - f)) by (apply Rmult_le_pos; [apply Rmult_le_pos; lra|lra]). assert (0 <= (1 - f) * (1 - f)) by apply Rle_0_sqr. lra. }
  assert (DD : 0 <= d * d) by apply Rle_0_sqr.
  split; [lra|]. rewrite Rabs_Ropp, (Rabs_pos_eq _ T0), (Rabs_pos_eq _ D0). split.
  - replace ((1 - d / 2) * (1 - d / 2)) with (1 - d + d * d / 4) by field. lra.
  - apply Rminus_le. replace (rT f r * (1 - d / 2) - ((1 - d / 2) * (1 - d / 2) + rD f r)) with (- (f * f * (1 - d / 2 - q * q * (3 / 4) + f * q * q / 2))).
    2: { rewrite ET, ED. unfold d. field. }
    assert (0 <= f * f * (1 - d / 2 - q * q * (3 / 4) + f * q * q / 2)); [|lra]. apply Rmult_le_pos; [apply Rle_0_sqr|].
    assert (q * q <= q) by (apply Rle_trans with (1 * q); [apply Rmult_le_compat_r; lra|lra]).
    assert (0 <= f * (q * q)) by (apply Rmult_le_pos; [lra|apply Rle_0_sqr]).
    replace (f * q * q / 2) with (f * (q * q) / 2) by field.
    assert (X : 0 <= (1 - f) * (q - q * q)) by (apply Rmult_le_pos; lra). replace ((1 - f) * (q - q * q)) with (q - q * q - d + f * (q * q)) in X by (unfold d; ring). lra.
Qed.

(** the free motion: y^2 - T y y' + D y'^2 is multiplied by D at every step *)
Definition impulse (n : nat) : R := match n with O => 1 | _ => 0 end.
Lemma ring_down f r n : f <> 1 -> let y := rs_out opsR (rs_make opsR f r) impulse in
  y n * y n - rT f r * (y n * ago y n 1) + rD f r * (ago y n 1 * ago y n 1) = (f * f) * (f * f) * rD f r ^ n.
Proof.
  intros H y. assert (E := reso_eq f r impulse H). fold y in E. induction n as [|n IH].
  - assert (Y0 : y 0%nat = f * f). { rewrite (E 0%nat). unfold ago. cbn [Nat.leb impulse]. ring. }
    unfold ago. cbn [Nat.leb]. rewrite Y0. cbn [pow]. ring.
  - assert (A : ago y (S n) 1 = y n) by (unfold ago; cbn [Nat.leb Nat.sub]; rewrite Nat.sub_0_r; reflexivity).
    assert (B : ago y (S n) 2 = ago y n 1). { unfold ago. destruct n as [|n]; [reflexivity|]. cbn [Nat.leb Nat.sub]. rewrite Nat.sub_0_r. reflexivity. }
    rewrite A. assert (Y : y (S n) = rT f r * y n - rD f r * ago y n 1). { rewrite (E (S n)), A, B. unfold impulse. ring. }
    rewrite Y. cbn [pow]. transitivity (rD f r * ((f * f) * (f * f) * rD f r ^ n)); [rewrite <- IH; ring|ring].
Qed.
