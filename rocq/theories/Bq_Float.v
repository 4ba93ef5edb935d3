(** The binary32 biquad: one step, boundedness and distance from the exact filter over any run. *)
From Coq Require Import Reals Lra Lia.
From Flocq Require Import Core.Core IEEE754.BinarySingleNaN.
From Verif Require Import Common Float FloatFacts FloatRel FloatLerp Bq_Model Bq_Spec Bq_Lin Bq_Proof.
Local Open Scope R_scope.
Local Notation fin x := (is_finite x = true).
Local Notation v x := (B2R x).
Local Notation rn := (rnd 24 128).
Local Notation u := (/ 16777216).
Local Notation h := (bpow radix2 (-150)).

Lemma big_lt A x : 0 <= A <= bpow radix2 101 -> Rabs x <= A -> Rabs (rn x) < bpow radix2 128.
Proof.
  intros HA Hx. eapply Rle_lt_trans with (bpow radix2 101); [|apply bpow_lt; lia].
  apply (rnd_abs_le (prec:=24) (emax:=128)); [apply fmt_bpow; cbn; lia|lra].
Qed.
Lemma op_err x A : Rabs x <= A -> Rabs (rn x - x) <= u * A + h.
Proof. intros H. eapply Rle_trans; [apply rnd_err_all|]. apply Rplus_le_compat_r. apply Rmult_le_compat_l; lra. Qed.
Lemma op_mul (x y : f32) A : fin x -> fin y -> 0 <= A <= bpow radix2 101 -> Rabs (v x * v y) <= A ->
  fin (fmul x y) /\ Rabs (v (fmul x y) - v x * v y) <= u * A + h.
Proof.
  intros Fx Fy HA H. destruct (fmul_R x y Fx Fy) as (E & F); [exact (big_lt A _ HA H)|]. split; [exact F|].
  rewrite E. exact (op_err _ _ H).
Qed.
Lemma op_add (x y : f32) A : fin x -> fin y -> 0 <= A <= bpow radix2 101 -> Rabs (v x + v y) <= A ->
  fin (fadd x y) /\ Rabs (v (fadd x y) - (v x + v y)) <= u * A + h.
Proof.
  intros Fx Fy HA H. destruct (fadd_R x y Fx Fy) as (E & F); [exact (big_lt A _ HA H)|]. split; [exact F|].
  rewrite E. exact (op_err _ _ H).
Qed.
Lemma op_sub (x y : f32) A : fin x -> fin y -> 0 <= A <= bpow radix2 101 -> Rabs (v x - v y) <= A ->
  fin (fsub x y) /\ Rabs (v (fsub x y) - (v x - v y)) <= u * A + h.
Proof.
  intros Fx Fy HA H. destruct (fsub_R x y Fx Fy) as (E & F); [exact (big_lt A _ HA H)|]. split; [exact F|].
  rewrite E. exact (op_err _ _ H).
Qed.

Lemma abs_le_iff x y : Rabs x <= y <-> - y <= x <= y.
Proof. unfold Rabs. destruct Rcase_abs; split; intros; lra. Qed.
Lemma bpow_split : bpow radix2 101 = 2 * bpow radix2 100.
Proof. change 101%Z with (1 + 100)%Z. rewrite bpow_plus. reflexivity. Qed.

(** one step: within 10 ulp-halves of the exact combination *)
Lemma step_err (c0 c1 c2 c3 c4 s x1 x2 y1 y2 : f32) S :
  fin c0 -> fin c1 -> fin c2 -> fin c3 -> fin c4 -> fin s -> fin x1 -> fin x2 -> fin y1 -> fin y2 ->
  Rabs (v c0 * v s) + Rabs (v c1 * v x1) + Rabs (v c2 * v x2) + Rabs (v c3 * v y1) + Rabs (v c4 * v y2) <= S -> S + 1 <= bpow radix2 100 ->
  let r := fsub (fsub (fadd (fadd (fmul c0 s) (fmul c1 x1)) (fmul c2 x2)) (fmul c3 y1)) (fmul c4 y2) in
  fin r /\ Rabs (v r - (v c0 * v s + v c1 * v x1 + v c2 * v x2 - v c3 * v y1 - v c4 * v y2)) <= 10 * u * S + 16 * h.
Proof.
  intros F0 F1 F2 F3 F4 Fs Fx1 Fx2 Fy1 Fy2 HS HB. cbv zeta.
  assert (Hh : 0 < h < / 1000) by (split; [apply bpow_gt_0|eapply Rlt_le_trans; [apply (bpow_lt radix2 (-150) (-10)); lia|]; change (bpow radix2 (-10)) with (/ 1024); lra]).
  assert (B101 := bpow_split). set (big := bpow radix2 101) in *. 
  set (p0 := v c0 * v s) in *. set (p1 := v c1 * v x1) in *. set (p2 := v c2 * v x2) in *. set (p3 := v c3 * v y1) in *. set (p4 := v c4 * v y2) in *.
  assert (P0 := Rabs_pos p0). assert (P1 := Rabs_pos p1). assert (P2 := Rabs_pos p2). assert (P3 := Rabs_pos p3). assert (P4 := Rabs_pos p4).
  assert (K : forall p, - Rabs p <= p <= Rabs p) by (intros p; unfold Rabs; destruct Rcase_abs; lra).
  assert (K0 := K p0). assert (K1 := K p1). assert (K2 := K p2). assert (K3 := K p3). assert (K4 := K p4). clear K.
  destruct (op_mul c0 s (Rabs p0) F0 Fs) as (M0 & E0); [fold big; lra|apply Rle_refl|]. fold p0 in E0.
  destruct (op_mul c1 x1 (Rabs p1) F1 Fx1) as (M1 & E1); [fold big; lra|apply Rle_refl|]. fold p1 in E1.
  destruct (op_mul c2 x2 (Rabs p2) F2 Fx2) as (M2 & E2); [fold big; lra|apply Rle_refl|]. fold p2 in E2.
  destruct (op_mul c3 y1 (Rabs p3) F3 Fy1) as (M3 & E3); [fold big; lra|apply Rle_refl|]. fold p3 in E3.
  destruct (op_mul c4 y2 (Rabs p4) F4 Fy2) as (M4 & E4); [fold big; lra|apply Rle_refl|]. fold p4 in E4.
  set (m0 := fmul c0 s) in *. set (m1 := fmul c1 x1) in *. set (m2 := fmul c2 x2) in *. set (m3 := fmul c3 y1) in *. set (m4 := fmul c4 y2) in *.
  clearbody m0 m1 m2 m3 m4 p0 p1 p2 p3 p4. apply abs_le_iff in E0, E1, E2, E3, E4.
  set (A := 2 * S + 16 * h).
  destruct (op_add m0 m1 A M0 M1) as (M5 & E5); [unfold A; fold big; lra|apply abs_le_iff; unfold A; lra|].
  apply abs_le_iff in E5. set (m5 := fadd m0 m1) in *. clearbody m5.
  destruct (op_add m5 m2 A M5 M2) as (M6 & E6); [unfold A; fold big; lra|apply abs_le_iff; unfold A in *; lra|].
  apply abs_le_iff in E6. set (m6 := fadd m5 m2) in *. clearbody m6.
  destruct (op_sub m6 m3 A M6 M3) as (M7 & E7); [unfold A; fold big; lra|apply abs_le_iff; unfold A in *; lra|].
  apply abs_le_iff in E7. set (m7 := fsub m6 m3) in *. clearbody m7.
  destruct (op_sub m7 m4 A M7 M4) as (M8 & E8); [unfold A; fold big; lra|apply abs_le_iff; unfold A in *; lra|].
  apply abs_le_iff in E8. set (m8 := fsub m7 m4) in *. clearbody m8.
  split; [exact M8|]. apply abs_le_iff. unfold A in *. lra.
Qed.

(** a signal preceded by two zeros *)
Definition pad (y : nat -> R) (n : nat) : R := match n with O => 0 | S O => 0 | S (S m) => y m end.

(** coefficients as real numbers *)
Definition exact (c : coefs f32) : coefs R := mkCoefs (v (k0 c)) (v (k1 c)) (v (k2 c)) (v (k3 c)) (v (k4 c)).
Definition finite_coefs (c : coefs f32) : Prop := fin (k0 c) /\ fin (k1 c) /\ fin (k2 c) /\ fin (k3 c) /\ fin (k4 c).
Definition feedforward (c : coefs f32) : R := Rabs (v (k0 c)) + Rabs (v (k1 c)) + Rabs (v (k2 c)).

Section Run.
Variables (c : coefs f32) (x : nat -> f32) (B r : R).
Hypothesis Hc : finite_coefs c.
Hypothesis Hx : forall t, fin (x t) /\ Rabs (v (x t)) <= B.
Hypothesis Hr : in_radius r (v (k3 c)) (v (k4 c)).
Hypothesis Hr1 : r <= 1 - / 512.
Definition G := / ((1 - r) * (1 - r)).
Definition D := feedforward c * B + bpow radix2 (-120).
Definition M := 4 * G * D.
Definition W := 10 * u * (feedforward c * B + 3 * M) + 16 * h.
Hypothesis Hbig : 16 * G * D <= bpow radix2 100.
Local Notation b := (bq_make ops32 c).
Local Notation y n := (bq_out ops32 b x n).
Local Notation Y := (pad (fun n => v (y n))).

Lemma B_pos : 0 <= B. Proof. destruct (Hx 0) as (_ & H). generalize (Rabs_pos (v (x 0%nat))). lra. Qed.
Lemma ff_pos : 0 <= feedforward c.
Proof. unfold feedforward. generalize (Rabs_pos (v (k0 c))) (Rabs_pos (v (k1 c))) (Rabs_pos (v (k2 c))). lra. Qed.
Lemma r_range : 0 < r < 1. Proof. destruct Hr as (A & _). lra. Qed.
Lemma G_range : 1 <= G <= 262144.
Proof.
  assert (R := r_range). unfold G. assert (A : / 262144 <= (1 - r) * (1 - r)).
  { replace (/ 262144) with (/ 512 * / 512) by lra. apply Rmult_le_compat; lra. }
  assert (C : (1 - r) * (1 - r) <= 1) by (apply Rle_trans with (1 * 1); [apply Rmult_le_compat; lra|lra]). split.
  - rewrite <- Rinv_1 at 1. apply Rinv_le_contravar; lra.
  - replace 262144 with (/ / 262144) by lra. apply Rinv_le_contravar; lra.
Qed.
Lemma D_pos : bpow radix2 (-120) <= D.
Proof. unfold D. assert (0 <= feedforward c * B) by (apply Rmult_le_pos; [apply ff_pos|apply B_pos]). lra. Qed.
Lemma h_small : h = bpow radix2 (-120) * bpow radix2 (-30).
Proof. rewrite <- bpow_plus. reflexivity. Qed.
Lemma W_bound : feedforward c * B + W <= D + W /\ (D + W) * G <= M /\ 0 <= W.
Proof.
  assert (HD := D_pos). assert (HG := G_range). assert (T := bpow_gt_0 radix2 (-120)).
  assert (Hh : 16 * h <= u * D).
  { rewrite h_small. change (bpow radix2 (-30)) with (/ 1073741824). lra. }
  assert (HW0 : 0 <= W). { unfold W, M. assert (0 <= feedforward c * B) by (apply Rmult_le_pos; [apply ff_pos|apply B_pos]).
    assert (0 < G * D) by (apply Rmult_lt_0_compat; lra). assert (0 < h) by apply bpow_gt_0. lra. }
  split; [unfold D; lra|]. split; [|exact HW0].
  assert (HW : W <= 11 * u * D + 30 * u * M). { unfold W. replace (feedforward c * B) with (D - bpow radix2 (-120)) by (unfold D; ring). lra. }
  assert (X : (D + W) * G <= (D + 11 * u * D + 30 * u * M) * G) by (apply Rmult_le_compat_r; lra).
  assert (P : 0 < G * D) by (apply Rmult_lt_0_compat; lra).
  assert (Z : M * G <= M * 262144) by (apply Rmult_le_compat_l; [unfold M; lra|lra]).
  unfold M in *. lra.
Qed.
Lemma k34 : Rabs (v (k3 c)) <= 2 /\ Rabs (v (k4 c)) <= 1.
Proof.
  assert (R := r_range). destruct Hr as (H0 & H4 & H3). assert (r * r <= 1) by (replace 1 with (1 * 1) by ring; apply Rmult_le_compat; lra).
  assert (v (k4 c) <= Rabs (v (k4 c))) by apply Rle_abs.
  split; [|lra]. apply Rmult_le_reg_r with r; [exact H0|]. assert (r * r <= r) by (replace r with (1 * r) at 3 by ring; apply Rmult_le_compat_r; lra). lra.
Qed.
Lemma mul_le p q P Q : Rabs p <= P -> Rabs q <= Q -> Rabs (p * q) <= P * Q.
Proof. intros. rewrite Rabs_mult. apply Rmult_le_compat; try apply Rabs_pos; assumption. Qed.

Lemma v_y1 n : v (by1 (bq_feed ops32 b x n)) = Y (S n). Proof. rewrite feed_y1. destruct n; reflexivity. Qed.
Lemma v_y2 n : v (by2 (bq_feed ops32 b x n)) = Y n. Proof. rewrite feed_y2. destruct n as [|[|n]]; reflexivity. Qed.
Lemma x1_ok n : fin (bx1 (bq_feed ops32 b x n)) /\ Rabs (v (bx1 (bq_feed ops32 b x n))) <= B.
Proof. rewrite feed_x1. destruct n; [|apply Hx]. split; [reflexivity|]. change (Rabs 0 <= B). rewrite Rabs_R0. apply B_pos. Qed.
Lemma x2_ok n : fin (bx2 (bq_feed ops32 b x n)) /\ Rabs (v (bx2 (bq_feed ops32 b x n))) <= B.
Proof. rewrite feed_x2. destruct n as [|[|n]]; [| |apply Hx]; (split; [reflexivity|]; change (Rabs 0 <= B); rewrite Rabs_R0; apply B_pos). Qed.
Lemma v_x1 n : v (bx1 (bq_feed ops32 b x n)) = ago (fun t => v (x t)) n 1.
Proof. rewrite feed_x1. destruct n; [reflexivity|]. unfold ago. cbn [Nat.leb Nat.sub]. rewrite Nat.sub_0_r. reflexivity. Qed.
Lemma v_x2 n : v (bx2 (bq_feed ops32 b x n)) = ago (fun t => v (x t)) n 2.
Proof. rewrite feed_x2. destruct n as [|[|n]]; [reflexivity|reflexivity|]. unfold ago. cbn [Nat.leb Nat.sub]. rewrite Nat.sub_0_r. reflexivity. Qed.

Definition forward n := v (k0 c) * v (x n) + v (k1 c) * ago (fun t => v (x t)) n 1 + v (k2 c) * ago (fun t => v (x t)) n 2.
Definition good n := fin (y n) /\ Rabs (v (y n)) <= M /\
  Rabs (v (y n) - (forward n - v (k3 c) * Y (S n) - v (k4 c) * Y n)) <= W.

Lemma forward_bound n : Rabs (forward n) <= feedforward c * B.
Proof.
  unfold forward. rewrite <- v_x1, <- v_x2.
  destruct (x1_ok n) as (_ & X1). destruct (x2_ok n) as (_ & X2). destruct (Hx n) as (_ & X0).
  eapply Rle_trans; [apply Rabs_triang|]. eapply Rle_trans; [apply Rplus_le_compat_r, Rabs_triang|].
  assert (A0 := mul_le _ _ _ _ (Rle_refl (Rabs (v (k0 c)))) X0).
  assert (A1 := mul_le _ _ _ _ (Rle_refl (Rabs (v (k1 c)))) X1).
  assert (A2 := mul_le _ _ _ _ (Rle_refl (Rabs (v (k2 c)))) X2). unfold feedforward. lra.
Qed.
Lemma run_ok : forall n t, (t < n)%nat -> good t.
Proof.
  assert (HD := D_pos). assert (HG := G_range). assert (T := bpow_gt_0 radix2 (-120)). destruct W_bound as (W1 & W2 & W0).
  assert (P : 0 < G * D) by (apply Rmult_lt_0_compat; lra).
  assert (M0 : 0 <= M) by (unfold M; lra).
  induction n as [|n IH]; [lia|]. intros t Ht. destruct (Nat.eq_dec t n) as [->|]; [|apply IH; lia].
  assert (Y1 : fin (by1 (bq_feed ops32 b x n)) /\ Rabs (v (by1 (bq_feed ops32 b x n))) <= M).
  { rewrite feed_y1. destruct n as [|m]; [split; [reflexivity|]; change (Rabs 0 <= M); rewrite Rabs_R0; exact M0|].
    destruct (IH m) as (A & C & _); [lia|]. split; assumption. }
  assert (Y2 : fin (by2 (bq_feed ops32 b x n)) /\ Rabs (v (by2 (bq_feed ops32 b x n))) <= M).
  { rewrite feed_y2. destruct n as [|[|m]]; [split; [reflexivity|]; change (Rabs 0 <= M); rewrite Rabs_R0; exact M0| |].
    - split; [reflexivity|]; change (Rabs 0 <= M); rewrite Rabs_R0; exact M0.
    - destruct (IH m) as (A & C & _); [lia|]. split; assumption. }
  destruct (x1_ok n) as (X1 & X1'). destruct (x2_ok n) as (X2 & X2'). destruct (Hx n) as (X0 & X0').
  destruct Y1 as (Y1 & Y1'). destruct Y2 as (Y2 & Y2'). destruct Hc as (F0 & F1 & F2 & F3 & F4). destruct k34 as (K3 & K4).
  assert (A0 := mul_le _ _ _ _ (Rle_refl (Rabs (v (k0 c)))) X0').
  assert (A1 := mul_le _ _ _ _ (Rle_refl (Rabs (v (k1 c)))) X1').
  assert (A2 := mul_le _ _ _ _ (Rle_refl (Rabs (v (k2 c)))) X2').
  assert (A3 := mul_le _ _ _ _ K3 Y1'). assert (A4 := mul_le _ _ _ _ K4 Y2').
  destruct (step_err (k0 c) (k1 c) (k2 c) (k3 c) (k4 c) (x n) _ _ _ _ (feedforward c * B + 3 * M) F0 F1 F2 F3 F4 X0 X1 X2 Y1 Y2) as (Fr & Er).
  { unfold feedforward. lra. }
  { assert (1 <= bpow radix2 90) by (apply (bpow_le radix2 0 90); lia). 
    assert (bpow radix2 100 = 1024 * bpow radix2 90) by (change 100%Z with (10 + 90)%Z; rewrite bpow_plus; reflexivity).
    assert (feedforward c * B <= D) by (unfold D; lra).
    assert (D <= G * D) by (replace D with (1 * D) at 1 by ring; apply Rmult_le_compat_r; lra). unfold M. lra. }
  assert (Ey : y n = fsub (fsub (fadd (fadd (fmul (k0 c) (x n)) (fmul (k1 c) (bx1 (bq_feed ops32 b x n)))) (fmul (k2 c) (bx2 (bq_feed ops32 b x n))))
        (fmul (k3 c) (by1 (bq_feed ops32 b x n)))) (fmul (k4 c) (by2 (bq_feed ops32 b x n)))).
  { unfold bq_out, bq_step. cbn [snd]. rewrite feed_c. reflexivity. }
  rewrite <- Ey in Fr, Er. rewrite v_y1, v_y2, v_x1, v_x2 in Er. fold (forward n) in Er. fold W in Er.
  assert (E1 : Rabs (v (y n) - (forward n - v (k3 c) * Y (S n) - v (k4 c) * Y n)) <= W) by exact Er.
  split; [exact Fr|]. split; [|exact E1].
  assert (R1 := r_range).
  assert (SB := second_bound r (v (k3 c)) (v (k4 c)) Y Hr (proj2 R1) (D + W) (S n) ltac:(lra)). cbn [pad] in SB.
  rewrite Rabs_R0, Rmult_0_r, !Rplus_0_l in SB.
  eapply Rle_trans; [|exact W2]. replace ((D + W) * G) with ((D + W) / (1 - r) / (1 - r)) by (unfold G; field; lra).
  apply (SB) with (t := S (S n)); [|lia]. intros t' Ht'.
  assert (Hg : Rabs (v (y t') - (forward t' - v (k3 c) * Y (S t') - v (k4 c) * Y t')) <= W).
  { destruct (Nat.eq_dec t' n) as [->|]; [exact E1|]. destruct (IH t') as (_ & _ & H); [lia|exact H]. }
  exists (v (y t') + v (k3 c) * Y (S t') + v (k4 c) * Y t'). split; [cbn [pad]; ring|].
  replace (v (y t') + v (k3 c) * Y (S t') + v (k4 c) * Y t') with (forward t' + (v (y t') - (forward t' - v (k3 c) * Y (S t') - v (k4 c) * Y t'))) by ring.
  eapply Rle_trans; [apply Rabs_triang|]. assert (FB := forward_bound t'). assert (feedforward c * B <= D) by (unfold D; lra). lra.
Qed.

Local Notation yr n := (bq_out opsR (bq_make opsR (exact c)) (fun t => v (x t)) n).
Lemma exact_rec n : yr n = forward n - v (k3 c) * pad (fun t => yr t) (S n) - v (k4 c) * pad (fun t => yr t) n.
Proof.
  rewrite (diff_eq (exact c) (fun t => v (x t)) n). unfold exact. cbn [k0 k1 k2 k3 k4]. fold (exact c). fold (forward n).
  f_equal; [f_equal|]; f_equal; unfold ago, pad; destruct n as [|[|n]]; cbn [Nat.leb Nat.sub]; rewrite ?Nat.sub_0_r; reflexivity.
Qed.
Lemma track n : Rabs (v (y n) - yr n) <= W * G.
Proof.
  assert (R1 := r_range). destruct W_bound as (_ & _ & W0).
  assert (SB := second_bound r (v (k3 c)) (v (k4 c)) (fun t => Y t - pad (fun t => yr t) t) Hr (proj2 R1) W (S n) W0).
  cbn [pad] in SB. rewrite Rminus_0_r, Rabs_R0, Rmult_0_r, !Rplus_0_l in SB.
  replace (W * G) with (W / (1 - r) / (1 - r)) by (unfold G; field; lra).
  apply (SB) with (t := S (S n)); [|lia]. intros t' Ht'. destruct (run_ok (S t') t') as (_ & _ & H); [lia|].
  exists (v (y t') - (forward t' - v (k3 c) * Y (S t') - v (k4 c) * Y t')). split; [|exact H].
  rewrite (exact_rec t') at 1. cbn [pad]. ring.
Qed.
Lemma WG : W * G <= 2 * / 131072 * (G * G) * D.
Proof.
  assert (HD := D_pos). assert (HG := G_range). assert (T := bpow_gt_0 radix2 (-120)).
  assert (Hh : 16 * h <= u * D). { rewrite h_small. change (bpow radix2 (-30)) with (/ 1073741824). lra. }
  assert (HW : W <= 11 * u * D + 30 * u * M). { unfold W. replace (feedforward c * B) with (D - bpow radix2 (-120)) by (unfold D; ring). lra. }
  assert (X : W * G <= (11 * u * D + 30 * u * M) * G) by (apply Rmult_le_compat_r; lra).
  assert (P : 0 < G * D) by (apply Rmult_lt_0_compat; lra).
  assert (Z : G * D <= G * G * D) by (rewrite Rmult_assoc; replace (G * D) with (1 * (G * D)) at 1 by ring; apply Rmult_le_compat_r; lra).
  unfold M in X. lra.
Qed.
End Run.
