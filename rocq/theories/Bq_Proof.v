(** Exact-real biquads: difference equation, stability, frequency response. *)
From Coq Require Import Reals Lra Lia.
From Verif Require Import Bq_Model Bq_Spec Bq_Lin.
Local Open Scope R_scope.

Section Run.
Context {T : Type} (o : ops T) (b : biquad T) (x : nat -> T).
Local Notation f := (bq_feed o b x).
Local Notation y := (bq_out o b x).
Lemma feed_c n : bq_c (f n) = bq_c b. Proof. induction n as [|n IH]; [reflexivity|]. cbn [bq_feed]. exact IH. Qed.
Lemma feed_x1 n : bx1 (f n) = match n with O => bx1 b | S m => x m end. Proof. destruct n; reflexivity. Qed.
Lemma feed_x2 n : bx2 (f n) = match n with O => bx2 b | S O => bx1 b | S (S m) => x m end.
Proof. destruct n as [|[|n]]; reflexivity. Qed.
Lemma feed_y1 n : by1 (f n) = match n with O => by1 b | S m => y m end. Proof. destruct n; reflexivity. Qed.
Lemma feed_y2 n : by2 (f n) = match n with O => by2 b | S O => by1 b | S (S m) => y m end.
Proof. destruct n as [|[|n]]; reflexivity. Qed.
End Run.

Lemma out_eq (b : biquad R) x n : bq_out opsR b x n =
  k0 (bq_c b) * x n + k1 (bq_c b) * bx1 (bq_feed opsR b x n) + k2 (bq_c b) * bx2 (bq_feed opsR b x n)
  - k3 (bq_c b) * by1 (bq_feed opsR b x n) - k4 (bq_c b) * by2 (bq_feed opsR b x n).
Proof. unfold bq_out, bq_step. cbn [snd add sub mul opsR]. rewrite feed_c. reflexivity. Qed.

Lemma out_rec (b : biquad R) x n : bq_out opsR b x (S (S n)) =
  k0 (bq_c b) * x (S (S n)) + k1 (bq_c b) * x (S n) + k2 (bq_c b) * x n
  - k3 (bq_c b) * bq_out opsR b x (S n) - k4 (bq_c b) * bq_out opsR b x n.
Proof. rewrite out_eq, feed_x1, feed_x2, feed_y1, feed_y2. reflexivity. Qed.

Lemma diff_eq c x : difference_equation (k0 c) (k1 c) (k2 c) (k3 c) (k4 c) x (bq_out opsR (bq_make opsR c) x).
Proof.
  intros t. rewrite out_eq, feed_x1, feed_x2, feed_y1, feed_y2. unfold bq_make. cbn [bq_c bx1 bx2 by1 by2 zro opsR].
  unfold ago. destruct t as [|[|t]]; cbn [Nat.leb]; rewrite ?Nat.sub_0_r; cbn [Nat.sub]; try rewrite Nat.sub_0_r; reflexivity.
Qed.

(** the difference equation determines the output *)
Lemma diff_unique a0 a1 a2 a3 a4 x y z : difference_equation a0 a1 a2 a3 a4 x y -> difference_equation a0 a1 a2 a3 a4 x z ->
  forall t, y t = z t.
Proof.
  intros Hy Hz. assert (G : forall t, y t = z t /\ y (S t) = z (S t)); [|intros t; apply G].
  assert (A : forall t, (forall k, (k < t)%nat -> y k = z k) -> y t = z t).
  { intros t H. rewrite (Hy t), (Hz t). unfold ago. 
    destruct (Nat.leb 1 t) eqn:E1; destruct (Nat.leb 2 t) eqn:E2; try apply Nat.leb_le in E1; try apply Nat.leb_le in E2; rewrite ?(H (t - 1)%nat), ?(H (t - 2)%nat) by lia; reflexivity. }
  assert (B : forall n k, (k < n)%nat -> y k = z k).
  { induction n as [|n IH]; [lia|]. intros k Hk. destruct (Nat.eq_dec k n) as [->|]; [apply A; exact IH|apply IH; lia]. }
  intros t. split; eapply B; apply Nat.lt_succ_diag_r.
Qed.

Lemma ago_lin x y p q t k : ago (fun n => p * x n + q * y n) t k = p * ago x t k + q * ago y t k.
Proof. unfold ago. destruct (Nat.leb k t); lra. Qed.
Lemma ago_shift x d t k : ago (fun n => ago x n d) t k = ago (fun n => ago x n k) t d.
Proof.
  unfold ago. destruct (Nat.leb_spec k t), (Nat.leb_spec d t); destruct (Nat.leb_spec d (t - k)); destruct (Nat.leb_spec k (t - d)); try lia; try reflexivity.
  f_equal; lia.
Qed.

(** stable filters forget their state *)
Lemma settle (b : biquad R) x z r : in_radius r (k3 (bq_c b)) (k4 (bq_c b)) -> r < 1 ->
  (forall t, z (S (S t)) = k0 (bq_c b) * x (S (S t)) + k1 (bq_c b) * x (S t) + k2 (bq_c b) * x t - k3 (bq_c b) * z (S t) - k4 (bq_c b) * z t) ->
  settles_to (bq_out opsR b x) z.
Proof.
  intros Hr R1 Hz. destruct (second_decay r _ _ (fun t => bq_out opsR b x t - z t) Hr R1) as (C & rho & Hrho & HD).
  { intros t. cbv beta. rewrite out_rec, Hz. ring. }
  intros eps He. destruct (decay_small C rho Hrho eps He) as (n & Hn). exists n. intros t Ht. eapply Rle_lt_trans; [apply HD|apply Hn; exact Ht].
Qed.

(** a tone solves the difference equation when the transfer function at w is g e^(i th) *)
Lemma tone_solves c w g th :
  (k0 c + k2 c) * cos w + k1 c = g * (((1 + k4 c) * cos w + k3 c) * cos th - (1 - k4 c) * sin w * sin th) ->
  (k0 c - k2 c) * sin w = g * (((1 + k4 c) * cos w + k3 c) * sin th + (1 - k4 c) * sin w * cos th) ->
  forall A ph t, tone (g * A) w (ph + th) (S (S t)) =
    k0 c * tone A w ph (S (S t)) + k1 c * tone A w ph (S t) + k2 c * tone A w ph t
    - k3 c * tone (g * A) w (ph + th) (S t) - k4 c * tone (g * A) w (ph + th) t.
Proof.
  intros E1 E2 A ph t. unfold tone. rewrite 2 S_INR. set (u := w * (INR t + 1) + ph).
  replace (w * (INR t + 1 + 1) + ph) with (u + w) by (unfold u; ring).
  replace (w * INR t + ph) with (u - w) by (unfold u; ring).
  replace (w * (INR t + 1 + 1) + (ph + th)) with ((u + th) + w) by (unfold u; ring).
  replace (w * (INR t + 1) + (ph + th)) with (u + th) by (unfold u; ring).
  replace (w * INR t + (ph + th)) with ((u + th) - w) by (unfold u; ring).
  rewrite (cos_plus (u + th)), (cos_minus (u + th)), (cos_plus u w), (cos_minus u w), (cos_plus u th), (sin_plus u th).
  set (cu := cos u). set (su := sin u). set (cw := cos w) in *. set (sw := sin w) in *. set (ct := cos th) in *. set (st := sin th) in *.
  apply Rminus_diag_uniq.
  transitivity (A * (cu * (g * (((1 + k4 c) * cw + k3 c) * ct - (1 - k4 c) * sw * st) - ((k0 c + k2 c) * cw + k1 c))
                   - su * (g * (((1 + k4 c) * cw + k3 c) * st + (1 - k4 c) * sw * ct) - (k0 c - k2 c) * sw))); [ring|].
  rewrite <- E1, <- E2. ring.
Qed.

Lemma respond (b : biquad R) w g th : triangle (k3 (bq_c b)) (k4 (bq_c b)) ->
  (k0 (bq_c b) + k2 (bq_c b)) * cos w + k1 (bq_c b) =
    g * (((1 + k4 (bq_c b)) * cos w + k3 (bq_c b)) * cos th - (1 - k4 (bq_c b)) * sin w * sin th) ->
  (k0 (bq_c b) - k2 (bq_c b)) * sin w =
    g * (((1 + k4 (bq_c b)) * cos w + k3 (bq_c b)) * sin th + (1 - k4 (bq_c b)) * sin w * cos th) ->
  response (bq_out opsR b) w g th.
Proof.
  intros Ht E1 E2 A ph. destruct (triangle_radius _ _ Ht) as (r & Hr & R1).
  apply (settle b _ _ r Hr R1). apply tone_solves; assumption.
Qed.

Lemma angle c s : c * c + s * s = 1 -> exists th, cos th = c /\ sin th = s.
Proof.
  intros H. assert (Hc : -1 <= c <= 1).
  { assert (S := sq_nonneg s). split.
    - destruct (Rle_or_lt (-1) c); [assumption|]. assert (0 < (-1 - c) * (1 - c)) by (apply Rmult_lt_0_compat; lra). lra.
    - destruct (Rle_or_lt c 1); [assumption|]. assert (0 < (c - 1) * (c + 1)) by (apply Rmult_lt_0_compat; lra). lra. }
  assert (S1 : sqrt (1 - c * c) = Rabs s). { replace (1 - c * c) with (s²) by (unfold Rsqr; lra). apply sqrt_Rsqr_abs. }
  assert (A : sin (acos c) = Rabs s). { rewrite sin_acos by exact Hc. rewrite <- S1. reflexivity. }
  unfold Rabs in A. destruct (Rcase_abs s).
  - exists (- acos c). rewrite cos_neg, sin_neg, cos_acos by exact Hc. split; [reflexivity|lra].
  - exists (acos c). rewrite cos_acos by exact Hc. split; [reflexivity|exact A].
Qed.

(** the squares of the moduli of numerator and denominator at w *)
Definition num2 (c : coefs R) w := ((k0 c + k2 c) * cos w + k1 c) * ((k0 c + k2 c) * cos w + k1 c) + (k0 c - k2 c) * sin w * ((k0 c - k2 c) * sin w).
Definition den2 (c : coefs R) w := ((1 + k4 c) * cos w + k3 c) * ((1 + k4 c) * cos w + k3 c) + (1 - k4 c) * sin w * ((1 - k4 c) * sin w).
Lemma den2_pos c w : triangle (k3 c) (k4 c) -> 0 < den2 c w.
Proof.
  intros (H4 & H3). unfold den2. set (X := (1 + k4 c) * cos w + k3 c). set (Y := (1 - k4 c) * sin w).
  assert (SX := sq_nonneg X). assert (SY := sq_nonneg Y).
  destruct (Req_dec (X * X + Y * Y) 0) as [E|]; [exfalso|lra].
  assert (EX : X = 0) by (apply Rsqr_0_uniq; unfold Rsqr; lra). assert (EY : Y = 0) by (apply Rsqr_0_uniq; unfold Rsqr; lra).
  assert (K4 : -1 < k4 c < 1) by (revert H4; unfold Rabs; destruct Rcase_abs; lra).
  assert (S0 : sin w = 0) by (apply Rmult_eq_reg_l with (1 - k4 c); [fold Y; lra|lra]).
  assert (C1 := sin2_cos2 w). unfold Rsqr in C1. rewrite S0 in C1.
  assert (C2 : cos w = 1 \/ cos w = -1).
  { assert ((cos w - 1) * (cos w + 1) = 0) by lra. apply Rmult_integral in H. destruct H; [left|right]; lra. }
  unfold X in EX. destruct C2 as [C2|C2]; rewrite C2 in EX; revert H3; unfold Rabs; destruct Rcase_abs; lra.
Qed.
Lemma respond_any (b : biquad R) w : triangle (k3 (bq_c b)) (k4 (bq_c b)) ->
  exists g th, 0 <= g /\ g * g * den2 (bq_c b) w = num2 (bq_c b) w /\ response (bq_out opsR b) w g th.
Proof.
  intros Ht. set (c := bq_c b) in *. assert (D := den2_pos c w Ht).
  set (N1 := (k0 c + k2 c) * cos w + k1 c). set (N2 := (k0 c - k2 c) * sin w).
  set (X := (1 + k4 c) * cos w + k3 c). set (Y := (1 - k4 c) * sin w).
  assert (ED : den2 c w = X * X + Y * Y) by reflexivity. assert (EN : num2 c w = N1 * N1 + N2 * N2) by reflexivity.
  set (d := den2 c w) in *. set (h1 := (N1 * X + N2 * Y) / d). set (h2 := (N2 * X - N1 * Y) / d).
  assert (HH : h1 * h1 + h2 * h2 = num2 c w / d).
  { rewrite EN. unfold h1, h2. apply Rmult_eq_reg_r with (d * d); [|apply Rmult_integral_contrapositive; lra].
    transitivity ((N1 * N1 + N2 * N2) * (X * X + Y * Y)); [field; lra|]. rewrite <- ED. field. lra. }
  assert (M1 : N1 = h1 * X - h2 * Y).
  { unfold h1, h2. transitivity (N1 * (X * X + Y * Y) / d); [rewrite <- ED; field; lra|field; lra]. }
  assert (M2 : N2 = h1 * Y + h2 * X).
  { unfold h1, h2. transitivity (N2 * (X * X + Y * Y) / d); [rewrite <- ED; field; lra|field; lra]. }
  set (g := sqrt (h1 * h1 + h2 * h2)). assert (G2 : g * g = h1 * h1 + h2 * h2) by (apply sqrt_sqrt; generalize (sq_nonneg h1) (sq_nonneg h2); lra).
  assert (G0 : 0 <= g) by apply sqrt_pos.
  assert (exists th, g * cos th = h1 /\ g * sin th = h2) as (th & T1 & T2).
  { destruct (Req_dec g 0) as [Z|Z].
    - exists 0. rewrite Z in G2 |- *. assert (S1 := sq_nonneg h1). assert (S2 := sq_nonneg h2).
      assert (h1 = 0) by (apply Rsqr_0_uniq; unfold Rsqr; lra). assert (h2 = 0) by (apply Rsqr_0_uniq; unfold Rsqr; lra). split; lra.
    - destruct (angle (h1 / g) (h2 / g)) as (th & E1 & E2).
      + transitivity ((h1 * h1 + h2 * h2) / (g * g)); [field; exact Z|]. rewrite <- G2. field. exact Z.
      + exists th. rewrite E1, E2. split; field; exact Z. }
  exists g, th. split; [exact G0|]. split.
  - rewrite G2, HH. field. lra.
  - apply respond; [exact Ht| |]; fold c; fold N1 N2 X Y.
    + rewrite M1, <- T1, <- T2. ring.
    + rewrite M2, <- T1, <- T2. ring.
Qed.
