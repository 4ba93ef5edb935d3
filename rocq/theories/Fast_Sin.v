(** fastsin and fasttan: polynomial error, rounding error, and the pole of the first-order allpass. *)
From Coq Require Import ZArith QArith Qreals Reals Lra Lia List Bool.
From Flocq Require Import Core.Core IEEE754.BinarySingleNaN.
From Verif Require Import Common Float FloatFacts FloatRel FloatLerp Db_Model Fast_Model Fast_Bits Fast_Exp Fast_More Filt_Proof Fast_Poly.
Import ListNotations.
Local Open Scope R_scope.
Local Notation fin x := (is_finite x = true).
Local Notation v x := (B2R x).
Local Notation rn := (rnd 24 128).

Definition c1 := 10680707 / 8388608.
Definition c2 := 13599099 / 33554432.
Definition cq := 13160801 / 16777216.
Definition cp := 13666007 / 67108864.
Definition cr := 16240282 / 1073741824.
Definition cs := - 13840919 / 4294967296.
Ltac numc := unfold c1, c2, cq, cp, cr, cs in *.

(** the real polynomial and its distance from the sine *)
Definition Pr (u : R) : R := cq * u + u ^ 2 * (cp + u ^ 2 * (cr + u ^ 2 * cs)).
Definition Qc (a : R) : R := c1 * a - c2 * a ^ 2.
Lemma Pr_ev u : ev P_q u = Pr u.
Proof. unfold P_q, Pr, ev, Q2R. cbn [Qnum Qden]. numc. field. Qed.
Lemma abs2 x A y B : Rabs x <= A -> Rabs y <= B -> Rabs (x * y) <= A * B.
Proof. intros H K. rewrite Rabs_mult. apply Rmult_le_compat; try apply Rabs_pos; assumption. Qed.
Lemma abs_pow x n : Rabs x <= 1.001 -> Rabs (x ^ n) <= 1.001 ^ n.
Proof. intros H. rewrite <- RPow_abs. apply pow_incr. split; [apply Rabs_pos|exact H]. Qed.
Lemma Pr_lip x y : Rabs x <= 1.001 -> Rabs y <= 1.001 -> Rabs (Pr x - Pr y) <= 1.3 * Rabs (x - y).
Proof.
  intros Hx Hy.
  set (g2 := x + y). set (g4 := (x + y) * (x ^ 2 + y ^ 2)). set (g6 := (x + y) * (x ^ 4 + x ^ 2 * y ^ 2 + y ^ 4)).
  replace (Pr x - Pr y) with ((cq + cp * g2 + cr * g4 + cs * g6) * (x - y)) by (unfold Pr, g2, g4, g6; ring).
  rewrite Rabs_mult. apply Rmult_le_compat_r; [apply Rabs_pos|].
  assert (X2 := abs_pow x 2 Hx). assert (Y2 := abs_pow y 2 Hy). assert (X4 := abs_pow x 4 Hx). assert (Y4 := abs_pow y 4 Hy).
  assert (XY := abs2 _ _ _ _ X2 Y2). 
  assert (A2 : Rabs g2 <= 2.002) by (unfold g2; eapply Rle_trans; [apply Rabs_triang|lra]).
  assert (A4 : Rabs g4 <= 4.1).
  { unfold g4. eapply Rle_trans; [apply abs2; [exact A2|eapply Rle_trans; [apply Rabs_triang|apply Rplus_le_compat; [exact X2|exact Y2]]]|]. lra. }
  assert (A6 : Rabs g6 <= 6.1).
  { unfold g6. eapply Rle_trans; [apply abs2; [exact A2|eapply Rle_trans; [apply Rabs_triang|apply Rplus_le_compat; [eapply Rle_trans; [apply Rabs_triang|apply Rplus_le_compat; [exact X4|exact XY]]|exact Y4]]]|]. lra. }
  apply Rabs_le_inv in A2. apply Rabs_le_inv in A4. apply Rabs_le_inv in A6. apply Rabs_le. numc. lra.
Qed.
Lemma cos_lip x y : Rabs (cos x - cos y) <= Rabs (x - y).
Proof.
  rewrite form2. assert (S : forall t, Rabs (sin t) <= Rabs t).
  { intros t. destruct (Rle_or_lt 0 t) as [H|H].
    - rewrite (Rabs_pos_eq t) by exact H. destruct (Rle_or_lt 1 t) as [K|K]; [assert (B := SIN_bound t); apply Rabs_le; lra|].
      destruct (Req_dec t 0) as [->|N]; [rewrite sin_0, Rabs_R0; lra|]. assert (B := sin_lt_x t ltac:(lra)). assert (0 <= sin t) by (apply sin_ge_0; generalize PI2_1; unfold PI2; lra).
      rewrite Rabs_pos_eq; lra.
    - rewrite (Rabs_left t) by exact H. replace t with (- (- t)) at 1 by ring. rewrite sin_neg, Rabs_Ropp. set (s := - t) in *. assert (0 < s) by (unfold s; lra).
      destruct (Rle_or_lt 1 s) as [K|K]; [assert (B := SIN_bound s); apply Rabs_le; lra|]. assert (B := sin_lt_x s ltac:(lra)). assert (0 <= sin s) by (apply sin_ge_0; generalize PI2_1; unfold PI2; lra).
      rewrite Rabs_pos_eq; lra. }
  assert (A := S ((x - y) / 2)). assert (B : Rabs (sin ((x + y) / 2)) <= 1) by (apply Rabs_le; assert (X := SIN_bound ((x + y) / 2)); lra).
  assert (E : Rabs (x - y) = 2 * Rabs ((x - y) / 2)) by (unfold Rdiv; rewrite Rabs_mult, (Rabs_pos_eq (/ 2)); lra).
  rewrite E. replace (-2 * sin ((x - y) / 2) * sin ((x + y) / 2)) with (- (2 * (sin ((x - y) / 2) * sin ((x + y) / 2)))) by ring. rewrite Rabs_Ropp, Rabs_mult, (Rabs_pos_eq 2) by lra.
  assert (C := abs2 _ _ _ _ A B). lra.
Qed.
Definition Hr := 15707963 / 10000000.
Lemma cos_taylor b : -2 <= b <= 2 -> ev cos_q (b ^ 2) <= cos b <= ev cos_q (b ^ 2) + (b ^ 2) ^ 6 / 479001600.
Proof.
  intros H. destruct (pre_cos_bound b 2 ltac:(lra) ltac:(lra)) as [L U].
  unfold cos_approx, cos_term in L, U. cbn [Nat.mul Nat.add sum_f_R0] in L, U.
  assert (F2 : INR (fact 2) = 2) by (cbn; lra). assert (F4 : INR (fact 4) = 24) by (cbn; lra).
  assert (F6 : INR (fact 6) = 720). { rewrite (fact_simpl 5), (fact_simpl 4). rewrite !mult_INR, F4. cbn. lra. }
  assert (F8 : INR (fact 8) = 40320). { rewrite (fact_simpl 7), (fact_simpl 6). rewrite !mult_INR, F6. cbn. lra. }
  assert (F10 : INR (fact 10) = 3628800). { rewrite (fact_simpl 9), (fact_simpl 8). rewrite !mult_INR, F8. cbn. lra. }
  assert (F12 : INR (fact 12) = 479001600). { rewrite (fact_simpl 11), (fact_simpl 10). rewrite !mult_INR, F10. cbn. lra. }
  rewrite F2, F4, F6, F8, F10 in L. rewrite F2, F4, F6, F8, F10, F12 in U.
  change (INR (fact 0)) with 1 in L, U. unfold cos_q, ev, Q2R. cbn [Qnum Qden]. split; [eapply Rle_trans; [|exact L]|eapply Rle_trans; [exact U|]]; right; field.
Qed.
Lemma sin_poly a : 0 <= a <= 3.1415928 -> Rabs (Pr (Qc a) - sin a) <= 0.00005 /\ Rabs (Qc a) <= 1.001.
Proof.
  intros H. assert (P := PI_tight). set (b := a - Hr). set (z := b ^ 2). assert (Bb : -1.5707963 <= b <= 1.5707965) by (unfold b, Hr; lra).
  assert (Bz : 0 <= z <= 2.4675). { unfold z. split; [apply pow2_ge_0|]. assert (X := Rmult_le_pos (1.5707965 - b) (1.5707965 + b) ltac:(lra) ltac:(lra)). replace ((1.5707965 - b) * (1.5707965 + b)) with (1.5707965 * 1.5707965 - b ^ 2) in X by ring. lra. }
  assert (D := diff_bound z ltac:(lra)). unfold diff_q in D. rewrite padd_ev, pcomp_ev, pscale_ev, Pr_ev in D.
  set (w := ev [1%Q; (- K_q)%Q] z) in D.
  assert (Ew : w = 1 - 4052847 / 10000000 * z) by (unfold w, ev, K_q, Q2R; cbn [Qnum Qden Qopp Z.opp]; lra).
  replace (Q2R (-1)) with (-1) in D by (unfold Q2R; cbn; lra).
  assert (Eq : Qc a - w = (4052847 / 10000000 * Hr ^ 2 - 1) + (c1 - 2 * (4052847 / 10000000) * Hr) * a + (4052847 / 10000000 - c2) * a ^ 2) by (rewrite Ew; unfold Qc, z, b; ring).
  assert (A2 : 0 <= a ^ 2 <= 9.87). { split; [apply pow2_ge_0|]. assert (X := pow_incr a 3.1415928 2 ltac:(lra)). lra. }
  assert (Dq : Rabs (Qc a - w) <= 0.00000075). { rewrite Eq. unfold Hr. numc. apply Rabs_le. lra. }
  assert (Bw : Rabs w <= 1.0001) by (rewrite Ew; apply Rabs_le; lra).
  assert (Bq : Rabs (Qc a) <= 1.001). { replace (Qc a) with ((Qc a - w) + w) by ring. eapply Rle_trans; [apply Rabs_triang|]. lra. }
  split; [|exact Bq]. assert (L := Pr_lip (Qc a) w Bq ltac:(lra)).
  destruct (cos_taylor b ltac:(lra)) as (T1 & T2). fold z in T1, T2.
  assert (Z6 : 0 <= z ^ 6 <= 226). { split; [apply pow_le; lra|]. assert (X := pow_incr z 2.4675 6 ltac:(lra)). lra. }
  assert (Es : sin a = cos (a - PI / 2)). { rewrite <- cos_shift. rewrite <- (cos_neg (a - PI / 2)). f_equal. ring. }
  assert (C := cos_lip (a - PI / 2) b). replace (a - PI / 2 - b) with (Hr - PI / 2) in C by (unfold b; ring).
  assert (C' : Rabs (Hr - PI / 2) <= 0.0000001) by (unfold Hr; apply Rabs_le; lra).
  apply Rabs_le_inv in D. assert (L' : Rabs (Pr (Qc a) - Pr w) <= 0.000001) by lra. apply Rabs_le_inv in L'.
  assert (C2 : Rabs (cos (a - PI / 2) - cos b) <= 0.0000001) by lra. apply Rabs_le_inv in C2. rewrite Es. apply Rabs_le. lra.
Qed.

(** rounding *)
Definition sg (s : bool) : R := if s then -1 else 1.
Definition chain (X S A : R) : R :=
  let u := rn (rn (c1 * X) - rn (rn (c2 * X) * A)) in
  let w := rn (u * u) in
  rn (rn (cq * u) + rn (w * rn (S * cp + rn (w * rn (S * cr + rn (w * (S * cs))))))).
Definition k1 := lit 12732395447351627 16 23.
Definition k2 := lit 40528473456935109 17 25.
Definition kq := lit 78444488374548933 17 24.
Definition kp := lit 20363937680730309 17 26.
Definition kr := lit 15124940802184233 18 30.
Definition ks := fneg (lit 32225901625579573 19 32).
Lemma k1v : v k1 = c1 /\ fin k1. Proof. split; [|reflexivity]. rewrite (lit_val k1 10680707 (-23)) by (reflexivity || lia || (vm_compute; reflexivity)). reflexivity. Qed.
Lemma k2v : v k2 = c2 /\ fin k2. Proof. split; [|reflexivity]. rewrite (lit_val k2 13599099 (-25)) by (reflexivity || lia || (vm_compute; reflexivity)). reflexivity. Qed.
Lemma kqv : v kq = cq /\ fin kq. Proof. split; [|reflexivity]. rewrite (lit_val kq 13160801 (-24)) by (reflexivity || lia || (vm_compute; reflexivity)). reflexivity. Qed.
Lemma kpv : v kp = cp /\ fin kp. Proof. split; [|reflexivity]. rewrite (lit_val kp 13666007 (-26)) by (reflexivity || lia || (vm_compute; reflexivity)). reflexivity. Qed.
Lemma krv : v kr = cr /\ fin kr. Proof. split; [|reflexivity]. rewrite (lit_val kr 16240282 (-30)) by (reflexivity || lia || (vm_compute; reflexivity)). reflexivity. Qed.
Lemma ksv : v ks = cs /\ fin ks. Proof. split; [|reflexivity]. rewrite (lit_val ks (-13840919) (-32)) by (reflexivity || lia || (vm_compute; reflexivity)). reflexivity. Qed.
Lemma flip_v s (k : f32) : v (flip s k) = sg s * v k /\ (fin k -> fin (flip s k)).
Proof. destruct s; cbn [flip sg]; [rewrite fneg_R'; split; [ring|apply fneg_fin']|split; [ring|auto]]. Qed.
Lemma sign_v (x : f32) : fin x -> v x = sg (sign_bit x) * Rabs (v x).
Proof.
  destruct x as [s|s| |s m e H]; intros F; try discriminate; unfold sign_bit; cbn [Bsign]; [cbn [B2R]; rewrite Rabs_R0; ring|].
  destruct s; cbn [sg].
  - assert (v (B754_finite true m e H : f32) < 0) by (apply F2R_lt_0; reflexivity). rewrite Rabs_left by assumption. ring.
  - assert (0 < v (B754_finite false m e H : f32)) by (apply F2R_gt_0; reflexivity). rewrite Rabs_pos_eq by lra. ring.
Qed.
Lemma abs_v (x : f32) : v (Babs x) = Rabs (v x). Proof. apply B2R_Babs. Qed.
Lemma abs_fin (x : f32) : fin x -> fin (Babs x). Proof. rewrite is_finite_Babs. auto. Qed.
Lemma b10 : bpow radix2 20 = 1048576 /\ fmt 24 128 (bpow radix2 20) /\ bpow radix2 20 < bpow radix2 128.
Proof. split; [reflexivity|]. split; [apply fmt_bpow; cbn; lia|apply bpow_lt; lia]. Qed.
Lemma mulB (x y : f32) A B : fin x -> fin y -> Rabs (v x) <= A -> Rabs (v y) <= B -> A * B <= 1000000 ->
  v (fmul x y) = rn (v x * v y) /\ fin (fmul x y).
Proof. intros Fx Fy H K L. destruct b10 as (E & F & G). destruct (fmul_bnd x y _ Fx Fy F G) as (V & W & _); [|split; assumption]. rewrite E. assert (X := abs2 _ _ _ _ H K). lra. Qed.
Lemma addB (x y : f32) A B : fin x -> fin y -> Rabs (v x) <= A -> Rabs (v y) <= B -> A + B <= 1000000 ->
  v (fadd x y) = rn (v x + v y) /\ fin (fadd x y).
Proof. intros Fx Fy H K L. destruct b10 as (E & F & G). destruct (fadd_bnd x y _ Fx Fy F G) as (V & W & _); [|split; assumption]. rewrite E. eapply Rle_trans; [apply Rabs_triang|]. lra. Qed.
Lemma subB (x y : f32) A B : fin x -> fin y -> Rabs (v x) <= A -> Rabs (v y) <= B -> A + B <= 1000000 ->
  v (fsub x y) = rn (v x - v y) /\ fin (fsub x y).
Proof. intros Fx Fy H K L. destruct b10 as (E & F & G). destruct (fsub_bnd x y _ Fx Fy F G) as (V & W & _); [|split; assumption]. rewrite E. unfold Rminus. eapply Rle_trans; [apply Rabs_triang|]. rewrite Rabs_Ropp. lra. Qed.
Lemma rB t k : (-100 <= k <= 100)%Z -> Rabs t <= bpow radix2 k -> Rabs (rn t) <= bpow radix2 k.
Proof. intros K H. apply rnd_abs_le; [apply fmt_bpow; cbn; lia|exact H]. Qed.
Lemma fastsin_R (x : f32) : fin x -> Rabs (v x) <= 4 -> fin (fastsin x) /\ v (fastsin x) = chain (v x) (sg (sign_bit x)) (Rabs (v x)).
Proof.
  intros Fx H. unfold fastsin. fold k1 k2 kq kp kr ks. cbv zeta. set (s := sign_bit x). set (X := v x) in *.
  destruct k1v as (V1 & F1). destruct k2v as (V2 & F2). destruct kqv as (V3 & F3). destruct kpv as (V4 & F4). destruct krv as (V5 & F5). destruct ksv as (V6 & F6).
  destruct (flip_v s kp) as (Vp & Fp). destruct (flip_v s kr) as (Vr & Fr). destruct (flip_v s ks) as (Vs & Fs). specialize (Fp F4). specialize (Fr F5). specialize (Fs F6).
  assert (Fa := abs_fin x Fx). assert (Va := abs_v x). assert (Ba : Rabs (v (Babs x)) <= 4) by (rewrite Va, Rabs_Rabsolu; exact H).
  rewrite V4 in Vp. rewrite V5 in Vr. rewrite V6 in Vs.
  assert (Sg : Rabs (sg s) = 1) by (unfold sg; destruct s; [rewrite Rabs_left; lra|apply Rabs_R1]).
  assert (Cp : Rabs (sg s * cp) <= 1) by (rewrite Rabs_mult, Sg, (Rabs_pos_eq cp) by (numc; lra); numc; lra).
  assert (Cr : Rabs (sg s * cr) <= 1) by (rewrite Rabs_mult, Sg, (Rabs_pos_eq cr) by (numc; lra); numc; lra).
  assert (Cs : Rabs (sg s * cs) <= 1) by (rewrite Rabs_mult, Sg, (Rabs_left cs) by (numc; lra); numc; lra).
  assert (C1 : Rabs c1 <= 2) by (rewrite Rabs_pos_eq; numc; lra). assert (C2 : Rabs c2 <= 1/2) by (rewrite Rabs_pos_eq; numc; lra). assert (C3 : Rabs cq <= 1) by (rewrite Rabs_pos_eq; numc; lra).
  destruct (mulB k1 x 2 4 F1 Fx ltac:(rewrite V1; exact C1) H ltac:(lra)) as (M1 & G1). rewrite V1 in M1. fold X in M1.
  assert (N1 : Rabs (rn (c1 * X)) <= 8) by (apply (rB _ 3); [lia|assert (Y := abs2 _ _ _ _ C1 H); change (bpow radix2 3) with 8; lra]).
  destruct (mulB k2 x (1/2) 4 F2 Fx ltac:(rewrite V2; exact C2) H ltac:(lra)) as (M2 & G2). rewrite V2 in M2. fold X in M2.
  assert (N2 : Rabs (rn (c2 * X)) <= 2) by (apply (rB _ 1); [lia|assert (Y := abs2 _ _ _ _ C2 H); change (bpow radix2 1) with 2; lra]).
  destruct (mulB (fmul k2 x) (Babs x) 2 4 G2 Fa ltac:(rewrite M2; exact N2) Ba ltac:(lra)) as (M3 & G3). rewrite M2, Va in M3. fold X in M3.
  assert (N3 : Rabs (rn (rn (c2 * X) * Rabs X)) <= 8) by (apply (rB _ 3); [lia|assert (Y := abs2 _ _ _ _ N2 Ba); rewrite Va in Y; change (bpow radix2 3) with 8; fold X in Y; lra]).
  destruct (subB (fmul k1 x) (fmul (fmul k2 x) (Babs x)) 8 8 G1 G3 ltac:(rewrite M1; exact N1) ltac:(rewrite M3; exact N3) ltac:(lra)) as (M4 & G4). rewrite M1, M3 in M4.
  set (qp := fsub (fmul k1 x) (fmul (fmul k2 x) (Babs x))) in *. unfold chain. set (u := rn (rn (c1 * X) - rn (rn (c2 * X) * Rabs X))) in *. cbv zeta.
  assert (N4 : Rabs u <= 16) by (apply (rB _ 4); [lia|change (bpow radix2 4) with 16; unfold Rminus; eapply Rle_trans; [apply Rabs_triang|]; rewrite Rabs_Ropp; lra]).
  destruct (mulB qp qp 16 16 G4 G4 ltac:(rewrite M4; exact N4) ltac:(rewrite M4; exact N4) ltac:(lra)) as (M5 & G5). rewrite M4 in M5.
  set (w := rn (u * u)) in *. assert (N5 : Rabs w <= 256) by (apply (rB _ 8); [lia|assert (Y := abs2 _ _ _ _ N4 N4); change (bpow radix2 8) with 256; lra]).
  destruct (mulB (fmul qp qp) (flip s ks) 256 1 G5 Fs ltac:(rewrite M5; exact N5) ltac:(rewrite Vs; exact Cs) ltac:(lra)) as (M6 & G6). rewrite M5, Vs in M6.
  set (t1 := rn (w * (sg s * cs))) in *. assert (N6 : Rabs t1 <= 256).
  { apply (rB _ 8); [lia|]. assert (Y := abs2 _ _ _ _ N5 Cs). change (bpow radix2 8) with 256. lra. }
  assert (Cs' : Rabs (sg s * cs) <= 1/256) by (rewrite Rabs_mult, Sg, (Rabs_left cs) by (numc; lra); numc; lra).
  assert (N6' : Rabs t1 <= 1) by (apply (rB _ 0); [lia|assert (Y := abs2 _ _ _ _ N5 Cs'); change (bpow radix2 0) with 1; lra]).
  destruct (addB (flip s kr) _ 1 1 Fr G6 ltac:(rewrite Vr; exact Cr) ltac:(rewrite M6; exact N6') ltac:(lra)) as (M7 & G7). rewrite Vr, M6 in M7.
  set (t2 := rn (sg s * cr + t1)) in *. assert (N7 : Rabs t2 <= 2) by (apply (rB _ 1); [lia|change (bpow radix2 1) with 2; eapply Rle_trans; [apply Rabs_triang|lra]]).
  destruct (mulB (fmul qp qp) _ 256 2 G5 G7 ltac:(rewrite M5; exact N5) ltac:(rewrite M7; exact N7) ltac:(lra)) as (M8 & G8). rewrite M5, M7 in M8.
  set (t3 := rn (w * t2)) in *. assert (N8 : Rabs t3 <= 512) by (apply (rB _ 9); [lia|assert (Y := abs2 _ _ _ _ N5 N7); change (bpow radix2 9) with 512; lra]).
  destruct (addB (flip s kp) _ 1 512 Fp G8 ltac:(rewrite Vp; exact Cp) ltac:(rewrite M8; exact N8) ltac:(lra)) as (M9 & G9). rewrite Vp, M8 in M9.
  set (t4 := rn (sg s * cp + t3)) in *. assert (N9 : Rabs t4 <= 1024) by (apply (rB _ 10); [lia|change (bpow radix2 10) with 1024; eapply Rle_trans; [apply Rabs_triang|lra]]).
  destruct (mulB (fmul qp qp) _ 256 1024 G5 G9 ltac:(rewrite M5; exact N5) ltac:(rewrite M9; exact N9) ltac:(lra)) as (M10 & G10). rewrite M5, M9 in M10.
  set (t5 := rn (w * t4)) in *. assert (N10 : Rabs t5 <= 262144) by (apply (rB _ 18); [lia|assert (Y := abs2 _ _ _ _ N5 N9); change (bpow radix2 18) with 262144; lra]).
  destruct (mulB kq qp 1 16 F3 G4 ltac:(rewrite V3; exact C3) ltac:(rewrite M4; exact N4) ltac:(lra)) as (M11 & G11). rewrite V3, M4 in M11.
  set (t6 := rn (cq * u)) in *. assert (N11 : Rabs t6 <= 16) by (apply (rB _ 4); [lia|assert (Y := abs2 _ _ _ _ C3 N4); change (bpow radix2 4) with 16; lra]).
  destruct (addB _ _ 16 262144 G11 G10 ltac:(rewrite M11; exact N11) ltac:(rewrite M10; exact N10) ltac:(lra)) as (M12 & G12). rewrite M11, M10 in M12.
  split; [exact G12|exact M12].
Qed.
Lemma chain_odd s A : chain (sg s * A) (sg s) A = sg s * chain A 1 A.
Proof.
  assert (R : forall t, rn (sg s * t) = sg s * rn t).
  { intros t. unfold sg. destruct s; [replace (-1 * t) with (- t) by ring; rewrite rnd_opp; ring|rewrite !Rmult_1_l; reflexivity]. }
  assert (S2 : sg s * sg s = 1) by (unfold sg; destruct s; ring). unfold chain. cbv zeta.
  replace (c1 * (sg s * A)) with (sg s * (c1 * A)) by ring. replace (c2 * (sg s * A)) with (sg s * (c2 * A)) by ring. rewrite !R.
  replace (sg s * rn (c2 * A) * A) with (sg s * (rn (c2 * A) * A)) by ring. rewrite R, <- Rmult_minus_distr_l, R.
  set (u := rn (rn (c1 * A) - rn (rn (c2 * A) * A))). replace (sg s * u * (sg s * u)) with (sg s * sg s * (u * u)) by ring. rewrite S2, Rmult_1_l. set (w := rn (u * u)).
  replace (w * (sg s * cs)) with (sg s * (w * cs)) by ring. rewrite R, <- Rmult_plus_distr_l, R. replace (cq * (sg s * u)) with (sg s * (cq * u)) by ring.
  rewrite !Rmult_1_l.
  set (t2 := rn (cr + rn (w * cs))). replace (w * (sg s * t2)) with (sg s * (w * t2)) by ring. rewrite !R, <- Rmult_plus_distr_l, R. set (t4 := rn (cp + rn (w * t2))).
  replace (w * (sg s * t4)) with (sg s * (w * t4)) by ring. rewrite !R, <- Rmult_plus_distr_l, R. reflexivity.
Qed.
Lemma re t k : (-100 <= k)%Z -> Rabs t <= bpow radix2 k -> Rabs (rn t - t) <= bpow radix2 (k - 24 - 1).
Proof. intros K H. apply rnd_err; [cbn; lia|exact H]. Qed.
Lemma chain_near A : 0 <= A <= 3.1415928 ->
  Rabs (chain A 1 A - Pr (Qc A)) <= 0.0000011.
Proof.
  intros H. destruct (sin_poly A H) as (_ & BQ). unfold chain. cbv zeta. rewrite !Rmult_1_l.
  assert (E1 : Rabs (rn (c1 * A) - c1 * A) <= / 4194304). { apply (re _ 3); [lia|]. change (bpow radix2 3) with 8. rewrite Rabs_pos_eq by (apply Rmult_le_pos; numc; lra). numc. lra. }
  assert (E2 : Rabs (rn (c2 * A) - c2 * A) <= / 16777216). { apply (re _ 1); [lia|]. change (bpow radix2 1) with 2. rewrite Rabs_pos_eq by (apply Rmult_le_pos; numc; lra). numc. lra. }
  set (m1 := rn (c1 * A)) in *. set (m2 := rn (c2 * A)) in *.
  assert (A2 : 0 <= A ^ 2 <= 9.87). { split; [apply pow2_ge_0|]. assert (X := pow_incr A 3.1415928 2 ltac:(lra)). lra. }
  assert (E3 : Rabs (m2 * A - c2 * A ^ 2) <= 0.0000001873).
  { replace (m2 * A - c2 * A ^ 2) with ((m2 - c2 * A) * A) by ring. eapply Rle_trans; [apply abs2; [exact E2|rewrite Rabs_pos_eq; [apply H|lra]]|]. lra. }
  assert (E4 : Rabs (rn (m2 * A) - m2 * A) <= / 4194304). { apply (re _ 3); [lia|]. change (bpow radix2 3) with 8. apply Rabs_le_inv in E3. apply Rabs_le. numc. lra. }
  set (m3 := rn (m2 * A)) in *. apply Rabs_le_inv in E1. apply Rabs_le_inv in E3. apply Rabs_le_inv in E4.
  assert (E5 : Rabs (m1 - m3 - Qc A) <= 0.000000665) by (unfold Qc; apply Rabs_le; lra).
  apply Rabs_le_inv in BQ. apply Rabs_le_inv in E5.
  assert (BQ' : Qc A <= 1.00001). { unfold Qc. replace (c1 * A - c2 * A ^ 2) with (c1 ^ 2 / (4 * c2) - c2 * (A - c1 / (2 * c2)) ^ 2) by (numc; field). assert (X := pow2_ge_0 (A - c1 / (2 * c2))). assert (0 <= c2 * (A - c1 / (2 * c2)) ^ 2) by (apply Rmult_le_pos; [numc; lra|exact X]). set (Y := c2 * (A - c1 / (2 * c2)) ^ 2) in *. clearbody Y. numc. lra. }
  assert (BQ0 : - 0.00001 <= Qc A). { unfold Qc. replace (c1 * A - c2 * A ^ 2) with (A * (c1 - c2 * A)) by ring. assert (X := Rmult_le_pos A (c1 - c2 * A + 0.000001) ltac:(lra) ltac:(numc; lra)). replace (A * (c1 - c2 * A + 0.000001)) with (A * (c1 - c2 * A) + 0.000001 * A) in X by ring. lra. }
  assert (E6 : Rabs (rn (m1 - m3) - (m1 - m3)) <= / 16777216). { apply (re _ 1); [lia|]. change (bpow radix2 1) with 2. apply Rabs_le. lra. }
  set (u := rn (m1 - m3)) in *. apply Rabs_le_inv in E6.
  assert (Bu : -0.0001 <= u <= 1.0001) by lra. assert (Du : Rabs (u - Qc A) <= 0.00000073) by (apply Rabs_le; lra).
  assert (L := Pr_lip u (Qc A) ltac:(apply Rabs_le; lra) ltac:(apply Rabs_le; lra)).
  (* the polynomial in floats *)
  assert (Bu2 : 0 <= u * u <= 1.0003). { split; [replace (u * u) with (u ^ 2) by ring; apply pow2_ge_0|]. assert (X := abs2 u 1.0001 u 1.0001 ltac:(apply Rabs_le; lra) ltac:(apply Rabs_le; lra)). assert (Y := Rle_abs (u * u)). lra. }
  assert (E7 : Rabs (rn (u * u) - u * u) <= / 16777216). { apply (re _ 1); [lia|]. change (bpow radix2 1) with 2. apply Rabs_le. lra. }
  set (w := rn (u * u)) in *. apply Rabs_le_inv in E7. set (z := u * u) in *.
  assert (Bw : Rabs w <= 1.0004) by (apply Rabs_le; lra). assert (Bz : Rabs z <= 1.0003) by (apply Rabs_le; lra). assert (Dw : Rabs (w - z) <= / 16777216) by (apply Rabs_le; lra).
  assert (Bs : Rabs cs <= 0.0033) by (rewrite Rabs_left; numc; lra).
  assert (X1 := abs2 _ _ _ _ Bw Bs).
  assert (E8 : Rabs (rn (w * cs) - w * cs) <= / 8589934592). { apply (re _ (-8)); [lia|]. change (bpow radix2 (-8)) with (/ 256). lra. }
  set (t1 := rn (w * cs)) in *. assert (X2 := abs2 _ _ _ _ Dw Bs).
  assert (D1 : Rabs (t1 - z * cs) <= 0.0000000004). { replace (t1 - z * cs) with ((t1 - w * cs) + (w - z) * cs) by ring. eapply Rle_trans; [apply Rabs_triang|]. lra. }
  assert (X3 := abs2 _ _ _ _ Bz Bs). apply Rabs_le_inv in X3. apply Rabs_le_inv in D1.
  assert (E9 : Rabs (rn (cr + t1) - (cr + t1)) <= / 1073741824). { apply (re _ (-5)); [lia|]. change (bpow radix2 (-5)) with (/ 32). apply Rabs_le. unfold cr. lra. }
  set (t2 := rn (cr + t1)) in *. apply Rabs_le_inv in E9. set (p2 := cr + z * cs).
  assert (D2 : Rabs (t2 - p2) <= 0.0000000015) by (unfold p2; apply Rabs_le; lra).
  assert (Bp2 : Rabs p2 <= 0.0186) by (unfold p2, cr; apply Rabs_le; lra).
  assert (X4 := abs2 _ _ _ _ Bw D2). assert (X5 := abs2 _ _ _ _ Dw Bp2). assert (X6 := abs2 _ _ _ _ Bz Bp2).
  assert (D3a : Rabs (w * t2 - z * p2) <= 0.000000003). { replace (w * t2 - z * p2) with (w * (t2 - p2) + (w - z) * p2) by ring. eapply Rle_trans; [apply Rabs_triang|]. lra. }
  apply Rabs_le_inv in D3a. apply Rabs_le_inv in X6.
  assert (E10 : Rabs (rn (w * t2) - w * t2) <= / 1073741824). { apply (re _ (-5)); [lia|]. change (bpow radix2 (-5)) with (/ 32). apply Rabs_le. lra. }
  set (t3 := rn (w * t2)) in *. apply Rabs_le_inv in E10. set (p3 := cp + z * p2).
  assert (E11 : Rabs (rn (cp + t3) - (cp + t3)) <= / 134217728). { apply (re _ (-2)); [lia|]. change (bpow radix2 (-2)) with (/ 4). apply Rabs_le. unfold cp. lra. }
  set (t4 := rn (cp + t3)) in *. apply Rabs_le_inv in E11.
  assert (D4 : Rabs (t4 - p3) <= 0.0000000125) by (unfold p3; apply Rabs_le; lra).
  assert (Bp3 : Rabs p3 <= 0.2225) by (unfold p3, cp; apply Rabs_le; lra).
  assert (X7 := abs2 _ _ _ _ Bw D4). assert (X8 := abs2 _ _ _ _ Dw Bp3). assert (X9 := abs2 _ _ _ _ Bz Bp3).
  assert (D5 : Rabs (w * t4 - z * p3) <= 0.000000026). { replace (w * t4 - z * p3) with (w * (t4 - p3) + (w - z) * p3) by ring. eapply Rle_trans; [apply Rabs_triang|]. lra. }
  apply Rabs_le_inv in D5. apply Rabs_le_inv in X9.
  assert (E12 : Rabs (rn (w * t4) - w * t4) <= / 134217728). { apply (re _ (-2)); [lia|]. change (bpow radix2 (-2)) with (/ 4). apply Rabs_le. lra. }
  set (t5 := rn (w * t4)) in *. apply Rabs_le_inv in E12.
  assert (Eq : 0 <= cq <= 0.7845) by (unfold cq; lra).
  assert (X10 : Rabs (cq * u) <= 0.7845 * 1.0001) by (apply abs2; apply Rabs_le; lra).
  assert (E13 : Rabs (rn (cq * u) - cq * u) <= / 33554432). { apply (re _ 0); [lia|]. change (bpow radix2 0) with 1. lra. }
  set (t6 := rn (cq * u)) in *. apply Rabs_le_inv in E13. apply Rabs_le_inv in X10.
  assert (E14 : Rabs (rn (t6 + t5) - (t6 + t5)) <= / 16777216). { apply (re _ 1); [lia|]. change (bpow radix2 1) with 2. apply Rabs_le. lra. }
  apply Rabs_le_inv in E14.
  assert (EP : Pr u = cq * u + z * p3) by (unfold Pr, z, p3, p2, z; ring).
  assert (L' : Rabs (Pr u - Pr (Qc A)) <= 0.00000095) by lra. apply Rabs_le_inv in L'. apply Rabs_le. lra.
Qed.
Lemma fastsin_near (x : f32) : fin x -> Rabs (v x) <= 3.1415928 ->
  fin (fastsin x) /\ Rabs (v (fastsin x) - sin (v x)) <= 0.0000512 /\ (exists s, v x = sg s * Rabs (v x) /\ v (fastsin x) = sg s * chain (Rabs (v x)) 1 (Rabs (v x))).
Proof.
  intros F H. destruct (fastsin_R x F ltac:(lra)) as (G & V). split; [exact G|]. set (s := sign_bit x) in *. assert (E := sign_v x F). fold s in E.
  set (A := Rabs (v x)) in *. rewrite E, chain_odd in V.
  assert (HA : 0 <= A <= 3.1415928) by (split; [apply Rabs_pos|exact H]). assert (N := chain_near A HA). destruct (sin_poly A HA) as (N2 & _).
  split; [|exists s; split; [exact E|exact V]].
  rewrite V, E. assert (S : sin (sg s * A) = sg s * sin A). { unfold sg. destruct s; [replace (-1 * A) with (- A) by ring; rewrite sin_neg; ring|rewrite !Rmult_1_l; reflexivity]. }
  rewrite S, <- Rmult_minus_distr_l, Rabs_mult. assert (Sg : Rabs (sg s) = 1) by (unfold sg; destruct s; [rewrite Rabs_left; lra|apply Rabs_R1]). rewrite Sg, Rmult_1_l.
  apply Rabs_le_inv in N. apply Rabs_le_inv in N2. apply Rabs_le. lra.
Qed.
Lemma sign_neg (x : f32) : fin x -> sg (sign_bit (fneg x)) = - sg (sign_bit x).
Proof. destruct x as [s|s| |s m e B]; intros F; try discriminate F; destruct s; unfold sign_bit, fneg; cbn [Bopp Bsign negb sg]; ring. Qed.
Lemma fastsin_odd (x : f32) : fin x -> Rabs (v x) <= 4 -> v (fastsin (fneg x)) = - v (fastsin x).
Proof.
  intros F H. destruct (fastsin_R x F H) as (_ & V). destruct (fastsin_R (fneg x) (fneg_fin' x F)) as (_ & W); [rewrite fneg_R', Rabs_Ropp; exact H|].
  rewrite fneg_R', Rabs_Ropp in W. assert (E := sign_v x F). set (A := Rabs (v x)) in *.
  assert (Es : sg (sign_bit (fneg x)) = - sg (sign_bit x)) by (apply sign_neg; exact F).
  rewrite E in V, W. rewrite V, W, chain_odd. replace (- (sg (sign_bit x) * A)) with (sg (sign_bit (fneg x)) * A) by (rewrite Es; ring). rewrite chain_odd, Es. ring.
Qed.

(** the tangent *)
Definition kh := 13176795 / 8388608.
Lemma halfpi_v : v halfpi = kh /\ fin halfpi.
Proof. split; [|reflexivity]. rewrite (lit_val halfpi 13176795 (-23)) by (reflexivity || lia || (vm_compute; reflexivity)). reflexivity. Qed.
Lemma den (x : f32) : fin x -> Rabs (v x) <= 0.7854 ->
  fin (fadd x halfpi) /\ Rabs (v (fadd x halfpi) - (v x + kh)) <= / 8388608 /\ 0.7853 <= v (fadd x halfpi) <= 2.3563.
Proof.
  intros F H. destruct halfpi_v as (V & G). apply Rabs_le_inv in H.
  destruct (addB x halfpi 1 2 F G ltac:(apply Rabs_le; lra) ltac:(rewrite V; unfold kh; apply Rabs_le; lra) ltac:(lra)) as (W & K). split; [exact K|].
  assert (E : Rabs (rn (v x + kh) - (v x + kh)) <= / 8388608). { apply (re _ 2); [lia|]. change (bpow radix2 2) with 4. unfold kh. apply Rabs_le. lra. }
  rewrite W, V. split; [exact E|]. apply Rabs_le_inv in E. unfold kh in *. lra.
Qed.
(** the polynomial increases at least as fast as 0.784 u *)
Lemma Pr_steep x y : 0 <= x -> x <= y -> y <= 1.001 -> 0.784 * (y - x) <= Pr y - Pr x.
Proof.
  intros Hx Hxy Hy. set (g2 := x + y). set (g4 := (x + y) * (x ^ 2 + y ^ 2)). set (g6 := (x + y) * (x ^ 4 + x ^ 2 * y ^ 2 + y ^ 4)).
  replace (Pr y - Pr x) with ((cq + cp * g2 + cr * g4 + cs * g6) * (y - x)) by (unfold Pr, g2, g4, g6; ring).
  apply Rmult_le_compat_r; [lra|].
  assert (G4 : 0 <= g4) by (unfold g4; apply Rmult_le_pos; [lra|]; assert (A := pow2_ge_0 x); assert (B := pow2_ge_0 y); lra).
  assert (X4 : 0 <= x ^ 4 <= 1.01) by (split; [apply pow_le; lra|]; assert (Z := pow_incr x 1.001 4 ltac:(lra)); lra).
  assert (Y4 : 0 <= y ^ 4 <= 1.01) by (split; [apply pow_le; lra|]; assert (Z := pow_incr y 1.001 4 ltac:(lra)); lra).
  assert (X2 : 0 <= x ^ 2 <= 1.0021) by (split; [apply pow_le; lra|]; assert (Z := pow_incr x 1.001 2 ltac:(lra)); lra).
  assert (Y2 : 0 <= y ^ 2 <= 1.0021) by (split; [apply pow_le; lra|]; assert (Z := pow_incr y 1.001 2 ltac:(lra)); lra).
  assert (XY : x ^ 2 * y ^ 2 <= 1.0021 * 1.0021) by (apply Rmult_le_compat; lra).
  assert (G6 : g6 <= (x + y) * 3.03) by (unfold g6; apply Rmult_le_compat_l; lra).
  assert (cs * ((x + y) * 3.03) <= cs * g6) by (unfold cs; lra). unfold g2. numc. lra.
Qed.
Lemma Qc_low A : 0 <= A <= 3.14 -> 0 <= Qc A.
Proof. intros H. unfold Qc. replace (c1 * A - c2 * A ^ 2) with (A * (c1 - c2 * A)) by ring. apply Rmult_le_pos; numc; lra. Qed.
Lemma chain_gap A d : 0 <= A <= 0.78539 -> Rabs (d - (kh + A)) <= / 8388608 \/ Rabs (d - (kh - A)) <= / 8388608 ->
  0 <= d <= 3.14 /\ Rabs (chain A 1 A) + 0.000004 <= chain d 1 d.
Proof.
  intros HA Hd. assert (Bd : 0.785 <= d <= 2.357) by (destruct Hd as [D|D]; apply Rabs_le_inv in D; unfold kh in D; lra). split; [lra|].
  assert (N := chain_near A ltac:(lra)). assert (M := chain_near d ltac:(lra)). apply Rabs_le_inv in N. apply Rabs_le_inv in M.
  assert (QA := Qc_low A ltac:(lra)). destruct (sin_poly d ltac:(lra)) as (_ & Qd). apply Rabs_le_inv in Qd.
  assert (G : 0.0000095 <= Qc d - Qc A).
  { unfold Qc. set (e := 0.0000095).
    destruct Hd as [D|D]; apply Rabs_le_inv in D.
    - replace (c1 * d - c2 * d ^ 2 - (c1 * A - c2 * A ^ 2)) with ((d - A) * (c1 - c2 * (d + A))) by ring.
      assert (X := Rmult_le_compat 1.57 (d - A) (0.0000065) (c1 - c2 * (d + A)) ltac:(lra) ltac:(lra) ltac:(unfold kh in *; lra) ltac:(unfold kh in *; numc; lra)). unfold e. lra.
    - replace (c1 * d - c2 * d ^ 2 - (c1 * A - c2 * A ^ 2)) with ((d - A) * (c1 - c2 * (d + A))) by ring.
      assert (X := Rmult_le_compat 0.000015 (d - A) (0.6366) (c1 - c2 * (d + A)) ltac:(lra) ltac:(lra) ltac:(unfold kh in *; lra) ltac:(unfold kh in *; numc; lra)). unfold e. lra. }
  assert (S := Pr_steep (Qc A) (Qc d) QA ltac:(lra) ltac:(lra)). assert (S0 := Pr_steep 0 (Qc A) ltac:(lra) QA ltac:(lra)).
  assert (P0 : Pr 0 = 0) by (unfold Pr; ring). assert (Rabs (chain A 1 A) <= Pr (Qc A) + 0.0000011) by (apply Rabs_le; lra). lra.
Qed.
