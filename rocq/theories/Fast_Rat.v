(** fast_tan and fast_rational_tanh. *)
From Coq Require Import ZArith QArith Qreals Reals Lra Lia List Bool.
From Flocq Require Import Core.Core IEEE754.BinarySingleNaN.
From Verif Require Import Common Float FloatFacts FloatRel FloatLerp Fast_Model Expo Fast_Bits Fast_Exp Fast_More Filt_Proof Sin_Proof Fast_Poly Fast_Sin Fast_Tan.
Import ListNotations.
Local Open Scope R_scope.
Local Notation fin x := (is_finite x = true).
Local Notation v x := (B2R x).
Local Notation rn := (rnd 24 128).

Definition ta := 10655210 / 33554432.
Definition tb := 13643232 / 67108864.
Definition ka := lit 31755 5 25.
Definition kb := lit 2033 4 26.
Lemma kav : v ka = ta /\ fin ka. Proof. split; [|reflexivity]. rewrite (lit_val ka 10655210 (-25)) by (reflexivity || lia || (vm_compute; reflexivity)). reflexivity. Qed.
Lemma kbv : v kb = tb /\ fin kb. Proof. split; [|reflexivity]. rewrite (lit_val kb 13643232 (-26)) by (reflexivity || lia || (vm_compute; reflexivity)). reflexivity. Qed.
Definition t_q : list Q := [1; 10655210 # 33554432; 13643232 # 67108864]%Q.
Definition sinc_q : list Q := [1; -1 # 6; 1 # 120; -1 # 5040]%Q.
Definition cos4_q : list Q := [1; -1 # 2; 1 # 24; -1 # 720]%Q.
Definition tdiff_q : list Q := padd (pmul t_q cos4_q) (pscale (-1) sinc_q).
Definition tdiff_d : list Q := Eval vm_compute in map dyad tdiff_q.
Lemma tdiff_close : Qle_bool (evabs (padd tdiff_q (pscale (-1) tdiff_d)) 1) (1 # 100000000) = true.
Proof. vm_compute. reflexivity. Qed.
Lemma tdiff_check : check tdiff_d 0 (1 # 64) (990 # 1000000) 20 = true.
Proof. vm_compute. reflexivity. Qed.
Definition Tp (z : R) : R := 1 + z * (ta + z * tb).
Lemma tdiff_bound z : 0 <= z <= 0.62 -> Rabs (ev tdiff_q z) <= 0.000991.
Proof.
  intros H. assert (A : Rabs (ev tdiff_d z) <= Q2R (990 # 1000000)).
  { apply (check_ok _ _ _ _ 0 z tdiff_check); [|discriminate]. rewrite Q2R0. replace (INR 20) with 20 by (cbn; lra). unfold Q2R. cbn [Qnum Qden]. lra. }
  assert (B : Rabs (ev (padd tdiff_q (pscale (-1) tdiff_d)) z) <= Q2R (1 # 100000000)).
  { eapply Rle_trans; [apply (evabs_ok _ 1)|apply Qle_Rle, Qle_bool_iff, tdiff_close]. unfold Q2R. cbn [Qnum Qden]. rewrite Rabs_pos_eq; lra. }
  rewrite padd_ev, pscale_ev in B. unfold Q2R in A, B. cbn [Qnum Qden Qopp] in A, B.
  apply Rabs_le. apply Rabs_le_inv in A. apply Rabs_le_inv in B. lra.
Qed.
Lemma facts : INR (fact 2) = 2 /\ INR (fact 3) = 6 /\ INR (fact 4) = 24 /\ INR (fact 5) = 120 /\ INR (fact 6) = 720 /\ INR (fact 7) = 5040 /\ INR (fact 8) = 40320 /\ INR (fact 9) = 362880.
Proof.
  assert (F2 : INR (fact 2) = 2) by (cbn; lra). assert (F3 : INR (fact 3) = 6) by (cbn; lra). assert (F4 : INR (fact 4) = 24) by (cbn; lra).
  assert (F5 : INR (fact 5) = 120) by (rewrite (fact_simpl 4), mult_INR, F4; cbn; lra). assert (F6 : INR (fact 6) = 720) by (rewrite (fact_simpl 5), mult_INR, F5; cbn; lra).
  assert (F7 : INR (fact 7) = 5040) by (rewrite (fact_simpl 6), mult_INR, F6; cbn; lra). assert (F8 : INR (fact 8) = 40320) by (rewrite (fact_simpl 7), mult_INR, F7; cbn; lra).
  assert (F9 : INR (fact 9) = 362880) by (rewrite (fact_simpl 8), mult_INR, F8; cbn; lra). repeat split; assumption.
Qed.
Lemma tan_poly A : 0 <= A <= 0.7854 -> Rabs (A * Tp (A ^ 2) - tan A) <= 0.00119 /\ 0 <= tan A <= 1.1391.
Proof.
  intros H. destruct facts as (F2 & F3 & F4 & F5 & F6 & F7 & F8 & F9). set (z := A ^ 2).
  assert (Bz : 0 <= z <= 0.617). { unfold z. split; [apply pow2_ge_0|]. assert (X := pow_incr A 0.7854 2 ltac:(lra)). lra. }
  destruct (pre_cos_bound A 1 ltac:(lra) ltac:(lra)) as [CL CU]. destruct (pre_sin_bound A 1 ltac:(lra) ltac:(lra)) as [SL SU].
  unfold cos_approx, cos_term in CL, CU. unfold sin_approx, sin_term in SL, SU. cbn [Nat.mul Nat.add sum_f_R0] in CL, CU, SL, SU.
  change (INR (fact 0)) with 1 in *. change (INR (fact 1)) with 1 in *. rewrite F2, F4, F6 in CL. rewrite F2, F4, F6, F8 in CU. rewrite F3, F5, F7 in SL. rewrite F3, F5, F7, F9 in SU.
  set (C := ev cos4_q z). set (S := ev sinc_q z).
  assert (CL' : C <= cos A) by (eapply Rle_trans; [|exact CL]; right; unfold C, cos4_q, ev, Q2R, z; cbn [Qnum Qden]; field).
  assert (CU' : cos A <= C + z ^ 4 / 40320) by (eapply Rle_trans; [exact CU|]; right; unfold C, cos4_q, ev, Q2R, z; cbn [Qnum Qden]; field).
  assert (SL' : A * S <= sin A) by (eapply Rle_trans; [|exact SL]; right; unfold S, sinc_q, ev, Q2R, z; cbn [Qnum Qden]; field).
  assert (SU' : sin A <= A * (S + z ^ 4 / 362880)) by (eapply Rle_trans; [exact SU|]; right; unfold S, sinc_q, ev, Q2R, z; cbn [Qnum Qden]; field).
  assert (Z4 : 0 <= z ^ 4 <= 0.145). { split; [apply pow_le; lra|]. assert (X := pow_incr z 0.617 4 ltac:(lra)). lra. }
  assert (D := tdiff_bound z ltac:(lra)). unfold tdiff_q in D. rewrite padd_ev, pmul_ev, pscale_ev in D. fold C S in D. replace (Q2R (-1)) with (-1) in D by (unfold Q2R; cbn; lra).
  assert (ET : ev t_q z = Tp z) by (unfold t_q, ev, Q2R, Tp, ta, tb; cbn [Qnum Qden]; field). rewrite ET in D.
  assert (K := cos_low A ltac:(rewrite Rabs_pos_eq; lra)). assert (BT : 0 <= Tp z <= 1.3). { unfold Tp, ta, tb. assert (X := Rmult_le_compat z 0.617 (10655210 / 33554432 + z * (13643232 / 67108864)) 0.45 ltac:(lra) ltac:(lra) ltac:(lra) ltac:(lra)). assert (0 <= z * (10655210 / 33554432 + z * (13643232 / 67108864))) by (apply Rmult_le_pos; lra). lra. }
  assert (E1 : Rabs (Tp z * cos A - Tp z * C) <= 1.3 * 0.000004). { rewrite <- Rmult_minus_distr_l. apply abs2; apply Rabs_le; lra. }
  set (s := sin A) in *. assert (E2 : Rabs (A * (Tp z * cos A) - s) <= 0.7854 * 0.001).
  { assert (X : Rabs (A * (Tp z * cos A - S)) <= 0.7854 * 0.000997).
    { apply abs2; [apply Rabs_le; lra|]. apply Rabs_le_inv in D. apply Rabs_le_inv in E1. apply Rabs_le. lra. }
    assert (Y : 0 <= s - A * S <= A * 0.0000004) by (split; [lra|]; assert (W := Rmult_le_compat_l A (S + z ^ 4 / 362880) (S + 0.0000004) ltac:(lra) ltac:(lra)); lra).
    apply Rabs_le_inv in X. apply Rabs_le. rewrite Rmult_minus_distr_l in X. lra. }
  assert (KB := COS_bound A). assert (s0 : 0 <= s) by (apply sin_ge_0; generalize PI_tight; lra). assert (s1 : s <= A) by (destruct (sin_cub A ltac:(lra)); assumption).
  unfold tan. fold s. split.
  - replace (A * Tp z - s / cos A) with ((A * (Tp z * cos A) - s) * / cos A) by (field; lra). rewrite Rabs_mult, (Rabs_pos_eq (/ cos A)) by (left; apply Rinv_0_lt_compat; lra).
    apply (Rmult_le_reg_r (cos A)); [lra|]. rewrite Rmult_assoc, Rinv_l, Rmult_1_r by lra. lra.
  - split; [apply Rmult_le_pos; [lra|left; apply Rinv_0_lt_compat; lra]|]. apply (Rmult_le_reg_r (cos A)); [lra|]. unfold Rdiv. rewrite Rmult_assoc, Rinv_l, Rmult_1_r by lra. lra.
Qed.
Lemma one_v : v (mk32 1 0) = 1 /\ fin (mk32 1 0).
Proof. destruct (mk32_small 1 0 ltac:(lia) ltac:(lia)) as (V & F). split; [rewrite V; cbn [bpow]; lra|exact F]. Qed.
Lemma fast_tan_R (x : f32) : fin x -> Rabs (v x) <= 0.7854 ->
  fin (fast_tan x) /\ v (fast_tan x) = rn (rn (rn (rn (rn (tb * rn (v x * v x)) + ta) * rn (v x * v x)) + 1) * v x).
Proof.
  intros F H. unfold fast_tan. fold ka kb. cbv zeta. destruct kav as (Va & Fa). destruct kbv as (Vb & Fb). destruct one_v as (V1 & F1). set (X := v x) in *.
  destruct (mulB x x 1 1 F F ltac:(fold X; lra) ltac:(fold X; lra) ltac:(lra)) as (M1 & G1). fold X in M1. set (q := fmul x x) in *.
  assert (B1 : Rabs (rn (X * X)) <= 1) by (apply (rB _ 0); [lia|]; change (bpow radix2 0) with 1; assert (Y := abs2 _ _ _ _ H H); lra). set (w := rn (X * X)) in *.
  assert (Ta : Rabs ta <= 1) by (unfold ta; rewrite Rabs_pos_eq; lra). assert (Tb : Rabs tb <= 1) by (unfold tb; rewrite Rabs_pos_eq; lra).
  destruct (mulB kb q 1 1 Fb G1 ltac:(rewrite Vb; exact Tb) ltac:(rewrite M1; exact B1) ltac:(lra)) as (M2 & G2). rewrite Vb, M1 in M2.
  assert (B2 : Rabs (rn (tb * w)) <= 1) by (apply (rB _ 0); [lia|]; change (bpow radix2 0) with 1; assert (Y := abs2 _ _ _ _ Tb B1); lra).
  destruct (addB (fmul kb q) ka 1 1 G2 Fa ltac:(rewrite M2; exact B2) ltac:(rewrite Va; exact Ta) ltac:(lra)) as (M3 & G3). rewrite M2, Va in M3.
  assert (B3 : Rabs (rn (rn (tb * w) + ta)) <= 2) by (apply (rB _ 1); [lia|]; change (bpow radix2 1) with 2; eapply Rle_trans; [apply Rabs_triang|]; lra).
  destruct (mulB _ q 2 1 G3 G1 ltac:(rewrite M3; exact B3) ltac:(rewrite M1; exact B1) ltac:(lra)) as (M4 & G4). rewrite M3, M1 in M4.
  assert (B4 : Rabs (rn (rn (rn (tb * w) + ta) * w)) <= 2) by (apply (rB _ 1); [lia|]; change (bpow radix2 1) with 2; assert (Y := abs2 _ _ _ _ B3 B1); lra).
  destruct (addB _ (mk32 1 0) 2 1 G4 F1 ltac:(rewrite M4; exact B4) ltac:(rewrite V1, Rabs_R1; lra) ltac:(lra)) as (M5 & G5). rewrite M4, V1 in M5.
  assert (B5 : Rabs (rn (rn (rn (rn (tb * w) + ta) * w) + 1)) <= 4) by (apply (rB _ 2); [lia|]; change (bpow radix2 2) with 4; eapply Rle_trans; [apply Rabs_triang|]; rewrite Rabs_R1; lra).
  destruct (mulB _ x 4 1 G5 F ltac:(rewrite M5; exact B5) ltac:(fold X; lra) ltac:(lra)) as (M6 & G6). rewrite M5 in M6. fold X in M6. split; [exact G6|exact M6].
Qed.
Lemma fast_tan_near (x : f32) : fin x -> Rabs (v x) <= 0.7854 -> fin (fast_tan x) /\ Rabs (v (fast_tan x) - tan (v x)) <= 0.0012.
Proof.
  intros F H. destruct (fast_tan_R x F H) as (G & V). split; [exact G|]. rewrite V. clear V G. set (X := v x) in *. clearbody X. assert (HX := H). apply Rabs_le_inv in H.
  assert (Z : 0 <= X * X <= 0.617). { split; [apply Rle_0_sqr|]. assert (Y := abs2 _ _ _ _ HX HX). assert (W := Rle_abs (X * X)). lra. }
  assert (E1 := re (X * X) 0 ltac:(lia) ltac:(change (bpow radix2 0) with 1; apply Rabs_le; lra)). change (bpow radix2 (0 - 24 - 1)) with (/ 33554432) in E1.
  set (w := rn (X * X)) in *. set (z := X * X) in *. assert (Ew := E1). apply Rabs_le_inv in E1.
  assert (E2 := re (tb * w) 0 ltac:(lia) ltac:(change (bpow radix2 0) with 1; unfold tb; apply Rabs_le; lra)). change (bpow radix2 (0 - 24 - 1)) with (/ 33554432) in E2. set (r1 := rn (tb * w)) in *. apply Rabs_le_inv in E2.
  assert (E3 := re (r1 + ta) 0 ltac:(lia) ltac:(change (bpow radix2 0) with 1; unfold ta, tb in *; apply Rabs_le; lra)). change (bpow radix2 (0 - 24 - 1)) with (/ 33554432) in E3. set (r2 := rn (r1 + ta)) in *. apply Rabs_le_inv in E3.
  set (p2 := ta + z * tb). assert (D2 : Rabs (r2 - p2) <= 0.0000001) by (unfold p2, ta, tb in *; apply Rabs_le; lra). assert (Bp : 0 <= p2 <= 0.45) by (unfold p2, ta, tb; lra).
  assert (D3 : Rabs (r2 * w - p2 * z) <= 0.0000001 * 0.62 + 0.45 * / 33554432).
  { replace (r2 * w - p2 * z) with ((r2 - p2) * w + p2 * (w - z)) by ring. eapply Rle_trans; [apply Rabs_triang|]. apply Rplus_le_compat; apply abs2; try assumption; apply Rabs_le; lra. }
  assert (Bpz : 0 <= p2 * z <= 0.45 * 0.617) by (split; [apply Rmult_le_pos; lra|apply Rmult_le_compat; lra]). apply Rabs_le_inv in D3.
  assert (E4 := re (r2 * w) 0 ltac:(lia) ltac:(change (bpow radix2 0) with 1; apply Rabs_le; lra)). change (bpow radix2 (0 - 24 - 1)) with (/ 33554432) in E4. set (r3 := rn (r2 * w)) in *. apply Rabs_le_inv in E4.
  assert (E5 := re (r3 + 1) 1 ltac:(lia) ltac:(change (bpow radix2 1) with 2; apply Rabs_le; lra)). change (bpow radix2 (1 - 24 - 1)) with (/ 16777216) in E5. set (r4 := rn (r3 + 1)) in *. apply Rabs_le_inv in E5.
  assert (ET : Tp z = 1 + p2 * z) by (unfold Tp, p2; ring). assert (D5 : Rabs (r4 - Tp z) <= 0.0000003) by (rewrite ET; apply Rabs_le; lra).
  assert (D6 := abs2 _ _ _ _ D5 HX). rewrite Rmult_minus_distr_r in D6. assert (BT : Rabs (Tp z * X) <= 1.3 * 0.7854) by (apply abs2; [rewrite ET; apply Rabs_le; lra|exact HX]).
  apply Rabs_le_inv in D6. apply Rabs_le_inv in BT.
  assert (E7 := re (r4 * X) 1 ltac:(lia) ltac:(change (bpow radix2 1) with 2; apply Rabs_le; lra)). change (bpow radix2 (1 - 24 - 1)) with (/ 16777216) in E7. apply Rabs_le_inv in E7.
  assert (N : Rabs (Tp z * X - tan X) <= 0.00119).
  { destruct (Rle_or_lt 0 X) as [P|P].
    - destruct (tan_poly X ltac:(lra)) as (Q & _). replace (X ^ 2) with z in Q by (unfold z; ring). rewrite Rmult_comm. exact Q.
    - destruct (tan_poly (- X) ltac:(lra)) as (Q & _). replace ((- X) ^ 2) with z in Q by (unfold z; ring). rewrite tan_neg in Q. replace (Tp z * X - tan X) with (- (- X * Tp z - - tan X)) by ring. rewrite Rabs_Ropp. exact Q. }
  apply Rabs_le_inv in N. apply Rabs_le. lra.
Qed.
Lemma fast_tan_odd (x : f32) : fin x -> Rabs (v x) <= 0.7854 -> v (fast_tan (fneg x)) = - v (fast_tan x).
Proof.
  intros F H. destruct (fast_tan_R x F H) as (_ & V). destruct (fast_tan_R (fneg x) (fneg_fin' x F)) as (_ & W); [rewrite fneg_R', Rabs_Ropp; exact H|].
  rewrite V, W, fneg_R'. replace (- v x * - v x) with (v x * v x) by ring. rewrite <- rnd_opp. f_equal. ring.
Qed.

(** the hyperbolic tangent *)
Lemma exp_series n : forall x, 0 <= x <= 2 -> 0 <= exp x - series n x.
Proof.
  induction n; intros x Hx; [cbn; generalize (exp_pos x); lra|].
  apply (pos_local (fun x => exp x - series (Datatypes.S n) x) (fun x => exp x - series n x) 2); [|rewrite exp_0, series_0; ring|intros y Hy; apply IHn; exact Hy|exact Hx].
  intros y. apply d_minus; [apply derivable_pt_lim_exp|apply d_series].
Qed.
(** e^{2t} (1 - t) <= 1 + t *)
Lemma exp_ratio t : 0 <= t <= 1 -> exp (2 * t) * (1 - t) <= 1 + t.
Proof.
  intros H.
  assert (A : 0 <= exp (- t) + t * exp (- t) - (exp t - t * exp t)).
  { apply (pos_local (fun t => exp (- t) + t * exp (- t) - (exp t - t * exp t)) (fun t => t * (exp t - exp (- t))) 1); [| |intros y Hy|exact H].
    - intros y. assert (Dn : derivable_pt_lim (fun t => exp (- t)) y (- exp (- y))).
      { replace (- exp (- y)) with (exp (- y) * -1) by ring. apply (derivable_pt_lim_comp Ropp exp y (-1) (exp (- y))); [|apply derivable_pt_lim_exp].
        apply (derivable_pt_lim_opp id y 1). apply derivable_pt_lim_id. }
      assert (Dp := derivable_pt_lim_exp y).
      replace (y * (exp y - exp (- y))) with ((- exp (- y) + (1 * exp (- y) + y * - exp (- y))) - (exp y - (1 * exp y + y * exp y))) by ring.
      apply d_minus; [apply derivable_pt_lim_plus; [exact Dn|]|apply d_minus; [exact Dp|]].
      + apply (derivable_pt_lim_mult id (fun t => exp (- t)) y 1 (- exp (- y))); [apply derivable_pt_lim_id|exact Dn].
      + apply (derivable_pt_lim_mult id exp y 1 (exp y)); [apply derivable_pt_lim_id|exact Dp].
    - rewrite Ropp_0, exp_0. ring.
    - apply Rmult_le_pos; [lra|]. assert (exp (- y) <= exp y); [|lra]. destruct (Req_dec y 0) as [->|N]; [rewrite Ropp_0; lra|left; apply exp_increasing; lra]. }
  assert (E : exp (2 * t) = exp t * exp t) by (rewrite <- exp_plus; f_equal; ring). assert (P := exp_pos t).
  assert (I : exp t * exp (- t) = 1) by (rewrite <- exp_plus, Rplus_opp_r, exp_0; reflexivity).
  assert (B := Rmult_le_pos (exp t) _ (Rlt_le _ _ P) A). rewrite E.
  replace (exp t * (exp (- t) + t * exp (- t) - (exp t - t * exp t))) with ((1 + t) * (exp t * exp (- t)) - exp t * exp t * (1 - t)) in B by ring. rewrite I in B. lra.
Qed.
(** the quotient: x (27 + x^2) / (27 + 9 x^2) *)
Definition pade (x : R) : R := x * (27 + x ^ 2) / (27 + 9 * x ^ 2).
Definition pcube (p : list Q) := pmul p (pmul p p).
Definition T6_q : list Q := [1; 2; 2; 4 # 3; 2 # 3; 4 # 15; 4 # 45]%Q.
Definition T3_q := pcube T6_q.
Definition wp_q : list Q := [1; 1]%Q.
Definition wm_q : list Q := [1; -1]%Q.
Definition th_q : list Q :=
  padd (pscale 2 (padd (pcube wp_q) (pscale (-1) (pmul T3_q (pcube wm_q))))) (pscale (- 24 # 1000) (pmul (padd (pcube wp_q) (pcube wm_q)) (padd T3_q [1%Q]))).
Definition dyad20 (a : Q) : Q := (Qnum a * 2 ^ 20 / Zpos (Qden a)) # (2 ^ 20).
Definition gd : list Q := Eval vm_compute in padd (map dyad20 th_q) [31%Q].
Lemma gd_close : Qle_bool (evabs (padd (padd th_q [31%Q]) (pscale (-1) gd)) 1) (1 # 10000) = true.
Proof. vm_compute. reflexivity. Qed.
Lemma gd_check : check gd 0 (1 # 32) 31 6 && (check gd (3 # 8) (1 # 64) 31 12 && check gd (3 # 4) (1 # 32) 31 4) = true.
Proof. vm_compute. reflexivity. Qed.
Lemma th_bound t : 0 <= t <= 1 -> ev th_q t <= 0.0001.
Proof.
  intros H. assert (C := gd_check). apply andb_prop in C. destruct C as (C1 & C). apply andb_prop in C. destruct C as (C2 & C3).
  assert (A : Rabs (ev gd t) <= Q2R 31).
  { destruct (Rle_or_lt t (3 / 8)) as [L|L]; [|destruct (Rle_or_lt t (3 / 4)) as [L'|L']].
    - apply (check_ok _ _ _ _ 0 t C1); [|discriminate]. rewrite Q2R0. replace (INR 6) with 6 by (cbn; lra). unfold Q2R. cbn [Qnum Qden]. lra.
    - apply (check_ok _ _ _ _ (3 # 8) t C2); [|discriminate]. replace (INR 12) with 12 by (cbn; lra). unfold Q2R. cbn [Qnum Qden]. lra.
    - apply (check_ok _ _ _ _ (3 # 4) t C3); [|discriminate]. replace (INR 4) with 4 by (cbn; lra). unfold Q2R. cbn [Qnum Qden]. lra. }
  assert (B : Rabs (ev (padd (padd th_q [31%Q]) (pscale (-1) gd)) t) <= Q2R (1 # 10000)).
  { eapply Rle_trans; [apply (evabs_ok _ 1)|apply Qle_Rle, Qle_bool_iff, gd_close]. unfold Q2R. cbn [Qnum Qden]. rewrite Rabs_pos_eq; lra. }
  rewrite !padd_ev, pscale_ev in B. cbn [ev] in B. unfold Q2R in A, B. cbn [Qnum Qden Qopp] in A, B.
  apply Rabs_le_inv in A. apply Rabs_le_inv in B. lra.
Qed.
Lemma tanh_E x : tanh x = 1 - 2 / (exp (2 * x) + 1).
Proof.
  unfold tanh, sinh, cosh. rewrite exp_Ropp. replace (2 * x) with (x + x) by ring. rewrite exp_plus. assert (P := exp_pos x). assert (Q := Rmult_lt_0_compat _ _ P P). field. repeat split; lra.
Qed.
Lemma pade_W t : 0 <= t <= 1 -> pade (3 * t) = 1 - 2 * (1 - t) ^ 3 / ((1 + t) ^ 3 + (1 - t) ^ 3).
Proof.
  intros H. unfold pade. assert (0 <= t ^ 2) by apply pow2_ge_0.
  assert (E : (1 + t) ^ 3 + (1 - t) ^ 3 = 2 + 6 * t ^ 2) by ring. rewrite E. field. lra.
Qed.
Lemma pade_bracket x : 0 <= x <= 3 -> tanh x <= pade x <= tanh x + 0.0241 /\ pade x <= 1.
Proof.
  intros H. set (t := x / 3). assert (Ht : 0 <= t <= 1) by (unfold t; lra). replace x with (3 * t) by (unfold t; field). clearbody t. clear H x.
  rewrite pade_W by exact Ht. rewrite tanh_E. set (E := exp (2 * t)). assert (E3 : exp (2 * (3 * t)) = E ^ 3). { unfold E. replace (2 * (3 * t)) with (2 * t + (2 * t + 2 * t)) by ring. rewrite !exp_plus. ring. }
  rewrite E3. assert (PE : 0 < E) by apply exp_pos. assert (P3 : 0 < E ^ 3) by (apply pow_lt; exact PE).
  set (wp := (1 + t) ^ 3). set (wm := (1 - t) ^ 3). assert (Wp : 1 <= wp) by (unfold wp; assert (X := pow_incr 1 (1 + t) 3 ltac:(lra)); lra). assert (Wm : 0 <= wm) by (unfold wm; apply pow_le; lra).
  assert (R := exp_ratio t Ht). fold E in R. assert (R3 : E ^ 3 * wm <= wp). { unfold wm, wp. rewrite <- Rpow_mult_distr. apply pow_incr. split; [apply Rmult_le_pos; lra|exact R]. }
  assert (D1 : 1 - 2 * wm / (wp + wm) - (1 - 2 / (E ^ 3 + 1)) = 2 * (wp - E ^ 3 * wm) / ((wp + wm) * (E ^ 3 + 1))) by (field; lra).
  assert (PD : 0 < (wp + wm) * (E ^ 3 + 1)) by (apply Rmult_lt_0_compat; lra).
  assert (L : 0 <= 2 * (wp - E ^ 3 * wm) / ((wp + wm) * (E ^ 3 + 1))) by (apply Rmult_le_pos; [lra|left; apply Rinv_0_lt_compat; exact PD]).
  assert (L1 : 0 <= 2 * wm / (wp + wm)) by (apply Rmult_le_pos; [lra|left; apply Rinv_0_lt_compat; lra]).
  split; [split; [lra|]|lra].
  (* the series below E *)
  set (T := ev T6_q t). assert (ET : T = series 7 (2 * t)).
  { unfold T, T6_q, ev, Q2R. cbn [Qnum Qden series]. destruct facts as (F2 & F3 & F4 & F5 & F6 & _). rewrite F2, F3, F4, F5, F6. change (INR (fact 0)) with 1. change (INR (fact 1)) with 1. field. }
  assert (T1 : 1 <= T) by (unfold T, T6_q, ev, Q2R; cbn [Qnum Qden]; assert (A := pow_le t 2 ltac:(lra)); assert (B := pow_le t 3 ltac:(lra)); assert (C := pow_le t 4 ltac:(lra)); assert (D := pow_le t 5 ltac:(lra)); assert (F := pow_le t 6 ltac:(lra)); cbn [pow] in *; lra).
  assert (TE : T <= E) by (rewrite ET; assert (X := exp_series 7 (2 * t) ltac:(lra)); unfold E; lra).
  assert (T3 : 1 <= T ^ 3) by (assert (X := pow_incr 1 T 3 ltac:(lra)); lra). assert (TE3 : T ^ 3 <= E ^ 3) by (apply pow_incr; lra).
  assert (G := th_bound t Ht). unfold th_q, T3_q, pcube in G. rewrite !padd_ev, !pscale_ev, !pmul_ev, !padd_ev, !pscale_ev, !pmul_ev in G. fold T in G.
  assert (Ep : ev wp_q t = 1 + t) by (unfold wp_q, ev, Q2R; cbn [Qnum Qden]; field). assert (Em : ev wm_q t = 1 - t) by (unfold wm_q, ev, Q2R; cbn [Qnum Qden]; lra). rewrite Ep, Em in G.
  replace (Q2R 2) with 2 in G by (unfold Q2R; cbn; lra). replace (Q2R (-1)) with (-1) in G by (unfold Q2R; cbn; lra). replace (Q2R (- 24 # 1000)) with (- 0.024) in G by (unfold Q2R; cbn [Qnum Qden]; lra).
  replace (ev [1%Q] t) with 1 in G by (unfold ev, Q2R; cbn; lra).
  assert (G' : 2 * (wp - T ^ 3 * wm) <= 0.024 * ((wp + wm) * (T ^ 3 + 1)) + 0.0001) by (unfold wp, wm; lra).
  (* decreasing in E *)
  assert (Dd : 1 - 2 * wm / (wp + wm) - (1 - 2 / (T ^ 3 + 1)) = 2 * (wp - T ^ 3 * wm) / ((wp + wm) * (T ^ 3 + 1))) by (field; lra).
  assert (PT : 2 <= (wp + wm) * (T ^ 3 + 1)) by (assert (X := Rmult_le_compat 1 (wp + wm) 2 (T ^ 3 + 1) ltac:(lra) ltac:(lra) ltac:(lra) ltac:(lra)); lra).
  assert (Up : 2 * (wp - T ^ 3 * wm) / ((wp + wm) * (T ^ 3 + 1)) <= 0.0241).
  { apply (Rmult_le_reg_r ((wp + wm) * (T ^ 3 + 1))); [lra|]. unfold Rdiv. rewrite Rmult_assoc, Rinv_l, Rmult_1_r by lra. lra. }
  assert (M : 2 / (E ^ 3 + 1) <= 2 / (T ^ 3 + 1)) by (unfold Rdiv; apply Rmult_le_compat_l; [lra|apply Rinv_le_contravar; lra]). lra.
Qed.
Lemma tanh_R (x : f32) : fin x -> Rabs (v x) <= 3 ->
  fin (fast_rational_tanh x) /\
  v (fast_rational_tanh x) = rn (rn (v x * rn (27 + rn (v x * v x))) / rn (27 + rn (rn (9 * v x) * v x))) /\
  Rabs (rn (v x * rn (27 + rn (v x * v x))) - v x * (27 + v x ^ 2)) <= 0.0000115 /\ Rabs (rn (27 + rn (rn (9 * v x) * v x)) - (27 + 9 * v x ^ 2)) <= 0.0000115.
Proof.
  intros F H. unfold fast_rational_tanh. set (X := v x) in *.
  destruct (mk32_small 27 0 ltac:(lia) ltac:(lia)) as (V27 & F27). destruct (mk32_small 9 0 ltac:(lia) ltac:(lia)) as (V9 & F9). cbn [bpow] in V27, V9. rewrite Rmult_1_r in V27, V9.
  assert (Z : 0 <= X * X <= 9). { split; [apply Rle_0_sqr|]. assert (Y := abs2 _ _ _ _ H H). assert (W := Rle_abs (X * X)). lra. }
  destruct (mulB x x 3 3 F F H H ltac:(lra)) as (M1 & G1). fold X in M1. set (q := fmul x x) in *.
  assert (E1 := re (X * X) 4 ltac:(lia) ltac:(change (bpow radix2 4) with 16; apply Rabs_le; lra)). change (bpow radix2 (4 - 24 - 1)) with (/ 2097152) in E1. set (m := rn (X * X)) in *. apply Rabs_le_inv in E1.
  destruct (addB (mk32 27 0) q 27 10 F27 G1 ltac:(rewrite V27; apply Rabs_le; lra) ltac:(rewrite M1; apply Rabs_le; lra) ltac:(lra)) as (M2 & G2). rewrite V27, M1 in M2.
  assert (E2 := re (27 + m) 6 ltac:(lia) ltac:(change (bpow radix2 6) with 64; apply Rabs_le; lra)). change (bpow radix2 (6 - 24 - 1)) with (/ 524288) in E2. set (n1 := rn (27 + m)) in *. apply Rabs_le_inv in E2.
  destruct (mulB x (fadd (mk32 27 0) q) 3 37 F G2 H ltac:(rewrite M2; apply Rabs_le; lra) ltac:(lra)) as (M3 & G3). rewrite M2 in M3. fold X in M3.
  assert (D3 : Rabs (X * n1 - X * (27 + X ^ 2)) <= 3 * 0.0000024). { rewrite <- Rmult_minus_distr_l. apply abs2; [exact H|]. replace (X ^ 2) with (X * X) by ring. apply Rabs_le. lra. }
  assert (B3 : Rabs (X * (27 + X ^ 2)) <= 3 * 36). { apply abs2; [exact H|]. replace (X ^ 2) with (X * X) by ring. apply Rabs_le. lra. }
  apply Rabs_le_inv in D3. apply Rabs_le_inv in B3.
  assert (E3 := re (X * n1) 7 ltac:(lia) ltac:(change (bpow radix2 7) with 128; apply Rabs_le; lra)). change (bpow radix2 (7 - 24 - 1)) with (/ 262144) in E3. set (num := rn (X * n1)) in *. apply Rabs_le_inv in E3.
  assert (HX := H). apply Rabs_le_inv in HX.
  destruct (mulB (mk32 9 0) x 9 3 F9 F ltac:(rewrite V9; apply Rabs_le; lra) H ltac:(lra)) as (M4 & G4). rewrite V9 in M4. fold X in M4.
  assert (E4 := re (9 * X) 5 ltac:(lia) ltac:(change (bpow radix2 5) with 32; apply Rabs_le; lra)). change (bpow radix2 (5 - 24 - 1)) with (/ 1048576) in E4. set (d1 := rn (9 * X)) in *. apply Rabs_le_inv in E4.
  destruct (mulB _ x 28 3 G4 F ltac:(rewrite M4; apply Rabs_le; lra) H ltac:(lra)) as (M5 & G5). rewrite M4 in M5. fold X in M5.
  assert (D5 : Rabs (d1 * X - 9 * X ^ 2) <= / 1048576 * 3). { replace (d1 * X - 9 * X ^ 2) with ((d1 - 9 * X) * X) by ring. apply abs2; [apply Rabs_le; lra|exact H]. }
  apply Rabs_le_inv in D5. replace (X ^ 2) with (X * X) in * by ring.
  assert (E5 := re (d1 * X) 7 ltac:(lia) ltac:(change (bpow radix2 7) with 128; apply Rabs_le; lra)). change (bpow radix2 (7 - 24 - 1)) with (/ 262144) in E5. set (d2 := rn (d1 * X)) in *. apply Rabs_le_inv in E5.
  destruct (addB (mk32 27 0) _ 27 82 F27 G5 ltac:(rewrite V27; apply Rabs_le; lra) ltac:(rewrite M5; apply Rabs_le; lra) ltac:(lra)) as (M6 & G6). rewrite V27, M5 in M6.
  assert (E6 := re (27 + d2) 7 ltac:(lia) ltac:(change (bpow radix2 7) with 128; apply Rabs_le; lra)). change (bpow radix2 (7 - 24 - 1)) with (/ 262144) in E6. set (den := rn (27 + d2)) in *. apply Rabs_le_inv in E6.
  assert (Bq : Rabs (num / den) <= 16). { unfold Rdiv. rewrite Rabs_mult, (Rabs_pos_eq (/ den)) by (left; apply Rinv_0_lt_compat; lra). apply (Rmult_le_reg_r den); [lra|]. rewrite Rmult_assoc, Rinv_l, Rmult_1_r by lra. apply Rabs_le. lra. }
  destruct (fdiv_bnd _ (fadd (mk32 27 0) (fmul (fmul (mk32 9 0) x) x)) (bpow radix2 4) G3) as (V & G & _); [rewrite M6; lra|apply fmt_bpow; cbn; lia|apply bpow_lt; lia|rewrite M3, M6; exact Bq|].
  rewrite M3, M6 in V. split; [exact G|]. split; [exact V|]. split; apply Rabs_le; lra.
Qed.
Lemma pade_odd x : pade (- x) = - pade x.
Proof. unfold pade. replace ((- x) ^ 2) with (x ^ 2) by ring. unfold Rdiv. ring. Qed.
Lemma tanh_odd x : tanh (- x) = - tanh x.
Proof. unfold tanh, sinh, cosh. rewrite Ropp_involutive. unfold Rdiv. replace (exp (- x) + exp x) with (exp x + exp (- x)) by ring. ring. Qed.
Lemma quot_diff n d a b : d <> 0 -> b <> 0 -> n / d - a / b = ((n - a) + a / b * (b - d)) / d.
Proof. intros H K. field. split; assumption. Qed.
Lemma tanh_near (x : f32) : fin x -> Rabs (v x) <= 3 ->
  fin (fast_rational_tanh x) /\ Rabs (v (fast_rational_tanh x) - pade (v x)) <= 0.000001.
Proof.
  intros F H. destruct (tanh_R x F H) as (G & V & N & D). split; [exact G|]. rewrite V. set (X := v x) in *. set (num := rn (X * rn (27 + rn (X * X)))) in *. set (den := rn (27 + rn (rn (9 * X) * X))) in *. clearbody num den.
  assert (P : Rabs (pade X) <= 1). { apply Rabs_le_inv in H. destruct (Rle_or_lt 0 X) as [C|C].
    - destruct (pade_bracket X ltac:(lra)) as ((A & _) & B). assert (0 <= tanh X). { rewrite tanh_E. assert (1 <= exp (2 * X)) by (rewrite <- exp_0; destruct (Req_dec X 0) as [->|Q]; [rewrite Rmult_0_r; lra|left; apply exp_increasing; lra]). assert (2 / (exp (2 * X) + 1) <= 1) by (apply (Rmult_le_reg_r (exp (2 * X) + 1)); [lra|]; unfold Rdiv; rewrite Rmult_assoc, Rinv_l by lra; lra). lra. } apply Rabs_le. lra.
    - destruct (pade_bracket (- X) ltac:(lra)) as ((A & _) & B). rewrite pade_odd in A, B. assert (0 <= tanh (- X)). { rewrite tanh_E. assert (1 <= exp (2 * - X)) by (rewrite <- exp_0; left; apply exp_increasing; lra). assert (2 / (exp (2 * - X) + 1) <= 1) by (apply (Rmult_le_reg_r (exp (2 * - X) + 1)); [lra|]; unfold Rdiv; rewrite Rmult_assoc, Rinv_l by lra; lra). lra. } apply Rabs_le. lra. }
  set (a := X * (27 + X ^ 2)) in *. set (b := 27 + 9 * X ^ 2) in *. assert (B27 : 27 <= b) by (unfold b; generalize (pow2_ge_0 X); lra). assert (Ep : pade X = a / b) by reflexivity.
  apply Rabs_le_inv in D. assert (E := quot_diff num den a b ltac:(lra) ltac:(lra)).
  assert (Q : Rabs (num / den - a / b) <= 0.0000009).
  { rewrite E. unfold Rdiv at 1. rewrite Rabs_mult, (Rabs_pos_eq (/ den)) by (left; apply Rinv_0_lt_compat; lra). apply (Rmult_le_reg_r den); [lra|]. rewrite Rmult_assoc, Rinv_l, Rmult_1_r by lra.
    rewrite <- Ep. assert (Y := abs2 (pade X) 1 (b - den) 0.0000115 P ltac:(apply Rabs_le; lra)). eapply Rle_trans; [apply Rabs_triang|]. lra. }
  assert (B2 : Rabs (num / den) <= 2). { rewrite <- Ep in Q. apply Rabs_le_inv in Q. apply Rabs_le_inv in P. apply Rabs_le. lra. }
  assert (R := re (num / den) 1 ltac:(lia) B2). change (bpow radix2 (1 - 24 - 1)) with (/ 16777216) in R. rewrite Ep.
  replace (rn (num / den) - a / b) with ((rn (num / den) - num / den) + (num / den - a / b)) by ring. eapply Rle_trans; [apply Rabs_triang|]. lra.
Qed.
Lemma tanh_ok (x : f32) : fin x -> Rabs (v x) <= 3 ->
  fin (fast_rational_tanh x) /\ Rabs (v (fast_rational_tanh x)) <= 1.000001 /\ Rabs (v (fast_rational_tanh x) - tanh (v x)) <= 0.0242.
Proof.
  intros F H. destruct (tanh_near x F H) as (G & E). split; [exact G|]. apply Rabs_le_inv in E. apply Rabs_le_inv in H.
  destruct (Rle_or_lt 0 (v x)) as [C|C].
  - destruct (pade_bracket (v x) ltac:(lra)) as ((A & B) & D). assert (0 <= pade (v x)). { unfold pade. assert (0 <= v x ^ 2) by apply pow2_ge_0. apply Rmult_le_pos; [apply Rmult_le_pos; lra|left; apply Rinv_0_lt_compat; lra]. }
    split; apply Rabs_le; lra.
  - destruct (pade_bracket (- v x) ltac:(lra)) as ((A & B) & D). assert (P0 : 0 <= pade (- v x)). { unfold pade. assert (0 <= (- v x) ^ 2) by apply pow2_ge_0. apply Rmult_le_pos; [apply Rmult_le_pos; lra|left; apply Rinv_0_lt_compat; lra]. }
    rewrite tanh_odd in A, B. rewrite pade_odd in A, B, D, P0. split; apply Rabs_le; lra.
Qed.
Lemma fast_tanh_odd (x : f32) : fin x -> Rabs (v x) <= 3 -> v (fast_rational_tanh (fneg x)) = - v (fast_rational_tanh x).
Proof.
  intros F H. destruct (tanh_R x F H) as (_ & V & _). destruct (tanh_R (fneg x) (fneg_fin' x F)) as (_ & W & _); [rewrite fneg_R', Rabs_Ropp; exact H|].
  rewrite V, W, fneg_R'. replace (- v x * - v x) with (v x * v x) by ring. replace (9 * - v x) with (- (9 * v x)) by ring. rewrite rnd_opp.
  replace (- rn (9 * v x) * - v x) with (rn (9 * v x) * v x) by ring. replace (- v x * rn (27 + rn (v x * v x))) with (- (v x * rn (27 + rn (v x * v x)))) by ring. rewrite <- rnd_opp. f_equal. rewrite rnd_opp. unfold Rdiv. ring.
Qed.
