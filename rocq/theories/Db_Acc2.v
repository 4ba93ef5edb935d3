(** Accuracy of db2a, and of a2db below 1. *)
From Coq Require Import Reals Lra Lia ZArith List Bool.
From Flocq Require Import Core.Core IEEE754.BinarySingleNaN.
From Verif Require Import Common Float FloatFacts FloatLerp FloatRel Expo Frac_Model Db_Table Db_Model Db_Proof Db_Full Db_Ln Fast_Ln Db_Acc.
From Verif Require Fast_Exp.
Local Open Scope R_scope.

(** ** the inverse table: 10^(i/200) *)
Definition L200 : R := ln 10 / 200.
Definition c200 : R := exp L200.
Definition W : Z := 1152921504606846976. (* 2^60 *)
Definition clo : Z := 1166271706430570427.
Definition chi : Z := 1166271706445904475.
Lemma L200_bounds : IZR l10 / (200 * IZR Qs) <= L200 <= IZR h10 / (200 * IZR Qs).
Proof.
  pose proof ln10_bounds as B. pose proof Qs_pos as P. unfold L200. split.
  - apply Rmult_le_reg_r with (200 * IZR Qs); [lra|]. replace (IZR l10 / (200 * IZR Qs) * (200 * IZR Qs)) with (IZR l10) by (field; lra). lra.
  - apply Rmult_le_reg_r with (200 * IZR Qs); [lra|]. replace (IZR h10 / (200 * IZR Qs) * (200 * IZR Qs)) with (IZR h10) by (field; lra). lra.
Qed.
Lemma exp_mono x y : x <= y -> exp x <= exp y.
Proof. intros [H| ->]; [apply Rlt_le, exp_increasing, H|apply Rle_refl]. Qed.
Lemma c200_bounds : IZR clo <= IZR W * c200 <= IZR chi.
Proof.
  pose proof L200_bounds as [A B]. unfold l10, h10, Qs in A, B. unfold clo, chi, W, c200.
  set (l := 158232442705 / (200 * 68719476736)) in *. set (h := 158232442817 / (200 * 68719476736)) in *.
  assert (l0 : 0 <= l <= 1) by (unfold l; lra). assert (h0 : 0 <= h <= 1) by (unfold h; lra).
  pose proof (Fast_Exp.rem_pos 5 l l0) as [E1 _]. pose proof (Fast_Exp.rem_pos 5 h h0) as [_ E2].
  assert (F5 : INR (fact 5) = 120) by (cbn; lra). rewrite F5 in E2. cbn [Fast_Exp.series] in E1, E2.
  assert (F0 : INR (fact 0) = 1) by (cbn; lra). assert (F1 : INR (fact 1) = 1) by (cbn; lra). assert (F2 : INR (fact 2) = 2) by (cbn; lra).
  assert (F3 : INR (fact 3) = 6) by (cbn; lra). assert (F4 : INR (fact 4) = 24) by (cbn; lra). rewrite F0, F1, F2, F3, F4 in *.
  pose proof (exp_mono _ _ A) as X1. pose proof (exp_mono _ _ B) as X2. split.
  - assert (N : 1166271706430570427 <= 1152921504606846976 * (0 + l ^ 0 / 1 + l ^ 1 / 1 + l ^ 2 / 2 + l ^ 3 / 6 + l ^ 4 / 24)) by (unfold l; lra). lra.
  - assert (N : 1152921504606846976 * ((0 + h ^ 0 / 1 + h ^ 1 / 1 + h ^ 2 / 2 + h ^ 3 / 6 + h ^ 4 / 24) + 3 * (h ^ 5 / 120)) <= 1166271706445904475) by (unfold h; lra). lra.
Qed.
Fixpoint pows (fuel : nat) (lo hi : Z) : list (Z * Z) :=
  match fuel with O => [] | S fuel => (lo, hi) :: pows fuel (lo * clo / W) (hi * chi / W + 1) end.
Lemma pows_ok fuel : forall k lo hi, (0 <= lo)%Z -> (0 <= hi)%Z -> IZR lo <= IZR W * c200 ^ k <= IZR hi ->
  forall i l h, nth_error (pows fuel lo hi) i = Some (l, h) -> IZR l <= IZR W * c200 ^ (k + i) <= IZR h.
Proof.
  assert (W0 : 0 < IZR W) by (apply IZR_lt; reflexivity). pose proof c200_bounds as C. assert (C0 : 0 < c200) by apply exp_pos.
  induction fuel as [|f IH]; intros k lo hi L0 H0 H i l h E; [destruct i; discriminate E|]. cbn [pows] in E. destruct i as [|i]; cbn [nth_error] in E.
  - injection E as <- <-. rewrite Nat.add_0_r. exact H.
  - replace (k + S i)%nat with (S k + i)%nat by lia. apply IH with (k := S k) in E; [exact E|apply Z.div_pos; [unfold clo; lia|reflexivity]| |].
    + pose proof (Z.div_pos (hi * chi) W ltac:(unfold chi; lia) ltac:(reflexivity)). lia.
    + apply IZR_le in L0, H0. assert (P : 0 < c200 ^ k) by (apply pow_lt; exact C0). cbn [pow].
      assert (Q0 : 0 <= IZR clo) by (apply IZR_le; unfold clo; lia).
      pose proof (floor_div (lo * clo) W (IZR (lo * clo)) ltac:(reflexivity) ltac:(lra)) as [F1 _].
      pose proof (floor_div (hi * chi) W (IZR (hi * chi)) ltac:(reflexivity) ltac:(lra)) as [_ F2]. rewrite plus_IZR. rewrite !mult_IZR in *.
      assert (M1 : IZR lo * IZR clo <= IZR W * c200 ^ k * (IZR W * c200)) by (apply Rmult_le_compat; lra).
      assert (M2 : IZR W * c200 ^ k * (IZR W * c200) <= IZR hi * IZR chi) by (apply Rmult_le_compat; try lra; apply Rmult_le_pos; lra).
      assert (D : IZR W * c200 ^ k * (IZR W * c200) / IZR W = IZR W * (c200 * c200 ^ k)) by (field; lra). split.
      * eapply Rle_trans; [exact F1|]. rewrite <- D. unfold Rdiv. apply Rmult_le_compat_r; [apply Rlt_le, Rinv_0_lt_compat, W0|exact M1].
      * rewrite <- D. apply Rle_trans with (IZR hi * IZR chi / IZR W); [unfold Rdiv; apply Rmult_le_compat_r; [apply Rlt_le, Rinv_0_lt_compat, W0|exact M2]|lra].
Qed.
Definition inv_ok (p : Z * (Z * Z)) : bool := let '(u, (lo, hi)) := p in ((hi * 8388608 <=? u * 8388609) && (u * 8388607 <=? lo * 8388608))%Z.
Definition powtab : list (Z * Z) := pows 1201 W W.
Lemma tab3 : forallb inv_ok (combine inv_db_units powtab) = true. Proof. vm_compute. reflexivity. Qed.
Lemma len_pow : length powtab = 1201%nat. Proof. vm_compute. reflexivity. Qed.
Lemma val3 i : (0 <= i <= 1200)%Z -> Rabs (val inv_db_units i - c200 ^ Z.to_nat i) <= / 4194304 * c200 ^ Z.to_nat i.
Proof.
  intros H. unfold val. set (n := Z.to_nat i). assert (Ln : (n < 1201)%nat) by lia. pose proof len3 as L3.
  destruct (nth_error powtab n) as [[l h]|] eqn:E; [|apply nth_error_None in E; rewrite len_pow in E; lia].
  assert (E0 : nth_error inv_db_units n = Some (nth n inv_db_units 0%Z)) by (apply nth_error_nth'; lia).
  pose proof tab3 as T. rewrite forallb_forall in T. specialize (T _ (nth_error_In _ _ (combine_nth_error _ _ n _ _ E0 E))).
  assert (W0 : 0 < IZR W) by (apply IZR_lt; reflexivity).
  pose proof (pows_ok 1201 0 W W ltac:(discriminate) ltac:(discriminate) ltac:(cbn [pow]; lra) n l h E) as [P1 P2]. cbn [Nat.add] in P1, P2.
  unfold inv_ok in T. apply andb_prop in T. destruct T as [T1 T2]. apply Z.leb_le in T1, T2. apply IZR_le in T1, T2. rewrite !mult_IZR in T1, T2.
  unfold unit60. change (bpow radix2 (-60)) with (/ IZR W). set (u := IZR (nth n inv_db_units 0%Z)) in *. set (p := c200 ^ n) in *.
  assert (P0 : 0 < p) by (apply pow_lt, exp_pos).
  apply Rabs_le. replace (u * / IZR W - p) with ((u - IZR W * p) / IZR W) by (field; lra).
  set (q := IZR W * p) in *. assert (q0 : 0 < q) by (apply Rmult_lt_0_compat; assumption). replace (/ 4194304 * p) with (/ 4194304 * q / IZR W) by (unfold q; field; lra).
  assert (A : - (/ 4194304 * q) <= u - q <= / 4194304 * q) by lra. 
  assert (IW : 0 < / IZR W) by (apply Rinv_0_lt_compat; exact W0). unfold Rdiv. rewrite Ropp_mult_distr_l. split; apply Rmult_le_compat_r; lra.
Qed.

(** linear interpolation of an exponential *)
Lemma d_expL L t : derivable_pt_lim (fun t => exp (L * t)) t (L * exp (L * t)).
Proof.
  eapply d_eq; [apply (derivable_pt_lim_comp (fun t => L * t) exp); [apply (d_scal L (fun t => t)); apply derivable_pt_lim_id|apply derivable_pt_lim_exp]|]. ring.
Qed.
Lemma exp_chord L f : 0 <= L -> 0 <= f <= 1 -> 0 <= 1 + f * (exp L - 1) - exp (L * f) <= L ^ 2 * exp L / 8.
Proof.
  intros HL Hf. set (C := exp L).
  assert (Dl : forall t, derivable_pt_lim (fun t => 1 + t * (C - 1) - exp (L * t)) t ((C - 1) - L * exp (L * t))).
  { intros t. apply (d_minus (fun t => 1 + t * (C - 1)) (fun t => exp (L * t))); [|apply d_expL]. eapply d_eq; [apply (d_plus (fun _ => 1) (fun t => t * (C - 1))); [apply d_const|]|].
    - apply (derivable_pt_lim_mult id (fun _ => C - 1)); [apply derivable_pt_lim_id|apply d_const]. - unfold id. ring. }
  assert (Mono : forall s t, s <= t -> exp (L * s) <= exp (L * t)) by (intros; apply exp_mono; apply Rmult_le_compat_l; lra).
  split.
  - apply (concave_pos (fun t => 1 + t * (C - 1) - exp (L * t)) (fun t => (C - 1) - L * exp (L * t))); auto.
    + rewrite Rmult_0_r, exp_0. ring. + rewrite Rmult_1_r. unfold C. ring.
    + intros s t A B. pose proof (Mono s t ltac:(lra)). assert (L * exp (L * s) <= L * exp (L * t)) by (apply Rmult_le_compat_l; lra). lra.
  - assert (P : 0 <= L ^ 2 * C / 2 * (f - f ^ 2) - (1 + f * (C - 1) - exp (L * f))).
    { apply (concave_pos (fun t => L ^ 2 * C / 2 * (t - t ^ 2) - (1 + t * (C - 1) - exp (L * t))) (fun t => L ^ 2 * C / 2 * (1 - 2 * t) - ((C - 1) - L * exp (L * t)))); auto.
      - intros t Ht. apply (d_minus (fun t => L ^ 2 * C / 2 * (t - t ^ 2)) (fun t => 1 + t * (C - 1) - exp (L * t))); [|apply Dl]. apply d_scal. apply (d_minus id (fun t => t ^ 2)); [apply derivable_pt_lim_id|].
        eapply d_eq; [apply (d_pow 1)|]. cbn [INR]. ring.
      - rewrite Rmult_0_r, exp_0. ring. - rewrite Rmult_1_r. unfold C. ring.
      - intros s t A B. (* L (e^{Lt} - e^{Ls}) <= L^2 C (t - s) *)
        assert (K : exp (L * t) - exp (L * s) <= L * C * (t - s)).
        { destruct (Rle_lt_or_eq_dec s t (proj2 A)) as [Lt| ->]; [|rewrite !Rminus_diag_eq by reflexivity; lra].
          destruct (MVT_cor2 (fun t => exp (L * t)) (fun t => L * exp (L * t)) s t Lt) as (d & E & Hd); [intros; apply d_expL|]. rewrite E.
          apply Rmult_le_compat_r; [lra|]. apply Rmult_le_compat_l; [exact HL|]. unfold C. rewrite <- (Rmult_1_r L) at 2. apply Mono. lra. }
        assert (L * (exp (L * t) - exp (L * s)) <= L * (L * C * (t - s))) by (apply Rmult_le_compat_l; lra). nra. }
    assert (Q : L ^ 2 * C / 2 * (f - f ^ 2) <= L ^ 2 * C / 8).
    { replace (L ^ 2 * C / 8) with (L ^ 2 * C / 2 * / 4) by field. apply Rmult_le_compat_l.
      - assert (0 < C) by apply exp_pos. pose proof (pow2_ge_0 L). apply Rmult_le_pos; [apply Rmult_le_pos; lra|lra].
      - pose proof (Rle_0_sqr (f - / 2)) as SQ; unfold Rsqr in SQ; replace (f ^ 2) with (f * f) by ring; lra. }
    lra.
Qed.
