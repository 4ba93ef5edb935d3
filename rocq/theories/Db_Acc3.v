(** Accuracy of db2a and of a2db below 1, from the certified table values. *)
From Coq Require Import Reals Lra Lia ZArith List.
From Flocq Require Import Core.Core IEEE754.BinarySingleNaN.
From Verif Require Import Common Float FloatFacts FloatRel FloatLerp Frac_Model Fast_Ln Db_Table Db_Model Db_Proof Db_Full Db_Ln Db_Acc Db_Acc2.
Local Open Scope R_scope.
Local Notation rn := (rnd 24 128).

Lemma c200_num : 1.01157 < c200 < 1.01158.
Proof.
  pose proof c200_bounds as [A B]. unfold clo, chi, W in *. lra.
Qed.
Lemma L200_num : 0.011512 < L200 < 0.011513.
Proof. unfold L200. pose proof ln10_pos. lra. Qed.

Lemma c200_exp n : c200 ^ n = exp (L200 * INR n).
Proof.
  unfold c200. induction n as [|n IH]; [cbn; rewrite Rmult_0_r, exp_0; reflexivity|].
  rewrite <- tech_pow_Rmult, IH, S_INR, <- exp_plus. f_equal. ring.
Qed.

Lemma exp_small u : 0 <= u <= 0.00000071 -> exp u <= 1.00000072.
Proof.
  intros H. pose proof (exp_ineq1_le (- u)) as A. assert (P := exp_pos u).
  assert (E : exp (- u) * exp u = 1) by (rewrite <- exp_plus; replace (- u + u) with 0 by ring; apply exp_0).
  assert (B : (1 - u) * exp u <= 1).
  { rewrite <- E. apply Rmult_le_compat_r; lra. }
  apply Rmult_le_reg_l with (1 - u); [lra|]. apply Rle_trans with (1 := B). nra.
Qed.

Definition amp (x : R) : R := exp (L200 * (10 * x)).
Lemma amp_pos x : 0 < amp x. Proof. apply exp_pos. Qed.
Lemma amp_rpower x : amp x = Rpower 10 (x / 20).
Proof. unfold amp, Rpower, L200. f_equal. field. Qed.
Lemma amp_0 : amp 0 = 1. Proof. unfold amp. rewrite !Rmult_0_r. apply exp_0. Qed.
Lemma amp_120 : amp 120 = 1000000.
Proof.
  unfold amp, L200. replace (ln 10 / 200 * (10 * 120)) with (6 * ln 10) by field.
  replace (6 * ln 10) with (ln 10 + ln 10 + ln 10 + ln 10 + ln 10 + ln 10) by ring.
  rewrite !exp_plus, exp_ln by lra. lra.
Qed.
Lemma amp_neg x : amp (- x) = / amp x.
Proof. unfold amp. rewrite <- exp_Ropp. f_equal. ring. Qed.
Lemma amp_mono x y : x <= y -> amp x <= amp y.
Proof. intros H. apply exp_mono. pose proof L200_num. apply Rmult_le_compat_l; lra. Qed.

Lemma db2a_R_acc (x : f32) : fin x -> 0 <= B2R x < 120 ->
  Rabs (db2a_R (B2R x) - amp (B2R x)) <= 0.000019 * amp (B2R x).
Proof.
  intros F H. destruct (times10 x F H) as (G & E & B). unfold db2a_R. rewrite <- E.
  destruct (lookup_ok inv_db_units 0 _ good3 G ltac:(lia)) as (y & _ & _ & Ey & _ & Er).
  { rewrite len3, E. exact B. } { rewrite len3. lia. }
  rewrite <- Ey. rewrite E in Er. set (X := rn (B2R x * 10)) in *.
  destruct (floor_split X 0 ltac:(lra)) as (n & f & Hn & En & Ef & Hf).
  rewrite En, Z.sub_0_r in Er. replace (X - IZR n) with f in Er by lra.
  assert (n1200 : (n < 1200)%Z) by (apply lt_IZR; lra).
  pose proof (val3 n ltac:(lia)) as V1. pose proof (val3 (n + 1) ltac:(lia)) as V2.
  replace (Z.to_nat (n + 1)) with (S (Z.to_nat n)) in V2 by lia. rewrite <- tech_pow_Rmult in V2.
  set (v1 := val inv_db_units n) in *. set (v2 := val inv_db_units (n + 1)) in *.
  set (P := c200 ^ Z.to_nat n) in *.
  assert (EP : P = exp (L200 * IZR n)). { unfold P. rewrite c200_exp, INR_IZR_INZ, Z2Nat.id by lia. reflexivity. }
  assert (P1 : 1 <= P). { rewrite EP, <- exp_0. apply exp_mono. pose proof L200_num. apply Rmult_le_pos; [lra|]. apply (IZR_le 0 n Hn). }
  pose proof c200_num as C. pose proof L200_num as L.
  apply Rabs_le_inv in V1. apply Rabs_le_inv in V2. apply Rabs_le_inv in Er.
  assert (B21 : bpow radix2 (-21) = / 2097152) by reflexivity.
  assert (B147 : bpow radix2 (-147) <= 0.00000001 * P) by (pose proof tiny; lra). rewrite B21 in Er.
  assert (CP : c200 * P <= 1.01158 * P) by (apply Rmult_le_compat_r; lra).
  assert (CP1 : 1.01157 * P <= c200 * P) by (apply Rmult_le_compat_r; lra).
  (* the table line against the exact chord *)
  assert (Line : Rabs (v1 + f * (v2 - v1) - (P + f * (c200 * P - P))) <= 0.00000025 * P).
  { replace (v1 + f * (v2 - v1) - (P + f * (c200 * P - P))) with ((1 - f) * (v1 - P) + f * (v2 - c200 * P)) by ring.
    apply Rabs_le. assert (A1 : - (0.00000025 * P) <= v1 - P <= 0.00000025 * P) by lra.
    assert (A2 : - (0.00000025 * P) <= v2 - c200 * P <= 0.00000025 * P) by lra.
    assert ((1 - f) * - (0.00000025 * P) <= (1 - f) * (v1 - P) <= (1 - f) * (0.00000025 * P)) by (split; apply Rmult_le_compat_l; lra).
    assert (f * - (0.00000025 * P) <= f * (v2 - c200 * P) <= f * (0.00000025 * P)) by (split; apply Rmult_le_compat_l; lra). lra. }
  apply Rabs_le_inv in Line.
  pose proof (exp_chord L200 f ltac:(lra) ltac:(lra)) as [K1 K2]. fold c200 in K1, K2.
  assert (K3 : L200 ^ 2 * c200 / 8 <= 0.0000168).
  { assert (L200 ^ 2 <= 0.00013256) by (replace (L200 ^ 2) with (L200 * L200) by ring; apply Rle_trans with (0.011513 * 0.011513); [apply Rmult_le_compat; lra|lra]).
    assert (0 <= L200 ^ 2) by apply pow2_ge_0.
    assert (L200 ^ 2 * c200 <= 0.00013256 * 1.01158) by (apply Rmult_le_compat; lra). lra. }
  assert (ET : exp (L200 * X) = P * exp (L200 * f)).
  { rewrite EP, <- exp_plus. f_equal. rewrite Ef at 1. ring. }
  set (T := exp (L200 * X)) in *. set (e := exp (L200 * f)) in *.
  assert (e1 : 1 <= e). { unfold e. rewrite <- exp_0. apply exp_mono. apply Rmult_le_pos; lra. }
  assert (PT : P <= T). { rewrite ET. rewrite <- (Rmult_1_r P) at 1. apply Rmult_le_compat_l; lra. }
  assert (Ch : 0 <= P + f * (c200 * P - P) - T <= 0.0000168 * P).
  { rewrite ET. replace (P + f * (c200 * P - P) - P * e) with (P * (1 + f * (c200 - 1) - e)) by ring.
    split; [apply Rmult_le_pos; lra|]. rewrite Rmult_comm. apply Rmult_le_compat_r; lra. }
  assert (YT : Rabs (B2R y - T) <= 0.00001759 * T) by (apply Rabs_le; lra).
  (* the rounded argument *)
  pose proof (rnd_err (prec:=24) (emax:=128) (B2R x * 10) 11) as Ex.
  change (11 - 24 - 1)%Z with (-14)%Z in Ex. change (bpow radix2 11) with 2048 in Ex. change (bpow radix2 (-14)) with (/ 16384) in Ex.
  assert (Ex' : Rabs (X - B2R x * 10) <= / 16384) by (apply Ex; [unfold SpecFloat.emin; lia|rewrite Rabs_pos_eq; lra]).
  apply Rabs_le_inv in Ex'.
  assert (Dl : 0 <= L200 * / 16384 <= 0.00000071) by lra.
  pose proof (exp_small _ Dl) as Sm.
  assert (Up : T <= 1.00000072 * amp (B2R x)).
  { apply Rle_trans with (exp (L200 * / 16384 + L200 * (10 * B2R x))).
    - apply exp_mono. rewrite <- Rmult_plus_distr_l. apply Rmult_le_compat_l; lra.
    - rewrite exp_plus. apply Rmult_le_compat_r; [apply Rlt_le, amp_pos|exact Sm]. }
  assert (Lo : amp (B2R x) <= 1.00000072 * T).
  { apply Rle_trans with (exp (L200 * / 16384 + L200 * X)).
    - apply exp_mono. rewrite <- Rmult_plus_distr_l. apply Rmult_le_compat_l; lra.
    - rewrite exp_plus. apply Rmult_le_compat_r; [apply Rlt_le, exp_pos|exact Sm]. }
  pose proof (amp_pos (B2R x)). apply Rabs_le_inv in YT. apply Rabs_le. lra.
Qed.

Lemma fin_fneg (x : f32) : fin x -> fin (fneg x) /\ B2R (fneg x) = - B2R x.
Proof. intros F. unfold fneg. split; [unfold fin; rewrite is_finite_Bopp; exact F|apply B2R_Bopp]. Qed.

Lemma db2a_acc (x : f32) : fin x -> Rabs (B2R x) <= 120 ->
  exists y, db2a x = Some y /\ fin y /\ Rabs (B2R y - amp (B2R x)) <= 0.00002 * amp (B2R x).
Proof.
  intros F H. apply Rabs_le_inv in H.
  assert (Up : forall f (z : f32), fin z -> 0 <= B2R z <= 120 -> exists y, db2a_rec (S f) z = Some y /\ fin y /\ 1 <= B2R y <= 1000000 /\ Rabs (B2R y - amp (B2R z)) <= 0.000019 * amp (B2R z)).
  { intros f z Fz Hz. destruct (Rlt_le_dec (B2R z) 120) as [L|L].
    - destruct (db2a_mid f z Fz ltac:(lra)) as (y & E & Fy & Ey & By). exists y. split; [exact E|]. split; [exact Fy|]. split; [exact By|].
      rewrite Ey. apply db2a_R_acc; [exact Fz|lra].
    - destruct million as [E6 F6]. exists (mk32 1000000 0). split; [apply db2a_inf; assumption|]. split; [exact F6|]. rewrite E6. split; [lra|].
      replace (B2R z) with 120 by lra. rewrite amp_120, Rminus_diag_eq, Rabs_R0 by reflexivity. lra. }
  destruct (db2a_cases x) as [[S (y & E & E2 & Fy & By)]|[S (y & E & E2 & Fy & By)]].
  - apply (flt_false x fzero F eq_refl) in S. change (B2R fzero) with 0 in S.
    destruct (Up 1%nat x F ltac:(lra)) as (y' & E' & _ & _ & A). assert (y' = y) by congruence. subst y'.
    exists y. split; [exact E|]. split; [exact Fy|]. pose proof (amp_pos (B2R x)). lra.
  - apply (flt_true x fzero F eq_refl) in S. change (B2R fzero) with 0 in S. destruct (fin_fneg x F) as [Fn En].
    destruct (Up 1%nat (fneg x) Fn ltac:(rewrite En; lra)) as (y' & E' & _ & _ & A). assert (y' = y) by congruence. subst y'. rewrite En in A.
    destruct (recip_big y Fy By) as (G & Er & Bq). exists (fdiv one y). split; [exact E|]. split; [exact G|].
    rewrite amp_neg in A. pose proof (amp_pos (B2R x)) as P. set (a := amp (B2R x)) in *. apply Rabs_le_inv in A.
    set (v := B2R y) in *.
    (* v = (1/a)(1+d) *)
    assert (Q : Rabs (1 / v - a) <= 0.00001905 * a).
    { assert (VA : 0.999981 <= v * a <= 1.000019).
      { assert (I : / a * a = 1) by (apply Rinv_l; lra).
        assert (W1 : (0.999981 * / a) * a <= v * a) by (apply Rmult_le_compat_r; lra).
        assert (W2 : v * a <= (1.000019 * / a) * a) by (apply Rmult_le_compat_r; lra).
        rewrite Rmult_assoc, I in W1, W2. lra. }
      assert (IV : 1 / v * v = 1) by (unfold Rdiv; rewrite Rmult_1_l; apply Rinv_l; lra).
      assert (IP : 0 < 1 / v) by (unfold Rdiv; rewrite Rmult_1_l; apply Rinv_0_lt_compat; lra).
      apply Rabs_le. split.
      - apply Rmult_le_reg_r with v; [lra|]. rewrite Rmult_minus_distr_r, IV. lra.
      - apply Rmult_le_reg_r with v; [lra|]. rewrite Rmult_minus_distr_r, IV. lra. }
    rewrite Er. apply Rabs_le_inv in Q.
    pose proof (rnd_rel32_pos (1 / v)) as R.
    assert (LB : bpow radix2 (-126) <= 1 / v).
    { apply Rle_trans with (bpow radix2 (-20)); [apply bpow_le; lia|change (bpow radix2 (-20)) with (/ 1048576)].
      unfold Rdiv. rewrite Rmult_1_l. apply Rinv_le_contravar; lra. }
    specialize (R LB). apply Rabs_le. clear - R Q P.
    lra.
Qed.

(** a float above 2^-k is above it by at least one unit in the last place, so its rounded
    reciprocal stays below 2^k *)
Lemma recip_below (a : f32) k : fin a -> (0 <= k <= 20)%Z -> bpow radix2 (- k) < B2R a -> rn (1 / B2R a) < bpow radix2 k.
Proof.
  intros F Hk H.
  assert (Fm : generic_format radix2 (SpecFloat.fexp 24 128) (bpow radix2 (- k))) by (apply (fmt_bpow (prec:=24) (emax:=128)); unfold SpecFloat.emin; lia).
  assert (Ge : bpow radix2 (- k) + bpow radix2 (- k - 23) <= B2R a).
  { pose proof (succ_le_lt radix2 (SpecFloat.fexp 24 128) _ _ Fm (generic_format_B2R 24 128 a) H) as S.
    rewrite succ_eq_pos in S by apply bpow_ge_0. rewrite ulp_bpow in S.
    replace (SpecFloat.fexp 24 128 (- k + 1)) with (- k - 23)%Z in S; [exact S|].
    unfold SpecFloat.fexp, SpecFloat.emin. lia. }
  assert (Pk : 0 < bpow radix2 (- k)) by apply bpow_gt_0.
  assert (E23 : bpow radix2 (- k - 23) = bpow radix2 (- k) * / 8388608) by (unfold Z.sub; rewrite bpow_plus; reflexivity).
  assert (EK : bpow radix2 k * bpow radix2 (- k) = 1) by (rewrite <- bpow_plus; replace (k + - k)%Z with 0%Z by ring; reflexivity).
  assert (PK : 0 < bpow radix2 k) by apply bpow_gt_0.
  assert (E24 : bpow radix2 (k - 24) = bpow radix2 k * / 16777216) by (unfold Z.sub; rewrite bpow_plus; reflexivity).
  rewrite E23 in Ge.
  assert (Q : 1 / B2R a <= bpow radix2 k - bpow radix2 (k - 24)).
  { apply Rmult_le_reg_r with (B2R a); [lra|]. unfold Rdiv at 1. rewrite Rmult_assoc, Rinv_l by lra. rewrite E24.
    apply Rle_trans with ((bpow radix2 k - bpow radix2 k * / 16777216) * (bpow radix2 (- k) + bpow radix2 (- k) * / 8388608)).
    - replace ((bpow radix2 k - bpow radix2 k * / 16777216) * (bpow radix2 (- k) + bpow radix2 (- k) * / 8388608))
        with ((bpow radix2 k * bpow radix2 (- k)) * ((1 - / 16777216) * (1 + / 8388608))) by ring. rewrite EK. lra.
    - apply Rmult_le_compat_l; lra. }
  apply Rle_lt_trans with (bpow radix2 k - bpow radix2 (k - 24)); [|rewrite E24; lra].
  apply rnd_le_fmt; [|exact Q].
  replace (bpow radix2 k - bpow radix2 (k - 24)) with (IZR 16777215 * bpow radix2 (k - 24)).
  2:{ rewrite E24. replace 16777215 with (16777216 - 1) by lra. lra. }
  apply (fmt_F2R (prec:=24) (emax:=128)); [reflexivity|unfold SpecFloat.emin; lia].
Qed.

Lemma db_of_inv a : 0 < a -> db_of (1 / a) = - db_of a.
Proof. intros H. unfold db_of, Rdiv at 2. rewrite Rmult_1_l, ln_Rinv by exact H. unfold Rdiv. ring. Qed.

(** a relative error e in an amplitude moves its level by at most 8.7 e decibels *)
Lemma db_of_rel a b e : 0 < a -> 0 <= e <= 0.0001 -> Rabs (b - a) <= e * a -> Rabs (db_of b - db_of a) <= 8.688 * e.
Proof.
  intros A He H. apply Rabs_le_inv in H. pose proof ln10_pos as L.
  assert (B : 0 < b). { assert (e * a <= 0.0001 * a) by (apply Rmult_le_compat_r; lra). lra. }
  assert (D : db_of b - db_of a = 20 / ln 10 * (ln b - ln a)) by (unfold db_of; field; lra).
  assert (K : 0 < 20 / ln 10 <= 8.6863). { split; [apply Rdiv_lt_0_compat; lra|]. apply Rmult_le_reg_r with (ln 10); [lra|]. unfold Rdiv. rewrite Rmult_assoc, Rinv_l by lra. lra. }
  assert (U : ln b - ln a <= e).
  { assert (X : ln b <= ln (a * exp e)). { apply ln_le; [exact B|]. pose proof (exp_ineq1_le e).
      apply Rle_trans with (a * (1 + e)); [lra|apply Rmult_le_compat_l; lra]. }
    rewrite lnmul, ln_exp in X by (lra || apply exp_pos). lra. }
  assert (V : - (1.00011 * e) <= ln b - ln a).
  { assert (X : ln (a * exp (- (1.00011 * e))) <= ln b).
    { apply ln_le; [apply Rmult_lt_0_compat; [exact A|apply exp_pos]|].
      apply Rle_trans with (a * (1 - e)); [apply Rmult_le_compat_l; [lra|]|lra].
      set (w := 1.00011 * e). pose proof (exp_ineq1_le w) as I.
      assert (E : exp (- w) * exp w = 1) by (rewrite <- exp_plus; replace (- w + w) with 0 by ring; apply exp_0).
      assert (P := exp_pos (- w)). assert (I2 : exp (- w) * (1 + w) <= 1) by (rewrite <- E; apply Rmult_le_compat_l; lra).
      apply Rmult_le_reg_r with (1 + w); [unfold w; lra|]. apply Rle_trans with (1 := I2). unfold w.
      assert (e * e <= 0.0001 * e) by (apply Rmult_le_compat_r; lra). lra. }
    rewrite lnmul, ln_exp in X by (lra || apply exp_pos). lra. }
  rewrite D. apply Rabs_le. split.
  - apply Rle_trans with (20 / ln 10 * - (1.00011 * e)); [|apply Rmult_le_compat_l; lra].
    assert (20 / ln 10 * (1.00011 * e) <= 8.6863 * (1.00011 * e)) by (apply Rmult_le_compat_r; lra). lra.
  - apply Rle_trans with (20 / ln 10 * e); [apply Rmult_le_compat_l; lra|].
    assert (20 / ln 10 * e <= 8.6863 * e) by (apply Rmult_le_compat_r; lra). lra.
Qed.

Definition a2db_err (k : Z) : R := if (k <=? 3)%Z then 0.000082 else if (k <=? 10)%Z then 0.0171 else 0.522.
Lemma a2db_acc (a : f32) (k : Z) : fin a -> k = 3%Z \/ k = 10%Z \/ k = 20%Z -> bpow radix2 (- k) < B2R a < bpow radix2 k ->
  exists y, a2db a = Some y /\ fin y /\ Rabs (B2R y - db_of (B2R a)) <= a2db_err k + 0.000001.
Proof.
  intros F Hk H. assert (P : 0 < B2R a) by (pose proof (bpow_gt_0 radix2 (- k)); lra).
  assert (B3 : bpow radix2 3 = 8) by reflexivity. assert (B10 : bpow radix2 10 = 1024) by reflexivity. assert (B20 : bpow radix2 20 = 1048576) by reflexivity.
  assert (Up : forall z : f32, fin z -> 1 <= B2R z < bpow radix2 k -> Rabs (a2db_R (B2R z) - db_of (B2R z)) <= a2db_err k).
  { intros z Fz Hz. destruct (a2db_R_acc z Fz ltac:(lra)) as (X & Y & Z'). 
    destruct (Rlt_le_dec (B2R z) 8) as [L|L]; [specialize (X L)|].
    { destruct Hk as [->|[->| ->]]; cbn [a2db_err Z.leb Z.compare Pos.compare Pos.compare_cont]; lra. }
    destruct Hk as [->|[->| ->]]; rewrite ?B3, ?B10, ?B20 in Hz; [lra|apply Y; lra|].
    destruct (Rlt_le_dec (B2R z) 1024) as [L2|L2]; [|apply Z'; lra].
    specialize (Y (conj L L2)). change (a2db_err 20) with 0.522. lra. }
  destruct (a2db_cases a (nonneg_fin a F P)) as [[G (y & E & E2 & Fy & _)]|[G (y & E & E2 & Fy & _)]].
  - exists y. split; [exact E|]. split; [exact Fy|].
    destruct (ge1_cases a G) as [->|[_ G1]]; [discriminate F|].
    destruct (a2db_ge1 1 a F G1) as (y' & E' & _ & Ey & _). assert (y' = y) by congruence. subst y'. rewrite Ey.
    pose proof (Up a F ltac:(lra)). lra.
  - exists (fneg y). split; [exact E|]. destruct (fin_fneg y Fy) as [Fn En]. split; [exact Fn|]. rewrite En.
    destruct (flt_one a (nonneg_fin a F P) G) as [->|[_ L1]]; [cbn in P; lra|].
    assert (RB : rn (1 / B2R a) < bpow radix2 k) by (apply recip_below; [exact F|lia|apply H]).
    destruct (recip_cases a F P) as [[Fr Er]|[_ Q]].
    2:{ exfalso. assert (bpow radix2 k <= bpow radix2 128) by (apply bpow_le; lia). lra. }
    assert (R1 : 1 <= B2R (fdiv one a)) by (rewrite Er; apply rnd_ge_fmt; [apply fmt1|apply recip_le1; lra]).
    destruct (a2db_ge1 1 _ Fr R1) as (y' & E' & _ & Ey & _). assert (y' = y) by congruence. subst y'.
    pose proof (Up _ Fr ltac:(rewrite Er in *; lra)) as U. rewrite Ey.
    assert (I1 : 1 <= 1 / B2R a) by (apply recip_le1; lra).
    pose proof (rnd_rel32_pos (1 / B2R a)) as Rr.
    assert (LB : bpow radix2 (-126) <= 1 / B2R a) by (apply Rle_trans with 1; [apply (bpow_le radix2 (-126) 0); lia|exact I1]).
    specialize (Rr LB).
    pose proof (db_of_rel (1 / B2R a) (B2R (fdiv one a)) (/ 16777216) ltac:(lra) ltac:(lra)) as D.
    rewrite Er in D, U |- *. specialize (D ltac:(apply Rabs_le; lra)). rewrite db_of_inv in D by exact P.
    apply Rabs_le_inv in D. apply Rabs_le_inv in U. apply Rabs_le. lra.
Qed.

Lemma db_of_amp x : db_of (amp x) = x.
Proof. unfold db_of, amp. rewrite ln_exp. unfold L200. pose proof ln10_pos. field. lra. Qed.

(** level -> amplitude -> level *)
Lemma roundtrip_acc (x : f32) (m : R) (k : Z) : fin x -> k = 3%Z \/ k = 10%Z \/ k = 20%Z -> Rabs (B2R x) <= m -> m <= 120 ->
  1.00003 * amp m < bpow radix2 k ->
  exists b y, db2a x = Some b /\ a2db b = Some y /\ fin y /\ Rabs (B2R y - B2R x) <= a2db_err k + 0.000176.
Proof.
  intros F Hk H Hm A. destruct (db2a_acc x F ltac:(lra)) as (b & E & Fb & Ab).
  pose proof (amp_pos (B2R x)) as P. pose proof (amp_pos m) as Pm. apply Rabs_le_inv in H.
  assert (M1 : amp (B2R x) <= amp m) by (apply amp_mono; lra).
  assert (M2 : / amp m <= amp (B2R x)) by (rewrite <- amp_neg; apply amp_mono; lra).
  assert (R : bpow radix2 (- k) < B2R b < bpow radix2 k).
  { pose proof (Rabs_le_inv _ _ Ab) as A'. split; [|lra].
    rewrite bpow_opp. assert (PK := bpow_gt_0 radix2 k).
    apply Rlt_le_trans with (0.99998 * / amp m); [|lra].
    assert (I : / bpow radix2 k < / (1.00003 * amp m)) by (apply Rinv_lt_contravar; [apply Rmult_lt_0_compat; lra|exact A]).
    rewrite Rinv_mult_distr in I by lra. assert (0 < / amp m) by (apply Rinv_0_lt_compat; lra).
    assert (/ 1.00003 * / amp m <= 0.99998 * / amp m) by (apply Rmult_le_compat_r; lra). lra. }
  destruct (a2db_acc b k Fb Hk R) as (y & Ey & Fy & Ay).
  exists b, y. split; [exact E|]. split; [exact Ey|]. split; [exact Fy|].
  pose proof (db_of_rel (amp (B2R x)) (B2R b) 0.00002 P ltac:(lra) Ab) as D. rewrite db_of_amp in D.
  apply Rabs_le_inv in D. apply Rabs_le_inv in Ay. apply Rabs_le. lra.
Qed.
