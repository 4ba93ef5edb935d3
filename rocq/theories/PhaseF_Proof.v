(** Conversions between phases, fractions of a cycle and frequencies. *)
From Coq Require Import Reals Lra Psatz.
From Flocq Require Import Core.Core IEEE754.BinarySingleNaN Mult_error.
From Verif Require Import Common CommonFacts Float FloatFacts Phase_Model Frac_Model Frac_Proof Osc_Model Osc_Proof.
Local Open Scope R_scope.

Section Gen.
Context {prec emax : Z} {Hp : Prec_gt_0 prec} {He : Prec_lt_emax prec emax}.
Lemma ftrunc_gen (x : binary_float prec emax) : fin x -> ftrunc x = Some (Ztrunc (B2R x)).
Proof.
  intros F. unfold ftrunc. rewrite F. f_equal. apply eq_IZR. rewrite (Btrunc_correct prec emax _ x).
  unfold round, scaled_mantissa, cexp, FIX_exp, F2R. cbn [Fnum Fexp].
  cbn [bpow Z.opp]. rewrite !Rmult_1_r. reflexivity.
Qed.
Lemma fmt_scale (x : binary_float prec emax) k : (0 <= k)%Z -> fmt prec emax (bpow radix2 k * B2R x).
Proof.
  intros Hk. destruct (FLT_format_B2R prec emax _ x) as [[m e] E H1 H2]. rewrite E. unfold F2R. cbn [Fnum Fexp] in *.
  replace (bpow radix2 k * (IZR m * bpow radix2 e)) with (IZR m * bpow radix2 (e + k)) by (rewrite bpow_plus; ring).
  apply fmt_F2R; [exact H1|lia].
Qed.
(** a float below another one is below its predecessor *)
Lemma float_lt_pred (x y : binary_float prec emax) : B2R x < B2R y -> B2R x <= pred radix2 (fx (prec:=prec) (emax:=emax)) (B2R y).
Proof. intros H. apply pred_ge_gt; auto; try apply fmt_v; apply fx_valid. Qed.
End Gen.

Lemma trunc_range (x : R) : 0 <= x < bpow radix2 32 -> ((0 <=? Ztrunc x) && (Ztrunc x <? 2 ^ 32))%Z = true /\
  Ztrunc x = Zfloor x /\ IZR (Zfloor x) <= x < IZR (Zfloor x) + 1.
Proof.
  intros H. rewrite Ztrunc_floor by lra.
  assert (0 <= Zfloor x)%Z by (apply Zfloor_lub; lra).
  pose proof (Zfloor_lb x). pose proof (Zfloor_ub x).
  assert (Zfloor x < 2 ^ 32)%Z by (apply lt_IZR; change (IZR (2 ^ 32)) with (bpow radix2 32); lra).
  split; [|split; [reflexivity|lra]]. apply andb_true_iff. split; [apply Z.leb_le|apply Z.ltb_lt]; assumption.
Qed.

Lemma pow32_scale x : 0 <= x < 1 -> 0 <= bpow radix2 32 * x < bpow radix2 32.
Proof. intros H. pose proof (bpow_gt_0 radix2 32). split; [nra|]. rewrite <- (Rmult_1_r (bpow radix2 32)) at 2. apply Rmult_lt_compat_l; lra. Qed.

Lemma frac_phase_R (x : f32) : fin x -> 0 <= B2R x ->
  frac_phase x = Some (if Rlt_dec (B2R x) 1 then Z.to_N (Zfloor (IZR (2 ^ 32) * B2R x)) else ph_end).
Proof.
  intros F H. unfold frac_phase. change (fge x fzero) with (fle fzero x). change (fge x (mk32 1 0)) with (fle (mk32 1 0) x). destruct one_R as [E1 F1].
  assert (Z0 : B2R (fzero : f32) = 0) by reflexivity.
  rewrite (proj2 (fle_true fzero x eq_refl F)) by (rewrite Z0; exact H).
  destruct (Rlt_dec (B2R x) 1) as [L|L].
  - rewrite (proj2 (fle_false (mk32 1 0) x F1 F)) by (rewrite E1; exact L).
    destruct (mk32_small 1 32 ltac:(lia) ltac:(lia)) as [Ep Fp]. rewrite Rmult_1_l in Ep.
    pose proof (pow32_scale (B2R x) ltac:(lra)) as R.
    destruct (fmul_exact (mk32 1 32) x Fp F) as [Em Fm].
    + rewrite Ep. apply fmt_scale. lia.
    + rewrite Ep, Rabs_pos_eq by lra. apply Rlt_trans with (bpow radix2 32); [lra|apply bpow_lt; lia].
    + rewrite (ftrunc_gen _ Fm), Em, Ep. destruct (trunc_range _ R) as (C & E & _). rewrite C, E. reflexivity.
  - rewrite (proj2 (fle_true (mk32 1 0) x F1 F)) by (rewrite E1; lra). reflexivity.
Qed.
Lemma frac_phase64_R (x : f64) : fin x -> 0 <= B2R x ->
  frac_phase64 x = Some (if Rlt_dec (B2R x) 1 then Z.to_N (Zfloor (IZR (2 ^ 32) * B2R x)) else ph_end).
Proof.
  intros F H. unfold frac_phase64. change (fge x fzero) with (fle fzero x). change (fge x d1) with (fle d1 x). destruct d1_R as [E1 F1].
  assert (Z0 : B2R (fzero : f64) = 0) by reflexivity.
  rewrite (proj2 (fle_true fzero x eq_refl F)) by (rewrite Z0; exact H).
  destruct (Rlt_dec (B2R x) 1) as [L|L].
  - rewrite (proj2 (fle_false d1 x F1 F)) by (rewrite E1; exact L).
    destruct (mk64_small 1 32 ltac:(lia) ltac:(lia)) as [Ep Fp]. rewrite Rmult_1_l in Ep.
    pose proof (pow32_scale (B2R x) ltac:(lra)) as R.
    destruct (fmul_exact (mk64 1 32) x Fp F) as [Em Fm].
    + rewrite Ep. apply fmt_scale. lia.
    + rewrite Ep, Rabs_pos_eq by lra. apply Rlt_trans with (bpow radix2 32); [lra|apply bpow_lt; lia].
    + rewrite (ftrunc_gen _ Fm), Em, Ep. destruct (trunc_range _ R) as (C & E & _). rewrite C, E. reflexivity.
  - rewrite (proj2 (fle_true d1 x F1 F)) by (rewrite E1; lra). reflexivity.
Qed.

Notation fx64 := (fx (prec:=53) (emax:=1024)).
Lemma pred32 : fmt 53 1024 (bpow radix2 32 - bpow radix2 (-21)).
Proof.
  replace (bpow radix2 32 - bpow radix2 (-21)) with (IZR (2 ^ 53 - 1) * bpow radix2 (-21)).
  - apply fmt_F2R; [vm_compute; reflexivity|unfold SpecFloat.emin; lia].
  - rewrite minus_IZR. change (IZR (2 ^ 53)) with (bpow radix2 53). rewrite Rmult_minus_distr_r, <- bpow_plus, Rmult_1_l. reflexivity.
Qed.
Lemma below_sps (f : f64) (n : Z) : (1 <= n < 2 ^ 32)%Z -> fin f -> 0 <= B2R f < IZR n -> B2R f <= IZR n * (1 - bpow radix2 (-53)).
Proof.
  intros Hn F H. destruct (mk64_small n 0) as [En Fn]; [change (2 ^ 53)%Z with 9007199254740992%Z; change (2 ^ 32)%Z with 4294967296%Z in Hn; lia|lia|].
  change (bpow radix2 0) with 1 in En. rewrite Rmult_1_r in En.
  pose proof (float_lt_pred f (mk64 n 0)) as P. rewrite En in P. specialize (P ltac:(lra)).
  eapply Rle_trans; [exact P|].
  assert (NP : 1 <= IZR n) by (apply IZR_le; lia).
  assert (Fmt : fmt 53 1024 (IZR n)) by (rewrite <- En; apply fmt_v).
  assert (Q : IZR n = pred radix2 fx64 (IZR n) + ulp radix2 fx64 (pred radix2 fx64 (IZR n))).
  { rewrite <- succ_eq_pos; [symmetry; apply (succ_pred radix2 fx64 (IZR n) Fmt)|].
    apply pred_ge_0; [exact _|lra|exact Fmt]. }
  assert (Ul : IZR n * bpow radix2 (-53) <= ulp radix2 fx64 (pred radix2 fx64 (IZR n))).
  { set (y := pred radix2 fx64 (IZR n)) in *.
    destruct (Req_dec y 0) as [Z|NZ].
    - rewrite Z in Q |- *. rewrite Rplus_0_l in Q. rewrite <- Q. rewrite <- (Rmult_1_r (IZR n)) at 2. apply Rmult_le_compat_l; [lra|].
      apply (bpow_le radix2 (-53) 0). lia.
    - assert (Y0 : 0 <= y) by (apply pred_ge_0; [exact _|lra|exact Fmt]).
      rewrite ulp_neq_0 in Q |- * by exact NZ.
      assert (C : (mag radix2 y - 53 <= cexp radix2 fx64 y)%Z) by (unfold cexp, fx, SpecFloat.fexp; lia).
      assert (B : IZR n <= bpow radix2 (mag radix2 y)).
      { rewrite Q, <- (ulp_neq_0 radix2 fx64 y NZ). apply id_p_ulp_le_bpow.
        - lra.
        - apply generic_format_pred; [exact _|exact Fmt].
        - rewrite <- (Rabs_pos_eq y) at 1 by exact Y0. apply bpow_mag_gt. }
      eapply Rle_trans; [apply Rmult_le_compat_r; [apply bpow_ge_0|exact B]|]. rewrite <- bpow_plus. apply bpow_le. exact C. }
  lra.
Qed.

Lemma phase_of_freq_R (f : f64) (sps : N) : (1 <= sps < 2 ^ 32)%N -> fin f -> 0 <= B2R f < IZR (Z.of_N sps) ->
  exists q, phase_of_freq f sps = Some q /\ (q < 2 ^ 32)%N /\
    Rabs (IZR (Z.of_N q) - IZR (2 ^ 32) * B2R f / IZR (Z.of_N sps)) <= 1 + bpow radix2 (-22).
Proof.
  intros Hs F H. set (n := Z.of_N sps) in *.
  assert (Hn : (1 <= n < 2 ^ 32)%Z) by (unfold n; rewrite pow32_R in Hs; change (2 ^ 32)%Z with 4294967296%Z; lia).
  pose proof (below_sps f n Hn F H) as B.
  destruct (mk64_small n 0) as [En Fn]; [change (2 ^ 53)%Z with 9007199254740992%Z; change (2 ^ 32)%Z with 4294967296%Z in Hn; lia|lia|].
  change (bpow radix2 0) with 1 in En. rewrite Rmult_1_r in En.
  assert (NP : 1 <= IZR n) by (apply IZR_le; lia).
  assert (NU : IZR n < bpow radix2 32) by (apply (IZR_lt n (2 ^ 32)); lia).
  destruct (mk64_small 1 32 ltac:(lia) ltac:(lia)) as [Ep Fp]. rewrite Rmult_1_l in Ep.
  pose proof (bpow_gt_0 radix2 32) as P32.
  assert (X0 : 0 <= bpow radix2 32 * B2R f) by (apply Rmult_le_pos; lra).
  destruct (fmul_exact (mk64 1 32) f Fp F) as [Em Fm].
  { rewrite Ep. apply fmt_scale. lia. }
  { rewrite Ep, Rabs_pos_eq by exact X0. apply Rlt_trans with (bpow radix2 64); [|apply bpow_lt; lia].
    change 64%Z with (32 + 32)%Z. rewrite bpow_plus. apply Rmult_lt_compat_l; lra. }
  rewrite Ep in Em. set (x := bpow radix2 32 * B2R f / IZR n).
  assert (XB : 0 <= x <= bpow radix2 32 - bpow radix2 (-21)).
  { unfold x. split; [apply Rmult_le_pos; [exact X0|apply Rlt_le, Rinv_0_lt_compat; lra]|].
    apply Rmult_le_reg_r with (IZR n); [lra|]. unfold Rdiv. rewrite Rmult_assoc, Rinv_l by lra. rewrite Rmult_1_r.
    replace ((bpow radix2 32 - bpow radix2 (-21)) * IZR n) with (bpow radix2 32 * (IZR n * (1 - bpow radix2 (-53)))).
    - apply Rmult_le_compat_l; lra.
    - replace (bpow radix2 (-21)) with (bpow radix2 32 * bpow radix2 (-53)) by (rewrite <- bpow_plus; reflexivity). ring. }
  pose proof (bpow_gt_0 radix2 (-21)) as P21.
  assert (RB : 0 <= r64 x <= bpow radix2 32 - bpow radix2 (-21)).
  { split; [apply rnd_ge_fmt; [apply fmt_0|lra]|apply rnd_le_fmt; [apply pred32|lra]]. }
  destruct (fdiv_R (fmul (mk64 1 32) f) (mk64 n 0) Fm) as [Ed Fd].
  { rewrite En. lra. }
  { rewrite Em, En. fold x. rewrite Rabs_pos_eq by lra. apply Rlt_trans with (bpow radix2 32); [lra|apply bpow_lt; lia]. }
  rewrite Em, En in Ed. fold x in Ed. unfold phase_of_freq. fold n. rewrite (ftrunc_gen _ Fd), Ed.
  destruct (trunc_range (r64 x) ltac:(lra)) as (C & E & L1 & L2). rewrite C, E.
  eexists. split; [reflexivity|].
  assert (Z0 : (0 <= Zfloor (r64 x))%Z) by (apply Zfloor_lub; lra).
  apply andb_true_iff in C. destruct C as [_ C]. apply Z.ltb_lt in C. rewrite E in C. split.
  - rewrite pow32_R. change (2 ^ 32)%Z with 4294967296%Z in C. lia.
  - rewrite Z2N.id by exact Z0. change (IZR (2 ^ 32)) with (bpow radix2 32). fold x.
    assert (Er : Rabs (r64 x - x) <= bpow radix2 (-22)).
    { apply (rnd_err (prec:=53) (emax:=1024) x 32); [vm_compute; discriminate|]. rewrite Rabs_pos_eq; lra. }
    apply Rabs_le_inv in Er. apply Rabs_le. lra.
Qed.

(** phase to fraction of a turn *)
Lemma pow32_b : IZR (2 ^ 32) = bpow radix2 32. Proof. reflexivity. Qed.
Lemma phase_to_double_R p : (p < 2 ^ 32)%N ->
  fin (phase_to_double p) /\ B2R (phase_to_double p) = IZR (Z.of_N p) / IZR (2 ^ 32) /\ frac_phase64 (phase_to_double p) = Some p.
Proof.
  intros H. rewrite pow32_R in H. rewrite pow32_b. unfold phase_to_double.
  destruct (mk64_small (Z.of_N p) 0 ltac:(change (2 ^ 53)%Z with 9007199254740992%Z; lia) ltac:(lia)) as [E F].
  destruct (mk64_small 1 32 ltac:(lia) ltac:(lia)) as [E2 F2]. rewrite Rmult_1_l in E2.
  change (bpow radix2 0) with 1 in E. rewrite Rmult_1_r in E. pose proof (bpow_gt_0 radix2 32) as P.
  assert (X : fmt 53 1024 (IZR (Z.of_N p) / bpow radix2 32)).
  { unfold Rdiv. rewrite <- bpow_opp. apply fmt_F2R; [|vm_compute; discriminate].
    change (radix2 ^ 53)%Z with 9007199254740992%Z. lia. }
  assert (B : 0 <= IZR (Z.of_N p) / bpow radix2 32 < 1).
  { split; [apply Rmult_le_pos; [apply IZR_le; lia|apply Rlt_le, Rinv_0_lt_compat; exact P]|].
    apply Rmult_lt_reg_r with (1 := P). unfold Rdiv. rewrite Rmult_assoc, Rinv_l, Rmult_1_l, Rmult_1_r by lra.
    apply (IZR_lt _ 4294967296). lia. }
  destruct (fdiv_R (mk64 (Z.of_N p) 0) (mk64 1 32) F) as [E3 F3].
  { rewrite E2. lra. }
  { rewrite E, E2, rnd_fmt by exact X. rewrite Rabs_pos_eq by lra. apply Rlt_trans with (1 := proj2 B). apply (bpow_lt radix2 0 1024). lia. }
  rewrite E, E2, rnd_fmt in E3 by exact X.
  split; [exact F3|]. split; [exact E3|].
  rewrite (frac_phase64_R _ F3) by (rewrite E3; lra).
  destruct (Rlt_dec (B2R (fdiv (mk64 (Z.of_N p) 0) (mk64 1 32))) 1) as [L|L]; [|exfalso; rewrite E3 in L; lra].
  rewrite E3, pow32_b. unfold Rdiv. rewrite (Rmult_comm (IZR (Z.of_N p))), <- Rmult_assoc, Rinv_r, Rmult_1_l by lra.
  rewrite Zfloor_IZR, N2Z.id. reflexivity.
Qed.
Lemma phase_to_float_R p : (p < 2 ^ 32)%N ->
  fin (phase_to_float p) /\ B2R (phase_to_float p) = B2R (u2f p) * bpow radix2 (-32) /\ 0 <= B2R (u2f p) <= bpow radix2 32.
Proof.
  intros H. assert (L : (p <= 2 ^ 32)%N) by lia. destruct (u2f_R p L) as [Ed Fd]. pose proof (u2f_nonneg p L) as P.
  assert (U : B2R (u2f p) <= bpow radix2 32).
  { rewrite Ed. apply rnd_le_fmt; [apply fmt32_b; lia|]. apply (IZR_le _ 4294967296). rewrite pow32_R in H. lia. }
  destruct (mk32_small 1 32 ltac:(lia) ltac:(lia)) as [E G]. rewrite Rmult_1_l in E. pose proof (bpow_gt_0 radix2 32) as P32.
  assert (D : B2R (u2f p) / bpow radix2 32 = B2R (u2f p) * bpow radix2 (-32)) by (unfold Rdiv; rewrite <- bpow_opp; reflexivity).
  assert (X : fmt 24 128 (B2R (u2f p) * bpow radix2 (-32))).
  { destruct (N.eq_dec p 0) as [->|Hn].
    - rewrite u2f_0, Rmult_0_l. apply fmt_0.
    - pose proof (u2f_pos p ltac:(lia)) as O.
      apply Mult_error.mult_bpow_exact_FLT; [apply fmt_v|].
      assert (M : (1 <= mag radix2 (B2R (u2f p)))%Z) by (apply mag_ge_bpow; rewrite Rabs_pos_eq by lra; cbn; lra).
      vm_compute (_ + _)%Z. lia. }
  assert (Q : 0 <= B2R (u2f p) / bpow radix2 32 <= 1).
  { split; [apply Rmult_le_pos; [exact P|apply Rlt_le, Rinv_0_lt_compat; exact P32]|].
    apply Rmult_le_reg_r with (1 := P32). unfold Rdiv. rewrite Rmult_assoc, Rinv_l by lra. lra. }
  destruct (fdiv_bnd (u2f p) (mk32 1 32) 1 Fd) as (Eq & Fq & _); try (rewrite E); try lra; try apply fmt32_1.
  { apply lt128. lra. }
  { apply Rabs_le. lra. }
  split; [exact Fq|]. split; [|split; assumption]. unfold phase_to_float. rewrite Eq, E, D. apply rnd_fmt. exact X.
Qed.
Lemma phase_to_float_acc p : (p < 2 ^ 32)%N ->
  fin (phase_to_float p) /\ 0 <= B2R (phase_to_float p) <= 1 /\
  Rabs (B2R (phase_to_float p) - IZR (Z.of_N p) / IZR (2 ^ 32)) <= bpow radix2 (-25).
Proof.
  intros H. destruct (phase_to_float_R p H) as (F & E & B). split; [exact F|].
  pose proof (bpow_gt_0 radix2 (-32)) as P. assert (I : bpow radix2 32 * bpow radix2 (-32) = 1) by (rewrite <- bpow_plus; reflexivity).
  rewrite E. split; [split; [apply Rmult_le_pos; lra|rewrite <- I; apply Rmult_le_compat_r; lra]|].
  rewrite pow32_b. unfold Rdiv. rewrite <- bpow_opp. change (- (32))%Z with (-32)%Z.
  replace (B2R (u2f p) * bpow radix2 (-32) - IZR (Z.of_N p) * bpow radix2 (-32)) with ((B2R (u2f p) - IZR (Z.of_N p)) * bpow radix2 (-32)) by ring.
  rewrite Rabs_mult, (Rabs_pos_eq (bpow radix2 (-32))) by lra.
  change (-25)%Z with (7 + -32)%Z. rewrite bpow_plus. apply Rmult_le_compat_r; [lra|].
  rewrite (proj1 (u2f_R p ltac:(lia))). apply (rnd_err (prec:=24) (emax:=128) _ 32); [vm_compute; discriminate|].
  rewrite Rabs_pos_eq; [apply (IZR_le _ 4294967296); rewrite pow32_R in H; lia|apply IZR_le; lia].
Qed.
Lemma phase_to_float_mono p q : (p <= q)%N -> (q < 2 ^ 32)%N -> B2R (phase_to_float p) <= B2R (phase_to_float q).
Proof.
  intros H Hq. rewrite (proj1 (proj2 (phase_to_float_R p ltac:(lia)))), (proj1 (proj2 (phase_to_float_R q Hq))).
  apply Rmult_le_compat_r; [apply bpow_ge_0|]. apply u2f_mono; [exact H|lia].
Qed.
Lemma phase_to_float_low p : (p < 2 ^ 24)%N ->
  B2R (phase_to_float p) = IZR (Z.of_N p) / IZR (2 ^ 32) /\ frac_phase (phase_to_float p) = Some p.
Proof.
  intros H. change (2 ^ 24)%N with 16777216%N in H. assert (H' : (p < 2 ^ 32)%N) by (rewrite pow32_R; lia).
  destruct (phase_to_float_R p H') as (F & E & B). rewrite (proj1 (u2f_R p ltac:(lia))), rnd_fmt in E.
  2:{ replace (IZR (Z.of_N p)) with (IZR (Z.of_N p) * bpow radix2 0) by (cbn [bpow]; ring). apply fmt_F2R; [|vm_compute; discriminate].
      change (radix2 ^ 24)%Z with 16777216%Z. lia. }
  assert (E' : B2R (phase_to_float p) = IZR (Z.of_N p) / IZR (2 ^ 32)) by (rewrite E, pow32_b; unfold Rdiv; rewrite <- bpow_opp; reflexivity).
  split; [exact E'|]. pose proof (bpow_gt_0 radix2 (-32)) as P.
  assert (I : bpow radix2 32 * bpow radix2 (-32) = 1) by (rewrite <- bpow_plus; reflexivity).
  assert (Q : 0 <= B2R (phase_to_float p) < 1).
  { rewrite E. split; [apply Rmult_le_pos; [apply IZR_le; lia|lra]|]. rewrite <- I. apply Rmult_lt_compat_r; [lra|].
    apply (IZR_lt _ 4294967296). lia. }
  rewrite (frac_phase_R _ F) by lra. destruct (Rlt_dec (B2R (phase_to_float p)) 1) as [L|L]; [|exfalso; lra].
  rewrite E, pow32_b, (Rmult_comm (IZR (Z.of_N p))), <- Rmult_assoc, I, Rmult_1_l, Zfloor_IZR, N2Z.id. reflexivity.
Qed.
