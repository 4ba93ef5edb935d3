(** C46, continued: the compression the conditioner applies, on the true decibel scale
    (20 log10, from C34's accuracy), not on the tables'. *)
From Coq Require Import Reals Lra Lia ZArith.
From Flocq Require Import Core.Core IEEE754.BinarySingleNaN.
From Verif Require Import Common Float FloatFacts FloatLerp Fast_Ln Env_Proof Dyn_Model Dyn_Spec Dyn_Props Db_Model Db_Proof Db_Full Db_Props Db_Acc Db_Acc2 Db_Acc3 DbAcc_Props
  Val_Model Val_Props Cond_Model Cond_Spec Cond_Proof.
Local Open Scope R_scope.
Local Notation rn := (rnd 24 128).

(** narrowing a level to float and converting it to an amplitude, back on the decibel scale *)
Lemma gain_acc (g : f64) (a : f32) : is_finite g = true -> -119 <= B2R g <= 119 -> db2a (to32 g) = Some a ->
  0 < B2R a /\ Rabs (20 * ln (B2R a) / ln 10 - B2R g) <= 0.0002.
Proof.
  intros F B E.
  pose proof (rnd_err_all (B2R g)) as R. assert (A : Rabs (B2R g) <= 119) by (apply Rabs_le; exact B).
  assert (T : bpow radix2 (-150) <= 0.00000001) by (apply Rle_trans with (bpow radix2 (-147)); [apply bpow_le; lia|exact tiny]).
  pose proof (Rabs_pos (B2R g)).
  assert (R' : Rabs (rn (B2R g) - B2R g) <= 0.0000072) by lra. clear R.
  destruct (fconv_R (p':=24) (e':=128) g F) as [V F32].
  { apply Rabs_le_inv in R'. apply Rlt_trans with (bpow radix2 7); [|apply bpow_lt; lia]. change (bpow radix2 7) with 128. apply Rabs_lt. lra. }
  fold (to32 g) in V, F32. apply Rabs_le_inv in R'. rewrite <- V in R'.
  destruct (db2a_acc (to32 g) F32 ltac:(apply Rabs_le; lra)) as (y & E' & _ & Ay). assert (y = a) by congruence. subst y.
  pose proof (amp_pos (B2R (to32 g))) as P.
  assert (Pa : 0 < B2R a) by (apply Rabs_le_inv in Ay; lra). split; [exact Pa|].
  pose proof (db_of_rel _ _ 0.00002 P ltac:(lra) Ay) as D. rewrite db_of_amp in D. unfold db_of in D.
  apply Rabs_le_inv in D. apply Rabs_le. lra.
Qed.

Lemma comp_curve_lip t r e e' : 0 <= r <= 1 -> Rabs (comp_curve t r e - comp_curve t r e') <= Rabs (e - e').
Proof.
  intros H. unfold comp_curve. destruct (Rle_dec e t), (Rle_dec e' t).
  - rewrite Rminus_0_r, Rabs_R0. apply Rabs_pos.
  - rewrite Rminus_0_l, Rabs_Ropp, Rabs_mult. rewrite (Rabs_pos_eq (1 - r)), !Rabs_left1 by lra.
    assert ((1 - r) * (e' - t) <= 1 * (e' - t)) by (apply Rmult_le_compat_r; lra). lra.
  - rewrite Rminus_0_r, Rabs_mult. rewrite (Rabs_pos_eq (1 - r)), Rabs_left1, (Rabs_pos_eq (e - e')) by lra.
    assert ((1 - r) * (e - t) <= 1 * (e - t)) by (apply Rmult_le_compat_r; lra). lra.
  - replace ((1 - r) * (t - e) - (1 - r) * (t - e')) with ((1 - r) * (e' - e)) by ring. rewrite Rabs_mult, (Rabs_pos_eq (1 - r)), (Rabs_minus_sym e' e) by lra.
    pose proof (Rabs_pos (e - e')). assert ((1 - r) * Rabs (e - e') <= 1 * Rabs (e - e')) by (apply Rmult_le_compat_r; lra). lra.
Qed.

(** C46, compression curve.  Let a be the factor the conditioner multiplies a sample with when its
    envelope is env.  For thresholds from -100 dB to +100 dB, 20 log10 a is the ideal static curve
    (0 up to the threshold, slope -(1 - ratio) above it) at the envelope's level 20 log10 env,
    within 0.0004 dB for envelopes in (1/8, 8), 0.0184 dB down to -60 dB, 0.5304 dB down to
    -120 dB. *)
Theorem C46_compression_curve :
  forall (c : cond_config) (env : f32) (a : R),
  is_finite (cc_comp_threshold c) = true -> -100 <= B2R (cc_comp_threshold c) <= 100 -> ratio_in 1 (cc_comp_slope c) ->
  is_finite env = true -> compression c env a ->
  let gain_db := 20 * ln a / ln 10 in
  let curve := comp_curve (B2R (cc_comp_threshold c)) (B2R (cc_comp_slope c)) (20 * ln (B2R env) / ln 10) in
  (1 / 8 < B2R env < 8 -> Rabs (gain_db - curve) <= 0.0004) /\
  (1 / 1024 < B2R env < 8 -> Rabs (gain_db - curve) <= 0.0184) /\
  (1 / 1048576 < B2R env < 8 -> Rabs (gain_db - curve) <= 0.5304).
Proof.
  intros c env a Ft Bt Hr Fe (lv & g & El & Eg & Va & _) gain_db curve.
  assert (Ht : db_level (cc_comp_threshold c)).
  { split; [exact Ft|]. apply Rle_trans with (bpow radix2 7); [change (bpow radix2 7) with 128; apply Rabs_le; lra|apply bpow_le; lia]. }
  assert (K : forall e, e <= 0.53 -> B2R env < 8 -> 0 < B2R env -> (exists y, a2db env = Some y /\ Rabs (B2R y - 20 * ln (B2R env) / ln 10) <= e) -> Rabs (gain_db - curve) <= e + 0.0003).
  { intros e Le L8 P0 (y & Ey & Ay). assert (y = lv) by congruence. subst y.
    assert (Nn : is_nan env = false /\ Bsign env = false) by (apply (nonneg_fin env Fe P0)).
    destruct (C34_a2db_total env (proj1 Nn) (proj2 Nn)) as (y & Ey' & Fl & Bl). assert (y = lv) by congruence. subst y. clear Ey'.
    pose proof (level_db lv Fl Bl) as Dl. destruct (to64_R lv Fl) as [Vl _].
    destruct (C23_compressor _ _ _ _ Ht Hr Dl Dl) as (Fg & Ng & _ & Cg & _). rewrite Vl in Cg.
    set (g64 := comp_gain _ _) in *. set (T := B2R (cc_comp_threshold c)) in *. set (r := B2R (cc_comp_slope c)) in *.
    assert (R1 : 0 <= r <= 1) by apply Hr.
    (* the level is below 18.6 dB *)
    assert (U : B2R lv <= 18.7).
    { destruct (C34_a2db_monotone env (mk32 8 0)) as (p & q & Ep & Eq & Lpq); [apply Nn|apply Nn|reflexivity|reflexivity| |].
      - destruct (lit32 8 ltac:(reflexivity)) as [E8 F8]. apply (fle_true env (mk32 8 0) Fe F8). rewrite E8. lra.
      - assert (p = lv) by congruence. subst p.
        destruct (lit32 8 ltac:(reflexivity)) as [E8 F8].
        destruct (a2db_acc (mk32 8 0) 10%Z F8) as (q' & Eq' & Fq & Aq); [auto|rewrite E8; change (bpow radix2 (- (10))) with (/ 1024); change (bpow radix2 10) with 1024; lra|].
        assert (q' = q) by congruence. subst q'. rewrite E8 in Aq. apply (fle_true lv q Fl Fq) in Lpq.
        assert (db_of 8 <= 18.5). 
        { rewrite <- (db_of_amp 18.5). unfold db_of. pose proof ln10_pos. apply Rmult_le_compat_r; [apply Rlt_le, Rinv_0_lt_compat; lra|]. apply Rmult_le_compat_l; [lra|].
          apply ln_le; [lra|]. rewrite amp_rpower. 
          pose proof (C34_db2a_accuracy (mk32 37 (-1))) as Q. destruct (mk32_small 37 (-1)) as [Es Fs]; [reflexivity|lia|]. change (bpow radix2 (-1)) with (/ 2) in Es.
          destruct (Q Fs ltac:(rewrite Es; lra)) as (z & Ez & Az). rewrite Es in Az. replace (37 * / 2 / 20) with (18.5 / 20) in Az by lra.
          assert (Z : 8.1 <= B2R z).
          { assert (T' : match db2a (mk32 37 (-1)) with Some z => fle (mk32 65 (-3)) z | None => false end = true) by (vm_compute; reflexivity).
            rewrite Ez in T'. destruct (C34_db2a_total (mk32 37 (-1))) as (z' & Ez' & Fz & _). assert (z' = z) by congruence. subst z'.
            destruct (mk32_small 65 (-3)) as [E65 F65]; [reflexivity|lia|]. change (bpow radix2 (-3)) with (/ 8) in E65. apply (fle_true _ _ F65 Fz) in T'. rewrite E65 in T'. lra. }
          apply Rabs_le_inv in Az. lra. }
        change (a2db_err 10) with 0.0171 in Aq. apply Rabs_le_inv in Aq. lra. }
    assert (Cb : -118.9 <= comp_curve T r (B2R lv) <= 0).
    { unfold comp_curve. destruct (Rle_dec (B2R lv) T); [lra|].
      assert ((1 - r) * (B2R lv - T) <= 1 * (B2R lv - T)) by (apply Rmult_le_compat_r; lra).
      assert (0 <= (1 - r) * (B2R lv - T)) by (apply Rmult_le_pos; lra). lra. }
    assert (Gc : Rabs (B2R g64 - comp_curve T r (B2R lv)) <= 0.00002).
    { eapply Rle_trans; [exact Cg|]. change (bpow radix2 (-23)) with (/ 8388608).
      assert (bpow radix2 (-800) <= 0.00000001) by (apply Rle_trans with (bpow radix2 (-147)); [apply bpow_le; lia|exact tiny]).
      assert (Rabs (comp_curve T r (B2R lv)) <= 118.9) by (apply Rabs_le; lra). lra. }
    apply Rabs_le_inv in Gc.
    destruct (gain_acc g64 g Fg ltac:(lra) Eg) as [_ Ga]. rewrite Va in Ga. fold gain_db in Ga.
    pose proof (comp_curve_lip T r (B2R lv) (20 * ln (B2R env) / ln 10) R1) as Lp. fold curve in Lp.
    apply Rabs_le_inv in Ga. assert (Lp' : Rabs (comp_curve T r (B2R lv) - curve) <= e) by lra. apply Rabs_le_inv in Lp'.
    apply Rabs_le. lra. }
  destruct (C34_a2db_accuracy env Fe) as (A1 & A2 & A3).
  split; [|split]; intros H.
  - eapply Rle_trans; [apply (K 0.0001); [lra|lra|lra|apply A1; lra]|lra].
  - eapply Rle_trans; [apply (K 0.018); [lra|lra|lra|apply A2; lra]|lra].
  - eapply Rle_trans; [apply (K 0.53); [lra|lra|lra|apply A3; lra]|lra].
Qed.
Print Assumptions C46_compression_curve.

(** C46, default configuration: it is one the theorems cover, at every sampling rate from 4001; the gate opens above
    -33 dB and closes below -45 dB (to 0.0003 dB), the compressor works above -27 dB with slope 1/4 and make-up gain
    10; the envelope's release is 50 ms, the gate envelope's 10 ms. *)
Theorem C46_default_configuration :
  forall sps : Z, (4001 <= sps < 2 ^ 32)%Z ->
  cond_ok default_config sps /\
  B2R (cc_comp_threshold default_config) = -27 /\ B2R (cc_comp_slope default_config) = 1 / 4 /\ B2R (cc_comp_gain default_config) = 10 /\
  Rabs (B2R (cc_env_release default_config) - 0.05) <= bpow radix2 (-50) /\
  Rabs (B2R (cc_gate_release default_config) - 0.01) <= bpow radix2 (-50) /\
  exists k, cond_make default_config sps = Some k /\
    0 < B2R (cn_release k) < B2R (cn_onset k) /\
    Rabs (20 * ln (B2R (cn_onset k)) / ln 10 - -33) <= 0.0003 /\
    Rabs (20 * ln (B2R (cn_release k)) / ln 10 - -45) <= 0.0003.
Proof.
  intros sps Hs.
  assert (Ms : forall n x, IZR (Z.of_N n) = x -> (n <= 2 ^ 53)%N -> 10 <= x <= 50 -> is_finite (lit_ms n) = true /\ Rabs (B2R (lit_ms n) - x / 1000) <= bpow radix2 (-50)).
  { intros n x Hx K Bx. destruct (C35_literals n) as (_ & _ & _ & _ & L & _). destruct (L K) as [F E]. split; [exact F|].
    rewrite Hx in E. change (bpow radix2 (-50)) with (/ 1125899906842624). lra. }
  destruct (Ms 50%N 50 eq_refl ltac:(apply N.leb_le; reflexivity) ltac:(lra)) as [Fa Ea].
  destruct (Ms 10%N 10 eq_refl ltac:(apply N.leb_le; reflexivity) ltac:(lra)) as [Fb Eb].
  destruct (mk64_small (-27) 0 ltac:(reflexivity) ltac:(lia)) as [V1 F1]. change (bpow radix2 0) with 1 in V1.
  destruct (mk32_small 1 (-2) ltac:(reflexivity) ltac:(lia)) as [V2 F2]. change (bpow radix2 (-2)) with (/ 4) in V2.
  destruct (int32 10 ltac:(reflexivity)) as [V3 F3].
  destruct (mk64_small (-33) 0 ltac:(reflexivity) ltac:(lia)) as [V4 F4]. change (bpow radix2 0) with 1 in V4.
  destruct (mk64_small (-45) 0 ltac:(reflexivity) ltac:(lia)) as [V5 F5]. change (bpow radix2 0) with 1 in V5.
  pose proof Ea as Ea'. pose proof Eb as Eb'. change (bpow radix2 (-50)) with (/ 1125899906842624) in Ea', Eb'. apply Rabs_le_inv in Ea', Eb'.
  assert (S0 : 4001 <= IZR sps) by (apply IZR_le; lia).
  assert (P8 : 1 <= bpow radix2 900) by (change 1 with (bpow radix2 0); apply bpow_le; lia).
  assert (Tm : forall d : f64, is_finite d = true -> 0.005 <= B2R d <= 0.1 -> time_ok sps d).
  { intros d Fd Bd. split; [exact Fd|]. split; [lra|]. assert (4001 * B2R d <= IZR sps * B2R d) by (apply Rmult_le_compat_r; lra). lra. }
  split.
  { split; [exact Hs|]. cbn [cc_env_release cc_gate_release cc_comp_threshold cc_comp_slope cc_comp_gain default_config].
    split; [apply Tm; [exact Fa|lra]|]. split; [apply Tm; [exact Fb|lra]|].
    split; [|split; [|split; [exact F3|rewrite V3; lra]]].
    - split; [exact F1|]. rewrite V1. apply Rle_trans with (bpow radix2 5); [change (bpow radix2 5) with 32; apply Rabs_le; lra|apply bpow_le; lia].
    - split; [exact F2|]. rewrite V2. lra. }
  cbn [cc_env_release cc_gate_release cc_comp_threshold cc_comp_slope cc_comp_gain default_config].
  split; [lra|]. split; [lra|]. split; [exact V3|]. split; [replace 0.05 with (50 / 1000) by lra; exact Ea|]. split; [replace 0.01 with (10 / 1000) by lra; exact Eb|].
  unfold cond_make. cbn [cc_gate_onset cc_gate_release_threshold default_config].
  destruct (float_of_db_total (mk64 (-33) 0)) as [on Eon]. destruct (float_of_db_total (mk64 (-45) 0)) as [off Eoff]. rewrite Eon, Eoff. cbn [bind].
  eexists. split; [reflexivity|]. cbn [cn_onset cn_release].
  destruct (gain_acc _ on F4 ltac:(rewrite V4; lra) Eon) as [P1 A1]. destruct (gain_acc _ off F5 ltac:(rewrite V5; lra) Eoff) as [P2 A2].
  rewrite V4 in A1. rewrite V5 in A2. apply Rabs_le_inv in A1, A2.
  split; [split; [exact P2|]|split; apply Rabs_le; lra].
  apply ln_lt_inv; [exact P2|exact P1|]. assert (L : 0 < ln 10) by (rewrite <- ln_1; apply ln_increasing; lra).
  apply Rmult_lt_reg_l with (20 / ln 10); [apply Rdiv_lt_0_compat; lra|]. unfold Rdiv in *. lra.
Qed.
Print Assumptions C46_default_configuration.

(** half scale under the default configuration: the factor is -15.73 dB
    (-0.75 * (27 - 6.02), to 0.01 dB) *)
Example C46_curve_example : exists a, compression default_config (mk32 1 (-1)) a /\ 0.163 < a < 0.164.
Proof.
  destruct (mk64_small (-27) 0 ltac:(reflexivity) ltac:(lia)) as [V1 F1]. change (bpow radix2 0) with 1 in V1.
  destruct (mk32_small 1 (-2) ltac:(reflexivity) ltac:(lia)) as [V2 F2]. change (bpow radix2 (-2)) with (/ 4) in V2.
  destruct (compression_ok default_config (mk32 1 (-1))) as (lv & g & El & Eg & Fg & Bg & Z).
  - split; [exact F1|]. cbn [cc_comp_threshold default_config]. rewrite V1. apply Rle_trans with (bpow radix2 5); [change (bpow radix2 5) with 32; apply Rabs_le; lra|apply bpow_le; lia].
  - split; [exact F2|]. cbn [cc_comp_slope default_config]. rewrite V2. lra.
  - reflexivity.
  - reflexivity.
  - exists (B2R g). split.
    + exists lv, g. split; [exact El|]. split; [exact Eg|]. split; [reflexivity|]. split; [lra|exact Z].
    + assert (T : match a2db (mk32 1 (-1)) with Some lv => match db2a (to32 (comp_gain (comp_make (mk64 (-27) 0) (mk32 1 (-2))) (to64 lv))) with
          Some g => flt (mk32 167 (-10)) g && flt g (mk32 2686 (-14)) | None => false end | None => false end = true) by (vm_compute; reflexivity).
      rewrite El in T. unfold float_of_db in Eg. cbn [default_config cc_comp_threshold cc_comp_slope] in Eg. rewrite Eg in T. apply andb_prop in T. destruct T as [T1 T2].
      destruct (mk32_small 167 (-10) ltac:(reflexivity) ltac:(lia)) as [E1 G1]. change (bpow radix2 (-10)) with (/ 1024) in E1.
      destruct (mk32_small 2686 (-14) ltac:(reflexivity) ltac:(lia)) as [E2 G2]. change (bpow radix2 (-14)) with (/ 16384) in E2.
      apply (flt_true _ _ G1 Fg) in T1. apply (flt_true _ _ Fg G2) in T2. rewrite E1 in T1. rewrite E2 in T2. lra.
Qed.
