(** C48: mapping to a range, and the level crossfade. *)
From Coq Require Import Reals Lra Lia ZArith.
From Flocq Require Import Core.Core IEEE754.BinarySingleNaN.
From Verif Require Import Common Float FloatFacts FloatRel FloatLerp Frac_Model Env_Spec Env_Proof MovSumF_Proof Drift_Proof Dyn_Model Dyn_Spec Dyn_Proof Db_Model Db_Proof Db_Full Db_Props Db_Acc Cond_Proof CondDb_Props Mix_Model.
Local Open Scope R_scope.
Local Notation rn := (rnd 24 128).
Local Notation rd := (rnd 53 1024).

(** every operation of the interpolation, for a control in [0, 1] *)
Lemma lerp_ops (y1 y2 s : f32) : bounded y1 -> bounded y2 -> is_finite s = true -> 0 <= B2R s <= 1 ->
  let o := linear_interpolate y1 y2 s in
  is_finite o = true /\ B2R o = rn (B2R y1 + rn (B2R s * rn (B2R y2 - B2R y1))).
Proof.
  intros [Fb Bb] [Ft Bt] Fc Hc. cbn zeta. unfold linear_interpolate.
  assert (Ep : bpow radix2 127 = 2 * bpow radix2 126) by (change 127%Z with (1 + 126)%Z; rewrite bpow_plus; reflexivity).
  assert (L : bpow radix2 127 < bpow radix2 128) by (apply bpow_lt; lia).
  assert (F7 : fmt 24 128 (bpow radix2 127)) by (apply fmt_bpow; unfold SpecFloat.emin; lia).
  destruct (fsub_bnd y2 y1 (bpow radix2 127) Ft Fb F7 L) as (Vd & Fd & Bd).
  { rewrite Ep. unfold Rminus. eapply Rle_trans; [apply Rabs_triang|]. rewrite Rabs_Ropp. lra. }
  destruct (fmul_bnd s (fsub y2 y1) (bpow radix2 127) Fc Fd F7 L) as (Vp & Fp & Bp).
  { rewrite Rabs_mult, (Rabs_pos_eq (B2R s)) by lra. pose proof (Rabs_pos (B2R (fsub y2 y1))).
    apply Rle_trans with (1 * Rabs (B2R (fsub y2 y1))); [apply Rmult_le_compat_r; lra|lra]. }
  assert (H : Rabs (B2R y1 + B2R (fmul s (fsub y2 y1))) <= 3 * bpow radix2 126). { eapply Rle_trans; [apply Rabs_triang|]. lra. }
  assert (F3 : fmt 24 128 (3 * bpow radix2 126)) by (apply (fmt_F2R (prec:=24) (emax:=128) 3 126); [reflexivity|unfold SpecFloat.emin; lia]).
  assert (L3 : 3 * bpow radix2 126 < bpow radix2 128). { change 128%Z with (2 + 126)%Z. rewrite bpow_plus. change (bpow radix2 2) with 4. pose proof (bpow_gt_0 radix2 126). lra. }
  destruct (fadd_bnd y1 (fmul s (fsub y2 y1)) _ Fb Fp F3 L3 H) as (V & F & _).
  split; [exact F|]. rewrite V, Vp, Vd. reflexivity.
Qed.
Lemma lerp_err1 y1 y2 s M : 0 <= s <= 1 -> Rabs y1 <= M -> Rabs y2 <= M ->
  Rabs (rn (y1 + rn (s * rn (y2 - y1))) - (y1 + s * (y2 - y1))) <= bpow radix2 (-21) * M + bpow radix2 (-147).
Proof.
  intros Hs H1 H2. assert (M0 : 0 <= M) by (pose proof (Rabs_pos y1); lra).
  set (t := bpow radix2 (-150)). assert (T0 : 0 < t) by apply bpow_gt_0. assert (T7 : bpow radix2 (-147) = 8 * t). { unfold t. change (-147)%Z with (3 + -150)%Z. rewrite bpow_plus. reflexivity. }
  assert (D : Rabs (y2 - y1) <= 2 * M). { unfold Rminus. eapply Rle_trans; [apply Rabs_triang|]. rewrite Rabs_Ropp. lra. }
  pose proof (rnd_err_all (y2 - y1)) as E1. fold t in E1. set (d := rn (y2 - y1)) in *.
  assert (D1 : Rabs d <= 2.0000003 * M + t). { apply Rle_trans with (Rabs (d - (y2 - y1)) + Rabs (y2 - y1)); [eapply Rle_trans; [|apply Rabs_triang]; right; f_equal; ring|]. lra. }
  pose proof (rnd_err_all (s * d)) as E2. fold t in E2. set (p := rn (s * d)) in *.
  assert (SD : Rabs (s * d) <= 2.0000003 * M + t). { rewrite Rabs_mult, (Rabs_pos_eq s) by lra. pose proof (Rabs_pos d). apply Rle_trans with (1 * Rabs d); [apply Rmult_le_compat_r; lra|lra]. }
  assert (SE : Rabs (s * (d - (y2 - y1))) <= Rabs (d - (y2 - y1))). { rewrite Rabs_mult, (Rabs_pos_eq s) by lra. pose proof (Rabs_pos (d - (y2 - y1))). apply Rle_trans with (1 * Rabs (d - (y2 - y1))); [apply Rmult_le_compat_r; lra|lra]. }
  assert (P : Rabs (p - s * (y2 - y1)) <= / 16777216 * (4.000001 * M) + 2.1 * t).
  { replace (p - s * (y2 - y1)) with ((p - s * d) + s * (d - (y2 - y1))) by ring. eapply Rle_trans; [apply Rabs_triang|]. lra. }
  assert (Q0 : Rabs (y1 + s * (y2 - y1)) <= M).
  { apply Rabs_le_inv in H1. apply Rabs_le_inv in H2. replace (y1 + s * (y2 - y1)) with ((1 - s) * y1 + s * y2) by ring.
    assert ((1 - s) * - M <= (1 - s) * y1 <= (1 - s) * M) by (split; apply Rmult_le_compat_l; lra).
    assert (s * - M <= s * y2 <= s * M) by (split; apply Rmult_le_compat_l; lra). apply Rabs_le. lra. }
  assert (Q1 : Rabs (y1 + p) <= 1.000001 * M + 2.1 * t).
  { replace (y1 + p) with ((y1 + s * (y2 - y1)) + (p - s * (y2 - y1))) by ring. eapply Rle_trans; [apply Rabs_triang|]. lra. }
  pose proof (rnd_err_all (y1 + p)) as E3. fold t in E3. rewrite T7. change (bpow radix2 (-21)) with (/ 2097152).
  replace (rn (y1 + p) - (y1 + s * (y2 - y1))) with ((rn (y1 + p) - (y1 + p)) + (p - s * (y2 - y1))) by ring.
  eapply Rle_trans; [apply Rabs_triang|]. lra.
Qed.

(** [map]: 0 gives y1 exactly; controls in [0, 1) stay between y1 and y2; larger controls never move back
    towards y1; the result is the straight line up to rounding, also at 1. *)
Theorem C48_map :
  forall (y1 y2 s : f32) (M : R), bounded y1 -> bounded y2 -> is_finite s = true -> 0 <= B2R s <= 1 ->
  Rabs (B2R y1) <= M -> Rabs (B2R y2) <= M ->
  let o := map_apply (map_make y1 y2) s in
  is_finite o = true /\
  (B2R s = 0 -> B2R o = B2R y1) /\
  (B2R s < 1 -> Rmin (B2R y1) (B2R y2) <= B2R o <= Rmax (B2R y1) (B2R y2)) /\
  Rabs (B2R o - (B2R y1 + B2R s * (B2R y2 - B2R y1))) <= bpow radix2 (-21) * M + bpow radix2 (-147) /\
  (forall s', is_finite s' = true -> B2R s <= B2R s' <= 1 ->
     let o' := map_apply (map_make y1 y2) s' in (B2R y1 <= B2R y2 -> B2R o <= B2R o') /\ (B2R y2 <= B2R y1 -> B2R o' <= B2R o)) /\
  (forall z1 z2, map_apply (map_range (map_make z1 z2) y1 y2) s = o).
Proof.
  intros y1 y2 s M H1 H2 Fs Hs M1 M2. cbn zeta. unfold map_apply, map_make, map_range. cbn [mp_y1 mp_y2].
  destruct (lerp_ops y1 y2 s H1 H2 Fs Hs) as [F V]. split; [exact F|]. split.
  { intros Z. rewrite V, Z, Rmult_0_l, rnd_0, Rplus_0_r. apply round_generic; [apply valid_rnd_N|apply fmt_v]. }
  split. { intros L. apply (lerp_f32 y1 y2 s H1 H2 (conj Fs (conj (proj1 Hs) L))). }
  split. { rewrite V. apply lerp_err1; assumption. }
  split; [|reflexivity]. intros s' Fs' Hs'. destruct (lerp_ops y1 y2 s' H1 H2 Fs' ltac:(lra)) as [F' V']. rewrite V, V'. split; intros Y.
  - apply rnd_le, Rplus_le_compat_l, rnd_le, Rmult_le_compat_r; [|lra]. apply rnd_ge_fmt; [apply fmt_0|lra].
  - apply rnd_le, Rplus_le_compat_l, rnd_le. assert (D : rn (B2R y2 - B2R y1) <= 0) by (apply rnd_le_fmt; [apply fmt_0|lra]).
    pose proof (Rmult_le_compat_r (- rn (B2R y2 - B2R y1)) (B2R s) (B2R s') ltac:(lra) ltac:(lra)). lra.
Qed.
Print Assumptions C48_map.

(** "The input value 1 is mapped to y2": only up to rounding. *)
Theorem C48_one_maps_to_y2_refuted :
  exists y1 y2 : f32, bounded y1 /\ bounded y2 /\ feq (map_apply (map_make y1 y2) (mk32 1 0)) y2 = false.
Proof.
  exists (mk32 1 0), (mk32 1 (-30)).
  destruct (mk32_small 1 0) as [V1 F1]; [reflexivity|lia|]. destruct (mk32_small 1 (-30)) as [V2 F2]; [reflexivity|lia|].
  split; [|split].
  - split; [exact F1|]. rewrite V1, Rmult_1_l, Rabs_pos_eq by apply bpow_ge_0. apply bpow_le. lia.
  - split; [exact F2|]. rewrite V2, Rmult_1_l, Rabs_pos_eq by apply bpow_ge_0. apply bpow_le. lia.
  - vm_compute. reflexivity.
Qed.
Print Assumptions C48_one_maps_to_y2_refuted.

(** the crossfade gain *)
Lemma fade_ok (ctrl pivot : f64) : db_level ctrl -> db_level pivot -> flt ctrl pivot = true ->
  exists x, db2a (to32 (fsub ctrl pivot)) = Some x /\ is_finite x = true /\ 9 / 10000000 <= B2R x <= 1.
Proof.
  intros Hc Hp L. destruct (db_sub_ok ctrl pivot Hc Hp) as (Fd & Vd & Bd). unfold db_sub in *.
  assert (Lr : B2R ctrl < B2R pivot) by (apply flt_true; [apply Hc|apply Hp|exact L]).
  assert (D0 : B2R (fsub ctrl pivot) <= 0) by (rewrite Vd; apply rnd_le_fmt; [apply fmt_0|lra]).
  assert (B32 : Rabs (rn (B2R (fsub ctrl pivot))) <= bpow radix2 101) by (apply rnd_abs_le; [apply fmt_bpow; unfold SpecFloat.emin; lia|exact Bd]).
  destruct (fconv_R (p':=24) (e':=128) (fsub ctrl pivot) Fd) as [V F]; [eapply Rle_lt_trans; [exact B32|apply bpow_lt; lia]|]. fold (to32 (fsub ctrl pivot)) in V, F.
  destruct (C34_db2a_total (to32 (fsub ctrl pivot))) as (x & E & Fx & Bx). exists x. split; [exact E|]. split; [exact Fx|]. split; [apply Bx|].
  assert (Z : fle (to32 (fsub ctrl pivot)) fzero = true). { apply fle_true; [exact F|reflexivity|]. rewrite V. apply rnd_le_fmt; [apply fmt_0|exact D0]. }
  destruct (C34_db2a_monotone _ _ Z) as (u & w & Eu & Ew & Luw). rewrite E in Eu. injection Eu as <-. rewrite db2a_zero in Ew. injection Ew as <-.
  destruct (int32 1 ltac:(reflexivity)) as [V1 F1]. apply (fle_true _ _ Fx F1) in Luw. rewrite V1 in Luw. exact Luw.
Qed.
Lemma mix_ok (x a b : f32) (M : R) : is_finite x = true -> 0 <= B2R x <= 1 -> bounded a -> bounded b -> Rabs (B2R a) <= M -> Rabs (B2R b) <= M ->
  let o := to32 (fadd (to64 (fmul x a)) (fmul (fsub (mk64 1 0) (to64 x)) (to64 b))) in
  is_finite o = true /\ Rabs (B2R o - (B2R x * B2R a + (1 - B2R x) * B2R b)) <= bpow radix2 (-22) * M + bpow radix2 (-148).
Proof.
  intros Fx Hx [Fa Ba] [Fb Bb] Ma Mb o. assert (M0 : 0 <= M) by (pose proof (Rabs_pos (B2R a)); lra).
  assert (Ep : bpow radix2 127 = 2 * bpow radix2 126) by (change 127%Z with (1 + 126)%Z; rewrite bpow_plus; reflexivity).
  assert (F6 : fmt 24 128 (bpow radix2 126)) by (apply fmt_bpow; unfold SpecFloat.emin; lia).
  assert (F6d : fmt 53 1024 (bpow radix2 126)) by (apply fmt_bpow; unfold SpecFloat.emin; lia).
  assert (F7 : fmt 24 128 (bpow radix2 127)) by (apply fmt_bpow; unfold SpecFloat.emin; lia).
  assert (F7d : fmt 53 1024 (bpow radix2 127)) by (apply fmt_bpow; unfold SpecFloat.emin; lia).
  assert (XA : Rabs (B2R x * B2R a) <= Rabs (B2R a)). { rewrite Rabs_mult, (Rabs_pos_eq (B2R x)) by lra. pose proof (Rabs_pos (B2R a)). apply Rle_trans with (1 * Rabs (B2R a)); [apply Rmult_le_compat_r; lra|lra]. }
  destruct (fmul_bnd x a (bpow radix2 126) Fx Fa F6 ltac:(apply bpow_lt; lia) ltac:(lra)) as (Vp & Fp & Bp).
  destruct (to64_R _ Fp) as [Vp' Fp']. destruct (to64_R _ Fx) as [Vx Fx']. destruct (to64_R _ Fb) as [Vb Fb'].
  destruct (mk64_small 1 0) as [V1 F1]; [reflexivity|lia|]. change (bpow radix2 0) with 1 in V1. rewrite Rmult_1_r in V1.
  assert (fd1 : fmt 53 1024 1) by (change 1 with (bpow radix2 0); apply fmt_bpow; unfold SpecFloat.emin; lia).
  destruct (fsub_bnd (mk64 1 0) (to64 x) 1 F1 Fx' fd1) as (Vq & Fq & Bq); [change 1 with (bpow radix2 0); apply bpow_lt; lia|rewrite V1, Vx; apply Rabs_le; lra|].
  set (q := fsub (mk64 1 0) (to64 x)) in *. rewrite V1, Vx in Vq.
  assert (Q1 : 0 <= B2R q <= 1). { split; [rewrite Vq; apply rnd_ge_fmt; [apply fmt_0|lra]|apply Rabs_le_inv in Bq; lra]. }
  assert (QB : Rabs (B2R q * B2R (to64 b)) <= Rabs (B2R b)). { rewrite Vb, Rabs_mult, (Rabs_pos_eq (B2R q)) by lra. pose proof (Rabs_pos (B2R b)). apply Rle_trans with (1 * Rabs (B2R b)); [apply Rmult_le_compat_r; lra|lra]. }
  destruct (fmul_bnd q (to64 b) (bpow radix2 126) Fq Fb' F6d ltac:(apply bpow_lt; lia) ltac:(lra)) as (Vr & Fr & Br).
  set (r := fmul q (to64 b)) in *. rewrite Vb in Vr, QB.
  assert (SB : Rabs (B2R (to64 (fmul x a)) + B2R r) <= bpow radix2 127). { rewrite Vp', Ep. eapply Rle_trans; [apply Rabs_triang|]. lra. }
  destruct (fadd_bnd (to64 (fmul x a)) r (bpow radix2 127) Fp' Fr F7d ltac:(apply bpow_lt; lia) SB) as (Vs & Fs & Bs).
  rewrite Vp' in Vs, SB. set (sm := fadd (to64 (fmul x a)) r) in *.
  assert (B32 : Rabs (rn (B2R sm)) <= bpow radix2 127) by (apply rnd_abs_le; [exact F7|exact Bs]).
  destruct (fconv_R (p':=24) (e':=128) sm Fs) as [V F]; [eapply Rle_lt_trans; [exact B32|apply bpow_lt; lia]|]. fold (to32 sm) in V, F.
  unfold o. split; [exact F|]. rewrite V. clear V F B32.
  (* errors *)
  set (t := bpow radix2 (-150)). assert (T0 : 0 < t) by apply bpow_gt_0. assert (T8 : bpow radix2 (-148) = 4 * t). { unfold t. change (-148)%Z with (2 + -150)%Z. rewrite bpow_plus. reflexivity. }
  assert (T1 : bpow radix2 (-1000) <= t / 1024). { apply Rle_trans with (bpow radix2 (-160)); [apply bpow_le; lia|]. unfold t. change (-160)%Z with (-150 + -10)%Z. rewrite bpow_plus. change (bpow radix2 (-10)) with (/ 1024). lra. }
  assert (T2 : t <= 0.0000000001). { apply Rle_trans with (bpow radix2 (-40)); [apply bpow_le; lia|change (bpow radix2 (-40)) with (/ 1099511627776); lra]. }
  pose proof (rnd_err_all (B2R x * B2R a)) as E1. rewrite <- Vp in E1. fold t in E1.
  pose proof (rd_err_all (1 - B2R x)) as E2. rewrite <- Vq in E2. pose proof (rd_err_all (B2R q * B2R b)) as E3. rewrite <- Vr in E3.
  pose proof (rd_err_all (B2R (fmul x a) + B2R r)) as E4. rewrite <- Vs in E4. pose proof (rnd_err_all (B2R sm)) as E5. fold t in E5.
  change (bpow radix2 (-53)) with (/ 9007199254740992) in E2, E3, E4. set (u := bpow radix2 (-1000)) in *. assert (U0 : 0 < u) by apply bpow_gt_0.
  assert (A1 : Rabs (1 - B2R x) <= 1) by (apply Rabs_le; lra).
  (* q b *)
  assert (E6 : Rabs (B2R r - (1 - B2R x) * B2R b) <= 0.0000000000000003 * M + u + u * M).
  { replace (B2R r - (1 - B2R x) * B2R b) with ((B2R r - B2R q * B2R b) + (B2R q - (1 - B2R x)) * B2R b) by ring.
    eapply Rle_trans; [apply Rabs_triang|].
    assert (Rabs ((B2R q - (1 - B2R x)) * B2R b) <= (/ 9007199254740992 + u) * M). { rewrite Rabs_mult. apply Rmult_le_compat; try apply Rabs_pos; [lra|exact Mb]. }
    lra. }
  assert (Um : u * M <= 0.0000000000001 * M) by (apply Rmult_le_compat_r; lra).
  assert (G : Rabs (B2R x * B2R a + (1 - B2R x) * B2R b) <= M).
  { apply Rabs_le_inv in Ma. apply Rabs_le_inv in Mb.
    assert ((1 - B2R x) * - M <= (1 - B2R x) * B2R b <= (1 - B2R x) * M) by (split; apply Rmult_le_compat_l; lra).
    assert (B2R x * - M <= B2R x * B2R a <= B2R x * M) by (split; apply Rmult_le_compat_l; lra). apply Rabs_le. lra. }
  set (g := B2R x * B2R a + (1 - B2R x) * B2R b) in *.
  assert (S1 : Rabs (B2R (fmul x a) + B2R r - g) <= / 16777216 * M + 0.000000000001 * M + 1.1 * t).
  { unfold g. replace (B2R (fmul x a) + B2R r - (B2R x * B2R a + (1 - B2R x) * B2R b)) with ((B2R (fmul x a) - B2R x * B2R a) + (B2R r - (1 - B2R x) * B2R b)) by ring.
    eapply Rle_trans; [apply Rabs_triang|]. lra. }
  assert (S2 : Rabs (B2R (fmul x a) + B2R r) <= 1.001 * M + 1.1 * t).
  { replace (B2R (fmul x a) + B2R r) with ((B2R (fmul x a) + B2R r - g) + g) by ring. eapply Rle_trans; [apply Rabs_triang|]. lra. }
  assert (S3 : Rabs (B2R sm - g) <= / 16777216 * M + 0.000000000002 * M + 1.2 * t).
  { replace (B2R sm - g) with ((B2R sm - (B2R (fmul x a) + B2R r)) + (B2R (fmul x a) + B2R r - g)) by ring. eapply Rle_trans; [apply Rabs_triang|]. lra. }
  assert (S4 : Rabs (B2R sm) <= 1.002 * M + 1.2 * t).
  { replace (B2R sm) with ((B2R sm - g) + g) by ring. eapply Rle_trans; [apply Rabs_triang|]. lra. }
  rewrite T8. change (bpow radix2 (-22)) with (/ 4194304). replace (rn (B2R sm) - g) with ((rn (B2R sm) - B2R sm) + (B2R sm - g)) by ring.
  eapply Rle_trans; [apply Rabs_triang|]. lra.
Qed.

(** The crossfade: [a] alone unless the control is below the pivot; below it, a mix g a + (1 - g) b whose gain
    g for a is 10^((ctrl - pivot)/20), i.e. in decibels exactly as far below 0 dB as the control is below the
    pivot, to 0.0003 dB (down to -118 dB).  The same whether the pivot was given to the constructor or set later. *)
Theorem C48_crossfade :
  forall (first pivot ctrl : f64) (a b : f32) (M : R),
  db_level pivot -> db_level ctrl -> bounded a -> bounded b -> Rabs (B2R a) <= M -> Rabs (B2R b) <= M ->
  exists o, xf_apply pivot a b ctrl = Some o /\ xf_apply (xf_pivot first pivot) a b ctrl = Some o /\ is_finite o = true /\
    (B2R pivot <= B2R ctrl -> o = a) /\
    (B2R ctrl < B2R pivot -> exists g, 0 < g <= 1 /\
       Rabs (B2R o - (g * B2R a + (1 - g) * B2R b)) <= bpow radix2 (-22) * M + bpow radix2 (-148) /\
       Rmin (B2R a) (B2R b) - (bpow radix2 (-22) * M + bpow radix2 (-148)) <= B2R o <= Rmax (B2R a) (B2R b) + (bpow radix2 (-22) * M + bpow radix2 (-148)) /\
       (-118 <= B2R ctrl - B2R pivot -> Rabs (20 * ln g / ln 10 - (B2R ctrl - B2R pivot)) <= 0.0003)).
Proof.
  intros first pivot ctrl a b M Hp Hc Ha Hb Ma Mb. unfold xf_pivot. unfold xf_apply. destruct (flt ctrl pivot) eqn:L.
  - assert (Lr : B2R ctrl < B2R pivot) by (apply flt_true; [apply Hc|apply Hp|exact L]).
    destruct (fade_ok ctrl pivot Hc Hp L) as (x & E & Fx & Bx). rewrite E. cbn [bind].
    pose proof (mix_ok x a b M Fx ltac:(lra) Ha Hb Ma Mb) as [F A].
    eexists. split; [reflexivity|]. split; [reflexivity|]. split; [exact F|]. split; [intros Q; exfalso; lra|]. intros _. exists (B2R x). split; [lra|]. split; [exact A|].
    set (e := bpow radix2 (-22) * M + bpow radix2 (-148)) in *. split.
    + apply Rabs_le_inv in A. pose proof (Rmin_l (B2R a) (B2R b)). pose proof (Rmin_r (B2R a) (B2R b)). pose proof (Rmax_l (B2R a) (B2R b)). pose proof (Rmax_r (B2R a) (B2R b)).
      set (lo := Rmin _ _) in *. set (hi := Rmax _ _) in *.
      assert (B2R x * lo <= B2R x * B2R a <= B2R x * hi) by (split; apply Rmult_le_compat_l; lra).
      assert ((1 - B2R x) * lo <= (1 - B2R x) * B2R b <= (1 - B2R x) * hi) by (split; apply Rmult_le_compat_l; lra). lra.
    + intros Hd. destruct (db_sub_ok ctrl pivot Hc Hp) as (Fd & Vd & Bd). unfold db_sub in *.
      pose proof (rd_err_all (B2R ctrl - B2R pivot)) as R. rewrite <- Vd in R. change (bpow radix2 (-53)) with (/ 9007199254740992) in R.
      assert (T : bpow radix2 (-1000) <= 0.0000000001). { apply Rle_trans with (bpow radix2 (-40)); [apply bpow_le; lia|change (bpow radix2 (-40)) with (/ 1099511627776); lra]. }
      assert (Q : Rabs (B2R ctrl - B2R pivot) <= 118) by (apply Rabs_le; lra).
      assert (R' : Rabs (B2R (fsub ctrl pivot) - (B2R ctrl - B2R pivot)) <= 0.000001) by lra. apply Rabs_le_inv in R'.
      destruct (gain_acc (fsub ctrl pivot) x Fd ltac:(lra) E) as [_ G]. apply Rabs_le_inv in G. apply Rabs_le. lra.
  - exists a. split; [reflexivity|]. split; [reflexivity|]. split; [apply Ha|]. split; [reflexivity|]. intros Q. exfalso. apply (flt_false _ _ (proj1 Hc) (proj1 Hp)) in L. lra.
Qed.
Print Assumptions C48_crossfade.

(** A control that is not a number leaves the signal [a] alone. *)
Theorem C48_nan_control : forall (pivot : f64) (a b : f32), xf_apply pivot a b B754_nan = Some a.
Proof. intros pivot a b. unfold xf_apply. destruct pivot; reflexivity. Qed.
Print Assumptions C48_nan_control.

Lemma mix_unit (x : f32) (q : f64) : is_finite x = true -> 0 <= B2R x <= 1 -> is_finite q = true -> 0 <= B2R q <= 1 ->
  B2R (to32 (fadd (to64 (fmul x (mk32 1 0))) (fmul q (to64 fzero)))) = B2R x.
Proof.
  intros Fx Hx Fq Hq. destruct (int32 1 ltac:(reflexivity)) as [V1 F1].
  assert (X : rn (B2R x) = B2R x) by (apply round_generic; [apply valid_rnd_N|apply fmt_v]).
  assert (f1 : fmt 24 128 1) by (change 1 with (bpow radix2 0); apply fmt_bpow; unfold SpecFloat.emin; lia).
  assert (fd1 : fmt 53 1024 1) by (change 1 with (bpow radix2 0); apply fmt_bpow; unfold SpecFloat.emin; lia).
  destruct (fmul_bnd x (mk32 1 0) 1 Fx F1 f1) as (Vp & Fp & _); [change 1 with (bpow radix2 0); apply bpow_lt; lia|rewrite V1; apply Rabs_le; lra|].
  rewrite V1, Rmult_1_r, X in Vp. destruct (to64_R _ Fp) as [Vp' Fp']. rewrite Vp in Vp'.
  destruct (to64_R (fzero : f32) eq_refl) as [V0 F0]. change (B2R (fzero : f32)) with 0 in V0.
  destruct (fmul_bnd q (to64 fzero) 1 Fq F0 fd1) as (Vr & Fr & _); [change 1 with (bpow radix2 0); apply bpow_lt; lia|rewrite V0, Rmult_0_r, Rabs_R0; lra|].
  rewrite V0, Rmult_0_r, rnd_0 in Vr.
  destruct (fadd_bnd (to64 (fmul x (mk32 1 0))) (fmul q (to64 fzero)) 1 Fp' Fr fd1) as (Vs & Fs & _); [change 1 with (bpow radix2 0); apply bpow_lt; lia|rewrite Vp', Vr, Rplus_0_r; apply Rabs_le; lra|].
  rewrite Vp', Vr, Rplus_0_r in Vs. assert (X64 : rd (B2R x) = B2R x) by (apply round_generic; [apply valid_rnd_N|apply fmt32_64, fmt_v]). rewrite X64 in Vs.
  destruct (fconv_R (p':=24) (e':=128) _ Fs) as [V _]; [rewrite Vs, X; rewrite Rabs_pos_eq by lra; apply Rle_lt_trans with (bpow radix2 0); [change (bpow radix2 0) with 1; lra|apply bpow_lt; lia]|].
  unfold to32. rewrite V, Vs. exact X.
Qed.
Lemma unit_fade (pivot ctrl : f64) : db_level pivot -> db_level ctrl ->
  exists o, xf_apply pivot (mk32 1 0) fzero ctrl = Some o /\ 0 < B2R o <= 1 /\
    (B2R pivot <= B2R ctrl -> B2R o = 1) /\ (B2R ctrl < B2R pivot -> exists x, db2a (to32 (fsub ctrl pivot)) = Some x /\ is_finite x = true /\ B2R o = B2R x).
Proof.
  intros Hp Hc. destruct (int32 1 ltac:(reflexivity)) as [V1 F1]. unfold xf_apply. destruct (flt ctrl pivot) eqn:L.
  - assert (Lr : B2R ctrl < B2R pivot) by (apply flt_true; [apply Hc|apply Hp|exact L]).
    destruct (fade_ok ctrl pivot Hc Hp L) as (x & E & Fx & Bx). rewrite E. cbn [bind]. eexists. split; [reflexivity|].
    destruct (to64_R _ Fx) as [Vx Fx']. destruct (mk64_small 1 0) as [V1d F1d]; [reflexivity|lia|]. change (bpow radix2 0) with 1 in V1d. rewrite Rmult_1_r in V1d.
    assert (fd1 : fmt 53 1024 1) by (change 1 with (bpow radix2 0); apply fmt_bpow; unfold SpecFloat.emin; lia).
    destruct (fsub_bnd (mk64 1 0) (to64 x) 1 F1d Fx' fd1) as (Vq & Fq & Bq); [change 1 with (bpow radix2 0); apply bpow_lt; lia|rewrite V1d, Vx; apply Rabs_le; lra|].
    rewrite V1d, Vx in Vq.
    assert (Q1 : 0 <= B2R (fsub (mk64 1 0) (to64 x)) <= 1). { split; [rewrite Vq; apply rnd_ge_fmt; [apply fmt_0|lra]|apply Rabs_le_inv in Bq; lra]. }
    rewrite (mix_unit x _ Fx ltac:(lra) Fq Q1). split; [lra|]. split; [intros; exfalso; lra|]. intros _. exists x. auto.
  - exists (mk32 1 0). split; [reflexivity|]. rewrite V1. split; [lra|]. split; [reflexivity|]. intros Q. exfalso. apply (flt_false _ _ (proj1 Hc) (proj1 Hp)) in L. lra.
Qed.
(** The gain of [a] (the output for a = 1, b = 0) never falls when the control rises. *)
Theorem C48_crossfade_monotone :
  forall (pivot c1 c2 : f64), db_level pivot -> db_level c1 -> db_level c2 -> B2R c1 <= B2R c2 ->
  exists o1 o2, xf_apply pivot (mk32 1 0) fzero c1 = Some o1 /\ xf_apply pivot (mk32 1 0) fzero c2 = Some o2 /\ 0 < B2R o1 <= B2R o2 /\ B2R o2 <= 1.
Proof.
  intros pivot c1 c2 Hp H1 H2 L. destruct (unit_fade pivot c1 Hp H1) as (o1 & E1 & B1 & G1 & S1). destruct (unit_fade pivot c2 Hp H2) as (o2 & E2 & B2 & G2 & S2).
  exists o1, o2. split; [exact E1|]. split; [exact E2|]. split; [|lra]. split; [lra|].
  destruct (Rle_lt_dec (B2R pivot) (B2R c2)) as [P|P]; [rewrite (G2 P); lra|].
  destruct (S1 ltac:(lra)) as (x1 & D1 & F1 & V1). destruct (S2 P) as (x2 & D2 & F2 & V2). rewrite V1, V2.
  destruct (db_sub_ok c1 pivot H1 Hp) as (Fd1 & Vd1 & Bd1). destruct (db_sub_ok c2 pivot H2 Hp) as (Fd2 & Vd2 & Bd2). unfold db_sub in *.
  assert (C : forall d : f64, is_finite d = true -> Rabs (B2R d) <= bpow radix2 101 -> B2R (to32 d) = rn (B2R d) /\ is_finite (to32 d) = true).
  { intros d Fd Bd. apply (fconv_R (p':=24) (e':=128) d Fd). apply Rle_lt_trans with (bpow radix2 101); [apply rnd_abs_le; [apply fmt_bpow; unfold SpecFloat.emin; lia|exact Bd]|apply bpow_lt; lia]. }
  destruct (C _ Fd1 Bd1) as [W1 K1]. destruct (C _ Fd2 Bd2) as [W2 K2].
  assert (Z : fle (to32 (fsub c1 pivot)) (to32 (fsub c2 pivot)) = true). { apply fle_true; [exact K1|exact K2|]. rewrite W1, W2. apply rnd_le. rewrite Vd1, Vd2. apply rnd_le. lra. }
  destruct (C34_db2a_monotone _ _ Z) as (u & w & Eu & Ew & Luw). rewrite D1 in Eu. injection Eu as <-. rewrite D2 in Ew. injection Ew as <-.
  apply (fle_true _ _ F1 F2). exact Luw.
Qed.
Print Assumptions C48_crossfade_monotone.

(** The hypotheses are met: -3 dB below the pivot, as in the source comment: gain 0.708 for a, 0.292 for b. *)
Example C48_example : exists o, xf_apply (mk64 (-10) 0) (mk32 1 0) fzero (mk64 (-13) 0) = Some o /\ 0.7079 < B2R o < 0.708.
Proof.
  assert (T : match xf_apply (mk64 (-10) 0) (mk32 1 0) fzero (mk64 (-13) 0) with Some o => is_finite o && flt (mk32 11876817 (-24)) o && flt o (mk32 11878266 (-24)) | None => false end = true) by (vm_compute; reflexivity).
  destruct (xf_apply _ _ _ _) as [o|]; [|discriminate T]. exists o. split; [reflexivity|].
  apply andb_prop in T. destruct T as [T T3]. apply andb_prop in T. destruct T as [T1 T2].
  destruct (mk32_small 11876817 (-24)) as [V1 F1]; [reflexivity|lia|]. destruct (mk32_small 11878266 (-24)) as [V2 F2]; [reflexivity|lia|].
  change (bpow radix2 (-24)) with (/ 16777216) in V1, V2. apply (flt_true _ _ F1 T1) in T2. apply (flt_true _ _ T1 F2) in T3. lra.
Qed.
Example C48_levels : db_level (mk64 (-10) 0) /\ db_level (mk64 (-13) 0) /\ bounded (mk32 1 0).
Proof.
  destruct (mk64_small (-10) 0) as [V1 F1]; [reflexivity|lia|]. destruct (mk64_small (-13) 0) as [V2 F2]; [reflexivity|lia|]. change (bpow radix2 0) with 1 in V1, V2.
  destruct (int32 1 ltac:(reflexivity)) as [V3 F3].
  assert (16 <= bpow radix2 100) by (change 16 with (bpow radix2 4); apply bpow_le; lia). assert (bpow radix2 100 <= bpow radix2 126) by (apply bpow_le; lia).
  split; [split; [exact F1|rewrite V1; apply Rabs_le; lra]|]. split; [split; [exact F2|rewrite V2; apply Rabs_le; lra]|]. split; [exact F3|rewrite V3; apply Rabs_le; lra].
Qed.
