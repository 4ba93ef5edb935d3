(** Values of the smoothing coefficient fast_exp3(-2/(sps*d)) in terms of the number of
    samples n = sps*d. *)
From Coq Require Import Reals Lra Psatz.
From Flocq Require Import Core.Core IEEE754.BinarySingleNaN.
From Flocq Require Import Relative.
From Verif Require Import Common CommonFacts Float FloatFacts FloatLerp Env_Model Env_Spec Env_Proof.
Local Open Scope R_scope.
Local Notation rn := (rnd 24 128).
Local Notation ft := (fmt 24 128).

Lemma ft8 : ft (bpow radix2 3) /\ bpow radix2 3 < bpow radix2 128.
Proof. split; [apply fmt_bpow; unfold SpecFloat.emin; lia|apply bpow_lt; lia]. Qed.
Lemma err32 r e : (-100 <= e)%Z -> Rabs r <= bpow radix2 e -> Rabs (rn r - r) <= bpow radix2 (e - 25).
Proof. intros He H. pose proof (rnd_err (prec:=24) (emax:=128) r e) as Q. replace (e - 25)%Z with (e - 24 - 1)%Z by lia. apply Q; [unfold SpecFloat.emin; lia|exact H]. Qed.
Definition exp3_poly (x : R) : R := 1 + x + x * x / 2 + x * x * x / 6.
Lemma fast_exp3_val (x : f32) : is_finite x = true -> -1 <= B2R x <= 0 ->
  Rabs (B2R (fast_exp3 x) - exp3_poly (B2R x)) <= bpow radix2 (-21).
Proof.
  intros Fx Bx. unfold fast_exp3. destruct ft8 as [F8 L8]. change (bpow radix2 3) with 8 in F8, L8.
  destruct (int32 3 ltac:(reflexivity)) as [V3 F3]. destruct (int32 6 ltac:(reflexivity)) as [V6 F6].
  destruct (fadd_rng (mk32 3 0) x 2 3 F3 Fx ltac:(reflexivity) ltac:(reflexivity)) as [Fa Ba]; [rewrite V3; lra|].
  destruct (fmul_rng x (fadd (mk32 3 0) x) (-3) 0 Fx Fa ltac:(reflexivity) ltac:(reflexivity)) as [Fb Bb]; [nra|].
  destruct (fadd_rng (mk32 6 0) _ 3 6 F6 Fb ltac:(reflexivity) ltac:(reflexivity)) as [Fc Bc]; [rewrite V6; lra|].
  destruct (fmul_rng x _ (-6) 0 Fx Fc ltac:(reflexivity) ltac:(reflexivity)) as [Fd Bd]; [nra|].
  destruct (fadd_rng (mk32 6 0) _ 0 6 F6 Fd ltac:(reflexivity) ltac:(reflexivity)) as [Fe Be]; [rewrite V6; lra|].
  destruct (fadd_bnd (mk32 3 0) x 8 F3 Fx F8 L8) as (Va & _ & _); [rewrite V3; apply Rabs_le; lra|].
  set (s1 := fadd (mk32 3 0) x) in *.
  destruct (fmul_bnd x s1 8 Fx Fa F8 L8) as (Vb & _ & _); [apply Rabs_le; nra|].
  set (p1 := fmul x s1) in *.
  destruct (fadd_bnd (mk32 6 0) p1 8 F6 Fb F8 L8) as (Vc & _ & _); [rewrite V6; apply Rabs_le; lra|].
  set (s2 := fadd (mk32 6 0) p1) in *.
  destruct (fmul_bnd x s2 8 Fx Fc F8 L8) as (Vd & _ & _); [apply Rabs_le; nra|].
  set (p2 := fmul x s2) in *.
  destruct (fadd_bnd (mk32 6 0) p2 8 F6 Fd F8 L8) as (Ve & _ & _); [rewrite V6; apply Rabs_le; lra|].
  set (s3 := fadd (mk32 6 0) p2) in *.
  destruct sixth_R as [V F]. change (bpow radix2 (-26)) with (/ 67108864) in V.
  destruct (fmul_bnd s3 sixth 8 Fe F F8 L8) as (Vf & _ & _); [rewrite V; apply Rabs_le; lra|].
  pose proof (err32 (B2R (mk32 3 0) + B2R x) 2 ltac:(lia)) as E1. rewrite <- Va, V3 in E1. change (bpow radix2 2) with 4 in E1. change (bpow radix2 (2 - 25)) with (/ 8388608) in E1.
  specialize (E1 ltac:(apply Rabs_le; lra)).
  pose proof (err32 (B2R x * B2R s1) 2 ltac:(lia)) as E2. rewrite <- Vb in E2. change (bpow radix2 2) with 4 in E2. change (bpow radix2 (2 - 25)) with (/ 8388608) in E2.
  specialize (E2 ltac:(apply Rabs_le; nra)).
  pose proof (err32 (B2R (mk32 6 0) + B2R p1) 3 ltac:(lia)) as E3. rewrite <- Vc, V6 in E3. change (bpow radix2 3) with 8 in E3. change (bpow radix2 (3 - 25)) with (/ 4194304) in E3.
  specialize (E3 ltac:(apply Rabs_le; lra)).
  pose proof (err32 (B2R x * B2R s2) 3 ltac:(lia)) as E4. rewrite <- Vd in E4. change (bpow radix2 3) with 8 in E4. change (bpow radix2 (3 - 25)) with (/ 4194304) in E4.
  specialize (E4 ltac:(apply Rabs_le; nra)).
  pose proof (err32 (B2R (mk32 6 0) + B2R p2) 3 ltac:(lia)) as E5. rewrite <- Ve, V6 in E5. change (bpow radix2 3) with 8 in E5. change (bpow radix2 (3 - 25)) with (/ 4194304) in E5.
  specialize (E5 ltac:(apply Rabs_le; lra)).
  pose proof (err32 (B2R s3 * B2R sixth) 0 ltac:(lia)) as E6. rewrite <- Vf, V in E6. change (bpow radix2 0) with 1 in E6. change (bpow radix2 (0 - 25)) with (/ 33554432) in E6.
  specialize (E6 ltac:(apply Rabs_le; lra)).
  change (bpow radix2 (-21)) with (/ 2097152). unfold exp3_poly.
  set (X := B2R x) in *. set (S1 := B2R s1) in *. set (P1 := B2R p1) in *. set (S2 := B2R s2) in *. set (P2 := B2R p2) in *. set (S3 := B2R s3) in *.
  set (W := B2R (fmul s3 sixth)) in *. clearbody X S1 P1 S2 P2 S3 W.
  apply Rabs_le_inv in E1, E2, E3, E4, E5, E6.
  set (e1 := S1 - (3 + X)) in *. set (e2 := P1 - X * S1) in *. set (e3 := S2 - (6 + P1)) in *. set (e4 := P2 - X * S2) in *. set (e5 := S3 - (6 + P2)) in *.
  assert (K : S3 = 6 + X * (6 + X * (3 + X)) + (X * X * e1 + X * (e2 + e3) + e4 + e5)) by (unfold e1, e2, e3, e4, e5; ring).
  assert (N1 : - / 8388608 <= X * X * e1 <= / 8388608) by (assert (0 <= X * X <= 1) by nra; nra).
  assert (N2 : - (/ 8388608 + / 4194304) <= X * (e2 + e3) <= / 8388608 + / 4194304).
  { apply Rabs_le_inv. rewrite Rabs_mult. apply Rle_trans with (1 * (/ 8388608 + / 4194304)); [|lra].
    apply Rmult_le_compat; [apply Rabs_pos|apply Rabs_pos|apply Rabs_le; lra|apply Rabs_le; lra]. }
  set (u := X * X * e1 + X * (e2 + e3) + e4 + e5) in *.
  assert (N3 : - (/ 1048576) <= u <= / 1048576) by (unfold u; lra).
  set (p := 6 + X * (6 + X * (3 + X))) in *.
  assert (Np : 0 <= p <= 6.00001) by (split; [unfold p; nra|lra]).
  replace (1 + X + X * X / 2 + X * X * X / 6) with (p / 6) by (unfold p; field).
  apply Rabs_le. rewrite K in E6. lra.
Qed.

Lemma rel64 r : bpow radix2 (-1000) <= Rabs r -> Rabs (rnd 53 1024 r - r) <= bpow radix2 (-53) * Rabs r.
Proof.
  intros H. pose proof (relative_error_N_FLT radix2 (-1074) 53 eq_refl (fun t => negb (Z.even t)) r) as E.
  change (round radix2 (FLT_exp (-1074) 53) (Znearest (fun t => negb (Z.even t))) r) with (rnd 53 1024 r) in E.
  replace (/ 2 * bpow radix2 (- (53) + 1)) with (bpow radix2 (-53)) in E.
  - apply E. apply Rle_trans with (2 := H). apply bpow_le. lia.
  - change (- (53) + 1)%Z with (1 + -53)%Z. rewrite bpow_plus. change (bpow radix2 1) with 2. field.
Qed.
Lemma env_coeff_val (sps : Z) (d : f64) : (0 < sps < 2 ^ 32)%Z -> is_finite d = true -> B2R d <= bpow radix2 900 -> 2 <= IZR sps * B2R d ->
  Rabs (B2R (env_coeff sps d) - exp3_poly (- (2 / (IZR sps * B2R d)))) <= bpow radix2 (-21) + bpow radix2 (-24).
Proof.
  intros Hs Fd Ud L. unfold env_coeff.
  destruct (mk64_small sps 0) as [Vs Fs]; [change (2 ^ 53)%Z with 9007199254740992%Z; change (2 ^ 32)%Z with 4294967296%Z in Hs; lia|lia|].
  change (bpow radix2 0) with 1 in Vs. rewrite Rmult_1_r in Vs.
  destruct (mk64_small (-2) 0 ltac:(reflexivity) ltac:(lia)) as [V2 F2]. change (bpow radix2 0) with 1 in V2. rewrite Rmult_1_r in V2.
  assert (S0 : 0 < IZR sps <= bpow radix2 32) by (split; [apply IZR_lt; lia|change (bpow radix2 32) with (IZR (2 ^ 32)); apply IZR_le; lia]).
  assert (D0 : 0 < B2R d) by nra.
  assert (U : Rabs (IZR sps * B2R d) <= bpow radix2 932).
  { rewrite Rabs_pos_eq by lra. change 932%Z with (32 + 900)%Z. rewrite bpow_plus. apply Rmult_le_compat; lra. }
  assert (F932 : fmt 53 1024 (bpow radix2 932)) by (apply fmt_bpow; unfold SpecFloat.emin; lia).
  pose proof (rel64 (IZR sps * B2R d)) as E64. rewrite (Rabs_pos_eq (IZR sps * B2R d)) in E64 by lra.
  specialize (E64 ltac:(apply Rle_trans with 2; [change 2 with (bpow radix2 1); apply bpow_le; lia|exact L])).
  set (n := IZR sps * B2R d) in *.
  assert (En : n = B2R (mk64 sps 0) * B2R d) by (rewrite Vs; reflexivity).
  destruct (fmul_bnd (mk64 sps 0) d (bpow radix2 932) Fs Fd F932) as (Vp & Fp & Bp); [apply bpow_lt; lia|rewrite <- En; exact U|].
  rewrite <- En in Vp. rewrite <- Vp in E64.
  assert (P2 : 2 <= B2R (fmul (mk64 sps 0) d)).
  { rewrite Vp. apply rnd_ge_fmt; [change 2 with (bpow radix2 1); apply fmt_bpow; unfold SpecFloat.emin; lia|exact L]. }
  set (q := fmul (mk64 sps 0) d) in *.
  assert (Q : -1 <= -2 / B2R q <= 0).
  { assert (I0 : 0 < / B2R q) by (apply Rinv_0_lt_compat; lra).
    assert (I1 : B2R q * / B2R q = 1) by (apply Rinv_r; lra). unfold Rdiv. nra. }
  assert (Dq : Rabs (-2 / B2R q - - (2 / n)) <= bpow radix2 (-53)).
  { replace (-2 / B2R q - - (2 / n)) with ((B2R q - n) * (2 / (B2R q * n))) by (field; lra).
    rewrite Rabs_mult. assert (P : 0 < 2 / (B2R q * n)) by (apply Rdiv_lt_0_compat; [lra|nra]). rewrite (Rabs_pos_eq (2 / _)) by lra.
    apply Rle_trans with (bpow radix2 (-53) * n * (2 / (B2R q * n))); [apply Rmult_le_compat_r; lra|].
    replace (bpow radix2 (-53) * n * (2 / (B2R q * n))) with (bpow radix2 (-53) * (2 / B2R q)) by (field; lra).
    pose proof (bpow_gt_0 radix2 (-53)). assert (2 / B2R q <= 1) by lra. nra. }
  assert (F1 : forall p e (Hp : Prec_gt_0 p) (He : Prec_lt_emax p e), (SpecFloat.emin p e <= 0)%Z -> fmt p e (-1) /\ fmt p e 1).
  { intros p e Hp He H. assert (X : fmt p e 1) by (change 1 with (bpow radix2 0); apply fmt_bpow; exact H). split; [|exact X]. 
    replace (-1) with (- (1)) by lra. apply fmt_opp. exact X. }
  destruct (F1 53%Z 1024%Z _ _ ltac:(unfold SpecFloat.emin; lia)) as [F64m F641]. destruct (F1 24%Z 128%Z _ _ ltac:(unfold SpecFloat.emin; lia)) as [F32m F321].
  assert (L1 : forall e, (0 < e)%Z -> 1 < bpow radix2 e) by (intros e He; change 1 with (bpow radix2 0); apply bpow_lt; lia).
  destruct (fdiv_bnd (mk64 (-2) 0) q 1 F2 ltac:(lra) F641 (L1 1024%Z ltac:(lia))) as (Vq & Fq & Bq).
  { rewrite V2. apply Rabs_le. lra. }
  rewrite V2 in Vq.
  assert (R1 : -1 <= B2R (fdiv (mk64 (-2) 0) q) <= 0).
  { rewrite Vq. split; [apply rnd_ge_fmt; [exact F64m|lra]|apply rnd_le_fmt; [apply fmt_0|lra]]. }
  pose proof (rnd_err (prec:=53) (emax:=1024) (-2 / B2R q) 0 ltac:(unfold SpecFloat.emin; lia)) as Ez. rewrite <- Vq in Ez.
  change (0 - 53 - 1)%Z with (-54)%Z in Ez. change (bpow radix2 0) with 1 in Ez. specialize (Ez ltac:(apply Rabs_le; lra)).
  set (z := fdiv (mk64 (-2) 0) q) in *.
  assert (R2 : -1 <= rn (B2R z) <= 0).
  { split; [apply rnd_ge_fmt; [exact F32m|lra]|apply rnd_le_fmt; [apply fmt_0|lra]]. }
  destruct (fconv_R (p':=24) (e':=128) z Fq) as [Vc Fc].
  { apply Rle_lt_trans with 1; [apply Rabs_le; lra|apply L1; lia]. }
  change (fconv z) with (to32 z) in *.
  pose proof (err32 (B2R z) 0 ltac:(lia) ltac:(change (bpow radix2 0) with 1; apply Rabs_le; lra)) as Ex. change (0 - 25)%Z with (-25)%Z in Ex.
  rewrite <- Vc in Ex, R2. set (x := to32 z) in *.
  pose proof (fast_exp3_val x Fc R2) as Ef.
  assert (Dx : Rabs (B2R x - - (2 / n)) <= bpow radix2 (-24)).
  { replace (B2R x - - (2 / n)) with ((B2R x - B2R z) + ((B2R z - -2 / B2R q) + (-2 / B2R q - - (2 / n)))) by ring.
    eapply Rle_trans; [apply Rabs_triang|]. eapply Rle_trans; [apply Rplus_le_compat_l, Rabs_triang|].
    assert (bpow radix2 (-54) <= bpow radix2 (-53)) by (apply bpow_le; lia).
    assert (bpow radix2 (-53) <= / 1000000000) by (change (bpow radix2 (-53)) with (/ 9007199254740992); lra).
    change (bpow radix2 (-24)) with (/ 16777216). change (bpow radix2 (-25)) with (/ 33554432) in Ex. lra. }
  set (t := - (2 / n)) in *.
  assert (Ht : -1 <= t <= 0).
  { assert (I0 : 0 < / n) by (apply Rinv_0_lt_compat; lra). assert (I1 : n * / n = 1) by (apply Rinv_r; lra). unfold t, Rdiv. nra. }
  replace (B2R (fast_exp3 x) - exp3_poly t) with ((B2R (fast_exp3 x) - exp3_poly (B2R x)) + (exp3_poly (B2R x) - exp3_poly t)) by ring.
  eapply Rle_trans; [apply Rabs_triang|]. apply Rplus_le_compat; [exact Ef|].
  set (X := B2R x) in *. clearbody X t.
  replace (exp3_poly X - exp3_poly t) with ((X - t) * (1 + (X + t) / 2 + (X * X + X * t + t * t) / 6)) by (unfold exp3_poly; field).
  rewrite Rabs_mult. pose proof (Rabs_pos (X - t)).
  assert (Rabs (1 + (X + t) / 2 + (X * X + X * t + t * t) / 6) <= 1); [apply Rabs_le; nra|nra].
Qed.
(** 1 - coefficient is about 2/n *)
Lemma env_coeff_bounds (sps : Z) (d : f64) : (0 < sps < 2 ^ 32)%Z -> is_finite d = true -> B2R d <= bpow radix2 900 -> 2 <= IZR sps * B2R d ->
  let n := IZR sps * B2R d in
  2 / n - 2 / (n * n) - bpow radix2 (-20) <= 1 - B2R (env_coeff sps d) <= 2 / n + bpow radix2 (-20).
Proof.
  intros Hs Fd Ud L n. pose proof (env_coeff_val sps d Hs Fd Ud L) as E. fold n in E, L.
  change (bpow radix2 (-21) + bpow radix2 (-24)) with (/ 2097152 + / 16777216) in E. change (bpow radix2 (-20)) with (/ 1048576).
  unfold exp3_poly in E. replace (2 / (n * n)) with ((2 / n) * (2 / n) / 2) by (field; lra).
  assert (Ht : 0 <= 2 / n <= 1).
  { assert (I0 : 0 < / n) by (apply Rinv_0_lt_compat; lra). assert (I1 : n * / n = 1) by (apply Rinv_r; lra). unfold Rdiv. nra. }
  set (t := 2 / n) in *. clearbody t. apply Rabs_le_inv in E.
  assert (0 <= t * t * t <= t * t) by nra. nra.
Qed.
