From Coq Require Import Reals Lra Psatz.
From Flocq Require Import Core.Core IEEE754.BinarySingleNaN Relative.
From Verif Require Import Common Float FloatFacts Shape_Model.
Local Open Scope R_scope.

Definition nonneg (x : f32) : Prop := fin x /\ 0 <= B2R x.

Lemma fneg_R (x : f32) : B2R (fneg x) = - B2R x. Proof. apply B2R_Bopp. Qed.
Lemma fneg_fin (x : f32) : fin x -> fin (fneg x). Proof. unfold fin, fneg. rewrite is_finite_Bopp. auto. Qed.

(** clip on finite arguments *)
Lemma clip_fin (mx s : f32) : nonneg mx -> fin s ->
  fin (clip mx s) /\ B2R (clip mx s) = Rmax (- B2R mx) (Rmin (B2R mx) (B2R s)).
Proof.
  intros [Fm Hm] Fs. unfold clip. change (fgt s mx) with (flt mx s). pose proof (fneg_fin mx Fm) as Fn. pose proof (fneg_R mx) as En.
  destruct (flt mx s) eqn:E1.
  - apply flt_true in E1; auto. split; [exact Fm|].
    rewrite Rmin_left by lra. rewrite Rmax_right by lra. reflexivity.
  - apply flt_false in E1; auto. destruct (flt s (fneg mx)) eqn:E2.
    + apply flt_true in E2; auto. split; [exact Fn|]. rewrite En in E2 |- *.
      rewrite Rmin_right by lra. rewrite Rmax_left by lra. reflexivity.
    + apply flt_false in E2; auto. rewrite En in E2. split; [exact Fs|].
      rewrite Rmin_right by lra. rewrite Rmax_right by lra. reflexivity.
Qed.
Lemma clip_inf mx b : nonneg mx -> clip mx (B754_infinity b) = if b then fneg mx else mx.
Proof.
  intros [Fm Hm]. unfold clip, fgt, flt, Bltb, SpecFloat.SFltb, B2SF, fneg, Bopp, fin in *.
  destruct mx as [s|s| |s m e H]; try discriminate Fm; destruct b; cbn in *; try reflexivity; destruct s; try reflexivity.
Qed.
Lemma clip_nan mx : clip mx B754_nan = B754_nan.
Proof. unfold clip, fgt, flt, Bltb, SpecFloat.SFltb, B2SF. destruct mx as [s|s| |s m e H]; destruct (fneg _); reflexivity. Qed.

(** constants *)
Lemma c15 : B2R (mk64 3 (-1)) = 1.5 /\ fin (mk64 3 (-1)).
Proof. destruct (mk64_small 3 (-1)) as [E F]; [lia|lia|]. split; [|exact F]. rewrite E. change (bpow radix2 (-1)) with (/ 2). lra. Qed.
Lemma c05 : B2R (mk64 1 (-1)) = 0.5 /\ fin (mk64 1 (-1)).
Proof. destruct (mk64_small 1 (-1)) as [E F]; [lia|lia|]. split; [|exact F]. rewrite E. change (bpow radix2 (-1)) with (/ 2). lra. Qed.
Lemma c1 : B2R (mk32 1 0) = 1 /\ fin (mk32 1 0).
Proof. destruct (mk32_small 1 0) as [E F]; [lia|lia|]. split; [|exact F]. rewrite E. change (bpow radix2 0) with 1. lra. Qed.

Notation r64 := (rnd 53 1024).
Notation r32 := (rnd 24 128).
(** soft clip on reals with the code's roundings *)
Definition cube (s : R) : R := r64 (0.5 * s * s * s).
Definition sc (s : R) : R := r32 (r64 (1.5 * s - cube s)).

Lemma f32_form (x : f32) : exists m e, B2R x = IZR m * bpow radix2 e /\ (Z.abs m < 2 ^ 24)%Z /\ (-149 <= e)%Z.
Proof.
  pose proof (FLT_format_B2R 24 128 _ x) as H. destruct H as [[m e] E H1 H2].
  exists m, e. split; [exact E|]. split; [exact H1|]. exact H2.
Qed.

Lemma fmt64_1 : fmt 53 1024 1.
Proof. apply (fmt_bpow (prec:=53) (emax:=1024) 0). unfold SpecFloat.emin; lia. Qed.
Lemma fmt64_2 : fmt 53 1024 2.
Proof. apply (fmt_bpow (prec:=53) (emax:=1024) 1). unfold SpecFloat.emin; lia. Qed.
Lemma fmt32_1 : fmt 24 128 1.
Proof. apply (fmt_bpow (prec:=24) (emax:=128) 0). unfold SpecFloat.emin; lia. Qed.

Lemma lt64 r : r <= 2 -> r < bpow radix2 1024.
Proof. intros H. apply Rle_lt_trans with (1 := H). apply (bpow_lt radix2 1 1024). lia. Qed.

(** the products 1.5*s, 0.5*s, 0.5*s*s are exact *)
Lemma fmt64_prod (x : f32) (c k : Z) : (Z.abs c < 4)%Z -> (-1 <= k)%Z -> fmt 53 1024 (IZR c * bpow radix2 k * B2R x).
Proof.
  intros Hc Hk. destruct (f32_form x) as (m & e & E & Hm & He). rewrite E.
  replace (IZR c * bpow radix2 k * (IZR m * bpow radix2 e)) with (IZR (c * m) * bpow radix2 (k + e))
    by (rewrite mult_IZR, bpow_plus; ring).
  apply fmt_F2R; [|unfold SpecFloat.emin; lia]. rewrite Z.abs_mul. nia.
Qed.
Lemma fmt64_sq (x : f32) : fmt 53 1024 (0.5 * B2R x * B2R x).
Proof.
  destruct (f32_form x) as (m & e & E & Hm & He). rewrite E.
  replace (0.5 * (IZR m * bpow radix2 e) * (IZR m * bpow radix2 e)) with (IZR (m * m) * bpow radix2 (-1 + e + e)).
  2:{ rewrite mult_IZR, !bpow_plus. change (bpow radix2 (-1)) with (/ 2). lra. }
  apply fmt_F2R; [|unfold SpecFloat.emin; lia]. rewrite Z.abs_mul. nia.
Qed.

Lemma soft_clip_poly (s : f32) : fin s -> Rabs (B2R s) <= 1 ->
  let p := fsub (fmul (mk64 3 (-1)) (to64 s)) (fmul (fmul (fmul (mk64 1 (-1)) (to64 s)) (to64 s)) (to64 s)) in
  fin (to32 p) /\ B2R (to32 p) = sc (B2R s).
Proof.
  intros F B p. destruct (to64_R s F) as [E6 F6]. destruct c15 as [Ea Fa]. destruct c05 as [Eb Fb].
  set (x := B2R s) in *.
  assert (Bx : -1 <= x <= 1) by (apply Rabs_le_inv; exact B).
  destruct (fmul_exact (mk64 3 (-1)) (to64 s) Fa F6) as [E1 F1].
  { rewrite Ea, E6. replace 1.5 with (IZR 3 * bpow radix2 (-1)) by (change (bpow radix2 (-1)) with (/ 2); lra). apply fmt64_prod; lia. }
  { rewrite Ea, E6. apply lt64. fold x. apply Rabs_le. lra. }
  destruct (fmul_exact (mk64 1 (-1)) (to64 s) Fb F6) as [E2 F2].
  { rewrite Eb, E6. replace 0.5 with (IZR 1 * bpow radix2 (-1)) by (change (bpow radix2 (-1)) with (/ 2); lra). apply fmt64_prod; lia. }
  { rewrite Eb, E6. apply lt64. fold x. apply Rabs_le. lra. }
  destruct (fmul_exact (fmul (mk64 1 (-1)) (to64 s)) (to64 s) F2 F6) as [E3 F3].
  { rewrite E2, Eb, E6. apply fmt64_sq. }
  { rewrite E2, Eb, E6. apply lt64. fold x. apply Rabs_le. nra. }
  rewrite E2, Eb, E6 in E3. fold x in E3.
  assert (B3 : Rabs (0.5 * x * x * x) <= 1).
  { assert (0 <= x * x <= 1) by nra. apply Rabs_le. nra. }
  destruct (fmul_bnd (fmul (fmul (mk64 1 (-1)) (to64 s)) (to64 s)) (to64 s) 1 F3 F6 fmt64_1) as (E4 & F4 & B4).
  { apply lt64; lra. }
  { rewrite E3, E6. exact B3. }
  rewrite E3, E6 in E4. fold x in E4.
  rewrite Ea, E6 in E1. fold x in E1.
  assert (FB5 : fmt 53 1024 4). { apply (fmt_bpow (prec:=53) (emax:=1024) 2). unfold SpecFloat.emin; lia. }
  assert (L4 : 4 < bpow radix2 1024). { apply (bpow_lt radix2 2 1024). lia. }
  destruct (fsub_bnd (fmul (mk64 3 (-1)) (to64 s)) (fmul (fmul (fmul (mk64 1 (-1)) (to64 s)) (to64 s)) (to64 s)) 4 F1 F4 FB5 L4) as (E5 & F5 & B5).
  { apply Rabs_le. apply Rabs_le_inv in B4. rewrite E1. lra. }
  fold p in E5, F5, B5. rewrite E1, E4 in E5.
  destruct (fconv_R (p':=24) (e':=128) p F5) as [E7 F7].
  { apply Rle_lt_trans with 4; [|apply (bpow_lt radix2 2 128); lia].
    apply rnd_abs_le; [apply (fmt_bpow (prec:=24) (emax:=128) 2); unfold SpecFloat.emin; lia|exact B5]. }
  split; [exact F7|]. unfold to32. rewrite E7, E5. reflexivity.
Qed.

Lemma cube_opp s : cube (- s) = - cube s.
Proof. unfold cube. replace (0.5 * - s * - s * - s) with (- (0.5 * s * s * s)) by ring. apply rnd_opp. Qed.
Lemma sc_opp s : sc (- s) = - sc s.
Proof.
  unfold sc. rewrite cube_opp. replace (1.5 * - s - - cube s) with (- (1.5 * s - cube s)) by ring.
  rewrite !rnd_opp. reflexivity.
Qed.

(** rounding error of the cube *)
Lemma cube_err (x : f32) : 0 <= B2R x <= 1 ->
  Rabs (cube (B2R x) - 0.5 * B2R x * B2R x * B2R x) <= bpow radix2 (-53) * (0.5 * B2R x * B2R x * B2R x).
Proof.
  intros H. set (y := 0.5 * B2R x * B2R x * B2R x).
  assert (Hy : 0 <= y). { unfold y. assert (0 <= B2R x * B2R x) by nra. nra. }
  destruct (Rle_lt_or_eq_dec 0 (B2R x) (proj1 H)) as [Hp|Hz].
  2:{ assert (Z0 : y = 0) by (unfold y; rewrite <- Hz; ring). unfold cube. fold y. rewrite Z0, rnd_0.
      unfold Rminus. rewrite Ropp_0, Rplus_0_r, Rabs_R0. lra. }
  rewrite <- (Rabs_pos_eq y) at 2 by exact Hy.
  replace (bpow radix2 (-53)) with (/ 2 * bpow radix2 (- (53) + 1)) by (change (bpow radix2 (-53)) with (/ 9007199254740992); change (bpow radix2 (- (53) + 1)) with (/ 4503599627370496); lra).
  unfold cube. fold y.
  apply (relative_error_N_FLT radix2 (-1074) 53 eq_refl (fun t => negb (Z.even t)) y).
  rewrite Rabs_pos_eq by exact Hy.
  destruct (f32_form x) as (m & e & E & Hm & He).
  assert (P : bpow radix2 (-149) <= B2R x).
  { rewrite E in Hp |- *. assert (0 < IZR m).
    { apply Rmult_lt_reg_r with (bpow radix2 e); [apply bpow_gt_0|]. rewrite Rmult_0_l. exact Hp. }
    apply lt_IZR in H0. assert (1 <= IZR m) by (apply IZR_le; lia).
    apply Rle_trans with (1 * bpow radix2 e); [rewrite Rmult_1_l; apply bpow_le; exact He|].
    apply Rmult_le_compat_r; [apply bpow_ge_0|exact H1]. }
  apply Rle_trans with (bpow radix2 (-1 + -149 + -149 + -149)); [apply bpow_le; lia|].
  rewrite !bpow_plus. change (bpow radix2 (-1)) with (/ 2). pose proof (bpow_gt_0 radix2 (-149)) as G.
  generalize dependent (bpow radix2 (-149)). intros b P G.
  assert (b * b <= B2R x * B2R x) by (apply Rmult_le_compat; lra).
  assert (b * b * b <= B2R x * B2R x * B2R x) by (apply Rmult_le_compat; try lra; nra).
  unfold y. lra.
Qed.

(** distinct floats in [0, t] are at least 2^-24 t apart *)
Lemma float_gap (s t : f32) : 0 <= B2R s -> B2R s < B2R t -> B2R t * bpow radix2 (-24) <= B2R t - B2R s.
Proof.
  intros H0 H. assert (Ht : 0 < B2R t) by lra.
  (* s <= pred t, and t - pred t >= 2^-24 t *)
  pose proof (fmt_v s) as Fs. pose proof (fmt_v t) as Ft.
  pose proof (pred_ge_gt radix2 (fx (prec:=24) (emax:=128)) (B2R s) (B2R t) Fs Ft H) as P.
  assert (G : B2R t * bpow radix2 (-24) <= B2R t - pred radix2 (fx (prec:=24) (emax:=128)) (B2R t)); [|lra].
  rewrite pred_eq_pos by lra. unfold pred_pos.
  assert (U : bpow radix2 (mag radix2 (B2R t)) * bpow radix2 (-24) <= ulp radix2 (fx (prec:=24) (emax:=128)) (B2R t)).
  { rewrite ulp_neq_0 by lra. unfold cexp. rewrite <- bpow_plus. apply bpow_le. unfold fx, SpecFloat.fexp. lia. }
  assert (M : B2R t <= bpow radix2 (mag radix2 (B2R t))).
  { rewrite <- (Rabs_pos_eq (B2R t)) at 1 by lra. apply Rlt_le. apply bpow_mag_gt. }
  pose proof (bpow_gt_0 radix2 (-24)) as B24.
  destruct (Req_bool_spec (B2R t) (bpow radix2 (mag radix2 (B2R t) - 1))) as [Q|Q].
  - set (eb := (mag radix2 (B2R t) - 1)%Z) in *.
    assert (bpow radix2 eb * bpow radix2 (-24) <= bpow radix2 (fx (prec:=24) (emax:=128) eb)).
    { rewrite <- bpow_plus. apply bpow_le. unfold fx, SpecFloat.fexp. lia. }
    rewrite <- Q in H1. lra.
  - nra.
Qed.

Lemma sc_le_1 (s : f32) : 0 <= B2R s <= 1 -> sc (B2R s) <= 1.
Proof.
  intros H. unfold sc. apply rnd_le_fmt; [exact fmt32_1|]. apply rnd_le_fmt; [exact fmt64_1|].
  set (x := B2R s) in *. destruct (Req_dec x 1) as [->|N].
  - unfold cube. replace (0.5 * 1 * 1 * 1) with (bpow radix2 (-1)) by (change (bpow radix2 (-1)) with (/ 2); lra).
    rewrite rnd_fmt by (apply fmt_bpow; unfold SpecFloat.emin; lia). change (bpow radix2 (-1)) with (/ 2). lra.
  - pose proof (cube_err s H) as Er. apply Rabs_le_inv in Er. fold x in Er.
    pose proof (float_gap s (mk32 1 0)) as G. destruct c1 as [E1 _]. rewrite E1 in G.
    assert (G' : 1 * bpow radix2 (-24) <= 1 - x) by (apply G; fold x; lra).
    change (bpow radix2 (-24)) with (/ 16777216) in G'.
    change (bpow radix2 (-53)) with (/ 9007199254740992) in Er.
    assert (0 <= x * x <= 1) by nra. assert (0 <= x * x * x <= 1) by nra.
    assert (Q : 1.5 * x - 0.5 * x * x * x = 1 - (1 - x) * (1 - x) * (2 + x) * 0.5) by (replace 1.5 with (3 / 2) by lra; replace 0.5 with (1 / 2) by lra; field).
    assert (Q2 : / 16777216 * / 16777216 <= (1 - x) * (1 - x)) by (apply Rmult_le_compat; lra).
    assert (Q3 : / 16777216 * / 16777216 <= (1 - x) * (1 - x) * (2 + x) * 0.5) by nra.
    lra.
Qed.

Lemma sc_mono_nonneg (s t : f32) : 0 <= B2R s -> B2R s <= B2R t -> B2R t <= 1 -> sc (B2R s) <= sc (B2R t).
Proof.
  intros H0 H H1. destruct (Req_dec (B2R s) (B2R t)) as [->|N]; [apply Rle_refl|].
  unfold sc. apply rnd_le. apply rnd_le.
  pose proof (cube_err s) as Es. pose proof (cube_err t) as Et. pose proof (float_gap s t H0) as G.
  set (x := B2R s) in *. set (y := B2R t) in *.
  specialize (Es ltac:(lra)). specialize (Et ltac:(lra)). specialize (G ltac:(lra)).
  apply Rabs_le_inv in Es. apply Rabs_le_inv in Et.
  change (bpow radix2 (-24)) with (/ 16777216) in G.
  change (bpow radix2 (-53)) with (/ 9007199254740992) in Es, Et.
  set (d := y - x) in *. assert (Hx : x = y - d) by (unfold d; ring).
  assert (D0 : 0 < d) by lra. assert (Dy : d <= y) by lra.
  assert (Y : 0 < y) by lra.
  assert (X3 : 0.5 * x * x * x <= 0.5 * y * y * y).
  { assert (0 <= x * x <= y * y) by nra. assert (x * x * x <= y * y * y) by nra. lra. }
  assert (K : 1.5 * y - 0.5 * y * y * y - (1.5 * x - 0.5 * x * x * x) >= y * (d * d)).
  { rewrite Hx.
    replace (1.5 * y - 0.5 * y * y * y - (1.5 * (y - d) - 0.5 * (y - d) * (y - d) * (y - d)))
      with (d * (1.5 * (1 - y * y) + 1.5 * y * d - 0.5 * d * d)) by (replace 1.5 with (3 / 2) by lra; replace 0.5 with (1 / 2) by lra; field).
    assert (0 <= 1 - y * y) by nra. assert (y * d <= 1.5 * y * d - 0.5 * d * d) by nra. nra. }
  assert (DD : (y * / 16777216) * (y * / 16777216) <= d * d) by (apply Rmult_le_compat; lra).
  assert (K2 : y * ((y * / 16777216) * (y * / 16777216)) <= y * (d * d)) by (apply Rmult_le_compat_l; lra).
  replace (y * (y * / 16777216 * (y * / 16777216))) with (/ 281474976710656 * (y * y * y)) in K2 by (field).
  assert (0 <= y * y * y) by (assert (0 <= y * y) by nra; nra).
  lra.
Qed.

Lemma sc_nonneg (s : f32) : 0 <= B2R s <= 1 -> 0 <= sc (B2R s).
Proof.
  intros H. assert (Z0 : sc 0 = 0).
  { unfold sc, cube. replace (0.5 * 0 * 0 * 0) with 0 by ring. rewrite rnd_0.
    replace (1.5 * 0 - 0) with 0 by ring. rewrite rnd_0. apply rnd_0. }
  rewrite <- Z0. apply (sc_mono_nonneg (B754_zero false) s); cbn [B2R]; lra.
Qed.

Lemma sc_mono (s t : f32) : -1 <= B2R s -> B2R s <= B2R t -> B2R t <= 1 -> sc (B2R s) <= sc (B2R t).
Proof.
  intros H0 H H1. destruct (Rle_lt_dec 0 (B2R s)) as [P|P].
  - apply sc_mono_nonneg; auto.
  - assert (A : sc (B2R s) <= 0).
    { pose proof (sc_nonneg (fneg s)) as Q. rewrite fneg_R, sc_opp in Q. specialize (Q ltac:(lra)). lra. }
    destruct (Rle_lt_dec 0 (B2R t)) as [P2|P2].
    + pose proof (sc_nonneg t ltac:(lra)). lra.
    + pose proof (sc_mono_nonneg (fneg t) (fneg s)) as Q. rewrite !fneg_R, !sc_opp in Q.
      specialize (Q ltac:(lra) ltac:(lra) ltac:(lra)). lra.
Qed.

(** whole soft clip: on finite inputs it is [sc] of the clamped value *)
Lemma soft_clip_fin (s : f32) : fin s ->
  exists u : f32, fin u /\ B2R u = Rmax (-1) (Rmin 1 (B2R s)) /\ fin (soft_clip s) /\ B2R (soft_clip s) = sc (B2R u).
Proof.
  intros F. destruct c1 as [E1 F1].
  destruct (clip_fin (mk32 1 0) s) as [Fc Ec]; [split; [exact F1|rewrite E1; lra]|exact F|].
  rewrite E1 in Ec. exists (clip (mk32 1 0) s). split; [exact Fc|]. split; [exact Ec|].
  apply soft_clip_poly; [exact Fc|]. rewrite Ec.
  apply Rabs_le. split; [apply Rmax_l|]. apply Rmax_lub; [lra|apply Rmin_l].
Qed.
Lemma soft_clip_nan : soft_clip B754_nan = B754_nan.
Proof. vm_compute. reflexivity. Qed.
Lemma one_nonneg : nonneg (mk32 1 0).
Proof. destruct c1 as [E F]. split; [exact F|rewrite E; lra]. Qed.
Lemma feq_same_R (x y : f32) : is_finite x = true -> is_finite y = true -> feq x y = true -> B2R x = B2R y.
Proof.
  intros Fx Fy K. unfold feq in K. rewrite Beqb_correct in K by assumption.
  destruct (Req_bool_spec (B2R x) (B2R y)) as [Q|Q]; [exact Q|discriminate].
Qed.
Lemma soft_clip_inf b : fin (soft_clip (B754_infinity b)) /\ B2R (soft_clip (B754_infinity b)) = if b then -1 else 1.
Proof.
  assert (K : feq (soft_clip (B754_infinity false)) (mk32 1 0) && feq (soft_clip (B754_infinity true)) (mk32 (-1) 0) &&
              is_finite (soft_clip (B754_infinity false)) && is_finite (soft_clip (B754_infinity true)) = true)
    by (vm_compute; reflexivity).
  apply andb_prop in K. destruct K as [K F2]. apply andb_prop in K. destruct K as [K F1]. apply andb_prop in K. destruct K as [K1 K2].
  destruct c1 as [E1 G1]. destruct (mk32_small (-1) 0) as [E2 G2]; [lia|lia|].
  destruct b.
  - split; [exact F2|]. rewrite (feq_same_R _ _ F2 G2 K2), E2. cbn [bpow]. lra.
  - split; [exact F1|]. rewrite (feq_same_R _ _ F1 G1 K1), E1. reflexivity.
Qed.
Lemma sc_abs (u : f32) : -1 <= B2R u <= 1 -> -1 <= sc (B2R u) <= 1.
Proof.
  intros H. destruct (Rle_lt_dec 0 (B2R u)) as [P|P].
  - pose proof (sc_nonneg u ltac:(lra)). pose proof (sc_le_1 u ltac:(lra)). lra.
  - pose proof (sc_nonneg (fneg u)) as A. pose proof (sc_le_1 (fneg u)) as B.
    rewrite fneg_R, sc_opp in A, B. specialize (A ltac:(lra)). specialize (B ltac:(lra)). lra.
Qed.
Lemma sc_1 : sc 1 = 1.
Proof.
  unfold sc, cube. replace (0.5 * 1 * 1 * 1) with (bpow radix2 (-1)) by (change (bpow radix2 (-1)) with (/ 2); lra).
  rewrite (rnd_fmt (prec:=53) (emax:=1024) (bpow radix2 (-1))) by (apply fmt_bpow; unfold SpecFloat.emin; lia).
  replace (1.5 * 1 - bpow radix2 (-1)) with 1 by (change (bpow radix2 (-1)) with (/ 2); lra).
  rewrite (rnd_fmt (prec:=53) (emax:=1024) 1 fmt64_1). apply rnd_fmt. exact fmt32_1.
Qed.
