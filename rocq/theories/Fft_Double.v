(** Rounding errors of the transform in double. *)
From Coq Require Import ZArith List Arith Lia Reals Lra Psatz.
From Flocq Require Import Core.Core IEEE754.BinarySingleNaN.
From Verif Require Import Common Float FloatFacts Coeff_Proof Fft_Model Fft_Spec Fft_Proof Fft_Real Fft_Series.
Import ListNotations.
Local Open Scope R_scope.

Definition U : R := bpow radix2 (-53).
Definition h : R := bpow radix2 (-1000).
Definition TOP : R := bpow radix2 1000.
Lemma U_val : U = / 9007199254740992. Proof. reflexivity. Qed.
Lemma h_pos : 0 < h. Proof. apply bpow_gt_0. Qed.
Lemma h_small : h <= / 1152921504606846976.
Proof. change (/ 1152921504606846976) with (bpow radix2 (-60)). apply bpow_le. lia. Qed.
Lemma top_big : 1152921504606846976 <= TOP.
Proof. change 1152921504606846976 with (bpow radix2 60). apply bpow_le. lia. Qed.

Lemma rnd64_err r B : Rabs r <= B -> Rabs (rnd 53 1024 r - r) <= U * (B + h).
Proof.
  intros HB. pose proof h_pos as P. assert (UP : 0 < U) by (rewrite U_val; lra). pose proof (Rabs_pos r) as A.
  apply Rle_trans with (U * (Rabs r + h)); [|apply Rmult_le_compat_l; lra].
  destruct (Rle_lt_dec (bpow radix2 (-1000)) (Rabs r)) as [L|L].
  - eapply Rle_trans; [apply rel64; exact L|]. fold U. apply Rmult_le_compat_l; lra.
  - pose proof (rnd_err (prec:=53) (emax:=1024) r (-1000) ltac:(unfold SpecFloat.emin; lia) ltac:(lra)) as E.
    eapply Rle_trans; [exact E|]. apply Rle_trans with (U * h); [|apply Rmult_le_compat_l; lra].
    unfold U, h. rewrite <- bpow_plus. apply bpow_le. lia.
Qed.
Lemma top_fmt : fmt 53 1024 TOP. Proof. apply fmt_bpow. unfold SpecFloat.emin. lia. Qed.
Lemma top_lt : TOP < bpow radix2 1024. Proof. apply bpow_lt. lia. Qed.
Lemma op_add (x y : f64) B : is_finite x = true -> is_finite y = true -> Rabs (B2R x + B2R y) <= B -> B <= TOP ->
  is_finite (fadd x y) = true /\ Rabs (B2R (fadd x y) - (B2R x + B2R y)) <= U * (B + h).
Proof. intros Fx Fy H T. destruct (fadd_bnd x y TOP Fx Fy top_fmt top_lt ltac:(lra)) as (E & F & _). split; [exact F|]. rewrite E. apply rnd64_err. exact H. Qed.
Lemma op_sub (x y : f64) B : is_finite x = true -> is_finite y = true -> Rabs (B2R x - B2R y) <= B -> B <= TOP ->
  is_finite (fsub x y) = true /\ Rabs (B2R (fsub x y) - (B2R x - B2R y)) <= U * (B + h).
Proof. intros Fx Fy H T. destruct (fsub_bnd x y TOP Fx Fy top_fmt top_lt ltac:(lra)) as (E & F & _). split; [exact F|]. rewrite E. apply rnd64_err. exact H. Qed.
Lemma op_mul (x y : f64) B : is_finite x = true -> is_finite y = true -> Rabs (B2R x * B2R y) <= B -> B <= TOP ->
  is_finite (fmul x y) = true /\ Rabs (B2R (fmul x y) - (B2R x * B2R y)) <= U * (B + h).
Proof. intros Fx Fy H T. destruct (fmul_bnd x y TOP Fx Fy top_fmt top_lt ltac:(lra)) as (E & F & _). split; [exact F|]. rewrite E. apply rnd64_err. exact H. Qed.
Lemma op_div (x y : f64) B : is_finite x = true -> B2R y <> 0 -> Rabs (B2R x / B2R y) <= B -> B <= TOP ->
  is_finite (fdiv x y) = true /\ Rabs (B2R (fdiv x y) - (B2R x / B2R y)) <= U * (B + h).
Proof. intros Fx Fy H T. destruct (fdiv_bnd x y TOP Fx Fy top_fmt top_lt ltac:(lra)) as (E & F & _). split; [exact F|]. rewrite E. apply rnd64_err. exact H. Qed.

(** ** the series *)
Lemma int64 m : (Z.abs m < 2 ^ 53)%Z -> B2R (mk64 m 0) = IZR m /\ is_finite (mk64 m 0) = true.
Proof. intros H. destruct (mk64_small m 0 H ltac:(lia)) as [E F]. change (bpow radix2 0) with 1 in E. rewrite Rmult_1_r in E. auto. Qed.

Lemma serR_range n : forall M x, 1 <= M -> 0 <= x <= 0.8 -> 0.6 <= serR n M x <= 1.
Proof.
  induction n as [|n IH]; intros M x HM Hx; cbn [serR]; [lra|].
  specialize (IH (M + 2) x ltac:(lra) Hx). assert (C : 0 <= x * x / M / (M + 1) <= 0.32).
  { assert (X : 0 <= x * x <= 0.64) by nra. assert (I : 0 < / M <= 1) by (split; [apply Rinv_0_lt_compat; lra|rewrite <- Rinv_1; apply Rinv_le_contravar; lra]).
    assert (J : 0 < / (M + 1) <= / 2) by (split; [apply Rinv_0_lt_compat; lra|apply Rinv_le_contravar; lra]).
    unfold Rdiv. assert (0 <= x * x * / M <= 0.64 * 1) by (split; [apply Rmult_le_pos; lra|apply Rmult_le_compat; lra]).
    assert (0 <= x * x * / M * / (M + 1) <= (0.64 * 1) * / 2) by (split; [apply Rmult_le_pos; lra|apply Rmult_le_compat; lra]). lra. }
  set (c := x * x / M / (M + 1)) in *. set (s := serR n (M + 2) x) in *. clearbody c s.
  assert (0 <= c * s <= 0.32 * 1) by (split; [apply Rmult_le_pos; lra|apply Rmult_le_compat; lra]). lra.
Qed.
Lemma series_err n : forall M x, (1 <= M)%Z -> (M + 2 * Z.of_nat n < 1000)%Z -> is_finite x = true -> 0 <= B2R x <= 0.8 ->
  is_finite (sin_cos_series n M x) = true /\ Rabs (B2R (sin_cos_series n M x) - serR n (IZR M) (B2R x)) <= 4 * U.
Proof.
  pose proof h_pos as hp. pose proof h_small as hs. pose proof top_big as tb.
  assert (UP : 0 < U <= / 9007199254740992) by (rewrite U_val; lra).
  induction n as [|n IH]; intros M x HM HN Fx Hx.
  { cbn [sin_cos_series serR]. destruct (int64 1 ltac:(reflexivity)) as [E F]. split; [exact F|]. rewrite E, Rminus_diag_eq, Rabs_R0 by reflexivity. lra. }
  cbn [sin_cos_series serR]. destruct (IH (M + 2)%Z x ltac:(lia) ltac:(lia) Fx Hx) as [Fs Es]. rewrite plus_IZR in Es.
  destruct (int64 1 ltac:(reflexivity)) as [E1 F1].
  destruct (int64 M) as [EM FM]; [change (2 ^ 53)%Z with 9007199254740992%Z; lia|].
  destruct (int64 (M + 1)) as [EN FN]; [change (2 ^ 53)%Z with 9007199254740992%Z; lia|]. rewrite plus_IZR in EN.
  assert (M1 : 1 <= IZR M) by (apply IZR_le; exact HM).
  assert (RS := serR_range n (IZR M + 2) (B2R x) ltac:(lra) Hx).
  set (X := B2R x) in *. set (S := serR n (IZR M + 2) X) in *. set (sh := sin_cos_series n (M + 2) x) in *. clearbody sh S.
  assert (I : 0 < / IZR M <= 1) by (split; [apply Rinv_0_lt_compat; lra|rewrite <- Rinv_1; apply Rinv_le_contravar; lra]).
  assert (J : 0 < / (IZR M + 1) <= / 2) by (split; [apply Rinv_0_lt_compat; lra|apply Rinv_le_contravar; lra]).
  assert (X2 : 0 <= X * X <= 0.64) by nra.
  destruct (op_mul x x 0.64 Fx Fx) as [Fa Ea]; [fold X; apply Rabs_le; lra|lra|]. fold X in Ea. set (a := fmul x x) in *.
  apply Rabs_le_inv in Ea. assert (Ba : -0.001 <= B2R a <= 0.641) by nra.
  destruct (op_div a (mk64 M 0) 0.641 Fa) as [Fb Eb]; [rewrite EM; lra| |lra|].
  { rewrite EM. unfold Rdiv. rewrite Rabs_mult, (Rabs_pos_eq (/ IZR M)) by lra. rewrite <- (Rmult_1_r 0.641). apply Rmult_le_compat; try lra; [apply Rabs_pos|apply Rabs_le; lra]. }
  rewrite EM in Eb. set (b := fdiv a (mk64 M 0)) in *. unfold Rdiv in Eb. set (iM := / IZR M) in *. set (iN := / (IZR M + 1)) in *.
  assert (Bb : Rabs (B2R b - X * X * iM) <= 1.282 * U).
  { apply Rabs_le_inv in Eb. assert (Rabs ((B2R a - X * X) * iM) <= U * (0.64 + h) * 1) by (rewrite Rabs_mult, (Rabs_pos_eq iM) by lra; apply Rmult_le_compat; try lra; [apply Rabs_pos|apply Rabs_le; lra]).
    apply Rabs_le_inv in H. assert (U * h <= U * 0.0001) by (apply Rmult_le_compat_l; lra). apply Rabs_le. lra. }
  assert (Xi : 0 <= X * X * iM <= 0.64 * 1) by (split; [apply Rmult_le_pos; lra|apply Rmult_le_compat; lra]).
  apply Rabs_le_inv in Bb.
  destruct (op_div b (mk64 (M + 1) 0) 0.3205 Fb) as [Fc Ec]; [rewrite EN; lra| |lra|].
  { rewrite EN. unfold Rdiv. fold iN. rewrite Rabs_mult, (Rabs_pos_eq iN) by lra. replace 0.3205 with (0.641 * / 2) by lra. apply Rmult_le_compat; try lra; [apply Rabs_pos|apply Rabs_le; lra]. }
  rewrite EN in Ec. set (c := fdiv b (mk64 (M + 1) 0)) in *. unfold Rdiv in Ec. fold iN in Ec.
  assert (Bc : Rabs (B2R c - X * X * iM * iN) <= U).
  { apply Rabs_le_inv in Ec. assert (Rabs ((B2R b - X * X * iM) * iN) <= 1.282 * U * / 2) by (rewrite Rabs_mult, (Rabs_pos_eq iN) by lra; apply Rmult_le_compat; try lra; [apply Rabs_pos|apply Rabs_le; lra]).
    apply Rabs_le_inv in H. assert (U * h <= U * 0.0001) by (apply Rmult_le_compat_l; lra). apply Rabs_le. lra. }
  assert (Ci : 0 <= X * X * iM * iN <= 0.64 * 1 * / 2) by (split; [apply Rmult_le_pos; lra|apply Rmult_le_compat; lra]).
  unfold Rdiv. fold iM iN. set (C := X * X * iM * iN) in *. clearbody C c. clear Ec Bb Eb Ea Ba b a Fa Fb.
  apply Rabs_le_inv in Bc. apply Rabs_le_inv in Es.
  assert (K : Rabs (B2R c * B2R sh - C * S) <= 2.3 * U).
  { replace (B2R c * B2R sh - C * S) with ((B2R c - C) * B2R sh + C * (B2R sh - S)) by ring.
    eapply Rle_trans; [apply Rabs_triang|]. rewrite !Rabs_mult, (Rabs_pos_eq C) by lra.
    assert (Rabs (B2R c - C) * Rabs (B2R sh) <= U * 1.001) by (apply Rmult_le_compat; try apply Rabs_pos; apply Rabs_le; lra).
    assert (C * Rabs (B2R sh - S) <= 0.32 * (4 * U)) by (apply Rmult_le_compat; try apply Rabs_pos; try lra; apply Rabs_le; lra). lra. }
  assert (CS : 0 <= C * S <= 0.32 * 1) by (split; [apply Rmult_le_pos; lra|apply Rmult_le_compat; lra]).
  apply Rabs_le_inv in K.
  destruct (op_mul c sh 0.33 Fc Fs) as [Fd Ed]; [apply Rabs_le; lra|lra|]. set (d := fmul c sh) in *. apply Rabs_le_inv in Ed.
  assert (Uh : U * h <= U * 0.0001) by (apply Rmult_le_compat_l; lra).
  assert (Bd : - (2.64 * U) <= B2R d - C * S <= 2.64 * U) by lra.
  destruct (op_sub (mk64 1 0) d 1.001 F1 Fd) as [Fr Er]; [rewrite E1; apply Rabs_le; lra|lra|]. rewrite E1 in Er. apply Rabs_le_inv in Er.
  split; [exact Fr|]. apply Rabs_le. lra.
Qed.

(** ** sin64 at the two angles used, and cos64 *)
Lemma pow2_nat64 k : (k <= 29)%nat -> B2R (nat64 (2 ^ k)) = bpow radix2 (Z.of_nat k) /\ is_finite (nat64 (2 ^ k)) = true /\ INR (2 ^ k) = bpow radix2 (Z.of_nat k).
Proof.
  intros H. assert (E : Z.of_nat (2 ^ k) = (2 ^ Z.of_nat k)%Z) by (rewrite Nat2Z.inj_pow; reflexivity).
  assert (P : bpow radix2 (Z.of_nat k) = IZR (2 ^ Z.of_nat k)) by (rewrite <- IZR_Zpower by lia; reflexivity).
  assert (B : (0 < 2 ^ Z.of_nat k <= 2 ^ 29)%Z) by (split; [apply Z.pow_pos_nonneg; lia|apply Z.pow_le_mono_r; lia]).
  unfold nat64. rewrite E. destruct (int64 (2 ^ Z.of_nat k)) as [V F]; [change (2 ^ 53)%Z with 9007199254740992%Z; change (2 ^ 29)%Z with 536870912%Z in B; lia|].
  rewrite V, P. split; [reflexivity|]. split; [exact F|]. rewrite INR_IZR_INZ, E. reflexivity.
Qed.
Lemma angle_err k A : (3 <= k <= 29)%nat -> (A = 1 \/ A = 2)%nat ->
  is_finite (angle64 (2 ^ k) A) = true /\ 0 <= B2R (angle64 (2 ^ k) A) <= INR A * 0.4 /\
  Rabs (B2R (angle64 (2 ^ k) A) - INR A * PI / INR (2 ^ k)) <= INR A * 0.25 * U.
Proof.
  intros Hk HA. destruct (pow2_nat64 k ltac:(lia)) as (Vk & Fk & Ek). set (b := bpow radix2 (Z.of_nat k)) in *.
  assert (B8 : 8 <= b) by (change 8 with (bpow radix2 3); apply bpow_le; lia).
  set (m := 884279719003555%Z).
  assert (Ep : B2R pi64 = IZR m * bpow radix2 (-48) /\ is_finite pi64 = true) by (apply mk64_small; [reflexivity|lia]). destruct Ep as [Ep Fp].
  assert (HA' : (1 <= Z.of_nat A <= 2)%Z) by lia.
  destruct (int64 (Z.of_nat A)) as [EA FA]; [change (2 ^ 53)%Z with 9007199254740992%Z; lia|]. fold (nat64 A) in EA, FA.
  assert (IA : INR A = IZR (Z.of_nat A)) by apply INR_IZR_INZ. assert (RA : 1 <= INR A <= 2) by (rewrite IA; split; apply IZR_le; lia).
  assert (X1 : B2R (nat64 A) * B2R pi64 = IZR (Z.of_nat A * m) * bpow radix2 (-48)) by (rewrite EA, Ep, mult_IZR; ring).
  assert (Mm : (Z.abs (Z.of_nat A * m) < 2 ^ 53)%Z) by (change (2 ^ 53)%Z with 9007199254740992%Z; unfold m; lia).
  assert (P48 : IZR m * bpow radix2 (-48) = 884279719003555 / 281474976710656) by reflexivity.
  assert (N0 : 0 <= IZR (Z.of_nat A * m) * bpow radix2 (-48) <= 7) by (rewrite mult_IZR, Rmult_assoc, P48, <- IA; split; [apply Rmult_le_pos; lra|]; apply Rle_trans with (2 * (884279719003555 / 281474976710656)); [apply Rmult_le_compat_r; lra|lra]).
  destruct (fmul_exact (nat64 A) pi64 FA Fp) as [V1 F1].
  { rewrite X1. apply fmt_F2R; [exact Mm|unfold SpecFloat.emin; lia]. }
  { rewrite X1, Rabs_pos_eq by lra. pose proof top_lt. pose proof top_big. lra. }
  rewrite X1 in V1. unfold angle64.
  assert (X2 : B2R (fmul (nat64 A) pi64) / B2R (nat64 (2 ^ k)) = IZR (Z.of_nat A * m) * bpow radix2 (-48 - Z.of_nat k)).
  { rewrite V1, Vk. unfold b, Rdiv. rewrite <- bpow_opp. unfold Z.sub. rewrite bpow_plus. ring. }
  assert (N2 : 0 <= IZR (Z.of_nat A * m) * bpow radix2 (-48 - Z.of_nat k) <= INR A * 0.4).
  { rewrite <- X2, V1, Vk. assert (0 < / b <= / 8) by (split; [apply Rinv_0_lt_compat; lra|apply Rinv_le_contravar; lra]).
    unfold Rdiv. split; [apply Rmult_le_pos; lra|]. rewrite mult_IZR, (Rmult_assoc (IZR (Z.of_nat A))), P48, <- IA.
    apply Rle_trans with (INR A * (884279719003555 / 281474976710656) * / 8); [apply Rmult_le_compat_l; [apply Rmult_le_pos; lra|lra]|]. lra. }
  destruct (fdiv_R (fmul (nat64 A) pi64) (nat64 (2 ^ k)) F1) as [V2 F2].
  { rewrite Vk. lra. }
  { rewrite X2, rnd_fmt by (apply fmt_F2R; [exact Mm|unfold SpecFloat.emin; lia]). rewrite Rabs_pos_eq by lra. pose proof top_lt. pose proof top_big. lra. }
  rewrite X2, rnd_fmt in V2 by (apply fmt_F2R; [exact Mm|unfold SpecFloat.emin; lia]).
  split; [exact F2|]. rewrite V2. split; [exact N2|].
  rewrite <- X2, V1, Vk, Ek. rewrite mult_IZR, (Rmult_assoc (IZR (Z.of_nat A))), P48, <- IA. fold b.
  replace (INR A * (884279719003555 / 281474976710656) / b - INR A * PI / b) with (INR A * / b * (884279719003555 / 281474976710656 - PI)) by (field; lra).
  pose proof PI_16 as P. assert (I : 0 < / b <= / 8) by (split; [apply Rinv_0_lt_compat; lra|apply Rinv_le_contravar; lra]).
  rewrite Rabs_mult, (Rabs_pos_eq (INR A * / b)) by (apply Rmult_le_pos; lra). rewrite U_val.
  apply Rle_trans with (INR A * / 8 * / 4503599627370496).
  - apply Rmult_le_compat; try apply Rabs_pos; [apply Rmult_le_pos; lra|apply Rmult_le_compat_l; lra|exact P].
  - lra.
Qed.
Lemma lip_sin a b : Rabs (sin a - sin b) <= Rabs (a - b).
Proof.
  destruct (Req_dec a b) as [->|N]; [rewrite !Rminus_diag_eq by reflexivity; lra|].
  assert (G : forall x y, x < y -> Rabs (sin y - sin x) <= Rabs (y - x)).
  { intros x y H. destruct (MVT_cor2 sin cos x y H) as (c & E & _); [intros c _; apply derivable_pt_lim_sin|].
    rewrite E, Rabs_mult. pose proof (COS_bound c). assert (Rabs (cos c) <= 1) by (apply Rabs_le; lra). pose proof (Rabs_pos (y - x)). nra. }
  destruct (Rtotal_order a b) as [H|[H|H]]; [|contradiction|apply G; exact H].
  rewrite (Rabs_minus_sym (sin a)), (Rabs_minus_sym a). apply G. exact H.
Qed.
Lemma lip_cos a b : Rabs (cos a - cos b) <= Rabs (a - b).
Proof.
  rewrite !cos_sin. replace (a - b) with ((PI / 2 + a) - (PI / 2 + b)) by ring. apply lip_sin.
Qed.
Lemma sin64_err k A : (3 <= k <= 29)%nat -> (A = 1 \/ A = 2)%nat ->
  is_finite (sin64 (2 ^ k) A) = true /\ Rabs (B2R (sin64 (2 ^ k) A) - sin (INR A * PI / INR (2 ^ k))) <= INR A * 2.3 * U /\
  Rabs (B2R (cos64 (2 ^ k) A) - cos (INR A * PI / INR (2 ^ k))) <= 5 * U.
Proof.
  intros Hk HA. destruct (angle_err k A Hk HA) as (Fx & Bx & Ex). unfold sin64, cos64. set (x := angle64 (2 ^ k) A) in *. clearbody x.
  assert (RA : 1 <= INR A <= 2) by (destruct HA as [-> | ->]; cbn; lra).
  pose proof h_pos as hp. pose proof h_small as hs. pose proof top_big as tb.
  assert (UP : 0 < U <= / 9007199254740992) by (rewrite U_val; lra). assert (Uh : U * h <= U * 0.0001) by (apply Rmult_le_compat_l; lra).
  destruct (series_err 16 2 x ltac:(lia) ltac:(lia) Fx ltac:(lra)) as [Fs Es].
  destruct (series_err 16 1 x ltac:(lia) ltac:(lia) Fx ltac:(lra)) as [_ Ec].
  pose proof (ser_sin (B2R x) ltac:(lra)) as Q. pose proof (ser_cos (B2R x) ltac:(lra)) as Qc.
  pose proof (serR_range 16 2 (B2R x) ltac:(lra) ltac:(lra)) as R.
  set (s := sin_cos_series 16 2 x) in *. set (S := serR 16 2 (B2R x)) in *. set (X := B2R x) in *. clearbody s S.
  apply Rabs_le_inv in Es.
  assert (K : Rabs (X * (B2R s - S)) <= INR A * 0.4 * (4 * U)) by (rewrite Rabs_mult, (Rabs_pos_eq X) by lra; apply Rmult_le_compat; try apply Rabs_pos; try lra; apply Rabs_le; lra).
  destruct (op_mul x s (INR A * 0.4001) Fx Fs) as [Fr Er]; [fold X| lra|].
  { rewrite Rabs_mult, (Rabs_pos_eq X) by lra. apply Rle_trans with (INR A * 0.4 * 1.0001); [apply Rmult_le_compat; try apply Rabs_pos; try lra; apply Rabs_le; lra|lra]. }
  fold X in Er. split; [exact Fr|].
  assert (L := lip_sin X (INR A * PI / INR (2 ^ k))). assert (Lc := lip_cos X (INR A * PI / INR (2 ^ k))). set (T := INR A * PI / INR (2 ^ k)) in *.
  assert (UA : U <= INR A * U) by (rewrite <- (Rmult_1_l U) at 1; apply Rmult_le_compat_r; lra).
  assert (UA2 : INR A * U <= 2 * U) by (apply Rmult_le_compat_r; lra).
  assert (V60 : / 1152921504606846976 <= 0.01 * U) by (rewrite U_val; lra). assert (V58 : / 288230376151711744 <= 0.05 * U) by (rewrite U_val; lra).
  replace (INR A * 0.4 * (4 * U)) with (1.6 * (INR A * U)) in K by lra. replace (U * (INR A * 0.4001 + h)) with (0.4001 * (INR A * U) + U * h) in Er by lra.
  replace (INR A * 0.25 * U) with (0.25 * (INR A * U)) in Ex by lra. replace (INR A * 2.3 * U) with (2.3 * (INR A * U)) by lra.
  set (W := INR A * U) in *. clearbody W T.
  apply Rabs_le_inv in K. apply Rabs_le_inv in Q. apply Rabs_le_inv in Er.
  assert (L' := Rle_trans _ _ _ L Ex). assert (Lc' := Rle_trans _ _ _ Lc Ex). apply Rabs_le_inv in L'. apply Rabs_le_inv in Lc'. apply Rabs_le_inv in Ec. apply Rabs_le_inv in Qc.
  replace (X * (B2R s - S)) with (X * B2R s - X * S) in K by ring.
  split; apply Rabs_le; lra.
Qed.

(** ** complex numbers *)
Definition cn (z : R * R) : R := sqrt (fst z * fst z + snd z * snd z).
Definition plus2 (a b : R * R) : R * R := (fst a + fst b, snd a + snd b).
Definition minus2 (a b : R * R) : R * R := (fst a - fst b, snd a - snd b).
Definition times2 (x w : R * R) : R * R := (fst x * fst w - snd x * snd w, fst x * snd w + snd x * fst w).
Lemma sq0 a : 0 <= a * a. Proof. apply Rle_0_sqr. Qed.
Lemma cn_pos z : 0 <= cn z. Proof. apply sqrt_pos. Qed.
Lemma cn_tri a b : cn (plus2 a b) <= cn a + cn b.
Proof.
  pose proof (triangle (fst a) (snd a) (- fst b) (- snd b) 0 0) as T. unfold dist_euc, Rsqr in T. unfold cn, plus2. cbn [fst snd].
  replace ((fst a + fst b) * (fst a + fst b) + (snd a + snd b) * (snd a + snd b)) with ((fst a - - fst b) * (fst a - - fst b) + (snd a - - snd b) * (snd a - - snd b)) by ring.
  eapply Rle_trans; [exact T|]. right. f_equal; f_equal; ring.
Qed.
Lemma cn_mul a b : cn (times2 a b) = cn a * cn b.
Proof.
  unfold cn, times2. cbn [fst snd]. rewrite <- sqrt_mult by (apply Rplus_le_le_0_compat; apply sq0). f_equal. ring.
Qed.
Lemma cn_re z : Rabs (fst z) <= cn z.
Proof. unfold cn. rewrite <- sqrt_Rsqr_abs. apply sqrt_le_1_alt. unfold Rsqr. pose proof (sq0 (snd z)). lra. Qed.
Lemma cn_im z : Rabs (snd z) <= cn z.
Proof. unfold cn. rewrite <- sqrt_Rsqr_abs. apply sqrt_le_1_alt. unfold Rsqr. pose proof (sq0 (fst z)). lra. Qed.
Lemma cn_sum z : cn z <= Rabs (fst z) + Rabs (snd z).
Proof.
  pose proof (Rabs_pos (fst z)) as P. pose proof (Rabs_pos (snd z)) as Q.
  assert (A : fst z * fst z = Rabs (fst z) * Rabs (fst z)) by (rewrite <- Rabs_mult; symmetry; apply Rabs_pos_eq, sq0).
  assert (B : snd z * snd z = Rabs (snd z) * Rabs (snd z)) by (rewrite <- Rabs_mult; symmetry; apply Rabs_pos_eq, sq0).
  unfold cn. rewrite A, B. rewrite <- (sqrt_square (Rabs (fst z) + Rabs (snd z))) by lra. apply sqrt_le_1_alt.
  pose proof (Rmult_le_pos _ _ P Q). lra.
Qed.
Lemma cn_comp z e : Rabs (fst z) <= e -> Rabs (snd z) <= e -> cn z <= 2 * e.
Proof. intros A B. pose proof (cn_sum z). lra. Qed.
Lemma cn_opp z : cn (- fst z, - snd z) = cn z.
Proof. unfold cn. cbn [fst snd]. f_equal. ring. Qed.
Lemma cn_sub a b : cn (minus2 a b) <= cn a + cn b.
Proof. pose proof (cn_tri a (- fst b, - snd b)) as T. rewrite cn_opp in T. exact T. Qed.
Lemma cn_near a b e : cn (minus2 a b) <= e -> cn a <= cn b + e.
Proof.
  intros H. pose proof (cn_tri (minus2 a b) b) as T. replace (plus2 (minus2 a b) b) with a in T; [lra|].
  destruct a, b. unfold plus2, minus2. cbn [fst snd]. f_equal; ring.
Qed.
Lemma cn_dist3 a b c : cn (minus2 a c) <= cn (minus2 a b) + cn (minus2 b c).
Proof.
  pose proof (cn_tri (minus2 a b) (minus2 b c)) as T. replace (plus2 (minus2 a b) (minus2 b c)) with (minus2 a c) in T; [exact T|].
  unfold plus2, minus2. cbn [fst snd]. f_equal; ring.
Qed.
(** Cauchy-Schwarz, both pairings *)
Lemma cs (a b c d : R) : Rabs (a * c) + Rabs (b * d) <= cn (a, b) * cn (c, d).
Proof.
  rewrite !Rabs_mult. unfold cn. cbn [fst snd].
  assert (Q : forall t, t * t = Rabs t * Rabs t) by (intros t; rewrite <- Rabs_mult; symmetry; apply Rabs_pos_eq, sq0).
  rewrite (Q a), (Q b), (Q c), (Q d).
  pose proof (Rabs_pos a). pose proof (Rabs_pos b). pose proof (Rabs_pos c). pose proof (Rabs_pos d).
  set (A := Rabs a) in *. set (B := Rabs b) in *. set (C := Rabs c) in *. set (D := Rabs d) in *. clearbody A B C D.
  rewrite <- sqrt_mult by (apply Rplus_le_le_0_compat; apply sq0).
  assert (P : 0 <= A * C + B * D) by (apply Rplus_le_le_0_compat; apply Rmult_le_pos; assumption).
  rewrite <- (sqrt_square (A * C + B * D)) by exact P. apply sqrt_le_1_alt.
  pose proof (sq0 (A * D - B * C)). lra.
Qed.
Lemma cn_swap a b : cn (a, b) = cn (b, a).
Proof. unfold cn. cbn [fst snd]. f_equal. ring. Qed.

(** ** the complex operations in double *)
Definition V2 (z : f64 * f64) : R * R := (B2R (fst z), B2R (snd z)).
Definition F2 (z : f64 * f64) : Prop := is_finite (fst z) = true /\ is_finite (snd z) = true.
Lemma abs_add a b A B : Rabs a <= A -> Rabs b <= B -> Rabs (a + b) <= A + B.
Proof. intros. eapply Rle_trans; [apply Rabs_triang|lra]. Qed.
Lemma abs_sub a b A B : Rabs a <= A -> Rabs b <= B -> Rabs (a - b) <= A + B.
Proof. intros. unfold Rminus. apply abs_add; [assumption|rewrite Rabs_Ropp; assumption]. Qed.

Lemma cadd_err a b A B : F2 a -> F2 b -> cn (V2 a) <= A -> cn (V2 b) <= B -> A + B <= TOP ->
  F2 (cadd arith64 a b) /\ cn (minus2 (V2 (cadd arith64 a b)) (plus2 (V2 a) (V2 b))) <= 2 * (U * (A + B + h)).
Proof.
  intros [Fa Fa'] [Fb Fb'] HA HB T. pose proof (cn_re (V2 a)) as a1. pose proof (cn_im (V2 a)) as a2. pose proof (cn_re (V2 b)) as b1. pose proof (cn_im (V2 b)) as b2.
  unfold V2 in a1, a2, b1, b2, HA, HB. cbn [fst snd] in a1, a2, b1, b2.
  destruct (op_add (fst a) (fst b) (A + B) Fa Fb) as [G1 E1]; [apply abs_add; lra|exact T|].
  destruct (op_add (snd a) (snd b) (A + B) Fa' Fb') as [G2 E2]; [apply abs_add; lra|exact T|].
  split; [split; [exact G1|exact G2]|]. apply cn_comp; [exact E1|exact E2].
Qed.
Lemma csub_err a b A B : F2 a -> F2 b -> cn (V2 a) <= A -> cn (V2 b) <= B -> A + B <= TOP ->
  F2 (csub arith64 a b) /\ cn (minus2 (V2 (csub arith64 a b)) (minus2 (V2 a) (V2 b))) <= 2 * (U * (A + B + h)).
Proof.
  intros [Fa Fa'] [Fb Fb'] HA HB T. pose proof (cn_re (V2 a)) as a1. pose proof (cn_im (V2 a)) as a2. pose proof (cn_re (V2 b)) as b1. pose proof (cn_im (V2 b)) as b2.
  unfold V2 in a1, a2, b1, b2, HA, HB. cbn [fst snd] in a1, a2, b1, b2.
  destruct (op_sub (fst a) (fst b) (A + B) Fa Fb) as [G1 E1]; [apply abs_sub; lra|exact T|].
  destruct (op_sub (snd a) (snd b) (A + B) Fa' Fb') as [G2 E2]; [apply abs_sub; lra|exact T|].
  split; [split; [exact G1|exact G2]|]. apply cn_comp; [exact E1|exact E2].
Qed.
Lemma mrot_err a b A B : F2 a -> F2 b -> cn (V2 a) <= A -> cn (V2 b) <= B -> A + B <= TOP ->
  F2 (mrot arith64 a b) /\ cn (minus2 (V2 (mrot arith64 a b)) (mrot arithR (V2 a) (V2 b))) <= 2 * (U * (A + B + h)).
Proof.
  intros [Fa Fa'] [Fb Fb'] HA HB T. pose proof (cn_re (V2 a)) as a1. pose proof (cn_im (V2 a)) as a2. pose proof (cn_re (V2 b)) as b1. pose proof (cn_im (V2 b)) as b2.
  unfold V2 in a1, a2, b1, b2, HA, HB. cbn [fst snd] in a1, a2, b1, b2.
  destruct (op_sub (snd a) (snd b) (A + B) Fa' Fb') as [G1 E1]; [apply abs_sub; lra|exact T|].
  destruct (op_sub (fst b) (fst a) (A + B) Fb Fa) as [G2 E2]; [apply Rle_trans with (B + A); [apply abs_sub; lra|lra]|exact T|].
  split; [split; [exact G1|exact G2]|]. apply cn_comp; [exact E1|exact E2].
Qed.
(** one component of a product: x y +- z t, |x y| + |z t| <= g *)
Lemma two_products (x y z t : f64) g : is_finite x = true -> is_finite y = true -> is_finite z = true -> is_finite t = true ->
  Rabs (B2R x * B2R y) + Rabs (B2R z * B2R t) <= g -> g + g <= TOP ->
  (is_finite (fsub (fmul x y) (fmul z t)) = true /\ Rabs (B2R (fsub (fmul x y) (fmul z t)) - (B2R x * B2R y - B2R z * B2R t)) <= U * (2.01 * g + 4 * h)) /\
  (is_finite (fadd (fmul x y) (fmul z t)) = true /\ Rabs (B2R (fadd (fmul x y) (fmul z t)) - (B2R x * B2R y + B2R z * B2R t)) <= U * (2.01 * g + 4 * h)).
Proof.
  intros Fx Fy Fz Ft Hg T. pose proof h_pos as hp. pose proof h_small as hs. pose proof top_big as tb.
  assert (UP : 0 < U <= / 9007199254740992) by (rewrite U_val; lra).
  pose proof (Rabs_pos (B2R x * B2R y)) as p1. pose proof (Rabs_pos (B2R z * B2R t)) as p2.
  assert (g0 : 0 <= g) by lra.
  assert (T' : g <= TOP) by lra.
  destruct (op_mul x y (Rabs (B2R x * B2R y)) Fx Fy) as [G1 E1]; [lra|lra|]. destruct (op_mul z t (Rabs (B2R z * B2R t)) Fz Ft) as [G2 E2]; [lra|lra|].
  set (a := fmul x y) in *. set (b := fmul z t) in *. set (P := B2R x * B2R y) in *. set (Q := B2R z * B2R t) in *. clearbody a b P Q.
  assert (E12 : Rabs (B2R a - P) + Rabs (B2R b - Q) <= U * (g + 2 * h)).
  { apply Rle_trans with (U * (Rabs P + h) + U * (Rabs Q + h)); [lra|]. rewrite <- Rmult_plus_distr_l. apply Rmult_le_compat_l; lra. }
  assert (Ug : U * (g + 2 * h) <= 0.0001 * g + h).
  { apply Rle_trans with (0.0001 * (g + 2 * h)); [apply Rmult_le_compat_r; lra|lra]. }
  assert (Big : 1.0001 * g + h <= TOP) by lra.
  assert (BA : Rabs (B2R a) <= Rabs P + Rabs (B2R a - P)) by (replace (B2R a) with (P + (B2R a - P)) at 1 by ring; apply Rabs_triang).
  assert (BB : Rabs (B2R b) <= Rabs Q + Rabs (B2R b - Q)) by (replace (B2R b) with (Q + (B2R b - Q)) at 1 by ring; apply Rabs_triang).
  assert (Fin : U * (1.0001 * g + h + h) + U * (g + 2 * h) <= U * (2.01 * g + 4 * h)) by (rewrite <- Rmult_plus_distr_l; apply Rmult_le_compat_l; lra).
  split.
  - destruct (op_sub a b (1.0001 * g + h) G1 G2) as [G3 E3]; [apply Rle_trans with (Rabs (B2R a) + Rabs (B2R b)); [apply abs_sub; lra|lra]|exact Big|].
    split; [exact G3|]. replace (B2R (fsub a b) - (P - Q)) with ((B2R (fsub a b) - (B2R a - B2R b)) + ((B2R a - P) - (B2R b - Q))) by ring.
    eapply Rle_trans; [apply abs_add; [exact E3|apply (abs_sub _ _ (Rabs (B2R a - P)) (Rabs (B2R b - Q))); lra]|]. lra.
  - destruct (op_add a b (1.0001 * g + h) G1 G2) as [G3 E3]; [apply Rle_trans with (Rabs (B2R a) + Rabs (B2R b)); [apply abs_add; lra|lra]|exact Big|].
    split; [exact G3|]. replace (B2R (fadd a b) - (P + Q)) with ((B2R (fadd a b) - (B2R a + B2R b)) + ((B2R a - P) + (B2R b - Q))) by ring.
    eapply Rle_trans; [apply abs_add; [exact E3|apply (abs_add _ _ (Rabs (B2R a - P)) (Rabs (B2R b - Q))); lra]|]. lra.
Qed.
Lemma cmul_err x w g : F2 x -> F2 w -> cn (V2 x) * cn (V2 w) <= g -> g + g <= TOP ->
  F2 (cmul arith64 x w) /\ cn (minus2 (V2 (cmul arith64 x w)) (times2 (V2 x) (V2 w))) <= U * (4.02 * g + 8 * h).
Proof.
  intros [Fx Fx'] [Fw Fw'] Hg T.
  assert (C1 := cs (B2R (fst x)) (B2R (snd x)) (B2R (fst w)) (B2R (snd w))). fold (V2 x) (V2 w) in C1.
  assert (C2 := cs (B2R (fst x)) (B2R (snd x)) (B2R (snd w)) (B2R (fst w))). rewrite (cn_swap (B2R (snd w))) in C2. fold (V2 x) (V2 w) in C2.
  destruct (two_products (fst x) (fst w) (snd x) (snd w) g Fx Fw Fx' Fw' ltac:(lra) T) as [[G1 E1] _].
  destruct (two_products (fst x) (snd w) (snd x) (fst w) g Fx Fw' Fx' Fw ltac:(lra) T) as [_ [G2 E2]].
  split; [split; [exact G1|exact G2]|].
  replace (U * (4.02 * g + 8 * h)) with (2 * (U * (2.01 * g + 4 * h))) by lra. apply cn_comp; [exact E1|exact E2].
Qed.

(** ** the twiddle factors *)
Definition C1 : R * R := (1, 0).
Lemma w_cn M c : cn (w_exact M c) = 1.
Proof.
  unfold cn, w_exact. cbn [fst snd]. pose proof (sin2_cos2 (theta M c)) as E. unfold Rsqr in E.
  replace (cos (theta M c) * cos (theta M c) + - sin (theta M c) * - sin (theta M c)) with 1 by lra. apply sqrt_1.
Qed.
Lemma twiddle_R p w : twiddle arithR p w = times2 w (plus2 C1 p).
Proof. unfold twiddle, times2, plus2, C1. cbn [fst snd a_add a_sub a_mul arithR]. f_equal; ring. Qed.
Lemma w_next M c : (0 < M)%nat -> w_exact M (S c) = times2 (w_exact M c) (plus2 C1 (step_factor arithR (2 * M))).
Proof. intros H. rewrite <- !(tws_exact M) by exact H. cbn [tws]. apply twiddle_R. Qed.

Lemma tw_err p w : F2 w -> F2 p -> cn (V2 w) <= 1.01 -> cn (V2 p) <= 0.8 -> cn (plus2 C1 (V2 p)) <= 1.001 ->
  F2 (twiddle arith64 p w) /\ cn (minus2 (V2 (twiddle arith64 p w)) (times2 (V2 w) (plus2 C1 (V2 p)))) <= 5.5 * U.
Proof.
  intros [Fw Fw'] [Fp Fp'] Hw Hp H1. pose proof h_pos as hp. pose proof h_small as hs. pose proof top_big as tb.
  assert (UP : 0 < U <= / 9007199254740992) by (rewrite U_val; lra). assert (Uh : 0 <= U * h <= U * 0.0001) by (split; [apply Rmult_le_pos; lra|apply Rmult_le_compat_l; lra]).
  assert (G : cn (V2 w) * cn (V2 p) <= 0.81).
  { apply Rle_trans with (1.01 * 0.8); [apply Rmult_le_compat; try apply cn_pos; assumption|lra]. }
  assert (G' : cn (times2 (V2 w) (plus2 C1 (V2 p))) <= 1.0112).
  { rewrite cn_mul. apply Rle_trans with (1.01 * 1.001); [apply Rmult_le_compat; try apply cn_pos; assumption|lra]. }
  pose proof (cn_re (times2 (V2 w) (plus2 C1 (V2 p)))) as R1. pose proof (cn_im (times2 (V2 w) (plus2 C1 (V2 p)))) as R2.
  assert (Ca := cs (B2R (fst w)) (B2R (snd w)) (B2R (fst p)) (B2R (snd p))). fold (V2 w) (V2 p) in Ca.
  assert (Cb := cs (B2R (snd w)) (B2R (fst w)) (B2R (fst p)) (B2R (snd p))). rewrite (cn_swap (B2R (snd w))) in Cb. fold (V2 w) (V2 p) in Cb.
  destruct (two_products (fst w) (fst p) (snd w) (snd p) 0.81 Fw Fp Fw' Fp' ltac:(lra) ltac:(lra)) as [[G1 E1] _].
  destruct (two_products (snd w) (fst p) (fst w) (snd p) 0.81 Fw' Fp Fw Fp' ltac:(lra) ltac:(lra)) as [_ [G2 E2]].
  unfold times2, plus2, C1, V2 in R1, R2, G'. cbn [fst snd] in R1, R2, G'.
  unfold twiddle. cbn [a_add a_sub a_mul arith64].
  set (dr := fsub (fmul (fst w) (fst p)) (fmul (snd w) (snd p))) in *. set (di := fadd (fmul (snd w) (fst p)) (fmul (fst w) (snd p))) in *.
  set (a := B2R (fst w)) in *. set (b := B2R (snd w)) in *. set (pr := B2R (fst p)) in *. set (pi := B2R (snd p)) in *.
  set (N := cn _) in *. clearbody N.
  assert (R1' : Rabs (a * (1 + pr) - b * (0 + pi)) <= 1.0112) by lra. assert (R2' : Rabs (a * (0 + pi) + b * (1 + pr)) <= 1.0112) by lra.
  apply Rabs_le_inv in R1'. apply Rabs_le_inv in R2'. apply Rabs_le_inv in E1. apply Rabs_le_inv in E2.
  destruct (op_add (fst w) dr 1.012 Fw G1) as [G3 E3]; [fold a; apply Rabs_le; lra|lra|].
  destruct (op_add (snd w) di 1.012 Fw' G2) as [G4 E4]; [fold b; apply Rabs_le; lra|lra|].
  fold a in E3. fold b in E4. apply Rabs_le_inv in E3. apply Rabs_le_inv in E4.
  split; [split; [exact G3|exact G4]|]. replace (5.5 * U) with (2 * (2.75 * U)) by lra.
  apply cn_comp; unfold minus2, times2, plus2, C1, V2; cbn [fst snd]; fold a b pr pi; apply Rabs_le; lra.
Qed.

Lemma step_cn k : (1 <= k)%nat -> cn (plus2 C1 (step_factor arithR (2 ^ k))) = 1.
Proof.
  intros H. rewrite step_exact by (apply Nat.neq_0_lt_0, Nat.pow_nonzero; lia). unfold plus2, C1, cn. cbn [fst snd].
  set (t := 2 * PI / INR (2 ^ k)). pose proof (sin2_cos2 t) as E. unfold Rsqr in E.
  replace ((1 + (cos t - 1)) * (1 + (cos t - 1)) + (0 + - sin t) * (0 + - sin t)) with 1 by lra. apply sqrt_1.
Qed.
Lemma step_err k : (3 <= k <= 29)%nat ->
  F2 (step_factor arith64 (2 ^ k)) /\ cn (minus2 (V2 (step_factor arith64 (2 ^ k))) (step_factor arithR (2 ^ k))) <= 9 * U /\
  cn (step_factor arithR (2 ^ k)) <= 0.786.
Proof.
  intros Hk. destruct (sin64_err k 1 Hk (or_introl eq_refl)) as (F1 & E1 & _). destruct (sin64_err k 2 Hk (or_intror eq_refl)) as (G2 & E2 & _).
  pose proof h_pos as hp. pose proof h_small as hs. pose proof top_big as tb.
  assert (UP : 0 < U <= / 9007199254740992) by (rewrite U_val; lra). assert (Uh : 0 <= U * h <= U * 0.0001) by (split; [apply Rmult_le_pos; lra|apply Rmult_le_compat_l; lra]).
  destruct (pow2_nat64 k ltac:(lia)) as (_ & _ & Ek). assert (B8 : 8 <= INR (2 ^ k)) by (rewrite Ek; change 8 with (bpow radix2 3); apply bpow_le; lia).
  change (INR 1) with 1 in E1. change (INR 2) with 2 in E2.
  set (x := 1 * PI / INR (2 ^ k)) in *. replace (2 * PI / INR (2 ^ k)) with (2 * x) in E2 by (unfold x; field; lra).
  assert (Hx : 0 < x <= 0.3928).
  { pose proof PI_16 as P. apply Rabs_le_inv in P. assert (I : 0 < / INR (2 ^ k) <= / 8) by (split; [apply Rinv_0_lt_compat; lra|apply Rinv_le_contravar; lra]).
    unfold x, Rdiv. split; [apply Rmult_lt_0_compat; lra|]. apply Rle_trans with (1 * PI * / 8); [apply Rmult_le_compat_l; lra|lra]. }
  assert (Hs : 0 <= sin x <= 0.3928).
  { split; [apply sin_ge_0; pose proof PI2_1; lra|]. pose proof (sin_lt_x x (proj1 Hx)). lra. }
  unfold step_factor at 1 2. unfold step_factor. cbn [a_neg a_sin a_mul a_mtwo arith64 arithR]. change (INR 1) with 1. change (INR 2) with 2.
  fold x. replace (2 * PI / INR (2 ^ k)) with (2 * x) by (unfold x; field; lra).
  set (s := sin64 (2 ^ k) 1) in *. set (s2 := sin64 (2 ^ k) 2) in *. clearbody s s2. set (S := sin x) in *.
  apply Rabs_le_inv in E1.
  assert (Fn : is_finite (fneg s) = true) by (apply fneg_fin'; exact F1). assert (Vn : B2R (fneg s) = - B2R s) by apply fneg_R'.
  destruct (int64 (-2) ltac:(reflexivity)) as [Vm Fm].
  destruct (op_mul (mk64 (-2) 0) (fneg s) 0.79 Fm Fn) as [Fa Ea]; [rewrite Vm, Vn; apply Rabs_le; lra|lra|]. rewrite Vm, Vn in Ea.
  set (a := fmul (mk64 (-2) 0) (fneg s)) in *. clearbody a. apply Rabs_le_inv in Ea.
  assert (T0 : Rabs (B2R a * - B2R s) <= 0.32).
  { rewrite Rabs_mult. apply Rle_trans with (0.791 * 0.393); [apply Rmult_le_compat; try apply Rabs_pos; apply Rabs_le; lra|lra]. }
  destruct (op_mul a (fneg s) 0.32 Fa Fn) as [Fb Eb]; [rewrite Vn; exact T0|lra|]. rewrite Vn in Eb.
  assert (T1 : Rabs ((B2R a - -2 * - B2R s) * - B2R s) <= 0.7901 * U * 0.393).
  { rewrite Rabs_mult. apply Rmult_le_compat; try apply Rabs_pos; apply Rabs_le; lra. }
  assert (T2 : Rabs ((B2R s - S) * (B2R s + S)) <= 2.3 * U * 0.786).
  { rewrite Rabs_mult. apply Rmult_le_compat; try apply Rabs_pos; apply Rabs_le; lra. }
  assert (E : Rabs (B2R (fmul a (fneg s)) - -2 * - S * - S) <= 4.3 * U).
  { replace (B2R (fmul a (fneg s)) - -2 * - S * - S) with ((B2R (fmul a (fneg s)) - B2R a * - B2R s) + ((B2R a - -2 * - B2R s) * - B2R s) - 2 * ((B2R s - S) * (B2R s + S))) by ring.
    apply Rabs_le_inv in T1. apply Rabs_le_inv in T2. apply Rabs_le_inv in Eb. apply Rabs_le. lra. }
  split; [split; [exact Fb|apply fneg_fin'; exact G2]|]. split.
  - eapply Rle_trans; [apply cn_sum|]. unfold minus2, V2. cbn [fst snd]. rewrite fneg_R'.
    replace (- B2R s2 - - sin (2 * x)) with (- (B2R s2 - sin (2 * x))) by ring. rewrite Rabs_Ropp. lra.
  - unfold cn. cbn [fst snd]. rewrite sin_2a. fold S.
    replace (-2 * - S * - S * (-2 * - S * - S) + - (2 * S * cos x) * - (2 * S * cos x)) with ((2 * S) * (2 * S)).
    + rewrite sqrt_square by lra. lra.
    + pose proof (sin2_cos2 x) as Q. unfold Rsqr in Q. fold S in Q. replace (-2 * - S * - S * (-2 * - S * - S) + - (2 * S * cos x) * - (2 * S * cos x)) with (4 * (S * S) * (S * S + cos x * cos x)) by ring. rewrite Q. ring.
Qed.

Lemma tws_err k c : (3 <= k <= 29)%nat -> (c <= 2 ^ 28)%nat ->
  let w := tws arith64 (step_factor arith64 (2 ^ k)) (mk64 1 0, fzero) c in
  F2 w /\ cn (minus2 (V2 w) (w_exact (2 ^ (k - 1)) c)) <= 15 * INR c * U /\ cn (V2 w) <= 1 + / 2097152.
Proof.
  intros Hk Hc w. pose proof h_pos as hp. assert (UP : 0 < U <= / 9007199254740992) by (rewrite U_val; lra).
  destruct (step_err k Hk) as (Fp & Ep & Cp). pose proof (step_cn k ltac:(lia)) as C1p.
  assert (EN : (2 ^ k = 2 * 2 ^ (k - 1))%nat) by (replace k with (S (k - 1)) at 1 by lia; apply Nat.pow_succ_r').
  assert (M0 : (0 < 2 ^ (k - 1))%nat) by (apply Nat.neq_0_lt_0, Nat.pow_nonzero; lia).
  assert (B : forall n, (n <= 2 ^ 28)%nat -> 15 * INR n * U <= / 2097152).
  { intros n Hn. assert (I : INR n <= 268435456).
    { apply le_INR in Hn. rewrite pow_INR in Hn. replace (INR 2 ^ 28) with 268435456 in Hn by (change (INR 2) with 2; cbn; ring). exact Hn. }
    pose proof (pos_INR n). apply Rle_trans with (15 * 268435456 * / 9007199254740992); [apply Rmult_le_compat; lra|lra]. }
  assert (J : forall n, (n <= 2 ^ 28)%nat -> let w := tws arith64 (step_factor arith64 (2 ^ k)) (mk64 1 0, fzero) n in
    F2 w /\ cn (minus2 (V2 w) (w_exact (2 ^ (k - 1)) n)) <= 15 * INR n * U).
  { induction n as [|n IH]; intros Hn.
    - cbn [tws]. destruct (int64 1 ltac:(reflexivity)) as [V1 F1]. split; [split; [exact F1|reflexivity]|].
      rewrite <- (tws_exact _ 0 M0). cbn [tws]. unfold minus2, V2, cn. cbn [fst snd]. rewrite V1. change (B2R fzero) with 0.
      replace ((1 - 1) * (1 - 1) + (0 - 0) * (0 - 0)) with 0 by ring. rewrite sqrt_0. change (INR 0) with 0. lra.
    - destruct (IH ltac:(lia)) as [Fw Ew]. cbn [tws]. cbv zeta. set (v := tws arith64 _ _ n) in *. clearbody v.
      pose proof (B n ltac:(lia)) as Bn. pose proof (cn_near _ _ _ Ew) as Cv. rewrite w_cn in Cv.
      set (p := step_factor arith64 (2 ^ k)) in *. set (P := step_factor arithR (2 ^ k)) in *.
      assert (Cvp : cn (V2 p) <= 0.8) by (pose proof (cn_near _ _ _ Ep); lra).
      assert (Cp1 : cn (plus2 C1 (V2 p)) <= 1 + 9 * U).
      { pose proof (cn_near (plus2 C1 (V2 p)) (plus2 C1 P) (9 * U)) as Q. rewrite C1p in Q. apply Q.
        replace (minus2 (plus2 C1 (V2 p)) (plus2 C1 P)) with (minus2 (V2 p) P); [exact Ep|]. unfold minus2, plus2. cbn [fst snd]. f_equal; ring. }
      destruct (tw_err p v Fw Fp ltac:(lra) Cvp ltac:(lra)) as [Fn En]. split; [exact Fn|].
      rewrite w_next by exact M0. rewrite <- EN. fold P. set (W := w_exact (2 ^ (k - 1)) n) in *.
      eapply Rle_trans; [apply (cn_dist3 _ (times2 (V2 v) (plus2 C1 (V2 p))))|].
      assert (D : cn (minus2 (times2 (V2 v) (plus2 C1 (V2 p))) (times2 W (plus2 C1 P))) <= 15 * INR n * U * 1 + 1.01 * (9 * U)).
      { replace (minus2 (times2 (V2 v) (plus2 C1 (V2 p))) (times2 W (plus2 C1 P))) with (plus2 (times2 (minus2 (V2 v) W) (plus2 C1 P)) (times2 (V2 v) (minus2 (V2 p) P))).
        - eapply Rle_trans; [apply cn_tri|]. rewrite !cn_mul, C1p. apply Rplus_le_compat; [apply Rmult_le_compat_r; lra|].
          apply Rmult_le_compat; try apply cn_pos; [lra|exact Ep].
        - unfold minus2, plus2, times2. cbn [fst snd]. f_equal; ring. }
      rewrite S_INR. lra. }
  destruct (J c Hc) as [Fw Ew]. split; [exact Fw|]. split; [exact Ew|].
  pose proof (cn_near _ _ _ Ew) as Cv. rewrite w_cn in Cv. pose proof (B c Hc). unfold w. lra.
Qed.

(** ** one level *)
Definition big (G : R) : Prop := 1000 * h <= G <= bpow radix2 930.
Lemma big_top G : big G -> 0 < G /\ h <= 0.001 * G /\ 10 * G <= TOP.
Proof.
  intros [L H]. pose proof h_pos. split; [lra|]. split; [lra|].
  assert (16 * bpow radix2 930 <= TOP). { change 16 with (bpow radix2 4). rewrite <- bpow_plus. apply bpow_le. lia. } lra.
Qed.
Lemma mrot_cn a b : cn (mrot arithR a b) <= cn a + cn b.
Proof.
  replace (cn (mrot arithR a b)) with (cn (minus2 a b)); [apply cn_sub|].
  unfold cn, mrot, minus2. cbn [fst snd a_sub arithR]. f_equal. ring.
Qed.
Lemma add_step a b al be eps G : F2 a -> F2 b -> cn (minus2 (V2 a) al) <= eps -> cn (minus2 (V2 b) be) <= eps ->
  cn al <= G -> cn be <= G -> eps <= 0.001 * G -> big G ->
  (F2 (cadd arith64 a b) /\ cn (minus2 (V2 (cadd arith64 a b)) (cadd arithR al be)) <= 2 * eps + 4.1 * (U * G)) /\
  (F2 (csub arith64 a b) /\ cn (minus2 (V2 (csub arith64 a b)) (csub arithR al be)) <= 2 * eps + 4.1 * (U * G)) /\
  (F2 (mrot arith64 a b) /\ cn (minus2 (V2 (mrot arith64 a b)) (mrot arithR al be)) <= 2 * eps + 4.1 * (U * G)).
Proof.
  intros Fa Fb Ea Eb Ca Cb He HG. destruct (big_top G HG) as (G0 & hG & TG).
  assert (UP : 0 < U <= / 9007199254740992) by (rewrite U_val; lra).
  pose proof (cn_near _ _ _ Ea) as Na. pose proof (cn_near _ _ _ Eb) as Nb.
  assert (X : 2 * (U * (1.001 * G + 1.001 * G + h)) <= 4.1 * (U * G)).
  { replace (4.1 * (U * G)) with (2 * (U * (2.05 * G))) by lra. apply Rmult_le_compat_l; [lra|]. apply Rmult_le_compat_l; lra. }
  destruct (cadd_err a b (1.001 * G) (1.001 * G) Fa Fb ltac:(lra) ltac:(lra) ltac:(lra)) as [F1 E1].
  destruct (csub_err a b (1.001 * G) (1.001 * G) Fa Fb ltac:(lra) ltac:(lra) ltac:(lra)) as [F2' E2].
  destruct (mrot_err a b (1.001 * G) (1.001 * G) Fa Fb ltac:(lra) ltac:(lra) ltac:(lra)) as [F3 E3].
  split; [|split].
  - split; [exact F1|]. eapply Rle_trans; [apply (cn_dist3 _ (plus2 (V2 a) (V2 b)))|].
    assert (cn (minus2 (plus2 (V2 a) (V2 b)) (cadd arithR al be)) <= 2 * eps); [|lra].
    replace (minus2 (plus2 (V2 a) (V2 b)) (cadd arithR al be)) with (plus2 (minus2 (V2 a) al) (minus2 (V2 b) be)) by (unfold minus2, plus2, cadd; cbn [fst snd a_add arithR]; f_equal; ring).
    eapply Rle_trans; [apply cn_tri|lra].
  - split; [exact F2'|]. eapply Rle_trans; [apply (cn_dist3 _ (minus2 (V2 a) (V2 b)))|].
    assert (cn (minus2 (minus2 (V2 a) (V2 b)) (csub arithR al be)) <= 2 * eps); [|lra].
    replace (minus2 (minus2 (V2 a) (V2 b)) (csub arithR al be)) with (minus2 (minus2 (V2 a) al) (minus2 (V2 b) be)) by (unfold minus2, plus2, csub; cbn [fst snd a_sub arithR]; f_equal; ring).
    eapply Rle_trans; [apply cn_sub|lra].
  - split; [exact F3|]. eapply Rle_trans; [apply (cn_dist3 _ (mrot arithR (V2 a) (V2 b)))|].
    assert (cn (minus2 (mrot arithR (V2 a) (V2 b)) (mrot arithR al be)) <= 2 * eps); [|lra].
    replace (minus2 (mrot arithR (V2 a) (V2 b)) (mrot arithR al be)) with (mrot arithR (minus2 (V2 a) al) (minus2 (V2 b) be)) by (unfold minus2, mrot; cbn [fst snd a_sub arithR]; f_equal; ring).
    eapply Rle_trans; [apply mrot_cn|lra].
Qed.
Lemma mul_step e w E W eps t G : F2 e -> F2 w -> cn (minus2 (V2 e) E) <= eps -> cn E <= G -> eps <= 0.001 * G -> big G ->
  cn (minus2 (V2 w) W) <= t -> cn (V2 w) <= 1 + / 2097152 ->
  F2 (cmul arith64 e w) /\ cn (minus2 (V2 (cmul arith64 e w)) (cmul arithR E W)) <= (1 + / 2097152) * eps + G * t + 4.1 * (U * G).
Proof.
  intros Fe Fw Ee CE He HG Ew Cw. destruct (big_top G HG) as (G0 & hG & TG). assert (UP : 0 < U <= / 9007199254740992) by (rewrite U_val; lra).
  pose proof (cn_near _ _ _ Ee) as Ne. pose proof (cn_pos (minus2 (V2 e) E)) as P1. pose proof (cn_pos (minus2 (V2 w) W)) as P2.
  assert (g : cn (V2 e) * cn (V2 w) <= 1.002 * G).
  { apply Rle_trans with ((1.001 * G) * (1 + / 2097152)); [apply Rmult_le_compat; try apply cn_pos; lra|]. lra. }
  destruct (cmul_err e w (1.002 * G) Fe Fw g ltac:(lra)) as [F1 E1]. split; [exact F1|].
  eapply Rle_trans; [apply (cn_dist3 _ (times2 (V2 e) (V2 w)))|].
  assert (X : U * (4.02 * (1.002 * G) + 8 * h) <= 4.1 * (U * G)) by (replace (4.1 * (U * G)) with (U * (4.1 * G)) by lra; apply Rmult_le_compat_l; lra).
  assert (Y : cn (minus2 (times2 (V2 e) (V2 w)) (cmul arithR E W)) <= eps * (1 + / 2097152) + G * t).
  { replace (minus2 (times2 (V2 e) (V2 w)) (cmul arithR E W)) with (plus2 (times2 (minus2 (V2 e) E) (V2 w)) (times2 E (minus2 (V2 w) W))) by (unfold minus2, plus2, times2, cmul; cbn [fst snd a_add a_sub a_mul arithR]; f_equal; ring).
    eapply Rle_trans; [apply cn_tri|]. rewrite !cn_mul. apply Rplus_le_compat; apply Rmult_le_compat; try apply cn_pos; lra. }
  lra.
Qed.

(** ** the whole transform *)
Definition N2 (k : nat) : R := 2 ^ k.
Lemma N2_pos k : 1 <= N2 k. Proof. unfold N2. apply pow_R1_Rle. lra. Qed.
Lemma N2_le k j : (k <= j)%nat -> N2 k <= N2 j. Proof. intros H. unfold N2. apply Rle_pow; [lra|exact H]. Qed.
Lemma N2_S k : N2 (S k) = 2 * N2 k. Proof. reflexivity. Qed.
Lemma N2_28 : N2 28 = 268435456. Proof. unfold N2. cbn. ring. Qed.
Lemma N2_nat k : INR (2 ^ k) = N2 k. Proof. unfold N2. rewrite pow_INR. reflexivity. Qed.
Lemma N2_bpow k : N2 k = bpow radix2 (Z.of_nat k).
Proof. induction k as [|k IH]; [reflexivity|]. rewrite N2_S, IH, Nat2Z.inj_succ. unfold Z.succ. rewrite bpow_plus. change (bpow radix2 1) with 2. ring. Qed.
Lemma big_scale A k : (k <= 29)%nat -> 1000 * h <= A <= bpow radix2 900 -> big (N2 k * A).
Proof.
  intros Hk [L H]. pose proof (N2_pos k) as P. pose proof h_pos as hp. split.
  - apply Rle_trans with (1 * A); [lra|apply Rmult_le_compat_r; lra].
  - apply Rle_trans with (bpow radix2 (Z.of_nat k) * bpow radix2 900); [rewrite <- N2_bpow; apply Rmult_le_compat_l; lra|].
    rewrite <- bpow_plus. apply bpow_le. lia.
Qed.
Lemma cmul_w M j z : cn (cmul arithR z (w_exact M j)) = cn z.
Proof. change (cmul arithR z (w_exact M j)) with (times2 z (w_exact M j)). rewrite cn_mul, w_cn. ring. Qed.

Lemma fft_rec_err k : (k <= 29)%nat -> forall (y : nat -> f64 * f64) A, 1000 * h <= A <= bpow radix2 900 ->
  (forall n, (n < 2 ^ k)%nat -> F2 (y n) /\ cn (V2 (y n)) <= A) -> forall j, (j < 2 ^ k)%nat ->
  F2 (fft_rec arith64 k y j) /\
  cn (minus2 (V2 (fft_rec arith64 k y j)) (dft (2 ^ k) (fun n => V2 (y n)) j)) <= 10 * N2 k * N2 k * A * U /\
  cn (dft (2 ^ k) (fun n => V2 (y n)) j) <= N2 k * A.
Proof.
  assert (UP : 0 < U <= / 9007199254740992) by (rewrite U_val; lra). pose proof h_pos as hp.
  assert (Z0 : forall z : R * R, cn (minus2 z z) <= 0).
  { intros z. unfold cn, minus2. cbn [fst snd]. replace ((fst z - fst z) * (fst z - fst z) + (snd z - snd z) * (snd z - snd z)) with 0 by ring. rewrite sqrt_0. lra. }
  induction k as [|k IH]; intros Hk y A HA Hy j Hj.
  { cbn [fft_rec]. rewrite dft_1. destruct (Hy 0%nat ltac:(cbn; lia)) as [F C]. split; [exact F|]. change (N2 0) with 1. split; [|lra].
    eapply Rle_trans; [apply Z0|]. repeat apply Rmult_le_pos; lra. }
  assert (A0 : 0 < A) by lra. assert (UA : 0 < U * A) by (apply Rmult_lt_0_compat; lra).
  assert (USM : U * A <= 0.00001 * A) by (apply Rmult_le_compat_r; lra).
  destruct k as [|[|k]].
  - (* 2 points *)
    rewrite <- fft_rec_dft by exact Hj. cbn [fft_rec]. change (N2 1) with (2 * 1).
    assert (BA : big A) by (pose proof (big_scale A 0 ltac:(lia) HA) as Q; change (N2 0) with 1 in Q; rewrite Rmult_1_l in Q; exact Q).
    destruct (Hy 0%nat ltac:(cbn; lia)) as [G0 D0]. destruct (Hy 1%nat ltac:(cbn; lia)) as [G1 D1].
    destruct (add_step (y 0%nat) (y 1%nat) _ _ 0 A G0 G1 (Z0 _) (Z0 _) D0 D1 ltac:(lra) BA) as ([X1 X2] & [Y1 Y2] & _).
    assert (L : 2 * 0 + 4.1 * (U * A) <= 10 * (2 * 1) * (2 * 1) * A * U) by lra.
    destruct (j =? 0)%nat.
    + split; [exact X1|]. split; [eapply Rle_trans; [exact X2|exact L]|]. eapply Rle_trans; [apply cn_tri|]. lra.
    + split; [exact Y1|]. split; [eapply Rle_trans; [exact Y2|exact L]|]. eapply Rle_trans; [apply cn_sub|]. lra.
  - (* 4 points *)
    rewrite <- fft_rec_dft by exact Hj. change (N2 2) with (2 * (2 * 1)).
    assert (BA : big A) by (pose proof (big_scale A 0 ltac:(lia) HA) as Q; change (N2 0) with 1 in Q; rewrite Rmult_1_l in Q; exact Q).
    assert (BA2 : big (2 * A)) by (pose proof (big_scale A 1 ltac:(lia) HA) as Q; change (N2 1) with (2 * 1) in Q; rewrite Rmult_1_r in Q; exact Q).
    destruct (Hy 0%nat ltac:(cbn; lia)) as [G0 D0]. destruct (Hy 1%nat ltac:(cbn; lia)) as [G1 D1].
    destruct (Hy 2%nat ltac:(cbn; lia)) as [G2 D2]. destruct (Hy 3%nat ltac:(cbn; lia)) as [G3 D3].
    destruct (add_step (y 0%nat) (y 2%nat) _ _ 0 A G0 G2 (Z0 _) (Z0 _) D0 D2 ltac:(lra) BA) as ([P1 P2] & [Q1 Q2] & _).
    destruct (add_step (y 1%nat) (y 3%nat) _ _ 0 A G1 G3 (Z0 _) (Z0 _) D1 D3 ltac:(lra) BA) as ([R1 R2] & _ & [S1 S2]).
    assert (CP : cn (cadd arithR (V2 (y 0%nat)) (V2 (y 2%nat))) <= 2 * A) by (eapply Rle_trans; [apply cn_tri|lra]).
    assert (CQ : cn (csub arithR (V2 (y 0%nat)) (V2 (y 2%nat))) <= 2 * A) by (eapply Rle_trans; [apply cn_sub|lra]).
    assert (CR : cn (cadd arithR (V2 (y 1%nat)) (V2 (y 3%nat))) <= 2 * A) by (eapply Rle_trans; [apply cn_tri|lra]).
    assert (CS : cn (mrot arithR (V2 (y 1%nat)) (V2 (y 3%nat))) <= 2 * A) by (eapply Rle_trans; [apply mrot_cn|lra]).
    set (eps := 2 * 0 + 4.1 * (U * A)) in *. assert (Heps : eps <= 0.001 * (2 * A)) by (unfold eps; lra).
    destruct (add_step _ _ _ _ eps (2 * A) P1 R1 P2 R2 CP CR Heps BA2) as ([X1 X2] & [Y1 Y2] & _).
    destruct (add_step _ _ _ _ eps (2 * A) Q1 S1 Q2 S2 CQ CS Heps BA2) as ([V1 V2'] & [W1 W2] & _).
    assert (L : 2 * eps + 4.1 * (U * (2 * A)) <= 10 * (2 * (2 * 1)) * (2 * (2 * 1)) * A * U) by (unfold eps; lra).
    clear - X1 X2 Y1 Y2 V1 V2' W1 W2 L CP CQ CR CS Hj A0. cbn [fft_rec].
    destruct j as [|[|[|j]]]; (split; [assumption|]); (split; [eapply Rle_trans; [eassumption|exact L]|]);
      (eapply Rle_trans; [first [apply cn_tri|apply cn_sub]|lra]).
  - (* one more level *)
    set (k2 := S (S k)) in *. assert (Kb : (3 <= S k2 <= 29)%nat) by (unfold k2 in *; lia).
    pose proof (fft_rec_S arith64 k y j) as ER. fold k2 in ER. cbv zeta in ER. rewrite ER. clear ER. rewrite Nat.pow_succ_r' in Hj, Hy. rewrite !Nat.pow_succ_r'. set (M := (2 ^ k2)%nat) in *.
    assert (M0 : (0 < M)%nat) by (apply Nat.neq_0_lt_0, Nat.pow_nonzero; lia).
    rewrite dft_step by assumption.
    assert (He : forall n, (n < M)%nat -> F2 (y (2 * n)%nat) /\ cn (V2 (y (2 * n)%nat)) <= A) by (intros n Hn; apply Hy; lia).
    assert (Ho : forall n, (n < M)%nat -> F2 (y (2 * n + 1)%nat) /\ cn (V2 (y (2 * n + 1)%nat)) <= A) by (intros n Hn; apply Hy; lia).
    assert (BG := big_scale A k2 ltac:(lia) HA). set (G := N2 k2 * A) in *. destruct (big_top G BG) as (G0 & hG & TG).
    pose proof (N2_pos k2) as P1. assert (P4 : 4 <= N2 k2) by (apply Rle_trans with (N2 2); [unfold N2; cbn; lra|apply N2_le; unfold k2; lia]).
    assert (P28 : N2 k2 <= 268435456) by (rewrite <- N2_28; apply N2_le; lia).
    set (eps := 10 * N2 k2 * N2 k2 * A * U) in *.
    assert (EQ : eps = 10 * (N2 k2 * U) * G) by (unfold eps, G; ring).
    assert (NU : 0 <= N2 k2 * U <= 268435456 * / 9007199254740992) by (split; [apply Rmult_le_pos; lra|apply Rmult_le_compat; lra]).
    assert (Heps : eps <= 0.001 * G) by (rewrite EQ; apply Rmult_le_compat_r; lra).
    assert (HM28 : (M <= 2 ^ 28)%nat) by (unfold M; apply Nat.pow_le_mono_r; lia).
    assert (KEY : forall i, (i < M)%nat ->
      let w := tws arith64 (step_factor arith64 (2 * M)) (a_one arith64, a_zero arith64) i in
      let e := fft_rec arith64 k2 (fun n => y (2 * n)%nat) i in let o := fft_rec arith64 k2 (fun n => y (2 * n + 1)%nat) i in
      let E := dft M (fun n => V2 (y (2 * n)%nat)) i in let O := Cmul (dft M (fun n => V2 (y (2 * n + 1)%nat)) i) (w_exact M i) in
      F2 e /\ F2 (cmul arith64 o w) /\ cn (minus2 (V2 e) E) <= eps /\ cn (minus2 (V2 (cmul arith64 o w)) O) <= (1 + / 2097152) * eps + G * (15 * N2 k2 * U) + 4.1 * (U * G) /\ cn E <= G /\ cn O <= G).
    { intros i Hi w e o E O. destruct (IH ltac:(lia) _ A HA He i Hi) as (Fe & Ee & Ce). destruct (IH ltac:(lia) _ A HA Ho i Hi) as (Fo & Eo & Co).
      destruct (tws_err (S k2) i Kb ltac:(lia)) as (Fw & Ew & Cw). replace (S k2 - 1)%nat with k2 in Ew by lia.
      assert (EM : (2 ^ S k2 = 2 * M)%nat) by (unfold M; apply Nat.pow_succ_r'). rewrite EM in Fw, Ew, Cw.
      change (mk64 1 0) with (a_one arith64) in Fw, Ew, Cw. change (fzero : f64) with (a_zero arith64) in Fw, Ew, Cw. fold w in Fw, Ew, Cw. fold M in Ew.
      assert (Ew' : cn (minus2 (V2 w) (w_exact M i)) <= 15 * N2 k2 * U).
      { eapply Rle_trans; [exact Ew|]. apply Rmult_le_compat_r; [lra|]. apply Rmult_le_compat_l; [lra|]. rewrite <- N2_nat. apply le_INR. fold M. lia. }
      destruct (mul_step o w _ _ eps (15 * N2 k2 * U) G Fo Fw Eo Co Heps BG Ew' Cw) as [Fm Em].
      split; [exact Fe|]. split; [exact Fm|]. split; [exact Ee|]. split; [exact Em|]. split; [exact Ce|]. unfold O. rewrite cmul_w. exact Co. }
    assert (UG : 0 < U * G) by (apply Rmult_lt_0_compat; lra).
    assert (UGN : U * G <= 0.25 * (N2 k2 * (U * G))).
    { assert (4 * (U * G) <= N2 k2 * (U * G)) by (apply Rmult_le_compat_r; lra). lra. }
    set (Q := N2 k2 * (U * G)) in *. assert (EQ1 : eps = 10 * Q) by (rewrite EQ; unfold Q; ring).
    assert (EQ2 : G * (15 * N2 k2 * U) = 15 * Q) by (unfold Q; ring).
    set (eps2 := (1 + / 2097152) * eps + G * (15 * N2 k2 * U) + 4.1 * (U * G)) in *.
    assert (Q0 : 0 < Q) by (apply Rmult_lt_0_compat; lra).
    assert (QS : Q <= 0.0000001 * G) by (unfold Q; rewrite <- Rmult_assoc; apply Rmult_le_compat_r; lra).
    assert (Heps2 : eps2 <= 0.001 * G) by (unfold eps2; lra).
    assert (FINAL : 2 * ((eps + eps2) / 2) + 4.1 * (U * G) <= 10 * N2 (S k2) * N2 (S k2) * A * U).
    { rewrite N2_S. replace (10 * (2 * N2 k2) * (2 * N2 k2) * A * U) with (40 * Q) by (unfold Q, G; ring). unfold eps2. lra. }
    assert (ADD : forall a b al be, F2 a -> F2 b -> cn (minus2 (V2 a) al) <= eps -> cn (minus2 (V2 b) be) <= eps2 -> cn al <= G -> cn be <= G ->
      (F2 (cadd arith64 a b) /\ cn (minus2 (V2 (cadd arith64 a b)) (cadd arithR al be)) <= eps + eps2 + 4.1 * (U * G)) /\
      (F2 (csub arith64 a b) /\ cn (minus2 (V2 (csub arith64 a b)) (csub arithR al be)) <= eps + eps2 + 4.1 * (U * G))).
    { intros a b al be Fa Fb Ea Eb Ca Cb.
      pose proof (cn_near _ _ _ Ea) as Na. pose proof (cn_near _ _ _ Eb) as Nb.
      assert (X : 2 * (U * (1.001 * G + 1.001 * G + h)) <= 4.1 * (U * G)).
      { replace (4.1 * (U * G)) with (2 * (U * (2.05 * G))) by lra. apply Rmult_le_compat_l; [lra|]. apply Rmult_le_compat_l; lra. }
      destruct (cadd_err a b (1.001 * G) (1.001 * G) Fa Fb ltac:(lra) ltac:(lra) ltac:(lra)) as [T1 E1].
      destruct (csub_err a b (1.001 * G) (1.001 * G) Fa Fb ltac:(lra) ltac:(lra) ltac:(lra)) as [T2 E2].
      split.
      - split; [exact T1|]. eapply Rle_trans; [apply (cn_dist3 _ (plus2 (V2 a) (V2 b)))|].
        assert (cn (minus2 (plus2 (V2 a) (V2 b)) (cadd arithR al be)) <= eps + eps2); [|lra].
        replace (minus2 (plus2 (V2 a) (V2 b)) (cadd arithR al be)) with (plus2 (minus2 (V2 a) al) (minus2 (V2 b) be)) by (unfold minus2, plus2, cadd; cbn [fst snd a_add arithR]; f_equal; ring).
        eapply Rle_trans; [apply cn_tri|lra].
      - split; [exact T2|]. eapply Rle_trans; [apply (cn_dist3 _ (minus2 (V2 a) (V2 b)))|].
        assert (cn (minus2 (minus2 (V2 a) (V2 b)) (csub arithR al be)) <= eps + eps2); [|lra].
        replace (minus2 (minus2 (V2 a) (V2 b)) (csub arithR al be)) with (minus2 (minus2 (V2 a) al) (minus2 (V2 b) be)) by (unfold minus2, plus2, csub; cbn [fst snd a_sub arithR]; f_equal; ring).
        eapply Rle_trans; [apply cn_sub|lra]. }
    assert (GG : G + G <= N2 (S k2) * A) by (rewrite N2_S; unfold G; lra).
    destruct (j <? M)%nat eqn:QJ.
    + apply Nat.ltb_lt in QJ. destruct (KEY j QJ) as (K1 & K2 & K3 & K4 & K5 & K6).
      destruct (ADD _ _ _ _ K1 K2 K3 K4 K5 K6) as [[X1 X2] _]. split; [exact X1|]. split; [eapply Rle_trans; [exact X2|lra]|].
      eapply Rle_trans; [apply cn_tri|]. lra.
    + apply Nat.ltb_ge in QJ. destruct (KEY (j - M)%nat ltac:(lia)) as (K1 & K2 & K3 & K4 & K5 & K6).
      destruct (ADD _ _ _ _ K1 K2 K3 K4 K5 K6) as [_ [X1 X2]]. split; [exact X1|]. split; [eapply Rle_trans; [exact X2|lra]|].
      eapply Rle_trans; [apply cn_sub|]. lra.
Qed.
