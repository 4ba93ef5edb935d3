(** fasttan: accuracy, and the pole it gives a first-order allpass. *)
From Coq Require Import ZArith Reals Lra Lia List Bool.
From Flocq Require Import Core.Core IEEE754.BinarySingleNaN.
From Verif Require Import Common Float FloatFacts FloatRel FloatLerp Fft_Model Fast_Model Fast_Bits Fast_More Filt_Proof Sin_Proof Coeff_Proof Dyn_Proof Fast_Sin.
Local Open Scope R_scope.
Local Notation fin x := (is_finite x = true).
Local Notation v x := (B2R x).
Local Notation rn := (rnd 24 128).
Local Notation rd := (rnd 53 1024).

Lemma sin_lip x y : Rabs (sin x - sin y) <= Rabs (x - y).
Proof. rewrite <- (cos_shift x), <- (cos_shift y). eapply Rle_trans; [apply cos_lip|]. replace (PI / 2 - x - (PI / 2 - y)) with (- (x - y)) by ring. rewrite Rabs_Ropp. lra. Qed.
Lemma cos_low X : Rabs X <= 0.7855 -> 0.69 <= cos X.
Proof.
  intros H. assert (E : cos X = cos (Rabs X)) by (unfold Rabs; destruct (Rcase_abs X); [rewrite cos_neg|]; reflexivity). rewrite E.
  assert (P := Rabs_pos X). destruct (cos_quad (Rabs X) ltac:(lra)) as (L & _). assert (S := pow_incr (Rabs X) 0.7855 2 ltac:(lra)). lra.
Qed.
Lemma tan_near (x : f32) : fin x -> Rabs (v x) <= 0.7854 -> fin (fasttan x) /\ Rabs (v (fasttan x) - tan (v x)) <= 0.00017.
Proof.
  intros F H. destruct (fastsin_near x F ltac:(lra)) as (Fn & N & _). destruct (den x F H) as (Fy & Ey & By).
  set (y := fadd x halfpi) in *. destruct (fastsin_near y Fy ltac:(rewrite Rabs_pos_eq; lra)) as (Fd & D & _).
  assert (P := PI_tight). assert (C := cos_low (v x) ltac:(lra)). unfold fasttan. fold y. set (n := v (fastsin x)) in *. set (d := v (fastsin y)) in *.
  assert (Es : sin (v x + PI / 2) = cos (v x)). { rewrite sin_plus, cos_PI2, sin_PI2. ring. }
  assert (L := sin_lip (v y) (v x + PI / 2)). rewrite Es in L.
  assert (Dy : Rabs (v y - (v x + PI / 2)) <= 0.0000003) by (unfold kh in Ey; apply Rabs_le_inv in Ey; apply Rabs_le; lra).
  assert (D' : Rabs (d - cos (v x)) <= 0.0000515). { replace (d - cos (v x)) with ((d - sin (v y)) + (sin (v y) - cos (v x))) by ring. eapply Rle_trans; [apply Rabs_triang|]. lra. }
  assert (Bd : 0.6899 <= d <= 1.0001) by (apply Rabs_le_inv in D'; assert (B := COS_bound (v x)); lra).
  set (S := sin (v x)) in *. set (K := cos (v x)) in *.
  assert (BS : Rabs S <= 0.7854). { assert (Q := sin_lip (v x) 0). rewrite sin_0, !Rminus_0_r in Q. unfold S. lra. }
  assert (T : Rabs (S / K) <= 1.139). { unfold Rdiv. rewrite Rabs_mult, (Rabs_pos_eq (/ K)) by (left; apply Rinv_0_lt_compat; lra). apply (Rmult_le_reg_r K); [lra|]. rewrite Rmult_assoc, Rinv_l, Rmult_1_r by lra. assert (1.139 * 0.69 <= 1.139 * K) by lra. lra. }
  assert (E : n / d - S / K = ((n - S) + S / K * (K - d)) / d) by (field; lra).
  assert (Q : Rabs (n / d - S / K) <= 0.00016).
  { rewrite E. unfold Rdiv at 1. rewrite Rabs_mult, (Rabs_pos_eq (/ d)) by (left; apply Rinv_0_lt_compat; lra).
    apply (Rmult_le_reg_r d); [lra|]. rewrite Rmult_assoc, Rinv_l, Rmult_1_r by lra.
    assert (X := abs2 _ _ (K - d) 0.0000515 T ltac:(rewrite Rabs_minus_sym; exact D')). eapply Rle_trans; [apply Rabs_triang|]. assert (0.00016 * 0.6899 <= 0.00016 * d) by lra. lra. }
  assert (B2 : Rabs (n / d) <= 2). { replace (n / d) with ((n / d - S / K) + S / K) by ring. eapply Rle_trans; [apply Rabs_triang|]. lra. }
  destruct (fdiv_bnd (fastsin x) (fastsin y) (bpow radix2 1) Fn) as (V & G & _); [fold d; lra|apply fmt_bpow; cbn; lia|apply bpow_lt; lia|exact B2|].
  split; [exact G|]. rewrite V. fold n d. assert (R := re (n / d) 1 ltac:(lia) B2). change (bpow radix2 (1 - 24 - 1)) with (/ 16777216) in R.
  unfold tan. fold S K. replace (rn (n / d) - S / K) with ((rn (n / d) - n / d) + (n / d - S / K)) by ring. eapply Rle_trans; [apply Rabs_triang|]. lra.
Qed.
Lemma tan_inside (x : f32) : fin x -> Rabs (v x) <= 0.78539 -> Rabs (v (fasttan x)) <= 1 - / 262144.
Proof.
  intros F H. destruct (fastsin_near x F ltac:(lra)) as (Fn & _ & (s & Ex & N)). destruct (den x F ltac:(lra)) as (Fy & Ey & By).
  set (y := fadd x halfpi) in *. destruct (fastsin_near y Fy ltac:(rewrite Rabs_pos_eq; lra)) as (Fd & Ds & (s' & Es' & D)).
  rewrite (Rabs_pos_eq (v y)) in Es', D by lra. assert (S' : sg s' = 1). { unfold sg in *. destruct s'; [lra|reflexivity]. } rewrite S', Rmult_1_l in D.
  set (A := Rabs (v x)) in *. assert (HA : 0 <= A <= 0.78539) by (split; [apply Rabs_pos|exact H]).
  destruct (chain_gap A (v y) HA) as (_ & G).
  { unfold sg in Ex. destruct s; [right; replace (v y - (kh - A)) with (v y - (v x + kh)) by lra|left; replace (v y - (kh + A)) with (v y - (v x + kh)) by lra]; exact Ey. }
  assert (An : Rabs (v (fastsin x)) = Rabs (chain A 1 A)). { rewrite N, Rabs_mult. unfold sg. destruct s; [rewrite (Rabs_left (-1)) by lra|rewrite Rabs_R1]; ring. }
  rewrite <- An, <- D in G. apply Rabs_le_inv in Ds. assert (B := SIN_bound (v y)). set (n := v (fastsin x)) in *. set (d := v (fastsin y)) in *. assert (Pn := Rabs_pos n).
  assert (Q : Rabs (n / d) <= 1 - 0.0000039).
  { unfold Rdiv. rewrite Rabs_mult, (Rabs_pos_eq (/ d)) by (left; apply Rinv_0_lt_compat; lra). apply (Rmult_le_reg_r d); [lra|]. rewrite Rmult_assoc, Rinv_l, Rmult_1_r by lra. lra. }
  destruct (fdiv_bnd (fastsin x) (fastsin y) (bpow radix2 0) Fn) as (V & _ & _); [fold d; lra|apply fmt_bpow; cbn; lia|apply bpow_lt; lia|fold n d; change (bpow radix2 0) with 1; lra|].
  unfold fasttan. fold y. rewrite V. fold n d. assert (R := re (n / d) 0 ltac:(lia) ltac:(change (bpow radix2 0) with 1; lra)). change (bpow radix2 (0 - 24 - 1)) with (/ 33554432) in R.
  replace (rn (n / d)) with ((rn (n / d) - n / d) + n / d) by ring. eapply Rle_trans; [apply Rabs_triang|]. lra.
Qed.
Lemma tan_lip x y : Rabs x <= 0.7855 -> Rabs y <= 0.7855 -> Rabs (tan x - tan y) <= 2.2 * Rabs (x - y).
Proof.
  intros Hx Hy. assert (Cx := cos_low x Hx). assert (Cy := cos_low y Hy). assert (Lx := COS_bound x). assert (Ly := COS_bound y).
  replace (tan x - tan y) with (sin (x - y) / (cos x * cos y)) by (rewrite sin_minus; unfold tan; field; lra).
  assert (P : 0.476 <= cos x * cos y) by (assert (X := Rmult_le_compat 0.69 (cos x) 0.69 (cos y) ltac:(lra) ltac:(lra) Cx Cy); lra).
  assert (S := sin_lip (x - y) 0). rewrite sin_0, !Rminus_0_r in S. unfold Rdiv. rewrite Rabs_mult, (Rabs_pos_eq (/ _)) by (left; apply Rinv_0_lt_compat; lra).
  apply (Rmult_le_reg_r (cos x * cos y)); [lra|]. rewrite Rmult_assoc, Rinv_l, Rmult_1_r by lra. assert (Q := Rabs_pos (x - y)).
  assert (X := Rmult_le_compat_l (2.2 * Rabs (x - y)) 0.476 (cos x * cos y) ltac:(lra) P). lra.
Qed.
(** the angle in floats *)
Lemma angle_near (f : f64) (n : Z) : fin f -> (1 <= n < 2 ^ 32)%Z -> 0 <= v f <= IZR n / 2 ->
  fin (ap_angle32 f n) /\ Rabs (v (ap_angle32 f n) - (PI * v f / IZR n - PI / 4)) <= 0.0000001.
Proof.
  intros F Hn Hf. change (2 ^ 32)%Z with 4294967296%Z in Hn.
  assert (N1 : 1 <= IZR n) by (apply IZR_le; lia). assert (N2 : IZR n <= 4294967296) by (apply IZR_le; lia).
  destruct (mk64_small n 0 ltac:(change (2 ^ 53)%Z with 9007199254740992%Z; lia) ltac:(lia)) as (Vn & Fn). cbn [bpow] in Vn. rewrite Rmult_1_r in Vn.
  destruct (mk64_small 884279719003555 (-48) ltac:(lia) ltac:(lia)) as (Vp & Fp). fold pi64 in Vp, Fp. change (bpow radix2 (-48)) with (/ 281474976710656) in Vp.
  destruct (mk64_small 884279719003555 (-50) ltac:(lia) ltac:(lia)) as (Vk & Fk). change (bpow radix2 (-50)) with (/ 1125899906842624) in Vk.
  set (p := v pi64) in *. assert (Bp : 3.1415926535 <= p <= 3.1415926537) by lra.
  assert (B40 : forall k, (-100 <= k <= 100)%Z -> fmt 53 1024 (bpow radix2 k) /\ bpow radix2 k < bpow radix2 1024) by (intros k K; split; [apply fmt_bpow; cbn; lia|apply bpow_lt; lia]).
  destruct (B40 40%Z ltac:(lia)) as (G1 & G2). assert (E40 : bpow radix2 40 = 1099511627776) by reflexivity.
  assert (Bm : 0 <= p * v f <= 3.15 * IZR n / 2). { split; [apply Rmult_le_pos; lra|]. assert (X := Rmult_le_compat p 3.15 (v f) (IZR n / 2) ltac:(lra) ltac:(lra) ltac:(lra) ltac:(lra)). lra. }
  destruct (fmul_bnd pi64 f (bpow radix2 40) Fp F G1 G2) as (M & FM & _); [rewrite Rabs_pos_eq; fold p; lra|]. fold p in M.
  assert (R1 : Rabs (v (fmul pi64 f) - p * v f) <= / 1000000000 * IZR n). { rewrite M. eapply Rle_trans; [apply rd_err_all|]. rewrite Rabs_pos_eq by lra. assert (Q0 : bpow radix2 (-1000) <= bpow radix2 (-50)) by (apply bpow_le; lia). change (bpow radix2 (-50)) with (/ 1125899906842624) in Q0. change (bpow radix2 (-53)) with (/ 9007199254740992). lra. }
  set (m := v (fmul pi64 f)) in *. apply Rabs_le_inv in R1.
  assert (Q1 : m / IZR n - p * (v f / IZR n) = (m - p * v f) / IZR n) by (field; lra).
  assert (Q2 : Rabs (m / IZR n - p * (v f / IZR n)) <= / 1000000000).
  { rewrite Q1. unfold Rdiv. rewrite Rabs_mult, (Rabs_pos_eq (/ IZR n)) by (left; apply Rinv_0_lt_compat; lra). apply (Rmult_le_reg_r (IZR n)); [lra|]. rewrite Rmult_assoc, Rinv_l, Rmult_1_r by lra. apply Rabs_le. lra. }
  set (r := v f / IZR n) in *. assert (Br : 0 <= r <= 1 / 2).
  { unfold r. split; [apply Rmult_le_pos; [lra|left; apply Rinv_0_lt_compat; lra]|]. apply (Rmult_le_reg_r (IZR n)); [lra|]. unfold Rdiv. rewrite Rmult_assoc, Rinv_l by lra. lra. }
  assert (Bpr : 0 <= p * r <= 1.5708). { split; [apply Rmult_le_pos; lra|]. assert (X := Rmult_le_compat p 3.1415926537 r (1 / 2) ltac:(lra) ltac:(lra) ltac:(lra) ltac:(lra)). lra. }
  apply Rabs_le_inv in Q2.
  destruct (fdiv_bnd (fmul pi64 f) (mk64 n 0) (bpow radix2 40) FM) as (D & FD & _); [rewrite Vn; lra|exact G1|exact G2|rewrite Vn; fold m; apply Rabs_le; lra|]. rewrite Vn in D. fold m in D.
  assert (R2 : Rabs (v (fdiv (fmul pi64 f) (mk64 n 0)) - m / IZR n) <= / 1000000000). { rewrite D. eapply Rle_trans; [apply rnd_err; [|apply (Rle_trans _ (bpow radix2 1)); [apply Rabs_le; change (bpow radix2 1) with 2; lra|apply Rle_refl]]; cbn; lia|]. change (bpow radix2 (1 - 53 - 1)) with (/ 9007199254740992). lra. }
  set (q := fdiv (fmul pi64 f) (mk64 n 0)) in *. apply Rabs_le_inv in R2.
  destruct (fsub_bnd q (mk64 884279719003555 (-50)) (bpow radix2 40) FD Fk G1 G2) as (S & FS & _); [rewrite Vk; apply Rabs_le; lra|]. rewrite Vk in S.
  set (t := fsub q (mk64 884279719003555 (-50))) in *.
  assert (R3 : Rabs (v t - (v q - 884279719003555 * / 1125899906842624)) <= / 1000000000). { rewrite S. eapply Rle_trans; [apply rnd_err; [|apply (Rle_trans _ (bpow radix2 1)); [apply Rabs_le; change (bpow radix2 1) with 2; lra|apply Rle_refl]]; cbn; lia|]. change (bpow radix2 (1 - 53 - 1)) with (/ 9007199254740992). lra. }
  apply Rabs_le_inv in R3. assert (Bt : Rabs (v t) <= 1) by (apply Rabs_le; lra).
  assert (R4 := re (v t) 0 ltac:(lia) Bt). change (bpow radix2 (0 - 24 - 1)) with (/ 33554432) in R4.
  unfold ap_angle32. fold q t. unfold to32. destruct (fconv_R (p := 53) (e := 1024) (p' := 24) (e' := 128) t FS) as (C & FC).
  { apply (Rle_lt_trans _ (bpow radix2 0)); [apply rB; [lia|exact Bt]|apply bpow_lt; lia]. }
  split; [exact FC|]. rewrite C. apply Rabs_le_inv in R4.
  assert (PP := PI_tight). assert (Er : PI * v f / IZR n = PI * r) by (unfold r; field; lra). rewrite Er.
  assert (Dp : Rabs ((p - PI) * (r - 1 / 4)) <= 0.0000001 * (1 / 4)) by (apply abs2; apply Rabs_le; lra).
  apply Rabs_le_inv in Dp. replace ((p - PI) * (r - 1 / 4)) with (p * r - p / 4 - (PI * r - PI / 4)) in Dp by field. apply Rabs_le. lra.
Qed.
Lemma pole_ok (f : f64) (n : Z) : fin f -> (1 <= n < 2 ^ 32)%Z -> 0 <= v f <= IZR n / 2 ->
  fin (ap_pole32 f n) /\ Rabs (v (ap_pole32 f n) - tan (PI * v f / IZR n - PI / 4)) <= 0.00018.
Proof.
  intros F Hn Hf. destruct (angle_near f n F Hn Hf) as (Fa & Ea). set (th := PI * v f / IZR n - PI / 4) in *.
  assert (N1 : 1 <= IZR n) by (apply IZR_le; lia). assert (P := PI_tight).
  assert (Bth : Rabs th <= 0.785399).
  { set (r := v f / IZR n). assert (Br : 0 <= r <= 1 / 2).
    { unfold r. split; [apply Rmult_le_pos; [lra|left; apply Rinv_0_lt_compat; lra]|]. apply (Rmult_le_reg_r (IZR n)); [lra|]. unfold Rdiv. rewrite Rmult_assoc, Rinv_l by lra. lra. }
    replace th with (PI * (r - 1 / 4)) by (unfold th, r; field; lra). eapply Rle_trans; [apply (abs2 _ 3.1415927 _ (1 / 4)); apply Rabs_le; lra|]. lra. }
  assert (Ba : Rabs (v (ap_angle32 f n)) <= 0.7854) by (apply Rabs_le_inv in Bth; apply Rabs_le_inv in Ea; apply Rabs_le; lra).
  destruct (tan_near (ap_angle32 f n) Fa Ba) as (Ft & Et). split; [exact Ft|].
  assert (L := tan_lip (v (ap_angle32 f n)) th ltac:(lra) ltac:(lra)). unfold ap_pole32.
  replace (v (fasttan (ap_angle32 f n)) - tan th) with ((v (fasttan (ap_angle32 f n)) - tan (v (ap_angle32 f n))) + (tan (v (ap_angle32 f n)) - tan th)) by ring.
  eapply Rle_trans; [apply Rabs_triang|]. lra.
Qed.
Lemma pole_inside (f : f64) (n : Z) : fin f -> (1 <= n < 2 ^ 32)%Z -> 0.000003 * IZR n <= v f <= (1 / 2 - 0.000003) * IZR n ->
  Rabs (v (ap_pole32 f n)) <= 1 - / 262144.
Proof.
  intros F Hn Hf. assert (N1 : 1 <= IZR n) by (apply IZR_le; lia). assert (P := PI_tight).
  destruct (angle_near f n F Hn ltac:(lra)) as (Fa & Ea). apply tan_inside; [exact Fa|].
  set (r := v f / IZR n). assert (Br : 0.000003 <= r <= 1 / 2 - 0.000003).
  { unfold r, Rdiv. split; apply (Rmult_le_reg_r (IZR n)); try lra; rewrite Rmult_assoc, Rinv_l by lra; lra. }
  replace (PI * v f / IZR n - PI / 4) with (PI * (r - 1 / 4)) in Ea by (unfold r; field; lra).
  assert (B : Rabs (PI * (r - 1 / 4)) <= 3.1415927 * (1 / 4 - 0.000003)) by (apply abs2; apply Rabs_le; lra).
  apply Rabs_le_inv in Ea. apply Rabs_le_inv in B. apply Rabs_le. lra.
Qed.
Lemma any_angle (th : f32) r : fin th -> 0.000003 <= r <= 1 / 2 - 0.000003 -> Rabs (v th - (PI * r - PI / 4)) <= 0.0000001 ->
  Rabs (v (fasttan th)) <= 1 - / 262144 /\ Rabs (v (fasttan th) - tan (PI * r - PI / 4)) <= 0.00018.
Proof.
  intros F Br Ea. assert (P := PI_tight). replace (PI * r - PI / 4) with (PI * (r - 1 / 4)) in * by field.
  assert (B : Rabs (PI * (r - 1 / 4)) <= 3.1415927 * (1 / 4 - 0.000003)) by (apply abs2; apply Rabs_le; lra). set (a := PI * (r - 1 / 4)) in *.
  assert (Bt : Rabs (v th) <= 0.78539). { assert (Ea' := Ea). apply Rabs_le_inv in Ea'. apply Rabs_le_inv in B. apply Rabs_le. lra. }
  split; [apply tan_inside; assumption|]. destruct (tan_near th F ltac:(lra)) as (_ & Et). assert (L := tan_lip (v th) a ltac:(lra) ltac:(lra)).
  replace (v (fasttan th) - tan a) with ((v (fasttan th) - tan (v th)) + (tan (v th) - tan a)) by ring. eapply Rle_trans; [apply Rabs_triang|]. lra.
Qed.
