(** The sine table against the real sine: interval half-angle bounds for one step of the
    table, then a binary-power rotation in fixed point, checked by computation. *)
From Coq Require Import Reals Lra Psatz.
From Flocq Require Import Core.Core IEEE754.BinarySingleNaN.
From Verif Require Import Common CommonFacts Float FloatFacts Phase_Model Frac_Model Frac_Proof Sin_Table Osc_Model Osc_Spec Osc_Proof.
Local Open Scope R_scope.

Definition U : Z := (2 ^ 56)%Z.
Definition HU : Z := (2 ^ 55)%Z.
Lemma HU_U : IZR U = 2 * IZR HU. Proof. rewrite <- mult_IZR. reflexivity. Qed.
Lemma HU_pos : 0 < IZR HU. Proof. apply IZR_lt. reflexivity. Qed.

(** ** half angles *)
Definition encl (i : Z * Z) (x : R) : Prop := IZR (fst i) <= IZR U * x <= IZR (snd i).
Definition half_cos (i : Z * Z) : Z * Z :=
  (Z.sqrt (HU * (U + fst i)), Z.sqrt (HU * (U + snd i)) + 1)%Z.
Definition half_sin (i : Z * Z) : Z * Z :=
  (Z.sqrt (HU * (U - snd i)), Z.sqrt (HU * (U - fst i)) + 1)%Z.

Lemma sqrt_lo a y : 0 <= y -> IZR a <= y * y -> IZR (Z.sqrt a) <= y.
Proof.
  intros Hy H. destruct (Z_lt_le_dec a 0) as [N|N].
  - rewrite Z.sqrt_neg by lia. exact Hy.
  - destruct (Z.sqrt_spec a N) as [S _]. apply IZR_le in S. rewrite mult_IZR in S.
    apply Rsqr_incr_0_var; [unfold Rsqr; lra|exact Hy].
Qed.
Lemma sqrt_hi a y : (0 <= a)%Z -> y * y <= IZR a -> y <= IZR (Z.sqrt a + 1).
Proof.
  intros N H. destruct (Z.sqrt_spec a N) as [_ S]. apply IZR_lt in S. rewrite mult_IZR, <- Z.add_1_r in S.
  assert (0 <= IZR (Z.sqrt a + 1)) by (apply IZR_le; pose proof (Z.sqrt_nonneg a); lia).
  destruct (Rle_lt_dec y 0); [lra|]. apply Rsqr_incr_0_var; [unfold Rsqr; lra|assumption].
Qed.
Lemma half_cos_ok i x : (0 <= fst i)%Z -> 0 <= cos (x / 2) -> encl i (cos x) -> encl (half_cos i) (cos (x / 2)).
Proof.
  intros Hi Hc [H1 H2].
  assert (Q : (IZR U * cos (x / 2)) * (IZR U * cos (x / 2)) = IZR HU * (IZR U + IZR U * cos x)).
  { replace (cos x) with (2 * cos (x / 2) * cos (x / 2) - 1) by (rewrite <- cos_2a_cos; f_equal; lra). rewrite HU_U. ring. }
  pose proof HU_pos as P. pose proof HU_U as E.
  split; cbn [fst snd half_cos].
  - apply sqrt_lo; [apply Rmult_le_pos; lra|]. rewrite Q, mult_IZR, plus_IZR. apply Rmult_le_compat_l; lra.
  - apply sqrt_hi.
    + apply Z.mul_nonneg_nonneg; [discriminate|]. apply le_IZR. rewrite plus_IZR. apply IZR_le in Hi. lra.
    + rewrite Q, mult_IZR, plus_IZR. apply Rmult_le_compat_l; lra.
Qed.
Lemma half_sin_ok i x : (fst i <= U)%Z -> 0 <= sin (x / 2) -> encl i (cos x) -> encl (half_sin i) (sin (x / 2)).
Proof.
  intros Hi Hc [H1 H2].
  assert (Q : (IZR U * sin (x / 2)) * (IZR U * sin (x / 2)) = IZR HU * (IZR U - IZR U * cos x)).
  { replace (cos x) with (1 - 2 * sin (x / 2) * sin (x / 2)) by (rewrite <- cos_2a_sin; f_equal; lra). rewrite HU_U. ring. }
  pose proof HU_pos as P. pose proof HU_U as E.
  split; cbn [fst snd half_sin].
  - apply sqrt_lo; [apply Rmult_le_pos; lra|]. rewrite Q, mult_IZR, minus_IZR. apply Rmult_le_compat_l; lra.
  - apply sqrt_hi.
    + apply Z.mul_nonneg_nonneg; [discriminate|lia].
    + rewrite Q, mult_IZR, minus_IZR. apply Rmult_le_compat_l; lra.
Qed.

Fixpoint halves (n : nat) : Z * Z := match n with O => (0, 0)%Z | S n => half_cos (halves n) end.
Lemma cos_pos a : 0 <= a <= PI / 2 -> 0 <= cos a.
Proof. intros H. apply cos_ge_0; lra. Qed.
Lemma halves_ok n : encl (halves n) (cos (PI / 2 / 2 ^ n)).
Proof.
  pose proof PI_RGT_0 as PP. induction n as [|n IH].
  - cbn [halves pow]. replace (PI / 2 / 1) with (PI / 2) by field. rewrite cos_PI2. unfold encl. cbn [fst snd]. lra.
  - cbn [halves]. replace (PI / 2 / 2 ^ S n) with (PI / 2 / 2 ^ n / 2).
    2:{ cbn [pow]. field. apply pow_nonzero. lra. }
    assert (P : 1 <= 2 ^ n) by (apply pow_R1_Rle; lra).
    assert (Q : 0 <= PI / 2 / 2 ^ n <= PI / 2).
    { split; [apply Rmult_le_pos; [lra|apply Rlt_le, Rinv_0_lt_compat; lra]|].
      apply Rmult_le_reg_r with (2 ^ n); [lra|]. unfold Rdiv at 1. rewrite Rmult_assoc, Rinv_l by lra. nra. }
    apply half_cos_ok; [|apply cos_pos; lra|exact IH].
    destruct n; [discriminate|]. cbn [halves half_cos fst]. apply Z.sqrt_nonneg.
Qed.
Definition delta : R := PI / 512.
Lemma delta_eq : PI / 2 / 2 ^ 8 = delta. Proof. unfold delta. field. Qed.
Lemma delta2_eq : PI / 2 / 2 ^ 7 / 2 = delta. Proof. unfold delta. field. Qed.
Lemma cos_delta : encl (halves 8) (cos delta). Proof. rewrite <- delta_eq. apply halves_ok. Qed.
Lemma sin_delta : encl (half_sin (halves 7)) (sin delta).
Proof.
  rewrite <- delta2_eq. apply half_sin_ok.
  - vm_compute. discriminate.
  - rewrite delta2_eq. unfold delta. pose proof PI_RGT_0. apply sin_ge_0; lra.
  - apply halves_ok.
Qed.

(** ** rotation in fixed point: errors measured by the euclidean norm add up linearly *)
Definition fmulk (A B : Z) : Z := Z.shiftr (A * B) 56.
Lemma fmulk_bnd A B : IZR A * IZR B / IZR U - 1 <= IZR (fmulk A B) <= IZR A * IZR B / IZR U.
Proof.
  unfold fmulk. rewrite Z.shiftr_div_pow2 by lia. fold U.
  pose proof (Z.div_mod (A * B) U ltac:(discriminate)) as D. pose proof (Z.mod_pos_bound (A * B) U ltac:(reflexivity)) as M.
  assert (UP : 0 < IZR U) by (apply IZR_lt; reflexivity).
  apply (f_equal IZR) in D. rewrite plus_IZR, !mult_IZR in D. destruct M as [M1 M2]. apply IZR_le in M1. apply IZR_lt in M2.
  set (q := IZR (A * B / U)) in *. set (m := IZR ((A * B) mod U)) in *. rewrite D.
  replace ((IZR U * q + m) / IZR U) with (q + m / IZR U) by (field; lra).
  assert (0 <= m / IZR U) by (apply Rmult_le_pos; [lra|apply Rlt_le, Rinv_0_lt_compat; exact UP]).
  assert (m / IZR U <= 1).
  { apply Rmult_le_reg_r with (1 := UP). unfold Rdiv. rewrite Rmult_assoc, Rinv_l by lra. lra. }
  lra.
Qed.
Definition rot (p q : Z * Z) : Z * Z :=
  (fmulk (fst p) (fst q) - fmulk (snd p) (snd q), fmulk (snd p) (fst q) + fmulk (fst p) (snd q))%Z.
(** distance of the fixed-point pair from the point of the circle at angle x *)
Definition err (p : Z * Z) (x : R) : R := dist_euc (IZR (fst p)) (IZR (snd p)) (IZR U * cos x) (IZR U * sin x).
Lemma abs_cos x : Rabs (cos x) <= 1. Proof. apply Rabs_le. apply COS_bound. Qed.
Lemma abs_sin x : Rabs (sin x) <= 1. Proof. apply Rabs_le. apply SIN_bound. Qed.
Lemma dist_le a b c d m : 0 <= m -> (a - c) * (a - c) + (b - d) * (b - d) <= m * m -> dist_euc a b c d <= m.
Proof.
  intros Hm H. unfold dist_euc, Rsqr. rewrite <- (sqrt_square m Hm). apply sqrt_le_1_alt. exact H.
Qed.
Lemma dist_sq a b c d m : 0 <= m -> dist_euc a b c d <= m -> (a - c) * (a - c) + (b - d) * (b - d) <= m * m.
Proof.
  intros Hm H. unfold dist_euc, Rsqr in H.
  assert (P : 0 <= (a - c) * (a - c) + (b - d) * (b - d)) by (pose proof (Rle_0_sqr (a - c)) as P1; pose proof (Rle_0_sqr (b - d)) as P2; unfold Rsqr in P1, P2; lra).
  rewrite <- (sqrt_sqrt _ P). apply Rmult_le_compat; try apply sqrt_pos; exact H.
Qed.
Lemma circle x : cos x * cos x + sin x * sin x = 1.
Proof. pose proof (sin2_cos2 x) as H. unfold Rsqr in H. lra. Qed.
Lemma rot_err p q x y e e1 : 0 <= e -> 0 <= e1 -> e <= IZR U -> err p x <= e -> err q y <= e1 ->
  err (rot p q) (x + y) <= e + 2 * e1 + 4.
Proof.
  intros He He1 HU Hp Hq. destruct p as [C S], q as [A B]. unfold err, rot in *. cbn [fst snd] in *.
  assert (UP : 0 < IZR U) by (apply IZR_lt; reflexivity).
  pose proof (fmulk_bnd C A) as B1. pose proof (fmulk_bnd S B) as B2. pose proof (fmulk_bnd S A) as B3. pose proof (fmulk_bnd C B) as B4.
  rewrite minus_IZR, plus_IZR, cos_plus, sin_plus.
  set (W := IZR U) in *. set (c := IZR C) in *. set (s := IZR S) in *. set (a := IZR A) in *. set (b := IZR B) in *.
  set (p1 := IZR (fmulk C A)) in *. set (p2 := IZR (fmulk S B)) in *. set (p3 := IZR (fmulk S A)) in *. set (p4 := IZR (fmulk C B)) in *.
  set (cy := cos y) in *. set (sy := sin y) in *. set (cx := cos x) in *. set (sx := sin x) in *.
  pose proof (circle y) as CY. fold cy sy in CY. pose proof (circle x) as CX. fold cx sx in CX.
  eapply Rle_trans; [apply (Rgeom.triangle _ _ _ _ ((c * a - s * b) / W) ((s * a + c * b) / W))|].
  assert (D1 : dist_euc (p1 - p2) (p3 + p4) ((c * a - s * b) / W) ((s * a + c * b) / W) <= 4).
  { apply dist_le; [lra|].
    replace ((c * a - s * b) / W) with (c * a / W - s * b / W) by (field; lra).
    replace ((s * a + c * b) / W) with (s * a / W + c * b / W) by (field; lra).
    set (u := p1 - p2 - (c * a / W - s * b / W)). set (v := p3 + p4 - (s * a / W + c * b / W)).
    assert (-1 <= u <= 1) by (unfold u; lra). assert (-2 <= v <= 0) by (unfold v; lra). nra. }
  eapply Rle_trans; [apply Rplus_le_compat; [exact D1|apply (Rgeom.triangle _ _ _ _ (c * cy - s * sy) (s * cy + c * sy))]|].
  assert (Z2 : c * c + s * s <= 2 * W * (2 * W)).
  { assert (dist_euc c s 0 0 <= 2 * W).
    { eapply Rle_trans; [apply (Rgeom.triangle _ _ _ _ (W * cx) (W * sx))|].
      assert (dist_euc (W * cx) (W * sx) 0 0 <= W).
      { apply dist_le; [lra|]. replace ((W * cx - 0) * (W * cx - 0) + (W * sx - 0) * (W * sx - 0)) with (W * W * (cx * cx + sx * sx)) by ring. rewrite CX. lra. }
      lra. }
    apply dist_sq in H; [|lra]. rewrite !Rminus_0_r in H. exact H. }
  assert (D2 : dist_euc ((c * a - s * b) / W) ((s * a + c * b) / W) (c * cy - s * sy) (s * cy + c * sy) <= 2 * e1).
  { apply dist_sq in Hq; [|exact He1]. apply dist_le; [lra|].
    replace ((c * a - s * b) / W - (c * cy - s * sy)) with ((c * (a - W * cy) - s * (b - W * sy)) / W) by (field; lra).
    replace ((s * a + c * b) / W - (s * cy + c * sy)) with ((s * (a - W * cy) + c * (b - W * sy)) / W) by (field; lra).
    set (u := a - W * cy) in *. set (v := b - W * sy) in *.
    replace ((c * u - s * v) / W * ((c * u - s * v) / W) + (s * u + c * v) / W * ((s * u + c * v) / W))
      with ((c * c + s * s) * (u * u + v * v) * / (W * W)) by (field; lra).
    apply Rmult_le_reg_r with (W * W); [nra|]. rewrite Rmult_assoc, Rinv_l by nra. rewrite Rmult_1_r.
    apply Rle_trans with (2 * W * (2 * W) * (e1 * e1)); [|lra].
    apply Rmult_le_compat; [nra|nra|exact Z2|exact Hq]. }
  assert (D3 : dist_euc (c * cy - s * sy) (s * cy + c * sy) (W * (cx * cy - sx * sy)) (W * (sx * cy + cx * sy)) <= e).
  { apply dist_sq in Hp; [|exact He]. apply dist_le; [exact He|].
    replace ((c * cy - s * sy - W * (cx * cy - sx * sy)) * (c * cy - s * sy - W * (cx * cy - sx * sy)) +
             (s * cy + c * sy - W * (sx * cy + cx * sy)) * (s * cy + c * sy - W * (sx * cy + cx * sy)))
      with (((c - W * cx) * (c - W * cx) + (s - W * sx) * (s - W * sx)) * (cy * cy + sy * sy)) by ring.
    rewrite CY, Rmult_1_r. exact Hp. }
  lra.
Qed.

Definition g : Z * Z := (fst (halves 8), fst (half_sin (halves 7))).
Definition e_g : R := IZR (2 ^ 10).
Lemma g_ok : err g delta <= e_g.
Proof.
  destruct cos_delta as [C1 C2], sin_delta as [S1 S2]. unfold g, err, e_g. cbn [fst snd].
  apply dist_le; [apply IZR_le; discriminate|].
  assert (H1 : (snd (halves 8) <= fst (halves 8) + 2 ^ 9)%Z) by (vm_compute; discriminate).
  assert (H2 : (snd (half_sin (halves 7)) <= fst (half_sin (halves 7)) + 2 ^ 9)%Z) by (vm_compute; discriminate).
  apply IZR_le in H1, H2. rewrite plus_IZR in H1, H2. change (IZR (2 ^ 9)) with 512 in *. change (IZR (2 ^ 10)) with 1024.
  set (u := IZR (fst (halves 8)) - IZR U * cos delta). set (v := IZR (fst (half_sin (halves 7))) - IZR U * sin delta).
  assert (-512 <= u <= 0) by (unfold u; lra). assert (-512 <= v <= 0) by (unfold v; lra). nra.
Qed.

(** ** the table: walk round the circle, comparing each entry *)
Fixpoint chk_all (g z : Z * Z) (l : list Z) : bool :=
  match l with
  | [] => true
  | d :: t => ((Z.abs (snd z * 10 ^ 15 - Z.shiftl d 56) <=? 10 ^ 15 * 2 ^ 24) && (Z.abs d <=? 10 ^ 15) && chk_all g (rot z g) t)%Z%bool
  end.
Lemma chk_table : chk_all g (U, 0%Z) sin_literals = true.
Proof. vm_compute. reflexivity. Qed.

Lemma err_sin z x e : err z x <= e -> Rabs (IZR (snd z) - IZR U * sin x) <= e.
Proof.
  intros H. eapply Rle_trans; [|exact H]. unfold err, dist_euc. rewrite <- sqrt_Rsqr_abs. apply sqrt_le_1_alt.
  pose proof (Rle_0_sqr (IZR (fst z) - IZR U * cos x)). lra.
Qed.
Lemma chk_all_nth l : forall z i n d, (i + length l <= 2048)%nat -> err z (INR i * delta) <= INR i * (2 * e_g + 4) ->
  chk_all g z l = true -> nth_error l n = Some d ->
  Rabs (IZR d / IZR (10 ^ 15) - sin (INR (i + n) * delta)) <= bpow radix2 (-30) /\ (Z.abs d <= 10 ^ 15)%Z.
Proof.
  induction l as [|h t IH]; intros z i n d L Hz H N; [destruct n; discriminate|].
  cbn [chk_all] in H. apply andb_true_iff in H. destruct H as [H H3]. apply andb_true_iff in H. destruct H as [H1 H2].
  apply Z.leb_le in H1, H2. cbn [length] in L.
  assert (I : 0 <= INR i <= 2048). { split; [apply pos_INR|]. change 2048 with (IZR (Z.of_nat 2048)). rewrite <- INR_IZR_INZ. apply le_INR. lia. }
  assert (E : 0 <= INR i * (2 * e_g + 4) <= IZR (2 ^ 23)).
  { change e_g with 1024. change (IZR (2 ^ 23)) with 8388608. split; nra. }
  destruct n as [|n]; cbn [nth_error] in N.
  - injection N as <-. split; [|exact H2]. rewrite Nat.add_0_r.
    pose proof (err_sin _ _ _ Hz) as S. apply IZR_le in H1. rewrite Z.shiftl_mul_pow2 in H1 by lia. fold U in H1.
    rewrite abs_IZR, minus_IZR, !mult_IZR in H1. set (x := sin (INR i * delta)) in *.
    set (W := IZR U) in *. set (T := IZR (10 ^ 15)) in *.
    assert (TP : 0 < T) by (apply IZR_lt; reflexivity). assert (WP : 0 < W) by (apply IZR_lt; reflexivity).
    assert (WB : W = IZR (2 ^ 24) * 4294967296) by (unfold W; rewrite <- mult_IZR; reflexivity).
    change (IZR (2 ^ 23)) with 8388608 in *. change (IZR (2 ^ 24)) with 16777216 in *.
    assert (G : T * Rabs (IZR h / T - x) * W <= T * (16777216 + 8388608)).
    { rewrite <- (Rabs_pos_eq T) at 1 by lra. rewrite <- (Rabs_pos_eq W) at 1 by lra. rewrite <- !Rabs_mult.
      replace (T * (IZR h / T - x) * W) with (- (IZR (snd z) * T - IZR h * W) + T * (IZR (snd z) - W * x)) by (field; lra).
      eapply Rle_trans; [apply Rabs_triang|]. rewrite Rabs_Ropp, Rabs_mult, (Rabs_pos_eq T) by lra.
      rewrite Rmult_plus_distr_l. apply Rplus_le_compat; [exact H1|]. apply Rmult_le_compat_l; lra. }
    change (bpow radix2 (-30)) with (/ 1073741824).
    apply Rmult_le_reg_l with (1 := TP). apply Rmult_le_reg_r with (1 := WP).
    eapply Rle_trans; [exact G|]. rewrite WB, !Rmult_assoc. apply Rmult_le_compat_l; lra.
  - replace (i + S n)%nat with (S i + n)%nat by lia. apply (IH (rot z g) (S i) n d); [lia| |exact H3|exact N].
    rewrite S_INR. replace ((INR i + 1) * delta) with (INR i * delta + delta) by ring.
    eapply Rle_trans; [apply (rot_err z g (INR i * delta) delta (INR i * (2 * e_g + 4)) e_g)|].
    + lra.
    + apply IZR_le. discriminate.
    + apply Rle_trans with (IZR (2 ^ 23)); [lra|]. apply IZR_le. discriminate.
    + exact Hz.
    + exact g_ok.
    + lra.
Qed.
Lemma start_ok : err (U, 0%Z) (INR 0 * delta) <= INR 0 * (2 * e_g + 4).
Proof.
  cbn [INR]. rewrite !Rmult_0_l. unfold err. cbn [fst snd]. rewrite cos_0, sin_0. apply dist_le; [lra|]. lra.
Qed.

Lemma lit15_R d : (Z.abs d <= 10 ^ 15)%Z -> fin (lit15 d) /\ Rabs (B2R (lit15 d)) <= 1 /\
  Rabs (B2R (lit15 d) - IZR d / IZR (10 ^ 15)) <= bpow radix2 (-25) + bpow radix2 (-54).
Proof.
  intros H. unfold lit15.
  destruct (mk64_small d 0) as [E F]; [change (10 ^ 15)%Z with 1000000000000000%Z in H; change (2 ^ 53)%Z with 9007199254740992%Z; lia|lia|].
  destruct (mk64_small (10 ^ 15) 0) as [E' F']; [reflexivity|lia|].
  change (bpow radix2 0) with 1 in E, E'. rewrite Rmult_1_r in E, E'.
  assert (TP : 0 < IZR (10 ^ 15)) by (apply IZR_lt; reflexivity).
  assert (Q : Rabs (IZR d / IZR (10 ^ 15)) <= 1).
  { unfold Rdiv. rewrite Rabs_mult, Rabs_inv, (Rabs_pos_eq (IZR (10 ^ 15))) by lra.
    apply Rmult_le_reg_r with (1 := TP). rewrite Rmult_assoc, Rinv_l by lra. rewrite Rmult_1_r, Rmult_1_l, <- abs_IZR. apply IZR_le. exact H. }
  destruct (fdiv_bnd (mk64 d 0) (mk64 (10 ^ 15) 0) 1 F) as (Eq & Fq & Bq); [rewrite E'; lra|apply fmt64_1|apply lt1024; lra|rewrite E, E'; exact Q|].
  rewrite E, E' in Eq. apply Rabs_le_inv in Bq.
  destruct (to32_bnd _ Fq ltac:(lra)) as (F1 & E1 & B1). split; [exact F1|]. split; [apply Rabs_le; exact B1|].
  rewrite E1, Eq in *.
  assert (X1 : Rabs (r64 (IZR d / IZR (10 ^ 15)) - IZR d / IZR (10 ^ 15)) <= bpow radix2 (-54)).
  { apply (rnd_err (prec:=53) (emax:=1024) _ 0); [vm_compute; discriminate|exact Q]. }
  assert (X2 : Rabs (r32 (r64 (IZR d / IZR (10 ^ 15))) - r64 (IZR d / IZR (10 ^ 15))) <= bpow radix2 (-25)).
  { apply (rnd_err (prec:=24) (emax:=128) _ 0); [vm_compute; discriminate|]. change (bpow radix2 0) with 1. apply Rabs_le. exact Bq. }
  apply Rabs_le_inv in X1, X2. apply Rabs_le. lra.
Qed.

Lemma table_len : length sin_literals = 1025%nat. Proof. vm_compute. reflexivity. Qed.
Lemma sin_table_nth n : (n <= 1024)%nat -> exists v, nth_error sin_table n = Some v /\ fin v /\ Rabs (B2R v) <= 1 /\
  Rabs (B2R v - sin (INR n * delta)) <= bpow radix2 (-25) + bpow radix2 (-29).
Proof.
  intros H. destruct (nth_error sin_literals n) as [d|] eqn:N.
  2:{ apply nth_error_None in N. rewrite table_len in N. lia. }
  destruct (chk_all_nth sin_literals (U, 0%Z) 0 n d ltac:(rewrite table_len; lia) start_ok chk_table N) as [C A]. destruct (lit15_R d A) as (F & B & E).
  exists (lit15 d). split; [unfold sin_table; apply map_nth_error; exact N|]. split; [exact F|]. split; [exact B|].
  rewrite Nat.add_0_l in C. apply Rabs_le_inv in C, E.
  assert (bpow radix2 (-29) = 2 * bpow radix2 (-30)) by (exact (bpow_plus radix2 1 (-30))).
  assert (bpow radix2 (-54) <= bpow radix2 (-30)) by (apply bpow_le; lia). apply Rabs_le. lra.
Qed.

(** ** linear interpolation of the sine over one table step *)
Lemma cos_quad x : 0 <= x <= 1 -> 1 - x ^ 2 / 2 <= cos x <= 1 - x ^ 2 / 2 + x ^ 4 / 24.
Proof.
  intros H. destruct (pre_cos_bound x 0 ltac:(lra) ltac:(lra)) as [L R].
  unfold cos_approx, sum_f_R0, cos_term, fact in L, R. cbn [Nat.mul Nat.add INR pow] in L, R. lra.
Qed.
Lemma sin_cub x : 0 <= x <= 1 -> x - x ^ 3 / 6 <= sin x <= x.
Proof.
  intros H. destruct (pre_sin_bound x 0 ltac:(lra) ltac:(lra)) as [L _].
  unfold sin_approx, sum_f_R0, sin_term, fact in L. cbn [Nat.mul Nat.add INR pow] in L.
  split; [lra|]. destruct (Req_dec x 0) as [->|N]; [rewrite sin_0; lra|]. apply Rlt_le, sin_lt_x. lra.
Qed.
Lemma delta_bnd : 0 < delta <= / 128.
Proof. unfold delta. pose proof PI_RGT_0. pose proof PI_4. lra. Qed.

Lemma lerp_sin a mu : 0 <= mu <= 1 ->
  Rabs (sin (a + mu * delta) - (sin a + mu * (sin (a + delta) - sin a))) <= bpow radix2 (-17) + bpow radix2 (-23) + bpow radix2 (-28).
Proof.
  intros H. pose proof delta_bnd as D. set (h := delta) in *. rewrite !sin_plus.
  replace (sin a * cos (mu * h) + cos a * sin (mu * h) - (sin a + mu * (sin a * cos h + cos a * sin h - sin a)))
    with (sin a * (cos (mu * h) - 1 + mu * (1 - cos h)) + cos a * (sin (mu * h) - mu * sin h)) by ring.
  assert (M : 0 <= mu * h <= h) by nra.
  destruct (cos_quad (mu * h) ltac:(lra)) as [c1 c2]. destruct (cos_quad h ltac:(lra)) as [c3 c4].
  destruct (sin_cub (mu * h) ltac:(lra)) as [s1 s2]. destruct (sin_cub h ltac:(lra)) as [s3 s4].
  assert (H2 : 0 <= h ^ 2 <= / 16384). { split; [nra|]. replace (/ 16384) with (/ 128 * / 128) by field. nra. }
  assert (H3 : 0 <= h ^ 3 <= / 2097152). { replace (h ^ 3) with (h ^ 2 * h) by ring. split; [nra|]. replace (/ 2097152) with (/ 16384 * / 128) by field. apply Rmult_le_compat; lra. }
  assert (H4 : 0 <= h ^ 4 <= / 268435456). { replace (h ^ 4) with (h ^ 2 * h ^ 2) by ring. split; [nra|]. replace (/ 268435456) with (/ 16384 * / 16384) by field. apply Rmult_le_compat; lra. }
  assert (M2 : (mu * h) ^ 2 = mu * mu * h ^ 2) by ring. assert (M3 : (mu * h) ^ 3 = mu ^ 3 * h ^ 3) by ring.
  assert (M4 : (mu * h) ^ 4 = mu ^ 4 * h ^ 4) by ring.
  assert (mu2 : 0 <= mu * (1 - mu) <= / 4). { split; [nra|]. pose proof (Rle_0_sqr (mu - / 2)) as Sq. unfold Rsqr in Sq. lra. }
  assert (mu3 : 0 <= mu ^ 3 <= 1). { split; [apply pow_le; lra|]. rewrite <- (pow1 3). apply pow_incr. lra. }
  assert (mu4 : 0 <= mu ^ 4 <= 1). { split; [apply pow_le; lra|]. rewrite <- (pow1 4). apply pow_incr. lra. }
  assert (P3 : 0 <= mu ^ 3 * h ^ 3 <= h ^ 3) by nra. assert (P4 : 0 <= mu ^ 4 * h ^ 4 <= h ^ 4) by nra.
  assert (P5 : 0 <= mu * h ^ 4 <= h ^ 4) by nra. assert (P6 : 0 <= mu * h ^ 3 <= h ^ 3) by nra.
  assert (P2 : 0 <= mu * (1 - mu) * h ^ 2 <= / 4 * / 16384) by (split; [nra|apply Rmult_le_compat; lra]).
  assert (U1 : mu * (1 - h ^ 2 / 2) <= mu * cos h) by (apply Rmult_le_compat_l; lra).
  assert (U2 : mu * cos h <= mu * (1 - h ^ 2 / 2 + h ^ 4 / 24)) by (apply Rmult_le_compat_l; lra).
  assert (V1 : mu * (h - h ^ 3 / 6) <= mu * sin h) by (apply Rmult_le_compat_l; lra).
  assert (V2 : mu * sin h <= mu * h) by (apply Rmult_le_compat_l; lra).
  assert (X : Rabs (cos (mu * h) - 1 + mu * (1 - cos h)) <= / 131072 + / 268435456).
  { rewrite M2, M4 in *. apply Rabs_le. split; lra. }
  assert (Y : Rabs (sin (mu * h) - mu * sin h) <= / 8388608).
  { rewrite M3 in *. apply Rabs_le. split; lra. }
  eapply Rle_trans; [apply Rabs_triang|]. rewrite !Rabs_mult.
  change (bpow radix2 (-17)) with (/ 131072). change (bpow radix2 (-23)) with (/ 8388608). change (bpow radix2 (-28)) with (/ 268435456).
  pose proof (abs_sin a). pose proof (abs_cos a). pose proof (Rabs_pos (sin a)). pose proof (Rabs_pos (cos a)).
  set (X' := Rabs (cos (mu * h) - 1 + mu * (1 - cos h))) in *. set (Y' := Rabs (sin (mu * h) - mu * sin h)) in *.
  assert (0 <= X') by apply Rabs_pos. assert (0 <= Y') by apply Rabs_pos.
  assert (Rabs (sin a) * X' <= 1 * X') by (apply Rmult_le_compat_r; assumption).
  assert (Rabs (cos a) * Y' <= 1 * Y') by (apply Rmult_le_compat_r; assumption). lra.
Qed.

Lemma Rabs_diff a b e : Rabs (a - b) <= e -> b - e <= a <= b + e.
Proof. intros H. apply Rabs_le_inv in H. lra. Qed.
Lemma sin_diff a : Rabs (sin (a + delta) - sin a) <= bpow radix2 (-7) + bpow radix2 (-14).
Proof.
  pose proof delta_bnd as D. rewrite sin_plus.
  destruct (cos_quad delta ltac:(lra)) as [c3 c4]. destruct (sin_cub delta ltac:(lra)) as [s3 s4].
  assert (H2 : 0 <= delta ^ 2 <= / 16384). { split; [nra|]. replace (/ 16384) with (/ 128 * / 128) by field. nra. }
  assert (S0 : 0 <= sin delta). { pose proof PI_RGT_0. apply sin_ge_0; unfold delta; lra. }
  replace (sin a * cos delta + cos a * sin delta - sin a) with (cos a * sin delta - sin a * (1 - cos delta)) by ring.
  eapply Rle_trans; [apply (Rabs_triang _ (- _))|]. rewrite Rabs_Ropp, !Rabs_mult.
  assert (0 <= 1 - cos delta) by (pose proof (COS_bound delta); lra).
  rewrite (Rabs_pos_eq (sin delta)), (Rabs_pos_eq (1 - cos delta)) by lra.
  assert (Rabs (cos a) * sin delta <= 1 * sin delta) by (apply Rmult_le_compat_r; [lra|apply abs_cos]).
  assert (Rabs (sin a) * (1 - cos delta) <= 1 * (1 - cos delta)) by (apply Rmult_le_compat_r; [lra|apply abs_sin]).
  change (bpow radix2 (-7)) with (/ 128). change (bpow radix2 (-14)) with (/ 16384). lra.
Qed.
(** the fraction is exact *)
Lemma sin_mu k : (k < 2 ^ 22)%N ->
  let mu := fmul (u2f k) (fdiv (mk32 1 0) (i2f 4194304)) in fin mu /\ B2R mu = IZR (Z.of_N k) * bpow radix2 (-22) /\ 0 <= B2R mu < 1.
Proof.
  intros H mu. change (2 ^ 22)%N with 4194304%N in H.
  set (c := fdiv (mk32 1 0) (i2f 4194304)) in *.
  assert (Fc : fin c) by (vm_compute; reflexivity).
  destruct (mk32_small 1 (-22)) as [E G]; [lia|lia|].
  assert (Ec : B2R c = bpow radix2 (-22)).
  { rewrite (feq_true c (mk32 1 (-22)) Fc G) by (vm_compute; reflexivity). rewrite E. ring. }
  destruct (mk32_small (Z.of_N k) 0) as [Ek Fk]; [change (2 ^ 24)%Z with 16777216%Z; lia|lia|].
  change (bpow radix2 0) with 1 in Ek. rewrite Rmult_1_r in Ek.
  assert (P : 0 <= IZR (Z.of_N k) * bpow radix2 (-22) < 1).
  { split; [apply Rmult_le_pos; [apply IZR_le; lia|apply bpow_ge_0]|].
    apply Rmult_lt_reg_r with (bpow radix2 22); [apply bpow_gt_0|].
    rewrite Rmult_assoc, <- bpow_plus. change (bpow radix2 (-22 + 22)) with 1. rewrite Rmult_1_r, Rmult_1_l.
    apply (IZR_lt _ 4194304). lia. }
  destruct (fmul_exact (u2f k) c Fk Fc) as [Em Fm]; unfold u2f in *.
  - rewrite Ek, Ec. apply fmt_F2R; [change (2 ^ 24)%Z with 16777216%Z; lia|unfold SpecFloat.emin; lia].
  - rewrite Ek, Ec, Rabs_pos_eq by lra. apply lt128. lra.
  - split; [exact Fm|]. unfold mu. rewrite Em, Ek, Ec. split; [reflexivity|exact P].
Qed.

Lemma sin_synth_R p : (p < 2 ^ 32)%N -> exists v, sin_synth p = Some v /\ fin v /\ -1 <= B2R v <= 1 /\
  Rabs (B2R v - ideal_sin (turn p)) <= bpow radix2 (-16).
Proof.
  intros Hp. pose proof (u32 _ Hp) as Hp'. unfold sin_synth, table_lookup.
  assert (Ei : N.shiftr p 22 = (p / 4194304)%N) by (rewrite N.shiftr_div_pow2; reflexivity).
  assert (El : N.land p 4194303 = (p mod 4194304)%N).
  { change 4194303%N with (N.ones 22). rewrite N.land_ones. reflexivity. }
  rewrite Ei, El. set (n := (p / 4194304)%N). set (k := (p mod 4194304)%N).
  assert (Hn : (n < 1024)%N) by (unfold n; apply N.div_lt_upper_bound; lia).
  assert (Hk : (k < 4194304)%N) by (apply N.mod_lt; discriminate).
  assert (Epk : p = (4194304 * n + k)%N) by (apply N.div_mod; discriminate).
  destruct (sin_table_nth (N.to_nat n) ltac:(lia)) as (v1 & N1 & F1 & B1 & E1).
  destruct (sin_table_nth (N.to_nat (n + 1)) ltac:(lia)) as (v2 & N2 & F2 & B2 & E2).
  unfold vget. rewrite N1, N2. cbn [bind]. eexists. split; [reflexivity|].
  destruct (sin_mu k ltac:(exact Hk)) as (Fm & Em & Bm). set (mu := fmul (u2f k) (fdiv (mk32 1 0) (i2f 4194304))) in *.
  assert (Big : 1 <= bpow radix2 126) by (apply (bpow_le radix2 0 126); lia).
  destruct (interp_between v1 v2 mu F1 F2 Fm ltac:(lra) ltac:(lra) Bm) as (Fl & El1 & Bl).
  split; [exact Fl|]. apply Rabs_le_inv in B1, B2. split.
  { revert Bl. unfold Rmin, Rmax. destruct (Rle_dec (B2R v1) (B2R v2)); lra. }
  set (a := INR (N.to_nat n) * delta) in *.
  assert (Ea : INR (N.to_nat (n + 1)) * delta = a + delta).
  { unfold a. rewrite N2Nat.inj_add, plus_INR. change (INR (N.to_nat 1)) with 1. ring. }
  rewrite Ea in E2.
  assert (Eid : ideal_sin (turn p) = sin (a + B2R mu * delta)).
  { unfold ideal_sin, turn, a, delta. f_equal. rewrite Em, INR_IZR_INZ, N_nat_Z.
    replace (Z.of_N p) with (4194304 * Z.of_N n + Z.of_N k)%Z by lia. rewrite plus_IZR, mult_IZR.
    change (bpow radix2 (-22)) with (/ IZR 4194304). change (IZR (2 ^ 32)) with (IZR 4294967296). field. }
  rewrite Eid, El1.
  pose proof (lerp_sin a (B2R mu) ltac:(lra)) as L. pose proof (sin_diff a) as SD.
  apply Rabs_diff in E1, E2. apply Rabs_le_inv in L, SD.
  change (bpow radix2 (-7)) with (/ 128) in *. change (bpow radix2 (-14)) with (/ 16384) in *.
  change (bpow radix2 (-17)) with (/ 131072) in *. change (bpow radix2 (-23)) with (/ 8388608) in *. change (bpow radix2 (-28)) with (/ 268435456) in *.
  assert (S47 : 0 < bpow radix2 (-29) <= bpow radix2 (-28)) by (split; [apply bpow_gt_0|apply bpow_le; lia]).
  change (bpow radix2 (-25)) with (/ 33554432) in *. change (bpow radix2 (-28)) with (/ 268435456) in S47.
  change (bpow radix2 (-16)) with (/ 65536). set (t47 := bpow radix2 (-29)) in *.
  assert (R1 : Rabs (r32 (B2R v2 - B2R v1) - (B2R v2 - B2R v1)) <= / 2147483648).
  { apply (rnd_err (prec:=24) (emax:=128) _ (-6)); [vm_compute; discriminate|]. change (bpow radix2 (-6)) with (/ 64). apply Rabs_le. lra. }
  apply Rabs_diff in R1. set (d := r32 (B2R v2 - B2R v1)) in *.
  assert (D1 : Rabs d <= / 32) by (apply Rabs_le; lra). apply Rabs_le_inv in D1.
  assert (R2 : Rabs (r32 (B2R mu * d) - B2R mu * d) <= / 1073741824).
  { apply (rnd_err (prec:=24) (emax:=128) _ (-5)); [vm_compute; discriminate|]. change (bpow radix2 (-5)) with (/ 32).
    rewrite Rabs_mult, (Rabs_pos_eq (B2R mu)) by lra. rewrite <- (Rmult_1_l (/ 32)). apply Rmult_le_compat; try apply Rabs_pos; try lra. apply Rabs_le. lra. }
  apply Rabs_diff in R2. set (m := r32 (B2R mu * d)) in *.
  assert (MD : - / 32 <= B2R mu * d <= / 32) by nra.
  assert (R3 : Rabs (r32 (B2R v1 + m) - (B2R v1 + m)) <= / 16777216).
  { apply (rnd_err (prec:=24) (emax:=128) _ 1); [vm_compute; discriminate|]. change (bpow radix2 1) with 2. apply Rabs_le. lra. }
  apply Rabs_diff in R3. set (w := r32 (B2R v1 + m)) in *.
  (* mu * d against mu * (sin (a + delta) - sin a), together with v1 against sin a *)
  set (s1 := sin a) in *. set (s2 := sin (a + delta)) in *.
  assert (T1 : B2R mu * d <= B2R mu * (B2R v2 - B2R v1) + / 2147483648).
  { assert (B2R mu * d <= B2R mu * (B2R v2 - B2R v1 + / 2147483648)) by (apply Rmult_le_compat_l; lra). nra. }
  assert (T2 : B2R mu * (B2R v2 - B2R v1) - / 2147483648 <= B2R mu * d).
  { assert (B2R mu * (B2R v2 - B2R v1 - / 2147483648) <= B2R mu * d) by (apply Rmult_le_compat_l; lra). nra. }
  set (e := / 33554432 + t47) in *.
  assert (T3 : B2R v1 + B2R mu * (B2R v2 - B2R v1) <= s1 + B2R mu * (s2 - s1) + e).
  { assert ((1 - B2R mu) * B2R v1 <= (1 - B2R mu) * (s1 + e)) by (apply Rmult_le_compat_l; lra).
    assert (B2R mu * B2R v2 <= B2R mu * (s2 + e)) by (apply Rmult_le_compat_l; lra). lra. }
  assert (T4 : s1 + B2R mu * (s2 - s1) - e <= B2R v1 + B2R mu * (B2R v2 - B2R v1)).
  { assert ((1 - B2R mu) * (s1 - e) <= (1 - B2R mu) * B2R v1) by (apply Rmult_le_compat_l; lra).
    assert (B2R mu * (s2 - e) <= B2R mu * B2R v2) by (apply Rmult_le_compat_l; lra). lra. }
  unfold e in *. apply Rabs_le. lra.
Qed.
