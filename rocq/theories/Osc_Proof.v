From Coq Require Import Reals Lra Psatz.
From Flocq Require Import Core.Core IEEE754.BinarySingleNaN.
From Flocq Require Import Mult_error.
From Verif Require Import Common CommonFacts Float FloatFacts Phase_Model Frac_Model Frac_Proof Sin_Table Osc_Model.
Local Open Scope R_scope.

Notation r64 := (rnd 53 1024).

Lemma fmt32_b k : (-149 <= k)%Z -> fmt 24 128 (bpow radix2 k).
Proof. intros H. apply fmt_bpow. unfold SpecFloat.emin. lia. Qed.
Lemma fmt32_1 : fmt 24 128 1. Proof. exact (fmt32_b 0 ltac:(lia)). Qed.
Lemma fmt32_m1 : fmt 24 128 (-1). Proof. replace (-1) with (- (1)) by lra. apply fmt_opp, fmt32_1. Qed.
Lemma fmt32_2 : fmt 24 128 2. Proof. exact (fmt32_b 1 ltac:(lia)). Qed.
Lemma fmt64_4 : fmt 53 1024 4. Proof. apply (fmt_bpow (prec:=53) (emax:=1024) 2). unfold SpecFloat.emin. lia. Qed.
Lemma lt128 r : r <= 4 -> r < bpow radix2 128.
Proof. intros H. apply Rle_lt_trans with (1 := H). apply (bpow_lt radix2 2 128). lia. Qed.
Lemma lt1024 r : r <= 4 -> r < bpow radix2 1024.
Proof. intros H. apply Rle_lt_trans with (1 := H). apply (bpow_lt radix2 2 1024). lia. Qed.

(** rounding a 32-bit integer to float gives an integer *)
Lemma rnd_int n : (0 <= n < 2 ^ 33)%Z -> exists k, r32 (IZR n) = IZR k /\ (Z.abs (k - n) <= 256)%Z /\ (0 <= k)%Z.
Proof.
  intros H. destruct (Z_le_dec n (2 ^ 24)) as [S|S].
  - exists n. split; [|lia]. apply rnd_fmt.
    destruct (Z.eq_dec n (2 ^ 24)) as [->|].
    + apply (fmt32_b 24). lia.
    + apply fmt_IZR; [vm_compute; discriminate|lia].
  - assert (M : (24 < mag radix2 (IZR n))%Z).
    { apply mag_gt_bpow. rewrite Rabs_pos_eq by (apply IZR_le; lia). apply (IZR_le (2 ^ 24)). lia. }
    unfold rnd, round, F2R. cbn [Fnum Fexp].
    set (z := ZnearestE _). assert (C : (0 <= cexp radix2 fx32 (IZR n))%Z).
    { unfold cexp, fx, SpecFloat.fexp. lia. }
    assert (E : IZR z * bpow radix2 (cexp radix2 fx32 (IZR n)) = IZR (z * 2 ^ cexp radix2 fx32 (IZR n))).
    { rewrite mult_IZR. f_equal. change 2%Z with (radix_val radix2). rewrite IZR_Zpower by exact C. reflexivity. }
    exists (z * 2 ^ cexp radix2 fx32 (IZR n))%Z. split; [exact E|].
    assert (Er : Rabs (r32 (IZR n) - IZR n) <= bpow radix2 8).
    { apply (rnd_err (prec:=24) (emax:=128) (IZR n) 33); [vm_compute; discriminate|].
      rewrite Rabs_pos_eq by (apply IZR_le; lia). apply (IZR_le n (2 ^ 33)). lia. }
    change (r32 (IZR n)) with (IZR z * bpow radix2 (cexp radix2 fx32 (IZR n))) in Er. rewrite E in Er.
    rewrite <- minus_IZR, <- abs_IZR in Er. apply (le_IZR _ 256) in Er. split; [exact Er|]. lia.
Qed.

Lemma mk32_u n : (0 <= n < 2 ^ 33)%Z -> B2R (mk32 n 0) = r32 (IZR n) /\ fin (mk32 n 0).
Proof.
  intros H. destruct (fmk_R (prec:=24) (emax:=128) n 0) as [E F].
  - change (bpow radix2 0) with 1. rewrite Rmult_1_r. apply Rle_lt_trans with (bpow radix2 33); [|apply bpow_lt; lia].
    apply rnd_abs_le; [apply fmt32_b; lia|]. rewrite Rabs_pos_eq by (apply IZR_le; lia). apply (IZR_le n (2 ^ 33)). lia.
  - split; [|exact F]. unfold mk32. rewrite E. cbn [bpow]. rewrite Rmult_1_r. reflexivity.
Qed.
Lemma u2f_R n : (n <= 2 ^ 32)%N -> B2R (u2f n) = r32 (IZR (Z.of_N n)) /\ fin (u2f n).
Proof. intros H. apply mk32_u. change (2 ^ 33)%Z with 8589934592%Z. change (2 ^ 32)%N with 4294967296%N in H. lia. Qed.
Lemma u2f_mono a b : (a <= b)%N -> (b <= 2 ^ 32)%N -> B2R (u2f a) <= B2R (u2f b).
Proof.
  intros H1 H2. destruct (u2f_R a ltac:(lia)) as [-> _]. destruct (u2f_R b H2) as [-> _].
  apply rnd_le. apply IZR_le. lia.
Qed.
Lemma u2f_pow k : (0 <= k <= 32)%Z -> B2R (u2f (Z.to_N (2 ^ k))) = bpow radix2 k.
Proof.
  intros H. assert (P : (0 < 2 ^ k)%Z) by (apply Z.pow_pos_nonneg; lia).
  destruct (u2f_R (Z.to_N (2 ^ k))) as [-> _].
  - assert (2 ^ k <= 2 ^ 32)%Z by (apply Z.pow_le_mono_r; lia). change (2 ^ 32)%Z with 4294967296%Z in H0.
    change (2 ^ 32)%N with 4294967296%N. lia.
  - rewrite Z2N.id by lia. change 2%Z with (radix_val radix2). rewrite IZR_Zpower by lia. apply rnd_fmt, fmt32_b. lia.
Qed.
Lemma u2f_0 : B2R (u2f 0) = 0.
Proof. destruct (u2f_R 0 ltac:(vm_compute; discriminate)) as [-> _]. apply rnd_0. Qed.
Lemma u2f_pos n : (1 <= n <= 2 ^ 32)%N -> 1 <= B2R (u2f n).
Proof.
  intros H. replace 1 with (B2R (u2f 1)); [apply u2f_mono; lia|].
  exact (u2f_pow 0 ltac:(lia)).
Qed.
Lemma u2f_nonneg n : (n <= 2 ^ 32)%N -> 0 <= B2R (u2f n).
Proof. intros H. rewrite <- u2f_0. apply u2f_mono; lia. Qed.

Lemma x2_R : B2R x2 = bpow radix2 (-31) /\ fin x2.
Proof.
  assert (F : fin x2) by (vm_compute; reflexivity). split; [|exact F].
  destruct (mk32_small 1 (-31)) as [E G]; [lia|lia|].
  rewrite (feq_true x2 (mk32 1 (-31)) F G) by (vm_compute; reflexivity). rewrite E. ring.
Qed.
Lemma x4_R : B2R x4 = bpow radix2 (-30) /\ fin x4.
Proof.
  assert (F : fin x4) by (vm_compute; reflexivity). split; [|exact F].
  destruct (mk32_small 1 (-30)) as [E G]; [lia|lia|].
  rewrite (feq_true x4 (mk32 1 (-30)) F G) by (vm_compute; reflexivity). rewrite E. ring.
Qed.
Lemma d1_R : B2R d1 = 1 /\ fin d1.
Proof. destruct (mk64_small 1 0) as [E F]; [lia|lia|]. split; [|exact F]. unfold d1. rewrite E. cbn [bpow]. lra. Qed.
Lemma one_R : B2R (mk32 1 0) = 1 /\ fin (mk32 1 0).
Proof. destruct (mk32_small 1 0) as [E F]; [lia|lia|]. split; [|exact F]. rewrite E. cbn [bpow]. lra. Qed.
Lemma mone_R : B2R (mk32 (-1) 0) = -1 /\ fin (mk32 (-1) 0).
Proof. destruct (mk32_small (-1) 0) as [E F]; [lia|lia|]. split; [|exact F]. rewrite E. cbn [bpow]. lra. Qed.

(** k * 2^-s - 1 for a float-representable integer k <= 2^(s+1): exact in double *)
Lemma ramp_exact (z : Z) (x : f32) (s : Z) : (0 <= s <= 40)%Z -> (0 <= z < 2 ^ 33)%Z -> B2R x = bpow radix2 (- s) -> fin x ->
  r32 (IZR z) <= bpow radix2 (s + 1) ->
  let r := fsub (to64 (fmul (mk32 z 0) x)) d1 in
  fin r /\ B2R r = r32 (IZR z) * bpow radix2 (- s) - 1.
Proof.
  intros Hs Hz Ex Fx Hb r. destruct (rnd_int z Hz) as (k & Ek & _ & Hk0).
  destruct (mk32_u z Hz) as [Ez Fz]. rewrite Ek in *.
  assert (Hk : (k <= 2 ^ (s + 1))%Z).
  { apply le_IZR. change 2%Z with (radix_val radix2). rewrite IZR_Zpower by lia. exact Hb. }
  assert (P0 : 0 <= IZR k * bpow radix2 (- s)) by (apply Rmult_le_pos; [apply IZR_le; lia|apply bpow_ge_0]).
  assert (P2 : IZR k * bpow radix2 (- s) <= 2).
  { replace 2 with (bpow radix2 (s + 1) * bpow radix2 (- s)).
    - apply Rmult_le_compat_r; [apply bpow_ge_0|exact Hb].
    - rewrite <- bpow_plus. replace (s + 1 + - s)%Z with 1%Z by ring. reflexivity. }
  assert (Fm : fmt 24 128 (IZR k * bpow radix2 (- s))).
  { rewrite <- Ek. destruct (Req_dec (r32 (IZR z)) 0) as [->|N]; [rewrite Rmult_0_l; apply fmt_0|].
    apply (mult_bpow_exact_FLT radix2 (-149) 24).
    - apply generic_format_round; exact _.
    - assert (1 <= mag radix2 (r32 (IZR z)))%Z; [|lia].
      apply mag_ge_bpow. rewrite Ek, Rabs_pos_eq by (apply IZR_le; lia). cbn [bpow Z.sub Z.add Z.opp].
      rewrite Ek in N. apply (IZR_le 1). assert (k <> 0)%Z by (intros ->; apply N; reflexivity). lia. }
  destruct (fmul_exact (mk32 z 0) x Fz Fx) as [E1 F1].
  { rewrite Ez, Ex. exact Fm. }
  { rewrite Ez, Ex, Rabs_pos_eq by exact P0. apply lt128. lra. }
  rewrite Ez, Ex in E1. destruct (to64_R _ F1) as [E2 F2]. rewrite E1 in E2.
  destruct d1_R as [Ed Fd].
  destruct (fsub_exact (to64 (fmul (mk32 z 0) x)) d1 F2 Fd) as [E3 F3].
  { rewrite E2, Ed. replace (IZR k * bpow radix2 (- s) - 1) with (IZR (k - 2 ^ s) * bpow radix2 (- s)).
    - apply fmt_F2R; [|unfold SpecFloat.emin; lia].
      assert (0 < 2 ^ s <= 2 ^ 40)%Z by (split; [apply Z.pow_pos_nonneg; lia|apply Z.pow_le_mono_r; lia]).
      replace (2 ^ (s + 1))%Z with (2 * 2 ^ s)%Z in Hk by (rewrite Z.pow_add_r by lia; ring).
      change (2 ^ 40)%Z with 1099511627776%Z in H. change (2 ^ 53)%Z with 9007199254740992%Z. lia.
    - rewrite minus_IZR. change 2%Z with (radix_val radix2). rewrite IZR_Zpower by lia.
      rewrite Rmult_minus_distr_r, <- bpow_plus. replace (s + - s)%Z with 0%Z by ring. cbn [bpow]. ring. }
  { rewrite E2, Ed. apply lt1024. apply Rabs_le. lra. }
  split; [exact F3|]. unfold r. rewrite E3, E2, Ed. reflexivity.
Qed.

Lemma to32_bnd (x : f64) : fin x -> -1 <= B2R x <= 1 -> fin (to32 x) /\ B2R (to32 x) = r32 (B2R x) /\ -1 <= B2R (to32 x) <= 1.
Proof.
  intros F H. assert (B : -1 <= r32 (B2R x) <= 1).
  { split; [apply rnd_ge_fmt; [apply fmt32_m1|lra]|apply rnd_le_fmt; [apply fmt32_1|lra]]. }
  destruct (fconv_R (p':=24) (e':=128) x F) as [E G].
  { apply lt128. apply Rabs_le. lra. }
  split; [exact G|]. unfold to32. rewrite E. auto.
Qed.

Lemma pow32_R : (2 ^ 32)%N = 4294967296%N. Proof. reflexivity. Qed.

Lemma saw_raw_R p : (p < 2 ^ 32)%N ->
  fin (saw_raw p) /\ B2R (saw_raw p) = r32 (IZR (Z.of_N p)) * bpow radix2 (-31) - 1 /\ -1 <= B2R (saw_raw p) <= 1.
Proof.
  intros H. destruct x2_R as [Ex Fx].
  assert (R : 0 <= r32 (IZR (Z.of_N p)) <= bpow radix2 32).
  { split; [rewrite <- (rnd_0 (prec:=24) (emax:=128)); apply rnd_le, IZR_le; lia|].
    apply rnd_le_fmt; [apply fmt32_b; lia|]. apply (IZR_le _ 4294967296). rewrite pow32_R in H. lia. }
  destruct (ramp_exact (Z.of_N p) x2 31) as [F E]; try assumption; try lia.
  { exact (proj2 R). }
  split; [exact F|]. split; [exact E|]. change (B2R (saw_raw p)) with (B2R (fsub (to64 (fmul (mk32 (Z.of_N p) 0) x2)) d1)).
  rewrite E. change (- (31))%Z with (-31)%Z. destruct R as [R0 R1].
  assert (0 <= r32 (IZR (Z.of_N p)) * bpow radix2 (-31)) by (apply Rmult_le_pos; [exact R0|apply bpow_ge_0]).
  assert (r32 (IZR (Z.of_N p)) * bpow radix2 (-31) <= 2).
  { replace 2 with (bpow radix2 32 * bpow radix2 (-31)) by (rewrite <- bpow_plus; reflexivity).
    apply Rmult_le_compat_r; [apply bpow_ge_0|exact R1]. }
  lra.
Qed.

Lemma basic_saw_R p : (p < 2 ^ 32)%N ->
  fin (basic_saw p) /\ B2R (basic_saw p) = r32 (r32 (IZR (Z.of_N p)) * bpow radix2 (-31) - 1) /\ -1 <= B2R (basic_saw p) <= 1.
Proof.
  intros H. destruct (saw_raw_R p H) as (F & E & B). destruct (to32_bnd _ F B) as (F1 & E1 & B1).
  split; [exact F1|]. split; [|exact B1]. unfold basic_saw. rewrite E1, E. reflexivity.
Qed.

Lemma tri_raw_R u : (u < 2 ^ 32)%N -> u <> (2 ^ 31)%N ->
  let a := Z.abs (to_int32 u) in
  exists r, tri_raw u = Some r /\ fin r /\ B2R r = r32 (IZR a) * bpow radix2 (-30) - 1 /\ -1 <= B2R r <= 1.
Proof.
  intros H Hn a.
  assert (A : (0 <= a < 2 ^ 31)%Z /\ abs32 (to_int32 u) = Some a).
  { unfold a, abs32, to_int32. rewrite pow32_R in H. change (2 ^ 31)%N with 2147483648%N in *.
    change (2 ^ 31)%Z with 2147483648%Z. change (2 ^ 32)%Z with 4294967296%Z.
    destruct (N.ltb_spec u 2147483648).
    - destruct (Z.ltb_spec (Z.of_N u) 0); [lia|]. split; [lia|]. rewrite Z.abs_eq by lia. reflexivity.
    - destruct (Z.ltb_spec (Z.of_N u - 4294967296) 0); [|lia].
      destruct (Z.eqb_spec (Z.of_N u - 4294967296) (Z.opp 2147483648)); [lia|]. split; [lia|]. rewrite Z.abs_neq by lia. reflexivity. }
  destruct A as [A Ea]. destruct x4_R as [Ex Fx].
  assert (R : 0 <= r32 (IZR a) <= bpow radix2 31).
  { split; [rewrite <- (rnd_0 (prec:=24) (emax:=128)); apply rnd_le, IZR_le; lia|].
    apply rnd_le_fmt; [apply fmt32_b; lia|]. apply (IZR_le _ (2 ^ 31)). lia. }
  destruct (ramp_exact a x4 30) as [F E]; try assumption; try lia.
  { exact (proj2 R). }
  eexists. split; [unfold tri_raw; rewrite Ea; cbn [bind]; reflexivity|].
  split; [exact F|]. split; [exact E|]. unfold i2f. rewrite E. change (- (30))%Z with (-30)%Z. destruct R as [R0 R1].
  assert (0 <= r32 (IZR a) * bpow radix2 (-30)) by (apply Rmult_le_pos; [exact R0|apply bpow_ge_0]).
  assert (r32 (IZR a) * bpow radix2 (-30) <= 2).
  { replace 2 with (bpow radix2 31 * bpow radix2 (-30)) by (rewrite <- bpow_plus; reflexivity).
    apply Rmult_le_compat_r; [apply bpow_ge_0|exact R1]. }
  lra.
Qed.

(** the anti-aliasing residual *)
Lemma quot_bnd (a b : f32) : fin a -> fin b -> 0 < B2R b -> Rabs (B2R a) <= B2R b ->
  fin (fdiv a b) /\ B2R (fdiv a b) = r32 (B2R a / B2R b) /\ Rabs (B2R (fdiv a b)) <= 1.
Proof.
  intros Fa Fb Pb H. destruct (fdiv_bnd a b 1 Fa) as (E & F & B); try lra; try apply fmt32_1.
  - apply lt128. lra.
  - unfold Rdiv. rewrite Rabs_mult, (Rabs_pos_eq (/ B2R b)) by (apply Rlt_le, Rinv_0_lt_compat; exact Pb).
    apply Rmult_le_reg_r with (1 := Pb). rewrite Rmult_assoc, Rinv_l by lra. lra.
  - auto.
Qed.
Lemma rnd_le_1 x : x <= 1 + bpow radix2 (-25) -> r32 x <= 1.
Proof.
  intros H. unfold rnd. change (SpecFloat.fexp 24 128) with fx32.
  apply round_N_le_midp; [exact _|apply fmt32_1|].
  rewrite succ_eq_pos by lra. change 1 with (bpow radix2 0) at 3. rewrite ulp_bpow.
  change (fx32 (0 + 1)) with (-23)%Z. 
  assert (bpow radix2 (-23) = 4 * bpow radix2 (-25)) by (exact (bpow_plus radix2 2 (-25))).
  pose proof (bpow_gt_0 radix2 (-25)). lra.
Qed.
Lemma rnd_ge_m1 x : -1 - bpow radix2 (-25) - bpow radix2 (-26) <= x -> -1 <= r32 x.
Proof.
  intros H. assert (r32 (- x) <= 1).
  { unfold rnd. change (SpecFloat.fexp 24 128) with fx32.
    apply round_N_le_midp; [exact _|apply fmt32_1|].
    rewrite succ_eq_pos by lra. change 1 with (bpow radix2 0) at 3. rewrite ulp_bpow.
    change (fx32 (0 + 1)) with (-23)%Z.
    assert (bpow radix2 (-23) = 8 * bpow radix2 (-26)) by (exact (bpow_plus radix2 3 (-26))).
    assert (bpow radix2 (-25) = 2 * bpow radix2 (-26)) by (exact (bpow_plus radix2 1 (-26))).
    pose proof (bpow_gt_0 radix2 (-26)). lra. }
  rewrite rnd_opp in H0. lra.
Qed.

Lemma f32_dbl (x : f32) : exists m e, B2R x = IZR m * bpow radix2 e /\ (Z.abs m < 2 ^ 24)%Z /\ (-149 <= e)%Z.
Proof.
  destruct (FLT_format_B2R 24 128 _ x) as [[m e] E H1 H2]. exists m, e. split; [exact E|]. split; [exact H1|exact H2].
Qed.
Lemma blep_lo (t : f32) : fin t -> 0 <= B2R t <= 1 ->
  let b := fsub (fsub (fadd t t) (fmul t t)) (mk32 1 0) in fin b /\ -1 <= B2R b <= 0.
Proof.
  intros F H b. destruct one_R as [E1 F1].
  destruct (fadd_bnd t t 2 F F fmt32_2 (lt128 2 ltac:(lra))) as (Ea & Fa & _); [apply Rabs_le; lra|].
  assert (Ea' : B2R (fadd t t) = 2 * B2R t).
  { rewrite Ea. replace (B2R t + B2R t) with (2 * B2R t) by ring. apply rnd_fmt.
    destruct (f32_dbl t) as (m & e & E & Hm & He). rewrite E.
    replace (2 * (IZR m * bpow radix2 e)) with (IZR m * bpow radix2 (e + 1)) by (rewrite bpow_plus; change (bpow radix2 1) with 2; ring).
    apply fmt_F2R; [exact Hm|unfold SpecFloat.emin; lia]. }
  destruct (fmul_bnd t t 1 F F fmt32_1 (lt128 1 ltac:(lra))) as (Em & Fm & _); [apply Rabs_le; nra|].
  assert (M0 : 0 <= B2R (fmul t t)). { rewrite Em, <- (rnd_0 (prec:=24) (emax:=128)). apply rnd_le. nra. }
  assert (M1 : B2R (fmul t t) <= B2R t). { rewrite Em. apply rnd_le_fmt; [apply fmt_v|nra]. }
  assert (Me : Rabs (B2R (fmul t t) - B2R t * B2R t) <= bpow radix2 (-25)).
  { rewrite Em. apply (rnd_err (prec:=24) (emax:=128) _ 0); [vm_compute; discriminate|]. cbn [bpow]. apply Rabs_le. nra. }
  apply Rabs_le_inv in Me.
  destruct (fsub_bnd (fadd t t) (fmul t t) 2 Fa Fm fmt32_2 (lt128 2 ltac:(lra))) as (Es & Fs & _); [apply Rabs_le; rewrite Ea'; lra|].
  assert (S : 0 <= B2R (fsub (fadd t t) (fmul t t)) <= 1).
  { rewrite Es, Ea'. split.
    - rewrite <- (rnd_0 (prec:=24) (emax:=128)). apply rnd_le. lra.
    - apply rnd_le_1. nra. }
  destruct (fsub_bnd (fsub (fadd t t) (fmul t t)) (mk32 1 0) 1 Fs F1 fmt32_1 (lt128 1 ltac:(lra))) as (Eb & Fb & Bb);
    [rewrite E1; apply Rabs_le; lra|].
  split; [exact Fb|]. fold b in Eb, Bb. apply Rabs_le_inv in Bb. split; [lra|].
  rewrite Eb, E1. rewrite <- (rnd_0 (prec:=24) (emax:=128)). apply rnd_le. lra.
Qed.

Lemma blep_hi (t : f32) : fin t -> -1 <= B2R t <= 0 ->
  let b := fadd (fadd (fadd (fmul t t) t) t) (mk32 1 0) in fin b /\ 0 <= B2R b <= 1.
Proof.
  intros F H b. destruct one_R as [E1 F1].
  assert (T2 : 0 <= B2R t * B2R t <= - B2R t) by nra.
  destruct (fmul_bnd t t 1 F F fmt32_1 (lt128 1 ltac:(lra))) as (Em & Fm & _); [apply Rabs_le; lra|].
  assert (M0 : 0 <= B2R (fmul t t)). { rewrite Em, <- (rnd_0 (prec:=24) (emax:=128)). apply rnd_le. lra. }
  assert (M1 : B2R (fmul t t) <= - B2R t). { rewrite Em. apply rnd_le_fmt; [apply fmt_opp, fmt_v|lra]. }
  assert (Me : Rabs (B2R (fmul t t) - B2R t * B2R t) <= bpow radix2 (-25)).
  { rewrite Em. apply (rnd_err (prec:=24) (emax:=128) _ 0); [vm_compute; discriminate|]. cbn [bpow]. apply Rabs_le. lra. }
  apply Rabs_le_inv in Me.
  assert (Q : - (1 / 4) <= B2R t * B2R t + B2R t) by (pose proof (Rle_0_sqr (B2R t + 1 / 2)) as Sq; unfold Rsqr in Sq; lra).
  assert (E25 : 0 < bpow radix2 (-25) <= 1 / 4).
  { split; [apply bpow_gt_0|]. replace (1 / 4) with (bpow radix2 (-2)) by (change (bpow radix2 (-2)) with (/ 4); lra). apply bpow_le. lia. }
  assert (B2 : Rabs (B2R (fmul t t) + B2R t) <= bpow radix2 (-1)).
  { change (bpow radix2 (-1)) with (/ 2). apply Rabs_le. lra. }
  destruct (fadd_bnd (fmul t t) t 1 Fm F fmt32_1 (lt128 1 ltac:(lra))) as (Ea & Fa & _).
  { apply Rle_trans with (1 := B2). change (bpow radix2 (-1)) with (/ 2). lra. }
  assert (Ae : Rabs (B2R (fadd (fmul t t) t) - (B2R (fmul t t) + B2R t)) <= bpow radix2 (-26)).
  { rewrite Ea. apply (rnd_err (prec:=24) (emax:=128) _ (-1)); [vm_compute; discriminate|exact B2]. }
  apply Rabs_le_inv in Ae.
  assert (A1 : B2R t <= B2R (fadd (fmul t t) t) <= 0).
  { rewrite Ea. split; [apply rnd_ge_fmt; [apply fmt_v|lra]|].
    rewrite <- (rnd_0 (prec:=24) (emax:=128)). apply rnd_le. lra. }
  destruct (fadd_bnd (fadd (fmul t t) t) t 2 Fa F fmt32_2 (lt128 2 ltac:(lra))) as (Es & Fs & _); [apply Rabs_le; lra|].
  assert (S : -1 <= B2R (fadd (fadd (fmul t t) t) t) <= 0).
  { rewrite Es. split.
    - apply rnd_ge_m1. assert (-1 <= B2R t * B2R t + 2 * B2R t) by nra. lra.
    - rewrite <- (rnd_0 (prec:=24) (emax:=128)). apply rnd_le. lra. }
  destruct (fadd_bnd (fadd (fadd (fmul t t) t) t) (mk32 1 0) 1 Fs F1 fmt32_1 (lt128 1 ltac:(lra))) as (Eb & Fb & Bb);
    [rewrite E1; apply Rabs_le; lra|].
  split; [exact Fb|]. fold b in Eb, Bb. apply Rabs_le_inv in Bb. split; [|lra].
  rewrite Eb, E1. rewrite <- (rnd_0 (prec:=24) (emax:=128)). apply rnd_le. lra.
Qed.

(** which side of a discontinuity: rising residual just after it, falling just before *)
Lemma poly_blep_R p dt : (p < 2 ^ 32)%N -> (dt < 2 ^ 32)%N ->
  fin (poly_blep p dt) /\ -1 <= B2R (poly_blep p dt) <= 1 /\
  ((p <? dt)%N = true -> B2R (poly_blep p dt) <= 0) /\
  ((p <? dt)%N = false -> 0 <= B2R (poly_blep p dt)) /\
  ((p <? dt)%N = false -> (sub32 ph_end dt <? p)%N = false -> B2R (poly_blep p dt) = 0).
Proof.
  intros Hp Hd. unfold poly_blep.
  assert (Sub : forall a, (a < 2 ^ 32)%N -> sub32 ph_end a = (4294967295 - a)%N).
  { intros a Ha. unfold sub32, ph_end, one_cyc, W32. rewrite pow32_R in *. lia. }
  destruct (p <? dt)%N eqn:E1.
  - apply N.ltb_lt in E1. 
    destruct (u2f_R p ltac:(lia)) as [_ Fp]. destruct (u2f_R dt ltac:(lia)) as [_ Fd].
    pose proof (u2f_pos dt ltac:(lia)) as Pd. pose proof (u2f_nonneg p ltac:(lia)) as Pp.
    pose proof (u2f_mono p dt ltac:(lia) ltac:(lia)) as M.
    destruct (quot_bnd (u2f p) (u2f dt) Fp Fd ltac:(lra)) as (Fq & Eq & Bq); [rewrite Rabs_pos_eq; lra|].
    apply Rabs_le_inv in Bq.
    assert (Q0 : 0 <= B2R (fdiv (u2f p) (u2f dt))).
    { rewrite Eq, <- (rnd_0 (prec:=24) (emax:=128)). apply rnd_le. apply Rmult_le_pos; [exact Pp|]. apply Rlt_le, Rinv_0_lt_compat. lra. }
    destruct (blep_lo _ Fq ltac:(lra)) as [Fb Bb].
    split; [exact Fb|]. cbn zeta in Bb |- *. split; [lra|]. split; [intros; lra|]. split; intros; discriminate.
  - destruct (sub32 ph_end dt <? p)%N eqn:E2.
    + apply N.ltb_ge in E1. apply N.ltb_lt in E2. rewrite Sub in E2 by exact Hd. rewrite Sub by exact Hp.
      set (q := (4294967295 - p)%N). assert (Hq : (q < dt)%N) by (unfold q; rewrite pow32_R in *; lia).
      destruct (u2f_R q ltac:(lia)) as [_ Fp]. destruct (u2f_R dt ltac:(lia)) as [_ Fd].
      pose proof (u2f_pos dt ltac:(lia)) as Pd. pose proof (u2f_nonneg q ltac:(lia)) as Pp.
      pose proof (u2f_mono q dt ltac:(lia) ltac:(lia)) as M.
      assert (En : B2R (fneg (u2f q)) = - B2R (u2f q)) by apply fneg_R'.
      destruct (quot_bnd (fneg (u2f q)) (u2f dt) (fneg_fin' _ Fp) Fd ltac:(lra)) as (Fq & Eq & Bq).
      { rewrite En, Rabs_Ropp, Rabs_pos_eq; lra. }
      apply Rabs_le_inv in Bq.
      assert (Q0 : B2R (fdiv (fneg (u2f q)) (u2f dt)) <= 0).
      { rewrite Eq, En, <- (rnd_0 (prec:=24) (emax:=128)). apply rnd_le.
        assert (0 <= B2R (u2f q) / B2R (u2f dt)). { apply Rmult_le_pos; [exact Pp|]. apply Rlt_le, Rinv_0_lt_compat. lra. }
        unfold Rdiv in *. lra. }
      destruct (blep_hi _ Fq ltac:(lra)) as [Fb Bb].
      split; [exact Fb|]. cbn zeta in Bb |- *. split; [lra|]. split; [intros; discriminate|]. split; intros; [lra|discriminate].
    + cbn [B2R]. split; [reflexivity|]. split; [cbn; lra|]. split; [intros; discriminate|]. split; intros; cbn; lra.
Qed.

Lemma u32 p : (p < 2 ^ 32)%N -> (p < 4294967296)%N. Proof. rewrite pow32_R. auto. Qed.
Lemma sub_end a : (a < 2 ^ 32)%N -> sub32 ph_end a = (4294967295 - a)%N.
Proof. intros Ha. unfold sub32, ph_end, one_cyc, W32. rewrite pow32_R in *. lia. Qed.

(** saw: correction only next to the wrap, and never beyond +-1 *)
Lemma bpow_m1 : bpow radix2 (-1) = / 2. Proof. reflexivity. Qed.
Lemma fmt64_1 : fmt 53 1024 1. Proof. apply (fmt_bpow (prec:=53) (emax:=1024) 0). unfold SpecFloat.emin. lia. Qed.

Lemma saw_R p dt : (p < 2 ^ 32)%N -> (dt <= 2 ^ 31)%N ->
  fin (saw p dt) /\ -1 <= B2R (saw p dt) <= 1 /\
  ((dt <= p)%N -> (p + dt < 2 ^ 32)%N -> B2R (saw p dt) = B2R (basic_saw p)).
Proof.
  intros Hp Hd. assert (Hd' : (dt < 2 ^ 32)%N) by (rewrite pow32_R; change (2 ^ 31)%N with 2147483648%N in Hd; lia).
  destruct (saw_raw_R p Hp) as (F & E & B).
  destruct (poly_blep_R p dt Hp Hd') as (Fb & Bb & B1 & B2 & B0).
  destruct (to64_R _ Fb) as [Eb64 Fb64].
  rewrite sub_end in B0 by exact Hd'.
  assert (D : -1 <= B2R (saw_raw p) - B2R (poly_blep p dt) <= 1).
  { destruct (p <? dt)%N eqn:E1.
    - specialize (B1 eq_refl). apply N.ltb_lt in E1. 
      assert (B2R (saw_raw p) <= 0); [|lra]. rewrite E.
      assert (r32 (IZR (Z.of_N p)) <= bpow radix2 31).
      { apply rnd_le_fmt; [apply fmt32_b; lia|]. apply (IZR_le _ 2147483648). change (2 ^ 31)%N with 2147483648%N in Hd. lia. }
      assert (r32 (IZR (Z.of_N p)) * bpow radix2 (-31) <= bpow radix2 31 * bpow radix2 (-31)).
      { apply Rmult_le_compat_r; [apply bpow_ge_0|assumption]. }
      rewrite <- bpow_plus in H0. change (bpow radix2 (31 + -31)) with 1 in H0. lra.
    - specialize (B2 eq_refl). apply N.ltb_ge in E1. destruct (4294967295 - dt <? p)%N eqn:E2.
      + apply N.ltb_lt in E2. assert (0 <= B2R (saw_raw p)); [|lra]. rewrite E.
        assert (bpow radix2 31 <= r32 (IZR (Z.of_N p))).
        { apply rnd_ge_fmt; [apply fmt32_b; lia|]. apply (IZR_le 2147483648). change (2 ^ 31)%N with 2147483648%N in Hd. lia. }
        assert (bpow radix2 31 * bpow radix2 (-31) <= r32 (IZR (Z.of_N p)) * bpow radix2 (-31)).
        { apply Rmult_le_compat_r; [apply bpow_ge_0|assumption]. }
        rewrite <- bpow_plus in H0. change (bpow radix2 (31 + -31)) with 1 in H0. lra.
      + rewrite (B0 eq_refl eq_refl). lra. }
  destruct (fsub_bnd (saw_raw p) (to64 (poly_blep p dt)) 1 F Fb64 fmt64_1 (lt1024 1 ltac:(lra))) as (Es & Fs & Bs);
    [rewrite Eb64; apply Rabs_le; lra|]. apply Rabs_le_inv in Bs.
  destruct (to32_bnd _ Fs ltac:(lra)) as (F1 & E1 & B3). split; [exact F1|]. split; [exact B3|].
  intros G1 G2. unfold saw, basic_saw. rewrite E1, Es, Eb64. destruct (to32_bnd _ F B) as (_ & -> & _).
  rewrite B0.
  - rewrite Rminus_0_r, rnd_v. reflexivity.
  - apply N.ltb_ge. exact G1.
  - apply N.ltb_ge. rewrite pow32_R in *. lia.
Qed.

(** a level of +-1 plus one correction of the right sign minus another *)
Lemma level_pos (a b : f32) : fin a -> fin b -> -1 <= B2R a <= 0 -> 0 <= B2R b <= 1 ->
  let r := fsub (fadd (mk32 1 0) a) b in fin r /\ -1 <= B2R r <= 1 /\ (B2R a = 0 -> B2R b = 0 -> B2R r = 1).
Proof.
  intros Fa Fb Ha Hb r. destruct one_R as [E1 F1].
  destruct (fadd_bnd (mk32 1 0) a 1 F1 Fa fmt32_1 (lt128 1 ltac:(lra))) as (Ea & Fs & _); [rewrite E1; apply Rabs_le; lra|].
  assert (S : 0 <= B2R (fadd (mk32 1 0) a) <= 1).
  { rewrite Ea, E1. split; [rewrite <- (rnd_0 (prec:=24) (emax:=128)); apply rnd_le; lra|apply rnd_le_fmt; [apply fmt32_1|lra]]. }
  destruct (fsub_bnd (fadd (mk32 1 0) a) b 1 Fs Fb fmt32_1 (lt128 1 ltac:(lra))) as (Er & Fr & Br); [apply Rabs_le; lra|].
  apply Rabs_le_inv in Br. fold r in Er, Fr, Br. split; [exact Fr|]. split; [lra|].
  intros Ea0 Eb0. rewrite Er, Ea, E1, Ea0, Eb0. rewrite Rminus_0_r, Rplus_0_r, !(rnd_fmt 1 fmt32_1). reflexivity.
Qed.
Lemma level_neg (a b : f32) : fin a -> fin b -> 0 <= B2R a <= 1 -> -1 <= B2R b <= 0 ->
  let r := fsub (fadd (mk32 (-1) 0) a) b in fin r /\ -1 <= B2R r <= 1 /\ (B2R a = 0 -> B2R b = 0 -> B2R r = -1).
Proof.
  intros Fa Fb Ha Hb r. destruct mone_R as [E1 F1].
  destruct (fadd_bnd (mk32 (-1) 0) a 1 F1 Fa fmt32_1 (lt128 1 ltac:(lra))) as (Ea & Fs & _); [rewrite E1; apply Rabs_le; lra|].
  assert (S : -1 <= B2R (fadd (mk32 (-1) 0) a) <= 0).
  { rewrite Ea, E1. split; [apply rnd_ge_fmt; [apply fmt32_m1|lra]|rewrite <- (rnd_0 (prec:=24) (emax:=128)); apply rnd_le; lra]. }
  destruct (fsub_bnd (fadd (mk32 (-1) 0) a) b 1 Fs Fb fmt32_1 (lt128 1 ltac:(lra))) as (Er & Fr & Br); [apply Rabs_le; lra|].
  apply Rabs_le_inv in Br. fold r in Er, Fr, Br. split; [exact Fr|]. split; [lra|].
  intros Ea0 Eb0. rewrite Er, Ea, E1, Ea0, Eb0. rewrite Rminus_0_r, Rplus_0_r, !(rnd_fmt (-1) fmt32_m1). reflexivity.
Qed.

Definition sh (shift : N) : N := sub32 ph_end shift.
(** pulse with duty boundary [s]; square is the instance s = 2^31-1 *)
Lemma pulse_R s p dt : (s < 2 ^ 32)%N -> (p < 2 ^ 32)%N -> (dt <= s)%N -> (dt + s < 2 ^ 32)%N -> p <> s ->
  let r := fsub (fadd (basic_pulse s p) (poly_blep p dt)) (poly_blep (add32 p (sh s)) dt) in
  fin r /\ -1 <= B2R r <= 1 /\
  ((dt <= p)%N -> (p + dt < 2 ^ 32)%N -> ((p + dt <= s)%N \/ (s + dt < p)%N) -> B2R r = B2R (basic_pulse s p)).
Proof.
  intros Hs Hp H1 H2 Hn r. set (q := add32 p (sh s)).
  assert (Hd : (dt < 2 ^ 32)%N) by lia.
  assert (Eq : q = if (p <? s)%N then (p + (4294967295 - s))%N else (p - s - 1)%N).
  { unfold q, sh, add32, W32. rewrite sub_end by exact Hs. rewrite pow32_R in *. destruct (N.ltb_spec p s); lia. }
  assert (Hq : (q < 2 ^ 32)%N).
  { unfold q, add32. apply N.mod_lt. vm_compute. discriminate. }
  destruct (poly_blep_R p dt Hp Hd) as (Fa & Ba & A1 & A2 & A0).
  destruct (poly_blep_R q dt Hq Hd) as (Fb & Bb & B1 & B2 & B0).
  rewrite sub_end in A0, B0 by exact Hd. unfold basic_pulse in r |- *. rewrite pow32_R in *.
  destruct (N.ltb_spec p s) as [L|L].
  - assert (Bq : (q <? dt)%N = false) by (apply N.ltb_ge; lia).
    assert (Ap : -1 <= B2R (poly_blep p dt) <= 0).
    { destruct (p <? dt)%N eqn:C; [specialize (A1 eq_refl); lra|].
      rewrite A0; [lra|reflexivity|]. apply N.ltb_ge. lia. }
    destruct (level_pos (poly_blep p dt) (poly_blep q dt) Fa Fb Ap) as (F & B & X); [specialize (B2 Bq); lra|].
    split; [exact F|]. split; [exact B|]. intros G1 G2 G3. rewrite (proj1 one_R). apply X.
    + apply A0; apply N.ltb_ge; lia.
    + apply B0; [exact Bq|]. apply N.ltb_ge. lia.
  - assert (Lp : (p <? dt)%N = false) by (apply N.ltb_ge; lia).
    assert (Bp : -1 <= B2R (poly_blep q dt) <= 0).
    { destruct (q <? dt)%N eqn:C; [specialize (B1 eq_refl); lra|].
      rewrite B0; [lra|reflexivity|]. apply N.ltb_ge. lia. }
    destruct (level_neg (poly_blep p dt) (poly_blep q dt) Fa Fb) as (F & B & X); [specialize (A2 Lp); lra|exact Bp|].
    split; [exact F|]. split; [exact B|]. intros G1 G2 G3. rewrite (proj1 mone_R). apply X.
    + apply A0; [exact Lp|]. apply N.ltb_ge. lia.
    + apply B0; apply N.ltb_ge; lia.
Qed.

(** the residual at the very end of the cycle is 1: [t] is minus zero *)
Lemma blep_end dt : (1 <= dt)%N -> (dt < 2 ^ 32 - 1)%N -> B2R (poly_blep 4294967295 dt) = 1 /\ fin (poly_blep 4294967295 dt).
Proof.
  intros H1 H2. assert (Hd : (dt < 2 ^ 32)%N) by lia. unfold poly_blep. rewrite sub_end by exact Hd.
  destruct (N.ltb_spec 4294967295 dt) as [C|_]; [rewrite pow32_R in *; lia|].
  destruct (N.ltb_spec (4294967295 - dt) 4294967295) as [_|C]; [|lia].
  change (sub32 ph_end 4294967295) with 0%N.
  destruct (u2f_R 0 ltac:(rewrite pow32_R; lia)) as [_ F0]. destruct (u2f_R dt ltac:(lia)) as [_ Fd].
  pose proof (u2f_pos dt ltac:(lia)) as Pd.
  destruct (quot_bnd (fneg (u2f 0)) (u2f dt) (fneg_fin' _ F0) Fd ltac:(lra)) as (Fq & Eq & _).
  { rewrite fneg_R', u2f_0, Ropp_0, Rabs_R0. lra. }
  rewrite fneg_R', u2f_0, Ropp_0 in Eq. unfold Rdiv in Eq. rewrite Rmult_0_l, rnd_0 in Eq.
  set (t := fdiv (fneg (u2f 0)) (u2f dt)) in *. destruct one_R as [E1 F1].
  destruct (fmul_exact t t Fq Fq) as [Em Fm]; [rewrite Eq, Rmult_0_l; apply fmt_0|rewrite Eq, Rmult_0_l, Rabs_R0; apply lt128; lra|].
  rewrite Eq, Rmult_0_l in Em.
  destruct (fadd_exact (fmul t t) t Fm Fq) as [Ea Fa]; [rewrite Em, Eq, Rplus_0_l; apply fmt_0|rewrite Em, Eq, Rplus_0_l, Rabs_R0; apply lt128; lra|].
  rewrite Em, Eq, Rplus_0_l in Ea.
  destruct (fadd_exact (fadd (fmul t t) t) t Fa Fq) as [Eb Fb]; [rewrite Ea, Eq, Rplus_0_l; apply fmt_0|rewrite Ea, Eq, Rplus_0_l, Rabs_R0; apply lt128; lra|].
  rewrite Ea, Eq, Rplus_0_l in Eb.
  destruct (fadd_exact (fadd (fadd (fmul t t) t) t) (mk32 1 0) Fb F1) as [Ec Fc];
    [rewrite Eb, E1, Rplus_0_l; apply fmt32_1|rewrite Eb, E1, Rplus_0_l, Rabs_R1; apply lt128; lra|].
  split; [|exact Fc]. rewrite Ec, Eb, E1. lra.
Qed.

Lemma pulse_glitch s dt : (s < 2 ^ 32)%N -> (1 <= dt)%N -> (dt <= s)%N -> (dt + s < 2 ^ 32)%N ->
  B2R (fsub (fadd (basic_pulse s s) (poly_blep s dt)) (poly_blep (add32 s (sh s)) dt)) = -2.
Proof.
  intros Hs H0 H1 H2. assert (Hd : (dt < 2 ^ 32)%N) by lia.
  assert (Eq : add32 s (sh s) = 4294967295%N).
  { unfold sh, add32, W32. rewrite sub_end by exact Hs. rewrite pow32_R in *. lia. }
  rewrite Eq. destruct (blep_end dt H0) as [Eb Fb].
  { rewrite pow32_R in *. lia. }
  destruct (poly_blep_R s dt Hs Hd) as (Fa & _ & _ & _ & A0). rewrite sub_end in A0 by exact Hd.
  specialize (A0 ltac:(apply N.ltb_ge; lia) ltac:(apply N.ltb_ge; rewrite pow32_R in *; lia)).
  unfold basic_pulse. rewrite N.ltb_irrefl. destruct mone_R as [E1 F1].
  destruct (fadd_exact (mk32 (-1) 0) (poly_blep s dt) F1 Fa) as [Ea Fs];
    [rewrite E1, A0, Rplus_0_r; apply fmt32_m1|rewrite E1, A0, Rplus_0_r; apply lt128; apply Rabs_le; lra|].
  rewrite E1, A0, Rplus_0_r in Ea.
  destruct (fsub_exact (fadd (mk32 (-1) 0) (poly_blep s dt)) (poly_blep 4294967295 dt) Fs Fb) as [Er _].
  - rewrite Ea, Eb. replace (-1 - 1) with (- (2)) by lra. apply fmt_opp, fmt32_2.
  - rewrite Ea, Eb. apply lt128, Rabs_le. lra.
  - rewrite Er, Ea, Eb. lra.
Qed.

Lemma square_R p dt : (p < 2 ^ 32)%N -> (dt < 2 ^ 31)%N -> p <> (2 ^ 31 - 1)%N -> p <> (2 ^ 31)%N ->
  fin (square p dt) /\ -1 <= B2R (square p dt) <= 1 /\
  ((dt <= p)%N -> (p + dt < 2 ^ 32)%N -> ((p + dt <= 2 ^ 31)%N \/ (2 ^ 31 + dt < p)%N) -> B2R (square p dt) = B2R (basic_square p)).
Proof.
  intros Hp H1 Hn1 Hn2. set (q := add32 p ph_middle).
  change (2 ^ 31)%N with 2147483648%N in *. change (2147483648 - 1)%N with 2147483647%N in *.
  assert (Hd : (dt < 2 ^ 32)%N) by (rewrite pow32_R; lia).
  assert (Eq : q = if (p <? 2147483647)%N then (p + 2147483647)%N else (p - 2147483649)%N).
  { unfold q, add32, W32. change ph_middle with 2147483647%N. rewrite pow32_R in *. destruct (N.ltb_spec p 2147483647); lia. }
  assert (Hq : (q < 2 ^ 32)%N).
  { unfold q, add32. apply N.mod_lt. vm_compute. discriminate. }
  destruct (poly_blep_R p dt Hp Hd) as (Fa & Ba & A1 & A2 & A0).
  destruct (poly_blep_R q dt Hq Hd) as (Fb & Bb & B1 & B2 & B0).
  rewrite sub_end in A0, B0 by exact Hd. unfold square, basic_square. fold q. change ph_middle with 2147483647%N. rewrite pow32_R in *.
  destruct (N.ltb_spec p 2147483647) as [L|L].
  - assert (Bq : (q <? dt)%N = false) by (apply N.ltb_ge; lia).
    assert (Ap : -1 <= B2R (poly_blep p dt) <= 0).
    { destruct (p <? dt)%N eqn:C; [specialize (A1 eq_refl); lra|].
      rewrite A0; [lra|reflexivity|]. apply N.ltb_ge. lia. }
    destruct (level_pos (poly_blep p dt) (poly_blep q dt) Fa Fb Ap) as (F & B & X); [specialize (B2 Bq); lra|].
    split; [exact F|]. split; [exact B|]. intros G1 G2 G3. rewrite (proj1 one_R). apply X.
    + apply A0; apply N.ltb_ge; lia.
    + apply B0; [exact Bq|]. apply N.ltb_ge. lia.
  - assert (Lp : (p <? dt)%N = false) by (apply N.ltb_ge; lia).
    assert (Bp : -1 <= B2R (poly_blep q dt) <= 0).
    { destruct (q <? dt)%N eqn:C; [specialize (B1 eq_refl); lra|].
      rewrite B0; [lra|reflexivity|]. apply N.ltb_ge. lia. }
    destruct (level_neg (poly_blep p dt) (poly_blep q dt) Fa Fb) as (F & B & X); [specialize (A2 Lp); lra|exact Bp|].
    split; [exact F|]. split; [exact B|]. intros G1 G2 G3. rewrite (proj1 mone_R). apply X.
    + apply A0; [exact Lp|]. apply N.ltb_ge. lia.
    + apply B0; apply N.ltb_ge; lia.
Qed.

Lemma square_glitch dt : (1 <= dt)%N -> (dt < 2 ^ 31)%N -> B2R (square (2 ^ 31) dt) = -2.
Proof.
  intros H0 H1. change (2 ^ 31)%N with 2147483648%N in *. assert (Hd : (dt < 2 ^ 32)%N) by (rewrite pow32_R; lia).
  unfold square. change (add32 2147483648 ph_middle) with 4294967295%N.
  destruct (blep_end dt H0) as [Eb Fb]; [rewrite pow32_R; lia|].
  destruct (poly_blep_R 2147483648 dt eq_refl Hd) as (Fa & _ & _ & _ & A0). rewrite sub_end in A0 by exact Hd.
  specialize (A0 ltac:(apply N.ltb_ge; lia) ltac:(apply N.ltb_ge; lia)).
  change (basic_square 2147483648) with (mk32 (-1) 0). destruct mone_R as [E1 F1].
  destruct (fadd_exact (mk32 (-1) 0) (poly_blep 2147483648 dt) F1 Fa) as [Ea Fs];
    [rewrite E1, A0, Rplus_0_r; apply fmt32_m1|rewrite E1, A0, Rplus_0_r; apply lt128; apply Rabs_le; lra|].
  rewrite E1, A0, Rplus_0_r in Ea.
  destruct (fsub_exact (fadd (mk32 (-1) 0) (poly_blep 2147483648 dt)) (poly_blep 4294967295 dt) Fs Fb) as [Er _].
  - rewrite Ea, Eb. replace (-1 - 1) with (- (2)) by lra. apply fmt_opp, fmt32_2.
  - rewrite Ea, Eb. apply lt128, Rabs_le. lra.
  - rewrite Er, Ea, Eb. lra.
Qed.

(** triangle *)
Lemma fmt32_38 : fmt 24 128 (3 / 8).
Proof.
  replace (3 / 8) with (IZR 3 * bpow radix2 (-3)) by (change (bpow radix2 (-3)) with (/ 8); lra).
  apply fmt_F2R; [vm_compute; reflexivity|unfold SpecFloat.emin; lia].
Qed.
Lemma fmt64_38 : fmt 53 1024 (3 / 8).
Proof.
  replace (3 / 8) with (IZR 3 * bpow radix2 (-3)) by (change (bpow radix2 (-3)) with (/ 8); lra).
  apply fmt_F2R; [vm_compute; reflexivity|unfold SpecFloat.emin; lia].
Qed.
(** one step of the product: magnitude stays within B *)
Lemma mul_step (x t : f32) lo hi : fin x -> fin t -> fmt 24 128 lo -> fmt 24 128 hi ->
  -1 <= lo <= hi -> hi <= 1 -> lo <= B2R x * B2R t <= hi -> fin (fmul x t) /\ lo <= B2R (fmul x t) <= hi.
Proof.
  intros Fx Ft Fl Fh H1 H2 H3. destruct (fmul_bnd x t 1 Fx Ft fmt32_1 (lt128 1 ltac:(lra))) as (E & F & _).
  { apply Rabs_le. lra. }
  split; [exact F|]. rewrite E. split; [apply rnd_ge_fmt; [exact Fl|lra]|apply rnd_le_fmt; [exact Fh|lra]].
Qed.

Lemma blamp_c_bnd : (fin (blamp_c true) /\ - (3 / 2) <= B2R (blamp_c true) <= 0) /\
                    (fin (blamp_c false) /\ 0 <= B2R (blamp_c false) <= 3 / 2).
Proof.
  assert (F1 : fin (blamp_c true)) by (vm_compute; reflexivity).
  assert (F2 : fin (blamp_c false)) by (vm_compute; reflexivity).
  destruct (mk32_small 3 (-1) ltac:(lia) ltac:(lia)) as [E G].
  destruct (mk32_small (-3) (-1) ltac:(lia) ltac:(lia)) as [E' G'].
  destruct (mk32_small 0 0 ltac:(lia) ltac:(lia)) as [E0 G0].
  rewrite bpow_m1 in E, E'. rewrite Rmult_0_l in E0.
  assert (C1 : fle (mk32 (-3) (-1)) (blamp_c true) = true) by (vm_compute; reflexivity).
  assert (C2 : fle (blamp_c true) (mk32 0 0) = true) by (vm_compute; reflexivity).
  assert (C3 : fle (mk32 0 0) (blamp_c false) = true) by (vm_compute; reflexivity).
  assert (C4 : fle (blamp_c false) (mk32 3 (-1)) = true) by (vm_compute; reflexivity).
  apply (fle_true _ _ G' F1) in C1. apply (fle_true _ _ F1 G0) in C2.
  apply (fle_true _ _ G0 F2) in C3. apply (fle_true _ _ F2 G) in C4.
  rewrite E' in C1. rewrite E0 in C2, C3. rewrite E in C4. split; (split; [assumption|lra]).
Qed.

Lemma phase_to_float_bnd dt : (dt <= 2 ^ 30)%N -> fin (phase_to_float dt) /\ 0 <= B2R (phase_to_float dt) <= / 4.
Proof.
  intros H. unfold phase_to_float. change (2 ^ 30)%N with 1073741824%N in H.
  assert (L : (dt <= 2 ^ 32)%N) by (rewrite pow32_R; lia).
  destruct (u2f_R dt L) as [Ed Fd]. pose proof (u2f_nonneg dt L) as P.
  assert (U : B2R (u2f dt) <= bpow radix2 30).
  { rewrite Ed. apply rnd_le_fmt; [apply fmt32_b; lia|]. apply (IZR_le _ 1073741824). lia. }
  destruct (mk32_small 1 32 ltac:(lia) ltac:(lia)) as [E G]. rewrite Rmult_1_l in E.
  assert (B30 : bpow radix2 30 = bpow radix2 32 * / 4) by (exact (bpow_plus radix2 32 (-2))).
  pose proof (bpow_gt_0 radix2 32) as P32.
  assert (Q : 0 <= B2R (u2f dt) / bpow radix2 32 <= / 4).
  { split; [apply Rmult_le_pos; [exact P|apply Rlt_le, Rinv_0_lt_compat; exact P32]|].
    apply Rmult_le_reg_r with (1 := P32). unfold Rdiv. rewrite Rmult_assoc, Rinv_l by lra. lra. }
  destruct (fdiv_bnd (u2f dt) (mk32 1 32) 1 Fd) as (Eq & Fq & _); try (rewrite E); try lra; try apply fmt32_1.
  { apply lt128. lra. }
  { apply Rabs_le. lra. }
  split; [exact Fq|]. rewrite Eq, E. split.
  - apply rnd_ge_fmt; [apply fmt_0|lra].
  - change (/ 4) with (bpow radix2 (-2)). apply rnd_le_fmt; [apply fmt32_b; lia|]. change (bpow radix2 (-2)) with (/ 4). lra.
Qed.

Lemma poly_blamp_R p dt : (p < 2 ^ 32)%N -> (dt <= 2 ^ 30)%N ->
  fin (poly_blamp p dt) /\ 0 <= B2R (poly_blamp p dt) <= 3 / 8 /\
  ((dt <= p)%N -> (p + dt < 2 ^ 32)%N -> B2R (poly_blamp p dt) = 0).
Proof.
  intros Hp Hd'. assert (Hd : (dt < 2 ^ 32)%N) by (change (2 ^ 30)%N with 1073741824%N in Hd'; rewrite pow32_R; lia).
  destruct (phase_to_float_bnd dt Hd') as [Ff Bf]. destruct blamp_c_bnd as [[Fn Bn] [Fp Bp]]. destruct one_R as [E1 F1].
  pose proof fmt32_38 as F38. pose proof (fmt_opp (prec:=24) (emax:=128) _ F38) as F38'.
  pose proof (fmt_0 (prec:=24) (emax:=128)) as F0.
  unfold poly_blamp. destruct (p <? dt)%N eqn:C1.
  - apply N.ltb_lt in C1.
    destruct (u2f_R p ltac:(lia)) as [_ Fpu]. destruct (u2f_R dt ltac:(lia)) as [_ Fd].
    pose proof (u2f_pos dt ltac:(lia)) as Pd. pose proof (u2f_nonneg p ltac:(lia)) as Pp.
    pose proof (u2f_mono p dt ltac:(lia) ltac:(lia)) as M.
    destruct (quot_bnd (u2f p) (u2f dt) Fpu Fd ltac:(lra)) as (Fq & Eq & Bq); [rewrite Rabs_pos_eq; lra|].
    apply Rabs_le_inv in Bq.
    assert (Q0 : 0 <= B2R (fdiv (u2f p) (u2f dt))).
    { rewrite Eq. apply rnd_ge_fmt; [exact F0|]. apply Rmult_le_pos; [exact Pp|]. apply Rlt_le, Rinv_0_lt_compat. lra. }
    destruct (fsub_bnd (fdiv (u2f p) (u2f dt)) (mk32 1 0) 1 Fq F1 fmt32_1 (lt128 1 ltac:(lra))) as (Et & Ft & Bt); [rewrite E1; apply Rabs_le; lra|].
    apply Rabs_le_inv in Bt. set (t := fsub (fdiv (u2f p) (u2f dt)) (mk32 1 0)) in *.
    assert (T0 : B2R t <= 0). { rewrite Et, E1. apply rnd_le_fmt; [exact F0|lra]. }
    destruct (mul_step (blamp_c true) (phase_to_float dt) (- (3 / 8)) 0) as [G1 H1]; try assumption; try lra; [nra|].
    destruct (mul_step (fmul (blamp_c true) (phase_to_float dt)) t 0 (3 / 8)) as [G2 H2]; try assumption; try lra; [nra|].
    destruct (mul_step (fmul (fmul (blamp_c true) (phase_to_float dt)) t) t (- (3 / 8)) 0) as [G3 H3]; try assumption; try lra; [nra|].
    destruct (mul_step (fmul (fmul (fmul (blamp_c true) (phase_to_float dt)) t) t) t 0 (3 / 8)) as [G4 H4]; try assumption; try lra; [nra|].
    destruct (to64_R _ G4) as [E5 F5]. split; [exact F5|]. split; [|intros; lia]. rewrite E5. exact H4.
  - apply N.ltb_ge in C1. rewrite sub_end by exact Hd. destruct (4294967295 - dt <? p)%N eqn:C2.
    + apply N.ltb_lt in C2. rewrite sub_end by exact Hp. set (q := (4294967295 - p)%N).
      assert (Hq : (q < dt)%N) by (unfold q; rewrite pow32_R in *; lia).
      destruct (u2f_R q ltac:(lia)) as [_ Fpu]. destruct (u2f_R dt ltac:(lia)) as [_ Fd].
      pose proof (u2f_pos dt ltac:(lia)) as Pd. pose proof (u2f_nonneg q ltac:(lia)) as Pp.
      pose proof (u2f_mono q dt ltac:(lia) ltac:(lia)) as M.
      destruct (quot_bnd (u2f q) (u2f dt) Fpu Fd ltac:(lra)) as (Fq & Eq & Bq); [rewrite Rabs_pos_eq; lra|].
      apply Rabs_le_inv in Bq.
      assert (Q0 : 0 <= B2R (fdiv (u2f q) (u2f dt))).
      { rewrite Eq. apply rnd_ge_fmt; [exact F0|]. apply Rmult_le_pos; [exact Pp|]. apply Rlt_le, Rinv_0_lt_compat. lra. }
      pose proof (fneg_R' (fdiv (u2f q) (u2f dt))) as En. pose proof (fneg_fin' _ Fq) as Fneg.
      destruct (fadd_bnd (fneg (fdiv (u2f q) (u2f dt))) (mk32 1 0) 1 Fneg F1 fmt32_1 (lt128 1 ltac:(lra))) as (Et & Ft & Bt); [rewrite E1, En; apply Rabs_le; lra|].
      apply Rabs_le_inv in Bt. set (t := fadd (fneg (fdiv (u2f q) (u2f dt))) (mk32 1 0)) in *.
      assert (T0 : 0 <= B2R t). { rewrite Et, E1. apply rnd_ge_fmt; [exact F0|lra]. }
      destruct (mul_step (blamp_c false) (phase_to_float dt) 0 (3 / 8)) as [G1 H1]; try assumption; try lra; [nra|].
      destruct (mul_step (fmul (blamp_c false) (phase_to_float dt)) t 0 (3 / 8)) as [G2 H2]; try assumption; try lra; [nra|].
      destruct (mul_step (fmul (fmul (blamp_c false) (phase_to_float dt)) t) t 0 (3 / 8)) as [G3 H3]; try assumption; try lra; [nra|].
      destruct (mul_step (fmul (fmul (fmul (blamp_c false) (phase_to_float dt)) t) t) t 0 (3 / 8)) as [G4 H4]; try assumption; try lra; [nra|].
      destruct (to64_R _ G4) as [E5 F5]. split; [exact F5|]. split; [|intros; rewrite pow32_R in *; lia]. rewrite E5. exact H4.
    + destruct (to64_R fzero eq_refl) as [E5 F5]. split; [exact F5|]. rewrite E5. cbn [B2R fzero]. split; [lra|reflexivity].
Qed.

Lemma triangle_R p dt : (p < 2 ^ 32)%N -> (dt < 2 ^ 30)%N -> p <> (2 ^ 30 + 1)%N ->
  exists v, triangle p dt = Some v /\ fin v /\ -1 <= B2R v <= 1.
Proof.
  intros Hp Hd Hn. unfold triangle. set (u := add32 p edge1).
  change (2 ^ 30)%N with 1073741824%N in *.
  assert (Hu : (u < 2 ^ 32)%N) by (unfold u, add32; apply N.mod_lt; vm_compute; discriminate).
  assert (Eu : u = if (p + 1073741823 <? 4294967296)%N then (p + 1073741823)%N else (p - 3221225473)%N).
  { unfold u, add32, W32. change edge1 with 1073741823%N. rewrite pow32_R in *. destruct (N.ltb_spec (p + 1073741823) 4294967296); lia. }
  set (w := add32 p edge2).
  assert (Hw : (w < 2 ^ 32)%N) by (unfold w, add32; apply N.mod_lt; vm_compute; discriminate).
  assert (Ew : w = if (u <? 2147483647)%N then (u + 2147483649)%N else (u - 2147483647)%N).
  { rewrite Eu. unfold w, add32, W32. change edge2 with 3221225472%N. rewrite pow32_R in *.
    destruct (N.ltb_spec (p + 1073741823) 4294967296).
    - destruct (N.ltb_spec (p + 1073741823) 2147483647); lia.
    - destruct (N.ltb_spec (p - 3221225473) 2147483647); lia. }
  destruct (tri_raw_R u Hu) as (r & Er & Fr & Vr & Br).
  { change (2 ^ 31)%N with 2147483648%N. rewrite pow32_R in *. destruct (N.ltb_spec (p + 1073741823) 4294967296); lia. }
  rewrite Er. cbn [bind]. eexists. split; [reflexivity|].
  destruct (poly_blamp_R u dt Hu ltac:(lia)) as (Fa & Ba & A0). destruct (poly_blamp_R w dt Hw ltac:(lia)) as (Fb & Bb & B0).
  set (a := Z.abs (to_int32 u)) in *.
  assert (Ea : a = if (u <? 2147483648)%N then Z.of_N u else (4294967296 - Z.of_N u)%Z).
  { unfold a, to_int32. change (2 ^ 31)%N with 2147483648%N. change (2 ^ 32)%Z with 4294967296%Z. rewrite pow32_R in Hu.
    destruct (N.ltb_spec u 2147483648); lia. }
  (* near the bottom the ramp is at most 0, near the top at least 0 *)
  assert (Lo : (a <= 1073741824)%Z -> B2R r <= 0).
  { intros Ha. assert (r32 (IZR a) <= bpow radix2 30) by (apply rnd_le_fmt; [apply fmt32_b; lia|apply (IZR_le _ 1073741824); exact Ha]).
    assert (r32 (IZR a) * bpow radix2 (-30) <= bpow radix2 30 * bpow radix2 (-30)) by (apply Rmult_le_compat_r; [apply bpow_ge_0|assumption]).
    rewrite <- bpow_plus in H0. change (bpow radix2 (30 + -30)) with 1 in H0. lra. }
  assert (Hi : (1073741824 <= a)%Z -> 0 <= B2R r).
  { intros Ha. assert (bpow radix2 30 <= r32 (IZR a)) by (apply rnd_ge_fmt; [apply fmt32_b; lia|apply (IZR_le 1073741824); exact Ha]).
    assert (bpow radix2 30 * bpow radix2 (-30) <= r32 (IZR a) * bpow radix2 (-30)) by (apply Rmult_le_compat_r; [apply bpow_ge_0|assumption]).
    rewrite <- bpow_plus in H0. change (bpow radix2 (30 + -30)) with 1 in H0. lra. }
  rewrite pow32_R in *.
  assert (S1 : -1 <= B2R r + B2R (poly_blamp u dt) <= 1).
  { destruct (Z_le_dec a 1073741824) as [La|La]; [specialize (Lo La); lra|].
    rewrite A0; [lra| |]; destruct (N.ltb_spec u 2147483648); lia. }
  destruct (fadd_bnd r (poly_blamp u dt) 1 Fr Fa fmt64_1 (lt1024 1 ltac:(lra))) as (E2 & F2 & B2); [apply Rabs_le; lra|].
  apply Rabs_le_inv in B2.
  assert (G0 : fmt 53 1024 0) by apply fmt_0.
  assert (S2 : -1 <= B2R (fadd r (poly_blamp u dt)) - B2R (poly_blamp w dt) <= 1).
  { destruct (Z_le_dec 1073741824 a) as [La|La].
    - specialize (Hi ltac:(lia)). assert (0 <= B2R (fadd r (poly_blamp u dt))); [|lra].
      rewrite E2. apply rnd_ge_fmt; [exact G0|lra].
    - rewrite B0; [lra| |];
        destruct (N.ltb_spec u 2147483648); destruct (N.ltb_spec u 2147483647); lia. }
  destruct (fsub_bnd (fadd r (poly_blamp u dt)) (poly_blamp w dt) 1 F2 Fb fmt64_1 (lt1024 1 ltac:(lra))) as (E3 & F3 & B3); [apply Rabs_le; lra|].
  apply Rabs_le_inv in B3. destruct (to32_bnd _ F3 ltac:(lra)) as (F4 & _ & B4). split; [exact F4|exact B4].
Qed.
