From Coq Require Import Reals Lra Psatz.
From Flocq Require Import Core.Core IEEE754.BinarySingleNaN.
From Flocq Require Import Mult_error.
From Verif Require Import Common CommonFacts Float FloatFacts FloatLerp FloatRel Env_Model Env_Spec Env_Proof Coeff_Proof Filt_Model Filt_Spec.
Local Open Scope R_scope.
Local Notation rn := (rnd 24 128).
Local Notation ft := (fmt 24 128).

(** ** fixed point leaky integrator *)
Section Fpli.
Local Open Scope Z_scope.
Lemma chk_ok z : -2147483648 <= z <= 2147483647 -> chk z = Some z.
Proof. intros H. unfold chk, in_int. destruct (Z.leb_spec (-2147483648) z); [|lia]. destruct (Z.leb_spec z 2147483647); [reflexivity|lia]. Qed.
Lemma quot_cases y k : 0 < k -> let q := Z.quot y k in
  (0 <= y -> k * q <= y < k * q + k /\ 0 <= q) /\ (y <= 0 -> k * q - k < y <= k * q /\ q <= 0).
Proof.
  intros Hk q. split; intros Hy.
  - unfold q. rewrite Z.quot_div_nonneg by lia. pose proof (Z.div_mod y k ltac:(lia)). pose proof (Z.mod_pos_bound y k Hk).
    pose proof (Z.div_pos y k Hy Hk). lia.
  - unfold q. replace y with (- - y) by lia. rewrite Z.quot_opp_l by lia. rewrite Z.quot_div_nonneg by lia.
    pose proof (Z.div_mod (- y) k ltac:(lia)). pose proof (Z.mod_pos_bound (- y) k Hk). pose proof (Z.div_pos (- y) k ltac:(lia) Hk). lia.
Qed.
Lemma mul_cancel k a b : 0 < k -> k * a <= k * b + k - 1 -> a <= b.
Proof. intros Hk H. apply Z.lt_succ_r. apply (Z.mul_lt_mono_pos_l k); [exact Hk|]. rewrite Z.mul_succ_r. lia. Qed.
Lemma fpli_step_ok k y s S : 1 < k -> 0 <= S -> k * S + k <= 2147483647 -> Z.abs s <= S -> Z.abs y <= k * S + k - 1 ->
  exists y', fpli_step k y s = Some y' /\ y' = y + (s - Z.quot y k) /\ Z.abs y' <= k * S + k - 1.
Proof.
  intros Hk HS HB Hs Hy. destruct (quot_cases y k ltac:(lia)) as [Q1 Q2].
  assert (E : exists q, q = Z.quot y k) by (exists (Z.quot y k); reflexivity). destruct E as [q Eq]. rewrite <- Eq in Q1, Q2.
  assert (Hq : Z.abs q <= S).
  { destruct (Z.le_ge_cases 0 y) as [P|P]; [specialize (Q1 P)|specialize (Q2 P)]; clear Eq.
    - assert (q <= S) by (apply (mul_cancel k); lia). lia.
    - assert (- q <= S) by (apply (mul_cancel k); rewrite ?Z.mul_opp_r; lia). lia. }
  assert (K1 : 0 <= (k - 1) * S) by (apply Z.mul_nonneg_nonneg; lia).
  assert (Hy' : Z.abs (y + (s - q)) <= k * S + k - 1).
  { clear Eq. destruct (Z.le_ge_cases 0 y) as [P|P]; [specialize (Q1 P)|specialize (Q2 P)].
    - assert (0 <= (k - 1) * q) by (apply Z.mul_nonneg_nonneg; lia).
      destruct (Z.eq_dec q S) as [E|E]; [rewrite E in *; lia|].
      assert (0 <= (k - 1) * (S - 1 - q)) by (apply Z.mul_nonneg_nonneg; lia). lia.
    - assert (0 <= (k - 1) * - q) by (apply Z.mul_nonneg_nonneg; lia).
      destruct (Z.eq_dec q (- S)) as [E|E]; [rewrite E in *; lia|].
      assert (0 <= (k - 1) * (S - 1 + q)) by (apply Z.mul_nonneg_nonneg; lia). lia. }
  exists (y + (s - q)). rewrite <- Eq. split; [|split; [reflexivity|exact Hy']].
  unfold fpli_step. destruct (Z.eqb_spec k 0); [lia|]. rewrite <- Eq. clear Eq.
  assert (K2 : 0 <= (k - 2) * S) by (apply Z.mul_nonneg_nonneg; lia).
  rewrite (chk_ok q) by lia. cbn [bind]. rewrite (chk_ok (s - q)) by lia. cbn [bind]. apply chk_ok. lia.
Qed.
Lemma fpli_run_ok k S : 1 < k -> 0 <= S -> k * S + k <= 2147483647 -> forall xs y, Forall (fun s => Z.abs s <= S) xs -> Z.abs y <= k * S + k - 1 ->
  exists y', fpli_run k y xs = Some y' /\ Z.abs y' <= k * S + k - 1.
Proof.
  intros Hk HS HB. induction xs as [|s xs IH]; intros y Hx Hy; [exists y; auto|].
  inversion Hx; subst. destruct (fpli_step_ok k y s S Hk HS HB H1 Hy) as (y' & E & _ & B). cbn [fpli_run]. rewrite E. apply IH; assumption.
Qed.
(** constant input: the quotient reaches the input and stays there *)
Lemma fpli_settles k S s : 1 < k -> 0 <= S -> k * S + k <= 2147483647 -> Z.abs s <= S ->
  forall m y, Z.abs y <= k * S + k - 1 -> (Z.abs (y - k * s) <= Z.of_nat m) ->
  exists y', fpli_run k y (repeat s m) = Some y' /\ Z.quot y' k = s /\ Z.abs y' <= k * S + k - 1.
Proof.
  intros Hk HS HB Hs. induction m as [|m IH]; intros y Hy Hm.
  - exists y. assert (y = k * s) by lia. subst y. split; [reflexivity|]. split; [|exact Hy]. rewrite Z.mul_comm. apply Z.quot_mul. lia.
  - destruct (fpli_step_ok k y s S Hk HS HB Hs Hy) as (y1 & E & V & B).
    cbn [repeat fpli_run]. rewrite E. cbn [bind].
    destruct (Z.eq_dec (Z.quot y k) s) as [Eq|Nq].
    + (* already settled: y1 = y *)
      assert (y1 = y) by (rewrite Eq in V; clear - V; lia). clear V. subst y1. clear IH.
      assert (K : forall j z, Z.quot z k = s -> Z.abs z <= k * S + k - 1 -> exists y', fpli_run k z (repeat s j) = Some y' /\ Z.quot y' k = s /\ Z.abs y' <= k * S + k - 1).
      { induction j as [|j IHj]; intros z Hz Bz; [exists z; auto|].
        destruct (fpli_step_ok k z s S Hk HS HB Hs Bz) as (z1 & E1 & V1 & B1). cbn [repeat fpli_run]. rewrite E1. cbn [bind].
        assert (z1 = z) by (rewrite Hz in V1; clear - V1; lia). clear V1. subst z1. apply IHj; assumption. }
      apply K; assumption.
    + apply IH; [exact B|]. subst y1. destruct (quot_cases y k ltac:(lia)) as [Q1 Q2].
      assert (X : exists q, q = Z.quot y k) by (exists (Z.quot y k); reflexivity). destruct X as [q Xq]. rewrite <- Xq in *. clear E Xq.
      destruct (Z.le_ge_cases 0 y) as [P|P]; [specialize (Q1 P)|specialize (Q2 P)].
      * destruct (Z.lt_ge_cases q s) as [L|L].
        { assert (0 <= (k - 1) * (s - q - 1)) by (apply Z.mul_nonneg_nonneg; lia). lia. }
        { assert (0 <= (k - 1) * (q - s)) by (apply Z.mul_nonneg_nonneg; lia). lia. }
      * destruct (Z.lt_ge_cases q s) as [L|L].
        { assert (0 <= (k - 1) * (s - q)) by (apply Z.mul_nonneg_nonneg; lia). lia. }
        { assert (0 <= (k - 1) * (q - s - 1)) by (apply Z.mul_nonneg_nonneg; lia). lia. }
Qed.
Lemma fpli_stays k S s : 1 < k -> 0 <= S -> k * S + k <= 2147483647 -> Z.abs s <= S ->
  forall y, Z.abs y <= k * S + k - 1 -> Z.quot y k = s -> fpli_step k y s = Some y.
Proof.
  intros Hk HS HB Hs y Hy Hq. destruct (fpli_step_ok k y s S Hk HS HB Hs Hy) as (y1 & E & V & B). rewrite E. f_equal. rewrite Hq in V. clear - V. lia.
Qed.
End Fpli.

(** ** runs *)
Lemma filt_run_range step (lo hi : R) :
  (forall y s, bounded y -> bounded s -> bounded (step y s) /\ Rmin (B2R y) (B2R s) <= B2R (step y s) <= Rmax (B2R y) (B2R s)) ->
  forall xs y, bounded y -> lo <= B2R y <= hi -> all_within lo hi xs -> all_within lo hi (filt_run step y xs).
Proof.
  intros H xs y By Ry Hx o Ho. 
  assert (E : forall xs y, filt_run step y xs = env_run step y xs).
  { clear. induction xs as [|s xs IH]; intros y; [reflexivity|]. cbn. rewrite IH. reflexivity. }
  rewrite E in Ho. apply (env_run_range step lo hi H xs y By Ry); [exact Hx|exact Ho].
Qed.
Lemma filt_last_within step (P : f32 -> Prop) s : (forall y, P y -> P (step y s)) -> forall n y, P y -> P (filt_last step y (repeat s n)).
Proof. intros H. induction n as [|n IH]; intros y Hy; [exact Hy|]. cbn. apply IH. apply H. exact Hy. Qed.
(** geometric convergence up to the accumulated rounding allowance *)
Lemma converge step (P : f32 -> Prop) (s : f32) (r E : R) : 0 <= r < 1 -> 0 <= E ->
  (forall y, P y -> P (step y s) /\ Rabs (B2R (step y s) - (B2R s + r * (B2R y - B2R s))) <= E) ->
  forall n y, P y -> Rabs (B2R (filt_last step y (repeat s n)) - B2R s) <= r ^ n * Rabs (B2R y - B2R s) + (1 - r ^ n) * (E / (1 - r)).
Proof.
  intros Hr HE H. induction n as [|n IH]; intros y Hy.
  - cbn. lra.
  - cbn [repeat filt_last]. destruct (H y Hy) as [P1 E1]. eapply Rle_trans; [apply (IH _ P1)|]. cbn [pow].
    assert (B : Rabs (B2R (step y s) - B2R s) <= r * Rabs (B2R y - B2R s) + E).
    { replace (B2R (step y s) - B2R s) with (r * (B2R y - B2R s) + (B2R (step y s) - (B2R s + r * (B2R y - B2R s)))) by ring.
      eapply Rle_trans; [apply Rabs_triang|]. rewrite Rabs_mult, (Rabs_pos_eq r) by lra. lra. }
    pose proof (pow_le r n ltac:(lra)) as Pn.
    set (q := E / (1 - r)). assert (Eq : E = q * (1 - r)) by (unfold q; field; lra). rewrite Eq in B. set (p := r ^ n) in *.
    assert (p * Rabs (B2R (step y s) - B2R s) <= p * (r * Rabs (B2R y - B2R s) + q * (1 - r))) by (apply Rmult_le_compat_l; assumption). nra.
Qed.
Lemma pow_small r n : 0 <= r < 1 -> 0 <= r ^ n <= 1.
Proof. intros Hr. induction n as [|n [I1 I2]]; cbn; [lra|]. nra. Qed.
Lemma converge' step (P : f32 -> Prop) (s : f32) (r E : R) : 0 <= r < 1 -> 0 <= E ->
  (forall y, P y -> P (step y s) /\ Rabs (B2R (step y s) - (B2R s + r * (B2R y - B2R s))) <= E) ->
  forall n y, P y -> Rabs (B2R (filt_last step y (repeat s n)) - B2R s) <= r ^ n * Rabs (B2R y - B2R s) + E / (1 - r).
Proof.
  intros Hr HE H n y Hy. eapply Rle_trans; [apply (converge step P s r E Hr HE H n y Hy)|].
  destruct (pow_small r n Hr). assert (0 <= E / (1 - r)) by (apply Rmult_le_pos; [lra|apply Rlt_le, Rinv_0_lt_compat; lra]). nra.
Qed.
Lemma step_err_pos M : 0 <= M -> 0 <= step_err M.
Proof. intros H. unfold step_err. pose proof (bpow_ge_0 radix2 (-21)). pose proof (bpow_ge_0 radix2 (-147)). nra. Qed.
Lemma abs_max y s M : Rabs y <= M -> Rabs s <= M -> Rabs (Rmin y s) <= M /\ Rabs (Rmax y s) <= M.
Proof. intros H1 H2. unfold Rmin, Rmax. destruct (Rle_dec y s); auto. Qed.
Lemma between_abs lo hi v M : Rabs lo <= M -> Rabs hi <= M -> lo <= v <= hi -> Rabs v <= M.
Proof. intros H1 H2 H. apply Rabs_le_inv in H1, H2. apply Rabs_le. lra. Qed.

(** leaky integrator *)
Lemma leaky_between a y s : coefficient a -> bounded y -> bounded s ->
  bounded (leaky_step a y s) /\ Rmin (B2R y) (B2R s) <= B2R (leaky_step a y s) <= Rmax (B2R y) (B2R s).
Proof. intros Ha Hy Hs. rewrite Rmin_comm, Rmax_comm. exact (lerp_f32 s y a Hs Hy Ha). Qed.
Lemma lowpass_between a y s : coefficient a -> bounded y -> bounded s ->
  bounded (lowpass_step a y s) /\ Rmin (B2R y) (B2R s) <= B2R (lowpass_step a y s) <= Rmax (B2R y) (B2R s).
Proof. intros Ha Hy Hs. exact (lerp_f32 y s a Hy Hs Ha). Qed.
Lemma leaky_converge a s M : coefficient a -> bounded s -> Rabs (B2R s) <= M ->
  forall n y, bounded y -> Rabs (B2R y) <= M ->
  Rabs (B2R (filt_last (leaky_step a) y (repeat s n)) - B2R s) <= B2R a ^ n * Rabs (B2R y - B2R s) + step_err M / (1 - B2R a).
Proof.
  intros Ha Bs Ms n y By My. pose proof (Rabs_pos (B2R s)).
  apply (converge' (leaky_step a) (fun y => bounded y /\ Rabs (B2R y) <= M)); auto.
  - apply Ha. - apply step_err_pos. lra.
  - intros z [Bz Mz]. destruct (leaky_between a z s Ha Bz Bs) as [B1 B2]. destruct (abs_max _ _ _ Mz Ms) as [A1 A2].
    split; [split; [exact B1|exact (between_abs _ _ _ _ A1 A2 B2)]|].
    exact (lerp_err s z a M Bs Bz Ha Ms Mz).
Qed.
Lemma lowpass_converge a s M : coefficient a -> 0 < B2R a -> bounded s -> Rabs (B2R s) <= M ->
  forall n y, bounded y -> Rabs (B2R y) <= M ->
  Rabs (B2R (filt_last (lowpass_step a) y (repeat s n)) - B2R s) <= (1 - B2R a) ^ n * Rabs (B2R y - B2R s) + step_err M / B2R a.
Proof.
  intros Ha Pa Bs Ms n y By My. pose proof (Rabs_pos (B2R s)). destruct Ha as [Fa Ha].
  replace (step_err M / B2R a) with (step_err M / (1 - (1 - B2R a))) by (f_equal; ring).
  apply (converge' (lowpass_step a) (fun y => bounded y /\ Rabs (B2R y) <= M)); auto.
  - lra. - apply step_err_pos. lra.
  - intros z [Bz Mz]. destruct (lowpass_between a z s (conj Fa Ha) Bz Bs) as [B1 B2]. destruct (abs_max _ _ _ Mz Ms) as [A1 A2].
    split; [split; [exact B1|exact (between_abs _ _ _ _ A1 A2 B2)]|].
    pose proof (lerp_err z s a M Bz Bs (conj Fa Ha) Mz Ms) as E.
    replace (B2R s + (1 - B2R a) * (B2R z - B2R s)) with (B2R z + B2R a * (B2R s - B2R z)) by ring. exact E.
Qed.

(** coefficients from cutoff frequencies *)

(** ** pi *)
From Coq Require Import Machin.
Lemma PI_tight : 3.1415926 < PI < 3.1415927.
Proof.
  destruct (PI_2_3_7_ineq 4) as [L U].
  unfold sum_f_R0, tg_alt, PI_2_3_7_tg, Ratan_seq in L, U. cbn [Nat.add Nat.mul pow INR] in L, U. cbv beta in L, U. lra.
Qed.
Lemma cutoff_ok a f sps : 0 < sps -> 0.00001 * sps <= f <= 0.15 * sps -> cutoff_coeff a f sps -> coefficient a.
Proof.
  intros Hs Hf [F H]. split; [exact F|]. apply Rabs_le_inv in H. change (bpow radix2 (-20)) with (/ 1048576) in H.
  pose proof PI_tight as P.
  assert (Q : 0.00001 <= f / sps <= 0.15).
  { split; [apply Rmult_le_reg_r with sps|apply Rmult_le_reg_r with sps]; auto; unfold Rdiv; rewrite Rmult_assoc, Rinv_l by lra; lra. }
  replace (2 * PI * f / sps) with (2 * PI * (f / sps)) in H by (field; lra). set (q := f / sps) in *. nra.
Qed.
Lemma lowpass_coeff_ok (x : f32) : is_finite x = true -> -1 <= B2R x <= 0 ->
  coefficient (lowpass_coeff x) /\ 0 < B2R (lowpass_coeff x) /\ Rabs (B2R (lowpass_coeff x) - (1 - exp3_poly (B2R x))) <= bpow radix2 (-20).
Proof.
  intros F H. destruct (fast_exp3_coeff x F H) as [Fe He]. pose proof (fast_exp3_val x F H) as V. unfold lowpass_coeff.
  destruct (to64_R (fast_exp3 x) Fe) as [V6 F6].
  destruct (mk64_small 1 0 ltac:(reflexivity) ltac:(lia)) as [V1 F1]. change (bpow radix2 0) with 1 in V1. rewrite Rmult_1_r in V1.
  assert (T : 1 / 4 <= B2R (fast_exp3 x) <= 1 - bpow radix2 (-24)).
  { split.
    - change (bpow radix2 (-21)) with (/ 2097152) in V. apply Rabs_le_inv in V. unfold exp3_poly in V. set (X := B2R x) in *. nra.
    - assert (G1 : ft 1) by (change 1 with (bpow radix2 0); apply fmt_bpow; unfold SpecFloat.emin; lia).
      pose proof (pred_ge_gt radix2 (fx (prec:=24) (emax:=128)) _ 1 (fmt_v (fast_exp3 x)) G1 (proj2 He)) as Q.
      replace (pred radix2 (fx (prec:=24) (emax:=128)) 1) with (1 - bpow radix2 (-24)) in Q; [exact Q|].
      change 1 with (bpow radix2 0) at 2. rewrite pred_bpow. reflexivity. }
  set (e := fast_exp3 x) in *.
  assert (M : bpow radix2 (-24) <= 1 - B2R e <= 3 / 4) by lra.
  pose proof (bpow_gt_0 radix2 (-24)).
  assert (L1 : forall e, (0 < e)%Z -> 1 < bpow radix2 e) by (intros z Hz; change 1 with (bpow radix2 0); apply bpow_lt; lia).
  assert (G1 : fmt 53 1024 1) by (change 1 with (bpow radix2 0); apply fmt_bpow; unfold SpecFloat.emin; lia).
  destruct (fsub_bnd (mk64 1 0) (to64 e) 1 F1 F6 G1 (L1 1024%Z ltac:(lia))) as (Vs & Fs & Bs).
  { rewrite V1, V6. apply Rabs_le. lra. }
  rewrite V1, V6 in Vs.
  assert (M2 : bpow radix2 (-24) <= B2R (fsub (mk64 1 0) (to64 e)) <= 3 / 4).
  { rewrite Vs. split; [apply rnd_ge_fmt; [apply fmt_bpow; unfold SpecFloat.emin; lia|lra]|apply rnd_le_fmt; [|lra]].
    replace (3 / 4) with (IZR 3 * bpow radix2 (-2)) by (change (bpow radix2 (-2)) with (/ 4); lra). apply fmt_F2R; [reflexivity|unfold SpecFloat.emin; lia]. }
  pose proof (rnd_err (prec:=53) (emax:=1024) (1 - B2R e) 0 ltac:(unfold SpecFloat.emin; lia)) as Ez. rewrite <- Vs in Ez.
  change (0 - 53 - 1)%Z with (-54)%Z in Ez. change (bpow radix2 0) with 1 in Ez. specialize (Ez ltac:(apply Rabs_le; lra)).
  set (z := fsub (mk64 1 0) (to64 e)) in *.
  assert (M3 : bpow radix2 (-24) <= rn (B2R z) <= 3 / 4).
  { split; [apply rnd_ge_fmt; [apply fmt_bpow; unfold SpecFloat.emin; lia|lra]|apply rnd_le_fmt; [|lra]].
    replace (3 / 4) with (IZR 3 * bpow radix2 (-2)) by (change (bpow radix2 (-2)) with (/ 4); lra). apply fmt_F2R; [reflexivity|unfold SpecFloat.emin; lia]. }
  destruct (fconv_R (p':=24) (e':=128) z Fs) as [Vc Fc].
  { apply Rle_lt_trans with 1; [apply Rabs_le; lra|apply L1; lia]. }
  change (fconv z) with (to32 z) in *.
  pose proof (err32 (B2R z) 0 ltac:(lia) ltac:(change (bpow radix2 0) with 1; apply Rabs_le; lra)) as Ex. change (0 - 25)%Z with (-25)%Z in Ex.
  rewrite <- Vc in Ex, M3.
  split; [split; [exact Fc|lra]|]. split; [lra|].
  replace (B2R (to32 z) - (1 - exp3_poly (B2R x))) with ((B2R (to32 z) - B2R z) + ((B2R z - (1 - B2R e)) + - (B2R e - exp3_poly (B2R x)))) by ring.
  eapply Rle_trans; [apply Rabs_triang|]. eapply Rle_trans; [apply Rplus_le_compat_l, Rabs_triang|]. rewrite Rabs_Ropp.
  change (bpow radix2 (-25)) with (/ 33554432) in Ex. change (bpow radix2 (-54)) with (/ 18014398509481984) in Ez.
  change (bpow radix2 (-21)) with (/ 2097152) in V. change (bpow radix2 (-20)) with (/ 1048576). lra.
Qed.
Lemma lowpass_arg_ok x f sps : 0 < sps -> 0.00001 * sps <= f <= 0.15 * sps -> lowpass_arg x f sps -> is_finite x = true /\ -1 <= B2R x <= 0.
Proof.
  intros Hs Hf [F H]. split; [exact F|]. apply Rabs_le_inv in H. change (bpow radix2 (-20)) with (/ 1048576) in H.
  pose proof PI_tight as P.
  assert (Q : 0.00001 <= f / sps <= 0.15).
  { split; [apply Rmult_le_reg_r with sps|apply Rmult_le_reg_r with sps]; auto; unfold Rdiv; rewrite Rmult_assoc, Rinv_l by lra; lra. }
  replace (2 * PI * f / sps) with (2 * PI * (f / sps)) in H by (field; lra). set (q := f / sps) in *. nra.
Qed.

(** ** moving_average2 *)
Lemma fmt_double x : ft x -> ft (2 * x).
Proof.
  intros F. unfold fmt in *. change (fx (prec:=24) (emax:=128)) with (FLT_exp (-149) 24) in *. rewrite Rmult_comm. change 2 with (bpow radix2 1).
  apply mult_bpow_pos_exact_FLT; [exact F|lia].
Qed.
Lemma ma2_between y s : bounded y -> bounded s ->
  bounded (ma2_step y s) /\ Rmin (B2R y) (B2R s) <= B2R (ma2_step y s) <= Rmax (B2R y) (B2R s).
Proof.
  intros [Fy By] [Fs Bs]. unfold ma2_step.
  assert (Ep : bpow radix2 127 = 2 * bpow radix2 126) by (change 127%Z with (1 + 126)%Z; rewrite bpow_plus; reflexivity).
  assert (L : bpow radix2 127 < bpow radix2 128) by (apply bpow_lt; lia).
  assert (L6 : bpow radix2 126 < bpow radix2 128) by (apply bpow_lt; lia).
  assert (F7 : ft (bpow radix2 127)) by (apply fmt_bpow; unfold SpecFloat.emin; lia).
  assert (F6 : ft (bpow radix2 126)) by (apply fmt_bpow; unfold SpecFloat.emin; lia).
  destruct (fadd_bnd s y (bpow radix2 127) Fs Fy F7 L) as (Vd & Fd & Bd).
  { rewrite Ep. eapply Rle_trans; [apply Rabs_triang|]. lra. }
  destruct (int32 2 ltac:(reflexivity)) as [V2 F2].
  destruct (fdiv_bnd (fadd s y) (mk32 2 0) (bpow radix2 126) Fd ltac:(rewrite V2; lra) F6 L6) as (Vq & Fq & Bq).
  { rewrite V2. unfold Rdiv. rewrite Rabs_mult, (Rabs_pos_eq (/ 2)) by lra. lra. }
  split; [split; assumption|]. rewrite Vq, V2, Vd.
  assert (G : ft (Rmin (B2R y) (B2R s)) /\ ft (Rmax (B2R y) (B2R s))).
  { unfold Rmin, Rmax. destruct (Rle_dec (B2R y) (B2R s)); split; apply fmt_v. }
  destruct G as [Gm GM]. pose proof (Rmin_l (B2R y) (B2R s)). pose proof (Rmin_r (B2R y) (B2R s)).
  pose proof (Rmax_l (B2R y) (B2R s)). pose proof (Rmax_r (B2R y) (B2R s)).
  set (m := Rmin _ _) in *. set (M := Rmax _ _) in *.
  assert (2 * m <= rn (B2R s + B2R y)) by (apply rnd_ge_fmt; [apply fmt_double; exact Gm|lra]).
  assert (rn (B2R s + B2R y) <= 2 * M) by (apply rnd_le_fmt; [apply fmt_double; exact GM|lra]).
  split; [apply rnd_ge_fmt; [exact Gm|lra]|apply rnd_le_fmt; [exact GM|lra]].
Qed.

(** ** exp_moving_average *)
Lemma ema_coeffs n : (1 <= n <= 65535)%Z ->
  is_finite (ema_b n) = true /\ is_finite (ema_b' n) = true /\
  0 <= B2R (ema_b' n) < 1 /\ Rabs (B2R (ema_b n) + B2R (ema_b' n) - 1) <= bpow radix2 (-25) /\ bpow radix2 (-15) <= B2R (ema_b n) <= 1 /\
  Rabs (B2R (ema_b n) - 2 / IZR (n + 1)) <= bpow radix2 (-25).
Proof.
  intros Hn. unfold ema_b', ema_b.
  destruct (int32 2 ltac:(reflexivity)) as [V2 F2]. destruct (int32 1 ltac:(reflexivity)) as [V1 F1].
  destruct (int32 (n + 1)) as [Vn Fn]; [change (2 ^ 24)%Z with 16777216%Z; lia|].
  assert (Hm : 2 <= IZR (n + 1) <= 65536) by (split; apply IZR_le; lia). set (m := IZR (n + 1)) in *.
  assert (I0 : m * / m = 1) by (apply Rinv_r; lra). assert (I1 : 0 < / m) by (apply Rinv_0_lt_compat; lra).
  change (bpow radix2 (-15)) with (/ 32768).
  assert (Q : / 32768 <= 2 / m <= 1) by (unfold Rdiv; nra).
  assert (G1 : ft 1) by (change 1 with (bpow radix2 0); apply fmt_bpow; unfold SpecFloat.emin; lia).
  assert (G15 : ft (/ 32768)) by (change (/ 32768) with (bpow radix2 (-15)); apply fmt_bpow; unfold SpecFloat.emin; lia).
  assert (L1 : 1 < bpow radix2 128) by (change 1 with (bpow radix2 0); apply bpow_lt; lia).
  destruct (fdiv_bnd (mk32 2 0) (mk32 (n + 1) 0) 1 F2 ltac:(rewrite Vn; lra) G1 L1) as (Vb & Fb & Bb).
  { rewrite V2, Vn. apply Rabs_le. lra. }
  rewrite V2, Vn in Vb. 
  assert (E1 : / 32768 <= B2R (fdiv (mk32 2 0) (mk32 (n + 1) 0)) <= 1).
  { rewrite Vb. split; [apply rnd_ge_fmt; [exact G15|lra]|apply rnd_le_fmt; [exact G1|lra]]. }
  pose proof (err32 (2 / m) 0 ltac:(lia) ltac:(change (bpow radix2 0) with 1; apply Rabs_le; lra)) as Ex. change (0 - 25)%Z with (-25)%Z in Ex.
  rewrite <- Vb in Ex. set (b := fdiv (mk32 2 0) (mk32 (n + 1) 0)) in *.
  destruct (fsub_bnd (mk32 1 0) b 1 F1 Fb G1 L1) as (Vc & Fc & Bc).
  { rewrite V1. apply Rabs_le. lra. }
  rewrite V1 in Vc.
  assert (E2 : 0 <= B2R (fsub (mk32 1 0) b) <= 1 - / 32768).
  { rewrite Vc. split; [apply rnd_ge_fmt; [apply fmt_0|lra]|apply rnd_le_fmt; [|lra]].
    replace (1 - / 32768) with (IZR 32767 * bpow radix2 (-15)) by (change (bpow radix2 (-15)) with (/ 32768); lra). apply fmt_F2R; [reflexivity|unfold SpecFloat.emin; lia]. }
  pose proof (err32 (1 - B2R b) 0 ltac:(lia) ltac:(change (bpow radix2 0) with 1; apply Rabs_le; lra)) as Ey. change (0 - 25)%Z with (-25)%Z in Ey.
  rewrite <- Vc in Ey. replace (B2R b + B2R (fsub (mk32 1 0) b) - 1) with (B2R (fsub (mk32 1 0) b) - (1 - B2R b)) by ring.
  repeat (split; auto); lra.
Qed.
Lemma bpow120 : bpow radix2 126 = 64 * bpow radix2 120 /\ 0 < bpow radix2 120.
Proof. split; [change 126%Z with (6 + 120)%Z; rewrite bpow_plus; reflexivity|apply bpow_gt_0]. Qed.
Lemma tiny_150 : bpow radix2 (-120) = 1073741824 * bpow radix2 (-150) /\ bpow radix2 (-147) = 8 * bpow radix2 (-150) /\ 0 < bpow radix2 (-150).
Proof.
  split; [change (-120)%Z with (30 + -150)%Z; rewrite bpow_plus; reflexivity|].
  split; [change (-147)%Z with (3 + -150)%Z; rewrite bpow_plus; reflexivity|apply bpow_gt_0].
Qed.
(** b*s + b'*y with three roundings *)
Lemma ema_err (b b' y s : f32) B Y : is_finite b = true -> is_finite b' = true -> is_finite y = true -> is_finite s = true ->
  0 <= B2R b <= 1 -> 0 <= B2R b' <= 1 -> Rabs (B2R s) <= B -> Rabs (B2R y) <= Y -> B <= bpow radix2 121 -> Y <= bpow radix2 121 ->
  is_finite (ema_step b b' y s) = true /\
  Rabs (B2R (ema_step b b' y s) - (B2R b * B2R s + B2R b' * B2R y)) <= / 4194304 * (B2R b * B + B2R b' * Y) + 4 * bpow radix2 (-150).
Proof.
  intros Fb Fb' Fy Fs Hb Hb' Bs By LB LY. unfold ema_step.
  assert (E2 : bpow radix2 122 = 2 * bpow radix2 121) by (change 122%Z with (1 + 121)%Z; rewrite bpow_plus; reflexivity).
  assert (G : forall e, (0 <= e)%Z -> ft (bpow radix2 e)) by (intros e He; apply fmt_bpow; unfold SpecFloat.emin; lia).
  assert (P1 : Rabs (B2R b * B2R s) <= B2R b * B) by (rewrite Rabs_mult, (Rabs_pos_eq (B2R b)) by lra; apply Rmult_le_compat_l; lra).
  assert (P2 : Rabs (B2R b' * B2R y) <= B2R b' * Y) by (rewrite Rabs_mult, (Rabs_pos_eq (B2R b')) by lra; apply Rmult_le_compat_l; lra).
  assert (B0 : 0 <= B) by (pose proof (Rabs_pos (B2R s)); lra). assert (Y0 : 0 <= Y) by (pose proof (Rabs_pos (B2R y)); lra).
  destruct (fmul_bnd b s (bpow radix2 121) Fb Fs (G 121%Z ltac:(lia)) ltac:(apply bpow_lt; lia)) as (V1 & F1 & B1); [nra|].
  destruct (fmul_bnd b' y (bpow radix2 121) Fb' Fy (G 121%Z ltac:(lia)) ltac:(apply bpow_lt; lia)) as (V2 & F2 & B2); [nra|].
  destruct (fadd_bnd (fmul b s) (fmul b' y) (bpow radix2 122) F1 F2 (G 122%Z ltac:(lia)) ltac:(apply bpow_lt; lia)) as (V3 & F3 & B3).
  { eapply Rle_trans; [apply Rabs_triang|]. lra. }
  split; [exact F3|]. rewrite V3.
  pose proof (rnd_err_all (B2R b * B2R s)) as E1. rewrite <- V1 in E1.
  pose proof (rnd_err_all (B2R b' * B2R y)) as E2'. rewrite <- V2 in E2'.
  pose proof (rnd_err_all (B2R (fmul b s) + B2R (fmul b' y))) as E3.
  set (u := B2R (fmul b s)) in *. set (v := B2R (fmul b' y)) in *. set (p := B2R b * B2R s) in *. set (q := B2R b' * B2R y) in *.
  set (e := bpow radix2 (-150)) in *. assert (0 < e) by apply bpow_gt_0. clearbody e u v p q.
  set (K1 := B2R b * B) in *. set (K2 := B2R b' * Y) in *. clearbody K1 K2.
  assert (A : Rabs (u + v) <= (K1 + K2) * (1 + / 16777216) + 2 * e).
  { replace (u + v) with ((u - p) + (v - q) + p + q) by ring. 
    eapply Rle_trans; [apply Rabs_triang|]. eapply Rle_trans; [apply Rplus_le_compat_r, Rabs_triang|].
    eapply Rle_trans; [apply Rplus_le_compat_r, Rplus_le_compat_r, Rabs_triang|]. lra. }
  replace (rn (u + v) - (p + q)) with ((rn (u + v) - (u + v)) + ((u - p) + (v - q))) by ring.
  eapply Rle_trans; [apply Rabs_triang|]. eapply Rle_trans; [apply Rplus_le_compat_l, Rabs_triang|].
  pose proof (Rabs_pos p). pose proof (Rabs_pos q). lra.
Qed.
Lemma ema_bound n (y s : f32) B : (1 <= n <= 65535)%Z -> 0 <= B <= bpow radix2 120 -> is_finite y = true -> is_finite s = true ->
  let M := 1.01 * (B + bpow radix2 (-120)) in Rabs (B2R s) <= B -> Rabs (B2R y) <= M ->
  is_finite (ema_step (ema_b n) (ema_b' n) y s) = true /\ Rabs (B2R (ema_step (ema_b n) (ema_b' n) y s)) <= M /\
  Rabs (B2R (ema_step (ema_b n) (ema_b' n) y s) - (B2R s + B2R (ema_b' n) * (B2R y - B2R s))) <= step_err M.
Proof.
  intros Hn HB Fy Fs M Bs By. destruct (ema_coeffs n Hn) as (Fb & Fb' & Hb' & Hd & Hb & _).
  assert (E2 : bpow radix2 121 = 2 * bpow radix2 120) by (change 121%Z with (1 + 120)%Z; rewrite bpow_plus; reflexivity).
  destruct tiny_150 as (T1 & T2 & T3). 
  assert (T4 : bpow radix2 (-120) <= 0.01 * bpow radix2 120).
  { apply Rle_trans with (bpow radix2 100 ); [apply bpow_le; lia|]. change 120%Z with (20 + 100)%Z. rewrite bpow_plus. pose proof (bpow_gt_0 radix2 100). change (bpow radix2 20) with 1048576. lra. }
  destruct (ema_err (ema_b n) (ema_b' n) y s B M Fb Fb' Fy Fs) as [F E]; [change (bpow radix2 (-15)) with (/ 32768) in Hb; lra|lra|exact Bs|exact By|lra|unfold M; lra|].
  split; [exact F|]. unfold step_err. change (bpow radix2 (-21)) with (/ 2097152). rewrite T2.
  set (o := B2R (ema_step (ema_b n) (ema_b' n) y s)) in *. set (b := B2R (ema_b n)) in *. set (c := B2R (ema_b' n)) in *.
  change (bpow radix2 (-15)) with (/ 32768) in Hb. change (bpow radix2 (-25)) with (/ 33554432) in Hd. apply Rabs_le_inv in Hd.
  set (e := bpow radix2 (-150)) in *. clearbody o b c e. set (D := B + bpow radix2 (-120)) in *. 
  assert (HD : B <= D /\ 1073741824 * e <= D) by (unfold D; lra). assert (EM : M = 1.01 * D) by reflexivity. clearbody M D. subst M.
  assert (bD : / 32768 * D <= b * D <= D) by nra.
  assert (cD : c * D <= D - b * D + / 33554432 * D) by nra. assert (c0 : 0 <= c * D) by nra.
  assert (K : b * B <= b * D) by nra. assert (K0 : 0 <= b * B) by nra. replace (c * (1.01 * D)) with (1.01 * (c * D)) in E by ring.
  assert (P1 : Rabs (b * B2R s) <= b * B) by (rewrite Rabs_mult, (Rabs_pos_eq b) by lra; apply Rmult_le_compat_l; lra).
  assert (P2 : Rabs (c * B2R y) <= c * (1.01 * D)) by (rewrite Rabs_mult, (Rabs_pos_eq c) by lra; apply Rmult_le_compat_l; lra).
  replace (c * (1.01 * D)) with (1.01 * (c * D)) in P2 by ring.
  split.
  - replace o with ((o - (b * B2R s + c * B2R y)) + (b * B2R s + c * B2R y)) by ring.
    eapply Rle_trans; [apply Rabs_triang|]. eapply Rle_trans; [apply Rplus_le_compat_l, Rabs_triang|]. lra.
  - replace (o - (B2R s + c * (B2R y - B2R s))) with ((o - (b * B2R s + c * B2R y)) + (b + c - 1) * B2R s) by ring.
    eapply Rle_trans; [apply Rabs_triang|]. rewrite Rabs_mult.
    assert (Rabs (b + c - 1) * Rabs (B2R s) <= / 33554432 * B) by (apply Rmult_le_compat; try apply Rabs_pos; [apply Rabs_le; lra|exact Bs]). lra.
Qed.
Lemma ema_converge n (s : f32) B : (1 <= n <= 65535)%Z -> 0 <= B <= bpow radix2 120 -> is_finite s = true -> Rabs (B2R s) <= B ->
  let M := 1.01 * (B + bpow radix2 (-120)) in forall k (y : f32), is_finite y = true -> Rabs (B2R y) <= M ->
  Rabs (B2R (filt_last (ema_step (ema_b n) (ema_b' n)) y (repeat s k)) - B2R s)
   <= B2R (ema_b' n) ^ k * Rabs (B2R y - B2R s) + step_err M / (1 - B2R (ema_b' n)).
Proof.
  intros Hn HB Fs Bs M k y Fy By. destruct (ema_coeffs n Hn) as (Fb & Fb' & Hb' & Hd & Hb & _).
  apply (converge' _ (fun y => is_finite y = true /\ Rabs (B2R y) <= M)); auto.
  - apply step_err_pos. unfold M. pose proof (bpow_ge_0 radix2 (-120)). nra.
  - intros z [Fz Bz]. destruct (ema_bound n z s B Hn HB Fz Fs Bs Bz) as (H1 & H2 & H3). auto.
Qed.
Lemma ema_run_bound n B : (1 <= n <= 65535)%Z -> 0 <= B <= bpow radix2 120 -> forall xs (y : f32), is_finite y = true -> 
  let M := 1.01 * (B + bpow radix2 (-120)) in Rabs (B2R y) <= M -> (forall x, In x xs -> is_finite x = true /\ Rabs (B2R x) <= B) ->
  forall o, In o (filt_run (ema_step (ema_b n) (ema_b' n)) y xs) -> is_finite o = true /\ Rabs (B2R o) <= M.
Proof.
  intros Hn HB. induction xs as [|s xs IH]; intros y Fy M By Hx o Ho; [destruct Ho|]. cbn [filt_run] in Ho.
  destruct (Hx s (or_introl eq_refl)) as [Fs Bs]. destruct (ema_bound n y s B Hn HB Fy Fs Bs By) as (H1 & H2 & _).
  destruct Ho as [<-|Ho]; [split; assumption|]. eapply IH; [exact H1|exact H2| |exact Ho]. intros x Hi. apply Hx. right. exact Hi.
Qed.

(** ** dc_block *)
Lemma dc_bound (p x y s : f32) B : is_finite p = true -> 0 <= B2R p <= 1 - bpow radix2 (-12) -> 0 <= B <= bpow radix2 120 ->
  is_finite x = true -> is_finite y = true -> is_finite s = true -> Rabs (B2R x) <= B -> Rabs (B2R s) <= B ->
  let M := 1.01 * (B + bpow radix2 (-120)) in Rabs (B2R y - B2R x) <= M ->
  let y' := snd (dc_step p (x, y) s) in is_finite y' = true /\ Rabs (B2R y' - B2R s) <= M /\ Rabs (B2R y') <= 2 * M.
Proof.
  intros Fp Hp HB Fx Fy Fs Bx Bs M Hw y'. unfold dc_step in y'. cbn [snd] in y'.
  destruct tiny_150 as (T1 & T2 & T3). 
  assert (T4 : bpow radix2 (-120) <= 0.01 * bpow radix2 120).
  { apply Rle_trans with (bpow radix2 100 ); [apply bpow_le; lia|]. change 120%Z with (20 + 100)%Z. rewrite bpow_plus. pose proof (bpow_gt_0 radix2 100). change (bpow radix2 20) with 1048576. lra. }
  assert (G : forall e, (0 <= e)%Z -> ft (bpow radix2 e)) by (intros e He; apply fmt_bpow; unfold SpecFloat.emin; lia).
  assert (E2 : bpow radix2 122 = 4 * bpow radix2 120) by (change 122%Z with (2 + 120)%Z; rewrite bpow_plus; reflexivity).
  assert (E3 : bpow radix2 123 = 8 * bpow radix2 120) by (change 123%Z with (3 + 120)%Z; rewrite bpow_plus; reflexivity).
  change (bpow radix2 (-12)) with (/ 4096) in Hp. set (D := B + bpow radix2 (-120)) in *. assert (EM : M = 1.01 * D) by reflexivity.
  assert (Hy : Rabs (B2R y) <= 2.01 * D).
  { replace (B2R y) with ((B2R y - B2R x) + B2R x) by ring. eapply Rle_trans; [apply Rabs_triang|]. unfold D in *. lra. }
  assert (Hsx : Rabs (B2R s - B2R x) <= 2 * B) by (unfold Rminus; eapply Rle_trans; [apply Rabs_triang|]; rewrite Rabs_Ropp; lra).
  assert (Hpy : Rabs (B2R p * B2R y) <= 2.01 * D).
  { rewrite Rabs_mult, (Rabs_pos_eq (B2R p)) by lra. pose proof (Rabs_pos (B2R y)). nra. }
  destruct (fsub_bnd s x (bpow radix2 122) Fs Fx (G 122%Z ltac:(lia)) ltac:(apply bpow_lt; lia)) as (V1 & F1 & B1); [lra|].
  destruct (fmul_bnd p y (bpow radix2 122) Fp Fy (G 122%Z ltac:(lia)) ltac:(apply bpow_lt; lia)) as (V2 & F2 & B2); [unfold D in *; lra|].
  destruct (fadd_bnd (fsub s x) (fmul p y) (bpow radix2 123) F1 F2 (G 123%Z ltac:(lia)) ltac:(apply bpow_lt; lia)) as (V3 & F3 & B3).
  { eapply Rle_trans; [apply Rabs_triang|]. lra. }
  assert (E : Rabs (B2R y' - (B2R s - B2R x + B2R p * B2R y)) <= 8.1 * / 16777216 * D + 4 * bpow radix2 (-150)).
  { unfold y'. rewrite V3.
    pose proof (rnd_err_all (B2R s - B2R x)) as E1. rewrite <- V1 in E1.
    pose proof (rnd_err_all (B2R p * B2R y)) as E2'. rewrite <- V2 in E2'.
    pose proof (rnd_err_all (B2R (fsub s x) + B2R (fmul p y))) as E3'.
    set (u := B2R (fsub s x)) in *. set (v := B2R (fmul p y)) in *. set (c := B2R s - B2R x) in *. set (q := B2R p * B2R y) in *.
    assert (BD : B <= D) by (unfold D; lra). assert (D0 : 1073741824 * bpow radix2 (-150) <= D) by (unfold D; lra).
    set (e := bpow radix2 (-150)) in *. clearbody e u v c q D.
    assert (A : Rabs (u + v) <= 4.01 * D + 0.01 * D).
    { replace (u + v) with ((u - c) + (v - q) + c + q) by ring. 
      eapply Rle_trans; [apply Rabs_triang|]. eapply Rle_trans; [apply Rplus_le_compat_r, Rabs_triang|].
      eapply Rle_trans; [apply Rplus_le_compat_r, Rplus_le_compat_r, Rabs_triang|]. lra. }
    replace (rn (u + v) - (c + q)) with ((rn (u + v) - (u + v)) + ((u - c) + (v - q))) by ring.
    eapply Rle_trans; [apply Rabs_triang|]. eapply Rle_trans; [apply Rplus_le_compat_l, Rabs_triang|]. lra. }
  split; [exact F3|].
  assert (Q : Rabs (B2R y' - B2R s) <= M).
  { replace (B2R y' - B2R s) with ((B2R y' - (B2R s - B2R x + B2R p * B2R y)) + (B2R p * (B2R y - B2R x) + (B2R p - 1) * B2R x)) by ring.
    eapply Rle_trans; [apply Rabs_triang|]. eapply Rle_trans; [apply Rplus_le_compat_l, Rabs_triang|].
    rewrite !Rabs_mult, (Rabs_pos_eq (B2R p)), (Rabs_left1 (B2R p - 1)) by lra.
    assert (BD : B <= D) by (unfold D; lra). assert (D0 : 1073741824 * bpow radix2 (-150) <= D) by (unfold D; lra).
    rewrite EM in *. set (P := B2R p) in *. set (w := Rabs (B2R y - B2R x)) in *. set (ax := Rabs (B2R x)) in *. clearbody P w ax D.
    assert (P * w <= P * (1.01 * D)) by (apply Rmult_le_compat_l; lra).
    assert ((1 - P) * ax <= (1 - P) * D) by (apply Rmult_le_compat_l; lra).
    assert (P * D <= (1 - / 4096) * D) by (apply Rmult_le_compat_r; lra).
    lra. }
  split; [exact Q|].
  replace (B2R y') with ((B2R y' - B2R s) + B2R s) by ring. eapply Rle_trans; [apply Rabs_triang|].
  assert (B <= M) by (rewrite EM; unfold D; lra). lra.
Qed.
Lemma dc_run_bound p B : is_finite p = true -> 0 <= B2R p <= 1 - bpow radix2 (-12) -> 0 <= B <= bpow radix2 120 ->
  let M := 1.01 * (B + bpow radix2 (-120)) in
  forall xs (x y : f32), is_finite x = true -> is_finite y = true -> Rabs (B2R x) <= B -> Rabs (B2R y - B2R x) <= M ->
  (forall x, In x xs -> is_finite x = true /\ Rabs (B2R x) <= B) ->
  forall o, In o (dc_run p (x, y) xs) -> is_finite o = true /\ Rabs (B2R o) <= 2 * M.
Proof.
  intros Fp Hp HB M. induction xs as [|s xs IH]; intros x y Fx Fy Bx Hw Hx o Ho; [destruct Ho|].
  destruct (Hx s (or_introl eq_refl)) as [Fs Bs]. destruct (dc_bound p x y s B Fp Hp HB Fx Fy Fs Bx Bs Hw) as (H1 & H2 & H3).
  cbn [dc_run dc_step] in Ho. cbv zeta in Ho. cbn [snd] in Ho, H1, H2, H3.
  destruct Ho as [<-|Ho]; [split; assumption|]. eapply (IH s); [exact Fs|exact H1|exact Bs|exact H2| |exact Ho]. intros z Hz. apply Hx. right. exact Hz.
Qed.
(** a constant input decays to nothing *)
Lemma dc_const_step (p s y : f32) : is_finite p = true -> 0 <= B2R p <= 1 - bpow radix2 (-12) -> is_finite s = true -> is_finite y = true ->
  let y' := snd (dc_step p (s, y) s) in is_finite y' = true /\ Rabs (B2R y') <= (1 - / 8192) * Rabs (B2R y) + bpow radix2 (-150).
Proof.
  intros Fp Hp Fs Fy y'. unfold dc_step in y'. cbn [snd] in y'. change (bpow radix2 (-12)) with (/ 4096) in Hp.
  destruct (fsub_exact s s Fs Fs) as [V1 F1].
  { rewrite Rminus_diag_eq by reflexivity. apply fmt_0. } { rewrite Rminus_diag_eq, Rabs_R0 by reflexivity. apply bpow_gt_0. }
  rewrite (Rminus_diag_eq _ _ eq_refl) in V1.
  assert (Hpy : Rabs (B2R p * B2R y) <= (1 - / 4096) * Rabs (B2R y)).
  { rewrite Rabs_mult, (Rabs_pos_eq (B2R p)) by lra. pose proof (Rabs_pos (B2R y)). apply Rmult_le_compat_r; lra. }
  pose proof (Rabs_pos (B2R y)).
  assert (X : Rabs (rn (B2R p * B2R y)) <= Rabs (B2R y)).
  { apply rnd_abs_le; [|lra]. unfold Rabs. destruct (Rcase_abs (B2R y)); [apply fmt_opp|]; apply fmt_v. }
  pose proof (fin_lt_emax y) as Ly.
  destruct (fmul_R p y Fp Fy) as [V2 F2]; [lra|].
  destruct (fadd_exact (fsub s s) (fmul p y) F1 F2) as [V3 F3].
  { rewrite V1, Rplus_0_l. apply fmt_v. } { rewrite V1, Rplus_0_l. apply fin_lt_emax. }
  split; [exact F3|]. unfold y'. rewrite V3, V1, Rplus_0_l, V2.
  pose proof (rnd_err_all (B2R p * B2R y)) as E.
  replace (rn (B2R p * B2R y)) with ((rn (B2R p * B2R y) - B2R p * B2R y) + B2R p * B2R y) by ring.
  eapply Rle_trans; [apply Rabs_triang|]. lra.
Qed.

Lemma dc_const_run (p s : f32) : is_finite p = true -> 0 <= B2R p <= 1 - bpow radix2 (-12) -> is_finite s = true -> forall k (y : f32), is_finite y = true ->
  let y' := nth k (dc_run p (s, y) (repeat s (S k))) fzero in
  is_finite y' = true /\ Rabs (B2R y') <= (1 - / 8192) ^ S k * Rabs (B2R y) + bpow radix2 (-137).
Proof.
  intros Fp Hp Fs k.
  assert (Z : 8192 * bpow radix2 (-150) = bpow radix2 (-137)) by (change (-137)%Z with (13 + -150)%Z; rewrite bpow_plus; reflexivity).
  assert (G : forall k (y : f32), is_finite y = true -> let y' := nth k (dc_run p (s, y) (repeat s (S k))) fzero in
    is_finite y' = true /\ Rabs (B2R y') <= (1 - / 8192) ^ S k * Rabs (B2R y) + (1 - (1 - / 8192) ^ S k) * bpow radix2 (-137)).
  { clear k. induction k as [|k IH]; intros y Fy y'.
    - destruct (dc_const_step p s y Fp Hp Fs Fy) as [F E]. unfold y'. cbn [repeat dc_run nth]. split; [exact F|]. cbv zeta in E. rewrite pow_1. lra.
    - destruct (dc_const_step p s y Fp Hp Fs Fy) as [F E]. unfold y'. change (repeat s (S (S k))) with (s :: repeat s (S k)).
      cbn [dc_run]. cbv zeta in *. cbn [dc_step snd] in *. cbn [nth]. destruct (IH _ F) as [F' E']. split; [exact F'|].
      eapply Rle_trans; [exact E'|]. rewrite <- Z. set (q := (1 - / 8192) ^ S k) in *.
      change ((1 - / 8192) ^ S (S k)) with ((1 - / 8192) * q). pose proof (bpow_gt_0 radix2 (-150)).
      assert (Hq : 0 <= q <= 1) by (apply pow_small; lra).
      assert (q * Rabs (B2R (fadd (fsub s s) (fmul p y))) <= q * ((1 - / 8192) * Rabs (B2R y) + bpow radix2 (-150))) by (apply Rmult_le_compat_l; lra).
      lra. }
  intros y Fy y'. destruct (G k y Fy) as [F E]. split; [exact F|]. fold y' in E.
  eapply Rle_trans; [exact E|]. pose proof (pow_small (1 - / 8192) (S k) ltac:(lra)). pose proof (bpow_gt_0 radix2 (-137)). nra.
Qed.
(** instability for high cutoff frequencies *)
Lemma fin_mul (x y : f32) : is_finite x = true -> is_finite y = true -> is_finite (fmul x y) = true -> B2R (fmul x y) = rn (B2R x * B2R y).
Proof.
  intros Fx Fy F. unfold fmul in *. pose proof (Bmult_correct 24 128 _ _ mode_NE x y) as C.
  destruct (Rlt_bool_spec (Rabs (round radix2 (SpecFloat.fexp 24 128) (round_mode mode_NE) (B2R x * B2R y))) (bpow radix2 128)) as [L|L].
  - exact (proj1 C).
  - exfalso. rewrite <- is_finite_SF_B2SF in F. rewrite C in F. discriminate F.
Qed.
Lemma fin_add (x y : f32) : is_finite x = true -> is_finite y = true -> is_finite (fadd x y) = true -> B2R (fadd x y) = rn (B2R x + B2R y).
Proof.
  intros Fx Fy F. unfold fadd in *. pose proof (Bplus_correct 24 128 _ _ mode_NE x y Fx Fy) as C.
  destruct (Rlt_bool_spec (Rabs (round radix2 (SpecFloat.fexp 24 128) (round_mode mode_NE) (B2R x + B2R y))) (bpow radix2 128)) as [L|L].
  - exact (proj1 C).
  - exfalso. destruct C as [C _]. rewrite <- is_finite_SF_B2SF in F. rewrite C in F. discriminate F.
Qed.
Lemma fin_add_inv (x y : f32) : is_finite x = true -> is_finite (fadd x y) = true -> is_finite y = true.
Proof. intros Fx F. destruct x as [sx|sx| |sx mx ex Hx], y as [sy|sy| |sy my ey Hy]; cbn in *; auto; discriminate. Qed.
Lemma rn_low r : bpow radix2 (-126) <= Rabs r -> (1 - / 16777216) * Rabs r <= Rabs (rn r).
Proof.
  intros L. pose proof (rnd_rel32 r L) as E. pose proof (Rabs_triang (rn r - r) (- rn r)) as T. rewrite Rabs_Ropp in T.
  replace (rn r - r + - rn r) with (- r) in T by ring. rewrite Rabs_Ropp in T. lra.
Qed.
Lemma sub_zero_r (y : f32) : is_finite y = true -> B2R (fsub y fzero) = B2R y /\ is_finite (fsub y fzero) = true.
Proof.
  intros F. assert (Z : B2R (fzero : f32) = 0) by reflexivity.
  destruct (fsub_exact y fzero F eq_refl) as [V G]; [rewrite Z, Rminus_0_r; apply fmt_v|rewrite Z, Rminus_0_r; apply fin_lt_emax|].
  rewrite Z, Rminus_0_r in V. auto.
Qed.
Lemma sub_zero_l (y : f32) : is_finite y = true -> B2R (fsub fzero y) = - B2R y /\ is_finite (fsub fzero y) = true.
Proof.
  intros F. assert (Z : B2R (fzero : f32) = 0) by reflexivity.
  destruct (fsub_exact fzero y eq_refl F) as [V G]; [rewrite Z, Rminus_0_l; apply fmt_opp, fmt_v|rewrite Z, Rminus_0_l, Rabs_Ropp; apply fin_lt_emax|].
  rewrite Z, Rminus_0_l in V. auto.
Qed.
(** a step without input that grows finite values *)
Lemma grows_escapes (step : f32 -> f32) :
  (forall y, is_finite y = true -> is_finite (step y) = true -> bpow radix2 (-100) <= Rabs (B2R y) -> 1.001 * Rabs (B2R y) <= Rabs (B2R (step y))) ->
  forall y, bpow radix2 (-100) <= Rabs (B2R y) -> exists n, is_finite (Nat.iter n step y) = false.
Proof.
  intros H y Hy.
  assert (K : forall n, (forall m, (m <= n)%nat -> is_finite (Nat.iter m step y) = true) -> 1.001 ^ n * Rabs (B2R y) <= Rabs (B2R (Nat.iter n step y))).
  { induction n as [|n IH]; intros F; [change (1.001 ^ 0) with 1; change (Nat.iter 0 step y) with y; lra|].
    specialize (IH ltac:(intros; apply F; lia)). cbn [pow].
    assert (P : 1 <= 1.001 ^ n) by (apply pow_R1_Rle; lra).
    assert (L : bpow radix2 (-100) <= Rabs (B2R (Nat.iter n step y))) by (pose proof (Rabs_pos (B2R y)); nra).
    pose proof (H _ (F n ltac:(lia)) (F (S n) ltac:(lia)) L) as G.
    change (Nat.iter (S n) step y) with (step (Nat.iter n step y)) in *. set (p := 1.001 ^ n) in *. clearbody p.
    rewrite Rmult_assoc. eapply Rle_trans; [|exact G]. apply Rmult_le_compat_l; lra. }
  destruct (Pow_x_infinity 1.001 ltac:(rewrite Rabs_pos_eq; lra) (bpow radix2 230)) as [N HN].
  destruct (List.forallb (fun m => is_finite (Nat.iter m step y)) (seq 0 (S N))) eqn:E.
  - exfalso. rewrite List.forallb_forall in E. specialize (K N ltac:(intros m Hm; apply E, in_seq; lia)).
    specialize (HN N (le_n N)). rewrite Rabs_pos_eq in HN by (apply pow_le; lra).
    pose proof (fin_lt_emax (Nat.iter N step y)) as L.
    assert (bpow radix2 130 <= 1.001 ^ N * Rabs (B2R y)).
    { replace (bpow radix2 130) with (bpow radix2 230 * bpow radix2 (-100)) by (rewrite <- bpow_plus; reflexivity).
      apply Rmult_le_compat; try apply bpow_ge_0; lra. }
    assert (bpow radix2 128 < bpow radix2 130) by (apply bpow_lt; lia). lra.
  - apply Bool.not_true_iff_false in E. rewrite List.forallb_forall in E.
    assert (X : exists m, In m (seq 0 (S N)) /\ is_finite (Nat.iter m step y) = false).
    { clear - E. induction (seq 0 (S N)) as [|m l IH]; [exfalso; apply E; intros ? []|].
      destruct (is_finite (Nat.iter m step y)) eqn:F; [|exists m; split; [left; reflexivity|exact F]].
      destruct IH as (k & Ik & Fk); [|exists k; split; [right; exact Ik|exact Fk]]. intros Q. apply E. intros x [<-|Hx]; auto. }
    destruct X as (m & _ & F). exists m. exact F.
Qed.
Lemma leaky_grows (a y : f32) : is_finite a = true -> B2R a <= -1.01 -> is_finite y = true -> is_finite (leaky_step a y fzero) = true ->
  bpow radix2 (-100) <= Rabs (B2R y) -> 1.001 * Rabs (B2R y) <= Rabs (B2R (leaky_step a y fzero)).
Proof.
  intros Fa Ha Fy F L. unfold leaky_step in *. destruct (sub_zero_r y Fy) as [V1 F1].
  assert (Fm : is_finite (fmul a (fsub y fzero)) = true) by (exact (fin_add_inv fzero _ eq_refl F)).
  rewrite (fin_add fzero _ eq_refl Fm F). assert (Z : B2R (fzero : f32) = 0) by reflexivity. rewrite Z, Rplus_0_l, rnd_v.
  rewrite (fin_mul _ _ Fa F1 Fm), V1.
  assert (A : 1.01 * Rabs (B2R y) <= Rabs (B2R a * B2R y)).
  { rewrite Rabs_mult, (Rabs_left1 (B2R a)) by lra. pose proof (Rabs_pos (B2R y)). nra. }
  assert (bpow radix2 (-126) <= bpow radix2 (-100)) by (apply bpow_le; lia).
  pose proof (Rabs_pos (B2R y)). pose proof (rn_low (B2R a * B2R y) ltac:(lra)). lra.
Qed.
Lemma lowpass_grows (a y : f32) : is_finite a = true -> 2.01 <= B2R a <= 1000 -> is_finite y = true -> is_finite (lowpass_step a y fzero) = true ->
  bpow radix2 (-100) <= Rabs (B2R y) -> 1.001 * Rabs (B2R y) <= Rabs (B2R (lowpass_step a y fzero)).
Proof.
  intros Fa Ha Fy F L. unfold lowpass_step in *. destruct (sub_zero_l y Fy) as [V1 F1].
  assert (Fm : is_finite (fmul a (fsub fzero y)) = true) by (exact (fin_add_inv _ _ Fy F)).
  rewrite (fin_add _ _ Fy Fm F), (fin_mul _ _ Fa F1 Fm), V1.
  set (Y := B2R y) in *. set (A := B2R a) in *. pose proof (rnd_err_all (A * - Y)) as E.
  rewrite Rabs_mult, (Rabs_pos_eq A), Rabs_Ropp in E by lra.
  assert (T : bpow radix2 (-150) <= / 1000000 * bpow radix2 (-100)).
  { replace (bpow radix2 (-150)) with (bpow radix2 (-50) * bpow radix2 (-100)) by (rewrite <- bpow_plus; reflexivity).
    apply Rmult_le_compat_r; [apply bpow_ge_0|]. change (bpow radix2 (-50)) with (/ 1125899906842624). lra. }
  pose proof (Rabs_pos Y) as Y0. set (m := rn (A * - Y)) in *.
  assert (Q : 1.009 * Rabs Y <= Rabs (Y + m)).
  { pose proof (Rabs_triang (Y + m) (- (m - A * - Y))) as R1. rewrite Rabs_Ropp in R1.
    replace (Y + m + - (m - A * - Y)) with ((A - 1) * - Y) in R1 by ring. rewrite Rabs_mult, (Rabs_pos_eq (A - 1)), Rabs_Ropp in R1 by lra.
    assert (A * Rabs Y <= 1000 * Rabs Y) by (apply Rmult_le_compat_r; lra).
    assert (1.01 * Rabs Y <= (A - 1) * Rabs Y) by (apply Rmult_le_compat_r; lra). lra. }
  assert (bpow radix2 (-126) <= bpow radix2 (-100)) by (apply bpow_le; lia).
  pose proof (rn_low (Y + m) ltac:(lra)). lra.
Qed.
Lemma iter_shift {A} (f : A -> A) : forall n x, Nat.iter n f (f x) = f (Nat.iter n f x).
Proof. induction n as [|n IH]; intros x; [reflexivity|]. change (Nat.iter (S n) f (f x)) with (f (Nat.iter n f (f x))). rewrite IH. reflexivity. Qed.
Lemma filt_last_iter step (s : f32) : forall n y, filt_last step y (repeat s n) = Nat.iter n (fun y => step y s) y.
Proof. induction n as [|n IH]; intros y; [reflexivity|]. cbn [repeat filt_last]. rewrite IH. exact (iter_shift (fun y => step y s) n y). Qed.
Definition lp_045 : f32 := mk32 (-11859115) (-22).
Lemma lp_045_coeff : is_finite (lowpass_coeff lp_045) && fle (mk32 5 (-1)) (lowpass_coeff lp_045) && fle (lowpass_coeff lp_045) (mk32 3 0) = true.
Proof. vm_compute. reflexivity. Qed.
Lemma rt_stale : feq (rt_y (rt_run (rt_length (rt_make 3 fzero) 1) (repeat (mk32 1 0) 40))) (mk32 2 0) = true.
Proof. vm_compute. reflexivity. Qed.
