From Coq Require Import Reals Lra Lia ZArith.
From Flocq Require Import Core.Core IEEE754.BinarySingleNaN.
From Flocq Require Mult_error.
From Verif Require Import Common Float FloatFacts FloatRel FloatLerp Frac_Model Env_Spec Env_Proof Dyn_Proof Mix_Props Smooth_Model Smooth_Spec.
Local Open Scope R_scope.
Local Notation rn := (rnd 24 128).
Local Notation rd := (rnd 53 1024).

Lemma f1 : fmt 24 128 1.
Proof. change 1 with (bpow radix2 0). apply fmt_bpow. unfold SpecFloat.emin. lia. Qed.
(** the base coefficient *)
Lemma coeff_ok gc : tan_value gc -> is_finite (ds_coeff gc) = true /\ 0 <= B2R (ds_coeff gc) <= 2 /\
  Rabs (B2R (ds_coeff gc) - 2 * B2R gc / (1 + B2R gc)) <= bpow radix2 (-22) /\
  B2R (ds_coeff gc) = rn (rd (2 * B2R gc / rd (1 + B2R gc))).
Proof.
  intros [F H]. unfold ds_coeff. destruct (int32 2 ltac:(reflexivity)) as [V2 F2]. destruct (int32 1 ltac:(reflexivity)) as [V1 F1].
  destruct (to64_R _ F2) as [W2 G2]. destruct (to64_R _ F1) as [W1 G1]. rewrite V2 in W2. rewrite V1 in W1.
  assert (f61 : fmt 53 1024 (bpow radix2 61)) by (apply fmt_bpow; unfold SpecFloat.emin; lia).
  assert (E61 : bpow radix2 61 = 2 * bpow radix2 60) by (change 61%Z with (1 + 60)%Z; rewrite bpow_plus; reflexivity).
  assert (P60 : 1 <= bpow radix2 60) by (change 1 with (bpow radix2 0); apply bpow_le; lia).
  set (x := B2R gc) in *.
  destruct (fmul_bnd (to64 (mk32 2 0)) gc (bpow radix2 61) G2 F f61) as (Vm & Fm & Bm); [apply bpow_lt; lia|rewrite W2, Rabs_pos_eq; fold x; lra|].
  rewrite W2 in Vm. fold x in Vm.
  assert (Ex : rd (2 * x) = 2 * x). { apply round_generic; [apply valid_rnd_N|]. rewrite Rmult_comm. change 2 with (bpow radix2 1). apply (Mult_error.mult_bpow_pos_exact_FLT radix2 (3 - 1024 - 53) 53); [apply fmt_v|lia]. }
  rewrite Ex in Vm.
  destruct (fadd_bnd (to64 (mk32 1 0)) gc (bpow radix2 61) G1 F f61) as (Va & Fa & Ba); [apply bpow_lt; lia|rewrite W1, Rabs_pos_eq; fold x; lra|].
  rewrite W1 in Va. fold x in Va. set (d := rd (1 + x)) in *.
  assert (D1 : 1 <= d). { unfold d. apply rnd_ge_fmt; [change 1 with (bpow radix2 0); apply fmt_bpow; unfold SpecFloat.emin; lia|lra]. }
  assert (DX : x <= d). { unfold d. apply rnd_ge_fmt; [apply fmt_v|lra]. }
  assert (DE : Rabs (d - (1 + x)) <= 0.0000000000000003 * (1 + x)).
  { pose proof (rd_err_all (1 + x)) as E. fold d in E. rewrite (Rabs_pos_eq (1 + x)) in E by lra. change (bpow radix2 (-53)) with (/ 9007199254740992) in E.
    assert (T : bpow radix2 (-1000) <= 0.0000000000000001). { apply Rle_trans with (bpow radix2 (-60)); [apply bpow_le; lia|change (bpow radix2 (-60)) with (/ 1152921504606846976); lra]. } lra. }
  assert (Q : 0 <= 2 * x / d <= 2). { split; [apply Rmult_le_pos; [lra|apply Rlt_le, Rinv_0_lt_compat; lra]|]. apply (Rmult_le_reg_r d); [lra|]. unfold Rdiv. rewrite Rmult_assoc, Rinv_l by lra. lra. }
  assert (f2 : fmt 53 1024 2) by (change 2 with (bpow radix2 1); apply fmt_bpow; unfold SpecFloat.emin; lia).
  destruct (fdiv_bnd _ _ 2 Fm ltac:(rewrite Va; lra) f2) as (Vq & Fq & Bq); [change 2 with (bpow radix2 1); apply bpow_lt; lia|rewrite Vm, Va; apply Rabs_le; lra|].
  rewrite Vm, Va in Vq. set (q := fdiv _ _) in *. fold (B2R q) in *.
  assert (Bq2 : 0 <= B2R q <= 2). { split; [rewrite Vq; apply rnd_ge_fmt; [apply fmt_0|lra]|apply Rabs_le_inv in Bq; lra]. }
  assert (f2s : fmt 24 128 2) by (change 2 with (bpow radix2 1); apply fmt_bpow; unfold SpecFloat.emin; lia).
  assert (N2 : 0 <= rn (B2R q) <= 2). { split; [apply rnd_ge_fmt; [apply fmt_0|lra]|apply rnd_le_fmt; [exact f2s|lra]]. }
  destruct (fconv_R (p':=24) (e':=128) q Fq) as [V Fc]; [rewrite Rabs_pos_eq by lra; apply Rle_lt_trans with (bpow radix2 1); [change (bpow radix2 1) with 2; lra|apply bpow_lt; lia]|].
  fold (to32 q) in V, Fc. split; [exact Fc|]. rewrite V. split; [exact N2|]. split; [|rewrite Vq; reflexivity].
  (* accuracy *)
  assert (A1 : Rabs (2 * x / d - 2 * x / (1 + x)) <= 0.000000000000001).
  { replace (2 * x / d - 2 * x / (1 + x)) with (2 * (x / d) * (- ((d - (1 + x)) / (1 + x)))) by (field; lra).
    assert (X1 : Rabs (2 * (x / d)) <= 2). { replace (2 * (x / d)) with (2 * x / d) by (unfold Rdiv; ring). apply Rabs_le; lra. }
    assert (X2 : Rabs (- ((d - (1 + x)) / (1 + x))) <= 0.0000000000000003).
    { rewrite Rabs_Ropp. unfold Rdiv. rewrite Rabs_mult, (Rabs_pos_eq (/ (1 + x))) by (apply Rlt_le, Rinv_0_lt_compat; lra).
      apply (Rmult_le_reg_r (1 + x)); [lra|]. rewrite Rmult_assoc, Rinv_l by lra. lra. }
    rewrite Rabs_mult. apply Rle_trans with (2 * 0.0000000000000003); [|lra]. apply Rmult_le_compat; try apply Rabs_pos; assumption. }
  pose proof (rd_err_all (2 * x / d)) as E1. rewrite <- Vq in E1. rewrite (Rabs_pos_eq (2 * x / d)) in E1 by lra. change (bpow radix2 (-53)) with (/ 9007199254740992) in E1.
  assert (T : bpow radix2 (-1000) <= 0.0000000000000001). { apply Rle_trans with (bpow radix2 (-60)); [apply bpow_le; lia|change (bpow radix2 (-60)) with (/ 1152921504606846976); lra]. }
  pose proof (rnd_err_all (B2R q)) as E2. rewrite (Rabs_pos_eq (B2R q)) in E2 by lra.
  assert (T2 : bpow radix2 (-150) <= 0.0000000000000001). { apply Rle_trans with (bpow radix2 (-60)); [apply bpow_le; lia|change (bpow radix2 (-60)) with (/ 1152921504606846976); lra]. }
  change (bpow radix2 (-22)) with (/ 4194304). apply Rabs_le_inv in A1. apply Rabs_le_inv in E1. apply Rabs_le_inv in E2. apply Rabs_le. lra.
Qed.

(** the self-modulated coefficient *)
Lemma gain_ok (g0 sense band : f32) : is_finite g0 = true -> 0 <= B2R g0 <= 2 -> is_finite sense = true -> 0 <= B2R sense <= bpow radix2 63 ->
  is_finite band = true -> Rabs (B2R band) <= bpow radix2 62 ->
  let g := min1 (fadd g0 (fmul sense (Babs band))) in
  is_finite g = true /\ Rmin (B2R g0) 1 <= B2R g <= 1 /\ B2R g = Rmin (rn (B2R g0 + rn (B2R sense * Rabs (B2R band)))) 1.
Proof.
  intros F0 H0 Fs Hs Fb Hb. cbn zeta. unfold min1. destruct (int32 1 ltac:(reflexivity)) as [V1 F1].
  assert (Va : B2R (Babs band) = Rabs (B2R band)) by apply B2R_Babs. assert (Fa : is_finite (Babs band) = true) by (rewrite is_finite_Babs; exact Fb).
  assert (PB : 0 <= B2R sense * Rabs (B2R band) <= bpow radix2 125).
  { pose proof (Rabs_pos (B2R band)). split; [apply Rmult_le_pos; lra|]. change 125%Z with (63 + 62)%Z. rewrite bpow_plus. apply Rmult_le_compat; lra. }
  assert (f25 : fmt 24 128 (bpow radix2 125)) by (apply fmt_bpow; unfold SpecFloat.emin; lia).
  destruct (fmul_bnd sense (Babs band) (bpow radix2 125) Fs Fa f25) as (Vm & Fm & Bm); [apply bpow_lt; lia|rewrite Va, Rabs_pos_eq; lra|].
  rewrite Va in Vm. set (m := fmul sense (Babs band)) in *.
  assert (M0 : 0 <= B2R m). { rewrite Vm. apply rnd_ge_fmt; [apply fmt_0|lra]. }
  assert (Bm' : B2R m <= bpow radix2 125) by (apply Rabs_le_inv in Bm; lra).
  assert (f26 : fmt 24 128 (bpow radix2 126)) by (apply fmt_bpow; unfold SpecFloat.emin; lia).
  assert (E26 : bpow radix2 126 = 2 * bpow radix2 125) by (change 126%Z with (1 + 125)%Z; rewrite bpow_plus; reflexivity).
  assert (P2 : 2 <= bpow radix2 125) by (change 2 with (bpow radix2 1); apply bpow_le; lia).
  destruct (fadd_bnd g0 m (bpow radix2 126) F0 Fm f26) as (Va2 & Fs2 & _); [apply bpow_lt; lia|rewrite Rabs_pos_eq; lra|].
  set (x := fadd g0 m) in *. assert (X0 : B2R g0 <= B2R x). { rewrite Va2. apply rnd_ge_fmt; [apply fmt_v|lra]. }
  rewrite <- Vm. rewrite <- Va2.
  destruct (flt (mk32 1 0) x) eqn:L.
  - apply (flt_true _ _ F1 Fs2) in L. rewrite V1 in L. split; [exact F1|]. rewrite V1. rewrite (Rmin_right (B2R x) 1) by lra. split; [|reflexivity]. split; [apply Rmin_r|lra].
  - apply (flt_false _ _ F1 Fs2) in L. rewrite V1 in L. split; [exact Fs2|]. rewrite (Rmin_left (B2R x) 1) by lra. split; [|reflexivity]. split; [|lra].
    apply Rle_trans with (B2R g0); [apply Rmin_l|exact X0].
Qed.

(** one smoothing stage y + g (t - y), 0 <= g <= 1 *)
Definition eps (M : R) : R := bpow radix2 (-21) * M + bpow radix2 (-147).
Lemma stage_ok (y t g : f32) M : bounded y -> bounded t -> is_finite g = true -> 0 <= B2R g <= 1 -> Rabs (B2R y) <= M -> Rabs (B2R t) <= M ->
  let o := fadd y (fmul g (fsub t y)) in
  is_finite o = true /\ Rabs (B2R o - (B2R y + B2R g * (B2R t - B2R y))) <= eps M /\
  Rabs (B2R o) <= Rmax (Rabs (B2R y)) (Rabs (B2R t) + eps M).
Proof.
  intros Hy Ht Fg Hg My Mt. cbn zeta. destruct (lerp_ops y t g Hy Ht Fg Hg) as [F V]. unfold linear_interpolate in F, V. split; [exact F|].
  pose proof (lerp_err1 (B2R y) (B2R t) (B2R g) M Hg My Mt) as E. rewrite <- V in E. fold (eps M) in E. split; [exact E|].
  destruct (Rle_lt_dec 1 (B2R g)) as [G|G].
  - assert (G1 : B2R g = 1) by lra. apply Rle_trans with (2 := Rmax_r _ _).
    assert (E' : Rabs (B2R (fadd y (fmul g (fsub t y))) - B2R t) <= eps M).
    { eapply Rle_trans; [|exact E]. right. f_equal. rewrite G1. ring. }
    replace (B2R (fadd y (fmul g (fsub t y)))) with ((B2R (fadd y (fmul g (fsub t y))) - B2R t) + B2R t) by ring. eapply Rle_trans; [apply Rabs_triang|]. lra.
  - destruct (lerp_f32 y t g Hy Ht (conj Fg (conj (proj1 Hg) G))) as [_ B]. cbn zeta in B.
    apply Rle_trans with (Rmax (Rabs (B2R y)) (Rabs (B2R t))).
    2:{ apply Rmax_lub; [apply Rmax_l|]. apply Rle_trans with (2 := Rmax_r _ _). assert (0 <= eps M). { unfold eps. pose proof (bpow_ge_0 radix2 (-21)). pose proof (bpow_ge_0 radix2 (-147)). pose proof (Rabs_pos (B2R y)). assert (0 <= bpow radix2 (-21) * M) by (apply Rmult_le_pos; lra). lra. } lra. }
    set (h := Rmax (Rabs _) (Rabs _)). assert (Hh1 : Rabs (B2R y) <= h) by apply Rmax_l. assert (Hh2 : Rabs (B2R t) <= h) by apply Rmax_r.
    apply Rabs_le_inv in Hh1. apply Rabs_le_inv in Hh2. apply Rabs_le.
    assert (- h <= Rmin (B2R y) (B2R t)) by (apply Rmin_glb; lra). assert (Rmax (B2R y) (B2R t) <= h) by (apply Rmax_lub; lra). lra.
Qed.

(** the invariant *)
Definition ds_inv (B : R) (st : smoother) : Prop :=
  is_finite (ds_sense st) = true /\ 0 <= B2R (ds_sense st) <= bpow radix2 63 /\
  is_finite (ds_g0 st) = true /\ 0 <= B2R (ds_g0 st) <= 2 /\
  is_finite (ds_low1 st) = true /\ Rabs (B2R (ds_low1 st)) <= B * (1 + bpow radix2 (-20)) /\
  is_finite (ds_low2 st) = true /\ Rabs (B2R (ds_low2 st)) <= B * (1 + bpow radix2 (-19)).
Definition M_of (B : R) : R := B * (1 + bpow radix2 (-19)).
Lemma eps_small B : bpow radix2 (-100) <= B -> 0 < eps (M_of B) <= B * bpow radix2 (-20) * 0.51 /\ eps (M_of B) <= B * 0.0000005.
Proof.
  intros H. unfold eps, M_of. assert (P := bpow_gt_0 radix2 (-100)). assert (T := bpow_gt_0 radix2 (-147)).
  assert (T7 : bpow radix2 (-147) <= B * 0.00000000000001).
  { apply Rle_trans with (bpow radix2 (-100) * 0.00000000000001); [|apply Rmult_le_compat_r; lra]. change (-147)%Z with (-100 + -47)%Z. rewrite bpow_plus. apply Rmult_le_compat_l; [lra|]. change (bpow radix2 (-47)) with (/ 140737488355328). lra. }
  change (bpow radix2 (-21)) with (/ 2097152). change (bpow radix2 (-19)) with (/ 524288). change (bpow radix2 (-20)) with (/ 1048576). lra.
Qed.
Lemma bnd_of (x : f32) B : is_finite x = true -> B <= bpow radix2 60 -> Rabs (B2R x) <= B * 2 -> bounded x.
Proof.
  intros F HB H. split; [exact F|]. apply Rle_trans with (bpow radix2 61); [|apply bpow_le; lia]. change 61%Z with (60 + 1)%Z. rewrite bpow_plus. change (bpow radix2 1) with 2. lra.
Qed.
Lemma step_facts B st s : bpow radix2 (-100) <= B <= bpow radix2 60 -> ds_inv B st -> is_finite s = true -> Rabs (B2R s) <= B ->
  let st' := snd (ds_step st s) in
  fst (ds_step st s) = ds_low2 st /\ ds_inv B st' /\ ds_sense st' = ds_sense st /\ ds_g0 st' = ds_g0 st /\
  exists g, Rmin (B2R (ds_g0 st)) 1 <= g <= 1 /\
    g = Rmin (rn (B2R (ds_g0 st) + rn (B2R (ds_sense st) * Rabs (rn (B2R (ds_low1 st) - B2R (ds_low2 st)))))) 1 /\
    Rabs (B2R (ds_low1 st') - (B2R (ds_low1 st) + g * (B2R s - B2R (ds_low1 st)))) <= eps (M_of B) /\
    Rabs (B2R (ds_low2 st') - (B2R (ds_low2 st) + g * (B2R (ds_low1 st') - B2R (ds_low2 st)))) <= eps (M_of B).
Proof.
  intros HB (Fs & Hs & F0 & H0 & F1 & H1 & F2 & H2) Fx Hx. cbn zeta. unfold ds_step. cbn [fst snd ds_sense ds_g0 ds_low1 ds_low2].
  assert (B0 : 0 < B) by (pose proof (bpow_gt_0 radix2 (-100)); lra). destruct (eps_small B (proj1 HB)) as [E1 E2].
  unfold M_of in *. change (bpow radix2 (-20)) with (/ 1048576) in *. change (bpow radix2 (-19)) with (/ 524288) in *.
  set (l1 := ds_low1 st) in *. set (l2 := ds_low2 st) in *. set (M := B * (1 + / 524288)) in *. assert (EM : M = B * (1 + / 524288)) by reflexivity.
  assert (b1 : bounded l1) by (apply (bnd_of _ B); [exact F1|lra|lra]). assert (b2 : bounded l2) by (apply (bnd_of _ B); [exact F2|lra|lra]).
  assert (bs : bounded s) by (apply (bnd_of _ B); [exact Fx|lra|lra]).
  assert (E62 : bpow radix2 62 = 4 * bpow radix2 60) by (change 62%Z with (2 + 60)%Z; rewrite bpow_plus; reflexivity).
  destruct (fsub_bnd l1 l2 (bpow radix2 62) F1 F2) as (Vd & Fd & Bd); [apply fmt_bpow; unfold SpecFloat.emin; lia|apply bpow_lt; lia|unfold Rminus; eapply Rle_trans; [apply Rabs_triang|]; rewrite Rabs_Ropp; lra|].
  destruct (gain_ok (ds_g0 st) (ds_sense st) (fsub l1 l2) F0 H0 Fs Hs Fd Bd) as (Fg & Hg & Vg). rewrite Vd in Vg. set (g := min1 _) in *.
  assert (G0 : 0 <= Rmin (B2R (ds_g0 st)) 1) by (apply Rmin_glb; lra).
  destruct (stage_ok l1 s g M b1 bs Fg ltac:(lra) ltac:(unfold M; lra) ltac:(unfold M; lra)) as (Fn1 & En1 & Bn1). cbn zeta in *. set (n1 := fadd l1 (fmul g (fsub s l1))) in *.
  assert (Hn1 : Rabs (B2R n1) <= B * (1 + / 1048576)). { apply Rle_trans with (1 := Bn1). apply Rmax_lub; lra. }
  assert (bn1 : bounded n1) by (apply (bnd_of _ B); [exact Fn1|lra|lra]).
  destruct (stage_ok l2 n1 g M b2 bn1 Fg ltac:(lra) ltac:(unfold M; lra) ltac:(unfold M; lra)) as (Fn2 & En2 & Bn2). cbn zeta in *. set (n2 := fadd l2 (fmul g (fsub n1 l2))) in *.
  assert (Hn2 : Rabs (B2R n2) <= B * (1 + / 524288)). { apply Rle_trans with (1 := Bn2). apply Rmax_lub; lra. }
  split; [reflexivity|]. split.
  { unfold ds_inv. cbn [ds_sense ds_g0 ds_low1 ds_low2]. change (bpow radix2 (-20)) with (/ 1048576). change (bpow radix2 (-19)) with (/ 524288). auto 12. }
  split; [reflexivity|]. split; [reflexivity|]. exists (B2R g). split; [exact Hg|]. split; [exact Vg|]. split; [exact En1|exact En2].
Qed.
Lemma make_inv sensitivity gc B : smoother_range sensitivity B -> tan_value gc -> ds_inv B (ds_make sensitivity gc).
Proof.
  intros (F & H & HB) Hg. destruct (coeff_ok gc Hg) as (Fg & Bg & _). unfold ds_make, ds_inv. cbn [ds_sense ds_g0 ds_low1 ds_low2].
  destruct (int32 4 ltac:(reflexivity)) as [V4 F4].
  destruct (fmul_bnd sensitivity (mk32 4 0) (bpow radix2 62) F F4) as (V & Fm & Bm); [apply fmt_bpow; unfold SpecFloat.emin; lia|apply bpow_lt; lia| |].
  { rewrite V4, Rabs_pos_eq by lra. change 62%Z with (2 + 60)%Z. rewrite bpow_plus. change (bpow radix2 2) with 4. lra. }
  assert (B0 : 0 < B) by (pose proof (bpow_gt_0 radix2 (-100)); lra). assert (Z : 0 <= B2R (fmul sensitivity (mk32 4 0))). { rewrite V. apply rnd_ge_fmt; [apply fmt_0|rewrite V4; lra]. }
  assert (bpow radix2 62 <= bpow radix2 63) by (apply bpow_le; lia). apply Rabs_le_inv in Bm. change (B2R (fzero : f32)) with 0. rewrite Rabs_R0.
  assert (P1 := bpow_ge_0 radix2 (-20)). assert (P2 := bpow_ge_0 radix2 (-19)).
  assert (0 <= B * (1 + bpow radix2 (-20))) by (apply Rmult_le_pos; lra). assert (0 <= B * (1 + bpow radix2 (-19))) by (apply Rmult_le_pos; lra).
  split; [exact Fm|]. split; [lra|]. split; [exact Fg|]. split; [lra|]. split; [reflexivity|]. split; [lra|]. split; [reflexivity|lra].
Qed.
Lemma do_inv B st o : bpow radix2 (-100) <= B <= bpow radix2 60 -> ds_inv B st -> op_in B o -> ds_inv B (ds_do st o).
Proof.
  intros HB I H. destruct o as [s|gc]; cbn [ds_do op_in] in *.
  - apply (step_facts B st s HB I (proj1 H) (proj2 H)).
  - destruct (coeff_ok gc H) as (Fg & Bg & _). destruct I as (Fs & Hs & F0 & H0 & F1 & H1 & F2 & H2). unfold ds_base_frequency, ds_inv. cbn [ds_sense ds_g0 ds_low1 ds_low2]. auto 12.
Qed.
Lemma run_inv B ops : bpow radix2 (-100) <= B <= bpow radix2 60 -> Forall (op_in B) ops -> forall st, ds_inv B st -> ds_inv B (ds_run st ops).
Proof.
  intros HB. induction 1 as [|o ops Ho _ IH]; intros st I; [exact I|]. cbn. apply IH. apply do_inv; assumption.
Qed.

(** settling *)
Lemma settle B st (c : f32) : bpow radix2 (-100) <= B <= bpow radix2 60 -> ds_inv B st -> is_finite c = true -> Rabs (B2R c) <= B -> 0 < B2R (ds_g0 st) ->
  let gam := Rmin (B2R (ds_g0 st)) 1 in let q := 1 - gam in
  forall n, let st' := ds_run st (repeat (DSample c) n) in
  ds_inv B st' /\ ds_g0 st' = ds_g0 st /\
  Rabs (B2R (ds_low1 st') - B2R c) <= q ^ n * (2.1 * B) + eps (M_of B) / gam /\
  Rabs (B2R (ds_low2 st') - B2R c) <= (INR n + 1) * q ^ n * (2.1 * B) + 2 * (eps (M_of B) / gam).
Proof.
  intros HB I Fc Hc G. cbn zeta. set (gam := Rmin (B2R (ds_g0 st)) 1). assert (Gm : 0 < gam <= 1). { split; [apply Rmin_glb_lt; lra|apply Rmin_r]. }
  destruct (eps_small B (proj1 HB)) as [[E0 _] _]. set (e := eps (M_of B)) in *. set (r := e / gam).
  assert (R0 : 0 < r) by (apply Rdiv_lt_0_compat; lra). assert (RG : gam * r = e) by (unfold r; field; lra).
  assert (B0 : 0 < B) by (pose proof (bpow_gt_0 radix2 (-100)); lra).
  induction n as [|n IH].
  - cbn [repeat ds_run fold_left pow INR]. split; [exact I|]. split; [reflexivity|]. destruct I as (_ & _ & _ & _ & _ & H1 & _ & H2).
    change (bpow radix2 (-20)) with (/ 1048576) in H1. change (bpow radix2 (-19)) with (/ 524288) in H2.
    split; (unfold Rminus; eapply Rle_trans; [apply Rabs_triang|]; rewrite Rabs_Ropp; lra).
  - assert (RS : ds_run st (repeat (DSample c) (S n)) = snd (ds_step (ds_run st (repeat (DSample c) n)) c)).
    { unfold ds_run. change (repeat (DSample c) (S n)) with (DSample c :: repeat (DSample c) n). rewrite repeat_cons. rewrite fold_left_app. reflexivity. }
    rewrite RS. destruct IH as (In & Gn & H1 & H2). set (sn := ds_run st (repeat (DSample c) n)) in *.
    destruct (step_facts B sn c HB In Fc Hc) as (_ & I' & _ & G' & g & Hg & _ & S1 & S2). cbn zeta in *. set (s' := snd (ds_step sn c)) in *.
    split; [exact I'|]. split; [congruence|]. rewrite Gn in Hg. fold gam in Hg. fold e in S1, S2.
    set (x1 := B2R (ds_low1 sn)) in *. set (x2 := B2R (ds_low2 sn)) in *. set (y1 := B2R (ds_low1 s')) in *. set (y2 := B2R (ds_low2 s')) in *. set (k := B2R c) in *.
    set (p := (1 - gam) ^ n) in *. assert (P0 : 0 <= p) by (apply pow_le; lra). set (E := 2.1 * B) in *. assert (PE : 0 <= p * E) by (apply Rmult_le_pos; unfold E; lra).
    assert (GR : e <= g * r). { rewrite <- RG. apply Rmult_le_compat_r; lra. }
    assert (A1 : Rabs (y1 - k) <= (1 - g) * (p * E + r) + e).
    { replace (y1 - k) with ((y1 - (x1 + g * (k - x1))) + (1 - g) * (x1 - k)) by ring. eapply Rle_trans; [apply Rabs_triang|].
      assert (Rabs ((1 - g) * (x1 - k)) <= (1 - g) * (p * E + r)). { rewrite Rabs_mult, (Rabs_pos_eq (1 - g)) by lra. apply Rmult_le_compat_l; lra. } lra. }
    assert (Q1 : (1 - g) * (p * E) <= (1 - gam) * (p * E)) by (apply Rmult_le_compat_r; lra).
    assert (C1 : Rabs (y1 - k) <= (1 - gam) * p * E + r) by lra.
    split; [cbn [pow]; fold p; exact C1|].
    assert (N0 : 0 <= INR n) by apply pos_INR.
    assert (A2 : Rabs (y2 - k) <= (1 - g) * ((INR n + 1) * p * E + 2 * r) + g * ((1 - gam) * p * E + r) + e).
    { replace (y2 - k) with ((y2 - (x2 + g * (y1 - x2))) + ((1 - g) * (x2 - k) + g * (y1 - k))) by ring. eapply Rle_trans; [apply Rabs_triang|].
      assert (Rabs ((1 - g) * (x2 - k) + g * (y1 - k)) <= (1 - g) * ((INR n + 1) * p * E + 2 * r) + g * ((1 - gam) * p * E + r)).
      { eapply Rle_trans; [apply Rabs_triang|]. rewrite !Rabs_mult, (Rabs_pos_eq (1 - g)), (Rabs_pos_eq g) by lra. apply Rplus_le_compat; apply Rmult_le_compat_l; lra. } lra. }
    assert (PN : 0 <= (INR n + 1) * (p * E)) by (apply Rmult_le_pos; lra).
    assert (Q2 : (1 - g) * ((INR n + 1) * (p * E)) <= (1 - gam) * ((INR n + 1) * (p * E))) by (apply Rmult_le_compat_r; lra).
    assert (PG : 0 <= (1 - gam) * (p * E)) by (apply Rmult_le_pos; lra).
    assert (Q3 : g * ((1 - gam) * (p * E)) <= 1 * ((1 - gam) * (p * E))) by (apply Rmult_le_compat_r; lra).
    rewrite S_INR. cbn [pow]. fold p. lra.
Qed.
