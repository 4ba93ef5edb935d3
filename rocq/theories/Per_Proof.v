From Coq Require Import Reals Lra.
From Flocq Require Import Core.Core IEEE754.BinarySingleNaN.
From Verif Require Import Common CommonFacts Float FloatFacts Ring_Model Ring_Spec Ring_Proof Bitset_Model Bitset_Spec Bitset_Proof DetectF_Proof
  Zc_Model Zc_Spec Zc_Proof FloatRel PD_Model PD_Spec PD_Proof PD_Pred Pitch_Model Per_Spec Per_Zc Per_Ana.
Local Open Scope Z_scope.

Lemma fsub_fin_inv (x y : f32) : is_finite (fsub x y) = true -> fin x /\ fin y.
Proof.
  unfold fin. destruct x as [|[|]| |], y as [|[|]| |]; intros H; split; try reflexivity; discriminate H.
Qed.
Lemma b1 : (1 < bpow radix2 128)%R.
Proof. change 1%R with (bpow radix2 0). apply bpow_lt. lia. Qed.
Lemma dx_fin (cu pr : f32) : is_finite (fsub cu pr) = true -> flt fzero cu = true -> flt fzero pr = false ->
  fin (fdiv (fneg pr) (fsub cu pr)).
Proof.
  intros Fs C1 C2. destruct (fsub_fin_inv _ _ Fs) as [Fc Fp].
  apply (flt_true fzero cu eq_refl Fc) in C1. apply (flt_false fzero pr eq_refl Fp) in C2.
  change (B2R (fzero : f32)) with 0%R in C1, C2.
  assert (V : B2R (fsub cu pr) = rnd 24 128 (B2R cu - B2R pr)).
  { pose proof (Bminus_correct 24 128 eq_refl eq_refl mode_NE cu pr Fc Fp) as H.
    destruct (Rlt_bool _ _) eqn:Q; [exact (proj1 H)|]. exfalso. destruct H as [H _]. change (Bminus mode_NE cu pr) with (fsub cu pr) in H.
    destruct (fsub cu pr) as [|[|]| |[|]]; try discriminate Fs; destruct (Bsign cu); discriminate H. }
  assert (NP : B2R (fneg pr) = (- B2R pr)%R) by apply B2R_Bopp.
  assert (Fn : fin (fneg pr)) by (unfold fin, fneg; rewrite is_finite_Bopp; exact Fp).
  assert (L1 : (B2R cu <= B2R (fsub cu pr))%R) by (rewrite V; apply rnd_ge_fmt; [apply fmt_v|lra]).
  assert (L2 : (- B2R pr <= B2R (fsub cu pr))%R).
  { rewrite V. apply rnd_ge_fmt; [rewrite <- NP; apply fmt_v|lra]. }
  set (dd := B2R (fsub cu pr)) in *. assert (D0 : (0 < dd)%R) by lra.
  assert (Q : (0 <= - B2R pr / dd <= 1)%R).
  { split; [apply Rmult_le_pos; [lra|apply Rlt_le, Rinv_0_lt_compat; exact D0]|]. apply Rmult_le_reg_r with dd; [exact D0|].
    unfold Rdiv. rewrite Rmult_assoc, Rinv_l, Rmult_1_r, Rmult_1_l by lra. exact L2. }
  destruct (fdiv_R (fneg pr) (fsub cu pr) Fn) as [_ F]; [fold dd; lra| |exact F].
  fold dd. rewrite NP.
  apply Rle_lt_trans with 1%R; [|exact b1]. apply rnd_abs_le; [change 1%R with (bpow radix2 0); apply fmt_bpow; unfold SpecFloat.emin; lia|].
  rewrite Rabs_pos_eq; lra.
Qed.
(** P samples exactly *)
Lemma per_value (D : f32) P : fin D -> 0 <= P < 2 ^ 24 ->
  fin (fdiv (fadd (mk32 P 0) (fsub D D)) (z32 (Z.of_N 1))) /\ B2R (fdiv (fadd (mk32 P 0) (fsub D D)) (z32 (Z.of_N 1))) = IZR P.
Proof.
  intros FD HP. destruct (mk32_small P 0 ltac:(lia) ltac:(lia)) as [VP FP]. change (bpow radix2 0) with 1%R in VP. rewrite Rmult_1_r in VP.
  destruct (mk32_small 1 0 ltac:(reflexivity) ltac:(lia)) as [V1 F1]. change (bpow radix2 0) with 1%R in V1. rewrite Rmult_1_r in V1.
  change (mk32 1 0) with (z32 (Z.of_N 1)) in *.
  assert (BP : (Rabs (IZR P) < bpow radix2 128)%R).
  { rewrite <- abs_IZR. apply Rlt_trans with (bpow radix2 24); [|apply bpow_lt; lia]. change (bpow radix2 24) with (IZR (2 ^ 24)). apply IZR_lt. lia. }
  destruct (fsub_R D D FD FD) as [VS FS].
  { rewrite Rminus_diag_eq, rnd_0, Rabs_R0 by reflexivity. apply bpow_gt_0. }
  rewrite Rminus_diag_eq, rnd_0 in VS by reflexivity.
  assert (FM : fmt 24 128 (IZR P)) by (rewrite <- VP; apply fmt_v).
  destruct (fadd_R (mk32 P 0) (fsub D D) FP FS) as [VA FA].
  { rewrite VS, VP, Rplus_0_r, rnd_fmt by exact FM. exact BP. }
  rewrite VS, VP, Rplus_0_r, rnd_fmt in VA by exact FM.
  destruct (fdiv_R (fadd (mk32 P 0) (fsub D D)) (z32 (Z.of_N 1)) FA) as [VD FDD].
  { rewrite V1. lra. }
  { rewrite VA, V1. unfold Rdiv. rewrite Rinv_1, Rmult_1_r, rnd_fmt by exact FM. exact BP. }
  split; [exact FDD|]. rewrite VD, VA, V1. unfold Rdiv. rewrite Rinv_1, Rmult_1_r. apply rnd_fmt. exact FM.
Qed.

(** the fundamental is [P], with periodicity 1 *)
Definition settled (P : Z) (p : pd) : Prop :=
  is_finite (p_period p) = true /\ B2R (p_period p) = IZR P /\ is_finite (p_periodicity p) = true /\ B2R (p_periodicity p) = 1%R.

Section Ana.
Variable W : N.
Hypothesis HW : (128 <= W <= 2 ^ 28)%N.
Hypothesis HW64 : (W mod 64 = 0)%N.
Variables (h : Z -> f32) (hyst : f32) (P a c : Z).
Hypothesis OP : one_pulse h hyst P a c.
Hypothesis HP : 4 <= P < 2 ^ 24.
Hypothesis HPW : 2 * P <= Z.of_N W.
Hypothesis HM : P + 2 <= 2 * (Z.of_N (N.max (W / 64 / 2 - 1) 1) * 64).
Hypothesis ST : is_finite (fsub (h a) (h (a - 1))) = true.
Hypothesis HA : a < Z.of_N W / 2.
Variables (oob : f32 -> Z).

Lemma pre_rise : flt fzero (h (a - 1)) = false.
Proof using OP. clear - OP.
  pose proof (op_order _ _ _ _ _ OP) as O. rewrite <- (op_period _ _ _ _ _ OP (a - 1)) by lia. apply (op_after _ _ _ _ _ OP). lia.
Qed.
Lemma analyse p z o m0 L : pinv W p -> p_zc p = z -> full W h P a c z o m0 L -> c - P <= o -> bits_spec W p -> p_weight p = weight_of W ->
  Z.of_N (p_min p) <= P -> exists q, autocorrelate oob p = Some q /\ settled P q.
Proof.
  intros I Zp F Cl Bs Wt Mn. change (2 ^ 28)%N with 268435456%N in HW. change (2 ^ 24) with 16777216 in HP.
  pose proof (fu_num _ _ _ _ _ _ _ _ _ F) as Nm. pose proof (fu_two _ _ _ _ _ _ _ _ _ F) as L2.
  assert (HP4 : 4 <= P) by lia. pose proof (op_order _ _ _ _ _ OP) as O.
  destruct (fu_edge _ _ _ _ _ _ _ _ _ F 0%N ltac:(lia)) as (e0 & A0 & [E01 E02 E03 E04 E05] & T0).
  destruct (fu_edge _ _ _ _ _ _ _ _ _ F 1%N ltac:(lia)) as (e1 & A1 & [E11 E12 E13 E14 E15] & T1).
  change (Z.of_N 0) with 0 in *. change (Z.of_N 1) with 1 in E11. rewrite Z.add_0_r in E01.
  replace ((m0 + 1) * P) with (m0 * P + P) in E11 by ring.
  assert (Ld : zi_lead e1 - zi_lead e0 = P) by lia.
  pose proof (all_strong W HW HW64 h hyst P a c OP HP4 z o m0 L F 0%N e0 A0 ltac:(lia)) as S0.
  pose proof (all_strong W HW HW64 h hyst P a c OP HP4 z o m0 L F 1%N e1 A1 ltac:(lia)) as S1.
  pose proof (win_pulses W HW HW64 h hyst P a c OP HP4 z o m0 L F p Zp Bs) as Np.
  pose proof (win_half W HW HW64 h hyst P a c OP HP4 HPW HA z o m0 L F p Zp Bs) as Nh.
  pose proof (win_zero W HW HW64 h hyst P a c OP HP4 HPW HA z o m0 L F p Zp Bs Cl) as C0.
  pose proof (win_half_nonzero W HW HW64 h hyst P a c OP HP4 HPW HA z o m0 L F p Zp Bs Cl HM) as C1.
  unfold autocorrelate. rewrite Zp, Nm. destruct (N.ltb_spec 1 L) as [_|X]; [|lia]. rewrite Nh. cbn [orb].
  destruct (N.ltb_spec (p_pulses p) 2) as [X|_]; [lia|]. cbv zeta.
  set (hthr := fdiv _ _). clearbody hthr. destruct (N.to_nat (L - 1)) as [|k] eqn:Ek; [lia|]. cbn [outer_loop].
  rewrite Zp, A0. cbn [bind]. unfold pd_threshold. rewrite Zp, S0.
  rewrite Nm. destruct (N.to_nat (L - (0 + 1))) as [|k'] eqn:Ek'; [lia|]. change (0 + 1)%N with 1%N. cbn [inner_loop].
  rewrite Zp, A1. cbn [bind]. unfold pd_threshold. rewrite Zp, S1. unfold zi_period at 1.
  destruct (Z.leb_spec (zi_lead e0) (zi_lead e1)) as [Le|X]; [|lia]. cbn [bind]. rewrite Ld.
  rewrite Z.mod_small by (change (2 ^ 64) with 18446744073709551616; lia).
  rewrite (pi_mid _ _ I). destruct (N.ltb_spec (W / 2) (Z.to_N P)) as [X|_]; [lia|].
  destruct (N.leb_spec (p_min p) (Z.to_N P)) as [_|X]; [|lia].
  assert (Ac : autocorr1 (p_bits p) (p_min p) (Z.to_N P) (coll_empty coll0) = Some (inr (0%N, Z.to_N P))).
  { unfold autocorr1. change (coll_empty coll0) with true.
    assert (HW' : (128 <= W <= 2 ^ 28)%N) by (change (2 ^ 28)%N with 268435456%N; lia).
    rewrite (acf_cnt W HW' HW64 (p_bits p) (Z.to_N P) (pi_bits _ _ I)) by lia. cbn [bind]. rewrite C0.
    cbn [andb]. change (0 =? 0)%N with true. rewrite (acf_cnt W HW' HW64 (p_bits p) (Z.to_N P / 2) (pi_bits _ _ I)) by lia. cbn [bind].
    destruct (N.eqb_spec (cnt W (p_bits p) (Z.to_N P / 2)) 0) as [Y|_]; [exfalso; exact (C1 Y)|reflexivity]. }
  rewrite Ac. cbn [bind]. rewrite Z2N.id by lia.
  unfold collect. change (c_per (c_fund coll0) =? -1) with true. unfold coll_save. cbn [c_i1 c_i2 c_per c_pty].
  unfold period_of at 1. cbn [c_i1 c_i2]. rewrite A0. cbn [bind]. rewrite A1. cbn [bind].
  unfold zi_frac_period. destruct (Z.leb_spec (zi_lead e0) (zi_lead e1)) as [_|X]; [|lia]. cbn [bind].
  change (0 =? 0)%N with true. cbn [bind fst snd]. unfold coll_empty. cbn [c_fund c_per c_harm c_pty].
  assert (Wr : wrap_int P = P) by (apply wrap_small; change (2 ^ 31) with 2147483648; lia). rewrite Wr.
  destruct (Z.eqb_spec P (-1)) as [X|_]; [lia|]. unfold period_of. cbn [c_i1 c_i2]. rewrite A0. cbn [bind]. rewrite A1. cbn [bind].
  unfold zi_frac_period. destruct (Z.leb_spec (zi_lead e0) (zi_lead e1)) as [_|X]; [|lia]. cbn [bind].
  eexists. split; [reflexivity|].
  assert (Dx : zi_dx e1 = zi_dx e0) by (unfold zi_dx; rewrite E12, E13, E02, E03; reflexivity).
  assert (FD : fin (zi_dx e0)).
  { unfold zi_dx. rewrite E02, E03. apply dx_fin; [exact ST|exact (op_rise _ _ _ _ _ OP)|exact pre_rise]. }
  rewrite Dx, Ld. unfold settled. cbn [with_fund p_period p_periodicity].
  destruct (per_value (zi_dx e0) P FD ltac:(change (2 ^ 24) with 16777216; lia)) as [V1 V2].
  split; [exact V1|]. split; [exact V2|]. rewrite Wt.
  destruct (pty_range W ltac:(change (2 ^ 28)%N with 268435456%N; lia) 0%N ltac:(lia) HW64) as (R1 & R2 & R3).
  split; [exact R1|exact (R3 eq_refl)].
Qed.
End Ana.

(** the run *)
Lemma first_snoc x k : first_samples x (S k) = first_samples x k ++ [x (Z.of_nat k)].
Proof. unfold first_samples. rewrite seq_S, map_app. reflexivity. Qed.
(** silence: the collector starts over every half window *)
Lemma quiet_step pv hy Wn r f s : (128 <= Wn <= 2 ^ 28)%N -> (0 < rb_size r)%N -> (f <= Wn / 2)%N -> flt fzero (fadd s (fdiv hy (mk32 2 0))) = false ->
  zc_step (mkZc pv hy false 0 Wn r f false fzero fzero) s =
  Some (mkZc (fadd s (fdiv hy (mk32 2 0))) hy false 0 Wn r ((if (f =? Wn / 2)%N then 0 else f) + 1) false fzero fzero).
Proof.
  intros B R F Q. change (2 ^ 28)%N with 268435456%N in B. unfold zc_step, zc_update, zc_begin, zc_edge, zc_capacity, zc_reset. cbn [z_hyst z_info z_num].
  set (t := fadd s _) in *. assert (G : (rb_size r <=? 0)%N = false) by (apply N.leb_gt; exact R). rewrite G. cbn [z_frame z_win z_num]. change (0 =? 0)%N with true. rewrite andb_true_r.
  assert (H1 : (Wn / 2 <= Wn)%N) by (apply N.div_le_upper_bound; lia).
  assert (H2 : (64 <= Wn / 2)%N) by (apply N.div_le_lower_bound; lia).
  assert (H3 : (Wn / 2 < Wn)%N) by (apply N.div_lt; lia).
  destruct (f =? Wn / 2)%N; cbn [z_prev z_hyst z_state z_num z_win z_info z_frame z_ready z_peak_update z_peak bind];
    rewrite G, Q; cbn [z_prev z_hyst z_state z_num z_win z_info z_frame z_ready z_peak_update z_peak bind andb].
  - destruct (N.ltb_spec (Wn * 2) 0) as [X|_]; [lia|]. cbn [z_prev z_hyst z_state z_num z_win z_info z_frame z_ready z_peak_update z_peak bind andb].
    change (add64 0 1) with 1%N. destruct (N.leb_spec Wn 1) as [X|_]; [lia|]. reflexivity.
  - destruct (N.ltb_spec (Wn * 2) f) as [X|_]; [lia|]. cbn [z_prev z_hyst z_state z_num z_win z_info z_frame z_ready z_peak_update z_peak bind andb].
    assert (Fa : add64 f 1 = (f + 1)%N).
    { unfold add64, wrap64. apply N.mod_small. unfold W64. change (2 ^ 64)%N with 18446744073709551616%N. lia. }
    rewrite Fa. destruct (N.leb_spec Wn (f + 1)) as [X|_]; [lia|]. reflexivity.
Qed.

Definition mk_quiet (p : pd) (z : zc) : pd := mkPd z (p_period p) (p_periodicity p) (p_min p) (p_range p) (p_bits p) (p_weight p) (p_mid p) (p_diff p)
  (p_predicted p) (p_mark p) (p_predict_edge p) (p_pulses p) (p_half_empty p).
Lemma mk_quiet_id p : mk_quiet p (p_zc p) = p.
Proof. destruct p; reflexivity. Qed.

Section Run.
Variables (oob : f32 -> Z) (hyst : f32) (nw min : N) (range : Z) (x : Z -> f32) (P a c D : Z) (h : Z -> f32) (p0 : pd).
Hypothesis Hn : (nw <= 2 ^ 28)%N.
Hypothesis E0 : pd_make hyst nw min range = Some p0.
Let W := z_win (p_zc p0).
Let H : Z := Z.of_N W / 2.
(** [D] samples of silence, a multiple of half the window, before the signal [h] *)
Hypothesis HD : 0 <= D.
Hypothesis HD2 : D mod H = 0.
Hypothesis Hq : forall k, 0 <= k < D -> flt fzero (cond_of hyst x k) = false.
Hypothesis Hh : forall k, h k = cond_of hyst x (k + D).
Hypothesis OP : one_pulse h hyst P a c.
Hypothesis HA : a < H.
Hypothesis HP : 4 <= P < 2 ^ 24.
Hypothesis HPW : 2 * P <= Z.of_N W.
Hypothesis HM : P + 2 <= 2 * (Z.of_N (N.max (W / 64 / 2 - 1) 1) * 64).
Hypothesis ST : is_finite (fsub (h a) (h (a - 1))) = true.
Hypothesis Mn : Z.of_N min <= P.
Notation perinv := (Per_Zc.perinv (Z.of_N W) h hyst P a c).

Lemma start_w : (128 <= W <= 2 ^ 28)%N /\ (W mod 64 = 0)%N.
Proof using All.
  destruct (pd_run_ok oob hyst nw min range [] Hn) as (q0 & q & F0 & F1 & Z0 & _ & B & M & _). assert (q0 = p0) by congruence. subst q0. auto.
Qed.
Definition quiet_zc (pv : f32) (f : N) : zc := mkZc pv hyst false 0 W (z_info (p_zc p0)) f false fzero fzero.
Lemma start_zc : p_zc p0 = quiet_zc fzero 0 /\ exists J, ring_rel (z_info (p_zc p0)) J /\ H <= Z.of_N (zc_capacity (p_zc p0)).
Proof using All.
  destruct (pd_run_ok oob hyst nw min range [] Hn) as (q0 & q & F0 & F1 & Z0 & _ & B & M & _). assert (q0 = p0) by congruence. subst q0. clear F0 F1 q.
  fold W in B, M.
  destruct (make_inv hyst nw [] Hn) as (z & J & Ez & I & B' & M' & _ & C & Rd). assert (z = p_zc p0) by congruence. subst z. clear Ez. fold W in B', M', C, I.
  destruct C as (k & C1 & C2 & C3). destruct I as [R Nm Hw Hy Hp Fr]. rewrite Rd in Fr.
  unfold zc_make in Z0. destruct (rb_make zinfo0 _) as [r|] eqn:Er; [|discriminate]. cbn [bind] in Z0.
  injection Z0 as Zz. split.
  - unfold quiet_zc, W. rewrite <- Zz. reflexivity.
  - exists J. split; [exact R|]. change (2 ^ 28)%N with 268435456%N in B. unfold H. lia.
Qed.

(** the state the signal meets *)
Definition first_zc : zc := quiet_zc (h (-1)) 0.
Lemma start_per : exists J, perinv 0 first_zc (-1) [] J.
Proof using All.
  destruct start_w as (B & M). destruct start_zc as (Z0 & J & R & C). exists J.
  assert (Nw : 0 - zc_now first_zc = 0) by reflexivity.
  pose proof (op_order _ _ _ _ _ OP) as O.
  constructor; try rewrite Nw.
  - exact R.
  - reflexivity.
  - reflexivity.
  - reflexivity.
  - reflexivity.
  - exact C.
  - split; left; reflexivity.
  - intros X. exfalso. apply X. reflexivity.
  - unfold low, zlen. cbn [length]. lia.
  - cbn. split; [exact Logic.I|]. lia.
  - left. cbn. change (2 ^ 28)%N with 268435456%N in B. lia.
Qed.

(** the silence *)
Definition frame_after (k : nat) : Z := if Z.of_nat k =? 0 then 0 else (Z.of_nat k - 1) mod H + 1.
Lemma quiet k : Z.of_nat k <= D -> exists f, pd_run oob p0 (first_samples x k) = Some (mk_quiet p0 (quiet_zc (cond_of hyst x (Z.of_nat k - 1)) f)) /\
  Z.of_N f = frame_after k.
Proof using All.
  destruct start_w as (B & M). destruct start_zc as (Z0 & J & R & C). change (2 ^ 28)%N with 268435456%N in B.
  induction k as [|k IH]; intros Hk.
  - exists 0%N. split; [|reflexivity]. cbn [first_samples seq map pd_run]. f_equal. change (cond_of hyst x (Z.of_nat 0 - 1)) with (fzero : f32).
    rewrite <- Z0. symmetry. apply mk_quiet_id.
  - destruct IH as (f & Er & Ef); [lia|]. rewrite first_snoc, pd_run_snoc, Er. cbn [bind].
    assert (Hf : 0 <= Z.of_N f <= H).
    { rewrite Ef. unfold frame_after. destruct (Z.eqb_spec (Z.of_nat k) 0); [unfold H; lia|]. pose proof (Z.mod_pos_bound (Z.of_nat k - 1) H ltac:(unfold H; lia)). lia. }
    assert (HN : Z.of_N (W / 2) = H) by (rewrite N2Z.inj_div; reflexivity).
    assert (Qk : flt fzero (fadd (x (Z.of_nat k)) (fdiv hyst (mk32 2 0))) = false).
    { pose proof (Hq (Z.of_nat k) ltac:(lia)) as Q. unfold cond_of in Q. destruct (Z.ltb_spec (Z.of_nat k) 0) as [X|_]; [lia|exact Q]. }
    unfold pd_step, mk_quiet at 1 2. cbn [p_zc]. unfold quiet_zc at 1 2. cbn [z_state].
    rewrite quiet_step; [|change (2 ^ 28)%N with 268435456%N; exact B|unfold zc_capacity in C; unfold H in C; lia|lia|exact Qk]. cbn [bind].
    eexists. split.
    + cbn [z_state z_ready negb Bool.eqb andb]. unfold zc_is_reset. cbn [z_frame].
      match goal with |- context [(?g + 1 =? 0)%N] => destruct (N.eqb_spec (g + 1) 0) as [X|_]; [lia|] end.
      unfold mk_quiet. cbn [p_period p_periodicity p_min p_range p_bits p_weight p_mid p_diff p_predicted p_mark p_predict_edge p_pulses p_half_empty].
      unfold quiet_zc. do 2 f_equal. unfold cond_of. destruct (Z.ltb_spec (Z.of_nat (S k) - 1) 0) as [X|_]; [lia|].
      replace (Z.of_nat (S k) - 1) with (Z.of_nat k) by lia. reflexivity.
    + unfold frame_after. destruct (Z.eqb_spec (Z.of_nat (S k)) 0) as [X|_]; [lia|]. replace (Z.of_nat (S k) - 1) with (Z.of_nat k) by lia.
      unfold frame_after in Ef. destruct (Z.eqb_spec (Z.of_nat k) 0) as [K0|K0].
      * rewrite K0. rewrite Z.mod_0_l by (unfold H; lia). destruct (N.eqb_spec f (W / 2)) as [X|_]; [unfold H in *; lia|lia].
      * destruct (N.eqb_spec f (W / 2)) as [X|X].
        -- assert (Y : (Z.of_nat k - 1) mod H = H - 1) by lia. pose proof (Z.div_mod (Z.of_nat k - 1) H ltac:(unfold H; lia)) as Dm.
           replace (Z.of_nat k mod H) with 0; [reflexivity|]. apply (Z.mod_unique _ _ ((Z.of_nat k - 1) / H + 1)); [unfold H in *; lia|lia].
        -- pose proof (Z.div_mod (Z.of_nat k - 1) H ltac:(unfold H; lia)) as Dm. pose proof (Z.mod_pos_bound (Z.of_nat k - 1) H ltac:(unfold H; lia)) as Mb.
           replace (Z.of_nat k mod H) with ((Z.of_nat k - 1) mod H + 1); [lia|]. apply (Z.mod_unique _ _ ((Z.of_nat k - 1) / H)); lia.
Qed.
Let Dn : nat := Z.to_nat D.
Lemma quiet_end : exists p, pd_run oob p0 (first_samples x Dn) = Some p /\ (forall s, zc_step (p_zc p) s = zc_step first_zc s) /\ (D = 0 -> p_zc p = first_zc).
Proof using All.
  destruct start_w as (B & M). destruct start_zc as (Z0 & J & R & C). change (2 ^ 28)%N with 268435456%N in B.
  destruct (quiet Dn ltac:(unfold Dn; lia)) as (f & Er & Ef). eexists. split; [exact Er|]. unfold mk_quiet. cbn [p_zc].
  assert (Hv : cond_of hyst x (Z.of_nat Dn - 1) = h (-1)) by (rewrite Hh; f_equal; unfold Dn; lia). rewrite Hv.
  unfold frame_after in Ef. replace (Z.of_nat Dn) with D in Ef by (unfold Dn; lia).
  destruct (Z.eqb_spec D 0) as [Dz|Dz].
  - assert (f = 0%N) by lia. subst f. split; [intros s; reflexivity|intros _; reflexivity].
  - split; [|intros X; contradiction]. intros s.
    assert (HN : Z.of_N (W / 2) = H) by (rewrite N2Z.inj_div; reflexivity).
    assert (Y : f = (W / 2)%N).
    { assert (X : (D - 1) mod H = H - 1); [|lia]. pose proof (Z.div_mod D H ltac:(unfold H; lia)) as Dm. rewrite HD2 in Dm.
      symmetry. apply (Z.mod_unique _ _ (D / H - 1)); [unfold H in *; lia|lia]. }
    subst f. unfold zc_step, first_zc, quiet_zc. cbn [z_hyst].
    assert (G : forall pv f, (zc_capacity (mkZc pv hyst false 0 W (z_info (p_zc p0)) f false fzero fzero) <=? z_num (mkZc pv hyst false 0 W (z_info (p_zc p0)) f false fzero fzero))%N = false).
    { intros pv f. apply N.leb_gt. unfold zc_capacity in *. cbn [z_info z_num]. unfold H in C. lia. }
    rewrite !G. cbn [z_frame z_win z_num]. rewrite N.eqb_refl. change (0 =? 0)%N with true. cbn [andb].
    destruct (N.eqb_spec 0 (W / 2)) as [X|_]; [unfold H in HN; lia|]. reflexivity.
Qed.

Lemma now_bound n z m E J : perinv n z m E J -> zc_now z < Z.of_N W + P.
Proof using All.
  intros [R Nm Hw Hy Hp Cp Pk Ld Lo Sh Fr]. destruct (z_ready z) eqn:Rd; [lia|]. unfold zc_now in *. rewrite Rd in *. destruct Fr as [X|X]; [lia|].
  rewrite X in Sh. destruct Sh as (e & r & -> & _ & _ & B). specialize (Ld ltac:(discriminate)).
  pose proof (op_order _ _ _ _ _ OP) as O. lia.
Qed.
(** one more sample *)
Lemma pd_step_per p k z m E J : pd_run oob p0 (first_samples x k) = Some p -> (forall s, zc_step (p_zc p) s = zc_step z s) -> D <= Z.of_nat k ->
  perinv (Z.of_nat k - D) z m E J ->
  exists p' m' E' J', pd_step oob p (x (Z.of_nat k)) = Some p' /\ perinv (Z.of_nat (S k) - D) (p_zc p') m' E' J' /\
    zc_is_reset (p_zc p') = false /\ zc_now (p_zc p') = Z.of_N (z_frame z) + 1 /\
    (z_ready (p_zc p') = true -> c - P <= Z.of_nat (S k) - D - zc_now (p_zc p') -> settled P p') /\
    (z_ready (p_zc p') = false -> z_frame (p_zc p') = (z_frame z + 1)%N /\ (settled P p -> settled P p')).
Proof using All.
  intros Er Tr Dk I. destruct start_w as (B & M).
  assert (HP4 : 4 <= P) by lia.
  destruct (step_per (Z.of_N W) (WzB W B M) (Wz2 W B M) h hyst P a c OP HP4 HPW HA (Z.of_nat k - D) z m E J (x (Z.of_nat k)) ltac:(lia))
    as (z' & m' & E' & J' & Es & I' & Fz & F0 & Nz); [|exact I|].
  { rewrite Hh. unfold cond_of. replace (Z.of_nat k - D + D) with (Z.of_nat k) by lia. destruct (Z.ltb_spec (Z.of_nat k) 0) as [X|_]; [lia|reflexivity]. }
  replace (Z.of_nat k - D + 1) with (Z.of_nat (S k) - D) in I' by lia. rewrite <- Tr in Es.
  destruct (pd_run_ok oob hyst nw min range (first_samples x k) Hn) as (q0 & q & G1 & G2 & _ & K1 & _ & _ & PI & Pm & _ & Pw & _).
  assert (q0 = p0) by congruence. subst q0. assert (q = p) by congruence. subst q. fold W in PI, Pw. clear G1 G2.
  destruct (pd_run_ok oob hyst nw min range (first_samples x (S k)) Hn) as (q0 & q & G1 & G2 & _ & K2 & _ & _ & PI' & _).
  assert (q0 = p0) by congruence. subst q0. fold W in PI'. rewrite first_snoc, pd_run_snoc, Er in G2. cbn [bind] in G2.
  assert (Zq : p_zc q = z').
  { rewrite first_snoc, zc_run_snoc, K1 in K2. cbn [bind] in K2. congruence. }
  assert (Zf : zfacts W z') by (rewrite <- Zq; exact (pi_zc _ _ PI')).
  exists q, m', E', J'. split; [exact G2|]. rewrite Zq. split; [exact I'|].
  unfold pd_step in G2. rewrite Es in G2. cbn [bind] in G2.
  assert (Rs : zc_is_reset z' = false) by (unfold zc_is_reset; apply N.eqb_neq; exact F0). rewrite Rs in G2. split; [exact Rs|]. split; [exact Nz|].
  set (p1 := mkPd z' _ _ _ _ _ _ _ _ _ _ _ _ _) in G2.
  assert (I1 : pinv W p1) by (constructor; [exact Zf|exact (pi_bits _ _ PI)|exact (pi_mid _ _ PI)]).
  destruct (z_ready z') eqn:Rd.
  - split; [intros _ Cl|discriminate].
    destruct (ready_full W B M h hyst P a c HA (Z.of_nat (S k) - D) z' m' E' J' I' Rd) as [St Fu].
    destruct (set_bitstream_ok W B M p1 I1 St (zf_num _ _ Zf)) as (p2 & E2 & I2 & Z2 & M2 & R2 & W2 & S2).
    rewrite E2 in G2. cbn [bind] in G2.
    destruct (analyse W B M h hyst P a c OP HP HPW HM ST HA oob p2 z' _ _ _ I2 Z2 Fu Cl S2) as (q' & Eq & S).
    { rewrite W2. exact Pw. }
    { rewrite M2. change (p_min p1) with (p_min p). rewrite Pm. exact Mn. }
    assert (q' = q) by congruence. subst q'. exact S.
  - assert (q = p1) by congruence. subst q. split; [discriminate|]. intros _. split; [exact (Fz eq_refl)|].
    intros S. exact S.
Qed.

(** the phases: measured; still in the first window; in the second one, the first having begun before
    the signal did *)
Definition phase (p : pd) (z : zc) (n : Z) : Prop :=
  (settled P p /\ c - P <= n - zc_now z) \/
  (n - zc_now z = 0 /\ (z_ready z = true -> P < c)) \/
  (n - zc_now z = H /\ z_ready z = false /\ P < c).
Lemma phase_step p p' z z' (n : Z) : Z.of_N (z_win z) = Z.of_N W -> phase p z n -> zc_now z' = Z.of_N (z_frame z) + 1 ->
  (z_ready z' = true -> c - P <= n + 1 - zc_now z' -> settled P p') -> (z_ready z' = false -> settled P p -> settled P p') -> phase p' z' (n + 1).
Proof using All.
  intros Hw Ph Nz S1 S2. pose proof (op_order _ _ _ _ _ OP) as O. unfold phase in *.
  assert (Nw : zc_now z = Z.of_N (z_frame z) + (if z_ready z then H else 0)).
  { unfold zc_now. destruct (z_ready z); [|reflexivity]. rewrite N2Z.inj_div, Hw. reflexivity. }
  assert (H0 : 0 <= H) by (unfold H; lia).
  destruct Ph as [[S Cl]|[[Oz Rd]|(Oz & Rd & Pc)]].
  - left. split; [|destruct (z_ready z); lia]. destruct (z_ready z') eqn:R'; [apply S1; [reflexivity|destruct (z_ready z); lia]|apply S2; auto].
  - destruct (z_ready z) eqn:R.
    + specialize (Rd eq_refl). assert (On : n + 1 - zc_now z' = H) by lia. destruct (z_ready z') eqn:R'.
      * left. split; [apply S1; [reflexivity|]; lia|lia].
      * right; right. auto.
    + assert (On : n + 1 - zc_now z' = 0) by lia. destruct (z_ready z') eqn:R'.
      * destruct (Z_lt_ge_dec P c) as [Pc|Pc]; [right; left; auto|]. left. split; [apply S1; [reflexivity|lia]|lia].
      * right; left. split; [exact On|discriminate].
  - rewrite Rd in Nw. assert (On : n + 1 - zc_now z' = H) by lia. destruct (z_ready z') eqn:R'.
    + left. split; [apply S1; [reflexivity|lia]|lia].
    + right; right. auto.
Qed.
Lemma phase_end p z m E J n : perinv n z m E J -> phase p z n -> (if c <=? P then Z.of_N W + P else H + Z.of_N W + P) <= n -> settled P p.
Proof using All.
  intros I Ph Hk. pose proof (now_bound _ _ _ _ _ I) as Nb.
  destruct Ph as [[S _]|[[Oz Rd]|(Oz & Rd & Pc)]]; [exact S|exfalso|exfalso]; destruct (Z.leb_spec c P); try lia; unfold H in Hk; lia.
Qed.

Lemma run_per k : D <= Z.of_nat k -> exists p z m E J, pd_run oob p0 (first_samples x k) = Some p /\ (forall s, zc_step (p_zc p) s = zc_step z s) /\
  (D < Z.of_nat k \/ D = 0 -> p_zc p = z) /\
  perinv (Z.of_nat k - D) z m E J /\ phase p z (Z.of_nat k - D) /\
  (D < Z.of_nat k -> z_ready z = true -> c - P <= Z.of_nat k - D - zc_now z -> settled P p).
Proof using All.
  intros Dk. assert (X : exists j, k = (Dn + j)%nat) by (exists (k - Dn)%nat; unfold Dn; lia). destruct X as (j & ->). clear Dk.
  destruct start_per as (J & I). induction j as [|j IH].
  - destruct quiet_end as (p & Er & Tr & Z0). rewrite Nat.add_0_r. exists p, first_zc, (-1), [], J.
    replace (Z.of_nat Dn - D) with 0 by (unfold Dn; lia).
    split; [exact Er|]. split; [exact Tr|]. split; [intros [X|X]; [unfold Dn in X; lia|exact (Z0 X)]|]. split; [exact I|].
    split; [right; left; split; [reflexivity|discriminate]|]. intros X. unfold Dn in X. lia.
  - destruct IH as (p & z & m & E & J1 & Er & Tr & _ & Ip & Ph & _).
    destruct (pd_step_per p (Dn + j) z m E J1 Er Tr ltac:(unfold Dn; lia) Ip) as (p' & m' & E' & J' & Es & I' & _ & Nz & S1 & S2).
    replace (Dn + S j)%nat with (S (Dn + j)) by lia.
    exists p', (p_zc p'), m', E', J'. split; [rewrite first_snoc, pd_run_snoc, Er; exact Es|]. split; [reflexivity|]. split; [reflexivity|]. split; [exact I'|].
    split; [|intros _; exact S1]. replace (Z.of_nat (S (Dn + j)) - D) with (Z.of_nat (Dn + j) - D + 1) in * by lia.
    apply (phase_step p p' z); [exact (pi_win _ _ _ _ _ _ _ _ _ _ _ Ip)|exact Ph|exact Nz|exact S1|]. intros R. exact (proj2 (S2 R)).
Qed.
Lemma run_settled k : (if c <=? P then D + Z.of_N W + P else D + H + Z.of_N W + P) <= Z.of_nat k ->
  exists p, pd_run oob p0 (first_samples x k) = Some p /\ settled P p.
Proof using All.
  intros Hk. assert (H0 : 0 <= H) by (unfold H; lia). destruct (run_per k) as (p & z & m & E & J & Er & _ & _ & I & S & _).
  { destruct (c <=? P); lia. }
  exists p. split; [exact Er|]. apply (phase_end p z m E J _ I S). destruct (c <=? P); lia.
Qed.

(** the pitch detector *)
Lemma settled_eq p : settled P p -> p_period p = z32 P /\ p_periodicity p = z32 1.
Proof using All.
  intros (S1 & S2 & S3 & S4). destruct (mk32_small P 0 ltac:(lia) ltac:(lia)) as [VP FP]. change (bpow radix2 0) with 1%R in VP. rewrite Rmult_1_r in VP.
  destruct (mk32_small 1 0 ltac:(reflexivity) ltac:(lia)) as [V1 F1]. change (bpow radix2 0) with 1%R in V1. rewrite Rmult_1_r in V1.
  assert (P0 : (IZR P <> 0)%R) by (apply IZR_neq; lia). split.
  - apply (B2R_inj 24 128); [| |unfold z32; rewrite VP; exact S2]; apply is_finite_strict_B2R; [rewrite S2|unfold z32; rewrite VP]; exact P0.
  - apply (B2R_inj 24 128); [| |unfold z32; rewrite V1; exact S4]; apply is_finite_strict_B2R; [rewrite S4|unfold z32; rewrite V1]; exact R1_neq_R0.
Qed.
Variable sps : N.
Hypothesis Hs : (1 <= sps < 2 ^ 24)%N.
Definition freq : f32 := fdiv (z32 (Z.of_N sps)) (z32 P).
Lemma freq_val : fin freq /\ B2R freq = rnd 24 128 (IZR (Z.of_N sps) / IZR P) /\ (bpow radix2 (-24) <= B2R freq)%R.
Proof using All.
  change (2 ^ 24)%N with 16777216%N in Hs. change (2 ^ 24) with 16777216 in HP.
  destruct (mk32_small P 0 ltac:(lia) ltac:(lia)) as [VP FP]. change (bpow radix2 0) with 1%R in VP. rewrite Rmult_1_r in VP.
  destruct (mk32_small (Z.of_N sps) 0 ltac:(lia) ltac:(lia)) as [VS FS]. change (bpow radix2 0) with 1%R in VS. rewrite Rmult_1_r in VS.
  assert (BP : (4 <= IZR P <= 16777216)%R) by (split; apply IZR_le; lia).
  assert (BS : (1 <= IZR (Z.of_N sps) <= 16777216)%R) by (split; apply IZR_le; lia).
  assert (IP : (/ 16777216 <= / IZR P <= 1)%R).
  { split; [apply Rinv_le; lra|]. rewrite <- Rinv_1. apply Rinv_le; lra. }
  assert (Q : (/ 16777216 <= IZR (Z.of_N sps) / IZR P <= 16777216)%R).
  { unfold Rdiv. split.
    - rewrite <- (Rmult_1_l (/ 16777216)). apply Rmult_le_compat; lra.
    - rewrite <- (Rmult_1_r 16777216). apply Rmult_le_compat; lra. }
  destruct (fdiv_R (z32 (Z.of_N sps)) (z32 P) FS) as [VD FD].
  { unfold z32. rewrite VP. lra. }
  { unfold z32. rewrite VP, VS. apply Rle_lt_trans with (bpow radix2 24); [|apply bpow_lt; lia].
    apply rnd_abs_le; [apply fmt_bpow; unfold SpecFloat.emin; lia|]. rewrite Rabs_pos_eq by lra. change (bpow radix2 24) with 16777216%R. lra. }
  unfold z32 in VD, FD. rewrite VP, VS in VD. split; [exact FD|].
  split; [exact VD|]. unfold freq, z32. rewrite VD. apply rnd_ge_fmt; [apply fmt_bpow; unfold SpecFloat.emin; lia|].
  change (bpow radix2 (-24)) with (/ 16777216)%R. lra.
Qed.
Lemma freq_pos : fgt freq fzero = true.
Proof using All.
  destruct freq_val as (F & _ & L). change (fgt freq fzero) with (flt fzero freq). apply (flt_true fzero freq eq_refl F).
  change (B2R (fzero : f32)) with 0%R. apply Rlt_le_trans with (2 := L). apply bpow_gt_0.
Qed.
Lemma freq_ne : feq freq fzero = false.
Proof using All.
  pose proof freq_pos as G. destruct freq as [|[|]| |[|]]; try discriminate G; reflexivity.
Qed.
Lemma freq_close : flt (fabs (fsub freq freq)) (fdiv freq (z32 32)) = true.
Proof using All.
  destruct freq_val as (F & V & L).
  destruct (fsub_R freq freq F F) as [VS FS].
  { rewrite Rminus_diag_eq, rnd_0, Rabs_R0 by reflexivity. apply bpow_gt_0. }
  rewrite Rminus_diag_eq, rnd_0 in VS by reflexivity.
  assert (VA : B2R (fabs (fsub freq freq)) = 0%R) by (unfold fabs; rewrite B2R_Babs, VS; apply Rabs_R0).
  assert (FA : fin (fabs (fsub freq freq))) by (unfold fin, fabs; rewrite is_finite_Babs; exact FS).
  destruct (mk32_small 32 0 ltac:(reflexivity) ltac:(lia)) as [V3 F3]. change (bpow radix2 0) with 1%R in V3. rewrite Rmult_1_r in V3.
  pose proof (bpow_gt_0 radix2 (-24)) as B0.
  destruct (fdiv_R freq (z32 32) F) as [VD FD].
  { unfold z32. rewrite V3. lra. }
  { unfold z32. rewrite V3. apply Rle_lt_trans with (B2R freq); [|apply Rle_lt_trans with (1 := Rle_abs _); apply abs_B2R_lt_emax].
    apply rnd_abs_le; [apply fmt_v|]. rewrite Rabs_pos_eq by (apply Rmult_le_pos; lra). lra. }
  apply (flt_true _ _ FA FD). rewrite VA, VD. unfold z32. rewrite V3. apply Rlt_le_trans with (bpow radix2 (-29)); [apply bpow_gt_0|].
  apply rnd_ge_fmt; [apply fmt_bpow; unfold SpecFloat.emin; lia|]. change (-29) with (-24 + -5). rewrite bpow_plus.
  change (bpow radix2 (-5)) with (/ 32)%R. lra.
Qed.

(** what the pitch detector reports, by phase *)
Definition reports (t : pit) (z : zc) (n : Z) : Prop :=
  (settled P (t_pd t) /\ c - P <= n - zc_now z /\ t_cur t = mkInf freq (z32 1)) \/
  (n - zc_now z = 0 /\ (if z_ready z then P < c else t_cur t = info0) /\ t_frames t = 0%N) \/
  (n - zc_now z = H /\ z_ready z = false /\ P < c /\ t_frames t = 0%N).
Lemma pit_step_pd t s t' b : pit_step oob t s = Some (t', b) -> pd_step oob (t_pd t) s = Some (t_pd t') /\ t_sps t' = t_sps t.
Proof using Type.
  unfold pit_step. destruct (pd_step oob (t_pd t) s) as [p|]; cbn [bind]; [|discriminate]. cbv zeta.
  match goal with |- ?z = _ -> _ => assert (Q : exists t1 b, z = Some (t1, b) /\ t_pd t1 = p /\ t_sps t1 = t_sps t) end.
  { assert (Bs : forall u i, t_pd (bias oob u i) = t_pd u /\ t_sps (bias oob u i) = t_sps u).
    { intros u i. unfold bias. destruct (bias_pick _ _ _ _ _) as [r [|]]; [|auto]. cbv zeta. destruct (fge _ _); [auto|]. destruct (flt _ _); auto. }
    destruct (z_ready (p_zc p)); [|eexists _, _; split; [reflexivity|auto]].
    destruct (feq _ _); [eexists _, _; split; [reflexivity|auto]|].
    destruct (feq _ _).
    - destruct (_ && _)%bool; eexists _, _; (split; [reflexivity|auto]).
    - eexists _, _. split; [reflexivity|]. destruct (fgt _ _); [rewrite (proj1 (Bs _ _)), (proj2 (Bs _ _))|]; destruct (flt _ _); auto. }
  destruct Q as (t1 & b1 & -> & <- & Sp). intros X. injection X as <- _. auto.
Qed.
(** an analysis that finds [P] is reported, the first time round or when it repeats the last report *)
Lemma pit_hit t s t' b p' : pit_step oob t s = Some (t', b) -> pd_step oob (t_pd t) s = Some p' -> zc_is_reset (p_zc p') = false -> t_sps t = sps ->
  z_ready (p_zc p') = true -> settled P p' -> t_cur t = mkInf freq (z32 1) \/ t_frames t = 0%N -> t_cur t' = mkInf freq (z32 1).
Proof using All.
  intros Et Es Rs Sp Rd S Cu. destruct (settled_eq p' S) as [V1 V2]. unfold pit_step in Et. rewrite Es in Et. cbn [bind] in Et. rewrite Rs, Rd in Et.
  rewrite V2 in Et. change (feq (z32 1) (z32 (-1))) with false in Et. cbv iota zeta in Et.
  assert (Fq : forall cu fr, calculate_frequency (mkPit p' cu (t_sps t) fr) = freq).
  { intros cu fr. unfold calculate_frequency. cbn [t_pd t_sps]. rewrite V1, Sp.
    assert (N1 : feq (z32 P) (z32 (-1)) = false).
    { destruct (mk32_small P 0 ltac:(lia) ltac:(lia)) as [VP FP]. change (bpow radix2 0) with 1%R in VP. rewrite Rmult_1_r in VP.
      assert (L0 : flt fzero (z32 P) = true).
      { apply (flt_true fzero (z32 P) eq_refl FP). unfold z32. rewrite VP. change (B2R (fzero : f32)) with 0%R. apply IZR_lt. lia. }
      destruct (z32 P) as [|[|]| |[|]]; try discriminate L0; reflexivity. }
    rewrite N1. reflexivity. }
  rewrite Fq in Et. change (flt (z32 1) min_periodicity) with false in Et. change (fge (z32 1) onset_periodicity) with true in Et. rewrite freq_pos in Et. cbn [andb] in Et.
  destruct (feq (i_freq (t_cur t)) fzero) eqn:Z0; [injection Et as <- _; reflexivity|].
  injection Et as <- _. unfold bias. cbn [t_pd t_cur t_sps t_frames]. unfold bias_pick at 1. cbn [i_freq].
  destruct Cu as [-> |Fr].
  - cbn [i_freq]. rewrite freq_close. reflexivity.
  - rewrite Fr. change (add64 0 1) with 1%N. change (1 <? 1)%N with false. rewrite V2. change (fgt (z32 1) min_periodicity) with true. cbv iota.
    destruct (flt _ _); [reflexivity|]. change (fge (z32 1) onset_periodicity) with true. reflexivity.
Qed.
(** no analysis: nothing changes; the first one leaves no frame counted *)
Lemma pit_idle t s t' b p' : pit_step oob t s = Some (t', b) -> pd_step oob (t_pd t) s = Some p' -> zc_is_reset (p_zc p') = false ->
  z_ready (p_zc p') = false -> t_cur t' = t_cur t /\ t_frames t' = t_frames t.
Proof using Type.
  intros Et Es Rs Rd. unfold pit_step in Et. rewrite Es in Et. cbn [bind] in Et. rewrite Rs, Rd in Et. injection Et as <- _. auto.
Qed.
Lemma pit_first t s t' b p' : pit_step oob t s = Some (t', b) -> pd_step oob (t_pd t) s = Some p' -> zc_is_reset (p_zc p') = false ->
  t_cur t = info0 -> t_frames t = 0%N -> t_frames t' = 0%N.
Proof using Type.
  intros Et Es Rs Cu Fr. unfold pit_step in Et. rewrite Es in Et. cbn [bind] in Et. rewrite Rs, Cu, Fr in Et. cbv zeta in Et. cbn [i_freq info0] in Et.
  change (feq fzero fzero) with true in Et. cbv iota in Et.
  destruct (z_ready (p_zc p')); [|injection Et as <- _; reflexivity]. destruct (feq _ _); [injection Et as <- _; reflexivity|].
  destruct (_ && _)%bool; injection Et as <- _; reflexivity.
Qed.
Lemma reports_step t t' b (k : nat) z m E J : pd_run oob p0 (first_samples x k) = Some (t_pd t) -> (forall s, zc_step (p_zc (t_pd t)) s = zc_step z s) ->
  D <= Z.of_nat k -> perinv (Z.of_nat k - D) z m E J -> t_sps t = sps -> reports t z (Z.of_nat k - D) -> pit_step oob t (x (Z.of_nat k)) = Some (t', b) ->
  exists m' E' J', perinv (Z.of_nat (S k) - D) (p_zc (t_pd t')) m' E' J' /\ reports t' (p_zc (t_pd t')) (Z.of_nat (S k) - D).
Proof using All.
  intros Er Tr Dk I Sp Re Et. destruct (pit_step_pd _ _ _ _ Et) as [Es _].
  destruct (pd_step_per (t_pd t) k z m E J Er Tr Dk I) as (p' & m' & E' & J' & Es' & I' & Rs & Nz & S1 & S2).
  assert (p' = t_pd t') by congruence. subst p'. exists m', E', J'. split; [exact I'|].
  pose proof (op_order _ _ _ _ _ OP) as O. assert (H0 : 0 <= H) by (unfold H; lia).
  pose proof (pi_win _ _ _ _ _ _ _ _ _ _ _ I) as Hw.
  assert (Nw : zc_now z = Z.of_N (z_frame z) + (if z_ready z then H else 0)).
  { unfold zc_now. destruct (z_ready z); [|reflexivity]. rewrite N2Z.inj_div, Hw. reflexivity. }
  set (n := Z.of_nat k - D) in *. replace (Z.of_nat (S k) - D) with (n + 1) in * by (unfold n; lia).
  unfold reports in *. set (z' := p_zc (t_pd t')) in *.
  assert (Hit : z_ready z' = true -> c - P <= n + 1 - zc_now z' -> t_cur t = mkInf freq (z32 1) \/ t_frames t = 0%N ->
    settled P (t_pd t') /\ c - P <= n + 1 - zc_now z' /\ t_cur t' = mkInf freq (z32 1)).
  { intros R' Cl Cu. split; [exact (S1 R' Cl)|]. split; [exact Cl|]. exact (pit_hit t _ t' b (t_pd t') Et Es Rs Sp R' (S1 R' Cl) Cu). }
  destruct Re as [(S & Cl & Cu)|[(Oz & Rd & Fr)|(Oz & Rd & Pc & Fr)]].
  - left. assert (Cl' : c - P <= n + 1 - zc_now z') by (destruct (z_ready z); lia). destruct (z_ready z') eqn:R'; [apply Hit; auto|].
    destruct (pit_idle _ _ _ _ _ Et Es Rs R') as [C1 _]. split; [exact (proj2 (S2 eq_refl) S)|]. split; [exact Cl'|congruence].
  - destruct (z_ready z) eqn:R.
    + assert (On : n + 1 - zc_now z' = H) by lia. destruct (z_ready z') eqn:R'.
      * left. apply Hit; [reflexivity|lia|auto].
      * right; right. destruct (pit_idle _ _ _ _ _ Et Es Rs R') as [_ F1]. rewrite F1. auto.
    + assert (On : n + 1 - zc_now z' = 0) by lia. destruct (z_ready z') eqn:R'.
      * destruct (Z_lt_ge_dec P c) as [Pc|Pc].
        -- right; left. split; [exact On|]. split; [exact Pc|]. exact (pit_first _ _ _ _ _ Et Es Rs Rd Fr).
        -- left. apply Hit; [reflexivity|lia|auto].
      * right; left. destruct (pit_idle _ _ _ _ _ Et Es Rs R') as [C1 F1]. rewrite C1, F1. auto.
  - rewrite Rd in Nw. assert (On : n + 1 - zc_now z' = H) by lia. destruct (z_ready z') eqn:R'.
    + left. apply Hit; [reflexivity|lia|auto].
    + right; right. destruct (pit_idle _ _ _ _ _ Et Es Rs R') as [_ F1]. rewrite F1. auto.
Qed.
Lemma pit_snoc xs : forall t y, pit_calls oob t (map Sample (xs ++ [y])) = do u <- pit_calls oob t (map Sample xs) ; do r <- pit_step oob u y ; Some (fst r).
Proof using All.
  induction xs as [|z xs IH]; intros t y; cbn [app map pit_calls].
  - cbn [bind]. destruct (pit_step oob t y); reflexivity.
  - destruct (pit_step oob t z); cbn [bind]; [apply IH|reflexivity].
Qed.
(** the pitch detector hears nothing in the silence *)
Lemma pit_quiet t0 k : pit_make hyst nw min range sps = Some t0 -> Z.of_nat k <= D ->
  exists p, pit_calls oob t0 (map Sample (first_samples x k)) = Some (mkPit p info0 sps 0) /\ pd_run oob p0 (first_samples x k) = Some p.
Proof using All.
  intros Et Hk. unfold pit_make in Et. rewrite E0 in Et. cbn [bind] in Et.
  induction k as [|k IH].
  - exists p0. split; [|reflexivity]. injection Et as <-. reflexivity.
  - destruct IH as (p & Ec & Er); [lia|]. destruct (quiet (S k) Hk) as (f & Er' & Ef). rewrite Er'.
    pose proof Er' as Es. rewrite first_snoc, pd_run_snoc, Er in Es. cbn [bind] in Es.
    eexists. split; [|reflexivity]. rewrite first_snoc, pit_snoc, Ec. cbn [bind]. unfold pit_step. cbn [t_pd t_cur t_sps t_frames]. rewrite Es. cbn [bind].
    unfold mk_quiet, quiet_zc. cbn [p_zc z_ready]. unfold zc_is_reset. cbn [z_frame].
    destruct (N.eqb_spec f 0) as [->|_]; [|reflexivity]. exfalso. unfold frame_after in Ef.
    destruct (Z.eqb_spec (Z.of_nat (S k)) 0) as [X|_]; [lia|]. destruct start_w as [B _]. change (2 ^ 28)%N with 268435456%N in B.
    pose proof (Z.mod_pos_bound (Z.of_nat (S k) - 1) H ltac:(unfold H; lia)). lia.
Qed.
Lemma pit_settled t0 k : pit_make hyst nw min range sps = Some t0 -> (if c <=? P then D + Z.of_N W + P else D + H + Z.of_N W + P) <= Z.of_nat k ->
  exists t, pit_calls oob t0 (map Sample (first_samples x k)) = Some t /\ t_cur t = mkInf freq (z32 1).
Proof using All.
  intros Et Hk. assert (H0 : 0 <= H) by (unfold H; lia).
  assert (X : forall j, exists t z m E J, pit_calls oob t0 (map Sample (first_samples x (Dn + j))) = Some t /\ pd_run oob p0 (first_samples x (Dn + j)) = Some (t_pd t) /\
     t_sps t = sps /\ (forall s, zc_step (p_zc (t_pd t)) s = zc_step z s) /\ perinv (Z.of_nat (Dn + j) - D) z m E J /\ reports t z (Z.of_nat (Dn + j) - D)).
  { destruct start_per as (J & I). induction j as [|j IH].
    - destruct quiet_end as (p & Er & Tr & _). rewrite Nat.add_0_r. destruct (pit_quiet t0 Dn Et ltac:(unfold Dn; lia)) as (q & Ec & Eq).
      assert (q = p) by congruence. subst q. exists (mkPit p info0 sps 0), first_zc, (-1), [], J. replace (Z.of_nat Dn - D) with 0 by (unfold Dn; lia).
      split; [exact Ec|]. split; [exact Er|]. split; [reflexivity|]. split; [exact Tr|]. split; [exact I|]. right; left. split; [reflexivity|]. split; reflexivity.
    - destruct IH as (t & z & m & E & J1 & Ec & Er & Sp & Tr & Ip & Re). replace (Dn + S j)%nat with (S (Dn + j)) by lia.
      destruct (pd_step_per (t_pd t) (Dn + j) z m E J1 Er Tr ltac:(unfold Dn; lia) Ip) as (p' & m' & E' & J' & Es & _).
      assert (Y : exists t' b, pit_step oob t (x (Z.of_nat (Dn + j))) = Some (t', b)).
      { unfold pit_step. rewrite Es. cbn [bind]. cbv zeta.
        destruct (z_ready (p_zc p')); [|eauto]. destruct (feq _ _); [eauto|]. destruct (feq _ _); [destruct (_ && _)%bool; eauto|eauto]. }
      destruct Y as (t' & b & Et'). destruct (pit_step_pd _ _ _ _ Et') as [Es' Sp'].
      destruct (reports_step t t' b (Dn + j) z m E J1 Er Tr ltac:(unfold Dn; lia) Ip Sp Re Et') as (m2 & E2 & J2 & I2 & R2).
      exists t', (p_zc (t_pd t')), m2, E2, J2. rewrite first_snoc, pit_snoc, Ec. cbn [bind]. rewrite Et'. split; [reflexivity|].
      split; [rewrite pd_run_snoc, Er; exact Es'|]. split; [congruence|]. split; [reflexivity|]. split; [exact I2|exact R2]. }
  destruct (X (k - Dn)%nat) as (t & z & m & E & J & Ec & _ & _ & _ & I & Re).
  assert (Kd : D <= Z.of_nat k) by (destruct (c <=? P); lia). replace (Dn + (k - Dn))%nat with k in * by (unfold Dn; lia).
  exists t. split; [exact Ec|]. pose proof (now_bound _ _ _ _ _ I) as Nb.
  destruct Re as [(_ & _ & Cu)|[(Oz & Rd & _)|(Oz & Rd & Pc & _)]]; [exact Cu|exfalso|exfalso].
  - destruct (Z.leb_spec c P); lia.
  - destruct (Z.leb_spec c P); lia.
Qed.
End Run.

(** the onset, half windows of silence left out *)
Lemma shift_pulse h hyst P a c D : 0 <= D <= a -> one_pulse h hyst P a c -> one_pulse (fun k => h (k + D)) hyst P (a - D) (c - D).
Proof.
  intros HD [O1 O2 O3 O4 O5 O6 O7]. constructor.
  - lia.
  - intros k Hk. cbv beta. replace (k + P + D) with (k + D + P) by lia. apply O2. lia.
  - intros k Hk. apply O3. lia.
  - cbv beta. replace (a - D + D) with a by lia. exact O4.
  - intros k Hk. apply O5. lia.
  - cbv beta. replace (c - D + D) with c by lia. exact O6.
  - intros k Hk. apply O7. lia.
Qed.
Lemma in_pulse_shift P a c D k : in_pulse P (a - D) (c - D) k = in_pulse P a c (k + D).
Proof.
  unfold in_pulse. replace (k - (a - D)) with (k + D - a) by lia. replace (c - D - (a - D)) with (c - a) by lia.
  destruct (Z.leb_spec (a - D) k), (Z.leb_spec a (k + D)); try reflexivity; lia.
Qed.

Section Any.
Variables (oob : f32 -> Z) (hyst : f32) (nw min : N) (range : Z) (x : Z -> f32) (P a c : Z) (p0 : pd).
Hypothesis Hn : (nw <= 2 ^ 28)%N.
Hypothesis E0 : pd_make hyst nw min range = Some p0.
Let W := z_win (p_zc p0).
Let H : Z := Z.of_N W / 2.
Hypothesis OP : one_pulse (cond_of hyst x) hyst P a c.
Hypothesis HP : 4 <= P < 2 ^ 24.
Hypothesis HPW : 2 * P <= Z.of_N W.
Hypothesis HM : P + 2 <= 2 * (Z.of_N (N.max (W / 64 / 2 - 1) 1) * 64).
Hypothesis ST : is_finite (fsub (cond_of hyst x a) (cond_of hyst x (a - 1))) = true.
Hypothesis Mn : Z.of_N min <= P.
Definition left_out : Z := H * (a / H).
Notation D := left_out.
Notation h := (fun k => cond_of hyst x (k + D)).
Lemma left_facts : 0 <= D /\ D mod H = 0 /\ (forall k, 0 <= k < D -> flt fzero (cond_of hyst x k) = false) /\ one_pulse h hyst P (a - D) (c - D) /\
  a - D < H /\ is_finite (fsub (h (a - D)) (h (a - D - 1))) = true /\ D <= a /\ (c <= P -> D = 0).
Proof using All.
  pose proof (op_order _ _ _ _ _ OP) as O. assert (H0 : 0 < H) by (unfold H; lia).
  assert (Dm : a = D + a mod H) by (unfold left_out; apply Z.div_mod; lia). pose proof (Z.mod_pos_bound a H H0) as Mb.
  assert (D0 : 0 <= D) by (unfold left_out; apply Z.mul_nonneg_nonneg; [lia|apply Z.div_pos; lia]).
  split; [exact D0|]. split; [unfold left_out; rewrite Z.mul_comm; apply Z.mod_mul; lia|].
  split; [intros k Hk; apply (op_before _ _ _ _ _ OP); lia|]. split; [apply (shift_pulse (cond_of hyst x)); [lia|exact OP]|].
  split; [lia|]. split; [cbv beta; replace (a - D - 1 + D) with (a - 1) by lia; replace (a - D + D) with a by lia; exact ST|].
  split; [lia|]. intros Hc. unfold left_out. rewrite Z.div_small by (unfold H; lia). lia.
Qed.

Lemma any_settled k : (c <= P /\ Z.of_N W + P <= Z.of_nat k) \/ a + Z.of_N W + Z.of_N W / 2 + P <= Z.of_nat k ->
  exists p, pd_run oob p0 (first_samples x k) = Some p /\ settled P p.
Proof using All.
  destruct left_facts as (D0 & D2 & Dq & OP' & HA & ST' & Da & Dc). intros Hk.
  apply (run_settled oob hyst nw min range x P (a - D) (c - D) D h p0 Hn E0 D0 D2 Dq (fun k => eq_refl) OP' HA HP HPW HM ST' Mn).
  fold W. fold H. fold H in Hk. assert (0 <= H) by (unfold H; lia).
  destruct (Z.leb_spec (c - D) P), Hk as [[Hc Hk]|Hk]; try (specialize (Dc Hc)); lia.
Qed.
Lemma any_pitch sps t0 k : (1 <= sps < 2 ^ 24)%N -> pit_make hyst nw min range sps = Some t0 ->
  (c <= P /\ Z.of_N W + P <= Z.of_nat k) \/ a + Z.of_N W + Z.of_N W / 2 + P <= Z.of_nat k ->
  exists t, pit_calls oob t0 (map Sample (first_samples x k)) = Some t /\ t_cur t = mkInf (freq P sps) (z32 1).
Proof using All.
  destruct left_facts as (D0 & D2 & Dq & OP' & HA & ST' & Da & Dc). intros Hs Et Hk.
  apply (pit_settled oob hyst nw min range x P (a - D) (c - D) D h p0 Hn E0 D0 D2 Dq (fun k => eq_refl) OP' HA HP HPW HM ST' Mn sps Hs t0 k Et).
  fold W. fold H. fold H in Hk. assert (0 <= H) by (unfold H; lia).
  destruct (Z.leb_spec (c - D) P), Hk as [[Hc Hk]|Hk]; try (specialize (Dc Hc)); lia.
Qed.
Lemma any_freq sps : (1 <= sps < 2 ^ 24)%N ->
  fin (freq P sps) /\ B2R (freq P sps) = rnd 24 128 (IZR (Z.of_N sps) / IZR P) /\ (bpow radix2 (-24) <= B2R (freq P sps))%R.
Proof using All.
  destruct left_facts as (D0 & D2 & Dq & OP' & HA & ST' & Da & Dc). intros Hs.
  exact (freq_val oob hyst nw min range x P (a - D) (c - D) D h p0 Hn E0 D0 D2 Dq (fun k => eq_refl) OP' HA HP HPW HM ST' Mn sps Hs).
Qed.
(** an analysis *)
Lemma any_ready k p : pd_run oob p0 (first_samples x k) = Some p -> z_ready (p_zc p) = true ->
  exists m E J, perinv (Z.of_N W) h hyst P (a - D) (c - D) (Z.of_nat k - D) (p_zc p) m E J /\
    (c - D - P <= Z.of_nat k - D - zc_now (p_zc p) -> settled P p).
Proof using All.
  destruct left_facts as (D0 & D2 & Dq & OP' & HA & ST' & Da & Dc). intros Er Rd.
  assert (Dk : D < Z.of_nat k).
  { destruct (Z_lt_ge_dec D (Z.of_nat k)) as [X|X]; [exact X|exfalso].
    destruct (quiet oob hyst nw min range x P (a - D) (c - D) D h p0 Hn E0 D0 D2 Dq (fun k => eq_refl) OP' HA HP HPW HM ST' Mn k ltac:(lia)) as (f & Eq & _).
    assert (Q : p = mk_quiet p0 (quiet_zc hyst p0 (cond_of hyst x (Z.of_nat k - 1)) f)) by congruence. rewrite Q in Rd. discriminate Rd. }
  destruct (run_per oob hyst nw min range x P (a - D) (c - D) D h p0 Hn E0 D0 D2 Dq (fun k => eq_refl) OP' HA HP HPW HM ST' Mn k ltac:(lia))
    as (q & z & m & E & J & Eq & _ & Zz & I & _ & S).
  assert (q = p) by congruence. subst q. rewrite <- (Zz (or_introl Dk)) in I, S. exists m, E, J. split; [exact I|]. exact (S Dk Rd).
Qed.
End Any.
