(** Proofs about the signal conditioner. *)
From Coq Require Import Reals Lra.
From Flocq Require Import Core.Core IEEE754.BinarySingleNaN.
From Verif Require Import Common Float FloatFacts FloatLerp DetectF_Proof Env_Model Env_Spec Env_Proof Coeff_Proof Expo
  Dyn_Model Dyn_Spec Dyn_Proof Dyn_Props Detect_Model Db_Model Db_Full Db_Props Val_Model Val_Props Pitch_Proof Cond_Model Cond_Spec.
Local Open Scope R_scope.
Local Notation rn := (rnd 24 128).

Lemma strict_of (p e : Z) (x : binary_float p e) : is_finite x = true -> B2R x <> 0 -> is_finite_strict x = true.
Proof. destruct x; cbn; intros; auto; try discriminate; try lra. Qed.
Lemma pos_sign (p e : Z) (x : binary_float p e) : is_finite x = true -> 0 < B2R x -> Bsign x = false.
Proof.
  destruct x as [[]|[]| |[] m ex q]; cbn [is_finite B2R Bsign]; intros; auto; try discriminate; try lra.
  exfalso. unfold F2R in *. cbn in *. pose proof (bpow_gt_0 radix2 ex). assert (IZR (Z.neg m) < 0) by (apply IZR_lt; lia). nra.
Qed.
Lemma sign_nn (p e : Z) (x : binary_float p e) : is_finite x = true -> Bsign x = false -> 0 <= B2R x.
Proof.
  destruct x as [[]|[]| |[] m ex q]; cbn [is_finite B2R Bsign]; intros; auto; try discriminate; try lra.
  unfold F2R. cbn. pose proof (bpow_gt_0 radix2 ex). assert (0 < IZR (Z.pos m)) by (apply IZR_lt; lia). nra.
Qed.
Lemma to32_to64 (x : f32) : to32 (to64 x) = x.
Proof.
  destruct x as [s|s| |s m e p] eqn:E; [reflexivity..|]. rewrite <- E.
  assert (F : is_finite x = true) by (rewrite E; reflexivity).
  assert (N : B2R x <> 0). { intros Z. assert (is_finite_strict x = true) by (rewrite E; reflexivity). destruct x; try discriminate. revert Z. apply F2R_neq_0. destruct s0; discriminate. }
  destruct (to64_R x F) as [V64 F64].
  assert (Q : B2R (to32 (to64 x)) = B2R x /\ is_finite (to32 (to64 x)) = true).
  { unfold to32. rewrite <- V64. apply fconv_exact; auto; rewrite V64; [apply generic_format_B2R|apply fin_lt_emax]. }
  destruct Q as [V32 F32]. apply B2R_inj; [apply strict_of; auto; rewrite V32; exact N|apply strict_of; auto|exact V32].
Qed.

(** the peak follower on non-negative samples keeps the sign bit clear *)
Lemma pf_sign (r y s : f32) : coefficient r -> bounded y -> bounded s -> Bsign s = false -> Bsign (pf_step r y s) = false.
Proof.
  intros Hr By Bs Ns. destruct (pf_between r y s Hr By Bs) as ((F & _) & L & _). pose proof (sign_nn _ _ s (proj1 Bs) Ns) as S0.
  destruct (Rle_lt_dec (B2R (pf_step r y s)) 0) as [Z|P]; [|apply pos_sign; auto].
  assert (Es : B2R s = 0) by lra. assert (Eo : B2R (pf_step r y s) = 0) by lra. clear Z L.
  revert F Eo. unfold pf_step. destruct (fgt s y); [intros; exact Ns|]. intros F Eo.
  assert (Fm : is_finite (fmul r (fsub y s)) = true). { destruct (fmul r (fsub y s)) as [|[]| |]; auto; revert F; destruct s as [[]|[]| |[] ]; cbn; auto; destruct By, Bs; discriminate. }
  unfold fadd in *. pose proof (Bplus_correct 24 128 prec32_gt_0 prec32_lt mode_NE s (fmul r (fsub y s)) (proj1 Bs) Fm) as C.
  assert (X : round radix2 (SpecFloat.fexp 24 128) (round_mode mode_NE) (B2R s + B2R (fmul r (fsub y s))) = B2R (fmul r (fsub y s))).
  { rewrite Es, Rplus_0_l. apply round_generic; [apply valid_rnd_N|apply generic_format_B2R]. }
  rewrite X in C. rewrite Rlt_bool_true in C by apply fin_lt_emax. destruct C as (C1 & _ & C3).
  rewrite C3. rewrite Eo in C1. rewrite <- C1, Es, Rplus_0_l, Rcompare_Eq by reflexivity. rewrite Ns. reflexivity.
Qed.

Lemma db2a_zero : db2a fzero = Some (mk32 1 0).
Proof.
  assert (T : match db2a fzero with Some x => feq x (mk32 1 0) | None => false end = true) by (vm_compute; reflexivity).
  destruct (db2a_total fzero) as (y & E & F & B). rewrite E in *. f_equal. destruct (int32 1 ltac:(reflexivity)) as [V1 F1].
  assert (V : B2R y = B2R (mk32 1 0)) by (apply feq_true; auto).
  apply B2R_inj; [apply strict_of; [exact F|lra]|apply strict_of; [exact F1|lra]|exact V].
Qed.
Lemma level_db (lv : f32) : is_finite lv = true -> -121 <= B2R lv <= 121 -> db_level (to64 lv).
Proof.
  intros F B. destruct (to64_R lv F) as [V F64]. split; [exact F64|]. rewrite V.
  apply Rle_trans with (bpow radix2 7); [change (bpow radix2 7) with 128; apply Rabs_le; lra|apply bpow_le; lia].
Qed.
(** the compressor's amplitude factor *)
Lemma compression_ok (c : cond_config) (env : f32) : db_level (cc_comp_threshold c) -> ratio_in 1 (cc_comp_slope c) ->
  is_nan env = false -> Bsign env = false ->
  exists lv g : f32, a2db env = Some lv /\
    float_of_db (comp_gain (comp_make (cc_comp_threshold c) (cc_comp_slope c)) (to64 lv)) = Some g /\
    is_finite g = true /\ 9 / 10000000 <= B2R g <= 1 /\ (B2R lv <= B2R (cc_comp_threshold c) -> B2R g = 1).
Proof.
  intros Ht Hr N S. destruct (C34_a2db_total env N S) as (lv & E & Fl & Bl). pose proof (level_db lv Fl Bl) as Dl.
  destruct (C23_compressor _ _ _ _ Ht Hr Dl Dl) as (Fg & Ng & _ & Eg & _). destruct (to64_R lv Fl) as [Vl _].
  destruct (int32 1 ltac:(reflexivity)) as [V1 F1].
  set (g64 := comp_gain (comp_make (cc_comp_threshold c) (cc_comp_slope c)) (to64 lv)) in *.
  destruct (C34_db2a_total (to32 g64)) as (g & E2 & Fg32 & Bg). exists lv, g. split; [exact E|]. split; [exact E2|]. split; [exact Fg32|].
  assert (Z : B2R lv <= B2R (cc_comp_threshold c) -> g = mk32 1 0).
  { intros L. assert (G0 : g64 = db_zero). { unfold g64, comp_gain, comp_make. cbn [c_threshold c_slope]. rewrite (proj2 (fle_true _ _ (proj1 Dl) (proj1 Ht))); [reflexivity|rewrite Vl; exact L]. }
    rewrite G0 in E2. change (to32 db_zero) with (fzero : f32) in E2. rewrite db2a_zero in E2. congruence. }
  split; [|intros L; rewrite (Z L); exact V1]. split; [apply Bg|].
  destruct (C34_db2a_monotone (to32 g64) fzero) as (a & b & Ea & Eb & Lab).
  { assert (Bd : Rabs (B2R g64) <= bpow radix2 102).
    { assert (K : Rabs (comp_curve (B2R (cc_comp_threshold c)) (B2R (cc_comp_slope c)) (B2R (to64 lv))) <= bpow radix2 101).
      { unfold comp_curve. destruct (Rle_dec _ _); [rewrite Rabs_R0; apply bpow_ge_0|]. destruct Hr as [_ Hr]. destruct Ht as [_ Ht], Dl as [_ Dl].
        rewrite Rabs_mult. rewrite (Rabs_pos_eq (1 - _)) by lra.
        apply Rle_trans with (1 * (bpow radix2 100 + bpow radix2 100)); [|change 101%Z with (1 + 100)%Z; rewrite bpow_plus; change (bpow radix2 1) with 2; lra].
        apply Rmult_le_compat; try apply Rabs_pos; try lra. unfold Rminus. eapply Rle_trans; [apply Rabs_triang|]. rewrite Rabs_Ropp. lra. }
      set (cv := comp_curve _ _ _) in *. replace (B2R g64) with ((B2R g64 - cv) + cv) by ring. eapply Rle_trans; [apply Rabs_triang|].
      assert (bpow radix2 (-800) <= bpow radix2 100) by (apply bpow_le; lia).
      assert (bpow radix2 (-23) <= / 4) by (change (/ 4) with (bpow radix2 (-2)); apply bpow_le; lia).
      change 102%Z with (2 + 100)%Z. change 101%Z with (1 + 100)%Z in K. rewrite bpow_plus in *. change (bpow radix2 1) with 2 in K. change (bpow radix2 2) with 4.
      pose proof (Rabs_pos cv). pose proof (bpow_gt_0 radix2 100). assert (bpow radix2 (-23) * Rabs cv <= / 4 * (2 * bpow radix2 100)) by (apply Rmult_le_compat; try apply bpow_ge_0; lra). lra. }
    assert (R32 : B2R (to32 g64) = rn (B2R g64) /\ is_finite (to32 g64) = true).
    { unfold to32. apply (fconv_R (p':=24) (e':=128)); [exact Fg|].
      apply Rle_lt_trans with (bpow radix2 102); [|apply bpow_lt; lia]. apply rnd_abs_le; [apply fmt_bpow; unfold SpecFloat.emin; lia|exact Bd]. }
    destruct R32 as [V32 F32]. apply (fle_true (to32 g64) (fzero : f32) F32 eq_refl). rewrite V32. cbn [B2R fzero]. apply rnd_le_fmt; [apply generic_format_0|exact Ng]. }
  rewrite E2 in Ea. injection Ea as <-. rewrite db2a_zero in Eb. injection Eb as <-. apply (fle_true _ _ Fg32 F1) in Lab. rewrite V1 in Lab. exact Lab.
Qed.

(** invariant of the conditioner's state *)
Record cinv (c : cond_config) (ce ca cr : f32) (k : cond) : Prop := {
  iv_ce : cn_env_r k = ce; iv_ca : cn_genv_a k = ca; iv_cr : cn_genv_r k = cr;
  iv_comp : cn_comp k = comp_make (cc_comp_threshold c) (cc_comp_slope c);
  iv_mk : cn_makeup k = cc_comp_gain c;
  iv_env : bounded (cn_env k); iv_sgn : Bsign (cn_env k) = false;
  iv_gf : is_finite (cn_genv k) = true; iv_g : 0 <= B2R (cn_genv k) <= 1 }.
Definition last_obs (k : cond) (o : f32) : cond_obs := cond_observe k o.

Lemma out_ok (s ge a M : f32) : bounded s -> Rabs (B2R s) * B2R M <= bpow radix2 126 -> is_finite ge = true -> 0 <= B2R ge <= 1 ->
  is_finite a = true -> 0 <= B2R a <= 1 -> is_finite M = true -> 0 <= B2R M ->
  let o := fmul (fmul s ge) (fmul a M) in
  is_finite o = true /\
  Rabs (B2R o - B2R s * B2R ge * B2R a * B2R M) <= bpow radix2 (-22) * (Rabs (B2R s) * B2R M) + bpow radix2 (-148) * (B2R M + Rabs (B2R s) + 1) /\
  0 <= B2R o * B2R s /\ Rabs (B2R o) <= Rabs (B2R (fmul s M)).
Proof.
  intros [Fs Bs] Hm Fg Bg Fa Ba FM BM o.
  assert (f126 : fmt 24 128 (bpow radix2 126)) by (apply fmt_bpow; unfold SpecFloat.emin; lia).
  assert (l126 : bpow radix2 126 < bpow radix2 128) by (apply bpow_lt; lia).
  assert (A1 : Rabs (B2R s * B2R ge) <= Rabs (B2R s)).
  { rewrite Rabs_mult, (Rabs_pos_eq (B2R ge)) by lra. pose proof (Rabs_pos (B2R s)). nra. }
  destruct (fmul_bnd s ge (bpow radix2 126) Fs Fg f126 l126 ltac:(lra)) as (V1 & F1 & _).
  assert (A2 : Rabs (B2R a * B2R M) <= B2R M) by (rewrite Rabs_pos_eq by nra; nra).
  assert (K2 : Rabs (rn (B2R a * B2R M)) <= B2R M) by (apply rnd_abs_le; [apply generic_format_B2R|exact A2]).
  destruct (fmul_R a M Fa FM) as (V2 & F2).
  { apply Rle_lt_trans with (1 := K2). pose proof (fin_lt_emax M) as Q. rewrite Rabs_pos_eq in Q by exact BM. exact Q. }
  assert (K1 : Rabs (rn (B2R s * B2R ge)) <= Rabs (B2R s)) by (apply rnd_abs_le; [apply generic_format_abs, generic_format_B2R|exact A1]).
  set (x := fmul s ge) in *. set (g := fmul a M) in *.
  assert (G0 : 0 <= B2R g) by (rewrite V2; apply rnd_ge_fmt; [apply generic_format_0|nra]).
  rewrite <- V1 in K1. rewrite <- V2, Rabs_pos_eq in K2 by lra.
  assert (A3 : Rabs (B2R x * B2R g) <= Rabs (B2R s) * B2R M).
  { rewrite Rabs_mult, (Rabs_pos_eq (B2R g)) by lra. apply Rmult_le_compat; auto. apply Rabs_pos. }
  destruct (fmul_bnd x g (bpow radix2 126) F1 F2 f126 l126 ltac:(lra)) as (V3 & F3 & _).
  destruct (fmul_bnd s M (bpow radix2 126) Fs FM f126 l126) as (V4 & F4 & _); [rewrite Rabs_mult, (Rabs_pos_eq (B2R M)) by lra; lra|].
  split; [exact F3|]. split; [|split].
  - unfold o. pose proof (rnd_err_all (B2R s * B2R ge)) as E1. rewrite <- V1 in E1. pose proof (rnd_err_all (B2R a * B2R M)) as E2. rewrite <- V2 in E2.
    pose proof (rnd_err_all (B2R x * B2R g)) as E3. rewrite <- V3 in E3.
    set (S := B2R s) in *. set (Ge := B2R ge) in *. set (aa := B2R a) in *. set (m := B2R M) in *. set (gg := B2R g) in *. set (xx := B2R x) in *. set (oo := B2R (fmul x g)) in *.
    assert (Ee : bpow radix2 (-148) = 4 * bpow radix2 (-150)) by (change (-148)%Z with (2 + -150)%Z; rewrite bpow_plus; reflexivity).
    rewrite Ee. set (e := bpow radix2 (-150)) in *. assert (e0 : 0 < e) by apply bpow_gt_0. change (bpow radix2 (-22)) with (/ 4194304).
    pose proof (Rabs_pos S) as PS. clearbody e.
    replace (oo - S * Ge * aa * m) with ((oo - xx * gg) + ((xx - S * Ge) * gg + (S * Ge) * (gg - aa * m))) by ring.
    eapply Rle_trans; [apply Rabs_triang|]. eapply Rle_trans; [apply Rplus_le_compat_l, Rabs_triang|]. rewrite !(Rabs_mult (_ - _)), (Rabs_mult (S * Ge)), (Rabs_pos_eq gg) by exact G0.
    assert (T1 : Rabs (xx - S * Ge) * gg <= (/ 16777216 * Rabs S + e) * m) by (apply Rmult_le_compat; auto; try apply Rabs_pos; lra).
    assert (T2 : Rabs (S * Ge) * Rabs (gg - aa * m) <= Rabs S * (/ 16777216 * m + e)) by (apply Rmult_le_compat; auto; try apply Rabs_pos; lra).
    assert (T3 : Rabs (oo - xx * gg) <= / 16777216 * (Rabs S * m) + e) by lra.
    assert (0 <= Rabs S * m) by nra. assert (0 <= e * m) by nra. assert (0 <= e * Rabs S) by nra. lra.
  - unfold o. rewrite V3. assert (SX : 0 <= B2R x * B2R s).
    { rewrite V1. destruct (Rle_dec 0 (B2R s)) as [P|P].
      - apply Rmult_le_pos; [apply rnd_ge_fmt; [apply generic_format_0|nra]|exact P].
      - assert (rn (B2R s * B2R ge) <= 0) by (apply rnd_le_fmt; [apply generic_format_0|nra]). nra. }
    destruct (Rle_dec 0 (B2R s)) as [P|P].
    + destruct (Rle_lt_or_eq_dec _ _ P) as [P'|<-]; [|lra]. assert (0 <= B2R x) by nra. apply Rmult_le_pos; [|exact P]. apply rnd_ge_fmt; [apply generic_format_0|]. nra.
    + assert (B2R x <= 0) by nra. assert (rn (B2R x * B2R g) <= 0) by (apply rnd_le_fmt; [apply generic_format_0|nra]). nra.
  - assert (AB : forall z, Rabs (rn z) = rn (Rabs z)) by (intros z; symmetry; apply (round_NE_abs radix2 (fx (prec:=24) (emax:=128)))).
    unfold o. rewrite V3, V4, !AB. apply rnd_le. rewrite (Rabs_mult (B2R s)), (Rabs_pos_eq (B2R M)) by lra. exact A3.
Qed.

Lemma babs_ok (s : f32) : bounded s -> bounded (Babs s) /\ Bsign (Babs s) = false /\ B2R (Babs s) = Rabs (B2R s).
Proof.
  intros [F B]. destruct (fabs_R s) as [V Ff]. change (PD_Model.fabs s) with (Babs s) in *. split; [split; [congruence|rewrite V, Rabs_Rabsolu; exact B]|].
  split; [|exact V]. destruct s; reflexivity.
Qed.
Lemma one_bounded : bounded (mk32 1 0) /\ B2R (mk32 1 0) = 1.
Proof.
  destruct (int32 1 ltac:(reflexivity)) as [V F]. split; [split; [exact F|]|exact V]. rewrite V, Rabs_R1. change 1 with (bpow radix2 0). apply bpow_le. lia.
Qed.
Lemma unit_bounded (x : f32) : is_finite x = true -> 0 <= B2R x <= 1 -> bounded x.
Proof. intros F B. split; [exact F|]. rewrite Rabs_pos_eq by lra. apply Rle_trans with (bpow radix2 0); [change (bpow radix2 0) with 1; lra|apply bpow_le; lia]. Qed.
Lemma zero_bounded : bounded (fzero : f32).
Proof. apply unit_bounded; [reflexivity|]. cbn. lra. Qed.

Lemma gate_step_spec (on off : f32) g e : fst (gate_step flt on off g e) = (if g then negb (flt e off) else flt on e).
Proof.
  unfold gate_step, gt. cbn [fst]. destruct g; cbn [negb andb].
  - destruct (flt e off); reflexivity.
  - destruct (flt on e); reflexivity.
Qed.
Lemma step_ok (c : cond_config) (ce ca cr : f32) (k : cond) (s o0 : f32) :
  coefficient ce -> coefficient ca -> coefficient cr -> db_level (cc_comp_threshold c) -> ratio_in 1 (cc_comp_slope c) ->
  is_finite (cc_comp_gain c) = true -> 0 <= B2R (cc_comp_gain c) -> cinv c ce ca cr k -> input_ok (B2R (cc_comp_gain c)) s ->
  exists k' o, cond_step k s = Some (k', o) /\ cinv c ce ca cr k' /\ cn_onset k' = cn_onset k /\ cn_release k' = cn_release k /\ sample_ok c (B2R ce) (B2R ca) (B2R cr) (cn_onset k) (cn_release k) (cond_observe k o0) s (cond_observe k' o).
Proof.
  intros Hce Hca Hcr Ht Hr FM M0 [Ice Ica Icr Icomp Imk Ienv Isgn Igf Ig] [Bs Bm].
  destruct (babs_ok s Bs) as (Ba & Na & Va). destruct one_bounded as [B1 V1].
  pose proof (pf_between ce (cn_env k) (Babs s) Hce Ienv Ba) as (Be' & Le').
  pose proof (pf_sign ce (cn_env k) (Babs s) Hce Ienv Ba Na) as Ne'.
  pose proof (sign_nn _ _ _ (proj1 Ienv) Isgn) as E0.
  unfold cond_step. rewrite Ice, Ica, Icr, Icomp, Imk. set (env := pf_step ce (cn_env k) (Babs s)) in *.
  set (gate := fst (gate_step flt (cn_onset k) (cn_release k) (cn_gate k) env)).
  set (tgt := if gate then mk32 1 0 else fzero : f32).
  assert (Bt : bounded tgt /\ B2R tgt = if gate then 1 else 0).
  { unfold tgt. destruct gate; [auto|split; [apply zero_bounded|reflexivity]]. }
  destruct Bt as [Bt Vt]. pose proof (unit_bounded _ Igf Ig) as Bg.
  pose proof (ef_between ca cr (cn_genv k) tgt Hca Hcr Bg Bt) as ((Fge & _) & Lge).
  set (ge := ef_step ca cr (cn_genv k) tgt) in *.
  assert (Rge : 0 <= B2R ge <= 1).
  { rewrite Vt in Lge. unfold Rmin, Rmax in Lge. destruct gate; repeat match goal with H : context [Rle_dec ?a ?b] |- _ => destruct (Rle_dec a b) end; lra. }
  assert (Nn : is_nan env = false) by (destruct env; try reflexivity; destruct Be'; discriminate).
  destruct (compression_ok c env Ht Hr Nn Ne') as (lv & g & El & Eg & Fg & Rg & Gg).
  unfold decibel_of_amplitude. rewrite to32_to64, El. cbn [option_map]. cbv beta iota zeta delta [bind]. rewrite Eg.
  destruct (out_ok s ge g (cc_comp_gain c) Bs Bm Fge Rge Fg ltac:(lra) FM M0) as (Fo & Eo & So & Lo).
  eexists _, _. split; [reflexivity|]. split; [|split; [reflexivity|split; [reflexivity|]]].
  { split; cbn [cn_env_r cn_genv_a cn_genv_r cn_comp cn_makeup cn_env cn_genv]; auto. }
  cbn [cn_onset cn_release]. unfold sample_ok, cond_observe, cond_gate, cond_gate_env, cond_signal_env. cbn [ob_out ob_gate ob_gate_env ob_signal_env cn_env cn_gate cn_genv].
  rewrite Va in Le'. split; [|split; [|split]].
  - split; [exact Le'|]. split.
    + intros L. unfold env, pf_step. replace (fgt (Babs s) (cn_env k)) with true; [exact Va|]. symmetry. apply (flt_true _ _ (proj1 Ienv) (proj1 Ba)). rewrite Va. exact L.
    + intros L. unfold env, pf_step. replace (fgt (Babs s) (cn_env k)) with false; [|symmetry; apply (flt_false _ _ (proj1 Ienv) (proj1 Ba)); rewrite Va; exact L].
      rewrite <- Va. apply lerp_err; auto; rewrite ?Va, ?Rabs_Rabsolu, ?(Rabs_pos_eq (B2R (cn_env k))) by exact E0; [exact L|apply Rle_refl].
  - apply gate_step_spec.
  - pose proof (unit_bounded _ Igf Ig). assert (M1 : bpow radix2 (-21) * 1 + bpow radix2 (-147) <= bpow radix2 (-20)).
    { assert (bpow radix2 (-147) <= bpow radix2 (-21)) by (apply bpow_le; lia). change (-20)%Z with (1 + -21)%Z. rewrite bpow_plus. change (bpow radix2 1) with 2. lra. }
    destruct gate eqn:EG.
    + rewrite Vt in Lge. rewrite Rmin_left, Rmax_right in Lge by lra. split; [exact Lge|].
      destruct (Rle_lt_or_eq_dec _ _ (proj2 Ig)) as [L|L].
      * unfold ge, ef_step. replace (fgt tgt (cn_genv k)) with true; [|symmetry; apply (flt_true _ _ Igf (proj1 Bt)); rewrite Vt; exact L].
        rewrite <- Vt. eapply Rle_trans; [apply (lerp_err tgt (cn_genv k) ca 1); auto; rewrite ?Vt, ?Rabs_R1, ?(Rabs_pos_eq (B2R (cn_genv k))) by lra; lra|exact M1].
      * rewrite L in *. replace (B2R ge - _) with 0 by (replace (B2R ge) with 1 by lra; ring). rewrite Rabs_R0. apply bpow_ge_0.
    + rewrite Vt in Lge. rewrite Rmin_right, Rmax_left in Lge by lra. split; [exact Lge|].
      unfold ge, ef_step. replace (fgt tgt (cn_genv k)) with false; [|symmetry; apply (flt_false _ _ Igf (proj1 Bt)); rewrite Vt; lra].
      replace (B2R cr * B2R (cn_genv k)) with (B2R tgt + B2R cr * (B2R (cn_genv k) - B2R tgt)) by (rewrite Vt; ring).
      eapply Rle_trans; [apply (lerp_err tgt (cn_genv k) cr 1); auto; rewrite ?Vt, ?Rabs_R0, ?(Rabs_pos_eq (B2R (cn_genv k))) by lra; lra|exact M1].
  - exists (B2R g). split; [|auto]. exists lv, g. split; [exact El|]. split; [exact Eg|]. split; [reflexivity|]. split; [lra|exact Gg].
Qed.

Lemma float_of_db_total d : exists t, float_of_db d = Some t.
Proof. destruct (C34_db2a_total (to32 d)) as (y & E & _). exists y. exact E. Qed.
Lemma run_ok (c : cond_config) (ce ca cr : f32) :
  coefficient ce -> coefficient ca -> coefficient cr -> db_level (cc_comp_threshold c) -> ratio_in 1 (cc_comp_slope c) ->
  is_finite (cc_comp_gain c) = true -> 0 <= B2R (cc_comp_gain c) ->
  forall cs k o0, cinv c ce ca cr k -> calls_ok (B2R (cc_comp_gain c)) cs ->
  exists os, cond_run k cs = Some os /\ conforms c (B2R ce) (B2R ca) (B2R cr) (cn_onset k) (cn_release k) (cond_observe k o0) cs os.
Proof.
  intros Hce Hca Hcr Ht Hr FM M0. induction cs as [|q cs IH]; intros k o0 I Ok; [exists []; split; [reflexivity|constructor]|].
  assert (Ok' : calls_ok (B2R (cc_comp_gain c)) cs) by (intros s Hs; apply Ok; right; exact Hs).
  cbn [cond_run]. destruct q as [s|t|t|d|d]; cbn [cond_call1].
  - destruct (step_ok c ce ca cr k s o0 Hce Hca Hcr Ht Hr FM M0 I (Ok s (or_introl eq_refl))) as (k' & o & E & I' & E1 & E2 & SO).
    rewrite E. cbv beta iota zeta delta [bind]. cbn [fst snd]. destruct (IH k' o I' Ok') as (os & -> & C). eexists. split; [reflexivity|].
    cbn [app]. constructor; [exact SO|]. rewrite <- E1, <- E2. exact C.
  - cbv beta iota zeta delta [bind]. cbn [fst snd]. destruct (IH (cond_set_onset k t) o0) as (os & -> & C); [destruct I; split; assumption|exact Ok'|].
    eexists. split; [reflexivity|]. constructor. exact C.
  - cbv beta iota zeta delta [bind]. cbn [fst snd]. destruct (IH (cond_set_release k t) o0) as (os & -> & C); [destruct I; split; assumption|exact Ok'|].
    eexists. split; [reflexivity|]. constructor. exact C.
  - destruct (float_of_db_total d) as [t E]. unfold cond_set_onset_db. rewrite E. cbv beta iota zeta delta [bind]. cbn [fst snd].
    destruct (IH (cond_set_onset k t) o0) as (os & -> & C); [destruct I; split; assumption|exact Ok'|]. eexists. split; [reflexivity|]. econstructor; [exact E|exact C].
  - destruct (float_of_db_total d) as [t E]. unfold cond_set_release_db. rewrite E. cbv beta iota zeta delta [bind]. cbn [fst snd].
    destruct (IH (cond_set_release k t) o0) as (os & -> & C); [destruct I; split; assumption|exact Ok'|]. eexists. split; [reflexivity|]. econstructor; [exact E|exact C].
Qed.
