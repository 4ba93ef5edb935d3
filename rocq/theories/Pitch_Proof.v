From Coq Require Import Reals Lra.
From Flocq Require Import Core.Core IEEE754.BinarySingleNaN.
From Flocq Require Sterbenz.
From Verif Require Import Common CommonFacts Float FloatFacts FloatRel FloatLerp Zc_Model PD_Model PD_Spec PD_Proof PD_Pred Pitch_Model Pitch_Spec.
Local Open Scope R_scope.

Lemma z32_32 : B2R (z32 32) = 32 /\ is_finite (z32 32) = true.
Proof. destruct (mk32_small 32 0) as [V F]; [reflexivity|lia|]. change (bpow radix2 0) with 1 in V. rewrite Rmult_1_r in V. split; [exact V|exact F]. Qed.
Lemma fabs_R (x : f32) : B2R (fabs x) = Rabs (B2R x) /\ is_finite (fabs x) = is_finite x.
Proof. split; [apply B2R_Babs|apply is_finite_Babs]. Qed.
Lemma pos_fin_R (f : f32) : is_finite f = true -> (positive f <-> 0 < B2R f).
Proof.
  intros F. unfold positive. assert (F0 : is_finite (fzero : f32) = true) by reflexivity. assert (Z0 : B2R (fzero : f32) = 0) by reflexivity.
  rewrite (flt_true (fzero : f32) f F0 F), Z0. reflexivity.
Qed.
Lemma pos_cases (f : f32) : positive f -> f = B754_infinity false \/ (is_finite f = true /\ 0 < B2R f).
Proof.
  intros P. destruct (is_finite f) eqn:F; [right; split; [reflexivity|apply pos_fin_R; assumption]|].
  destruct f as [|[|]| |]; try discriminate. left. reflexivity.
Qed.
Lemma fdiv_inf (y : f32) : is_finite y = true -> 0 < B2R y -> fdiv (B754_infinity false) y = B754_infinity false.
Proof.
  intros F P. destruct y as [s|s| |[|] m e B]; try discriminate F; [cbn in P; lra| |reflexivity].
  exfalso. cbn [B2R] in P. pose proof (F2R_lt_0 radix2 (Float radix2 (cond_Zopp true (Z.pos m)) e) ltac:(reflexivity)). lra.
Qed.
(** f is +0, positive or +infinity *)
Lemma near_iff (c f : f32) : positive c -> (is_finite c = true -> bpow radix2 (-100) <= B2R c) ->
  (is_finite f = true -> 0 <= B2R f) ->
  (flt (fabs (fsub c f)) (fdiv c (z32 32)) = true <-> near c f).
Proof.
  intros Pc Lc Pf. destruct z32_32 as [V32 F32].
  destruct (pos_cases c Pc) as [->|[Fc Hc]].
  { split; [|intros (X & _); discriminate X]. rewrite fdiv_inf by (auto; lra). intros L. exfalso.
    destruct f as [s|[|]| |s m e B]; revert L; unfold flt, fabs, fsub, Bminus, Bplus, Babs, Bltb; cbn; discriminate. }
  specialize (Lc Fc).
  assert (Le : bpow radix2 (-105) <= B2R c / 32).
  { apply (Rmult_le_reg_r 32); [lra|]. unfold Rdiv. rewrite Rmult_assoc, Rinv_l, Rmult_1_r by lra. change 32 with (bpow radix2 5). rewrite <- bpow_plus. exact Lc. }
  assert (Fm : fmt 24 128 (B2R c / 32)).
  { replace (B2R c / 32) with (B2R c * bpow radix2 (-5)) by (change (bpow radix2 (-5)) with (/ 32); reflexivity).
    pose proof (generic_format_B2R 24 128 c) as G. unfold fmt. apply FLT_format_generic in G; [|exact prec32_gt_0]. destruct G as [[m e] E1 E2 E3].
    cbn [Fnum Fexp] in *. change (SpecFloat.fexp 24 128) with (FLT_exp (-149) 24). 
    destruct (Z.le_gt_cases (-149 + 5) e) as [He|He].
    - apply generic_format_FLT. apply (FLT_spec radix2 (-149) 24 _ (Float radix2 m (e - 5))); cbn [Fnum Fexp]; [|exact E2|lia].
      rewrite E1. unfold F2R. cbn [Fnum Fexp]. rewrite Rmult_assoc, <- bpow_plus. reflexivity.
    - exfalso. assert (Q : B2R c < bpow radix2 (-100)).
      { rewrite E1. unfold F2R. cbn [Fnum Fexp]. apply Rlt_le_trans with (bpow radix2 24 * bpow radix2 e).
        - apply Rmult_lt_compat_r; [apply bpow_gt_0|]. change (bpow radix2 24) with (IZR (2 ^ 24)). apply IZR_lt. change (radix2 ^ 24)%Z with (2 ^ 24)%Z in E2. lia.
        - rewrite <- bpow_plus. apply bpow_le. lia. }
      lra. }
  pose proof (abs_B2R_lt_emax 24 128 c) as Lt. rewrite Rabs_pos_eq in Lt by lra.
  destruct (fdiv_bnd c (z32 32) (B2R c / 32) Fc) as (Vd & Fd & _); [rewrite V32; lra|exact Fm|lra|rewrite V32, Rabs_pos_eq by lra; lra|].
  rewrite V32 in Vd. rewrite rnd_fmt in Vd by exact Fm.
  destruct (is_finite f) eqn:Ff.
  2:{ split; [|intros (_ & X & _); congruence]. intros L. exfalso. unfold fin in Fd. set (d := fdiv c (z32 32)) in *. clearbody d.
      assert (N : fabs (fsub c f) = B754_infinity false \/ fabs (fsub c f) = B754_nan).
      { destruct f as [s|s| |s m e B]; try discriminate Ff; destruct c as [s'|s'| |s' m' e' B']; try discriminate Fc; auto. }
      revert L. destruct N as [-> | ->]; destruct d as [s|[|]| |[|] m e B]; try discriminate Fd; unfold flt, Bltb; cbn; discriminate. }
  specialize (Pf eq_refl). pose proof (abs_B2R_lt_emax 24 128 f) as Ltf. rewrite Rabs_pos_eq in Ltf by lra.
  set (M := Rmax (B2R c) (B2R f)).
  assert (HM : fmt 24 128 M /\ M < bpow radix2 128 /\ B2R c <= M /\ B2R f <= M).
  { unfold M. split; [|split; [|split; [apply Rmax_l|apply Rmax_r]]]; [|apply Rmax_lub_lt; assumption].
    unfold Rmax. destruct (Rle_dec _ _); apply generic_format_B2R. }
  destruct HM as (M1 & M2 & M3 & M4).
  destruct (fsub_bnd c f M Fc Ff M1 M2) as (Vs & Fs & _); [apply Rabs_le; lra|].
  destruct (fabs_R (fsub c f)) as [Va Fa].
  rewrite (flt_true _ _ (eq_trans Fa Fs) Fd), Va, Vd, Vs. unfold near.
  split.
  - intros L. split; [exact Fc|]. split; [exact Ff|]. destruct (Rlt_le_dec (Rabs (B2R c - B2R f)) (B2R c / 32)) as [H|H]; [exact H|exfalso].
    assert (Q : B2R c / 32 <= Rabs (rnd 24 128 (B2R c - B2R f))).
    { destruct (Rle_lt_dec 0 (B2R c - B2R f)) as [S|S].
      - rewrite Rabs_pos_eq in H by exact S. rewrite Rabs_pos_eq by (apply rnd_ge_fmt; [apply fmt_0|exact S]). apply rnd_ge_fmt; assumption.
      - rewrite Rabs_left in H by exact S. assert (R : rnd 24 128 (B2R c - B2R f) <= - (B2R c / 32)).
        { apply rnd_le_fmt; [|lra]. unfold fmt. apply generic_format_opp. exact Fm. }
        rewrite Rabs_left1 by lra. lra. }
    lra.
  - intros (_ & _ & L). rewrite rnd_fmt; [exact L|].
    change (generic_format radix2 (FLT_exp (-149) 24) (B2R c - B2R f)).
    refine (@Sterbenz.sterbenz radix2 (FLT_exp (-149) 24) (FLT_exp_valid _ _) (FLT_exp_monotone _ _) _ _ (generic_format_B2R 24 128 c) (generic_format_B2R 24 128 f) _).
    apply Rabs_lt_inv in L. lra.
Qed.

(** being close to a positive number *)
Lemma close_pos (c g : f32) : positive c -> (is_finite g = true -> 0 <= B2R g) ->
  flt (fabs (fsub c g)) (fdiv c (z32 32)) = true -> positive g.
Proof.
  intros Pc Pg L. destruct z32_32 as [V32 F32].
  destruct (pos_cases c Pc) as [->|[Fc Hc]].
  { exfalso. revert L. rewrite fdiv_inf by (auto; lra).
    destruct g as [s|[|]| |s m e B]; unfold flt, fabs, fsub, Bminus, Bplus, Babs, Bltb; cbn; discriminate. }
  pose proof (generic_format_B2R 24 128 c) as Fm. pose proof (abs_B2R_lt_emax 24 128 c) as Lt. rewrite Rabs_pos_eq in Lt by lra.
  destruct (fdiv_bnd c (z32 32) (B2R c) Fc) as (Vd & Fd & Bd); [rewrite V32; lra|exact Fm|exact Lt|rewrite V32, Rabs_pos_eq by lra; lra|].
  destruct (is_finite g) eqn:Fg.
  2:{ exfalso. unfold fin in Fd. set (d := fdiv c (z32 32)) in *. clearbody d.
      assert (N : fabs (fsub c g) = B754_infinity false \/ fabs (fsub c g) = B754_nan).
      { destruct g as [s|s| |s m e B]; try discriminate Fg; destruct c as [s'|s'| |s' m' e' B']; try discriminate Fc; auto. }
      revert L. destruct N as [-> | ->]; destruct d as [s|[|]| |[|] m e B]; try discriminate Fd; unfold flt, Bltb; cbn; discriminate. }
  specialize (Pg eq_refl). apply pos_fin_R; [exact Fg|]. destruct (Rle_lt_or_eq_dec 0 _ Pg) as [H|H]; [exact H|exfalso].
  destruct (fsub_bnd c g (B2R c) Fc Fg Fm Lt) as (Vs & Fs & _); [rewrite <- H, Rminus_0_r, Rabs_pos_eq; lra|].
  rewrite <- H, Rminus_0_r in Vs. rewrite rnd_fmt in Vs by exact Fm.
  destruct (fabs_R (fsub c g)) as [Va Fa]. apply (flt_true _ _ (eq_trans Fa Fs) Fd) in L. rewrite Va, Vs in L.
  rewrite Rabs_pos_eq in L by lra. apply Rabs_le_inv in Bd. lra.
Qed.
Lemma z32_int m : (2 <= m < 2 ^ 31)%Z -> is_finite (z32 m) = true /\ 1 <= B2R (z32 m).
Proof.
  intros H. destruct (z32_R m) as (V & F & B). { split; [lia|]. apply Z.lt_trans with (2 ^ 31)%Z; [lia|reflexivity]. }
  split; [exact F|]. change (mk32 m 0) with (z32 m) in V. rewrite V. apply rnd_ge_fmt.
  - change 1 with (bpow radix2 0). apply fmt_bpow. unfold SpecFloat.emin. lia.
  - apply (IZR_le 1). lia.
Qed.
Lemma div_nonneg (f : f32) m : positive f -> (2 <= m < 2 ^ 31)%Z -> is_finite (fdiv f (z32 m)) = true -> 0 <= B2R (fdiv f (z32 m)).
Proof.
  intros P H _. destruct (z32_int m H) as [Fm Vm]. destruct (pos_cases f P) as [->|[Ff Hf]]; [rewrite fdiv_inf by (auto; lra); cbn; lra|].
  pose proof (abs_B2R_lt_emax 24 128 f) as Lt. rewrite Rabs_pos_eq in Lt by lra.
  assert (Q : 0 <= B2R f / B2R (z32 m) <= B2R f).
  { split; [apply Rmult_le_pos; [lra|left; apply Rinv_0_lt_compat; lra]|]. apply (Rmult_le_reg_r (B2R (z32 m))); [lra|].
    unfold Rdiv. rewrite Rmult_assoc, Rinv_l, Rmult_1_r by lra. rewrite <- (Rmult_1_r (B2R f)) at 1. apply Rmult_le_compat_l; lra. }
  destruct (fdiv_bnd f (z32 m) (B2R f) Ff) as (Vd & _ & _); [lra|apply generic_format_B2R|exact Lt|apply Rabs_le; lra|].
  rewrite Vd. apply rnd_ge_fmt; [apply fmt_0|lra].
Qed.
Lemma mul_nonneg (f : f32) m : positive f -> (2 <= m < 2 ^ 31)%Z -> is_finite (fmul f (z32 m)) = true -> 0 <= B2R (fmul f (z32 m)).
Proof.
  intros P H F. destruct (z32_int m H) as [Fm Vm]. destruct (pos_cases f P) as [->|[Ff Hf]].
  { exfalso. revert F. destruct (z32 m) as [s|s| |s mm e B]; try discriminate Fm; unfold fmul, Bmult; cbn; discriminate. }
  assert (Q : 0 <= B2R f * B2R (z32 m)) by (apply Rmult_le_pos; lra).
  pose proof (Bmult_correct 24 128 eq_refl eq_refl mode_NE f (z32 m)) as C. unfold fmul in *.
  destruct (Rlt_bool _ _).
  - destruct C as (V & _). match goal with |- 0 <= B2R ?x => match type of V with B2R ?y = _ => change x with y end end. rewrite V.
    apply (rnd_ge_fmt (prec:=24) (emax:=128)); [apply fmt_0|exact Q].
  - exfalso. match type of F with is_finite ?x = _ => match type of C with B2SF ?y = _ => change x with y in F; rewrite <- is_finite_SF_B2SF in F; rewrite C in F end end.
    destruct (xorb _ _); discriminate F.
Qed.

Section Steps.
Variable oob : f32 -> Z.
Hypothesis Hoob : forall x, (- 2 ^ 31 <= oob x < 2 ^ 31)%Z.
Lemma f2int_range x : (- 2 ^ 31 <= f2int oob x < 2 ^ 31)%Z.
Proof. unfold f2int. destruct (ftrunc x) as [t|]; [|apply Hoob]. destruct (_ && _)%bool eqn:E; [lia|apply Hoob]. Qed.

Notation unit_pty := in_unit.
Definition pty_ok (p : pd) : Prop := p_periodicity p = z32 (-1) \/ unit_pty (p_periodicity p).
Definition cur_ok (c : info) : Prop := (c = info0 \/ positive (i_freq c)) /\ unit_pty (i_pty c).
Lemma cur_ok0 : cur_ok info0. Proof. split; [left; reflexivity|]. split; [reflexivity|]. cbn. lra. Qed.

Lemma onset_R : B2R onset_periodicity = 15938355 / 16777216 /\ is_finite onset_periodicity = true.
Proof. destruct (mk32_small 15938355 (-24)) as [V F]; [reflexivity|lia|]. change (bpow radix2 (-24)) with (/ 16777216) in V. split; [exact V|exact F]. Qed.
Lemma min_R : B2R min_periodicity = 15099494 / 16777216 /\ is_finite min_periodicity = true.
Proof. destruct (mk32_small 15099494 (-24)) as [V F]; [reflexivity|lia|]. change (bpow radix2 (-24)) with (/ 16777216) in V. split; [exact V|exact F]. Qed.
Lemma feq_m1 y : unit_pty y -> feq y (z32 (-1)) = false.
Proof.
  intros [F B]. destruct (feq y (z32 (-1))) eqn:E; [|reflexivity]. exfalso.
  destruct (mk32_small (-1) 0) as [V F1]; [reflexivity|lia|]. change (mk32 (-1) 0) with (z32 (-1)) in *. change (bpow radix2 0) with 1 in V. rewrite Rmult_1_r in V.
  unfold feq in E. rewrite Beqb_correct in E by assumption. destruct (Req_bool_spec (B2R y) (B2R (z32 (-1)))); [|discriminate]. lra.
Qed.
Lemma fgt_pos f : (if fgt f fzero then true else false) = true <-> positive f.
Proof. unfold positive. change (fgt f fzero) with (flt fzero f). destruct (flt fzero f); split; auto. Qed.

Definition close c f : bool := flt (fabs (fsub c f)) (fdiv c (z32 32)).
(** the choice of [bias_pick], and the invariant *)
Inductive pick (p : pd) (cur : info) (fr : N) (inc : info) : info -> bool -> Prop :=
| pick_same : close (i_freq cur) (i_freq inc) = true -> pick p cur fr inc inc false
| pick_harm m g : close (i_freq cur) (i_freq inc) = false -> (1 < fr)%N -> (2 <= m < 2 ^ 31)%Z -> close (i_freq cur) g = true ->
    ((fgt (i_freq cur) (i_freq inc) = true /\ g = fmul (i_freq inc) (z32 m)) \/ (fgt (i_freq cur) (i_freq inc) = false /\ g = fdiv (i_freq inc) (z32 m))) ->
    pick p cur fr inc (mkInf g (i_pty inc)) false
| pick_shift : close (i_freq cur) (i_freq inc) = false -> fgt (p_periodicity p) min_periodicity = true -> pick p cur fr inc inc true
| pick_hold : close (i_freq cur) (i_freq inc) = false -> fgt (p_periodicity p) min_periodicity = false -> pick p cur fr inc cur false.
Lemma bias_pick_spec p cur fr inc : pick p cur fr inc (fst (bias_pick oob p cur fr inc)) (snd (bias_pick oob p cur fr inc)).
Proof.
  unfold bias_pick. cbv zeta. fold (close (i_freq cur) (i_freq inc)). destruct (close (i_freq cur) (i_freq inc)) eqn:C; [apply pick_same; exact C|].
  assert (T : pick p cur fr inc (fst (if fgt (p_periodicity p) min_periodicity then (inc, true) else (cur, false)))
                (snd (if fgt (p_periodicity p) min_periodicity then (inc, true) else (cur, false)))).
  { destruct (fgt (p_periodicity p) min_periodicity) eqn:G; [apply pick_shift|apply pick_hold]; assumption. }
  destruct (1 <? fr)%N eqn:Lf; [|exact T]. apply N.ltb_lt in Lf.
  destruct (fgt (i_freq cur) (i_freq inc)) eqn:G.
  - set (m := f2int oob _). pose proof (f2int_range (fround (fdiv (i_freq cur) (i_freq inc)))) as R. fold m in R. destruct (1 <? m)%Z eqn:M; [|exact T]. apply Z.ltb_lt in M.
    fold (close (i_freq cur) (fmul (i_freq inc) (z32 m))). destruct (close (i_freq cur) (fmul (i_freq inc) (z32 m))) eqn:C2; [|exact T].
    apply (pick_harm p cur fr inc m); auto. lia.
  - set (m := f2int oob _). pose proof (f2int_range (fround (fdiv (i_freq inc) (i_freq cur)))) as R. fold m in R. destruct (1 <? m)%Z eqn:M; [|exact T]. apply Z.ltb_lt in M.
    fold (close (i_freq cur) (fdiv (i_freq inc) (z32 m))). destruct (close (i_freq cur) (fdiv (i_freq inc) (z32 m))) eqn:C2; [|exact T].
    apply (pick_harm p cur fr inc m); auto. lia.
Qed.
Lemma harm_nonneg f g m : positive f -> (2 <= m < 2 ^ 31)%Z -> g = fmul f (z32 m) \/ g = fdiv f (z32 m) -> is_finite g = true -> 0 <= B2R g.
Proof. intros P H [-> | ->]; [apply mul_nonneg|apply div_nonneg]; assumption. Qed.
Lemma pos_nonneg (f : f32) : positive f -> is_finite f = true -> 0 <= B2R f.
Proof. intros P F. apply pos_fin_R in P; [lra|exact F]. Qed.

Lemma low_not_onset y : unit_pty y -> fgt y min_periodicity = false -> fge y onset_periodicity = false.
Proof.
  intros [F B] G. destruct onset_R as [Vo Fo]. destruct min_R as [Vm Fm].
  change (fgt y min_periodicity) with (flt min_periodicity y) in G. apply (flt_false _ _ Fm F) in G.
  change (fge y onset_periodicity) with (fle onset_periodicity y). apply (fle_false _ _ Fo F). lra.
Qed.
Lemma gt_not_lt y : unit_pty y -> fgt y min_periodicity = true -> flt y min_periodicity = false.
Proof.
  intros [F B] G. destruct min_R as [Vm Fm].
  change (fgt y min_periodicity) with (flt min_periodicity y) in G. apply (flt_true _ _ Fm F) in G. apply (flt_false _ _ F Fm). lra.
Qed.

Lemma bias_pd t inc : t_pd (bias oob t inc) = t_pd t /\ t_sps (bias oob t inc) = t_sps t.
Proof.
  unfold bias. destruct (bias_pick _ _ _ _ _) as [r sh]. destruct sh; [|auto].
  destruct (fge _ _); [auto|]. destruct (flt _ _); auto.
Qed.
Lemma step_pd t s t' b : pit_step oob t s = Some (t', b) -> pd_step oob (t_pd t) s = Some (t_pd t') /\ t_sps t' = t_sps t.
Proof.
  unfold pit_step. destruct (pd_step oob (t_pd t) s) as [p|]; cbv beta iota zeta delta [bind]; [|discriminate].
  destruct (z_ready (p_zc p)); [|intros E; injection E as <- <-; auto].
  destruct (feq (p_periodicity p) (z32 (-1))); [intros E; injection E as <- <-; auto|].
  destruct (feq _ fzero); [destruct (_ && _)%bool; intros E; injection E as <- <-; auto|].
  set (t2 := if flt (p_periodicity p) min_periodicity then _ else _).
  assert (T2 : t_pd t2 = p /\ t_sps t2 = t_sps t) by (unfold t2; destruct (flt _ _); auto). clearbody t2. destruct T2 as [T1 T2].
  intros E. injection E as <- <-. destruct (fgt _ fzero); [|rewrite T1, T2; auto].
  destruct (bias_pd t2 (mkInf (calculate_frequency (mkPit p (if zc_is_reset (p_zc p) then info0 else t_cur t) (t_sps t) (t_frames t))) (p_periodicity p))) as [B1 B2].
  rewrite B1, B2, T1, T2. auto.
Qed.
Lemma step_total t s p : pd_step oob (t_pd t) s = Some p -> exists t' b, pit_step oob t s = Some (t', b).
Proof.
  intros E. unfold pit_step. rewrite E. cbv beta iota zeta delta [bind].
  destruct (z_ready _); [|eauto]. destruct (feq _ _); [eauto|]. destruct (feq _ _); [destruct (_ && _)%bool; eauto|eauto].
Qed.
Lemma step_outcome t s t' b : cur_ok (t_cur t) ->
  (is_finite (i_freq (t_cur t)) = true -> i_freq (t_cur t) = fzero \/ bpow radix2 (-100) <= B2R (i_freq (t_cur t))) ->
  pit_step oob t s = Some (t', b) -> (z_ready (p_zc (t_pd t')) = true -> pty_ok (t_pd t')) ->
  pd_step oob (t_pd t) s = Some (t_pd t') /\ t_sps t' = t_sps t /\
  outcome (t_pd t') (t_sps t) (if zc_is_reset (p_zc (t_pd t')) then info0 else t_cur t) (t_frames t) (t_cur t') (t_frames t') b.
Proof.
  intros [Hc _] Hr S Hy. pose proof (proj1 (step_pd _ _ _ _ S)) as Epd.
  unfold pit_step in S. destruct (pd_step oob (t_pd t) s) as [p|] eqn:Ep; cbv beta iota zeta delta [bind] in S; [|discriminate].
  set (c := if zc_is_reset (p_zc p) then info0 else t_cur t) in *.
  assert (Cc : c = info0 \/ (positive (i_freq c) /\ (is_finite (i_freq c) = true -> bpow radix2 (-100) <= B2R (i_freq c)))).
  { unfold c. destruct (zc_is_reset (p_zc p)); [left; reflexivity|]. destruct Hc as [Hz|Hp]; [left; exact Hz|right].
    split; [exact Hp|]. intros F. destruct (Hr F) as [E|E]; [|exact E].
    exfalso. apply pos_fin_R in Hp; [|exact F]. rewrite E in Hp. cbn in Hp. lra. }
  assert (G : t_pd t' = p /\ t_sps t' = t_sps t /\ outcome p (t_sps t) c (t_frames t) (t_cur t') (t_frames t') b).
  2:{ destruct G as (G1 & G2 & G3). rewrite G1. auto. }
  clearbody c. clear Hr Hc.
  destruct (z_ready (p_zc p)) eqn:Rd.
  2:{ injection S as <- <-. cbn [t_pd t_sps t_cur t_frames]. split; [reflexivity|]. split; [reflexivity|]. apply not_ready. exact Rd. }
  assert (Hy' : pty_ok p).
  { injection Epd as Epd. rewrite Epd. apply Hy. rewrite <- Epd. exact Rd. }
  clear Hy. destruct Hy' as [Y|Y].
  { rewrite Y in S. replace (feq (z32 (-1)) (z32 (-1))) with true in S by (symmetry; exact z32_m1_feq). injection S as <- <-.
    cbn [t_pd t_sps t_cur t_frames]. split; [reflexivity|]. split; [reflexivity|]. apply lost; assumption. }
  rewrite (feq_m1 _ Y) in S.
  set (f := calculate_frequency _) in S.
  assert (Mf : forall g, measured p (t_sps t) g <-> g = f /\ positive f).
  { intros g. unfold f, calculate_frequency, measured. cbn [t_pd t_sps]. destruct (feq (p_period p) (z32 (-1))).
    - split; [intros (X & _); discriminate|]. intros (_ & X). exfalso. unfold positive in X. revert X. vm_compute. discriminate.
    - split; [intros (_ & -> & X); auto|intros (-> & X); auto]. }
  clearbody f.
  assert (Nm : fgt f fzero = false -> forall g, ~ measured p (t_sps t) g).
  { intros Pf g Mg. apply Mf in Mg. destruct Mg as [_ Mg]. unfold positive in Mg. change (fgt f fzero) with (flt fzero f) in Pf. congruence. }
  destruct Cc as [->|[Pc Lc]].
  { replace (feq (i_freq info0) fzero) with true in S by (vm_compute; reflexivity).
    destruct (fge (p_periodicity p) onset_periodicity) eqn:On; [destruct (fgt f fzero) eqn:Pf|]; cbn [andb] in S; injection S as <- <-;
       cbn [t_pd t_sps t_cur t_frames]; (split; [reflexivity|]); (split; [reflexivity|]).
    - apply onset; auto. apply Mf. split; [reflexivity|exact Pf].
    - apply no_onset; auto.
    - apply no_onset; auto. }
  assert (Nz : feq (i_freq c) fzero = false).
  { destruct (pos_cases _ Pc) as [X|[X1 X2]]; [rewrite X; reflexivity|]. destruct (feq (i_freq c) fzero) eqn:Q; [|reflexivity]. exfalso.
    unfold feq in Q. rewrite Beqb_correct in Q by (auto; reflexivity). destruct (Req_bool_spec (B2R (i_freq c)) (B2R (fzero : f32))) as [Q'|]; [|discriminate].
    rewrite Q' in X2. cbn in X2. lra. }
  rewrite Nz in S. injection S as <- <-.
  set (y := p_periodicity p) in *.
  set (t2 := if flt y min_periodicity then _ else _).
  assert (T2 : t2 = mkPit p c (t_sps t) (count y (t_frames t))) by (unfold t2, count; destruct (flt y min_periodicity); reflexivity).
  rewrite T2. clear t2 T2.
  destruct (fgt f fzero) eqn:Pf.
  2:{ cbn [t_pd t_sps t_cur t_frames]. split; [reflexivity|]. split; [reflexivity|]. apply no_period; auto. }
  assert (Pf' : positive f) by exact Pf. assert (M : measured p (t_sps t) f) by (apply Mf; auto).
  unfold bias. cbn [t_frames t_pd t_cur t_sps].
  pose proof (bias_pick_spec p c (add64 (count y (t_frames t)) 1) (mkInf f y)) as K.
  destruct (bias_pick oob p c (add64 (count y (t_frames t)) 1) (mkInf f y)) as [r sh]. cbn [fst snd] in K.
  assert (Nf : close (i_freq c) f = true <-> near (i_freq c) f) by (apply near_iff; [exact Pc|exact Lc|apply pos_nonneg; exact Pf']).
  assert (Nf' : close (i_freq c) f = false -> ~ near (i_freq c) f) by (intros C X; apply Nf in X; congruence).
  inversion K as [C|m g C L Hm Cg Hg|C Gt|C Gt]; subst r sh; cbn [i_freq i_pty] in *; cbn [t_pd t_sps t_cur t_frames].
  - split; [reflexivity|]. split; [reflexivity|]. apply same_note; auto. apply Nf. exact C.
  - split; [reflexivity|]. split; [reflexivity|]. apply harmonic with f; auto.
    exists m. split; [lia|]. split; [|exact Hg]. apply near_iff; [exact Pc|exact Lc| |exact Cg].
    apply (harm_nonneg f g m); auto. destruct Hg as [[_ ->]|[_ ->]]; auto.
  - fold y. destruct (fge y onset_periodicity) eqn:On; [|rewrite (gt_not_lt y Y Gt)]; cbn [t_pd t_sps t_cur t_frames]; (split; [reflexivity|]); (split; [reflexivity|]).
    + apply shift; auto.
    + apply hold with f; auto.
  - split; [reflexivity|]. split; [reflexivity|]. apply hold with f; auto. apply low_not_onset; assumption.
Qed.

(** whatever is reported is zero or positive, with a periodicity in [0,1] *)
Lemma step_cur t s t' b : cur_ok (t_cur t) -> pit_step oob t s = Some (t', b) ->
  (z_ready (p_zc (t_pd t')) = true -> pty_ok (t_pd t')) -> cur_ok (t_cur t').
Proof.
  intros Hc S Hy. pose proof (proj1 (step_pd _ _ _ _ S)) as Epd.
  unfold pit_step in S. rewrite Epd in S. set (p := t_pd t') in *. clearbody p. cbv beta iota zeta delta [bind] in S.
  set (c := if zc_is_reset (p_zc p) then info0 else t_cur t) in *.
  assert (Cc : cur_ok c) by (unfold c; destruct (zc_is_reset (p_zc p)); [exact cur_ok0|exact Hc]).
  clearbody c. clear Hc Epd. destruct (z_ready (p_zc p)) eqn:Rd; [|injection S as <- <-; exact Cc]. specialize (Hy eq_refl).
  destruct Hy as [Y|Y]; [rewrite Y, z32_m1_feq in S; injection S as <- <-; exact cur_ok0|].
  rewrite (feq_m1 _ Y) in S. set (f := calculate_frequency _) in S. clearbody f.
  assert (Cf : fgt f fzero = true -> cur_ok (mkInf f (p_periodicity p))) by (intros X; split; [right; exact X|exact Y]).
  destruct (feq (i_freq c) fzero) eqn:Z0.
  - destruct (fgt f fzero) eqn:Pf; [|rewrite andb_false_r in S; injection S as <- <-; exact Cc].
    destruct (fge (p_periodicity p) onset_periodicity); cbn [andb] in S; injection S as <- <-; [apply Cf; reflexivity|exact Cc].
  - assert (Pc : positive (i_freq c)).
    { destruct Cc as [[->|P] _]; [|exact P]. exfalso. revert Z0. vm_compute. discriminate. }
    injection S as <- <-. set (t2 := if flt (p_periodicity p) min_periodicity then _ else _).
    assert (T2 : t_cur t2 = c) by (unfold t2; destruct (flt _ _); reflexivity). clearbody t2.
    destruct (fgt f fzero) eqn:Pf; [|rewrite T2; exact Cc]. specialize (Cf eq_refl).
    unfold bias. rewrite T2.
    pose proof (bias_pick_spec (t_pd t2) c (add64 (t_frames t2) 1) (mkInf f (p_periodicity p))) as K.
    destruct (bias_pick oob (t_pd t2) c (add64 (t_frames t2) 1) (mkInf f (p_periodicity p))) as [r sh]. cbn [fst snd] in K.
    assert (Cr : cur_ok r).
    { inversion K as [C|m g C L Hm Cg Hg|C Gt|C Gt]; subst r sh; cbn [i_freq i_pty] in *; try assumption.
      split; [right|exact Y]. cbn [i_freq]. apply (close_pos (i_freq c)); [exact Pc| |exact Cg].
      apply (harm_nonneg f g m); [exact Pf|exact Hm|]. destruct Hg as [[_ ->]|[_ ->]]; auto. }
    destruct sh; [|exact Cr]. destruct (fge _ _); [exact Cr|]. destruct (flt _ _); [exact cur_ok0|exact Cc].
Qed.

Lemma calls_ok hyst n min range sps t0 cs : (n <= 2 ^ 28)%N -> (min < 2 ^ 64)%N -> pit_make hyst n min range sps = Some t0 ->
  exists t, pit_calls oob t0 cs = Some t /\ cur_ok (t_cur t) /\ t_sps t = sps /\
    exists r v e, pd_run oob (t_pd t0) (samples cs) = Some r /\ t_pd t = with_pred r v e /\ (z_ready (p_zc r) = true -> pty_ok r).
Proof.
  intros Hn Hm E0. unfold pit_make in E0. destruct (pd_make hyst n min range) as [p0|] eqn:Em; cbv beta iota zeta delta [bind] in E0; [|discriminate].
  injection E0 as <-. cbn [t_pd].
  assert (Run : forall xs, exists r, pd_run oob p0 xs = Some r /\ (z_ready (p_zc r) = true -> pty_ok r)).
  { intros xs. destruct (pd_final oob hyst n min range xs Hn Hm) as (q0 & r & F0 & F1 & F2). rewrite Em in F0. injection F0 as <-. exists r. split; [exact F1|].
    cbv zeta in F2. destruct F2 as (_ & _ & _ & _ & F2 & _). intros Rd. destruct (F2 Rd) as (_ & _ & Q). exact Q. }
  assert (Sm : forall a b, samples (a ++ b) = samples a ++ samples b).
  { induction a as [|[x|] a IH]; intros b; cbn [app samples]; [reflexivity|rewrite IH; reflexivity|apply IH]. }
  assert (Sn : forall t cs c, pit_calls oob t (cs ++ [c]) = do q <- pit_calls oob t cs ; pit_calls oob q [c]).
  { clear. intros t cs. revert t. induction cs as [|[x|] cs IH]; intros t c; cbn [app pit_calls]; [destruct c; reflexivity| |].
    - destruct (pit_step oob t x); cbn [bind]; [apply IH|reflexivity].
    - destruct (predict_frequency t); cbn [bind]; [apply IH|reflexivity]. }
  set (t0 := mkPit p0 info0 sps 0).
  induction cs as [|c cs IH] using rev_ind.
  - exists t0. split; [reflexivity|]. split; [exact cur_ok0|]. split; [reflexivity|]. destruct (Run []) as (r & Er & Hr). cbn [pd_run] in Er. injection Er as <-.
    exists p0, (p_predicted p0), (p_predict_edge p0). split; [reflexivity|]. split; [symmetry; apply with_pred_id|exact Hr].
  - destruct IH as (t & Et & Ct & St & r & v & e & Er & Ep & _). rewrite Sn, Et, Sm. cbn [bind]. destruct c as [s|]; cbn [pit_calls samples].
    + destruct (Run (samples cs ++ [s])) as (r' & Er' & Hr'). pose proof Er' as Er2. rewrite pd_run_snoc, Er in Er2. cbn [bind] in Er2.
      destruct (step_pred oob r v e s) as (v' & Ev). rewrite Er2 in Ev. cbn [bind] in Ev. rewrite <- Ep in Ev.
      destruct (step_total t s _ Ev) as (t' & b & Es). rewrite Es. cbn [bind fst]. destruct (step_pd _ _ _ _ Es) as [Ed Es'].
      rewrite Ev in Ed. injection Ed as Ed. exists t'. split; [reflexivity|]. split; [|split; [congruence|]].
      * apply (step_cur t s t' b Ct Es). rewrite <- Ed. exact Hr'.
      * exists r', v', e. split; [exact Er'|]. split; [symmetry; exact Ed|exact Hr'].
    + destruct (Run (samples cs ++ [])) as (r' & Er' & Hr'). rewrite app_nil_r in *. rewrite Er in Er'. injection Er' as <-.
      destruct (calls_total oob hyst n min range p0 cs Hn Em) as (q & Eq & Iq).
      unfold predict_frequency.
      destruct (pd_run_ok oob hyst n min range (samples cs) Hn) as (q0 & q' & F0 & F1 & _ & _ & B & M & I & _). rewrite Em in F0. injection F0 as <-.
      rewrite Er in F1. injection F1 as <-.
      destruct (predict_ok_all _ B M _ (pinv_pred _ r v e I)) as (p' & w & Ew & _). rewrite Ep, Ew. cbn [bind fst snd].
      eexists. split; [reflexivity|]. split; [exact Ct|]. split; [exact St|]. destruct (predict_form _ _ _ Ew) as (v1 & e1 & ->).
      exists r, v1, e1. auto.
Qed.

(** octave errors: the rounded ratio is the harmonic number *)
Lemma round_int (x : f32) m : is_finite x = true -> Rabs (B2R x - IZR m) < / 2 -> (0 <= m < 2 ^ 30)%Z -> f2int oob (fround x) = m.
Proof.
  intros F H Hm. destruct (Bnearbyint_correct 24 128 eq_refl mode_NA x) as (V & Ff & _).
  assert (Fr : is_finite (fround x) = true) by (exact (eq_trans Ff F)).
  assert (R : B2R (fround x) = IZR m).
  { assert (V' : B2R (fround x) = round radix2 (FIX_exp 0) ZnearestA (B2R x)) by exact V. rewrite V'.
    unfold round, F2R, scaled_mantissa, cexp, FIX_exp. cbn [Fnum Fexp]. change (bpow radix2 0) with 1. change (bpow radix2 (- 0)) with 1.
    rewrite !Rmult_1_r. f_equal. apply Znearest_imp. exact H. }
  unfold f2int, ftrunc. rewrite Fr.
  assert (T : Btrunc (fround x) = m).
  { apply eq_IZR. rewrite (Btrunc_correct 24 128 _ (fround x)). rewrite R. unfold round, scaled_mantissa, cexp, FIX_exp, F2R. cbn [Fnum Fexp]. cbn [bpow Z.opp].
    rewrite !Rmult_1_r, Ztrunc_IZR. reflexivity. }
  rewrite T. replace (_ && _)%bool with true; [reflexivity|]. symmetry. change (2 ^ 30)%Z with 1073741824%Z in Hm. change (2 ^ 31)%Z with 2147483648%Z. lia.
Qed.
Lemma small_int m : (2 <= m <= 15)%Z -> B2R (z32 m) = IZR m /\ is_finite (z32 m) = true.
Proof.
  intros H. destruct (mk32_small m 0) as [V F]; [change (2 ^ 24)%Z with 16777216%Z; lia|lia|]. change (bpow radix2 0) with 1 in V. rewrite Rmult_1_r in V. split; [exact V|exact F].
Qed.
Lemma sane_pos f : sane f -> positive f. Proof. intros [F H]. apply pos_fin_R; [exact F|]. pose proof (bpow_gt_0 radix2 (-100)). lra. Qed.
Lemma div_near (a b : f32) m : sane a -> sane b -> (2 <= m <= 15)%Z -> Rabs (B2R a / B2R b - IZR m) <= 47 / 100 ->
  f2int oob (fround (fdiv a b)) = m.
Proof.
  intros [Fa Ha] [Fb Hb] Hm H. pose proof (bpow_gt_0 radix2 (-100)). 
  assert (M : 2 <= IZR m <= 15) by (split; apply IZR_le; lia). apply Rabs_le_inv in H.
  assert (F16 : fmt 24 128 16) by (change 16 with (bpow radix2 4); apply fmt_bpow; unfold SpecFloat.emin; lia).
  destruct (fdiv_bnd a b 16 Fa) as (V & F & _); [lra|exact F16|change 16 with (bpow radix2 4); apply bpow_lt; lia|apply Rabs_le; lra|].
  pose proof (rnd_err_all (B2R a / B2R b)) as E. rewrite <- V in E. rewrite (Rabs_pos_eq (B2R a / B2R b)) in E by lra.
  assert (T : bpow radix2 (-150) <= / 67108864) by (change (/ 67108864) with (bpow radix2 (-26)); apply bpow_le; lia).
  apply round_int; [exact F| |change (2 ^ 30)%Z with 1073741824%Z; lia]. apply Rabs_le_inv in E. apply Rabs_lt. lra.
Qed.
Lemma harmonic_pick p c fr f y m : sane (i_freq c) -> sane f -> harmonic_ratio (i_freq c) f m -> (1 < fr)%N ->
  snd (bias_pick oob p c fr (mkInf f y)) = false /\ near (i_freq c) (i_freq (fst (bias_pick oob p c fr (mkInf f y)))) /\
  i_pty (fst (bias_pick oob p c fr (mkInf f y))) = y.
Proof.
  intros Sc Sf [Hm R] Lf. pose proof (sane_pos _ Sc) as Pc. pose proof (sane_pos _ Sf) as Pf. pose proof Sc as [Fc Hc]. pose proof Sf as [Ff Hf].
  assert (Nq : forall g, positive g -> (close (i_freq c) g = true <-> near (i_freq c) g)).
  { intros g Pg. apply near_iff; [exact Pc|intros _; lra|apply pos_nonneg; exact Pg]. }
  unfold bias_pick. cbv zeta. cbn [i_freq i_pty]. fold (close (i_freq c) f). destruct (close (i_freq c) f) eqn:C.
  { cbn [fst snd i_freq i_pty]. split; [reflexivity|]. split; [apply Nq; assumption|reflexivity]. }
  replace (1 <? fr)%N with true by (symmetry; apply N.ltb_lt; exact Lf).
  destruct (small_int m Hm) as [Vm Fm]. assert (M : 2 <= IZR m <= 15) by (split; apply IZR_le; lia).
  pose proof (bpow_gt_0 radix2 (-100)) as B0.
  assert (T : bpow radix2 (-150) <= / 67108864 * bpow radix2 (-100)).
  { change (/ 67108864) with (bpow radix2 (-26)). rewrite <- bpow_plus. apply bpow_le. lia. }
  assert (B127 : 16 * bpow radix2 100 <= bpow radix2 120) by (change 16 with (bpow radix2 4); rewrite <- bpow_plus; apply bpow_le; lia).
  assert (F120 : fmt 24 128 (bpow radix2 120)) by (apply fmt_bpow; unfold SpecFloat.emin; lia).
  assert (L120 : bpow radix2 120 < bpow radix2 128) by (apply bpow_lt; lia).
  set (cv := B2R (i_freq c)) in *. set (fv := B2R f) in *.
  destruct R as [[L R]|[L R]].
  - replace (fgt (i_freq c) f) with true by (symmetry; change (fgt (i_freq c) f) with (flt f (i_freq c)); apply (flt_true _ _ Ff Fc); exact L).
    rewrite (div_near (i_freq c) f m Sc Sf Hm).
    2:{ fold cv fv. apply Rabs_le_inv in R. apply Rabs_le. 
        assert (Q1 : cv / fv * fv = cv) by (field; lra). assert (Rl : cv / fv <= 1547 / 100).
        { apply (Rmult_le_reg_r fv); [lra|]. rewrite Q1.
          assert (IZR m * fv <= 15 * fv) by (apply Rmult_le_compat_r; lra). lra. }
        split; apply (Rmult_le_reg_r fv); try lra; rewrite Rmult_minus_distr_r, Q1.
        - assert (cv <= 1547 / 100 * fv) by (rewrite <- Q1 at 1; apply Rmult_le_compat_r; lra). lra.
        - assert (cv <= 1547 / 100 * fv) by (rewrite <- Q1 at 1; apply Rmult_le_compat_r; lra). lra. }
    replace (1 <? m)%Z with true by (symmetry; apply Z.ltb_lt; lia).
    assert (Pr : 0 <= fv * IZR m <= 16 * bpow radix2 100).
    { split; [apply Rmult_le_pos; lra|]. apply Rle_trans with (fv * 15); [apply Rmult_le_compat_l; lra|]. lra. }
    destruct (fmul_bnd f (z32 m) (bpow radix2 120) Ff Fm F120 L120) as (V & F & _); [rewrite Vm; fold fv; apply Rabs_le; lra|].
    rewrite Vm in V. fold fv in V.
    assert (Ng : near (i_freq c) (fmul f (z32 m))).
    { split; [exact Fc|]. split; [exact F|]. fold cv. pose proof (rnd_err_all (fv * IZR m)) as E. rewrite <- V in E. rewrite (Rabs_pos_eq (fv * IZR m)) in E by lra.
      apply Rabs_le_inv in R, E. replace (IZR m * fv) with (fv * IZR m) in R by ring. apply Rabs_lt. lra. }
    assert (Pg : positive (fmul f (z32 m))).
    { apply pos_fin_R; [exact F|]. destruct Ng as (_ & _ & Q). fold cv in Q. apply Rabs_lt_inv in Q. lra. }
    fold (close (i_freq c) (fmul f (z32 m))). rewrite (proj2 (Nq _ Pg) Ng). cbn [fst snd i_freq i_pty]. auto.
  - replace (fgt (i_freq c) f) with false by (symmetry; change (fgt (i_freq c) f) with (flt f (i_freq c)); apply (flt_false _ _ Ff Fc); exact L).
    assert (Q1 : fv / IZR m * IZR m = fv) by (field; lra). assert (Q2 : fv / cv * cv = fv) by (field; lra).
    rewrite (div_near f (i_freq c) m Sf Sc Hm).
    2:{ fold cv fv. apply Rabs_le_inv in R. apply Rabs_le.
        assert (K : - (cv / 33 * IZR m) <= fv - IZR m * cv <= cv / 33 * IZR m).
        { rewrite <- Q1 at 1 2. split.
          - assert (0 <= (cv / 33 - (cv - fv / IZR m)) * IZR m) by (apply Rmult_le_pos; lra). lra.
          - assert (0 <= (cv - fv / IZR m + cv / 33) * IZR m) by (apply Rmult_le_pos; lra). lra. }
        assert (K2 : cv / 33 * IZR m <= cv / 33 * 15) by (apply Rmult_le_compat_l; lra).
        split; apply (Rmult_le_reg_r cv); try lra; rewrite Rmult_minus_distr_r, Q2; lra. }
    replace (1 <? m)%Z with true by (symmetry; apply Z.ltb_lt; lia).
    assert (Pr : 0 <= fv / IZR m <= bpow radix2 100).
    { split; [apply Rmult_le_pos; [lra|left; apply Rinv_0_lt_compat; lra]|]. apply (Rmult_le_reg_r (IZR m)); [lra|]. rewrite Q1.
      apply Rle_trans with (bpow radix2 100 * 1); [lra|]. apply Rmult_le_compat_l; [apply bpow_ge_0|lra]. }
    destruct (fdiv_bnd f (z32 m) (bpow radix2 120) Ff) as (V & F & _); [lra|exact F120|exact L120|rewrite Vm; fold fv; apply Rabs_le; lra|].
    rewrite Vm in V. fold fv in V.
    assert (Ng : near (i_freq c) (fdiv f (z32 m))).
    { split; [exact Fc|]. split; [exact F|]. fold cv. pose proof (rnd_err_all (fv / IZR m)) as E. rewrite <- V in E. rewrite (Rabs_pos_eq (fv / IZR m)) in E by lra.
      apply Rabs_le_inv in R, E. apply Rabs_lt. lra. }
    assert (Pg : positive (fdiv f (z32 m))).
    { apply pos_fin_R; [exact F|]. destruct Ng as (_ & _ & Q). fold cv in Q. apply Rabs_lt_inv in Q. lra. }
    fold (close (i_freq c) (fdiv f (z32 m))). rewrite (proj2 (Nq _ Pg) Ng). cbn [fst snd i_freq i_pty]. auto.
Qed.
Lemma harmonic_step t s t' b f m : sane (i_freq (t_cur t)) -> pit_step oob t s = Some (t', b) -> (z_ready (p_zc (t_pd t')) = true -> pty_ok (t_pd t')) ->
  z_ready (p_zc (t_pd t')) = true -> zc_is_reset (p_zc (t_pd t')) = false -> p_periodicity (t_pd t') <> z32 (-1) ->
  measured (t_pd t') (t_sps t) f -> sane f -> harmonic_ratio (i_freq (t_cur t)) f m ->
  (1 < add64 (count (p_periodicity (t_pd t')) (t_frames t)) 1)%N ->
  near (i_freq (t_cur t)) (i_freq (t_cur t')) /\ i_pty (t_cur t') = p_periodicity (t_pd t') /\ is_note_shift t' = false.
Proof.
  intros Sc S Hy Rd Nr Np Me Sf R Lf. pose proof (proj1 (step_pd _ _ _ _ S)) as Epd. specialize (Hy Rd). destruct Hy as [Y|Y]; [congruence|].
  unfold pit_step in S. rewrite Epd in S. set (p := t_pd t') in *. clearbody p. cbv beta iota zeta delta [bind] in S. rewrite Rd, Nr, (feq_m1 _ Y) in S.
  destruct Me as (M1 & M2 & M3).
  assert (Ef : calculate_frequency (mkPit p (t_cur t) (t_sps t) (t_frames t)) = f) by (unfold calculate_frequency; cbn [t_pd t_sps]; rewrite M1; symmetry; exact M2).
  rewrite Ef in S. clear Ef M2 M1.
  assert (Nz : feq (i_freq (t_cur t)) fzero = false).
  { destruct Sc as [X1 X2]. destruct (feq (i_freq (t_cur t)) fzero) eqn:Q; [|reflexivity]. exfalso.
    unfold feq in Q. rewrite Beqb_correct in Q by (auto; reflexivity). destruct (Req_bool_spec (B2R (i_freq (t_cur t))) (B2R (fzero : f32))) as [Q'|]; [|discriminate].
    rewrite Q' in X2. pose proof (bpow_gt_0 radix2 (-100)). change (B2R (fzero : f32)) with 0 in X2. lra. }
  rewrite Nz in S. change (fgt f fzero) with (flt fzero f) in S. rewrite M3 in S.
  set (y := p_periodicity p) in *.
  set (t2 := if flt y min_periodicity then _ else _) in S.
  assert (T2 : t2 = mkPit p (t_cur t) (t_sps t) (count y (t_frames t))) by (unfold t2, count; destruct (flt y min_periodicity); reflexivity).
  rewrite T2 in S. clear t2 T2. unfold bias in S. cbn [t_pd t_cur t_frames t_sps] in S.
  destruct (harmonic_pick p (t_cur t) _ f y m Sc Sf R Lf) as (K1 & K2 & K3).
  destruct (bias_pick oob p (t_cur t) (add64 (count y (t_frames t)) 1) (mkInf f y)) as [r sh]. cbn [fst snd] in *. rewrite K1 in S.
  apply (f_equal (fun o => match o with Some x => fst x | None => t' end)) in S. cbn [fst] in S. subst t'. cbn [t_cur t_frames]. split; [exact K2|]. split; [exact K3|].
  unfold is_note_shift. cbn [t_frames]. apply N.eqb_neq. lia.
Qed.
End Steps.
