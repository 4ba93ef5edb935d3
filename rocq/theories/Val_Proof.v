(** Proofs for Val_Model / Val_Spec. *)
From Coq Require Import ZArith NArith Reals Bool Lra Lia.
From Flocq Require Import Core.Core IEEE754.BinarySingleNaN.
From Verif Require Import Float FloatFacts FloatRel Val_Model Val_Spec.
Open Scope R_scope.
Local Notation rd := (rnd 53 1024).
Local Notation M := (bpow radix2 1024).

Lemma M_pos : 0 < M. Proof. apply bpow_gt_0. Qed.

Lemma carried_fin (x : f64) : fin x -> carried x = B2R x.
Proof. destruct x; try discriminate; reflexivity. Qed.

Lemma carried_lt (x : f64) : fin x -> - M < carried x < M.
Proof. intros H; rewrite (carried_fin x H). pose proof (fin_lt_emax x) as F. apply Rabs_def2 in F. lra. Qed.

Lemma cases (x : f64) : is_number x -> fin x \/ x = B754_infinity false \/ x = B754_infinity true.
Proof. destruct x as [| [|] | |]; intros H; try discriminate H; auto; left; reflexivity. Qed.

Lemma lt_iff (x y : f64) : is_number x -> is_number y -> (flt x y = true <-> carried x < carried y).
Proof.
  intros Hx Hy. pose proof M_pos as P.
  destruct (cases x Hx) as [Fx|[Ex|Ex]], (cases y Hy) as [Fy|[Ey|Ey]].
  - rewrite (carried_fin x Fx), (carried_fin y Fy). apply flt_true; assumption.
  - pose proof (carried_lt x Fx). subst y. destruct x as [s| | |s m e b]; try discriminate Fx.
    + split; [intros _; change (carried (B754_infinity false)) with M; lra|intros _; reflexivity].
    + split; [intros _; change (carried (B754_infinity false)) with M; lra|intros _; destruct s; reflexivity].
  - pose proof (carried_lt x Fx). subst y. destruct x as [s| | |s m e b]; try discriminate Fx.
    + split; [intros E; discriminate E|change (carried (B754_infinity true)) with (- M); intros; exfalso; lra].
    + split; [intros E; destruct s; discriminate E|change (carried (B754_infinity true)) with (- M); intros; exfalso; lra].
  - pose proof (carried_lt y Fy). subst x. destruct y as [s| | |s m e b]; try discriminate Fy.
    + split; [intros E; discriminate E|change (carried (B754_infinity false)) with M; intros; exfalso; lra].
    + split; [intros E; destruct s; discriminate E|change (carried (B754_infinity false)) with M; intros; exfalso; lra].
  - subst. split; [intros E; discriminate E|intros; exfalso; lra].
  - subst. split; [intros E; discriminate E|cbn [carried]; intros; exfalso; lra].
  - pose proof (carried_lt y Fy). subst x. destruct y as [s| | |s m e b]; try discriminate Fy.
    + split; [intros _; change (carried (B754_infinity true)) with (- M); lra|intros _; reflexivity].
    + split; [intros _; change (carried (B754_infinity true)) with (- M); lra|intros _; destruct s; reflexivity].
  - subst. split; [intros _; cbn [carried]; lra|intros _; reflexivity].
  - subst. split; [intros E; discriminate E|intros; exfalso; lra].
Qed.

Lemma not_nan (x : f64) : is_number x -> x <> B754_nan. Proof. intros H ->; discriminate H. Qed.

Lemma cmp_some (x y : f64) : is_number x -> is_number y -> exists c, Bcompare x y = Some c.
Proof.
  intros Hx Hy. destruct x as [[|]|[|]| |[|] m e b], y as [[|]|[|]| |[|] m' e' b']; try discriminate Hx; try discriminate Hy;
    unfold Bcompare, SpecFloat.SFcompare; simpl; eauto.
Qed.

Lemma lt_le (x y : f64) : is_number x -> is_number y -> (fle x y = true <-> flt y x = false).
Proof.
  intros Hx Hy. unfold fle, flt, Bleb, Bltb, SpecFloat.SFleb, SpecFloat.SFltb.
  destruct (cmp_some x y Hx Hy) as [c Ec]. pose proof (Bcompare_swap 53 1024 x y) as S. unfold Bcompare in Ec, S. rewrite Ec in S |- *.
  rewrite S. destruct c; cbn; split; congruence.
Qed.

Lemma le_iff (x y : f64) : is_number x -> is_number y -> (fle x y = true <-> carried x <= carried y).
Proof.
  intros Hx Hy. rewrite (lt_le x y Hx Hy). pose proof (lt_iff y x Hy Hx) as L. destruct (flt y x).
  - split; [discriminate|]. intros. destruct L as [L _]. specialize (L eq_refl). exfalso; lra.
  - split; [|reflexivity]. intros _. destruct (Rle_or_lt (carried x) (carried y)) as [Q|Q]; [exact Q|].
    apply L in Q. discriminate.
Qed.

Lemma eq_le (x y : f64) : is_number x -> is_number y -> (feq x y = true <-> fle x y = true /\ fle y x = true).
Proof.
  intros Hx Hy. unfold fle, feq, Bleb, Beqb, SpecFloat.SFleb, SpecFloat.SFeqb.
  destruct (cmp_some x y Hx Hy) as [c Ec]. pose proof (Bcompare_swap 53 1024 x y) as S. unfold Bcompare in Ec, S. rewrite Ec in S |- *.
  rewrite S. destruct c; cbn; split; intuition congruence.
Qed.

Lemma eq_iff (x y : f64) : is_number x -> is_number y -> (feq x y = true <-> carried x = carried y).
Proof.
  intros Hx Hy. rewrite (eq_le x y Hx Hy), (le_iff x y Hx Hy), (le_iff y x Hy Hx). lra.
Qed.

(** a result as a clamped rounding, overflow included *)
Definition clamp (r : R) : R := Rmax (- M) (Rmin M r).
Lemma clamp_le a b : a <= b -> clamp a <= clamp b.
Proof. intros. unfold clamp. apply Rle_max_compat_l. apply Rle_min_compat_l. assumption. Qed.
Lemma clamp_in r : Rabs r < M -> clamp r = r.
Proof. intros H. apply Rabs_def2 in H. unfold clamp. rewrite Rmin_right by lra. rewrite Rmax_right by lra. reflexivity. Qed.
Lemma clamp_hi r : M <= r -> clamp r = M.
Proof. intros H. pose proof M_pos. unfold clamp. rewrite Rmin_left by lra. rewrite Rmax_right by lra. reflexivity. Qed.
Lemma clamp_lo r : r <= - M -> clamp r = - M.
Proof. intros H. pose proof M_pos. unfold clamp. rewrite Rmin_right by lra. rewrite Rmax_left by lra. reflexivity. Qed.
Lemma clamp_opp r : clamp (- r) = - clamp r.
Proof.
  pose proof M_pos. destruct (Rlt_or_le (Rabs r) M) as [H1|H1].
  - rewrite !clamp_in; [reflexivity|assumption|rewrite Rabs_Ropp; assumption].
  - unfold Rabs in H1. destruct (Rcase_abs r).
    + rewrite clamp_hi, clamp_lo; lra.
    + rewrite clamp_lo, clamp_hi; lra.
Qed.
Lemma rd_sign r : (0 <= r -> 0 <= rd r) /\ (r <= 0 -> rd r <= 0).
Proof. split; intros; [apply rnd_ge_fmt|apply rnd_le_fmt]; try apply fmt_0; assumption. Qed.

(** IEEE overflow result under round-to-nearest: the infinity of that sign *)
Lemma overflow_inf (z : f64) (s : bool) : B2SF z = binary_overflow 53 1024 mode_NE s -> z = B754_infinity s.
Proof. intros E. cbn in E. destruct z; cbn in E; try discriminate E. injection E as ->. reflexivity. Qed.

Lemma carried_add (x y : f64) : fin x -> fin y -> is_number (fadd x y) /\ carried (fadd x y) = clamp (rd (B2R x + B2R y)).
Proof.
  intros Hx Hy. destruct (Rlt_or_le (Rabs (rd (B2R x + B2R y))) M) as [L|L].
  - destruct (fadd_R x y Hx Hy L) as [E F]. split; [destruct (fadd x y); try discriminate F; reflexivity|].
    rewrite (carried_fin _ F), E, clamp_in by assumption. reflexivity.
  - pose proof (Bplus_correct 53 1024 _ _ mode_NE x y Hx Hy) as C.
    cbv zeta in C. change (round radix2 (SpecFloat.fexp 53 1024) (round_mode mode_NE) (B2R x + B2R y)) with (rd (B2R x + B2R y)) in C.
    rewrite Rlt_bool_false in C by exact L. destruct C as [C S]. apply overflow_inf in C.
    change (Bplus mode_NE x y) with (fadd x y) in C. rewrite C. split; [reflexivity|].
    assert (Sx : Bsign x = true -> B2R x <= 0) by (intros B; destruct x as [| | |s m e b]; try discriminate Hx; cbn in B |- *; subst; [lra|apply Rlt_le, F2R_lt_0; reflexivity]).
    assert (Sx' : Bsign x = false -> 0 <= B2R x) by (intros B; destruct x as [| | |s m e b]; try discriminate Hx; cbn in B |- *; subst; [lra|apply Rlt_le, F2R_gt_0; reflexivity]).
    assert (Sy : Bsign y = true -> B2R y <= 0) by (intros B; destruct y as [| | |s m e b]; try discriminate Hy; cbn in B |- *; subst; [lra|apply Rlt_le, F2R_lt_0; reflexivity]).
    assert (Sy' : Bsign y = false -> 0 <= B2R y) by (intros B; destruct y as [| | |s m e b]; try discriminate Hy; cbn in B |- *; subst; [lra|apply Rlt_le, F2R_gt_0; reflexivity]).
    pose proof M_pos as P. destruct (rd_sign (B2R x + B2R y)) as [R1 R2]. destruct (Bsign x).
    + change (carried (B754_infinity true)) with (- M). rewrite clamp_lo; [reflexivity|].
      assert (B2R x + B2R y <= 0) by (pose proof (Sx eq_refl); pose proof (Sy (eq_sym S)); lra).
      specialize (R2 H). rewrite Rabs_left1 in L by assumption. lra.
    + change (carried (B754_infinity false)) with M. rewrite clamp_hi; [reflexivity|].
      assert (0 <= B2R x + B2R y) by (pose proof (Sx' eq_refl); pose proof (Sy' (eq_sym S)); lra).
      specialize (R1 H). rewrite Rabs_pos_eq in L by assumption. lra.
Qed.

Lemma fsub_fadd (x y : f64) : fsub x y = fadd x (fneg y).
Proof.
  unfold fsub, fadd, fneg. destruct x as [[|]|[|]| |sx mx ex bx], y as [[|]|[|]| |sy my ey by_]; try reflexivity.
Qed.
Lemma carried_neg (x : f64) : carried (fneg x) = - carried x.
Proof.
  destruct x as [s|[|]| |s m e b].
  - change (0 = - 0). ring.
  - change (M = - - M). ring.
  - change (- M = - M). reflexivity.
  - change (0 = - 0). ring.
  - change (B2R (fneg (B754_finite s m e b)) = - B2R (B754_finite s m e b)). apply B2R_Bopp.
Qed.
Lemma neg_number (x : f64) : is_number x -> is_number (fneg x).
Proof. destruct x; intros H; try discriminate H; reflexivity. Qed.

Lemma carried_sub (x y : f64) : fin x -> fin y -> is_number (fsub x y) /\ carried (fsub x y) = clamp (rd (B2R x - B2R y)).
Proof.
  intros Hx Hy. rewrite fsub_fadd. destruct (carried_add x (fneg y) Hx (fneg_fin' y Hy)) as [N E]. split; [exact N|].
  rewrite E, fneg_R'. reflexivity.
Qed.

Lemma sign_R (x : f64) : fin x -> (Bsign x = true -> B2R x <= 0) /\ (Bsign x = false -> 0 <= B2R x).
Proof.
  intros Hx. split; intros B; destruct x as [| | |s m e b]; try discriminate Hx; cbn in B |- *; subst;
    [lra|apply Rlt_le, F2R_lt_0; reflexivity|lra|apply Rlt_le, F2R_gt_0; reflexivity].
Qed.

Lemma over_sign (r : R) (s : bool) : M <= Rabs (rd r) -> (s = true -> r <= 0) -> (s = false -> 0 <= r) ->
  carried (B754_infinity s) = clamp (rd r).
Proof.
  intros L A B. pose proof M_pos as P. destruct (rd_sign r) as [R1 R2]. destruct s.
  - change (carried (B754_infinity true)) with (- M). rewrite clamp_lo; [reflexivity|].
    specialize (R2 (A eq_refl)). rewrite Rabs_left1 in L by assumption. lra.
  - change (carried (B754_infinity false)) with M. rewrite clamp_hi; [reflexivity|].
    specialize (R1 (B eq_refl)). rewrite Rabs_pos_eq in L by assumption. lra.
Qed.

Lemma carried_mul (x y : f64) : fin x -> fin y -> is_number (fmul x y) /\ carried (fmul x y) = clamp (rd (B2R x * B2R y)).
Proof.
  intros Hx Hy. destruct (Rlt_or_le (Rabs (rd (B2R x * B2R y))) M) as [L|L].
  - destruct (fmul_R x y Hx Hy L) as [E F]. split; [destruct (fmul x y); try discriminate F; reflexivity|].
    rewrite (carried_fin _ F), E, clamp_in by assumption. reflexivity.
  - pose proof (Bmult_correct 53 1024 _ _ mode_NE x y) as C.
    cbv zeta in C. change (round radix2 (SpecFloat.fexp 53 1024) (round_mode mode_NE) (B2R x * B2R y)) with (rd (B2R x * B2R y)) in C.
    rewrite Rlt_bool_false in C by exact L. apply overflow_inf in C.
    change (Bmult mode_NE x y) with (fmul x y) in C. rewrite C. split; [reflexivity|].
    destruct (sign_R x Hx) as [A1 A2], (sign_R y Hy) as [B1 B2].
    apply over_sign; [exact L| |]; intros E; destruct (Bsign x), (Bsign y); try discriminate E.
    + specialize (A1 eq_refl); specialize (B2 eq_refl). nra.
    + specialize (A2 eq_refl); specialize (B1 eq_refl). nra.
    + specialize (A1 eq_refl); specialize (B1 eq_refl). nra.
    + specialize (A2 eq_refl); specialize (B2 eq_refl). nra.
Qed.

Lemma carried_div (x y : f64) : fin x -> fin y -> B2R y <> 0 ->
  is_number (fdiv x y) /\ carried (fdiv x y) = clamp (rd (B2R x / B2R y)).
Proof.
  intros Hx Hy Z. destruct (Rlt_or_le (Rabs (rd (B2R x / B2R y))) M) as [L|L].
  - destruct (fdiv_R x y Hx Z L) as [E F]. split; [destruct (fdiv x y); try discriminate F; reflexivity|].
    rewrite (carried_fin _ F), E, clamp_in by assumption. reflexivity.
  - pose proof (Bdiv_correct 53 1024 _ _ mode_NE x y Z) as C.
    cbv zeta in C. change (round radix2 (SpecFloat.fexp 53 1024) (round_mode mode_NE) (B2R x / B2R y)) with (rd (B2R x / B2R y)) in C.
    rewrite Rlt_bool_false in C by exact L. apply overflow_inf in C.
    change (Bdiv mode_NE x y) with (fdiv x y) in C. rewrite C. split; [reflexivity|].
    destruct (sign_R x Hx) as [A1 A2], (sign_R y Hy) as [B1 B2].
    assert (Pi : 0 < B2R y -> 0 < / B2R y) by apply Rinv_0_lt_compat.
    assert (Ni : B2R y < 0 -> / B2R y < 0) by apply Rinv_lt_0_compat.
    apply over_sign; [exact L| |]; intros E; destruct (Bsign x), (Bsign y); try discriminate E; unfold Rdiv.
    + specialize (A1 eq_refl); specialize (B2 eq_refl). assert (0 < / B2R y) by (apply Pi; lra). nra.
    + specialize (A2 eq_refl); specialize (B1 eq_refl). assert (/ B2R y < 0) by (apply Ni; lra). nra.
    + specialize (A1 eq_refl); specialize (B1 eq_refl). assert (/ B2R y < 0) by (apply Ni; lra). nra.
    + specialize (A2 eq_refl); specialize (B2 eq_refl). assert (0 < / B2R y) by (apply Pi; lra). nra.
Qed.

Lemma largest_fmt : fmt 53 1024 largest.
Proof.
  unfold largest. replace (bpow radix2 1024 - bpow radix2 971) with (IZR (2 ^ 53 - 1) * bpow radix2 971).
  - apply fmt_F2R; [vm_compute; reflexivity|unfold SpecFloat.emin; lia].
  - rewrite minus_IZR. replace 1024%Z with (53 + 971)%Z by reflexivity. rewrite bpow_plus. change (bpow radix2 53) with (IZR (2 ^ 53)). ring.
Qed.
Lemma largest_lt : largest < M.
Proof. unfold largest. pose proof (bpow_gt_0 radix2 971). lra. Qed.

Lemma nearest_rd (x : f64) r : fin x -> B2R x = rd r -> nearest x r.
Proof.
  intros F E. split; [exact F|]. intros z Hz. rewrite E.
  destruct (round_N_pt radix2 (fx (prec:=53) (emax:=1024)) (fun z => negb (Z.even z)) r) as [_ Q].
  apply Q. apply fmt_v.
Qed.
Lemma range_ok r : Rabs r <= largest -> Rabs (rd r) < M.
Proof. intros H. apply Rle_lt_trans with largest; [apply rnd_abs_le; [apply largest_fmt|exact H]|apply largest_lt]. Qed.

Lemma nearest_eq (x z : f64) : fin z -> nearest x (B2R z) -> B2R x = B2R z.
Proof.
  intros Fz [F H]. specialize (H z Fz). unfold Rminus in H. rewrite (Rplus_opp_r (B2R z)), Rabs_R0 in H.
  pose proof (Rabs_pos (B2R x + - B2R z)). assert (E : Rabs (B2R x + - B2R z) = 0) by lra. destruct (Req_dec (B2R x + - B2R z) 0) as [Q|Q]; [lra|].
  apply Rabs_no_R0 in Q. lra.
Qed.

(** relative error of a quotient in the normal range *)
Lemma recip_rel r : bpow radix2 (-1022) <= Rabs r -> exists d, Rabs d <= / 9007199254740992 /\ rd r = r * (1 + d).
Proof.
  intros H. pose proof (rnd_rel64 r H) as E. assert (P : 0 < Rabs r) by (pose proof (bpow_gt_0 radix2 (-1022)); lra).
  assert (N : r <> 0) by (intros ->; rewrite Rabs_R0 in P; lra).
  exists ((rd r - r) / r). split.
  - unfold Rdiv. rewrite Rabs_mult, Rabs_inv. apply (Rmult_le_reg_r (Rabs r)); [exact P|].
    rewrite Rmult_assoc, Rinv_l, Rmult_1_r; lra.
  - field. exact N.
Qed.

Lemma one64 : B2R (mk64 1 0) = 1 /\ fin (mk64 1 0).
Proof. destruct (mk64_small 1 0) as [E F]; [reflexivity|lia|]. split; [rewrite E; change (bpow radix2 0) with 1; ring|exact F]. Qed.

Lemma recip_range f : bpow radix2 (-1022) <= Rabs f <= bpow radix2 1022 -> f <> 0 /\ bpow radix2 (-1022) <= Rabs (1 / f) <= bpow radix2 1022.
Proof.
  intros [A B]. pose proof (bpow_gt_0 radix2 (-1022)) as P. assert (N : f <> 0) by (intros ->; rewrite Rabs_R0 in A; lra).
  split; [exact N|]. unfold Rdiv. rewrite Rmult_1_l, Rabs_inv. split.
  - change (-1022)%Z with (- (1022))%Z. rewrite bpow_opp. apply Rinv_le_contravar; [lra|exact B].
  - change 1022%Z with (- (-1022))%Z at 1. rewrite (bpow_opp radix2 (-1022)). apply Rinv_le_contravar; [exact P|exact A].
Qed.
Lemma bp_small r : Rabs r <= bpow radix2 1022 -> Rabs r <= largest.
Proof.
  intros H. apply Rle_trans with (1 := H). unfold largest. pose proof (bpow_le radix2 971 1022 ltac:(lia)). pose proof (bpow_gt_0 radix2 971).
  replace 1024%Z with (2 + 1022)%Z by reflexivity. rewrite bpow_plus. change (bpow radix2 2) with 4. lra.
Qed.

Lemma period_R (f : f64) : fin f -> bpow radix2 (-1022) <= Rabs (B2R f) <= bpow radix2 1022 ->
  fin (fdiv (mk64 1 0) f) /\ B2R (fdiv (mk64 1 0) f) = rd (1 / B2R f) /\
  (bpow radix2 (-1022) <= Rabs (B2R (fdiv (mk64 1 0) f)) <= bpow radix2 1022) /\
  exists d, Rabs d <= / 9007199254740992 /\ B2R (fdiv (mk64 1 0) f) = / B2R f * (1 + d).
Proof.
  intros F H. destruct (recip_range _ H) as [N [A B]]. destruct one64 as [E1 F1].
  destruct (fdiv_R (mk64 1 0) f F1 N) as [E G]; [rewrite E1; apply range_ok, bp_small, B|]. rewrite E1 in E.
  split; [exact G|]. split; [exact E|]. split.
  - rewrite E. split.
    + destruct (Rle_or_lt 0 (1 / B2R f)) as [P|P].
      * rewrite Rabs_pos_eq in A by exact P. rewrite Rabs_pos_eq by (apply rd_sign; exact P).
        apply rnd_ge_fmt; [apply fmt_bpow; unfold SpecFloat.emin; lia|exact A].
      * rewrite Rabs_left in A by exact P. rewrite Rabs_left1 by (apply rd_sign; lra). rewrite <- rnd_opp.
        apply rnd_ge_fmt; [apply fmt_bpow; unfold SpecFloat.emin; lia|exact A].
    + apply rnd_abs_le; [apply fmt_bpow; unfold SpecFloat.emin; lia|exact B].
  - destruct (recip_rel _ A) as (d & Hd & Ed). exists d. split; [exact Hd|]. rewrite E, Ed. unfold Rdiv. ring.
Qed.
