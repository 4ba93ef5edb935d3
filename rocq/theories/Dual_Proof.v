(** Proofs for the dual pitch detector. *)
From Coq Require Import Reals Lra.
From Flocq Require Import Core.Core IEEE754.BinarySingleNaN.
From Flocq Require Mult_error.
From Verif Require Import Common CommonFacts Float FloatFacts FloatRel FloatLerp Zc_Model PD_Model PD_Spec PD_Proof PD_Pred PD_Props Pitch_Model Pitch_Spec Pitch_Proof Filt_Model Dual_Model Dual_Spec.
Local Open Scope R_scope.
Local Notation rn := (rnd 24 128).

Lemma z32_2 : B2R (z32 2) = 2 /\ is_finite (z32 2) = true.
Proof. destruct (mk32_small 2 0) as [V F]; [reflexivity|lia|]. change (bpow radix2 0) with 1 in V. rewrite Rmult_1_r in V. split; [exact V|exact F]. Qed.
Lemma z32_10 : B2R (z32 10) = 10 /\ is_finite (z32 10) = true.
Proof. destruct (mk32_small 10 0) as [V F]; [reflexivity|lia|]. change (bpow radix2 0) with 1 in V. rewrite Rmult_1_r in V. split; [exact V|exact F]. Qed.

(** scaling by a power of two within range is exact *)
Lemma fmt_double (x : f32) : fmt 24 128 (2 * B2R x).
Proof.
  unfold fmt. replace (2 * B2R x) with (B2R x * bpow radix2 1) by (change (bpow radix2 1) with 2; ring).
  apply (Mult_error.mult_bpow_pos_exact_FLT radix2 (3 - 128 - 24) 24); [apply fmt_v|lia].
Qed.
Lemma fmt_half (x : f32) : bpow radix2 (-100) <= B2R x -> fmt 24 128 (B2R x / 2).
Proof.
  intros H. unfold fmt. replace (B2R x / 2) with (B2R x * bpow radix2 (-1)) by (change (bpow radix2 (-1)) with (/ 2); reflexivity).
  apply (Mult_error.mult_bpow_exact_FLT radix2 (3 - 128 - 24) 24); [apply fmt_v|].
  assert (m : (-99 <= mag radix2 (B2R x))%Z).
  { apply mag_ge_bpow. change (-99 - 1)%Z with (-100)%Z. rewrite Rabs_pos_eq; [exact H|]. pose proof (bpow_gt_0 radix2 (-100)). lra. }
  lia.
Qed.

Lemma big x : Rabs x <= bpow radix2 102 -> Rabs (rn x) < bpow radix2 128.
Proof.
  intros H. apply Rle_lt_trans with (bpow radix2 102); [|apply bpow_lt; lia].
  apply rnd_abs_le; [apply fmt_bpow; unfold SpecFloat.emin; lia|exact H].
Qed.
Lemma b102 : bpow radix2 102 = 4 * bpow radix2 100. Proof. change 102%Z with (2 + 100)%Z. rewrite bpow_plus. reflexivity. Qed.

Lemma octave_iff (m f : f32) : sane m -> is_finite f = true -> (within_octave m f = true <-> octave m f).
Proof.
  intros [Fm [Lm Um]] Ff. unfold within_octave, octave, fgt. change (Bltb m f) with (flt m f).
  change (Bltb (fdiv m (z32 2)) f) with (flt (fdiv m (z32 2)) f).
  pose proof (bpow_gt_0 radix2 (-100)) as P. pose proof b102 as B.
  destruct z32_2 as [E2 F2].
  destruct (fmul_exact m (z32 2) Fm F2) as [Em Gm]; [rewrite E2, Rmult_comm; apply fmt_double| |].
  { rewrite E2. apply Rle_lt_trans with (bpow radix2 102); [rewrite Rabs_pos_eq; lra|apply bpow_lt; lia]. }
  assert (N2 : B2R (z32 2) <> 0) by lra.
  destruct (fdiv_R m (z32 2) Fm N2) as [Ed Gd]; [rewrite E2; apply big; rewrite Rabs_pos_eq; lra|].
  rewrite E2, rnd_fmt in Ed by (apply fmt_half; exact Lm). rewrite E2 in Em.
  pose proof (flt_true m f Fm Ff) as Q1. pose proof (flt_true f (fmul m (z32 2)) Ff Gm) as Q2. pose proof (flt_true (fdiv m (z32 2)) f Gd Ff) as Q3.
  rewrite Em in Q2. rewrite Ed in Q3. destruct (flt m f) eqn:E.
  - destruct Q1 as [Q1 _]. specialize (Q1 eq_refl). rewrite Q2. lra.
  - assert (B2R f <= B2R m) by (apply flt_false in E; assumption). rewrite Q3. lra.
Qed.

Definition sane0 (i : info) : Prop := is_finite (i_freq i) = true /\ 0 <= B2R (i_freq i) <= bpow radix2 100.

Lemma choose_nearer (a b : info) m : sane0 a -> sane0 b -> sane m -> nearer a b m (dual_choose a b m).
Proof.
  intros [Fa Ha] [Fb Hb] [Fm Hm]. unfold nearer, dual_choose. pose proof (bpow_gt_0 radix2 (-100)) as P. pose proof b102 as B.
  destruct (fsub_R (i_freq a) m Fa Fm) as [Ea Ga]; [apply big; apply Rabs_le; lra|].
  destruct (fsub_R (i_freq b) m Fb Fm) as [Eb Gb]; [apply big; apply Rabs_le; lra|].
  destruct (fabs_R (fsub (i_freq a) m)) as [Aa Ka]. destruct (fabs_R (fsub (i_freq b) m)) as [Ab Kb]. rewrite Ga in Ka. rewrite Gb in Kb.
  pose proof (flt_true _ _ Ka Kb) as Q. pose proof (flt_false _ _ Ka Kb) as Q'.
  assert (RA : forall x, Rabs (rn x) = rn (Rabs x)).
  { intros x. unfold Rabs at 2. destruct (Rcase_abs x) as [N|N].
    - rewrite rnd_opp. apply Rabs_left1. apply rnd_le_fmt; [apply fmt_0|lra].
    - apply Rabs_pos_eq. apply rnd_ge_fmt; [apply fmt_0|lra]. }
  rewrite Aa, Ab, Ea, Eb, !RA in Q, Q'.
  destruct (flt (fabs (fsub (i_freq a) m)) (fabs (fsub (i_freq b) m))).
  - left. split; [reflexivity|]. destruct Q as [Q _]. specialize (Q eq_refl).
    destruct (Rle_or_lt (Rabs (B2R (i_freq b) - B2R m)) (Rabs (B2R (i_freq a) - B2R m))) as [L|L]; [|exact L].
    apply (rnd_le (prec:=24) (emax:=128)) in L. lra.
  - right. split; [reflexivity|]. destruct Q' as [Q' _]. exact (Q' eq_refl).
Qed.

Lemma ema8 : B2R (ema_b 8) = 14913081 / 67108864 /\ is_finite (ema_b 8) = true /\ B2R (ema_b' 8) = 13048946 / 16777216 /\ is_finite (ema_b' 8) = true.
Proof.
  destruct (mk32_small 14913081 (-26)) as [E1 F1]; [reflexivity|lia|]. destruct (mk32_small 13048946 (-24)) as [E2 F2]; [reflexivity|lia|].
  assert (G1 : is_finite (ema_b 8) = true) by (vm_compute; reflexivity).
  assert (G2 : is_finite (ema_b' 8) = true) by (vm_compute; reflexivity).
  assert (T1 : feq (ema_b 8) (mk32 14913081 (-26)) = true) by (vm_compute; reflexivity).
  assert (T2 : feq (ema_b' 8) (mk32 13048946 (-24)) = true) by (vm_compute; reflexivity).
  apply (feq_true _ _ G1 F1) in T1. apply (feq_true _ _ G2 F2) in T2. rewrite T1, T2, E1, E2.
  change (bpow radix2 (-26)) with (/ 67108864). change (bpow radix2 (-24)) with (/ 16777216). repeat split; assumption.
Qed.

Lemma average_ok (m f : f32) : sane m -> is_finite f = true -> octave m f ->
  is_finite (dual_average m f) = true /\ Rabs (B2R (dual_average m f) - (2 / 9 * B2R f + 7 / 9 * B2R m)) <= / 2097152 * B2R m.
Proof.
  intros [Fm [Lm Um]] Ff [O1 O2]. destruct ema8 as (E1 & F1 & E2 & F2). unfold dual_average, ema_step.
  pose proof (bpow_gt_0 radix2 (-100)) as P. pose proof b102 as B.
  assert (T : bpow radix2 (-150) <= / 1099511627776 * B2R m).
  { apply Rle_trans with (/ 1099511627776 * bpow radix2 (-100)); [|apply Rmult_le_compat_l; lra].
    change (/ 1099511627776) with (bpow radix2 (-40)). rewrite <- bpow_plus. apply bpow_le. lia. }
  assert (G1 : is_finite (fmul (ema_b 8) f) = true /\ B2R (fmul (ema_b 8) f) = rn (B2R (ema_b 8) * B2R f)).
  { destruct (fmul_R (ema_b 8) f F1 Ff) as [E F]; [apply big; rewrite E1; apply Rabs_le; split; lra|]. split; [exact F|exact E]. }
  assert (G2 : is_finite (fmul (ema_b' 8) m) = true /\ B2R (fmul (ema_b' 8) m) = rn (B2R (ema_b' 8) * B2R m)).
  { destruct (fmul_R (ema_b' 8) m F2 Fm) as [E F]; [apply big; rewrite E2; apply Rabs_le; split; lra|]. split; [exact F|exact E]. }
  destruct G1 as [G1 H1]. destruct G2 as [G2 H2].
  pose proof (rnd_err_all (B2R (ema_b 8) * B2R f)) as R1. pose proof (rnd_err_all (B2R (ema_b' 8) * B2R m)) as R2.
  rewrite <- H1 in R1. rewrite <- H2 in R2. rewrite E1 in R1. rewrite E2 in R2.
  rewrite (Rabs_pos_eq (_ * B2R f)) in R1 by lra. rewrite (Rabs_pos_eq (_ * B2R m)) in R2 by lra.
  apply Rabs_le_inv in R1, R2.
  destruct (fadd_R _ _ G1 G2) as [E F]; [apply big; apply Rabs_le; lra|].
  split; [exact F|]. pose proof (rnd_err_all (B2R (fmul (ema_b 8) f) + B2R (fmul (ema_b' 8) m))) as R3. rewrite <- E in R3.
  rewrite (Rabs_pos_eq (_ + _)) in R3 by lra. apply Rabs_le_inv in R3. apply Rabs_le. lra.
Qed.

Section D.
Variable oob : f32 -> Z.
Hypothesis Ho : forall x, (- 2 ^ 31 <= oob x < 2 ^ 31)%Z.
Context (hyst : f32) (n min : N) (range : Z) (sps : N) (Hn : (n <= 2 ^ 28)%N) (Hm : (min < 2 ^ 64)%N) (t0 : pit)
  (E0 : pit_make hyst n min range sps = Some t0).

Lemma calls_snoc t cs c : pit_calls oob t (cs ++ [c]) = do q <- pit_calls oob t cs ; pit_calls oob q [c].
Proof.
  revert t. induction cs as [|[x|] cs IH]; intros t; cbn [app pit_calls]; [destruct c; reflexivity| |].
  - destruct (pit_step oob t x); cbn [bind]; [apply IH|reflexivity].
  - destruct (predict_frequency t); cbn [bind]; [apply IH|reflexivity].
Qed.
Lemma samples_snoc cs c : samples (cs ++ [c]) = samples cs ++ samples [c].
Proof. induction cs as [|[x|] cs IH]; cbn [app samples]; [destruct c; reflexivity|cbn; f_equal; exact IH|exact IH]. Qed.

(** a pitch detector after the samples [xs], predictions in between *)
Definition after (t : pit) (xs : list f32) : Prop := exists cs, pit_calls oob t0 cs = Some t /\ samples cs = xs.

Lemma after_step t xs s : after t xs -> exists t' b, pit_step oob t s = Some (t', b) /\ after t' (xs ++ [s]).
Proof.
  intros (cs & E & S). destruct (calls_ok oob Ho hyst n min range sps t0 (cs ++ [Sample s]) Hn Hm E0) as (t2 & E2 & _).
  rewrite calls_snoc, E in E2. cbn [bind pit_calls] in E2. destruct (pit_step oob t s) as [[t' b]|] eqn:Es; cbn [bind fst] in E2; [|discriminate].
  injection E2 as <-. exists t', b. split; [reflexivity|]. exists (cs ++ [Sample s]). split.
  - rewrite calls_snoc, E. cbn [bind pit_calls]. rewrite Es. reflexivity.
  - rewrite samples_snoc, S. reflexivity.
Qed.
Lemma after_predict t xs : after t xs -> exists t' f, predict_frequency t = Some (t', f) /\ after t' xs /\ t_cur t' = t_cur t.
Proof.
  intros (cs & E & S). destruct (calls_ok oob Ho hyst n min range sps t0 (cs ++ [Predict]) Hn Hm E0) as (t2 & E2 & _).
  rewrite calls_snoc, E in E2. cbn [bind pit_calls] in E2. destruct (predict_frequency t) as [[t' b]|] eqn:Es; cbn [bind fst] in E2; [|discriminate].
  injection E2 as <-. exists t', b. split; [reflexivity|]. split.
  - exists (cs ++ [Predict]). split.
    + rewrite calls_snoc, E. cbn [bind pit_calls]. rewrite Es. reflexivity.
    + rewrite samples_snoc, S. apply app_nil_r.
  - unfold predict_frequency in Es. destruct (pd_predict (t_pd t)) as [[p v]|]; cbn [bind fst snd] in Es; [|discriminate].
    injection Es as <- _. reflexivity.
Qed.
Lemma after_cur t xs : after t xs -> cur_ok (t_cur t).
Proof.
  intros (cs & E & S). destruct (calls_ok oob Ho hyst n min range sps t0 cs Hn Hm E0) as (t2 & E2 & C & _).
  rewrite E in E2. injection E2 as <-. exact C.
Qed.
Lemma indet_iff t xs : after t xs -> (indeterminate t = true <-> no_pitch (t_cur t)).
Proof.
  intros A. destruct (after_cur t xs A) as [[C|C] _]; unfold indeterminate, no_pitch.
  - rewrite C. split; reflexivity.
  - destruct (pos_cases _ C) as [I|[F P]].
    + rewrite I. split; [discriminate|]. discriminate.
    + split.
      * intros Q. apply feq_true in Q; [|assumption|reflexivity]. change (B2R (fzero : f32)) with 0 in Q. lra.
      * intros Q. rewrite Q in P. change (B2R (fzero : f32)) with 0 in P. lra.
Qed.

Definition dinv (d : dual) (xs : list f32) : Prop :=
  after (d_1 d) xs /\ after (d_2 d) (map fneg xs) /\ cur_ok (d_cur d) /\ (d_pred d = fzero \/ positive (d_pred d)).

Lemma compute_ok d xs : dinv d xs -> exists c, dual_compute d = Some c /\ dinv c xs /\ d_cur c = d_cur d /\ d_mean c = d_mean d /\ d_first c = d_first d /\
  t_cur (d_1 c) = t_cur (d_1 d) /\ t_cur (d_2 c) = t_cur (d_2 d).
Proof.
  intros (A1 & A2 & C & P). unfold dual_compute. destruct (after_predict _ _ A1) as (t1 & f1 & E1 & B1 & K1). rewrite E1. cbn [bind fst snd].
  destruct (fgt f1 fzero) eqn:G1.
  - destruct (after_predict _ _ A2) as (t2 & f2 & E2 & B2 & K2). rewrite E2. cbn [bind fst snd]. eexists. split; [reflexivity|].
    unfold dinv. cbn [d_1 d_2 d_cur d_mean d_first d_pred]. repeat split; try assumption; try apply C.
    match goal with |- context [if ?b then _ else _] => destruct b end; [right; exact G1|left; reflexivity].
  - eexists. split; [reflexivity|]. unfold dinv. cbn [d_1 d_2 d_cur d_mean d_first d_pred]. repeat split; try assumption; try apply C. left. reflexivity.
Qed.

Lemma choose_one a b m : dual_choose a b m = a \/ dual_choose a b m = b.
Proof. unfold dual_choose. match goal with |- context [if ?b then _ else _] => destruct b end; auto. Qed.

Lemma dstep_ok d xs s : dinv d xs -> exists d' b, dual_step oob d s = Some (d', b) /\ dinv d' (xs ++ [s]).
Proof.
  intros (A1 & A2 & C & P). unfold dual_step. destruct (after_step _ _ s A1) as (t1 & b1 & E1 & B1). destruct (after_step _ _ (fneg s) A2) as (t2 & b2 & E2 & B2).
  rewrite E1. cbn [bind]. rewrite E2. cbn [bind fst snd].
  assert (B2' : after t2 (map fneg (xs ++ [s]))) by (rewrite map_app; exact B2). clear B2. rename B2' into B2.
  set (i := dual_choose (t_cur t1) (t_cur t2) (d_mean d)).
  assert (Ci : cur_ok i) by (unfold i; destruct (choose_one (t_cur t1) (t_cur t2) (d_mean d)) as [Q|Q]; rewrite Q; [exact (after_cur _ _ B1)|exact (after_cur _ _ B2)]).
  destruct (b1 || b2)%bool.
  - set (a := if (negb (indeterminate t1) && negb (indeterminate t2))%bool then _ else _).
    assert (Ia : dinv a (xs ++ [s])).
    { unfold a, dinv. destruct (negb (indeterminate t1) && negb (indeterminate t2))%bool; [destruct (d_first d); [|destruct (within_octave (d_mean d) (i_freq i))]|];
      cbn [d_1 d_2 d_cur d_mean d_first d_pred]; (split; [assumption|split; [assumption|split; [assumption|auto]]]). }
    destruct (indeterminate t1 && indeterminate t2)%bool.
    + destruct (compute_ok a _ Ia) as (c & Ec & (I1 & I2 & I3 & I4) & _). rewrite Ec. cbn [bind]. eexists _, _. split; [reflexivity|].
      unfold dinv. cbn [d_1 d_2 d_cur d_mean d_first d_pred]. split; [assumption|split; [assumption|split; [apply cur_ok0|assumption]]].
    + eexists _, _. split; [reflexivity|exact Ia].
  - eexists _, _. split; [reflexivity|]. unfold dinv. cbn [d_1 d_2 d_cur d_mean d_first d_pred]. split; [assumption|split; [assumption|split; assumption]].
Qed.
Lemma dpredict_ok d xs : dinv d xs -> exists d' f, dual_predict d = Some (d', f) /\ dinv d' xs /\ f = d_pred d'.
Proof.
  intros I. unfold dual_predict. destruct (feq (d_pred d) fzero).
  - destruct (compute_ok d _ I) as (c & Ec & Ic & _). rewrite Ec. cbn [bind]. eauto.
  - cbn [bind]. eauto.
Qed.

Lemma dcalls_ok cs d xs : dinv d xs -> exists d', dual_calls oob d cs = Some d' /\ dinv d' (xs ++ samples cs).
Proof.
  revert d xs. induction cs as [|[s|] cs IH]; intros d xs I; cbn [dual_calls samples].
  - exists d. split; [reflexivity|]. cbn [app]. rewrite app_nil_r. exact I.
  - destruct (dstep_ok d xs s I) as (d' & b & E & I'). rewrite E. cbn [bind fst]. destruct (IH d' _ I') as (d'' & E' & I''). exists d''. split; [exact E'|].
    rewrite <- app_assoc in I''. exact I''.
  - destruct (dpredict_ok d xs I) as (d' & b & E & I' & _). rewrite E. cbn [bind fst]. destruct (IH d' _ I') as (d'' & E' & I''). exists d''. split; [exact E'|exact I''].
Qed.

(** the outcome of one sample, for sane readings and mean *)
Lemma dstep_outcome d xs s d' b : dinv d xs -> dual_step oob d s = Some (d', b) -> sane (d_mean d) -> sane0 (t_cur (d_1 d')) -> sane0 (t_cur (d_2 d')) ->
  dual_outcome (t_cur (d_1 d')) (t_cur (d_2 d')) (d_cur d) (d_mean d) b (d_first d) (d_cur d') (d_mean d') (d_first d').
Proof.
  intros (A1 & A2 & C & P) E Sm. unfold dual_step in E. destruct (after_step _ _ s A1) as (t1 & b1 & E1 & B1). destruct (after_step _ _ (fneg s) A2) as (t2 & b2 & E2 & B2).
  rewrite E1 in E. cbn [bind] in E. rewrite E2 in E. cbn [bind fst snd] in E.
  assert (B2' : after t2 (map fneg (xs ++ [s]))) by (rewrite map_app; exact B2). clear B2. rename B2' into B2.
  pose proof (indet_iff _ _ B1) as N1. pose proof (indet_iff _ _ B2) as N2.
  destruct (b1 || b2)%bool.
  - destruct (indeterminate t1), (indeterminate t2); cbn [negb andb] in E.
    + destruct (compute_ok (mkDual t1 t2 (d_cur d) (d_mean d) (d_pred d) (d_first d)) (xs ++ [s])) as (c & Ec & _ & K1 & K2 & K3 & K4 & K5).
      { unfold dinv. cbn [d_1 d_2 d_cur d_mean d_first d_pred]. auto. }
      rewrite Ec in E. cbn [bind] in E. injection E as <- <-. cbn [d_1 d_2 d_cur d_mean d_first d_pred] in *. intros S1 S2. rewrite K2, K3, K4, K5.
      apply du_lost; [apply N1|apply N2]; reflexivity.
    + injection E as <- <-. cbn [d_1 d_2 d_cur d_mean d_first]. intros _ _. apply du_half. left. split; [apply N1; reflexivity|]. intros Q. apply N2 in Q. discriminate.
    + injection E as <- <-. cbn [d_1 d_2 d_cur d_mean d_first]. intros _ _. apply du_half. right. split; [|apply N2; reflexivity]. intros Q. apply N1 in Q. discriminate.
    + assert (Q1 : ~ no_pitch (t_cur t1)) by (intros Q; apply N1 in Q; discriminate). assert (Q2 : ~ no_pitch (t_cur t2)) by (intros Q; apply N2 in Q; discriminate).
      set (i := dual_choose (t_cur t1) (t_cur t2) (d_mean d)) in *.
      destruct (d_first d).
      * injection E as <- <-. cbn [d_1 d_2 d_cur d_mean d_first]. intros S1 S2. apply du_first; [exact Q1|exact Q2|]. apply choose_nearer; assumption.
      * destruct (within_octave (d_mean d) (i_freq i)) eqn:W; injection E as <- <-; cbn [d_1 d_2 d_cur d_mean d_first]; intros S1 S2;
          pose proof (choose_nearer _ _ _ S1 S2 Sm) as Nr; fold i in Nr;
          (assert (Fi : is_finite (i_freq i) = true) by (unfold i; destruct (choose_one (t_cur t1) (t_cur t2) (d_mean d)) as [Q|Q]; rewrite Q; [apply S1|apply S2]));
          pose proof (octave_iff _ _ Sm Fi) as O; rewrite W in O.
        -- assert (O' : octave (d_mean d) (i_freq i)) by (apply O; reflexivity). apply du_accept; try assumption. apply average_ok; assumption.
        -- apply (du_reject _ _ _ _ i); try assumption. intros Q. apply O in Q. discriminate.
  - injection E as <- <-. cbn [d_1 d_2 d_cur d_mean d_first]. intros _ _. apply du_idle.
Qed.
End D.
