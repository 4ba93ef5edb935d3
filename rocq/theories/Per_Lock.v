(** C55 for the reports of the dual pitch detector. *)
From Coq Require Import Reals Lra.
From Flocq Require Import Core.Core IEEE754.BinarySingleNaN.
From Verif Require Import Common CommonFacts Float FloatFacts FloatRel Zc_Model Zc_Spec Zc_Proof PD_Model PD_Spec PD_Proof PD_Pred
  Pitch_Model Pitch_Spec Pitch_Proof Filt_Model Dual_Model Dual_Spec Dual_Proof Per_Spec Per_Zc Per_Ana Per_Proof Per_Pred Per_Dual.
Local Open Scope Z_scope.

(** the signal fed to the second detector *)
Definition negated (x : Z -> f32) (k : Z) : f32 := fneg (x k).
Lemma first_negated x k : first_samples (negated x) k = map fneg (first_samples x k).
Proof. unfold first_samples, negated. rewrite map_map. reflexivity. Qed.

(** predictions leave the reports alone *)
Lemma pit_step_sim oob t v e s t' b : pit_step oob t s = Some (t', b) ->
  exists v', pit_step oob (mkPit (with_pred (t_pd t) v e) (t_cur t) (t_sps t) (t_frames t)) s =
    Some (mkPit (with_pred (t_pd t') v' e) (t_cur t') (t_sps t') (t_frames t'), b).
Proof.
  intros E. destruct (PD_Pred.step_pred oob (t_pd t) v e s) as (v' & Ev). exists v'. unfold pit_step in *. cbn [t_pd t_cur t_sps t_frames]. rewrite Ev.
  destruct (pd_step oob (t_pd t) s) as [q|]; cbn [bind] in *; [|discriminate]. cbv zeta in *.
  unfold calculate_frequency in *. cbn [t_pd t_sps] in *.
  change (p_zc (with_pred q v' e)) with (p_zc q). change (p_periodicity (with_pred q v' e)) with (p_periodicity q).
  change (p_period (with_pred q v' e)) with (p_period q).
  destruct (z_ready (p_zc q)); [|injection E as <- <-; reflexivity].
  destruct (feq (p_periodicity q) (z32 (-1))); [injection E as <- <-; reflexivity|].
  destruct (feq (i_freq _) fzero); [destruct (_ && _)%bool; injection E as <- <-; reflexivity|].
  injection E as <- <-. f_equal. f_equal.
  destruct (fgt _ fzero); [|destruct (flt _ _); reflexivity].
  destruct (flt (p_periodicity q) min_periodicity); unfold bias; cbn [t_pd t_cur t_sps t_frames];
    change (bias_pick oob (with_pred q v' e)) with (bias_pick oob q); change (p_periodicity (with_pred q v' e)) with (p_periodicity q);
    destruct (bias_pick _ _ _ _ _) as [r [|]]; cbn [t_pd t_cur t_sps t_frames]; try reflexivity;
    destruct (fge _ _); try reflexivity; destruct (flt _ _); reflexivity.
Qed.
Lemma pit_sim oob t0 cs : forall t, pit_calls oob t0 cs = Some t ->
  exists u v e, pit_calls oob t0 (map Sample (samples cs)) = Some u /\ t = mkPit (with_pred (t_pd u) v e) (t_cur u) (t_sps u) (t_frames u).
Proof.
  assert (Sn : forall q cs c, pit_calls oob q (cs ++ [c]) = do r <- pit_calls oob q cs ; pit_calls oob r [c]).
  { clear. intros q cs. revert q. induction cs as [|[x|] cs IH]; intros q c; cbn [app pit_calls]; [destruct c; reflexivity| |].
    - destruct (pit_step oob q x); cbn [bind]; [apply IH|reflexivity].
    - destruct (predict_frequency q); cbn [bind]; [apply IH|reflexivity]. }
  induction cs as [|c cs IH] using rev_ind; intros t E.
  - injection E as <-. exists t0, (p_predicted (t_pd t0)), (p_predict_edge (t_pd t0)). split; [reflexivity|]. rewrite with_pred_id. destruct t0; reflexivity.
  - rewrite Sn in E. destruct (pit_calls oob t0 cs) as [q|] eqn:Eq; cbn [bind] in E; [|discriminate]. destruct (IH q eq_refl) as (u & v & e & Eu & Q).
    rewrite samples_snoc. destruct c as [s|]; cbn [pit_calls samples] in *.
    + rewrite map_app. cbn [map]. rewrite Sn, Eu. cbn [bind pit_calls].
      destruct (pit_step oob q s) as [[q' b]|] eqn:Es; cbn [bind fst] in E; [|discriminate]. injection E as <-.
      destruct (pit_step oob u s) as [[u' b']|] eqn:Eu'.
      * destruct (pit_step_sim oob u v e s u' b' Eu') as (v' & F). rewrite <- Q, Es in F. injection F as -> ->. exists u', v', e. split; [reflexivity|reflexivity].
      * exfalso. unfold pit_step in Es, Eu'. rewrite Q in Es. cbn [t_pd] in Es. destruct (PD_Pred.step_pred oob (t_pd u) v e s) as (v' & Ev). rewrite Ev in Es.
        destruct (pd_step oob (t_pd u) s) as [p|]; cbn [bind] in *; [|discriminate Es]. cbv zeta in Eu'.
        destruct (z_ready (p_zc p)); [|discriminate]. destruct (feq _ _); [discriminate|]. destruct (feq _ _); [destruct (_ && _)%bool; discriminate|discriminate].
    + rewrite app_nil_r. exists u. unfold predict_frequency in E. destruct (pd_predict (t_pd q)) as [[p w]|] eqn:Ep; cbn [bind fst snd] in E; [|discriminate].
      injection E as <-. destruct (predict_form _ _ _ Ep) as (v2 & e2 & ->). exists v2, e2. split; [exact Eu|]. rewrite Q. reflexivity.
Qed.
(** a report is made exactly when an analysis was, unless nothing is reported *)
Lemma pit_step_flag oob t s t' b : pit_step oob t s = Some (t', b) -> z_ready (p_zc (t_pd t')) = true -> t_cur t' <> info0 -> b = true.
Proof.
  intros E R N. destruct (pit_step_pd _ _ _ _ _ E) as [Ep _]. unfold pit_step in E. rewrite Ep in E. cbn [bind] in E. cbv zeta in E. rewrite R in E.
  destruct (feq (p_periodicity (t_pd t')) (z32 (-1))).
  - exfalso. apply N. assert (Q : mkPit (t_pd t') info0 (t_sps t) (t_frames t) = t') by congruence. rewrite <- Q. reflexivity.
  - destruct (feq _ _); [destruct (_ && _)%bool|]; injection E as _ <-; reflexivity.
Qed.

Section Report.
Variables (oob : f32 -> Z) (hyst : f32) (nw min : N) (range : Z) (x : Z -> f32) (P a c : Z) (p0 : pd).
Hypothesis Hn : (nw <= 2 ^ 28)%N.
Hypothesis E0 : pd_make hyst nw min range = Some p0.
Notation W := (z_win (p_zc p0)).
Hypothesis OP : one_pulse (cond_of hyst x) hyst P a c.
Hypothesis HP : 4 <= P < 2 ^ 24.
Hypothesis HPW : 2 * P <= Z.of_N W.
Hypothesis HM : P + 2 <= 2 * (Z.of_N (N.max (W / 64 / 2 - 1) 1) * 64).
Hypothesis ST : is_finite (fsub (cond_of hyst x a) (cond_of hyst x (a - 1))) = true.
Hypothesis Mn : Z.of_N min <= P.
Definition analysed (j : nat) : Prop := exists p, pd_run oob p0 (first_samples x j) = Some p /\ z_ready (p_zc p) = true.

Lemma report_within k : a <= Z.of_nat k -> exists j, Z.of_nat k < Z.of_nat j <= Z.of_nat k + Z.of_N W + P /\ analysed j.
Proof using All.
  intros Hk.
  destruct (left_facts oob hyst nw min range x P a c p0 Hn E0 OP HP HPW HM ST Mn) as (D0 & D2 & Dq & OP' & HA & ST' & Da & Dc).
  set (D := left_out a p0) in *.
  pose proof (run_per oob hyst nw min range x P (a - D) (c - D) D (fun k => cond_of hyst x (k + D)) p0 Hn E0 D0 D2 Dq (fun k => eq_refl) OP' HA HP HPW HM ST' Mn) as RP.
  assert (X : forall i, (exists j, Z.of_nat k < Z.of_nat j <= Z.of_nat (k + i) /\ analysed j) \/
     (i = 0%nat \/ exists p, pd_run oob p0 (first_samples x (k + i)) = Some p /\ z_ready (p_zc p) = false /\ Z.of_nat i <= Z.of_N (z_frame (p_zc p)))).
  { induction i as [|i IH]; [right; left; reflexivity|]. destruct IH as [(j & Hj & A)|IH]; [left; exists j; split; [lia|exact A]|].
    destruct (RP (k + i)%nat ltac:(lia)) as (p & z & m & E & J & Er & Tr & Zz & I & _).
    destruct (pd_step_per oob hyst nw min range x P (a - D) (c - D) D (fun k => cond_of hyst x (k + D)) p0 Hn E0 D0 D2 Dq (fun k => eq_refl) OP' HA HP HPW HM ST' Mn p (k + i) z m E J Er Tr ltac:(lia) I)
      as (p' & m' & E' & J' & Es & I' & _ & _ & _ & S2).
    assert (Er' : pd_run oob p0 (first_samples x (k + S i)) = Some p').
    { replace (k + S i)%nat with (S (k + i)) by lia. rewrite first_snoc, pd_run_snoc, Er. exact Es. }
    destruct (z_ready (p_zc p')) eqn:R.
    - left. exists (k + S i)%nat. split; [lia|]. exists p'. auto.
    - right. right. exists p'. split; [exact Er'|]. split; [exact R|]. destruct (S2 eq_refl) as [S3 _]. rewrite S3.
      destruct IH as [->|(q & Eq & Rq & Fq)]; [lia|]. assert (q = p) by congruence. subst q.
      destruct i as [|i]; [lia|]. rewrite <- (Zz ltac:(lia)). lia. }
  set (i := Z.to_nat (Z.of_N W + P)). assert (Ei : Z.of_nat i = Z.of_N W + P) by (unfold i; lia).
  destruct (X i) as [(j & Hj & A)|[X1|(p & Er & R & F)]]; [exists j; split; [lia|exact A]|exfalso; lia|exfalso].
  destruct (RP (k + i)%nat ltac:(lia)) as (q & z & m & E & J & Eq & Tr & Zz & I & _). assert (q = p) by congruence. subst q.
  specialize (Zz ltac:(lia)). subst z.
  pose proof (now_bound oob hyst nw min range x P (a - D) (c - D) D (fun k => cond_of hyst x (k + D)) p0 Hn E0 D0 D2 Dq (fun k => eq_refl) OP' HA HP HPW HM ST' Mn _ _ _ _ _ I) as B.
  unfold zc_now in B. rewrite R in B. lia.
Qed.

Hypothesis Ho : forall y, (- 2 ^ 31 <= oob y < 2 ^ 31)%Z.
Hypothesis Hm : (min < 2 ^ 64)%N.
Variables (sps : N) (t0 : pit).
Hypothesis Hs : (1 <= sps < 2 ^ 24)%N.
Hypothesis Et : pit_make hyst nw min range sps = Some t0.
Definition at_freq : info := mkInf (freq P sps) (z32 1).
Lemma t0_pd : t_pd t0 = p0.
Proof using E0 Et. unfold pit_make in Et. rewrite E0 in Et. cbn [bind] in Et. injection Et as <-. reflexivity. Qed.
Lemma after_freq t k : after oob t0 t (first_samples x k) -> a + Z.of_N W + Z.of_N W / 2 + P <= Z.of_nat k -> t_cur t = at_freq.
Proof using All.
  intros (cs & E & S) Hk. destruct (pit_sim oob t0 cs t E) as (u & v & e & Eu & ->). rewrite S in Eu. cbn [t_cur].
  destruct (any_pitch oob hyst nw min range x P a c p0 Hn E0 OP HP HPW HM ST Mn sps t0 k Hs Et (or_intror Hk)) as (w & Ew & C).
  assert (w = u) by congruence. subst w. exact C.
Qed.
Lemma after_ready t k : after oob t0 t (first_samples x k) -> analysed k -> z_ready (p_zc (t_pd t)) = true.
Proof using Ho Hn Hm E0 Et.
  intros (cs & E & S) (p & Ep & R). destruct (calls_ok oob Ho hyst nw min range sps t0 cs Hn Hm Et) as (u & Eu & _ & _ & r & v & e & Er & Q & _).
  assert (u = t) by congruence. subst u. rewrite t0_pd, S, Ep in Er. injection Er as <-. rewrite Q. exact R.
Qed.
End Report.

Section Lock.
Variables (oob : f32 -> Z) (hyst : f32) (nw min : N) (range : Z) (x : Z -> f32) (P a c a' c' : Z) (p0 : pd).
Hypothesis Hn : (nw <= 2 ^ 28)%N.
Hypothesis E0 : pd_make hyst nw min range = Some p0.
Notation W := (z_win (p_zc p0)).
Hypothesis OP : one_pulse (cond_of hyst x) hyst P a c.
Hypothesis OP2 : one_pulse (cond_of hyst (negated x)) hyst P a' c'.
Hypothesis HP : 4 <= P < 2 ^ 24.
Hypothesis HPW : 2 * P <= Z.of_N W.
Hypothesis HM : P + 2 <= 2 * (Z.of_N (N.max (W / 64 / 2 - 1) 1) * 64).
Hypothesis ST : is_finite (fsub (cond_of hyst x a) (cond_of hyst x (a - 1))) = true.
Hypothesis ST2 : is_finite (fsub (cond_of hyst (negated x) a') (cond_of hyst (negated x) (a' - 1))) = true.
Hypothesis Mn : Z.of_N min <= P.
Hypothesis Ho : forall y, (- 2 ^ 31 <= oob y < 2 ^ 31)%Z.
Hypothesis Hm : (min < 2 ^ 64)%N.
Variables (sps : N) (t0 : pit).
Hypothesis Hs : (1 <= sps < 2 ^ 24)%N.
Hypothesis Et : pit_make hyst nw min range sps = Some t0.
Notation F := (freq P sps).
Definition after_onset (k : nat) : Prop := Z.max a a' + Z.of_N W + Z.of_N W / 2 + P <= Z.of_nat k.

Lemma fv : fin F /\ (/ 16777216 <= B2R F <= 16777216)%R.
Proof using All.
  destruct (any_freq oob hyst nw min range x P a c p0 Hn E0 OP HP HPW HM ST Mn sps Hs) as (Ff & V & L). split; [exact Ff|].
  change (bpow radix2 (-24)) with (/ 16777216)%R in L. split; [exact L|]. rewrite V.
  change (2 ^ 24)%N with 16777216%N in Hs. change (2 ^ 24) with 16777216 in HP.
  assert (BP : (4 <= IZR P)%R) by (apply IZR_le; lia).
  assert (BS : (1 <= IZR (Z.of_N sps) <= 16777216)%R) by (split; apply IZR_le; lia).
  apply rnd_le_fmt; [change 16777216%R with (bpow radix2 24); apply fmt_bpow; unfold SpecFloat.emin; lia|].
  assert (IP : (0 <= / IZR P <= 1)%R).
  { split; [apply Rlt_le, Rinv_0_lt_compat; lra|]. rewrite <- Rinv_1. apply Rinv_le; lra. }
  unfold Rdiv. rewrite <- (Rmult_1_r 16777216). apply Rmult_le_compat; lra.
Qed.
Lemma at_freq_ne : at_freq P sps <> info0 /\ feq F fzero = false.
Proof using All.
  assert (G : feq F fzero = false).
  { destruct fv as [Ff V]. destruct (feq F fzero) eqn:Q; [|reflexivity]. exfalso. apply feq_true in Q; [|exact Ff|reflexivity]. change (B2R (fzero : f32)) with 0%R in Q. lra. }
  split; [|exact G]. intros X. unfold at_freq, info0 in X. injection X as X _. rewrite X in G. discriminate.
Qed.
(** the running mean is less than an octave away *)
Definition good (m : f32) : Prop := sane m /\ octave m F.
Lemma good_here : good F.
Proof using All.
  destruct fv as [Ff V]. split; [split; [exact Ff|]|unfold octave; lra].
  assert (bpow radix2 (-100) <= / 33554432)%R by (change (/ 33554432)%R with (bpow radix2 (-25)); apply bpow_le; lia).
  assert (33554432 <= bpow radix2 100)%R by (change 33554432%R with (bpow radix2 25); apply bpow_le; lia). lra.
Qed.
Lemma good_average m : good m -> good (dual_average m F).
Proof using All.
  intros [S O]. destruct fv as [Ff V]. destruct (average_ok m F S Ff O) as [G D]. apply Rabs_le_inv in D. unfold octave in *.
  split; [split; [exact G|]|unfold octave; lra].
  assert (bpow radix2 (-100) <= / 268435456)%R by (change (/ 268435456)%R with (bpow radix2 (-28)); apply bpow_le; lia).
  assert (268435456 <= bpow radix2 100)%R by (change 268435456%R with (bpow radix2 28); apply bpow_le; lia). lra.
Qed.
Lemma good_within m : good m -> within_octave m F = true.
Proof using All. intros [S O]. destruct fv as [Ff _]. apply (octave_iff m F S Ff). exact O. Qed.

Definition may (d : dual) : Prop := d_first d = true \/ good (d_mean d).
Definition locked (d : dual) : Prop := d_cur d = at_freq P sps /\ d_first d = false /\ good (d_mean d).
Notation first k := (first_samples x k).

Lemma step_lock d k d' b : dinv oob t0 d (first k) -> after_onset k -> dual_step oob d (x (Z.of_nat k)) = Some (d', b) ->
  (b = false -> d_cur d' = d_cur d /\ d_mean d' = d_mean d /\ d_first d' = d_first d) /\
  (b = true -> may d -> locked d') /\ (analysed oob x p0 (S k) -> b = true).
Proof using All.
  intros (A1 & A2 & _ & _) Hk E. unfold after_onset in Hk. unfold dual_step in E.
  destruct (after_step oob Ho hyst nw min range sps Hn Hm t0 Et _ _ (x (Z.of_nat k)) A1) as (t1 & b1 & E1 & B1).
  destruct (after_step oob Ho hyst nw min range sps Hn Hm t0 Et _ _ (fneg (x (Z.of_nat k))) A2) as (t2 & b2 & E2 & B2).
  rewrite E1 in E. cbn [bind] in E. rewrite E2 in E. cbn [bind fst snd] in E.
  rewrite <- first_snoc in B1.
  assert (B2' : after oob t0 t2 (first_samples (negated x) (S k))).
  { rewrite first_snoc, first_negated. exact B2. }
  assert (C1 : t_cur t1 = at_freq P sps) by (apply (after_freq oob hyst nw min range x P a c p0 Hn E0 OP HP HPW HM ST Mn Ho Hm sps t0 Hs Et t1 (S k) B1); lia).
  assert (C2 : t_cur t2 = at_freq P sps) by (apply (after_freq oob hyst nw min range (negated x) P a' c' p0 Hn E0 OP2 HP HPW HM ST2 Mn Ho Hm sps t0 Hs Et t2 (S k) B2'); lia).
  destruct at_freq_ne as [Ne Fz].
  assert (I1 : indeterminate t1 = false) by (unfold indeterminate; rewrite C1; exact Fz).
  assert (I2 : indeterminate t2 = false) by (unfold indeterminate; rewrite C2; exact Fz).
  rewrite I1, I2, C1, C2 in E. cbn [negb andb] in E.
  assert (Ch : forall m, dual_choose (at_freq P sps) (at_freq P sps) m = at_freq P sps) by (intros m; unfold dual_choose; destruct (flt _ _); reflexivity).
  rewrite Ch in E. cbn [i_freq at_freq] in E.
  assert (An : analysed oob x p0 (S k) -> b1 = true).
  { intros A. apply (pit_step_flag oob _ _ _ _ E1); [|rewrite C1; exact Ne]. exact (after_ready oob hyst nw min range x p0 Hn E0 Ho Hm sps t0 Et t1 (S k) B1 A). }
  destruct b1, b2; cbn [orb] in E.
  4: { injection E as <- <-. split; [intros _; auto|]. split; [discriminate|exact An]. }
  all: (split; [|split]).
  all: try (intros _; destruct (d_first d); [|destruct (within_octave _ _)]; injection E as _ <-; reflexivity).
  all: try (intros Q; exfalso; subst b; destruct (d_first d); [|destruct (within_octave _ _)]; discriminate E).
  all: intros _ M; unfold locked; destruct (d_first d) eqn:Fd;
    [injection E as <- _; cbn [d_cur d_first d_mean]; split; [reflexivity|]; split; [reflexivity|exact good_here]|];
    (assert (G : good (d_mean d)) by (destruct M as [M|M]; [congruence|exact M]));
    rewrite (good_within _ G) in E; injection E as <- _; cbn [d_cur d_first d_mean]; (split; [reflexivity|]; split; [reflexivity|exact (good_average _ G)]).
Qed.

Lemma lock_calls d0 cs k d : dinv oob t0 d0 [] -> dual_calls oob d0 cs = Some d -> samples cs = first k -> after_onset k -> may d ->
  forall later j, samples (cs ++ later) = first j ->
  exists d', dual_calls oob d0 (cs ++ later) = Some d' /\ may d' /\
    ((exists i, Z.of_nat k < Z.of_nat i <= Z.of_nat j /\ analysed oob x p0 i) -> locked d').
Proof using All.
  intros I0 Ed Sk Hk M. induction later as [|s later IH] using rev_ind; intros j Sj.
  - rewrite app_nil_r in *. exists d. split; [exact Ed|]. split; [exact M|]. intros (i & Hi & _). exfalso.
    assert (L : length (first j) = length (first k)) by congruence. unfold first_samples in L. rewrite !map_length, !seq_length in L. lia.
  - rewrite app_assoc, samples_snoc in Sj. rewrite app_assoc, dual_app.
    destruct s as [s|]; cbn [samples] in Sj.
    + destruct j as [|j].
      { exfalso. apply (f_equal (@length _)) in Sj. rewrite app_length in Sj. unfold first_samples in Sj. cbn in Sj. lia. }
      rewrite first_snoc in Sj. apply app_inj_tail in Sj. destruct Sj as [Sj ->]. destruct (IH j Sj) as (q & Eq & Mq & Lq). rewrite Eq. cbn [bind dual_calls].
      assert (Kj : (k <= j)%nat).
      { apply (f_equal (@length _)) in Sj. rewrite samples_app, Sk, app_length in Sj. unfold first_samples in Sj. rewrite !map_length, !seq_length in Sj. lia. }
      destruct (dcalls_ok oob Ho hyst nw min range sps Hn Hm t0 Et (cs ++ later) d0 [] I0) as (q' & Eq' & Iq). assert (q' = q) by congruence. subst q'.
      cbn [app] in Iq. rewrite Sj in Iq.
      destruct (dstep_ok oob Ho hyst nw min range sps Hn Hm t0 Et q _ (x (Z.of_nat j)) Iq) as (d' & b & Es & _). rewrite Es. cbn [bind fst].
      destruct (step_lock q j d' b Iq ltac:(unfold after_onset in *; lia) Es) as (S1 & S2 & S3).
      exists d'. split; [reflexivity|]. unfold locked, may in *. destruct b.
      * specialize (S2 eq_refl Mq). split; [right; apply S2|]. intros _. exact S2.
      * destruct (S1 eq_refl) as (X1 & X2 & X3). rewrite X1, X2, X3. split; [exact Mq|]. intros (i & Hi & A). apply Lq. exists i. split; [|exact A].
        destruct (Z.eq_dec (Z.of_nat i) (Z.of_nat (S j))) as [X|X]; [|lia]. apply Nat2Z.inj in X. subst i. discriminate (S3 A).
    + rewrite app_nil_r in Sj. destruct (IH j Sj) as (q & Eq & Mq & Lq). rewrite Eq. cbn [bind dual_calls].
      destruct (dcalls_ok oob Ho hyst nw min range sps Hn Hm t0 Et (cs ++ later) d0 [] I0) as (q' & Eq' & Iq). assert (q' = q) by congruence. subst q'.
      destruct (dpredict_ok oob Ho hyst nw min range sps Hn Hm t0 Et q _ Iq) as (d' & f & Ep & _). rewrite Ep. cbn [bind fst]. exists d'. split; [reflexivity|].
      assert (K : d_cur d' = d_cur q /\ d_mean d' = d_mean q /\ d_first d' = d_first q).
      { unfold dual_predict in Ep. destruct (feq (d_pred q) fzero); [|cbn [bind] in Ep; injection Ep as <- _; auto].
        destruct (compute_ok oob Ho hyst nw min range sps Hn Hm t0 Et q _ Iq) as (r & Er & _ & K1 & K2 & K3 & _). rewrite Er in Ep. cbn [bind] in Ep. injection Ep as <- _. auto. }
      destruct K as (X1 & X2 & X3). unfold locked, may in *. rewrite X1, X2, X3. auto.
Qed.
End Lock.
