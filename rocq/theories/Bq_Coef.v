(** The coefficients actually computed in double and stored in float: exact relations that survive
    the roundings. *)
From Coq Require Import Reals Lra Lia.
From Flocq Require Import Core.Core IEEE754.BinarySingleNaN.
From Verif Require Import Common Float FloatFacts FloatRel Bq_Model.
Local Open Scope R_scope.
Local Notation fin x := (is_finite x = true).
Local Notation v x := (B2R x).
Local Notation rn := (rnd 24 128).
Local Notation rd := (rnd 53 1024).

(** rounding commutes with halving above the subnormal range *)
Section Half.
Variables (p e : Z).
Lemma rnd_half x : bpow radix2 (3 - e) <= Rabs x -> rnd p e (x / 2) = rnd p e x / 2.
Proof.
  intros Hx. assert (N : x <> 0). { intros ->. rewrite Rabs_R0 in Hx. generalize (bpow_gt_0 radix2 (3 - e)). lra. }
  assert (E2 : x / 2 = x * bpow radix2 (-1)) by reflexivity.
  assert (Em : (mag radix2 (x / 2) = mag radix2 x + -1 :> Z)%Z) by (rewrite E2; apply mag_mult_bpow; exact N).
  assert (Lm : (3 - e < mag radix2 x)%Z) by (apply mag_gt_bpow; exact Hx).
  assert (Ec : cexp radix2 (SpecFloat.fexp p e) (x / 2) = (cexp radix2 (SpecFloat.fexp p e) x - 1)%Z).
  { unfold cexp, SpecFloat.fexp, SpecFloat.emin. rewrite Em. lia. }
  unfold rnd, FloatFacts.fx, round, scaled_mantissa. rewrite Ec. unfold F2R. cbn [Fnum Fexp].
  assert (Es : x / 2 * bpow radix2 (- (cexp radix2 (SpecFloat.fexp p e) x - 1)) = x * bpow radix2 (- cexp radix2 (SpecFloat.fexp p e) x)).
  { replace (- (cexp radix2 (SpecFloat.fexp p e) x - 1))%Z with (1 + - cexp radix2 (SpecFloat.fexp p e) x)%Z by lia. rewrite bpow_plus. change (bpow radix2 1) with 2. field. }
  rewrite Es. unfold Z.sub at 1. rewrite bpow_plus. change (bpow radix2 (- (1))) with (/ 2). unfold Rdiv. ring.
Qed.
End Half.

(** a design value divided by a0 in double, then converted to float *)
Definition Q32 (b a0 : f64) : f32 := to32 (fdiv b a0).
Lemma big53 x : Rabs x <= bpow radix2 60 -> Rabs (rd x) <= bpow radix2 60.
Proof. intros H. apply (rnd_abs_le (prec:=53) (emax:=1024)); [apply fmt_bpow; cbn; lia|exact H]. Qed.
Lemma big24 x : Rabs x <= bpow radix2 60 -> Rabs (rn x) <= bpow radix2 60.
Proof. intros H. apply (rnd_abs_le (prec:=24) (emax:=128)); [apply fmt_bpow; cbn; lia|exact H]. Qed.
Lemma quot_small x a : 1 <= a -> Rabs x <= bpow radix2 60 -> Rabs (x / a) <= bpow radix2 60.
Proof.
  intros Ha Hx. unfold Rdiv. rewrite Rabs_mult, (Rabs_pos_eq (/ a)) by (left; apply Rinv_0_lt_compat; lra).
  assert (/ a <= 1) by (rewrite <- Rinv_1; apply Rinv_le_contravar; lra). assert (0 < / a) by (apply Rinv_0_lt_compat; lra). assert (P := Rabs_pos x).
  replace (bpow radix2 60) with (bpow radix2 60 * 1) by ring. apply Rmult_le_compat; lra.
Qed.
Lemma Q32_val b a0 : fin b -> fin a0 -> 1 <= v a0 -> Rabs (v b) <= bpow radix2 60 ->
  fin (Q32 b a0) /\ v (Q32 b a0) = rn (rd (v b / v a0)).
Proof.
  intros Fb Fa H1 Hb. assert (X := quot_small _ _ H1 Hb). assert (X2 := big53 _ X). assert (X3 := big24 _ X2).
  assert (L1 : bpow radix2 60 < bpow radix2 1024) by (apply bpow_lt; lia). assert (L2 : bpow radix2 60 < bpow radix2 128) by (apply bpow_lt; lia).
  destruct (fdiv_R b a0 Fb) as (E & F); [lra|lra|]. destruct (fconv_R (p':=24) (e':=128) (fdiv b a0) F) as (E' & F'); [rewrite E; lra|].
  split; [exact F'|]. unfold Q32, to32. rewrite E', E. reflexivity.
Qed.
Lemma Q32_opp b c a0 : fin b -> fin c -> fin a0 -> 1 <= v a0 -> Rabs (v b) <= bpow radix2 60 -> v c = - v b -> v (Q32 c a0) = - v (Q32 b a0).
Proof.
  intros Fb Fc Fa H1 Hb E. destruct (Q32_val b a0 Fb Fa H1 Hb) as (_ & ->). destruct (Q32_val c a0 Fc Fa H1) as (_ & ->); [rewrite E, Rabs_Ropp; exact Hb|].
  rewrite E. replace (- v b / v a0) with (- (v b / v a0)) by (unfold Rdiv; ring). rewrite 2 rnd_opp. reflexivity.
Qed.
Lemma Q32_half b c a0 : fin b -> fin c -> fin a0 -> 1 <= v a0 <= bpow radix2 60 -> Rabs (v c) <= bpow radix2 60 ->
  v c = 0 \/ bpow radix2 (-60) <= Rabs (v c) -> v b = v c / 2 -> v (Q32 b a0) = v (Q32 c a0) / 2.
Proof.
  intros Fb Fc Fa H1 Hc H0 E. destruct (Q32_val c a0 Fc Fa (proj1 H1) Hc) as (_ & ->).
  destruct (Q32_val b a0 Fb Fa (proj1 H1)) as (_ & ->).
  { rewrite E. replace (v c / 2) with (v c * / 2) by reflexivity. rewrite Rabs_mult, (Rabs_pos_eq (/ 2)) by lra. generalize (Rabs_pos (v c)). lra. }
  rewrite E. replace (v c / 2 / v a0) with (v c / v a0 / 2) by (field; lra). destruct H0 as [Z|H0].
  - rewrite Z. replace (0 / v a0 / 2) with 0 by (field; lra). replace (0 / v a0) with 0 by (field; lra). rewrite 2 rnd_0. field.
  - assert (Q : bpow radix2 (-120) <= Rabs (v c / v a0)).
    { unfold Rdiv. rewrite Rabs_mult, (Rabs_pos_eq (/ v a0)) by (left; apply Rinv_0_lt_compat; lra).
      change (-120)%Z with (-60 + -60)%Z. rewrite bpow_plus. apply Rmult_le_compat; try (left; apply bpow_gt_0); [exact H0|].
      change (-60)%Z with (- (60))%Z. rewrite bpow_opp. apply Rinv_le_contravar; lra. }
    rewrite (rnd_half 53 1024 (v c / v a0)); [|eapply Rle_trans; [apply bpow_le|exact Q]; lia].
    assert (Q2 : bpow radix2 (-120) <= Rabs (rd (v c / v a0))).
    { destruct (Rle_or_lt 0 (v c / v a0)) as [P|P].
      - rewrite Rabs_pos_eq in Q by exact P. eapply Rle_trans; [|apply Rle_abs]. apply rnd_ge_fmt; [apply fmt_bpow; cbn; lia|exact Q].
      - rewrite Rabs_left in Q by exact P. rewrite <- Rabs_Ropp, <- rnd_opp. eapply Rle_trans; [|apply Rle_abs]. apply rnd_ge_fmt; [apply fmt_bpow; cbn; lia|exact Q]. }
    rewrite rnd_half; [reflexivity|]. refine (Rle_trans _ _ _ _ Q2); apply bpow_le; lia.
Qed.
Lemma Q32_one a0 : fin a0 -> 1 <= v a0 <= bpow radix2 60 -> v (Q32 a0 a0) = 1.
Proof.
  intros Fa H. destruct (Q32_val a0 a0 Fa Fa (proj1 H)) as (_ & ->); [rewrite Rabs_pos_eq; lra|].
  replace (v a0 / v a0) with 1 by (field; lra). change 1 with (bpow radix2 0).
  rewrite (rnd_fmt (bpow radix2 0)) by (apply fmt_bpow; cbn; lia). apply rnd_fmt. apply fmt_bpow; cbn; lia.
Qed.

(** legal working values: what sin, cos and alpha can be *)
Section D.
Variables (sn cs al : f64).
Hypothesis Fs : fin sn. Hypothesis Fc : fin cs. Hypothesis Fa : fin al.
Hypothesis Hs : bpow radix2 (-60) <= v sn <= 1. Hypothesis Hc : -1 <= v cs <= 1. Hypothesis Ha : bpow radix2 (-60) <= v al <= bpow radix2 40.
Local Notation O := (one ops64). Local Notation Tw := (two ops64).
Lemma v_lit m e : (Z.abs m < 2 ^ 53)%Z -> (0 <= e <= 10)%Z -> v (mk64 m e) = IZR m * bpow radix2 e /\ fin (mk64 m e).
Proof. intros H He. destruct (mk64_small m e H ltac:(lia)) as [E F]. auto. Qed.
Lemma v_one : v O = 1 /\ fin O.
Proof. destruct (v_lit 1 0 ltac:(reflexivity) ltac:(lia)) as (E & F). cbn [one ops64]. rewrite E. change (bpow radix2 0) with 1. split; [ring|exact F]. Qed.
Lemma v_two : v Tw = 2 /\ fin Tw.
Proof. destruct (v_lit 1 1 ltac:(reflexivity) ltac:(lia)) as (E & F). cbn [two ops64]. rewrite E. change (bpow radix2 1) with 2. split; [ring|exact F]. Qed.
Lemma b4060 : 1 + bpow radix2 40 <= bpow radix2 60 /\ 4 <= bpow radix2 60 /\ bpow radix2 60 < bpow radix2 1024 /\ 0 < bpow radix2 (-60).
Proof.
  assert (A : bpow radix2 60 = 1048576 * bpow radix2 40) by (change 60%Z with (20 + 40)%Z; rewrite bpow_plus; reflexivity).
  assert (B : 4 <= bpow radix2 40) by (apply (bpow_le radix2 2 40); lia). repeat split; [lra|lra|apply bpow_lt; lia|apply bpow_gt_0].
Qed.
Lemma v_a0 : fin (fadd O al) /\ 1 <= v (fadd O al) <= bpow radix2 60.
Proof.
  destruct v_one as (E & F). destruct b4060 as (B1 & B2 & B3 & B4). 
  destruct (fadd_bnd O al (bpow radix2 60) F Fa) as (V & G & H); [apply fmt_bpow; cbn; lia|exact B3|rewrite E, Rabs_pos_eq; lra|].
  split; [exact G|]. split; [|eapply Rle_trans; [apply Rle_abs|exact H]]. rewrite V, E. change 1 with (bpow radix2 0) at 1.
  apply rnd_ge_fmt; [apply fmt_bpow; cbn; lia|]. change (bpow radix2 0) with 1. lra.
Qed.
Lemma near_one (c : f64) : fin c -> v c <= 1 -> v c = 1 \/ v c <= 1 - bpow radix2 (-53).
Proof.
  intros F H. destruct (Req_dec (v c) 1) as [E|N]; [left; exact E|right].
  assert (L : v c <= pred radix2 (SpecFloat.fexp 53 1024) (bpow radix2 0)).
  { apply pred_ge_gt; [apply (fexp_correct 53 1024); reflexivity|apply (fmt_v c)|apply (fmt_bpow (prec:=53) (emax:=1024) 0); cbn; lia|change (bpow radix2 0) with 1; lra]. }
  rewrite pred_bpow in L. exact L.
Qed.
(** 1 - cos and 1 + cos *)
Lemma v_diff (d : f64) k : v d = rd k -> 0 <= k <= 2 -> k = 0 \/ bpow radix2 (-53) <= k ->
  Rabs (v d) <= bpow radix2 60 /\ (v d = 0 \/ bpow radix2 (-60) <= Rabs (v d)) /\ 0 <= v d <= 2.
Proof.
  intros E H Z. destruct b4060 as (B1 & B2 & B3 & B4).
  assert (R : 0 <= v d <= 2). { rewrite E. split; [rewrite <- (rnd_0 (prec:=53) (emax:=1024)); apply rnd_le; lra|]. change 2 with (bpow radix2 1). apply rnd_le_fmt; [apply fmt_bpow; cbn; lia|]. change (bpow radix2 1) with 2. lra. }
  split; [rewrite Rabs_pos_eq; lra|]. split; [|exact R]. destruct Z as [Z|Z]; [left; rewrite E, Z; apply rnd_0|right].
  rewrite Rabs_pos_eq by lra. apply Rle_trans with (bpow radix2 (-53)); [apply bpow_le; lia|]. rewrite E. apply rnd_ge_fmt; [apply fmt_bpow; cbn; lia|exact Z].
Qed.
Lemma v_half (d : f64) : fin d -> v d = 0 \/ bpow radix2 (-60) <= Rabs (v d) -> Rabs (v d) <= bpow radix2 60 ->
  fin (fdiv d Tw) /\ v (fdiv d Tw) = v d / 2.
Proof.
  intros F Z B. destruct v_two as (E & G). destruct b4060 as (B1 & B2 & B3 & B4).
  assert (R : rd (v d / 2) = v d / 2).
  { destruct Z as [Z|Z]; [rewrite Z; replace (0 / 2) with 0 by field; apply rnd_0|].
    rewrite rnd_half; [rewrite rnd_v; reflexivity|]. refine (Rle_trans _ _ _ _ Z); apply bpow_le; lia. }
  destruct (fdiv_R d Tw F) as (V & H); [lra|rewrite E, R|split; [exact H|rewrite V, E; exact R]].
  replace (v d / 2) with (v d * / 2) by reflexivity. rewrite Rabs_mult, (Rabs_pos_eq (/ 2)) by lra. generalize (Rabs_pos (v d)). lra.
Qed.
Lemma half_k b c a0 : fin b -> fin c -> fin a0 -> 1 <= v a0 <= bpow radix2 60 -> Rabs (v c) <= bpow radix2 60 ->
  v c = 0 \/ bpow radix2 (-60) <= Rabs (v c) -> v b = v c / 2 -> v (Q32 c a0) = 2 * v (Q32 b a0).
Proof. intros. rewrite (Q32_half b c a0) by assumption. field. Qed.

Lemma sub_one_cs : fin (fsub O cs) /\ v (fsub O cs) = rd (1 - v cs).
Proof.
  destruct v_one as (E & F). destruct b4060 as (B1 & B2 & B3 & B4).
  destruct (fsub_R O cs F Fc) as (V & G); [rewrite E; eapply Rle_lt_trans; [apply big53; rewrite Rabs_pos_eq; lra|exact B3]|].
  split; [exact G|]. rewrite V, E. reflexivity.
Qed.
Lemma add_one_cs : fin (fadd O cs) /\ v (fadd O cs) = rd (1 + v cs).
Proof.
  destruct v_one as (E & F). destruct b4060 as (B1 & B2 & B3 & B4).
  destruct (fadd_R O cs F Fc) as (V & G); [rewrite E; eapply Rle_lt_trans; [apply big53; rewrite Rabs_pos_eq; lra|exact B3]|].
  split; [exact G|]. rewrite V, E. reflexivity.
Qed.
Lemma lp_coefs : let c := design_coefs ops64 to32 (cfg_lowpass ops64 cs al) in k2 c = k0 c /\ v (k1 c) = 2 * v (k0 c).
Proof.
  cbv zeta. split; [reflexivity|]. destruct v_a0 as (A1 & A2). destruct sub_one_cs as (D1 & D2).
  destruct (v_diff _ _ D2) as (X1 & X2 & X3); [lra|destruct (near_one cs Fc ltac:(lra)); [left|right]; lra|].
  destruct (v_half _ D1 X2 X1) as (H1 & H2). exact (half_k _ _ _ H1 D1 A1 A2 X1 X2 H2).
Qed.
Lemma hp_coefs : let c := design_coefs ops64 to32 (cfg_highpass ops64 cs al) in k2 c = k0 c /\ v (k1 c) = - (2 * v (k0 c)).
Proof.
  cbv zeta. split; [reflexivity|]. destruct v_a0 as (A1 & A2). destruct add_one_cs as (D1 & D2).
  destruct (v_diff _ _ D2) as (X1 & X2 & X3); [lra| |].
  { destruct (near_one (fneg cs)) as [E|E]; [apply fneg_fin'; exact Fc|rewrite fneg_R'; lra|left; rewrite fneg_R' in E; lra|right; rewrite fneg_R' in E; lra]. }
  destruct (v_half _ D1 X2 X1) as (H1 & H2). assert (HK := half_k _ _ _ H1 D1 A1 A2 X1 X2 H2).
  transitivity (- v (Q32 (fadd O cs) (fadd O al))); [|apply f_equal; exact HK].
  apply (Q32_opp (fadd O cs) (fneg (fadd O cs))); try assumption; [apply fneg_fin'; exact D1|exact (proj1 A2)|apply fneg_R'].
Qed.
Lemma zero_q a0 : fin a0 -> 1 <= v a0 -> v (Q32 fzero a0) = 0.
Proof.
  intros F H. destruct (Q32_val fzero a0 eq_refl F H) as (_ & ->); [change (v (fzero : f64)) with 0; rewrite Rabs_R0; left; apply bpow_gt_0|].
  change (v (fzero : f64)) with 0. replace (0 / v a0) with 0 by (field; lra). rewrite 2 rnd_0. reflexivity.
Qed.
Lemma csg_coefs : let c := design_coefs ops64 to32 (cfg_bandpass_csg ops64 sn cs al) in v (k1 c) = 0 /\ v (k2 c) = - v (k0 c).
Proof.
  cbv zeta. destruct v_a0 as (A1 & A2). destruct b4060 as (B1 & B2 & B3 & B4). split; [apply zero_q; [exact A1|exact (proj1 A2)]|].
  assert (S1 : Rabs (v sn) <= bpow radix2 60) by (rewrite Rabs_pos_eq; lra).
  assert (S2 : v sn = 0 \/ bpow radix2 (-60) <= Rabs (v sn)) by (right; rewrite Rabs_pos_eq; lra).
  destruct (v_half sn Fs S2 S1) as (H1 & H2).
  destruct (v_half (fneg sn) (fneg_fin' sn Fs)) as (H3 & H4); [rewrite fneg_R', Rabs_Ropp; right; rewrite Rabs_pos_eq; lra|rewrite fneg_R', Rabs_Ropp; exact S1|].
  apply (Q32_opp (fdiv sn Tw) (fdiv (fneg sn) Tw)); try assumption; [exact (proj1 A2)|rewrite H2, Rabs_pos_eq; lra|rewrite H4, H2, fneg_R'; field].
Qed.
Lemma cpg_coefs : let c := design_coefs ops64 to32 (cfg_bandpass_cpg ops64 cs al) in v (k1 c) = 0 /\ v (k2 c) = - v (k0 c).
Proof.
  cbv zeta. destruct v_a0 as (A1 & A2). destruct b4060 as (B1 & B2 & B3 & B4). split; [apply zero_q; [exact A1|exact (proj1 A2)]|].
  apply (Q32_opp al (fneg al)); try assumption; [apply fneg_fin'; exact Fa|exact (proj1 A2)|rewrite Rabs_pos_eq; lra|apply fneg_R'].
Qed.
Lemma ap_coefs : let c := design_coefs ops64 to32 (cfg_allpass ops64 cs al) in k0 c = k4 c /\ k1 c = k3 c /\ v (k2 c) = 1.
Proof. cbv zeta. destruct v_a0 as (A1 & A2). split; [reflexivity|]. split; [reflexivity|]. exact (Q32_one _ A1 A2). Qed.
Lemma no_coefs : let c := design_coefs ops64 to32 (cfg_notch ops64 cs al) in k2 c = k0 c /\ k1 c = k3 c.
Proof. split; reflexivity. Qed.
End D.
