(** Responses of the designs at DC, centre and Nyquist, and bounds at every frequency. *)
From Coq Require Import Reals Lra Lia.
From Verif Require Import Bq_Model Bq_Spec Bq_Lin Bq_Proof Bq_Design.
Local Open Scope R_scope.

Ltac des := unfold cfg, cfg_lowpass, cfg_highpass, cfg_bandpass_csg, cfg_bandpass_cpg, cfg_notch, cfg_allpass, cfg_peaking, cfg_lowshelf, cfg_highshelf;
  cbn [d_a0 d_a1 d_a2 d_b0 d_b1 d_b2 add sub mul quo neg one two zro opsR].
Ltac ends := des; rewrite ?cos_0, ?sin_0, ?cos_PI, ?sin_PI; field.

Section R.
Variables (f sps : R) (w : width).
Hypothesis L : legal f sps w.
Local Notation sys s := (bq_out opsR (bq_design s f sps w)).
Local Notation w0 := (omega f sps).
Lemma resp s v g th :
  (d_b0 (cfg s f sps w) + d_b2 (cfg s f sps w)) * cos v + d_b1 (cfg s f sps w) =
    g * (((d_a0 (cfg s f sps w) + d_a2 (cfg s f sps w)) * cos v + d_a1 (cfg s f sps w)) * cos th - (d_a0 (cfg s f sps w) - d_a2 (cfg s f sps w)) * sin v * sin th) ->
  (d_b0 (cfg s f sps w) - d_b2 (cfg s f sps w)) * sin v =
    g * (((d_a0 (cfg s f sps w) + d_a2 (cfg s f sps w)) * cos v + d_a1 (cfg s f sps w)) * sin th + (d_a0 (cfg s f sps w) - d_a2 (cfg s f sps w)) * sin v * cos th) ->
  response (sys s) v g th.
Proof. apply d_respond. apply ok_cfg. exact L. Qed.
Lemma any s v : 0 < dden (cfg s f sps w) v /\
  exists g th, 0 <= g /\ g * g * dden (cfg s f sps w) v = dnum (cfg s f sps w) v /\ response (sys s) v g th.
Proof. apply d_any. apply ok_cfg. exact L. Qed.
Lemma cs_sn' v : cos v * cos v = 1 - sin v * sin v. Proof. generalize (sin2_cos2 v). unfold Rsqr. lra. Qed.

Lemma lp_dc : response (sys Lowpass) 0 1 0. Proof. apply resp; ends. Qed.
Lemma lp_ny : response (sys Lowpass) PI 0 0. Proof. apply resp; ends. Qed.
Lemma hp_dc : response (sys Highpass) 0 0 0. Proof. apply resp; ends. Qed.
Lemma hp_ny : response (sys Highpass) PI 1 0. Proof. apply resp; ends. Qed.
Lemma bc_dc : response (sys Bandpass_csg) 0 0 0. Proof. apply resp; ends. Qed.
Lemma bc_ny : response (sys Bandpass_csg) PI 0 0. Proof. apply resp; ends. Qed.
Lemma bp_dc : response (sys Bandpass_cpg) 0 0 0. Proof. apply resp; ends. Qed.
Lemma bp_ny : response (sys Bandpass_cpg) PI 0 0. Proof. apply resp; ends. Qed.
Lemma no_dc : response (sys Notch) 0 1 0. Proof. apply resp; ends. Qed.
Lemma no_ny : response (sys Notch) PI 1 0. Proof. apply resp; ends. Qed.
Lemma ap_dc : response (sys Allpass) 0 1 0. Proof. apply resp; ends. Qed.
Lemma ap_ny : response (sys Allpass) PI 1 0. Proof. apply resp; ends. Qed.
Lemma pk_dc db : response (sys (Peaking db)) 0 1 0. Proof. assert (P := amp_pos db). apply resp; ends; lra. Qed.
Lemma pk_ny db : response (sys (Peaking db)) PI 1 0. Proof. assert (P := amp_pos db). apply resp; ends; lra. Qed.
(** pow(10, dB/40) squared is 10^(dB/20) *)
Lemma amp2 db : amp db * amp db = Rpower 10 (db / 20). Proof. unfold amp. rewrite <- Rpower_plus. f_equal. field. Qed.
Lemma ls_dc db : response (sys (Lowshelf db)) 0 (Rpower 10 (db / 20)) 0. Proof. rewrite <- amp2. apply resp; ends. Qed.
Lemma ls_ny db : response (sys (Lowshelf db)) PI 1 0. Proof. apply resp; ends. Qed.
Lemma hs_dc db : response (sys (Highshelf db)) 0 1 0. Proof. apply resp; ends. Qed.
Lemma hs_ny db : response (sys (Highshelf db)) PI (Rpower 10 (db / 20)) 0. Proof. rewrite <- amp2. apply resp; ends. Qed.

Lemma lp_c q : w = Q q -> response (sys Lowpass) w0 q (- (PI / 2)).
Proof.
  intros E. assert (S := sn_pos _ _ _ L). assert (0 < q) by (destruct L as (_ & _ & X); rewrite E in X; exact X).
  assert (EA : sin w0 = 2 * alpha f sps w * q) by (rewrite E; unfold alpha, alpha_q; cbn [quo mul two opsR]; field; lra).
  apply resp; des; rewrite cos_neg, sin_neg, cos_PI2, sin_PI2; [|field].
  transitivity (sin w0 * sin w0); [generalize (cs_sn' w0); lra|]. rewrite EA at 1. ring.
Qed.
Lemma hp_c q : w = Q q -> response (sys Highpass) w0 q (PI / 2).
Proof.
  intros E. assert (S := sn_pos _ _ _ L). assert (0 < q) by (destruct L as (_ & _ & X); rewrite E in X; exact X).
  assert (EA : sin w0 = 2 * alpha f sps w * q) by (rewrite E; unfold alpha, alpha_q; cbn [quo mul two opsR]; field; lra).
  apply resp; des; rewrite cos_PI2, sin_PI2; [|field].
  transitivity (- (sin w0 * sin w0)); [generalize (cs_sn' w0); lra|]. rewrite EA at 1. ring.
Qed.
Lemma bc_c q : w = Q q -> response (sys Bandpass_csg) w0 q 0.
Proof.
  intros E. assert (S := sn_pos _ _ _ L). assert (0 < q) by (destruct L as (_ & _ & X); rewrite E in X; exact X).
  assert (EA : sin w0 = 2 * alpha f sps w * q) by (rewrite E; unfold alpha, alpha_q; cbn [quo mul two opsR]; field; lra).
  apply resp; des; rewrite cos_0, sin_0; [field|].
  transitivity (sin w0 * sin w0); [field|]. rewrite EA at 1. ring.
Qed.
Lemma bp_c : response (sys Bandpass_cpg) w0 1 0. Proof. apply resp; des; rewrite cos_0, sin_0; field. Qed.
Lemma no_c : response (sys Notch) w0 0 0. Proof. apply resp; des; field. Qed.
Lemma ap_c : response (sys Allpass) w0 1 PI. Proof. apply resp; des; rewrite cos_PI, sin_PI; field. Qed.
Lemma pk_c db : response (sys (Peaking db)) w0 (Rpower 10 (db / 20)) 0.
Proof. assert (P := amp_pos db). rewrite <- amp2. apply resp; des; rewrite cos_0, sin_0; field; lra. Qed.
(** half of the dB gain at the shelf's corner *)
Lemma amp_half db : amp db = Rpower 10 (db / 2 / 20). Proof. unfold amp. f_equal. field. Qed.

(** bounds at every frequency; D = 1 - cos v cos w0, E = cos v - cos w0 *)
Lemma DE v : (1 - cos v * cos w0) * (1 - cos v * cos w0) - (cos v - cos w0) * (cos v - cos w0) = sin v * sin v * (sin w0 * sin w0).
Proof. assert (A := cs_sn' v). assert (B := cs_sn' w0). set (a := cos v) in *. set (b := cos w0) in *.
  transitivity ((1 - a * a) * (1 - b * b)); [ring|]. rewrite A, B. ring. Qed.
Lemma bound s v lo hi : 0 <= hi -> lo * lo * dden (cfg s f sps w) v <= dnum (cfg s f sps w) v <= hi * hi * dden (cfg s f sps w) v ->
  exists g th, 0 <= g /\ lo <= g <= hi /\ response (sys s) v g th.
Proof.
  intros Hh (B1 & B2). destruct (any s v) as (D & g & th & G0 & G1 & G2). exists g, th. split; [exact G0|]. split; [|exact G2]. split.
  - apply (gain_ge g _ _ lo G0 D G1 B1).
  - apply (gain_le g _ _ hi G0 D G1 Hh B2).
Qed.
Lemma bp_b v : exists g th, 0 <= g /\ 0 <= g <= 1 /\ response (sys Bandpass_cpg) v g th.
Proof.
  apply bound; [lra|]. unfold dden, dnum. des. set (al := alpha _ _ _). set (c := cos v). set (s := sin v). set (c0 := cos w0).
  assert (S1 := sq_nonneg (2 * al * s)). assert (S2 := sq_nonneg (2 * (c - c0))). lra.
Qed.
Lemma no_b v : exists g th, 0 <= g /\ 0 <= g <= 1 /\ response (sys Notch) v g th.
Proof.
  apply bound; [lra|]. unfold dden, dnum. des. set (al := alpha _ _ _). set (c := cos v). set (s := sin v). set (c0 := cos w0).
  assert (S1 := sq_nonneg (2 * al * s)). assert (S2 := sq_nonneg (2 * (c - c0))). lra.
Qed.
Lemma ap_b v : exists th, response (sys Allpass) v 1 th.
Proof.
  destruct (bound Allpass v 1 1) as (g & th & _ & G & R); [lra| |].
  - unfold dden, dnum. des. lra.
  - exists th. replace 1 with g by lra. exact R.
Qed.
Lemma q_al q : w = Q q -> 0 < q -> 4 * (q * q) * (alpha f sps w * alpha f sps w) = sin w0 * sin w0.
Proof.
  intros E Hq. rewrite E. unfold alpha, alpha_q. cbn [quo mul two opsR]. field. lra.
Qed.
Lemma lp_b q v : w = Q q -> 2 * (q * q) <= 1 -> exists g th, 0 <= g /\ 0 <= g <= 1 /\ response (sys Lowpass) v g th.
Proof.
  intros E Hq. assert (0 < q) by (destruct L as (_ & _ & X); rewrite E in X; exact X).
  assert (QA := q_al q E H). assert (A := DE v).
  apply bound; [lra|]. unfold dden, dnum. des. set (al := alpha _ _ _) in *. set (c := cos v) in *. set (s := sin v) in *. set (c0 := cos w0) in *. set (s0 := sin w0) in *.
  assert (W : 2 * (s * s * (s0 * s0)) <= 4 * (al * al * (s * s))).
  { rewrite <- QA. assert (X : 0 <= al * al * (s * s)) by (apply Rmult_le_pos; apply sq_nonneg).
    assert (0 <= (1 - 2 * (q * q)) * (al * al * (s * s))) by (apply Rmult_le_pos; lra). lra. }
  set (D := 1 - c * c0) in *. set (F := c - c0) in *.
  replace ((((1 - c0) / 2 + (1 - c0) / 2) * c + (1 - c0)) * (((1 - c0) / 2 + (1 - c0) / 2) * c + (1 - c0)) + ((1 - c0) / 2 - (1 - c0) / 2) * s * (((1 - c0) / 2 - (1 - c0) / 2) * s))
    with ((D + F) * (D + F)) by (unfold D, F; field).
  replace (((1 + al + (1 - al)) * c + - (2) * c0) * ((1 + al + (1 - al)) * c + - (2) * c0) + (1 + al - (1 - al)) * s * ((1 + al - (1 - al)) * s))
    with (4 * (F * F) + 4 * (al * al * (s * s))) by (unfold F; ring).
  assert (S1 := sq_nonneg (D - F)). assert (S2 := sq_nonneg (D + F)). lra.
Qed.
Lemma hp_b q v : w = Q q -> 2 * (q * q) <= 1 -> exists g th, 0 <= g /\ 0 <= g <= 1 /\ response (sys Highpass) v g th.
Proof.
  intros E Hq. assert (0 < q) by (destruct L as (_ & _ & X); rewrite E in X; exact X).
  assert (QA := q_al q E H). assert (A := DE v).
  apply bound; [lra|]. unfold dden, dnum. des. set (al := alpha _ _ _) in *. set (c := cos v) in *. set (s := sin v) in *. set (c0 := cos w0) in *. set (s0 := sin w0) in *.
  assert (W : 2 * (s * s * (s0 * s0)) <= 4 * (al * al * (s * s))).
  { rewrite <- QA. assert (X : 0 <= al * al * (s * s)) by (apply Rmult_le_pos; apply sq_nonneg).
    assert (0 <= (1 - 2 * (q * q)) * (al * al * (s * s))) by (apply Rmult_le_pos; lra). lra. }
  set (D := 1 - c * c0) in *. set (F := c - c0) in *.
  replace ((((1 + c0) / 2 + (1 + c0) / 2) * c + - (1 + c0)) * (((1 + c0) / 2 + (1 + c0) / 2) * c + - (1 + c0)) + ((1 + c0) / 2 - (1 + c0) / 2) * s * (((1 + c0) / 2 - (1 + c0) / 2) * s))
    with ((D - F) * (D - F)) by (unfold D, F; field).
  replace (((1 + al + (1 - al)) * c + - (2) * c0) * ((1 + al + (1 - al)) * c + - (2) * c0) + (1 + al - (1 - al)) * s * ((1 + al - (1 - al)) * s))
    with (4 * (F * F) + 4 * (al * al * (s * s))) by (unfold F; ring).
  assert (S1 := sq_nonneg (D - F)). assert (S2 := sq_nonneg (D + F)). lra.
Qed.
(** a boost (a >= 1) never cuts and never exceeds the requested gain *)
Lemma sq_ge1 a : 1 <= a -> 1 <= a * a. Proof. intros. replace 1 with (1 * 1) by ring. apply Rmult_le_compat; lra. Qed.
Lemma mono_bound U V a : 1 <= a -> 0 <= U -> 0 <= V ->
  (a * a) * V + U <= (a * a) * ((a * a) * U + V) <= (a * a) * (a * a) * ((a * a) * V + U).
Proof.
  intros Ha HU HV. assert (A1 := sq_ge1 a Ha). set (k := a * a) in *.
  assert (0 <= (k * k - 1) * U) by (apply Rmult_le_pos; [assert (1 * 1 <= k * k) by (apply Rmult_le_compat; lra); lra|exact HU]).
  assert (0 <= (k * k - 1) * (k * V)) by (apply Rmult_le_pos; [assert (1 * 1 <= k * k) by (apply Rmult_le_compat; lra); lra|apply Rmult_le_pos; lra]).
  split; lra.
Qed.
Lemma pk_b db v : 0 <= db -> exists g th, 0 <= g /\ 1 <= g <= Rpower 10 (db / 20) /\ response (sys (Peaking db)) v g th.
Proof.
  intros Hd. assert (P := amp_pos db). assert (A1 : 1 <= amp db).
  { unfold amp. replace 1 with (Rpower 10 0) by (apply Rpower_O; lra). apply Rle_Rpower; lra. }
  rewrite <- amp2. set (a := amp db) in *. apply bound; [apply Rmult_le_pos; lra|]. unfold dden, dnum. des. fold a.
  set (al := alpha _ _ _) in *. set (c := cos v) in *. set (s := sin v) in *. set (c0 := cos w0) in *.
  set (F := 2 * (c - c0)). set (X := 2 * (al * s)). 
  replace (((1 + al * a + (1 - al * a)) * c + - (2) * c0) * ((1 + al * a + (1 - al * a)) * c + - (2) * c0) + (1 + al * a - (1 - al * a)) * s * ((1 + al * a - (1 - al * a)) * s))
    with (F * F + a * a * (X * X)) by (unfold F, X; ring).
  replace (((1 + al / a + (1 - al / a)) * c + - (2) * c0) * ((1 + al / a + (1 - al / a)) * c + - (2) * c0) + (1 + al / a - (1 - al / a)) * s * ((1 + al / a - (1 - al / a)) * s))
    with (F * F + X * X / (a * a)) by (unfold F, X; field; lra).
  assert (S1 := sq_nonneg F). assert (S2 := sq_nonneg X). assert (K := sq_ge1 a A1). set (k := a * a) in *.
  assert (X1 : X * X / k <= X * X). { apply Rmult_le_reg_r with k; [lra|]. replace (X * X / k * k) with (X * X) by (field; lra). assert (0 <= (k - 1) * (X * X)) by (apply Rmult_le_pos; lra). lra. }
  assert (0 <= (k - 1) * (X * X)) by (apply Rmult_le_pos; lra). split; [lra|].
  replace (k * k * (F * F + X * X / k)) with (k * k * (F * F) + k * (X * X)) by (field; lra).
  assert (0 <= (k * k - 1) * (F * F)) by (apply Rmult_le_pos; [assert (1 * 1 <= k * k) by (apply Rmult_le_compat; lra); lra|exact S1]). lra.
Qed.
Lemma shelf_form a be c c0 s s0 : be * be = 2 * a -> (1 - c * c0) * (1 - c * c0) - (c - c0) * (c - c0) = s * s * (s0 * s0) ->
  let D := 1 - c * c0 in let F := c - c0 in
  let p := (a + 1) * F + (a - 1) * D in let m := (a + 1) * F - (a - 1) * D in
  p * p + be * s0 * s * (be * s0 * s) = a * a * ((D + F) * (D + F)) + (D - F) * (D - F) /\
  m * m + be * s0 * s * (be * s0 * s) = a * a * ((D - F) * (D - F)) + (D + F) * (D + F).
Proof.
  intros HB HD D F p m. assert (X : be * s0 * s * (be * s0 * s) = 2 * a * (D * D - F * F)).
  { transitivity ((be * be) * (s * s * (s0 * s0))); [ring|]. rewrite HB, <- HD. reflexivity. }
  rewrite X. unfold p, m. split; ring.
Qed.
Lemma ls_form db v : let a := amp db in let D := 1 - cos v * cos w0 in let F := cos v - cos w0 in
  dnum (cfg (Lowshelf db) f sps w) v = 4 * (a * a * (a * a * ((D + F) * (D + F)) + (D - F) * (D - F))) /\
  dden (cfg (Lowshelf db) f sps w) v = 4 * (a * a * ((D - F) * (D - F)) + (D + F) * (D + F)).
Proof.
  cbv zeta. assert (P := amp_pos db). unfold dden, dnum. des. set (a := amp db) in *. set (be := sqrt (a + a)).
  assert (HB : be * be = 2 * a) by (unfold be; rewrite sqrt_sqrt; lra).
  destruct (shelf_form a be (cos v) (cos w0) (sin v) (sin w0) HB (DE v)) as (E1 & E2). rewrite <- E1, <- E2. split; ring.
Qed.
Lemma hs_form db v : let a := amp db in let D := 1 - cos v * cos w0 in let F := cos v - cos w0 in
  dnum (cfg (Highshelf db) f sps w) v = 4 * (a * a * (a * a * ((D - F) * (D - F)) + (D + F) * (D + F))) /\
  dden (cfg (Highshelf db) f sps w) v = 4 * (a * a * ((D + F) * (D + F)) + (D - F) * (D - F)).
Proof.
  cbv zeta. assert (P := amp_pos db). unfold dden, dnum. des. set (a := amp db) in *. set (be := sqrt (a + a)).
  assert (HB : be * be = 2 * a) by (unfold be; rewrite sqrt_sqrt; lra).
  destruct (shelf_form a be (cos v) (cos w0) (sin v) (sin w0) HB (DE v)) as (E1 & E2). rewrite <- E1, <- E2. split; ring.
Qed.
Lemma amp_ge1 db : 0 <= db -> 1 <= amp db.
Proof. intros H. unfold amp. replace 1 with (Rpower 10 0) by (apply Rpower_O; lra). apply Rle_Rpower; lra. Qed.
Lemma ls_b db v : 0 <= db -> exists g th, 0 <= g /\ 1 <= g <= Rpower 10 (db / 20) /\ response (sys (Lowshelf db)) v g th.
Proof.
  intros Hd. assert (A1 := amp_ge1 db Hd). rewrite <- amp2. apply bound; [apply Rmult_le_pos; lra|].
  destruct (ls_form db v) as (-> & ->). cbv zeta. set (a := amp db) in *. set (D := 1 - _). set (F := cos v - _).
  destruct (mono_bound ((D + F) * (D + F)) ((D - F) * (D - F)) a A1 (sq_nonneg _) (sq_nonneg _)). lra.
Qed.
Lemma hs_b db v : 0 <= db -> exists g th, 0 <= g /\ 1 <= g <= Rpower 10 (db / 20) /\ response (sys (Highshelf db)) v g th.
Proof.
  intros Hd. assert (A1 := amp_ge1 db Hd). rewrite <- amp2. apply bound; [apply Rmult_le_pos; lra|].
  destruct (hs_form db v) as (-> & ->). cbv zeta. set (a := amp db) in *. set (D := 1 - _). set (F := cos v - _).
  destruct (mono_bound ((D - F) * (D - F)) ((D + F) * (D + F)) a A1 (sq_nonneg _) (sq_nonneg _)). lra.
Qed.
Lemma ls_c db : exists th, response (sys (Lowshelf db)) w0 (Rpower 10 (db / 2 / 20)) th.
Proof.
  rewrite <- amp_half. assert (P := amp_pos db).
  destruct (bound (Lowshelf db) w0 (amp db) (amp db)) as (g & th & _ & G & X); [lra| |exists th; replace (amp db) with g by lra; exact X].
  destruct (ls_form db w0) as (-> & ->). cbv zeta. replace (cos (omega f sps) - cos (omega f sps)) with 0 by ring. lra.
Qed.
Lemma hs_c db : exists th, response (sys (Highshelf db)) w0 (Rpower 10 (db / 2 / 20)) th.
Proof.
  rewrite <- amp_half. assert (P := amp_pos db).
  destruct (bound (Highshelf db) w0 (amp db) (amp db)) as (g & th & _ & G & X); [lra| |exists th; replace (amp db) with g by lra; exact X].
  destruct (hs_form db w0) as (-> & ->). cbv zeta. replace (cos (omega f sps) - cos (omega f sps)) with 0 by ring. lra.
Qed.
(** half-power frequencies of the constant-peak-gain bandpass *)
Lemma half_angle v : cos (v / 2) <> 0 -> let t := tan (v / 2) in cos v * (1 + t * t) = 1 - t * t /\ sin v * (1 + t * t) = 2 * t /\ 0 < 1 + t * t.
Proof.
  intros H t. assert (E : t * cos (v / 2) = sin (v / 2)) by (unfold t, tan; field; exact H).
  set (c := cos (v / 2)) in *. assert (Ev : v = v / 2 + v / 2) by field.
  assert (C := cs_sn' (v / 2)). fold c in C. rewrite <- E in C.
  assert (C2 : 1 = c * c * (1 + t * t)) by lra.
  assert (CC : cos v = c * c - t * c * (t * c)) by (rewrite Ev at 1; rewrite cos_plus; fold c; rewrite <- E; reflexivity).
  assert (SS : sin v = 2 * (t * c * c)) by (rewrite Ev at 1; rewrite sin_plus; fold c; rewrite <- E; ring).
  rewrite CC, SS. repeat split.
  - transitivity (c * c * (1 + t * t) * (1 - t * t)); [ring|]. rewrite <- C2. ring.
  - transitivity (c * c * (1 + t * t) * (2 * t)); [ring|]. rewrite <- C2. ring.
  - generalize (sq_nonneg t). lra.
Qed.
(** the half-power frequencies of the bandpass and of the notch, in terms of alpha *)
Lemma al_half v : 0 < v < PI -> Rabs (tan (v / 2) * tan (v / 2) - tan (w0 / 2) * tan (w0 / 2)) * sin w0 = 2 * alpha f sps w * (tan (v / 2) * tan (w0 / 2)) ->
  (exists th, response (sys Bandpass_cpg) v (/ sqrt 2) th) /\ (exists th, response (sys Notch) v (/ sqrt 2) th).
Proof.
  intros Hv HT. assert (W := omega_range f sps (proj1 L) (proj1 (proj2 L))).
  assert (N : forall u, 0 < u < PI -> cos (u / 2) <> 0) by (intros u Hu; apply Rgt_not_eq; apply cos_gt_0; lra).
  destruct (half_angle v (N v Hv)) as (V1 & V2 & V3). destruct (half_angle w0 (N _ W)) as (W1 & W2 & W3).
  set (t := tan (v / 2)) in *. set (u := tan (w0 / 2)) in *.
  assert (S0 : 0 < sin w0) by (apply sin_gt_0; lra).
  assert (S2 : sqrt 2 * sqrt 2 = 2) by (apply sqrt_sqrt; lra). assert (P2 : 0 < sqrt 2) by (apply sqrt_lt_R0; lra).
  assert (IS : / sqrt 2 * / sqrt 2 = / 2) by (rewrite <- Rinv_mult, S2; reflexivity).
  assert (K : (cos v - cos w0) * (cos v - cos w0) = alpha f sps w * alpha f sps w * (sin v * sin v)).
  { set (al := alpha _ _ _) in *. set (c := cos v) in *. set (s := sin v) in *. set (c0 := cos w0) in *. set (s0 := sin w0) in *.
    set (m := (1 + t * t) * (1 + u * u)). assert (M0 : 0 < m) by (apply Rmult_lt_0_compat; assumption).
    assert (K1 : (c - c0) * m = 2 * (u * u - t * t)).
    { unfold m. transitivity ((c * (1 + t * t)) * (1 + u * u) - (c0 * (1 + u * u)) * (1 + t * t)); [ring|]. rewrite V1, W1. ring. }
    assert (K2 : s * s * (s0 * s0) * (m * m) = 16 * (t * t * (u * u))).
    { unfold m. transitivity ((s * (1 + t * t)) * (s * (1 + t * t)) * ((s0 * (1 + u * u)) * (s0 * (1 + u * u)))); [ring|]. rewrite V2, W2. ring. }
    assert (K3 : (t * t - u * u) * (t * t - u * u) * (s0 * s0) = 4 * (al * al) * (t * t * (u * u))).
    { set (z := t * t - u * u) in *. assert (E : Rabs z * Rabs z = z * z) by (unfold Rabs; destruct Rcase_abs; ring). rewrite <- E.
      transitivity ((Rabs z * s0) * (Rabs z * s0)); [ring|]. rewrite HT. ring. }
    apply Rmult_eq_reg_r with ((s0 * s0) * (m * m)); [|apply Rgt_not_eq; repeat apply Rmult_lt_0_compat; lra].
    transitivity ((s0 * s0) * (((c - c0) * m) * ((c - c0) * m))); [ring|]. rewrite K1.
    transitivity (4 * ((t * t - u * u) * (t * t - u * u) * (s0 * s0))); [ring|]. rewrite K3.
    transitivity (al * al * (s * s * (s0 * s0) * (m * m))); [rewrite K2|]; ring. }
  split.
  - destruct (any Bandpass_cpg v) as (D & g & th & G0 & G1 & G2). exists th. replace (/ sqrt 2) with g; [exact G2|].
    assert (Q1 : g * g = / sqrt 2 * / sqrt 2); [|apply Rle_antisym; apply le_sq; try lra; left; apply Rinv_0_lt_compat; exact P2].
    apply Rmult_eq_reg_r with (dden (cfg Bandpass_cpg f sps w) v); [|lra]. rewrite G1, IS.
    unfold dden, dnum. des. set (al := alpha _ _ _) in *.
    transitivity (2 * (al * al * (sin v * sin v)) + 2 * (al * al * (sin v * sin v))); [ring|]. rewrite <- K at 1. field.
  - destruct (any Notch v) as (D & g & th & G0 & G1 & G2). exists th. replace (/ sqrt 2) with g; [exact G2|].
    assert (Q1 : g * g = / sqrt 2 * / sqrt 2); [|apply Rle_antisym; apply le_sq; try lra; left; apply Rinv_0_lt_compat; exact P2].
    apply Rmult_eq_reg_r with (dden (cfg Notch f sps w) v); [|lra]. rewrite G1, IS.
    unfold dden, dnum. des. set (al := alpha _ _ _) in *.
    transitivity (2 * ((cos v - cos w0) * (cos v - cos w0)) + 2 * ((cos v - cos w0) * (cos v - cos w0))); [ring|]. rewrite K at 2. field.
Qed.
Lemma q_half q v : w = Q q -> 0 < v < PI -> Rabs (tan (v / 2) * tan (v / 2) - tan (w0 / 2) * tan (w0 / 2)) = tan (v / 2) * tan (w0 / 2) / q ->
  (exists th, response (sys Bandpass_cpg) v (/ sqrt 2) th) /\ (exists th, response (sys Notch) v (/ sqrt 2) th).
Proof.
  intros E Hv HT. assert (Hq : 0 < q) by (destruct L as (_ & _ & X); rewrite E in X; exact X).
  apply al_half; [exact Hv|]. rewrite HT. rewrite E. unfold alpha, alpha_q. cbn [quo mul two opsR]. field. lra.
Qed.
(** a bandwidth of n octaves, corrected by w0 / sin w0 *)
Lemma bw_half n v : w = BW n -> 0 < v < PI -> let k := Rpower 2 (n / 2 * (w0 / sin w0)) in
  tan (v / 2) = tan (w0 / 2) * k \/ tan (v / 2) = tan (w0 / 2) / k ->
  (exists th, response (sys Bandpass_cpg) v (/ sqrt 2) th) /\ (exists th, response (sys Notch) v (/ sqrt 2) th).
Proof.
  intros E Hv k HT. assert (Hn : 0 < n) by (destruct L as (_ & _ & X); rewrite E in X; exact X).
  assert (W := omega_range f sps (proj1 L) (proj1 (proj2 L))).
  assert (S0 : 0 < sin w0) by (apply sin_gt_0; lra).
  assert (A : 2 * alpha f sps w = sin w0 * (k - / k)).
  { rewrite E. unfold alpha. unfold sinh. rewrite exp_Ropp.
    replace (exp (ln 2 / 2 * n * w0 / sin w0)) with k; [field|].
    - apply Rgt_not_eq. apply exp_pos.
    - unfold k, Rpower. f_equal. field. lra. }
  assert (K1 : 1 <= k).
  { unfold k. replace 1 with (Rpower 2 0) at 1 by (apply Rpower_O; lra). apply Rle_Rpower; [lra|].
    apply Rmult_le_pos; [lra|]. left. apply Rdiv_lt_0_compat; lra. }
  apply al_half; [exact Hv|]. rewrite A. set (u := tan (w0 / 2)) in *. set (t := tan (v / 2)) in *.
  assert (U : 0 <= u * u) by (generalize (sq_nonneg u); lra).
  destruct HT as [-> | ->].
  - rewrite Rabs_pos_eq; [field; lra|].
    replace (u * k * (u * k) - u * u) with ((u * u) * ((k - 1) * (k + 1))) by ring. apply Rmult_le_pos; [exact U|apply Rmult_le_pos; lra].
  - rewrite Rabs_left1; [field; lra|].
    replace (u / k * (u / k) - u * u) with (- ((u / k * (u / k)) * ((k - 1) * (k + 1)))) by (field; lra).
    assert (0 <= (u / k * (u / k)) * ((k - 1) * (k + 1))); [|lra]. apply Rmult_le_pos; [apply sq_nonneg|apply Rmult_le_pos; lra].
Qed.
End R.
