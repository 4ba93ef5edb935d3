From Coq Require Import Reals Lra Psatz.
From Flocq Require Import Core.Core IEEE754.BinarySingleNaN.
From Flocq Require Import Mult_error.
From Verif Require Import Common CommonFacts Float FloatFacts FloatLerp FloatRel Env_Proof Dyn_Model Dyn_Spec.
Local Open Scope R_scope.
Local Notation rd := (rnd 53 1024).
Local Notation fd := (fmt 53 1024).

Lemma fd_bpow e : (-1074 <= e)%Z -> fd (bpow radix2 e).
Proof. intros H. apply fmt_bpow. unfold SpecFloat.emin. lia. Qed.
Lemma fd_1 : fd 1. Proof. exact (fd_bpow 0 ltac:(lia)). Qed.
Lemma bnd_lt e : (e < 1024)%Z -> bpow radix2 e < bpow radix2 1024. Proof. intros H. apply bpow_lt. lia. Qed.
Lemma half64_R : B2R half64 = / 2 /\ is_finite half64 = true.
Proof. destruct (mk64_small 1 (-1) ltac:(reflexivity) ltac:(lia)) as [V F]. change (bpow radix2 (-1)) with (/ 2) in V. rewrite Rmult_1_l in V. auto. Qed.
Lemma db_sub_ok (a b : db) : db_level a -> db_level b ->
  is_finite (db_sub a b) = true /\ B2R (db_sub a b) = rd (B2R a - B2R b) /\ Rabs (B2R (db_sub a b)) <= bpow radix2 101.
Proof.
  intros [Fa Ba] [Fb Bb]. assert (E : bpow radix2 101 = 2 * bpow radix2 100) by (change 101%Z with (1 + 100)%Z; rewrite bpow_plus; reflexivity).
  destruct (fsub_bnd a b (bpow radix2 101) Fa Fb (fd_bpow 101 ltac:(lia)) (bnd_lt 101 ltac:(lia))) as (V & F & B).
  { unfold Rminus. eapply Rle_trans; [apply Rabs_triang|]. rewrite Rabs_Ropp. lra. }
  auto.
Qed.
(** 1.0f - ratio *)
Lemma slope_ok (r : f32) : ratio_in 1 r -> let s := fsub (mk32 1 0) r in
  is_finite s = true /\ 0 <= B2R s <= 1 /\ Rabs (B2R s - (1 - B2R r)) <= bpow radix2 (-24) * (1 - B2R r).
Proof.
  intros [Fr Hr] s. destruct (int32 1 ltac:(reflexivity)) as [V1 F1].
  assert (G1 : fmt 24 128 1) by (exact (fmt_bpow (prec:=24) (emax:=128) 0 ltac:(unfold SpecFloat.emin; lia))).
  destruct (fsub_bnd (mk32 1 0) r 1 F1 Fr G1) as (V & F & B); [change 1 with (bpow radix2 0); apply bpow_lt; lia|rewrite V1; apply Rabs_le; lra|].
  rewrite V1 in V. fold s in V, F, B. split; [exact F|]. split.
  - rewrite V. split; [apply rnd_ge_fmt; [apply fmt_0|lra]|apply rnd_le_fmt; [exact G1|lra]].
  - rewrite V. change (bpow radix2 (-24)) with (/ 16777216).
    destruct (Rle_lt_dec (bpow radix2 (-126)) (1 - B2R r)) as [L|L].
    + pose proof (rnd_rel32 (1 - B2R r)) as E. rewrite (Rabs_pos_eq (1 - B2R r)) in E by lra. apply E. exact L.
    + (* then the difference is exact *)
      rewrite rnd_fmt; [rewrite Rminus_diag_eq, Rabs_R0 by reflexivity; lra|].
      apply sub_small_exact; [apply fmt_v|exact G1|]. rewrite Rabs_pos_eq by lra. eapply Rlt_trans; [exact L|apply bpow_lt; lia].
Qed.
Lemma fscale_ok (s : f32) (x : db) m : is_finite s = true -> 0 <= B2R s <= bpow radix2 100 -> is_finite x = true -> Rabs (B2R x) <= bpow radix2 m -> (0 <= m <= 800)%Z ->
  is_finite (db_fscale s x) = true /\ B2R (db_fscale s x) = rd (B2R s * B2R x).
Proof.
  intros Fs Hs Fx Hx Hm. destruct (to64_R s Fs) as [V6 F6]. unfold db_fscale.
  destruct (fmul_bnd (to64 s) x (bpow radix2 (100 + m)) F6 Fx (fd_bpow (100 + m) ltac:(lia)) (bnd_lt (100 + m) ltac:(lia))) as (V & F & B).
  { rewrite V6, Rabs_mult, bpow_plus, (Rabs_pos_eq (B2R s)) by lra. apply Rmult_le_compat; try apply Rabs_pos; lra. }
  rewrite V6 in V. auto.
Qed.
Lemma one_le_100 : 1 <= bpow radix2 100. Proof. change 1 with (bpow radix2 0). apply bpow_le. lia. Qed.

(** the common above/below-threshold formula slope * (a - b), a <= b *)
Lemma line_ok (s : f32) (a b : db) : is_finite s = true -> 0 <= B2R s <= bpow radix2 100 -> db_level a -> db_level b ->
  is_finite (db_fscale s (db_sub a b)) = true /\ B2R (db_fscale s (db_sub a b)) = rd (B2R s * rd (B2R a - B2R b)).
Proof.
  intros Fs Hs Ha Hb. destruct (db_sub_ok a b Ha Hb) as (F & V & B). destruct (fscale_ok s (db_sub a b) 101 Fs Hs F B ltac:(lia)) as [F2 V2].
  rewrite V in V2. auto.
Qed.
Lemma line_neg s a b : 0 <= s -> a <= b -> rd (s * rd (a - b)) <= 0.
Proof.
  intros Hs H. apply rnd_le_fmt; [apply fmt_0|]. assert (rd (a - b) <= 0) by (apply rnd_le_fmt; [apply fmt_0|lra]). nra.
Qed.
Lemma line_mono s a b a' b' : 0 <= s -> a - b <= a' - b' -> rd (s * rd (a - b)) <= rd (s * rd (a' - b')).
Proof. intros Hs H. apply rnd_le. apply Rmult_le_compat_l; [exact Hs|]. apply rnd_le. exact H. Qed.
Lemma rd_err_all x : Rabs (rd x - x) <= bpow radix2 (-53) * Rabs x + bpow radix2 (-1000).
Proof.
  pose proof (bpow_ge_0 radix2 (-1000)). pose proof (Rabs_pos x). change (bpow radix2 (-53)) with (/ 9007199254740992).
  destruct (Rle_lt_dec (bpow radix2 (-1022)) (Rabs x)) as [L|L].
  - pose proof (rnd_rel64 x L). lra.
  - pose proof (rnd_err (prec:=53) (emax:=1024) x (-1000) ltac:(unfold SpecFloat.emin; lia)) as E.
    assert (bpow radix2 (-1000 - 53 - 1) <= bpow radix2 (-1000)) by (apply bpow_le; lia).
    assert (Rabs x <= bpow radix2 (-1000)) by (apply Rlt_le; eapply Rlt_trans; [exact L|apply bpow_lt; lia]).
    specialize (E H2). lra.
Qed.
Lemma line_err s sv d : 0 <= s <= bpow radix2 100 -> Rabs (sv - s) <= bpow radix2 (-24) * s ->
  Rabs (rd (sv * rd d) - s * d) <= bpow radix2 (-23) * (s * Rabs d) + bpow radix2 (-800).
Proof.
  intros Hs Hv. pose proof (rd_err_all d) as E1. pose proof (rd_err_all (sv * rd d)) as E2. pose proof (Rabs_pos d) as D0.
  change (bpow radix2 (-24)) with (/ 16777216) in Hv. change (bpow radix2 (-23)) with (/ 8388608). change (bpow radix2 (-53)) with (/ 9007199254740992) in *.
  set (h := bpow radix2 (-1000)) in *. assert (h0 : 0 < h) by apply bpow_gt_0.
  assert (T : 8 * (bpow radix2 100 * h) + 8 * h <= bpow radix2 (-800)).
  { unfold h. rewrite <- bpow_plus. assert (bpow radix2 (-1000) <= bpow radix2 (100 + -1000)) by (apply bpow_le; lia).
    apply Rle_trans with (16 * bpow radix2 (100 + -1000)); [lra|]. change 16 with (bpow radix2 4). rewrite <- bpow_plus. apply bpow_le. lia. }
  set (B := bpow radix2 100) in *. clearbody h B.
  assert (Hsv : 0 <= sv <= s * (1 + / 16777216)) by (apply Rabs_le_inv in Hv; lra).
  assert (A1 : Rabs (rd d) <= Rabs d * (1 + / 9007199254740992) + h).
  { replace (rd d) with ((rd d - d) + d) by ring. eapply Rle_trans; [apply Rabs_triang|]. lra. }
  assert (A2 : Rabs (sv * rd d) <= s * (1 + / 16777216) * (Rabs d * (1 + / 9007199254740992) + h)).
  { rewrite Rabs_mult, (Rabs_pos_eq sv) by lra. apply Rmult_le_compat; try apply Rabs_pos; lra. }
  assert (A3 : Rabs (sv * (rd d - d)) <= s * (1 + / 16777216) * (/ 9007199254740992 * Rabs d + h)).
  { rewrite Rabs_mult, (Rabs_pos_eq sv) by lra. apply Rmult_le_compat; try apply Rabs_pos; lra. }
  assert (A4 : Rabs ((sv - s) * d) <= / 16777216 * s * Rabs d) by (rewrite Rabs_mult; apply Rmult_le_compat_r; lra).
  replace (rd (sv * rd d) - s * d) with ((rd (sv * rd d) - sv * rd d) + (sv * (rd d - d) + (sv - s) * d)) by ring.
  eapply Rle_trans; [apply Rabs_triang|]. eapply Rle_trans; [apply Rplus_le_compat_l, Rabs_triang|].
  assert (sh : s * h <= B * h) by (apply Rmult_le_compat_r; lra). assert (sd : 0 <= s * Rabs d) by (apply Rmult_le_pos; lra).
  assert (0 <= s * h) by (apply Rmult_le_pos; lra).
  set (X := s * Rabs d) in *. set (Y := s * h) in *.
  replace (s * (1 + / 16777216) * (Rabs d * (1 + / 9007199254740992) + h)) with ((1 + / 16777216) * ((1 + / 9007199254740992) * X + Y)) in A2 by (unfold X, Y; ring).
  replace (s * (1 + / 16777216) * (/ 9007199254740992 * Rabs d + h)) with ((1 + / 16777216) * (/ 9007199254740992 * X + Y)) in A3 by (unfold X, Y; ring).
  replace (/ 16777216 * s * Rabs d) with (/ 16777216 * X) in A4 by (unfold X; ring). clearbody X Y. lra.
Qed.

(** ** compressor *)
Lemma comp_cases (t e : db) (r : f32) : db_level t -> db_level e -> ratio_in 1 r ->
  let g := comp_gain (comp_make t r) e in
  is_finite g = true /\
  ((B2R e <= B2R t /\ g = db_zero) \/ (B2R t < B2R e /\ B2R g = rd (B2R (fsub (mk32 1 0) r) * rd (B2R t - B2R e)))).
Proof.
  intros Ht He Hr g. unfold g, comp_gain, comp_make. cbn [c_threshold c_slope]. destruct (fle e t) eqn:E.
  - split; [reflexivity|]. left. split; [|reflexivity]. apply (fle_true e t (proj1 He) (proj1 Ht)). exact E.
  - apply (fle_false e t (proj1 He) (proj1 Ht)) in E. destruct (slope_ok r Hr) as (Fs & Bs & _).
    assert (Bs' : 0 <= B2R (fsub (mk32 1 0) r) <= bpow radix2 100) by (pose proof one_le_100; lra).
    destruct (line_ok (fsub (mk32 1 0) r) t e Fs Bs' Ht He) as [F V]. split; [exact F|]. right. auto.
Qed.
(** ** expander *)
Lemma exp_cases (t e : db) (r : f32) : db_level t -> db_level e -> ratio_in (bpow radix2 100) r ->
  let g := exp_gain (exp_make t r) e in
  is_finite g = true /\
  ((B2R t <= B2R e /\ g = db_zero) \/ (B2R e < B2R t /\ B2R g = rd (B2R r * rd (B2R e - B2R t)))).
Proof.
  intros Ht He Hr g. unfold g, exp_gain, exp_make. cbn [x_threshold x_slope]. destruct (fle t e) eqn:E.
  - split; [reflexivity|]. left. split; [|reflexivity]. apply (fle_true t e (proj1 Ht) (proj1 He)). exact E.
  - apply (fle_false t e (proj1 Ht) (proj1 He)) in E.
    destruct (line_ok r e t (proj1 Hr) (proj2 Hr) He Ht) as [F V]. split; [exact F|]. right. auto.
Qed.

(** ** soft knee *)
Lemma knee_edges (t w : db) (r : f32) : knee_ok t w -> let k := soft_make t w r in
  db_level (k_lower k) /\ db_level (k_upper k) /\ B2R (k_lower k) = rd (B2R t - B2R w / 2) /\ B2R (k_upper k) = rd (B2R t + B2R w / 2).
Proof.
  intros (Ht & Fw & Hw & Bt) k. unfold k, soft_make. cbn [k_lower k_upper].
  destruct half64_R as [Vh Fh]. pose proof (bpow_gt_0 radix2 (-100)) as P0.
  assert (E : bpow radix2 100 = 2 * bpow radix2 99) by (change 100%Z with (1 + 99)%Z; rewrite bpow_plus; reflexivity).
  assert (H2 : fd (B2R w / 2)).
  { unfold fmt. change (fx (prec:=53) (emax:=1024)) with (FLT_exp (-1074) 53). unfold Rdiv. change (/ 2) with (bpow radix2 (-1)).
    apply mult_bpow_exact_FLT; [exact (fmt_v w)|].
    assert (-100 < mag radix2 (B2R w))%Z; [|lia].
    apply mag_gt_bpow. rewrite Rabs_pos_eq by lra. exact (proj1 Hw). }
  destruct (fmul_exact w half64 Fw Fh) as [V F].
  { rewrite Vh. exact H2. } { rewrite Vh, Rabs_pos_eq by lra. apply Rle_lt_trans with (bpow radix2 99); [lra|apply bpow_lt; lia]. }
  rewrite Vh in V. unfold db_scale.
  destruct (fsub_bnd t (fmul w half64) (bpow radix2 100) (proj1 Ht) F (fd_bpow 100 ltac:(lia)) (bnd_lt 100 ltac:(lia))) as (V1 & F1 & B1).
  { rewrite V. unfold Rminus. eapply Rle_trans; [apply Rabs_triang|]. rewrite Rabs_Ropp, (Rabs_pos_eq (B2R w * _)) by lra. lra. }
  destruct (fadd_bnd t (fmul w half64) (bpow radix2 100) (proj1 Ht) F (fd_bpow 100 ltac:(lia)) (bnd_lt 100 ltac:(lia))) as (V2 & F2 & B2).
  { rewrite V. eapply Rle_trans; [apply Rabs_triang|]. rewrite (Rabs_pos_eq (B2R w * _)) by lra. lra. }
  rewrite V in V1, V2. unfold db_sub, db_add. repeat split; auto.
Qed.
(** relative closeness *)
Definition near (c x y : R) : Prop := exists K, Rabs (K - 1) <= c /\ y = x * K.
Lemma near_prod a b K L : Rabs (K - 1) <= a -> Rabs (L - 1) <= b -> Rabs (K * L - 1) <= a + b + a * b.
Proof.
  intros H1 H2. replace (K * L - 1) with ((K - 1) + (L - 1) + (K - 1) * (L - 1)) by ring.
  eapply Rle_trans; [apply Rabs_triang|]. eapply Rle_trans; [apply Rplus_le_compat_r, Rabs_triang|]. rewrite Rabs_mult.
  pose proof (Rabs_pos (K - 1)). pose proof (Rabs_pos (L - 1)).
  assert (Rabs (K - 1) * Rabs (L - 1) <= a * b) by (apply Rmult_le_compat; lra). lra.
Qed.
Lemma near_trans a b x y z : near a x y -> near b y z -> near (a + b + a * b) x z.
Proof. intros (K & HK & ->) (L & HL & ->). exists (K * L). split; [apply near_prod; assumption|ring]. Qed.
Lemma near_mul a b x y x' y' : near a x x' -> near b y y' -> near (a + b + a * b) (x * y) (x' * y').
Proof. intros (K & HK & ->) (L & HL & ->). exists (K * L). split; [apply near_prod; assumption|ring]. Qed.
Lemma near_scale c k x y : near c x y -> near c (k * x) (k * y).
Proof. intros (K & HK & ->). exists K. split; [exact HK|ring]. Qed.
Lemma near_wide c c' x y : c <= c' -> near c x y -> near c' x y.
Proof. intros H (K & HK & E). exists K. split; [lra|exact E]. Qed.
Lemma near_err c x y : near c x y -> Rabs (y - x) <= c * Rabs x.
Proof. intros (K & HK & ->). replace (x * K - x) with ((K - 1) * x) by ring. rewrite Rabs_mult. apply Rmult_le_compat_r; [apply Rabs_pos|exact HK]. Qed.
Lemma near_of_err c x y : x <> 0 -> Rabs (y - x) <= c * Rabs x -> near c x y.
Proof.
  intros Nx H. exists (y / x). split; [|field; exact Nx]. replace (y / x - 1) with ((y - x) / x) by (field; exact Nx).
  unfold Rdiv. rewrite Rabs_mult, Rabs_Rinv by exact Nx. pose proof (Rabs_pos_lt x Nx).
  apply Rmult_le_reg_r with (Rabs x); [assumption|]. rewrite Rmult_assoc, Rinv_l by lra. lra.
Qed.
Local Notation u64 := (/ 9007199254740992).
Lemma near_rd x : bpow radix2 (-1022) <= Rabs x -> near u64 x (rd x).
Proof.
  intros L. apply near_of_err; [|exact (rnd_rel64 x L)]. intros ->. rewrite Rabs_R0 in L. pose proof (bpow_gt_0 radix2 (-1022)). lra.
Qed.
Lemma near_low c x y : c <= / 2 -> near c x y -> / 2 * Rabs x <= Rabs y.
Proof.
  intros Hc H. pose proof (near_err c x y H) as E. pose proof (Rabs_triang (- (y - x)) y) as T. rewrite Rabs_Ropp in T.
  replace (- (y - x) + y) with x in T by ring. pose proof (Rabs_pos x). nra.
Qed.

(** the knee formula, in real numbers with its roundings *)
Definition knee_val (s l w e : R) : R := rd (rd (rd (s * rd (rd (e - l) / w)) * / 2) * rd (l - e)).
Lemma soft_cases (t w e : db) (r : f32) : knee_ok t w -> db_level e -> ratio_in 1 r ->
  let k := soft_make t w r in let g := soft_gain k e in let s := B2R (fsub (mk32 1 0) r) in
  is_finite g = true /\
  ((B2R e <= B2R (k_lower k) /\ g = db_zero) \/
   (B2R (k_lower k) < B2R e <= B2R (k_upper k) /\ B2R g = knee_val s (B2R (k_lower k)) (B2R w) (B2R e)) \/
   (B2R (k_lower k) < B2R e /\ B2R (k_upper k) < B2R e /\ g = db_fscale (fsub (mk32 1 0) r) (db_sub t e))).
Proof.
  intros Hk He Hr k g s. destruct (knee_edges t w r Hk) as (Hl & Hu & Vl & Vu). fold k in Hl, Hu, Vl, Vu.
  destruct (slope_ok r Hr) as (Fs & Bs & _). fold s in Bs. destruct Hk as (Ht & Fw & Hw & Bt).
  assert (Bs' : 0 <= s <= bpow radix2 100) by (pose proof one_le_100; lra).
  unfold g, soft_gain. destruct (fle e (k_lower k)) eqn:E1.
  { apply (fle_true e _ (proj1 He) (proj1 Hl)) in E1. split; [reflexivity|]. left. auto. }
  apply (fle_false e _ (proj1 He) (proj1 Hl)) in E1. destruct (fle e (k_upper k)) eqn:E2.
  2: { apply (fle_false e _ (proj1 He) (proj1 Hu)) in E2. destruct (line_ok _ t e Fs Bs' Ht He) as [F V]. split; [exact F|]. right. right. auto. }
  apply (fle_true e _ (proj1 He) (proj1 Hu)) in E2. change (k_width k) with w. change (k_slope k) with (fsub (mk32 1 0) r).
  set (l := k_lower k) in *. clearbody l. clear Vl.
  destruct (db_sub_ok e l He Hl) as (Fd & Vd & Bd). destruct (db_sub_ok l e Hl He) as (Fm & Vm & Bm).
  assert (W0 : 0 < B2R w) by (pose proof (bpow_gt_0 radix2 (-100)); lra).
  assert (Iw : / B2R w <= bpow radix2 100).
  { replace (bpow radix2 100) with (/ bpow radix2 (-100)); [apply Rinv_le; [apply bpow_gt_0|apply Hw]|]. rewrite <- bpow_opp. reflexivity. }
  destruct (fdiv_bnd (db_sub e l) w (bpow radix2 201) Fd ltac:(lra) (fd_bpow 201 ltac:(lia)) (bnd_lt 201 ltac:(lia))) as (Vq & Fq & Bq).
  { unfold Rdiv. rewrite Rabs_mult, (Rabs_pos_eq (/ _)) by (apply Rlt_le, Rinv_0_lt_compat; exact W0).
    change 201%Z with (101 + 100)%Z. rewrite bpow_plus. apply Rmult_le_compat; try apply Rabs_pos; auto. apply Rlt_le, Rinv_0_lt_compat; exact W0. }
  fold (db_div (db_sub e l) w) in Vq, Fq, Bq.
  destruct (fscale_ok (fsub (mk32 1 0) r) (db_div (db_sub e l) w) 201 Fs Bs' Fq Bq ltac:(lia)) as [Fp Vp]. fold s in Vp.
  assert (Bp : Rabs (B2R (db_fscale (fsub (mk32 1 0) r) (db_div (db_sub e l) w))) <= bpow radix2 201).
  { rewrite Vp. apply rnd_abs_le; [apply fd_bpow; lia|]. rewrite Rabs_mult, (Rabs_pos_eq s) by lra. pose proof (Rabs_pos (B2R (db_div (db_sub e l) w))). nra. }
  set (p := db_fscale (fsub (mk32 1 0) r) (db_div (db_sub e l) w)) in *. destruct half64_R as [Vh Fh].
  destruct (fmul_bnd p half64 (bpow radix2 201) Fp Fh (fd_bpow 201 ltac:(lia)) (bnd_lt 201 ltac:(lia))) as (Vs & Fss & Bss).
  { rewrite Vh, Rabs_mult, (Rabs_pos_eq (/ 2)) by lra. pose proof (Rabs_pos (B2R p)). lra. }
  fold (db_scale p half64) in Vs, Fss, Bss.
  destruct (fmul_bnd (db_scale p half64) (db_sub l e) (bpow radix2 (201 + 101)) Fss Fm (fd_bpow (201 + 101) ltac:(lia)) (bnd_lt (201 + 101) ltac:(lia))) as (Vg & Fg & Bg).
  { rewrite Rabs_mult, bpow_plus. apply Rmult_le_compat; try apply Rabs_pos; assumption. }
  cbv zeta. split; [exact Fg|]. right. left. split; [lra|]. unfold db_mul. rewrite Vg. unfold knee_val. rewrite Vs, Vm, Vh, Vp, Vq, Vd. reflexivity.
Qed.
Lemma rd_nn x : 0 <= x -> 0 <= rd x. Proof. intros H. apply rnd_ge_fmt; [apply fmt_0|exact H]. Qed.
Lemma rd_np x : x <= 0 -> rd x <= 0. Proof. intros H. apply rnd_le_fmt; [apply fmt_0|exact H]. Qed.
Lemma rd_opp' x : rd (- x) = - rd x. Proof. apply rnd_opp. Qed.
(** the part before the last multiplication is nonnegative and grows with e *)
Lemma knee_slope s l w e e' : 0 <= s -> 0 < w -> l <= e -> e <= e' ->
  0 <= rd (rd (s * rd (rd (e - l) / w)) * / 2) <= rd (rd (s * rd (rd (e' - l) / w)) * / 2) /\ rd (l - e') <= rd (l - e) <= 0.
Proof.
  intros Hs Hw H1 H2. assert (0 < / w) by (apply Rinv_0_lt_compat; exact Hw).
  assert (0 <= rd (e - l)) by (apply rd_nn; lra). assert (rd (e - l) <= rd (e' - l)) by (apply rnd_le; lra).
  assert (0 <= rd (rd (e - l) / w)) by (apply rd_nn; unfold Rdiv; nra).
  assert (rd (rd (e - l) / w) <= rd (rd (e' - l) / w)) by (apply rnd_le; unfold Rdiv; nra).
  assert (0 <= rd (s * rd (rd (e - l) / w))) by (apply rd_nn; nra).
  assert (rd (s * rd (rd (e - l) / w)) <= rd (s * rd (rd (e' - l) / w))) by (apply rnd_le; nra).
  split; split; [apply rd_nn; lra|apply rnd_le; lra|apply rnd_le; lra|apply rd_np; lra].
Qed.
Lemma knee_neg s l w e : 0 <= s -> 0 < w -> l <= e -> knee_val s l w e <= 0.
Proof. intros Hs Hw H. unfold knee_val. apply rd_np. destruct (knee_slope s l w e e Hs Hw H ltac:(lra)) as [A B]. nra. Qed.
Lemma knee_mono s l w e e' : 0 <= s -> 0 < w -> l <= e -> e <= e' -> knee_val s l w e' <= knee_val s l w e.
Proof. intros Hs Hw H1 H2. unfold knee_val. apply rnd_le. destruct (knee_slope s l w e e' Hs Hw H1 H2) as [A B]. nra. Qed.
(** accuracy of the knee *)
Lemma float_pos_min (x : f32) : 0 < B2R x -> bpow radix2 (-149) <= B2R x.
Proof.
  intros H. replace (bpow radix2 (-149)) with (succ radix2 (fx (prec:=24) (emax:=128)) 0).
  - apply succ_le_lt; [apply fx_valid|apply fmt_0|apply fmt_v|exact H].
  - rewrite succ_0. apply (ulp_FLT_0 radix2 (-149) 24).
Qed.
Lemma knee_far s l w e : bpow radix2 (-149) <= s <= 1 -> bpow radix2 (-100) <= w <= bpow radix2 99 -> bpow radix2 (-300) <= e - l <= bpow radix2 101 ->
  near (16 * u64) (s * (e - l) * (e - l) / (2 * w)) (- knee_val s l w e).
Proof.
  intros Hs Hw HD. set (D := e - l) in *.
  pose proof (bpow_gt_0 radix2 (-149)). pose proof (bpow_gt_0 radix2 (-100)). pose proof (bpow_gt_0 radix2 (-300)).
  assert (B : forall a b, (a <= b)%Z -> bpow radix2 a <= bpow radix2 b) by (intros; apply bpow_le; assumption).
  assert (Hb : forall c x y a, near c x y -> c <= / 2 -> bpow radix2 a <= x -> bpow radix2 (a - 1) <= y).
  { intros c x y a (K & HK & ->) Hc Hx. apply Rabs_le_inv in HK. pose proof (bpow_gt_0 radix2 a).
    assert (E : bpow radix2 (a - 1) = bpow radix2 a * / 2) by (unfold Z.sub; rewrite bpow_plus; reflexivity). rewrite E. nra. }
  assert (N1 : near u64 D (rd D)) by (apply near_rd; rewrite Rabs_pos_eq by lra; apply Rle_trans with (bpow radix2 (-300)); [apply B; lia|lra]).
  pose proof (Hb _ _ _ (-300)%Z N1 ltac:(lra) (proj1 HD)) as L1. change (-300 - 1)%Z with (-301)%Z in L1.
  assert (Iw0 : 0 < / w) by (apply Rinv_0_lt_compat; lra).
  assert (Iw : bpow radix2 (-99) <= / w).
  { replace (bpow radix2 (-99)) with (/ bpow radix2 99); [apply Rinv_le; lra|]. rewrite <- bpow_opp. reflexivity. }
  assert (L2 : bpow radix2 (-400) <= rd D / w).
  { change (-400)%Z with (-301 + -99)%Z. rewrite bpow_plus. unfold Rdiv. apply Rmult_le_compat; try apply bpow_ge_0; lra. }
  pose proof (bpow_gt_0 radix2 (-400)).
  assert (N2 : near u64 (rd D / w) (rd (rd D / w))) by (apply near_rd; rewrite Rabs_pos_eq by lra; apply Rle_trans with (bpow radix2 (-400)); [apply B; lia|lra]).
  assert (N2' : near (u64 + u64 + u64 * u64) (D / w) (rd (rd D / w))).
  { eapply near_trans; [|exact N2]. unfold Rdiv. rewrite (Rmult_comm D), (Rmult_comm (rd D)). apply near_scale. exact N1. }
  pose proof (Hb _ _ _ (-400)%Z N2 ltac:(lra) L2) as L3. change (-400 - 1)%Z with (-401)%Z in L3.
  assert (L4 : bpow radix2 (-550) <= s * rd (rd D / w)).
  { change (-550)%Z with (-149 + -401)%Z. rewrite bpow_plus. apply Rmult_le_compat; try apply bpow_ge_0; lra. }
  pose proof (bpow_gt_0 radix2 (-550)).
  assert (N3 : near u64 (s * rd (rd D / w)) (rd (s * rd (rd D / w)))) by (apply near_rd; rewrite Rabs_pos_eq by lra; apply Rle_trans with (bpow radix2 (-550)); [apply B; lia|lra]).
  pose proof (near_trans _ _ _ _ _ (near_scale _ s _ _ N2') N3) as N3'.
  pose proof (Hb _ _ _ (-550)%Z N3 ltac:(lra) L4) as L5. change (-550 - 1)%Z with (-551)%Z in L5.
  set (p := rd (s * rd (rd D / w))) in *.
  assert (L6 : bpow radix2 (-552) <= p * / 2).
  { change (-552)%Z with (-551 + -1)%Z. rewrite bpow_plus. change (bpow radix2 (-1)) with (/ 2). lra. }
  pose proof (bpow_gt_0 radix2 (-552)).
  assert (N4 : near u64 (p * / 2) (rd (p * / 2))) by (apply near_rd; rewrite Rabs_pos_eq by lra; apply Rle_trans with (bpow radix2 (-552)); [apply B; lia|lra]).
  assert (N4' : near u64 (/ 2 * p) (rd (p * / 2))) by (rewrite (Rmult_comm (/ 2)); exact N4).
  pose proof (near_trans _ _ _ _ _ (near_scale _ (/ 2) _ _ N3') N4') as N5.
  pose proof (Hb _ _ _ (-552)%Z N4 ltac:(lra) L6) as L7. change (-552 - 1)%Z with (-553)%Z in L7.
  pose proof (near_mul _ _ _ _ _ _ N5 N1) as N6.
  set (h := rd (p * / 2)) in *.
  assert (L8 : bpow radix2 (-1022) <= h * rd D).
  { apply Rle_trans with (bpow radix2 (-553 + -301)%Z); [|]. 2: rewrite bpow_plus; apply Rmult_le_compat; try apply bpow_ge_0; lra.
    apply B. lia. }
  pose proof (bpow_gt_0 radix2 (-1022)).
  assert (N7 : near u64 (h * rd D) (rd (h * rd D))) by (apply near_rd; rewrite Rabs_pos_eq by lra; exact L8).
  pose proof (near_trans _ _ _ _ _ N6 N7) as N8.
  unfold knee_val. fold D. replace (l - e) with (- D) by (unfold D; ring). rewrite rd_opp'. fold p. fold h.
  replace (h * - rd D) with (- (h * rd D)) by ring. rewrite rd_opp', Ropp_involutive.
  replace (s * D * D / (2 * w)) with (/ 2 * (s * (D / w)) * D) by (field; lra).
  eapply near_wide; [|exact N8]. lra.
Qed.
Lemma knee_close s l w e : 0 <= s <= 1 -> bpow radix2 (-100) <= w <= bpow radix2 99 -> 0 <= e - l < bpow radix2 (-300) ->
  Rabs (knee_val s l w e) <= bpow radix2 (-500) /\ 0 <= s * (e - l) * (e - l) / (2 * w) <= bpow radix2 (-500).
Proof.
  intros Hs Hw HD. set (D := e - l) in *.
  assert (Iw0 : 0 < / w) by (apply Rinv_0_lt_compat; pose proof (bpow_gt_0 radix2 (-100)); lra).
  assert (Iw : / w <= bpow radix2 100).
  { replace (bpow radix2 100) with (/ bpow radix2 (-100)); [apply Rinv_le; [apply bpow_gt_0|apply Hw]|]. rewrite <- bpow_opp. reflexivity. }
  assert (A1 : 0 <= rd D <= bpow radix2 (-300)) by (split; [apply rd_nn; lra|apply rnd_le_fmt; [apply fd_bpow; lia|lra]]).
  assert (A2 : 0 <= rd (rd D / w) <= bpow radix2 (-200)).
  { split; [apply rd_nn; unfold Rdiv; nra|apply rnd_le_fmt; [apply fd_bpow; lia|]]. change (-200)%Z with (-300 + 100)%Z. rewrite bpow_plus. unfold Rdiv. apply Rmult_le_compat; try lra. }
  assert (A3 : 0 <= rd (s * rd (rd D / w)) <= bpow radix2 (-200)) by (split; [apply rd_nn; nra|apply rnd_le_fmt; [apply fd_bpow; lia|nra]]).
  assert (A4 : 0 <= rd (rd (s * rd (rd D / w)) * / 2) <= bpow radix2 (-200)) by (split; [apply rd_nn; lra|apply rnd_le_fmt; [apply fd_bpow; lia|lra]]).
  unfold knee_val. fold D. replace (l - e) with (- D) by (unfold D; ring). rewrite rd_opp'.
  set (h := rd (rd (s * rd (rd D / w)) * / 2)) in *. split.
  - apply rnd_abs_le; [apply fd_bpow; lia|]. replace (h * - rd D) with (- (h * rd D)) by ring. rewrite Rabs_Ropp, Rabs_pos_eq by nra.
    change (-500)%Z with (-200 + -300)%Z. rewrite bpow_plus. apply Rmult_le_compat; lra.
  - assert (W : 0 < w) by (pose proof (bpow_gt_0 radix2 (-100)); lra).
    replace (s * D * D / (2 * w)) with (s * (D * D) * / 2 * / w) by (field; lra).
    assert (D2 : 0 <= D * D <= bpow radix2 (-600)).
    { split; [nra|]. change (-600)%Z with (-300 + -300)%Z. rewrite bpow_plus. apply Rmult_le_compat; lra. }
    assert (0 <= s * (D * D) * / 2 <= bpow radix2 (-600)) by nra. split; [nra|].
    change (-500)%Z with (-600 + 100)%Z. rewrite bpow_plus. apply Rmult_le_compat; lra.
Qed.
Lemma knee_err (r : f32) l w e : ratio_in 1 r -> bpow radix2 (-100) <= w <= bpow radix2 99 -> 0 <= e - l <= bpow radix2 101 ->
  let ideal := - ((1 - B2R r) * (e - l) * (e - l) / (2 * w)) in
  Rabs (knee_val (B2R (fsub (mk32 1 0) r)) l w e - ideal) <= bpow radix2 (-23) * Rabs ideal + bpow radix2 (-400).
Proof.
  intros Hr Hw HD ideal. destruct (slope_ok r Hr) as (Fs & Bs & Es). set (s := B2R (fsub (mk32 1 0) r)) in *.
  assert (W : 0 < w) by (pose proof (bpow_gt_0 radix2 (-100)); lra).
  destruct Hr as [Fr Hr].
  assert (Tiny : 4 * bpow radix2 (-500) <= bpow radix2 (-400)) by (change 4 with (bpow radix2 2); rewrite <- bpow_plus; apply bpow_le; lia).
  pose proof (bpow_gt_0 radix2 (-500)). pose proof (bpow_gt_0 radix2 (-23)). pose proof (Rabs_pos ideal).
  assert (0 <= bpow radix2 (-23) * Rabs ideal) by (apply Rmult_le_pos; lra).
  destruct (Rle_lt_dec (bpow radix2 (-300)) (e - l)) as [L|L].
  - destruct (Req_dec (B2R r) 1) as [E1|N1].
    + (* ratio 1: the slope is 0 *)
      assert (S0 : s = 0). { rewrite E1 in Es. replace (1 - 1) with 0 in Es by ring. rewrite Rmult_0_r, Rminus_0_r in Es. apply Rabs_le_inv in Es. lra. }
      assert (K0 : knee_val s l w e = 0). { unfold knee_val. rewrite S0, Rmult_0_l, rnd_0, Rmult_0_l, rnd_0, Rmult_0_l, rnd_0. reflexivity. }
      assert (I0 : ideal = 0) by (unfold ideal; rewrite E1; field; lra).
      rewrite K0, I0, Rminus_0_r, Rabs_R0. pose proof (bpow_gt_0 radix2 (-400)). lra.
    + assert (P : 0 < s). { apply Rabs_le_inv in Es. change (bpow radix2 (-24)) with (/ 16777216) in Es. lra. }
      pose proof (float_pos_min _ P) as P1. fold s in P1.
      pose proof (knee_far s l w e ltac:(lra) Hw ltac:(lra)) as N.
      assert (Ns : near (bpow radix2 (-24)) (1 - B2R r) s) by (apply near_of_err; [lra|rewrite (Rabs_pos_eq (1 - B2R r)) by lra; exact Es]).
      assert (N2 : near (bpow radix2 (-24)) ((1 - B2R r) * (e - l) * (e - l) / (2 * w)) (s * (e - l) * (e - l) / (2 * w))).
      { replace ((1 - B2R r) * (e - l) * (e - l) / (2 * w)) with ((e - l) * (e - l) / (2 * w) * (1 - B2R r)) by (field; lra).
        replace (s * (e - l) * (e - l) / (2 * w)) with ((e - l) * (e - l) / (2 * w) * s) by (field; lra). apply near_scale. exact Ns. }
      pose proof (near_err _ _ _ (near_trans _ _ _ _ _ N2 N)) as E.
      replace (knee_val s l w e - ideal) with (- (- knee_val s l w e - (1 - B2R r) * (e - l) * (e - l) / (2 * w))) by (unfold ideal; ring).
      rewrite Rabs_Ropp. eapply Rle_trans; [exact E|]. unfold ideal. rewrite Rabs_Ropp.
      change (bpow radix2 (-24)) with (/ 16777216). change (bpow radix2 (-23)) with (/ 8388608).
      pose proof (bpow_gt_0 radix2 (-400)). pose proof (Rabs_pos ((1 - B2R r) * (e - l) * (e - l) / (2 * w))). lra.
  - destruct (knee_close s l w e ltac:(lra) Hw ltac:(lra)) as [A _].
    destruct (knee_close (1 - B2R r) l w e ltac:(lra) Hw ltac:(lra)) as [_ C].
    unfold ideal at 1. replace (knee_val s l w e - - ((1 - B2R r) * (e - l) * (e - l) / (2 * w))) with (knee_val s l w e + (1 - B2R r) * (e - l) * (e - l) / (2 * w)) by ring.
    eapply Rle_trans; [apply Rabs_triang|]. rewrite (Rabs_pos_eq (_ / _)) by lra. lra.
Qed.
