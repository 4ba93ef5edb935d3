(** Property C23: compressor, soft-knee compressor, expander and agc.  Theorems only. *)
From Coq Require Import Reals Lra Psatz.
From Flocq Require Import Core.Core IEEE754.BinarySingleNaN.
From Verif Require Import Common Float FloatFacts Env_Proof Dyn_Model Dyn_Spec Dyn_Proof.
Local Open Scope R_scope.

(** C23, compressor: for levels up to 2^100 dB in magnitude and a ratio in [0,1], the gain is
    finite, never positive, exactly 0 dB at or below the threshold, within a relative 2^-23 of
    (1 - ratio) * (threshold - env) above it, and never rises as the envelope rises. *)
Theorem C23_compressor :
  forall (t : db) (r : f32) (e e' : db), db_level t -> ratio_in 1 r -> db_level e -> db_level e' ->
  let g := comp_gain (comp_make t r) e in
  is_finite g = true /\ B2R g <= 0 /\ (B2R e <= B2R t -> B2R g = 0) /\
  Rabs (B2R g - comp_curve (B2R t) (B2R r) (B2R e)) <= bpow radix2 (-23) * Rabs (comp_curve (B2R t) (B2R r) (B2R e)) + bpow radix2 (-800) /\
  (B2R e <= B2R e' -> B2R (comp_gain (comp_make t r) e') <= B2R g).
Proof.
  intros t r e e' Ht Hr He He' g. destruct (comp_cases t e r Ht He Hr) as [F C]. destruct (comp_cases t e' r Ht He' Hr) as [F' C'].
  destruct (slope_ok r Hr) as (Fs & Bs & Es). assert (Z : B2R db_zero = 0) by reflexivity. fold g in F, C.
  pose proof (bpow_gt_0 radix2 (-800)). pose proof (bpow_gt_0 radix2 (-23)).
  split; [exact F|]. destruct C as [[L E]|[L E]].
  - rewrite E, Z. split; [lra|]. split; [auto|]. split.
    + unfold comp_curve. destruct (Rle_dec (B2R e) (B2R t)); [|lra]. rewrite Rminus_0_r, Rabs_R0. nra.
    + intros Le. destruct C' as [[_ ->]|[L' ->]]; [rewrite Z; lra|]. apply line_neg; lra.
  - rewrite E. split; [apply line_neg; lra|]. split; [lra|]. split.
    + unfold comp_curve. destruct (Rle_dec (B2R e) (B2R t)); [lra|].
      rewrite (Rabs_mult (1 - B2R r)), (Rabs_pos_eq (1 - B2R r)) by (destruct Hr; lra).
      apply line_err; [|exact Es]. destruct Hr as [_ Hr]. pose proof one_le_100. lra.
    + intros Le. destruct C' as [[L' _]|[L' ->]]; [lra|]. apply line_mono; lra.
Qed.
Print Assumptions C23_compressor.
(** threshold -18 dB, ratio 1/4, envelope -6 dB: the gain is exactly -9 dB *)
Example compressor_meets : db_level (mk64 (-18) 0) /\ ratio_in 1 (mk32 1 (-2)) /\ db_level (mk64 (-6) 0) /\
  feq (comp_gain (comp_make (mk64 (-18) 0) (mk32 1 (-2))) (mk64 (-6) 0)) (mk64 (-9) 0) = true.
Proof.
  assert (L : forall m, (Z.abs m < 2 ^ 53)%Z -> db_level (mk64 m 0)).
  { intros m Hm. destruct (mk64_small m 0 Hm ltac:(lia)) as [V F]. split; [exact F|]. rewrite V. change (bpow radix2 0) with 1.
    rewrite Rmult_1_r, <- abs_IZR. apply Rle_trans with (IZR (2 ^ 53)); [apply IZR_le; lia|]. change (IZR (2 ^ 53)) with (bpow radix2 53). apply bpow_le. lia. }
  split; [apply L; reflexivity|]. split; [|split; [apply L; reflexivity|vm_compute; reflexivity]].
  destruct (mk32_small 1 (-2) ltac:(reflexivity) ltac:(lia)) as [V F]. split; [exact F|]. rewrite V. change (bpow radix2 (-2)) with (/ 4). lra.
Qed.

(** C23, expander: likewise with gain ratio * (env - threshold) below the threshold, 0 dB at or
    above it; the gain never falls as the envelope rises. *)
Theorem C23_expander :
  forall (t : db) (r : f32) (e e' : db), db_level t -> ratio_in (bpow radix2 100) r -> db_level e -> db_level e' ->
  let g := exp_gain (exp_make t r) e in
  is_finite g = true /\ B2R g <= 0 /\ (B2R t <= B2R e -> B2R g = 0) /\
  Rabs (B2R g - exp_curve (B2R t) (B2R r) (B2R e)) <= bpow radix2 (-23) * Rabs (exp_curve (B2R t) (B2R r) (B2R e)) + bpow radix2 (-800) /\
  (B2R e <= B2R e' -> B2R g <= B2R (exp_gain (exp_make t r) e')).
Proof.
  intros t r e e' Ht Hr He He' g. destruct (exp_cases t e r Ht He Hr) as [F C]. destruct (exp_cases t e' r Ht He' Hr) as [F' C'].
  assert (Z : B2R db_zero = 0) by reflexivity. fold g in F, C. destruct Hr as [Fr Hr].
  pose proof (bpow_gt_0 radix2 (-800)). pose proof (bpow_gt_0 radix2 (-23)).
  split; [exact F|]. destruct C as [[L E]|[L E]].
  - rewrite E, Z. split; [lra|]. split; [auto|]. split.
    + unfold exp_curve. destruct (Rle_dec (B2R t) (B2R e)); [|lra]. rewrite Rminus_0_r, Rabs_R0. nra.
    + intros Le. destruct C' as [[_ ->]|[L' ->]]; [rewrite Z; lra|]. lra.
  - rewrite E. split; [apply line_neg; lra|]. split; [lra|]. split.
    + unfold exp_curve. destruct (Rle_dec (B2R t) (B2R e)); [lra|].
      rewrite (Rabs_mult (B2R r)), (Rabs_pos_eq (B2R r)) by lra.
      apply line_err; [exact Hr|]. rewrite Rminus_diag_eq, Rabs_R0 by reflexivity. apply Rmult_le_pos; [apply bpow_ge_0|lra].
    + intros Le. destruct C' as [[L' ->]|[L' ->]]; [rewrite Z; apply line_neg; lra|]. apply line_mono; lra.
Qed.
Print Assumptions C23_expander.

(** C23, soft knee, outside the knee: the gain is exactly that of the hard-knee compressor
    with the same threshold and ratio.  The knee is [lower, upper], the two ends being
    threshold -/+ width/2 rounded to double. *)
Theorem C23_soft_knee_outside :
  forall (t w : db) (r : f32) (e : db), knee_ok t w -> ratio_in 1 r -> db_level e ->
  let k := soft_make t w r in
  Rabs (B2R (k_lower k) - (B2R t - B2R w / 2)) <= bpow radix2 (-53) * Rabs (B2R t - B2R w / 2) + bpow radix2 (-1000) /\
  Rabs (B2R (k_upper k) - (B2R t + B2R w / 2)) <= bpow radix2 (-53) * Rabs (B2R t + B2R w / 2) + bpow radix2 (-1000) /\
  (B2R e <= B2R (k_lower k) \/ B2R (k_upper k) < B2R e -> soft_gain k e = comp_gain (comp_make t r) e).
Proof.
  intros t w r e Hk Hr He k. destruct (knee_edges t w r Hk) as (Hl & Hu & Vl & Vu). fold k in Hl, Hu, Vl, Vu.
  split; [rewrite Vl; apply rd_err_all|]. split; [rewrite Vu; apply rd_err_all|].
  destruct (soft_cases t w e r Hk He Hr) as [F C]. fold k in F, C.
  destruct Hk as (Ht & Fw & Hw & Bt). assert (W0 : 0 < B2R w) by (pose proof (bpow_gt_0 radix2 (-100)); lra).
  assert (Lt : B2R (k_lower k) <= B2R t) by (rewrite Vl; apply rnd_le_fmt; [apply fmt_v|lra]).
  assert (Ut : B2R t <= B2R (k_upper k)) by (rewrite Vu; apply rnd_ge_fmt; [apply fmt_v|lra]).
  intros H. unfold comp_gain, comp_make. cbn [c_threshold c_slope]. destruct C as [[L ->]|[[L _]|(L & U & ->)]].
  - rewrite (proj2 (fle_true e t (proj1 He) (proj1 Ht))) by lra. reflexivity.
  - exfalso. lra.
  - rewrite (proj2 (fle_false e t (proj1 He) (proj1 Ht))) by lra. reflexivity.
Qed.
Print Assumptions C23_soft_knee_outside.

(** C23, soft knee, inside the knee: the gain is the parabola
    -(1 - ratio) (env - lower)^2 / (2 width) up to a relative 2^-23; everywhere it is finite
    and not positive, and inside the knee it never rises with the envelope. *)
Theorem C23_soft_knee_inside :
  forall (t w : db) (r : f32) (e e' : db), knee_ok t w -> ratio_in 1 r -> db_level e -> db_level e' ->
  let k := soft_make t w r in let g := soft_gain k e in
  is_finite g = true /\ B2R g <= 0 /\
  (B2R (k_lower k) < B2R e <= B2R (k_upper k) ->
   let ideal := - ((1 - B2R r) * (B2R e - B2R (k_lower k)) * (B2R e - B2R (k_lower k)) / (2 * B2R w)) in
   Rabs (B2R g - ideal) <= bpow radix2 (-23) * Rabs ideal + bpow radix2 (-400)) /\
  (B2R e <= B2R e' <= B2R (k_upper k) -> B2R (soft_gain k e') <= B2R g).
Proof.
  intros t w r e e' Hk Hr He He' k g. destruct (knee_edges t w r Hk) as (Hl & Hu & Vl & Vu). fold k in Hl, Hu, Vl, Vu.
  destruct (soft_cases t w e r Hk He Hr) as [F C]. destruct (soft_cases t w e' r Hk He' Hr) as [F' C']. fold k in F, C, F', C'. fold g in F, C.
  destruct (slope_ok r Hr) as (Fs & Bs & Es). destruct Hk as (Ht & Fw & Hw & Bt). assert (W0 : 0 < B2R w) by (pose proof (bpow_gt_0 radix2 (-100)); lra).
  assert (Z : B2R db_zero = 0) by reflexivity.
  assert (N : forall x, B2R (k_lower k) <= x -> knee_val (B2R (fsub (mk32 1 0) r)) (B2R (k_lower k)) (B2R w) x <= 0) by (intros; apply knee_neg; lra).
  assert (Ut : B2R t <= B2R (k_upper k)) by (rewrite Vu; apply rnd_ge_fmt; [apply fmt_v|lra]).
  split; [exact F|]. split.
  - destruct C as [[_ ->]|[[L ->]|(L & U & ->)]]; [rewrite Z; lra|apply N; lra|].
    assert (Bs' : 0 <= B2R (fsub (mk32 1 0) r) <= bpow radix2 100) by (pose proof one_le_100; lra).
    destruct (line_ok _ t e Fs Bs' Ht He) as [_ ->]. apply line_neg; lra.
  - split.
    + intros L ideal. destruct C as [[L' _]|[[_ ->]|(_ & U & _)]]; [lra| |lra]. apply knee_err; auto.
      assert (E : bpow radix2 101 = 2 * bpow radix2 100) by (change 101%Z with (1 + 100)%Z; rewrite bpow_plus; reflexivity).
      destruct He as [_ Be]. destruct Hl as [_ Bl]. apply Rabs_le_inv in Be, Bl. lra.
    + intros L. destruct C' as [[L' ->]|[[L' ->]|(_ & U & _)]]; [|destruct C as [[_ ->]|[[L2 ->]|(_ & U & _)]]|lra].
      * destruct C as [[_ ->]|[[L2 _]|(L2 & _ & _)]]; [lra|lra|lra].
      * rewrite Z. apply N. lra. * apply knee_mono; lra. * lra.
Qed.
Print Assumptions C23_soft_knee_inside.
(** threshold -18 dB, width 12 dB, ratio 1/4, envelope at the threshold: -1.125 dB *)
Example soft_knee_meets : knee_ok (mk64 (-18) 0) (mk64 12 0) /\
  feq (soft_gain (soft_make (mk64 (-18) 0) (mk64 12 0) (mk32 1 (-2))) (mk64 (-18) 0)) (mk64 (-9) (-3)) = true.
Proof.
  split; [|vm_compute; reflexivity]. destruct (mk64_small (-18) 0 ltac:(reflexivity) ltac:(lia)) as [V F]. destruct (mk64_small 12 0 ltac:(reflexivity) ltac:(lia)) as [V2 F2].
  change (bpow radix2 0) with 1 in V, V2. rewrite Rmult_1_r in V, V2.
  assert (B : 18 <= bpow radix2 99) by (apply Rle_trans with (bpow radix2 5); [change (bpow radix2 5) with 32; lra|apply bpow_le; lia]).
  assert (B1 : bpow radix2 99 <= bpow radix2 100) by (apply bpow_le; lia).
  assert (B2 : bpow radix2 (-100) <= bpow radix2 0) by (apply bpow_le; lia). change (bpow radix2 0) with 1 in B2.
  split; [split; [exact F|]|]; [rewrite V; apply Rabs_le; lra|]. split; [exact F2|]. split; [rewrite V2; lra|rewrite V; apply Rabs_le; lra].
Qed.

(** C23, setters: after any history of setter calls the processor behaves as one constructed
    with the values last set. *)
Theorem C23_setters :
  (forall t r cs, fold_left comp_call1 cs (comp_make t r) = comp_make (last_threshold t cs) (last_ratio r cs)) /\
  (forall t r cs, fold_left exp_call1 cs (exp_make t r) = exp_make (last_threshold t cs) (last_ratio r cs)) /\
  (forall t w r cs, fold_left soft_call1 cs (soft_make t w r) = let '(t', w', r') := last_soft (t, w, r) cs in soft_make t' w' r').
Proof.
  split; [|split].
  - intros t r cs. revert t r. induction cs as [|c cs IH]; intros t r; [reflexivity|]. destruct c; cbn [fold_left comp_call1 last_threshold last_ratio]; exact (IH _ _).
  - intros t r cs. revert t r. induction cs as [|c cs IH]; intros t r; [reflexivity|]. destruct c; cbn [fold_left exp_call1 last_threshold last_ratio]; exact (IH _ _).
  - intros t w r cs. revert t w r. induction cs as [|c cs IH]; intros t w r; [reflexivity|]. destruct c; cbn [fold_left soft_call1 last_soft]; exact (IH _ _ _).
Qed.
Print Assumptions C23_setters.

(** C23, agc: the gain never exceeds the maximum; it is ref - env (rounded) as long as that
    does not exceed the maximum, and otherwise about 2*max - (ref - env). *)
Theorem C23_agc :
  forall max env ref : db, db_level max -> db_level env -> db_level ref ->
  let g := agc_gain max env ref in let want := B2R ref - B2R env in
  is_finite g = true /\ B2R g <= B2R max /\
  (want <= B2R max -> Rabs (B2R g - want) <= bpow radix2 (-53) * Rabs want + bpow radix2 (-1000)) /\
  (B2R max + bpow radix2 (-50) * (Rabs want + 1) < want ->
   Rabs (B2R g - (2 * B2R max - want)) <= bpow radix2 (-50) * (Rabs want + Rabs (B2R max)) + bpow radix2 (-990)).
Proof.
  intros max env ref Hm He Hr g want. destruct (db_sub_ok ref env Hr He) as (Fg & Vg & Bg). fold want in Vg.
  unfold g, agc_gain. set (d := db_sub ref env) in *.
  assert (E1 : bpow radix2 101 = 2 * bpow radix2 100) by (change 101%Z with (1 + 100)%Z; rewrite bpow_plus; reflexivity).
  assert (E2 : bpow radix2 102 = 4 * bpow radix2 100) by (change 102%Z with (2 + 100)%Z; rewrite bpow_plus; reflexivity).
  assert (E3 : bpow radix2 103 = 8 * bpow radix2 100) by (change 103%Z with (3 + 100)%Z; rewrite bpow_plus; reflexivity).
  destruct Hm as [Fm Bm]. pose proof (bpow_gt_0 radix2 100).
  destruct (fsub_bnd d max (bpow radix2 102) Fg Fm (fd_bpow 102 ltac:(lia)) (bnd_lt 102 ltac:(lia))) as (V1 & F1 & B1).
  { unfold Rminus. eapply Rle_trans; [apply Rabs_triang|]. rewrite Rabs_Ropp. lra. }
  destruct (fsub_bnd max (fsub d max) (bpow radix2 103) Fm F1 (fd_bpow 103 ltac:(lia)) (bnd_lt 103 ltac:(lia))) as (V2 & F2 & B2).
  { unfold Rminus. eapply Rle_trans; [apply Rabs_triang|]. rewrite Rabs_Ropp. lra. }
  pose proof (rd_err_all want) as Ew. rewrite <- Vg in Ew.
  destruct (flt max d) eqn:T.
  - apply (flt_true max d Fm Fg) in T.
    assert (P1 : 0 <= B2R (fsub d max)) by (rewrite V1; apply rd_nn; lra).
    split; [exact F2|]. split; [unfold db_sub; rewrite V2; apply rnd_le_fmt; [apply fmt_v|lra]|]. split.
    + intros W. exfalso. assert (B2R d <= B2R max); [rewrite Vg; apply rnd_le_fmt; [apply fmt_v|exact W]|lra].
    + intros _. unfold db_sub. rewrite V2. pose proof (rd_err_all (B2R d - B2R max)) as A1. rewrite <- V1 in A1.
      pose proof (rd_err_all (B2R max - B2R (fsub d max))) as A2.
      set (x := B2R (fsub d max)) in *. set (y := B2R d) in *. set (m := B2R max) in *.
      set (h := bpow radix2 (-1000)) in *. assert (h0 : 0 < h) by apply bpow_gt_0.
      assert (T8 : 8 * h <= bpow radix2 (-990)) by (unfold h; change 8 with (bpow radix2 3); rewrite <- bpow_plus; apply bpow_le; lia).
      change (bpow radix2 (-53)) with (/ 9007199254740992) in *. change (bpow radix2 (-50)) with (/ 1125899906842624).
      assert (Y : Rabs y <= Rabs want * (1 + / 9007199254740992) + h) by (replace y with ((y - want) + want) by ring; eapply Rle_trans; [apply Rabs_triang|]; lra).
      assert (Z1 : Rabs (y - m) <= Rabs y + Rabs m) by (unfold Rminus; eapply Rle_trans; [apply Rabs_triang|]; rewrite Rabs_Ropp; lra).
      assert (X : Rabs x <= Rabs (y - m) * (1 + / 9007199254740992) + h) by (replace x with ((x - (y - m)) + (y - m)) by ring; eapply Rle_trans; [apply Rabs_triang|]; lra).
      assert (Z2 : Rabs (m - x) <= Rabs m + Rabs x) by (unfold Rminus; eapply Rle_trans; [apply Rabs_triang|]; rewrite Rabs_Ropp; lra).
      replace (rnd 53 1024 (m - x) - (2 * m - want)) with ((rnd 53 1024 (m - x) - (m - x)) + (- (x - (y - m)) + - (y - want))) by ring.
      eapply Rle_trans; [apply Rabs_triang|]. eapply Rle_trans; [apply Rplus_le_compat_l, Rabs_triang|]. rewrite !Rabs_Ropp.
      pose proof (Rabs_pos want). pose proof (Rabs_pos m). lra.
  - apply (flt_false max d Fm Fg) in T. split; [exact Fg|]. split; [exact T|]. split; [intros _; exact Ew|].
    intros W. exfalso. apply Rabs_le_inv in Ew. change (bpow radix2 (-53)) with (/ 9007199254740992) in *. change (bpow radix2 (-50)) with (/ 1125899906842624) in *.
    assert (bpow radix2 (-1000) <= / 1125899906842624) by (change (/ 1125899906842624) with (bpow radix2 (-50)); apply bpow_le; lia).
    pose proof (Rabs_pos want). lra.
Qed.
Print Assumptions C23_agc.

(** C23: above the maximum the agc does not hold the maximum gain but folds back; a quiet
    signal is attenuated: maximum +20 dB, reference 0 dB, envelope -60 dB give -20 dB. *)
Theorem C23_agc_holds_max_refuted :
  exists max env ref : db, B2R ref - B2R env > B2R max /\ B2R (agc_gain max env ref) = - B2R max /\ 0 < B2R max.
Proof.
  exists (mk64 20 0), (mk64 (-60) 0), (mk64 0 0).
  assert (V : forall m, (Z.abs m < 2 ^ 53)%Z -> B2R (mk64 m 0) = IZR m /\ is_finite (mk64 m 0) = true).
  { intros m Hm. destruct (mk64_small m 0 Hm ltac:(lia)) as [V F]. change (bpow radix2 0) with 1 in V. rewrite Rmult_1_r in V. auto. }
  destruct (V 20%Z ltac:(reflexivity)) as [V1 F1]. destruct (V (-60)%Z ltac:(reflexivity)) as [V2 F2]. destruct (V 0%Z ltac:(reflexivity)) as [V3 F3].
  rewrite V1, V2, V3. split; [lra|]. split; [|lra].
  destruct (V (-20)%Z ltac:(reflexivity)) as [V4 F4].
  assert (T : is_finite (agc_gain (mk64 20 0) (mk64 (-60) 0) (mk64 0 0)) && feq (agc_gain (mk64 20 0) (mk64 (-60) 0) (mk64 0 0)) (mk64 (-20) 0) = true) by (vm_compute; reflexivity).
  apply andb_prop in T. destruct T as [T1 T2]. rewrite (feq_true _ _ T1 F4 T2). exact V4.
Qed.
Print Assumptions C23_agc_holds_max_refuted.
