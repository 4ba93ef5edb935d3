(** C47: the smoothed fast envelope follower and the RMS follower. *)
From Coq Require Import Reals Lra Lia.
From Flocq Require Import Core.Core IEEE754.BinarySingleNaN.
From Verif Require Fast_Ln.
From Verif Require Import Common CommonFacts Float FloatFacts Env_Model Env_Proof MovSum_Model MovSumF_Model MovSumF_Spec MovSumF_Proof
  Drift_Proof FloatRel Db_Model Db_Proof Db_Acc Db_Acc3 Rms_Model Rms_Spec Rms_Proof.
Local Open Scope R_scope.
Local Notation rn := (rnd 24 128).

Lemma sm_ok div hold B (xs : list f32) : (1 <= N.of_nat div <= 65535)%N -> (1 <= hold <= 2 ^ 29)%N -> bpow radix2 (-80) <= B <= bpow radix2 80 ->
  (forall x, In x xs -> is_finite x = true /\ Rabs (B2R x) <= B) -> (Z.of_nat (length xs) <= 2 ^ 48)%Z ->
  exists st0 st, sm_make div hold = Some st0 /\ sm_run st0 xs = Some st /\ is_finite (sm_value st) = true /\
    Rabs (B2R (sm_value st) - last_mean (N.to_nat hold) (follower_outputs div hold xs)) <= mean_error (N.to_nat hold) B (length xs).
Proof.
  intros Hd Hh HB Hx Hn.
  assert (HB9 : bpow radix2 (-900) <= B <= bpow radix2 900).
  { assert (bpow radix2 (-900) <= bpow radix2 (-80)) by (apply bpow_le; lia). assert (bpow radix2 80 <= bpow radix2 900) by (apply bpow_le; lia). lra. }
  assert (HB1 : bpow radix2 (-100) <= B <= bpow radix2 90).
  { assert (bpow radix2 (-100) <= bpow radix2 (-80)) by (apply bpow_le; lia). assert (bpow radix2 80 <= bpow radix2 90) by (apply bpow_le; lia). lra. }
  destruct (sm_inv div hold B xs Hd Hh HB9 Hx Hn) as (s0 & s & E & R & _ & I). exists s0, s. split; [exact E|]. split; [exact R|].
  exact (dinv_mean _ _ _ _ _ Hh HB1 Hn I).
Qed.

(** The smoothed follower never fails, and its value is the mean of the fast follower's last [hold]
    outputs, up to the rounding of the running sum. *)
Theorem C47_smoothed_follower :
  forall (div : nat) (hold : N) (B : R) (xs : list f32),
  (1 <= N.of_nat div <= 65535)%N -> (1 <= hold <= 2 ^ 29)%N -> input_range B ->
  (forall x, In x xs -> is_finite x = true /\ Rabs (B2R x) <= B) -> (Z.of_nat (length xs) <= 2 ^ 48)%Z ->
  exists st0 st, sm_make div hold = Some st0 /\ sm_run st0 xs = Some st /\ is_finite (sm_value st) = true /\
    Rabs (B2R (sm_value st) - last_mean (N.to_nat hold) (follower_outputs div hold xs)) <= mean_error (N.to_nat hold) B (length xs).
Proof.
  intros div hold B xs Hd Hh [HB1 HB2]. apply sm_ok; [exact Hd|exact Hh|].
  assert (bpow radix2 (-80) <= bpow radix2 (-40)) by (apply bpow_le; lia). assert (bpow radix2 40 <= bpow radix2 80) by (apply bpow_le; lia). lra.
Qed.
Print Assumptions C47_smoothed_follower.

(** When the input has stood still at c for [hold] samples and 2 div + 2 hold periods, that mean is c:
    the follower has settled. *)
Theorem C47_smoothed_settles :
  forall (div : nat) (hold : N) (B c : R) (xs : list f32),
  (1 <= N.of_nat div <= 65535)%N -> (1 <= hold <= 2 ^ 29)%N -> input_range B ->
  (forall x, In x xs -> is_finite x = true /\ Rabs (B2R x) <= B) -> (Z.of_nat (length xs) <= 2 ^ 48)%Z ->
  let period := S (N.to_nat (hold mod 65536)) in
  (N.to_nat hold <= length xs)%nat -> 0 <= c ->
  (forall x : f32, In x (skipn (length xs - (N.to_nat hold + (2 * div + 2) * period)) xs) -> B2R x = c) ->
  exists st0 st, sm_make div hold = Some st0 /\ sm_run st0 xs = Some st /\
    Rabs (B2R (sm_value st) - c) <= mean_error (N.to_nat hold) B (length xs).
Proof.
  intros div hold B c xs Hd Hh HB Hx Hn period Hl Hc Hs.
  destruct (C47_smoothed_follower div hold B xs Hd Hh HB Hx Hn) as (s0 & s & E & R & _ & A). exists s0, s. split; [exact E|]. split; [exact R|].
  rewrite (mean_steady div hold xs c (N.to_nat hold) Hd) in A; [exact A|intros x H; apply (Hx x H)|lia|exact Hs|exact Hc].
Qed.
Print Assumptions C47_smoothed_settles.

(** The RMS follower never fails; after at least one sample its level is that of a mean square [e]
    which is the smoothed follower's (div 2) value for the squared samples. *)
Theorem C47_rms_level :
  forall (hold : N) (A : R) (xs : list f32),
  (1 <= hold <= 2 ^ 29)%N -> input_range A ->
  (forall x, In x xs -> is_finite x = true /\ Rabs (B2R x) <= A) -> (Z.of_nat (length xs) <= 2 ^ 48)%Z ->
  exists st0 st, rms_make hold = Some st0 /\ rms_run st0 xs = Some st /\
    (xs = [] -> B2R (rm_db st) = 0) /\
    (xs <> [] -> exists e, level_ok e (rm_db st) /\
       Rabs (e - last_mean (N.to_nat hold) (follower_outputs 2 hold (map (fun s => fmul s s) xs))) <= mean_error (N.to_nat hold) (rn (A * A)) (length xs)).
Proof.
  intros hold A xs Hh HA Hx Hn. destruct (rms_inv hold A xs Hh HA Hx Hn) as (st0 & st & s0 & E & R & E0 & R0 & L).
  exists st0, st. split; [exact E|]. split; [exact R|]. split.
  { intros ->. cbn in R. injection R as <-. revert E. unfold rms_make. rewrite E0. cbn [bind]. intros E. injection E as <-. reflexivity. }
  intros Ne. exists (B2R (sm_value (rm_env st))). split; [exact (L Ne)|].
  destruct (sm_ok 2 hold (rn (A * A)) (map (fun s => fmul s s) xs) ltac:(cbn; lia) Hh (square_range A HA)) as (s0' & s & E' & R' & _ & Q).
  - intros y Hy. apply in_map_iff in Hy. destruct Hy as (z & <- & Hz). destruct (Hx z Hz) as [Fz Lz].
    destruct (square_ok z A HA Fz Lz) as (F & _ & B). split; [exact F|]. rewrite Rabs_pos_eq; apply B.
  - rewrite map_length. exact Hn.
  - rewrite E0 in E'. injection E' as <-. rewrite R0 in R'. injection R' as <-. rewrite map_length in Q. exact Q.
Qed.
Print Assumptions C47_rms_level.

(** A signal whose magnitude has been a for [hold] samples and six hold periods reads as the level of a
    (its square rounded to single precision). *)
Theorem C47_rms_settles :
  forall (hold : N) (A a : R) (xs : list f32),
  (1 <= hold <= 2 ^ 29)%N -> input_range A ->
  (forall x, In x xs -> is_finite x = true /\ Rabs (B2R x) <= A) -> (Z.of_nat (length xs) <= 2 ^ 48)%Z ->
  let period := S (N.to_nat (hold mod 65536)) in
  (N.to_nat hold <= length xs)%nat ->
  (forall x : f32, In x (skipn (length xs - (N.to_nat hold + 6 * period)) xs) -> Rabs (B2R x) = a) ->
  exists st0 st, rms_make hold = Some st0 /\ rms_run st0 xs = Some st /\
    exists e, level_ok e (rm_db st) /\ Rabs (e - rn (a * a)) <= mean_error (N.to_nat hold) (rn (A * A)) (length xs).
Proof.
  intros hold A a xs Hh HA Hx Hn period Hl Hs.
  destruct (C47_rms_level hold A xs Hh HA Hx Hn) as (st0 & st & E & R & _ & L). exists st0, st. split; [exact E|]. split; [exact R|].
  assert (Ne : xs <> []) by (intros ->; cbn in Hl; lia). destruct (L Ne) as (e & Le & Q). exists e. split; [exact Le|].
  assert (SqF : forall y, In y (map (fun s => fmul s s) xs) -> is_finite y = true).
  { intros y Hy. apply in_map_iff in Hy. destruct Hy as (z & <- & Hz). destruct (Hx z Hz) as [Fz Lz]. apply (square_ok z A HA Fz Lz). }
  rewrite (mean_steady 2 hold (map (fun s => fmul s s) xs) (rn (a * a)) (N.to_nat hold)) in Q; [exact Q|cbn; lia|exact SqF|split; [lia|rewrite map_length; exact Hl]| |].
  - rewrite map_length. fold period. rewrite skipn_map. intros y Hy. apply in_map_iff in Hy. destruct Hy as (z & <- & Hz).
    assert (Iz : In z xs). { rewrite <- (firstn_skipn (length xs - (N.to_nat hold + (2 * 2 + 2) * period)) xs). apply in_or_app. right. exact Hz. }
    destruct (Hx z Iz) as [Fz Lz]. destruct (square_ok z A HA Fz Lz) as (_ & V & _). rewrite V. rewrite <- (Hs z Hz). rewrite <- Rabs_mult.
    rewrite Rabs_pos_eq; [reflexivity|]. pose proof (Rle_0_sqr (B2R z)) as S. exact S.
  - apply rnd_ge_fmt; [apply fmt_0|]. pose proof (Rle_0_sqr a) as S. exact S.
Qed.
Print Assumptions C47_rms_settles.

Lemma mean_error_small W A a n : (1 <= W)%nat -> 0 < a -> A <= 8 * a -> input_range A -> (Z.of_nat n <= 2 ^ 24)%Z -> 0.001 < a ->
  mean_error W (rn (A * A)) n <= 0.0000319 * (a * a).
Proof.
  intros HW Ha HA HR Hn Ha'. unfold mean_error. assert (A0 : 0 < A) by (pose proof (bpow_gt_0 radix2 (-40)); destruct HR; lra).
  assert (SA : 0 < A * A) by (apply Rmult_lt_0_compat; assumption).
  assert (Q : A * A <= 64 * (a * a)). { replace (64 * (a * a)) with ((8 * a) * (8 * a)) by ring. apply Rmult_le_compat; lra. }
  assert (C : rn (A * A) <= 64.00001 * (a * a)).
  { assert (M : bpow radix2 (-126) <= A * A). { apply Rle_trans with (bpow radix2 (-80)); [apply bpow_le; lia|]. change (-80)%Z with (-40 + -40)%Z. rewrite bpow_plus. pose proof (bpow_gt_0 radix2 (-40)). apply Rmult_le_compat; destruct HR; lra. }
    pose proof (rnd_rel32_pos _ M). lra. }
  assert (C0 : 0 <= rn (A * A)) by (apply rnd_ge_fmt; [apply fmt_0|lra]).
  assert (WR : 1 <= INR W) by (apply (le_INR 1); exact HW).
  assert (N0 : 0 <= INR n <= 16777216). { split; [apply pos_INR|]. rewrite INR_IZR_INZ. apply IZR_le. lia. }
  change (bpow radix2 (-51)) with (/ 2251799813685248). change (bpow radix2 (-21)) with (/ 2097152). set (c := rn (A * A)) in *. set (w := INR W) in *. set (m := INR n) in *.
  replace (m * ((w + 1) * c * / 2251799813685248) / w) with (m * c * / 2251799813685248 * (1 + / w)) by (field; lra).
  assert (I : / w <= 1) by (rewrite <- Rinv_1; apply Rinv_le_contravar; lra).
  assert (J : 0 < / w) by (apply Rinv_0_lt_compat; lra).
  assert (K : m * c <= 16777216 * c) by (apply Rmult_le_compat_r; lra).
  assert (K0 : 0 <= m * c) by (apply Rmult_le_pos; lra).
  assert (L : m * c * / 2251799813685248 * (1 + / w) <= 16777216 * c * / 2251799813685248 * 2) by (apply Rmult_le_compat; lra).
  lra.
Qed.

(** The level in decibels: with at most 2^24 samples so far, none more than eight times the steady
    magnitude a, the follower shows 20 log10(a) to within 0.00025 dB, 0.0093 dB or 0.2702 dB, according
    to the range of a. *)
Theorem C47_rms_accuracy :
  forall (hold : N) (A a : R) (xs : list f32),
  (1 <= hold <= 2 ^ 29)%N -> input_range A -> A <= 8 * a ->
  (forall x, In x xs -> is_finite x = true /\ Rabs (B2R x) <= A) -> (Z.of_nat (length xs) <= 2 ^ 24)%Z ->
  let period := S (N.to_nat (hold mod 65536)) in
  (N.to_nat hold <= length xs)%nat ->
  (forall x : f32, In x (skipn (length xs - (N.to_nat hold + 6 * period)) xs) -> Rabs (B2R x) = a) ->
  exists st0 st, rms_make hold = Some st0 /\ rms_run st0 xs = Some st /\
    (0.36 <= a <= 2.82 -> Rabs (B2R (rm_db st) - 20 * ln a / ln 10) <= 0.00025) /\
    (0.0313 <= a <= 31.9 -> Rabs (B2R (rm_db st) - 20 * ln a / ln 10) <= 0.0093) /\
    (0.001001 <= a <= 1000 -> Rabs (B2R (rm_db st) - 20 * ln a / ln 10) <= 0.2702).
Proof.
  intros hold A a xs Hh HR HA Hx Hn period Hl Hs.
  destruct (C47_rms_settles hold A a xs Hh HR Hx ltac:(change (2 ^ 48)%Z with 281474976710656%Z; change (2 ^ 24)%Z with 16777216%Z in Hn; lia) Hl Hs) as (st0 & st & E & R & e & (_ & _ & _ & L1 & L2 & L3) & Q).
  exists st0, st. split; [exact E|]. split; [exact R|].
  assert (HW : (1 <= N.to_nat hold)%nat) by lia.
  assert (K : 0.001001 <= a -> Rabs (e - a * a) <= 0.000032 * (a * a) /\ 0 < e /\ Rabs (20 * ln (sqrt e) / ln 10 - 20 * ln a / ln 10) <= 0.00014).
  { intros Ha. pose proof (mean_error_small (N.to_nat hold) A a (length xs) HW ltac:(lra) HA HR Hn ltac:(lra)) as M.
    assert (a2 : 0.000001002 <= a * a) by (apply Rle_trans with (0.001001 * 0.001001); [lra|apply Rmult_le_compat; lra]).
    assert (B1 : bpow radix2 (-126) <= a * a) by (apply Rle_trans with (bpow radix2 (-40)); [apply bpow_le; lia|change (bpow radix2 (-40)) with (/ 1099511627776); lra]).
    pose proof (rnd_rel32_pos _ B1) as RR.
    assert (T : Rabs (e - a * a) <= 0.000032 * (a * a)).
    { apply Rabs_le_inv in Q. apply Rabs_le. lra. }
    split; [exact T|]. assert (P : 0 < e) by (apply Rabs_le_inv in T; lra). split; [exact P|].
    pose proof (db_of_rel (a * a) e 0.000032 ltac:(lra) ltac:(lra) T) as D. rewrite (ln_sqrt e P). unfold db_of in D.
    rewrite (ln_mult a a) in D by lra. pose proof ln10_pos.
    replace (20 * ln a / ln 10) with (20 * (ln a + ln a) / ln 10 / 2) by (field; lra).
    apply Rabs_le_inv in D. apply Rabs_le. lra. }
  assert (G : forall t, 0.001001 <= a -> Rabs (B2R (rm_db st) - 20 * ln (sqrt e) / ln 10) <= t -> Rabs (B2R (rm_db st) - 20 * ln a / ln 10) <= t + 0.00014).
  { intros t Ha H. destruct (K Ha) as (_ & _ & D). apply Rabs_le_inv in H. apply Rabs_le_inv in D. apply Rabs_le. lra. }
  split; [|split]; intros Ha; destruct (K ltac:(lra)) as (T & _ & _); apply Rabs_le_inv in T.
  - assert (U1 : 0.36 * 0.36 <= a * a) by (apply Rmult_le_compat; lra). assert (U2 : a * a <= 2.82 * 2.82) by (apply Rmult_le_compat; lra).
    specialize (G _ ltac:(lra) (L1 ltac:(lra))). lra.
  - assert (U1 : 0.0313 * 0.0313 <= a * a) by (apply Rmult_le_compat; lra). assert (U2 : a * a <= 31.9 * 31.9) by (apply Rmult_le_compat; lra).
    specialize (G _ ltac:(lra) (L2 ltac:(lra))). lra.
  - assert (U1 : 0.001001 * 0.001001 <= a * a) by (apply Rmult_le_compat; lra). assert (U2 : a * a <= 1000 * 1000) by (apply Rmult_le_compat; lra).
    specialize (G _ ltac:(lra) (L3 ltac:(lra))). lra.
Qed.
Print Assumptions C47_rms_accuracy.

(** What does not hold: a finite but very large sample overflows when squared; the infinity turns the
    running sum into a NaN when it leaves the window, and the conversion to decibels then fails. *)
Definition huge : f32 := mk32 1 64.
Theorem C47_all_finite_inputs_refuted :
  is_finite huge = true /\ exists st0, rms_make 2 = Some st0 /\ rms_run st0 [huge; mk32 1 0; mk32 1 0] = None.
Proof.
  split; [reflexivity|]. assert (T : match rms_make 2 with Some st => match rms_run st [huge; mk32 1 0; mk32 1 0] with None => true | Some _ => false end | None => false end = true) by (vm_compute; reflexivity).
  destruct (rms_make 2) as [st0|]; [|discriminate T]. exists st0. split; [reflexivity|]. destruct (rms_run st0 [huge; mk32 1 0; mk32 1 0]); [discriminate T|reflexivity].
Qed.
Print Assumptions C47_all_finite_inputs_refuted.
(** And the level of silence, or of any signal below 10^-3, is -60.5 dB: the 120 dB floor of the decibel
    tables is met by the mean square, not by the level. *)
Theorem C47_full_range_refuted :
  exists st0 st, rms_make 1 = Some st0 /\ rms_run st0 (repeat (mk32 1 (-16)) 40) = Some st /\ B2R (rm_db st) = -60.5 /\
    20 * ln (/ 65536) / ln 10 < -96.
Proof.
  assert (T : match rms_make 1 with Some st => match rms_run st (repeat (mk32 1 (-16)) 40) with Some s => is_finite (rm_db s) && feq (rm_db s) (mk64 (-121) (-1)) | None => false end | None => false end = true) by (vm_compute; reflexivity).
  destruct (rms_make 1) as [st0|]; [|discriminate T]. exists st0. destruct (rms_run st0 (repeat (mk32 1 (-16)) 40)) as [st|]; [|discriminate T]. exists st.
  split; [reflexivity|]. split; [reflexivity|]. apply andb_prop in T. destruct T as [T1 T2].
  destruct (mk64_small (-121) (-1)) as [V F]; [reflexivity|lia|]. change (bpow radix2 (-1)) with (/ 2) in V. split.
  - apply (feq_true _ _ T1 F) in T2. rewrite T2, V. lra.
  - pose proof ln10_pos as P. apply (Rmult_lt_reg_r (ln 10)); [lra|]. unfold Rdiv. rewrite Rmult_assoc, Rinv_l by lra. rewrite Rmult_1_r.
    rewrite ln_Rinv by lra. assert (H : 96 * ln 10 < 20 * ln 65536); [|lra].
    replace 65536 with (2 ^ 16) by (cbn; lra). rewrite <- Rpower_pow by lra. unfold Rpower. rewrite ln_exp.
    replace (INR 16) with 16 by (cbn; lra). pose proof Fast_Ln.ln2_lo. lra.
Qed.
Print Assumptions C47_full_range_refuted.

(** The hypotheses are met: 20 samples of magnitude one half and alternating sign, hold 3. *)
Definition halves : list f32 := map (fun i => if Nat.even i then mk32 1 (-1) else mk32 (-1) (-1)) (seq 0 30).
Lemma halves_ok x : In x halves -> is_finite x = true /\ Rabs (B2R x) = 1 / 2.
Proof.
  unfold halves. intros H. apply in_map_iff in H. destruct H as (i & <- & _).
  destruct (mk32_small 1 (-1)) as [V1 F1]; [reflexivity|lia|]. destruct (mk32_small (-1) (-1)) as [V2 F2]; [reflexivity|lia|].
  change (bpow radix2 (-1)) with (/ 2) in V1, V2. destruct (Nat.even i); [split; [exact F1|rewrite V1]|split; [exact F2|rewrite V2]].
  - rewrite Rabs_pos_eq; lra.
  - rewrite Rabs_left; lra.
Qed.
Example C47_example : exists st0 st, rms_make 3 = Some st0 /\ rms_run st0 halves = Some st /\
  Rabs (B2R (rm_db st) - 20 * ln (1 / 2) / ln 10) <= 0.00025.
Proof.
  destruct (C47_rms_accuracy 3 (1 / 2) (1 / 2) halves) as (st0 & st & E & R & G & _).
  - change (2 ^ 29)%N with 536870912%N. lia.
  - split; [apply Rle_trans with (bpow radix2 (-1)); [apply bpow_le; lia|change (bpow radix2 (-1)) with (/ 2); lra]|apply Rle_trans with (bpow radix2 0); [change (bpow radix2 0) with 1; lra|apply bpow_le; lia]].
  - lra.
  - intros x H. destruct (halves_ok x H) as [F V]. split; [exact F|lra].
  - vm_compute. discriminate.
  - unfold halves. rewrite map_length, seq_length. lia.
  - intros x H. apply (halves_ok x). revert H. generalize (length halves - (N.to_nat 3 + 6 * S (N.to_nat (3 mod 65536))))%nat. intros k H.
    rewrite <- (firstn_skipn k halves). apply in_or_app. right. exact H.
  - exists st0, st. split; [exact E|]. split; [exact R|]. apply G. lra.
Qed.
