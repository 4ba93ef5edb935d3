(** C34, continued: how far a2db and db2a are from the true decibel scale
    20 log10 a = 20 ln a / ln 10 and 10^(x/20), for every float in range. The table entries are
    compared with certified fixed-point values of ln n and 10^(n/200); the interpolation error
    and every rounding are bounded, not sampled. *)
From Coq Require Import Reals Lra Lia ZArith.
From Flocq Require Import Core.Core IEEE754.BinarySingleNaN.
From Verif Require Import Common Float FloatFacts Frac_Model Db_Table Db_Model Db_Proof Db_Full Db_Ln Db_Acc Db_Acc2 Db_Acc3.
Local Open Scope R_scope.

(** within 0.0001 dB on (1/8, 8) (+-18 dB), 0.018 dB on (1/1024, 1024) (+-60 dB) and 0.53 dB on
    (2^-20, 2^20) (+-120 dB) *)
Theorem C34_a2db_accuracy : forall a : f32, is_finite a = true ->
  (1 / 8 < B2R a < 8 -> exists y, a2db a = Some y /\ Rabs (B2R y - 20 * ln (B2R a) / ln 10) <= 0.0001) /\
  (1 / 1024 < B2R a < 1024 -> exists y, a2db a = Some y /\ Rabs (B2R y - 20 * ln (B2R a) / ln 10) <= 0.018) /\
  (1 / 1048576 < B2R a < 1048576 -> exists y, a2db a = Some y /\ Rabs (B2R y - 20 * ln (B2R a) / ln 10) <= 0.53).
Proof.
  intros a F.
  assert (X : forall k lo hi e, k = 3%Z \/ k = 10%Z \/ k = 20%Z -> bpow radix2 (- k) = lo -> bpow radix2 k = hi -> a2db_err k + 0.000001 <= e ->
    lo < B2R a < hi -> exists y, a2db a = Some y /\ Rabs (B2R y - 20 * ln (B2R a) / ln 10) <= e).
  { intros k lo hi e Hk <- <- He H. destruct (a2db_acc a k F Hk H) as (y & E & _ & A). exists y. split; [exact E|].
    unfold db_of in A. lra. }
  split; [|split]; intros H.
  - apply (X 3%Z (/ 8) 8); [auto|reflexivity|reflexivity|cbn; lra|lra].
  - apply (X 10%Z (/ 1024) 1024); [auto|reflexivity|reflexivity|cbn; lra|lra].
  - apply (X 20%Z (/ 1048576) 1048576); [auto|reflexivity|reflexivity|cbn; lra|lra].
Qed.
Print Assumptions C34_a2db_accuracy.

(** relative error at most 0.00002 (0.00018 dB) over the whole table range *)
Theorem C34_db2a_accuracy : forall x : f32, is_finite x = true -> -120 <= B2R x <= 120 ->
  exists y, db2a x = Some y /\ Rabs (B2R y - Rpower 10 (B2R x / 20)) <= 0.00002 * Rpower 10 (B2R x / 20).
Proof.
  intros x F H. destruct (db2a_acc x F) as (y & E & _ & A); [apply Rabs_le; lra|].
  exists y. rewrite <- amp_rpower. auto.
Qed.
Print Assumptions C34_db2a_accuracy.

Lemma amp_18 : 1.00003 * amp 18 < 8.
Proof.
  assert (E : amp 18 ^ 10 = 1000000000).
  { assert (P : forall n x, amp x ^ n = amp (INR n * x)).
    { induction n as [|n IH]; intros x; [cbn; rewrite Rmult_0_l, amp_0; reflexivity|].
      rewrite <- tech_pow_Rmult, IH, S_INR. unfold amp. rewrite <- exp_plus. f_equal. ring. }
    rewrite P. unfold amp, L200. replace (INR 10) with 10 by (cbn; ring).
    replace (ln 10 / 200 * (10 * (10 * 18))) with (ln 10 + ln 10 + ln 10 + ln 10 + ln 10 + ln 10 + ln 10 + ln 10 + ln 10) by field.
    rewrite !exp_plus, exp_ln by lra. lra. }
  destruct (Rlt_le_dec (amp 18) 7.99) as [L|L]; [lra|exfalso].
  assert (7.99 ^ 10 <= amp 18 ^ 10) by (apply pow_incr; lra). lra.
Qed.
Lemma amp_60 : amp 60 = 1000.
Proof.
  unfold amp, L200. replace (ln 10 / 200 * (10 * 60)) with (ln 10 + ln 10 + ln 10) by field.
  rewrite !exp_plus, exp_ln by lra. lra.
Qed.

(** A level survives the trip through an amplitude: within 0.0003 dB up to 18 dB, 0.018 dB up to
    60 dB, 0.53 dB up to 120 dB. *)
Theorem C34_level_roundtrip : forall x : f32, is_finite x = true ->
  (-18 <= B2R x <= 18 -> exists b y, db2a x = Some b /\ a2db b = Some y /\ Rabs (B2R y - B2R x) <= 0.0003) /\
  (-60 <= B2R x <= 60 -> exists b y, db2a x = Some b /\ a2db b = Some y /\ Rabs (B2R y - B2R x) <= 0.018) /\
  (-120 <= B2R x <= 120 -> exists b y, db2a x = Some b /\ a2db b = Some y /\ Rabs (B2R y - B2R x) <= 0.53).
Proof.
  intros x F.
  assert (X : forall k m e, k = 3%Z \/ k = 10%Z \/ k = 20%Z -> m <= 120 -> 1.00003 * amp m < bpow radix2 k -> a2db_err k + 0.000176 <= e ->
    - m <= B2R x <= m -> exists b y, db2a x = Some b /\ a2db b = Some y /\ Rabs (B2R y - B2R x) <= e).
  { intros k m e Hk Hm A He H. destruct (roundtrip_acc x m k F Hk ltac:(apply Rabs_le; exact H) Hm A) as (b & y & E1 & E2 & _ & R).
    exists b, y. split; [exact E1|]. split; [exact E2|]. lra. }
  split; [|split]; intros H.
  - apply (X 3%Z 18); [auto|lra|change (bpow radix2 3) with 8; apply amp_18|cbn; lra|lra].
  - apply (X 10%Z 60); [auto|lra|rewrite amp_60; change (bpow radix2 10) with 1024; lra|cbn; lra|lra].
  - apply (X 20%Z 120); [auto|lra|rewrite amp_120; change (bpow radix2 20) with 1048576; lra|cbn; lra|lra].
Qed.
Print Assumptions C34_level_roundtrip.

(** 6 dB, 0.3, and the amplitude 3/2 are in range of all three *)
Example C34_accuracy_witness :
  is_finite (mk32 3 (-1)) = true /\ (1 / 8 < B2R (mk32 3 (-1)) < 8) /\ -18 <= B2R (mk32 6 0) <= 18.
Proof.
  assert (E : B2R (mk32 3 (-1)) = 3 * / 2) by (destruct (mk32_small 3 (-1)) as [E _]; [reflexivity|lia|exact E]).
  destruct (lit32 6 ltac:(reflexivity)) as [E6 _].
  rewrite E, E6. split; [reflexivity|]. lra.
Qed.
