(** Logarithm and exponential by reinterpretation. *)
From Coq Require Import ZArith Reals Lra Lia Bool.
From Flocq Require Import Core.Core IEEE754.BinarySingleNaN.
From Flocq Require Mult_error.
From Verif Require Import Common Float FloatFacts Frac_Proof Db_Model Fast_Model Fast_Bits Fast_Ln Fast_Spec.
Local Open Scope R_scope.
Local Notation fin x := (is_finite x = true).
Local Notation v x := (B2R x).
Local Notation rn := (rnd 24 128).

Lemma ln2_pos : 0 < ln 2. Proof. generalize ln2_lo. lra. Qed.
Lemma log_val E f : 0 <= f < 1 -> IZR E + f <= log2 ((1 + f) * bpow radix2 E) <= IZR E + f + 0.0864.
Proof.
  intros H. pose proof ln2_pos as P. assert (L : ln ((1 + f) * bpow radix2 E) = ln (1 + f) + IZR E * ln 2).
  { rewrite ln_mult by (try apply bpow_gt_0; lra). f_equal. rewrite bpow_exp, ln_exp. reflexivity. }
  unfold log2. rewrite L. replace ((ln (1 + f) + IZR E * ln 2) / ln 2) with (IZR E + ln (1 + f) / ln 2) by (field; lra).
  assert (f <= ln (1 + f) / ln 2 <= f + 0.0864); [|lra].
  pose proof (ln_above f ltac:(lra)). pose proof (ln_below f ltac:(lra)).
  assert (I : 0 < / ln 2) by (apply Rinv_0_lt_compat; exact P). unfold Rdiv. split.
  - replace f with (f * ln 2 * / ln 2) at 1 by (field; lra). apply Rmult_le_compat_r; lra.
  - match goal with |- _ <= ?g => replace g with (g * ln 2 * / ln 2) by (field; lra) end. apply Rmult_le_compat_r; lra.
Qed.

(** 126.94269504f *)
Lemma clog : fin c_log /\ v c_log = 16638633 / 131072.
Proof.
  destruct (mk32_small 16638633 (-17) ltac:(reflexivity) ltac:(lia)) as (E & F).
  change (mk32 16638633 (-17)) with c_log in E, F. split; [exact F|]. rewrite E. change (bpow radix2 (-17)) with (/ 131072). field.
Qed.
Lemma b128 e : (e <= 120)%Z -> bpow radix2 e < bpow radix2 128.
Proof. intros. apply bpow_lt. lia. Qed.
(** ** log2: rounding of the three steps *)
Definition log_of (b : R) : R := rn (rn (rn b * bpow radix2 (-23)) - v c_log).
Lemma rn_bnd x e : (-100 <= e <= 120)%Z -> Rabs x <= bpow radix2 e -> Rabs (rn x) <= bpow radix2 e.
Proof. intros He H. apply (rnd_abs_le (prec:=24) (emax:=128)); [apply fmt_bpow; cbn; lia|exact H]. Qed.
Lemma log_bits (x : f32) : (0 <= bits_of x < 2 ^ 31)%Z -> fin (fast_log2 x) /\ v (fast_log2 x) = log_of (IZR (bits_of x)).
Proof.
  intros H. unfold fast_log2. set (b := bits_of x) in *.
  assert (Hb : 0 <= IZR b <= bpow radix2 31). { rewrite <- IZR_pow2 by lia. split; apply IZR_le; lia. }
  assert (R1 : Rabs (rn (IZR b)) <= bpow radix2 31) by (apply rn_bnd; [lia|rewrite Rabs_pos_eq; lra]).
  destruct (fmk_R (prec:=24) (emax:=128) b 0) as (V1 & F1).
  { change (bpow radix2 0) with 1. rewrite Rmult_1_r. generalize (b128 31 ltac:(lia)). lra. }
  change (bpow radix2 0) with 1 in V1. rewrite Rmult_1_r in V1. change (fmk b 0) with (mk32 b 0) in V1, F1.
  destruct (mk32_small 1 (-23) ltac:(reflexivity) ltac:(lia)) as (V2 & F2). rewrite Rmult_1_l in V2.
  assert (R2 : Rabs (rn (rn (IZR b) * bpow radix2 (-23))) <= bpow radix2 8).
  { apply rn_bnd; [lia|]. rewrite Rabs_mult, (Rabs_pos_eq (bpow radix2 (-23))) by apply bpow_ge_0. change (bpow radix2 8) with (bpow radix2 (31 + -23)). rewrite bpow_plus. apply Rmult_le_compat_r; [apply bpow_ge_0|exact R1]. }
  destruct (fmul_R (mk32 b 0) (mk32 1 (-23)) F1 F2) as (V3 & F3); [rewrite V1, V2; generalize (b128 8 ltac:(lia)); lra|]. rewrite V1, V2 in V3.
  destruct clog as (F4 & V4).
  destruct (fsub_R (fmul (mk32 b 0) (mk32 1 (-23))) c_log F3 F4) as (V5 & F5).
  { rewrite V3. apply Rle_lt_trans with (bpow radix2 9); [|apply b128; lia]. apply rn_bnd; [lia|]. apply Rabs_le_inv in R2. rewrite V4. change (bpow radix2 9) with 512. change (bpow radix2 8) with 256 in R2. apply Rabs_le. lra. }
  split; [exact F5|]. rewrite V5, V3. reflexivity.
Qed.
Lemma log_of_err b : 0 <= b <= bpow radix2 31 -> Rabs (log_of b - (b / 8388608 - 16638633 / 131072)) <= 0.00003.
Proof.
  intros Hb. unfold log_of. destruct clog as (_ & V). rewrite V.
  assert (E1 := rnd_err (prec:=24) (emax:=128) b 31 ltac:(cbn; lia) ltac:(rewrite Rabs_pos_eq; lra)). change (31 - 24 - 1)%Z with 6%Z in E1. change (bpow radix2 6) with 64 in E1.
  change (bpow radix2 31) with 2147483648 in *. change (bpow radix2 (-23)) with (/ 8388608).
  set (r1 := rn b) in *. assert (R1 : 0 <= r1 <= 2147483648).
  { change 2147483648 with (bpow radix2 31). unfold r1. split; [rewrite <- (rnd_0 (prec:=24) (emax:=128)); apply rnd_le; lra|].
    apply rnd_le_fmt; [apply fmt_bpow; cbn; lia|change (bpow radix2 31) with 2147483648; lra]. }
  assert (E2 := rnd_err (prec:=24) (emax:=128) (r1 * / 8388608) 8 ltac:(cbn; lia) ltac:(change (bpow radix2 8) with 256; rewrite Rabs_pos_eq; lra)). change (8 - 24 - 1)%Z with (-17)%Z in E2. change (bpow radix2 (-17)) with (/ 131072) in E2.
  set (r2 := rn (r1 * / 8388608)) in *. apply Rabs_le_inv in E1, E2.
  assert (E3 := rnd_err (prec:=24) (emax:=128) (r2 - 16638633 / 131072) 8 ltac:(cbn; lia) ltac:(change (bpow radix2 8) with 256; apply Rabs_le; lra)). change (8 - 24 - 1)%Z with (-17)%Z in E3. change (bpow radix2 (-17)) with (/ 131072) in E3.
  apply Rabs_le_inv in E3. apply Rabs_le. split; lra.
Qed.
Lemma bits_range (x : f32) : fin x -> 0 < v x -> (0 < bits_of x < 2 ^ 31)%Z.
Proof.
  intros F P. destruct (bits_pos x F P) as (E & G & (HE & HG) & B & C). rewrite B. change (2 ^ 31)%Z with 2147483648%Z. change (2 ^ 23)%Z with 8388608%Z in *.
  destruct C as [(H & _)|(H & V)]; [lia|]. assert (G <> 0)%Z; [|lia]. intros ->. rewrite Rmult_0_l in V. lra.
Qed.
Lemma log2_ok (x : f32) : fin x -> bpow radix2 (-126) <= v x -> fin (fast_log2 x) /\ Rabs (v (fast_log2 x) - log2 (v x)) <= 0.0574.
Proof.
  intros F H. assert (P : 0 < v x) by (generalize (bpow_gt_0 radix2 (-126)); lra).
  destruct (bits_normal x F H) as (E & G & (HE & HG) & B & V). assert (R := bits_range x F P).
  destruct (log_bits x ltac:(lia)) as (F1 & V1). split; [exact F1|]. rewrite V1, V, normal_val.
  assert (X := fr_bnd G HG). destruct (log_val (E - 127) (fr G) X) as (L & U). rewrite minus_IZR in L, U.
  assert (Eb : 0 <= IZR (bits_of x) <= bpow radix2 31) by (rewrite <- IZR_pow2 by lia; split; apply IZR_le; lia).
  assert (Er := log_of_err _ Eb). apply Rabs_le_inv in Er.
  assert (Bv : IZR (bits_of x) / 8388608 = IZR E + fr G).
  { rewrite B, plus_IZR, mult_IZR. change (IZR (2 ^ 23)) with 8388608. unfold fr. field. }
  rewrite Bv in Er. set (l := log2 ((1 + fr G) * bpow radix2 (E - 127))) in *. apply Rabs_le. split; lra.
Qed.
(** monotone *)
Lemma bits_mono (x y : f32) : fin x -> fin y -> 0 < v x <= v y -> (bits_of x <= bits_of y)%Z.
Proof.
  intros Fx Fy (Px & L). destruct (Z.le_gt_cases (bits_of x) (bits_of y)) as [C|C]; [exact C|exfalso].
  destruct (bits_pos x Fx Px) as (E & F & (HE & HF) & B & D). destruct (bits_pos y Fy ltac:(lra)) as (E' & F' & (HE' & HF') & B' & D').
  rewrite B, B' in C. change (2 ^ 23)%Z with 8388608%Z in *.
  assert (up : forall n e, (n < 16777216)%Z -> IZR n * bpow radix2 e < bpow radix2 (e + 24)).
  { intros n e Hn. rewrite bpow_plus, Rmult_comm. apply Rmult_lt_compat_l; [apply bpow_gt_0|]. apply (IZR_lt n 16777216). exact Hn. }
  assert (lo : forall n e, (8388608 <= n)%Z -> bpow radix2 (e + 23) <= IZR n * bpow radix2 e).
  { intros n e Hn. rewrite bpow_plus, Rmult_comm. apply Rmult_le_compat_r; [apply bpow_ge_0|]. apply (IZR_le 8388608 n). exact Hn. }
  destruct (Z.eq_dec E E') as [EE|NE].
  - subst E'. assert (FF : (F' < F)%Z) by lia. destruct D as [(H1 & V)|(H0 & V)], D' as [(H1' & V')|(H0' & V')]; try lia; rewrite V, V' in L.
    + assert (IZR (8388608 + F') < IZR (8388608 + F)) by (apply IZR_lt; lia). assert (Q := bpow_gt_0 radix2 (E - 150)).
      assert (IZR (8388608 + F') * bpow radix2 (E - 150) < IZR (8388608 + F) * bpow radix2 (E - 150)) by (apply Rmult_lt_compat_r; assumption). lra.
    + assert (IZR F' < IZR F) by (apply IZR_lt; lia). assert (Q := bpow_gt_0 radix2 (-149)).
      assert (IZR F' * bpow radix2 (-149) < IZR F * bpow radix2 (-149)) by (apply Rmult_lt_compat_r; assumption). lra.
  - assert (LE : (E' < E)%Z) by lia. destruct D as [(H1 & V)|(H0 & V)]; [|lia].
    assert (A := lo (8388608 + F)%Z (E - 150)%Z ltac:(lia)). rewrite <- V in A. destruct D' as [(H1' & V')|(H0' & V')].
    + assert (A' := up (8388608 + F')%Z (E' - 150)%Z ltac:(lia)). rewrite <- V' in A'.
      assert (bpow radix2 (E' - 150 + 24) <= bpow radix2 (E - 150 + 23)) by (apply bpow_le; lia). lra.
    + assert (A' : v y < bpow radix2 (-149 + 23)).
      { rewrite V', bpow_plus, Rmult_comm. apply Rmult_lt_compat_l; [apply bpow_gt_0|]. apply (IZR_lt F' 8388608). lia. }
      assert (bpow radix2 (-149 + 23) <= bpow radix2 (E - 150 + 23)) by (apply bpow_le; lia). lra.
Qed.
Lemma log_of_mono a b : a <= b -> log_of a <= log_of b.
Proof. intros H. unfold log_of. apply rnd_le. apply Rplus_le_compat_r. apply rnd_le. apply Rmult_le_compat_r; [apply bpow_ge_0|]. apply rnd_le. exact H. Qed.
Lemma log2_mono (x y : f32) : fin x -> fin y -> 0 < v x <= v y -> fin (fast_log2 x) /\ fin (fast_log2 y) /\ v (fast_log2 x) <= v (fast_log2 y).
Proof.
  intros Fx Fy H. assert (R := bits_range x Fx ltac:(lra)). assert (R' := bits_range y Fy ltac:(lra)).
  destruct (log_bits x ltac:(lia)) as (F1 & V1). destruct (log_bits y ltac:(lia)) as (F2 & V2).
  repeat split; try assumption. rewrite V1, V2. apply log_of_mono, IZR_le, bits_mono; assumption.
Qed.
