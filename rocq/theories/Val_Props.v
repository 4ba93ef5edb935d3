(** C35: quantities with a unit (frequency, duration, period, decibel). *)
From Coq Require Import ZArith NArith Reals Bool Lra Lia.
From Flocq Require Import Core.Core IEEE754.BinarySingleNaN.
From Verif Require Import Float FloatFacts FloatRel Val_Model Val_Spec Val_Proof.
Open Scope R_scope.
Local Notation rd := (rnd 53 1024).
Local Notation finite x := (is_finite x = true).

(** The six comparisons agree with the carried numbers, infinities included. *)
Theorem C35_comparisons : forall a b : f64, is_number a -> is_number b ->
  (u_lt a b = true <-> carried a < carried b) /\ (u_le a b = true <-> carried a <= carried b) /\
  (u_gt a b = true <-> carried a > carried b) /\ (u_ge a b = true <-> carried a >= carried b) /\
  (u_eq a b = true <-> carried a = carried b) /\ (u_ne a b = true <-> carried a <> carried b).
Proof.
  intros a b Ha Hb. unfold u_lt, u_le, u_gt, u_ge, u_eq, u_ne, fgt, fge.
  change (Bltb b a) with (flt b a). change (Bleb b a) with (fle b a).
  rewrite !lt_iff, !le_iff by assumption. pose proof (eq_iff a b Ha Hb) as E.
  repeat split; try lra; try apply E.
  - destruct (feq a b); [discriminate|]. intros _ Q. apply E in Q. discriminate.
  - intros Q. destruct (feq a b); [exfalso; apply Q, E; reflexivity|reflexivity].
Qed.
Print Assumptions C35_comparisons.

(** A NaN quantity (0 Hz / 0 Hz) is not equal to, below or above anything, itself included. *)
Theorem C35_nan_unordered : forall a b : f64, ~ is_number a \/ ~ is_number b ->
  u_lt a b = false /\ u_le a b = false /\ u_gt a b = false /\ u_ge a b = false /\ u_eq a b = false /\ u_ne a b = true.
Proof.
  intros a b H.
  destruct a as [[|]|[|]| |[|] m e q], b as [[|]|[|]| |[|] m' e' q']; (destruct H as [H|H]; try (exfalso; apply H; reflexivity)); repeat split.
Qed.
Print Assumptions C35_nan_unordered.

(** Sum, difference, product and quotient of two quantities are the nearest representable
    values to the exact ones, unless the exact result is beyond the largest double. *)
Theorem C35_nearest : forall a b : f64, finite a -> finite b ->
  (Rabs (B2R a + B2R b) <= largest -> nearest (u_add a b) (B2R a + B2R b)) /\
  (Rabs (B2R a - B2R b) <= largest -> nearest (u_sub a b) (B2R a - B2R b)) /\
  (Rabs (B2R a * B2R b) <= largest -> nearest (u_mul a b) (B2R a * B2R b)) /\
  (B2R b <> 0 -> Rabs (B2R a / B2R b) <= largest -> nearest (u_div a b) (B2R a / B2R b)).
Proof.
  intros a b Ha Hb. split; [|split; [|split]].
  - intros H. apply range_ok in H. destruct (fadd_R a b Ha Hb H) as [E F]. apply nearest_rd; assumption.
  - intros H. apply range_ok in H. destruct (fsub_R a b Ha Hb H) as [E F]. apply nearest_rd; assumption.
  - intros H. apply range_ok in H. destruct (fmul_R a b Ha Hb H) as [E F]. apply nearest_rd; assumption.
  - intros N H. apply range_ok in H. destruct (fdiv_R a b Ha N H) as [E F]. apply nearest_rd; assumption.
Qed.
Print Assumptions C35_nearest.

(** Compound assignment stores what the binary operator returns; a plain number next to a
    quantity counts as the quantity that carries it; float and int convert exactly. *)
Theorem C35_forms_agree : forall (a b : f64) (k : scalar),
  (u_add_assign a b = u_add a b /\ u_sub_assign a b = u_sub a b /\ u_mul_assign a b = u_mul a b /\ u_div_assign a b = u_div a b) /\
  (s_add k b = u_add (of_scalar k) b /\ s_sub k b = u_sub (of_scalar k) b /\ s_mul k b = u_mul (of_scalar k) b /\ s_div k b = u_div (of_scalar k) b) /\
  (add_s a k = u_add a (of_scalar k) /\ sub_s a k = u_sub a (of_scalar k) /\ mul_s a k = u_mul a (of_scalar k) /\ div_s a k = u_div a (of_scalar k)) /\
  match k with
  | Dbl x => of_scalar k = x
  | Flt x => is_finite x = true -> finite (of_scalar k) /\ B2R (of_scalar k) = B2R x
  | Int n => (- 2 ^ 31 <= n < 2 ^ 31)%Z -> finite (of_scalar k) /\ B2R (of_scalar k) = IZR n
  end.
Proof.
  intros a b k. do 3 (split; [repeat split|]). destruct k as [x|x|n]; cbn [of_scalar].
  - reflexivity.
  - intros F. destruct (to64_R x F) as [E G]. split; [exact G|exact E].
  - intros H. destruct (mk64_small n 0) as [E G]; [|lia|].
    + apply Z.abs_lt. change (2 ^ 31)%Z with 2147483648%Z in H. change (2 ^ 53)%Z with 9007199254740992%Z. lia.
    + split; [exact G|]. rewrite E. change (bpow radix2 0) with 1. ring.
Qed.
Print Assumptions C35_forms_agree.

(** An operation whose exact result is representable returns exactly that result. *)
Theorem C35_exact : forall a b : f64, finite a -> finite b ->
  (representable (B2R a + B2R b) -> finite (u_add a b) /\ B2R (u_add a b) = B2R a + B2R b) /\
  (representable (B2R a - B2R b) -> finite (u_sub a b) /\ B2R (u_sub a b) = B2R a - B2R b) /\
  (representable (B2R a * B2R b) -> finite (u_mul a b) /\ B2R (u_mul a b) = B2R a * B2R b) /\
  (B2R b <> 0 -> representable (B2R a / B2R b) -> finite (u_div a b) /\ B2R (u_div a b) = B2R a / B2R b).
Proof.
  intros a b Ha Hb. split; [|split; [|split]].
  - intros (z & Fz & Ez). destruct (fadd_R a b Ha Hb) as [E F]; rewrite <- Ez, rnd_v in *; [apply fin_lt_emax|]. split; assumption.
  - intros (z & Fz & Ez). destruct (fsub_R a b Ha Hb) as [E F]; rewrite <- Ez, rnd_v in *; [apply fin_lt_emax|]. split; assumption.
  - intros (z & Fz & Ez). destruct (fmul_R a b Ha Hb) as [E F]; rewrite <- Ez, rnd_v in *; [apply fin_lt_emax|]. split; assumption.
  - intros N (z & Fz & Ez). destruct (fdiv_R a b Ha N) as [E F]; rewrite <- Ez, rnd_v in *; [apply fin_lt_emax|]. split; assumption.
Qed.
Print Assumptions C35_exact.

(** Laws that hold for every finite quantity, rounding and overflow included. *)
Theorem C35_laws : forall a b : f64, finite a -> finite b ->
  u_eq (u_add a b) (u_add b a) = true /\
  u_eq (u_mul a b) (u_mul b a) = true /\
  u_eq (u_add a fzero) a = true /\
  u_eq (u_sub a a) fzero = true /\
  u_eq (u_add a (u_neg a)) fzero = true /\
  u_neg (u_neg a) = a /\ u_plus a = a /\
  u_sub a b = u_add a (u_neg b) /\
  u_eq (u_sub a b) (u_neg (u_sub b a)) = true /\
  B2R (u_neg a) = - B2R a.
Proof.
  intros a b Ha Hb. unfold u_eq, u_add, u_sub, u_neg, u_plus, u_mul.
  assert (Na : forall z : f64, finite z -> is_number z) by (intros z; destruct z; try discriminate; reflexivity).
  assert (Z0 : fin (fzero : f64)) by reflexivity.
  assert (C0 : Val_Proof.clamp 0 = 0) by (apply clamp_in; rewrite Rabs_R0; apply bpow_gt_0).
  destruct (carried_add a b Ha Hb) as [N1 E1]. destruct (carried_add b a Hb Ha) as [N2 E2].
  destruct (carried_mul a b Ha Hb) as [N1' E1']. destruct (carried_mul b a Hb Ha) as [N2' E2'].
  destruct (carried_add a fzero Ha Z0) as [N3 E3]. destruct (carried_sub a a Ha Ha) as [N4 E4].
  destruct (carried_add a (fneg a) Ha (fneg_fin' a Ha)) as [N5 E5].
  destruct (carried_sub a b Ha Hb) as [N6 E6]. destruct (carried_sub b a Hb Ha) as [N7 E7].
  split; [apply eq_iff; [assumption..|]; rewrite E1, E2; f_equal; f_equal; ring|].
  split; [apply eq_iff; [assumption..|]; rewrite E1', E2'; f_equal; f_equal; ring|].
  split; [apply eq_iff; [assumption|apply Na; assumption|]; rewrite E3, carried_fin by assumption; change (B2R (fzero : f64)) with 0; rewrite Rplus_0_r, rnd_v; apply clamp_in, fin_lt_emax|].
  split; [apply eq_iff; [assumption|reflexivity|]; rewrite E4; unfold Rminus; rewrite Rplus_opp_r, rnd_0; exact C0|].
  split; [apply eq_iff; [assumption|reflexivity|]; rewrite E5, fneg_R', Rplus_opp_r, rnd_0; exact C0|].
  split; [apply Bopp_involutive|]. split; [reflexivity|]. split; [apply fsub_fadd|].
  split; [|apply fneg_R'].
  apply eq_iff; [assumption|apply neg_number; assumption|]. rewrite carried_neg, E6, E7, <- clamp_opp, <- rnd_opp. f_equal. f_equal. ring.
Qed.
Print Assumptions C35_laws.

(** The order is compatible with the operations: adding or subtracting the same quantity and
    scaling by a non-negative number never reverse it, negation and subtraction from a common
    quantity reverse it; results that overflow are included. *)
Theorem C35_monotone : forall a b c : f64, finite a -> finite b -> finite c -> B2R a <= B2R b ->
  u_le (u_add a c) (u_add b c) = true /\ u_le (u_add c a) (u_add c b) = true /\
  u_le (u_sub a c) (u_sub b c) = true /\ u_le (u_sub c b) (u_sub c a) = true /\
  u_le (u_neg b) (u_neg a) = true /\
  (0 <= B2R c -> u_le (u_mul a c) (u_mul b c) = true /\ u_le (u_mul c a) (u_mul c b) = true) /\
  (0 < B2R c -> u_le (u_div a c) (u_div b c) = true) /\
  (0 <= B2R c -> 0 < B2R a -> u_le (u_div c b) (u_div c a) = true).
Proof.
  intros a b c Ha Hb Hc L. unfold u_le, u_add, u_sub, u_neg, u_mul, u_div.
  assert (Na : forall z : f64, finite z -> is_number z) by (intros z; destruct z; try discriminate; reflexivity).
  destruct (carried_add a c Ha Hc) as [N1 E1]. destruct (carried_add b c Hb Hc) as [N2 E2].
  destruct (carried_add c a Hc Ha) as [N1' E1']. destruct (carried_add c b Hc Hb) as [N2' E2'].
  destruct (carried_sub a c Ha Hc) as [N3 E3]. destruct (carried_sub b c Hb Hc) as [N4 E4].
  destruct (carried_sub c a Hc Ha) as [N5 E5]. destruct (carried_sub c b Hc Hb) as [N6 E6].
  split; [apply le_iff; [assumption..|]; rewrite E1, E2; apply clamp_le, rnd_le; lra|].
  split; [apply le_iff; [assumption..|]; rewrite E1', E2'; apply clamp_le, rnd_le; lra|].
  split; [apply le_iff; [assumption..|]; rewrite E3, E4; apply clamp_le, rnd_le; lra|].
  split; [apply le_iff; [assumption..|]; rewrite E5, E6; apply clamp_le, rnd_le; lra|].
  split; [apply le_iff; [apply neg_number, Na; assumption..|]; rewrite !carried_neg, !carried_fin by assumption; lra|].
  split; [|split].
  - intros P. destruct (carried_mul a c Ha Hc) as [K1 F1]. destruct (carried_mul b c Hb Hc) as [K2 F2].
    destruct (carried_mul c a Hc Ha) as [K3 F3]. destruct (carried_mul c b Hc Hb) as [K4 F4].
    split; (apply le_iff; [assumption..|]); [rewrite F1, F2|rewrite F3, F4]; apply clamp_le, rnd_le; [apply Rmult_le_compat_r|apply Rmult_le_compat_l]; assumption.
  - intros P. destruct (carried_div a c Ha Hc) as [K1 F1]; [lra|]. destruct (carried_div b c Hb Hc) as [K2 F2]; [lra|].
    apply le_iff; [assumption..|]. rewrite F1, F2. apply clamp_le, rnd_le. unfold Rdiv. apply Rmult_le_compat_r; [|assumption].
    apply Rlt_le, Rinv_0_lt_compat, P.
  - intros P Q. destruct (carried_div c a Hc Ha) as [K1 F1]; [lra|]. destruct (carried_div c b Hc Hb) as [K2 F2]; [lra|].
    apply le_iff; [assumption..|]. rewrite F1, F2. apply clamp_le, rnd_le. unfold Rdiv. apply Rmult_le_compat_l; [assumption|].
    apply Rinv_le_contravar; assumption.
Qed.
Print Assumptions C35_monotone.

(** Whole numbers (of hertz, seconds, decibels) up to 2^51 in size add and subtract exactly:
    subtraction undoes addition and addition is associative. *)
Theorem C35_whole_numbers : forall (x y z : Z) (a b c : f64),
  (Z.abs x <= 2 ^ 51)%Z -> (Z.abs y <= 2 ^ 51)%Z -> (Z.abs z <= 2 ^ 51)%Z ->
  finite a -> finite b -> finite c -> B2R a = IZR x -> B2R b = IZR y -> B2R c = IZR z ->
  B2R (u_sub (u_add a b) b) = B2R a /\
  B2R (u_add (u_add a b) c) = B2R (u_add a (u_add b c)) /\
  B2R (u_add a b) = IZR (x + y) /\ B2R (u_sub a b) = IZR (x - y).
Proof.
  intros x y z a b c Hx Hy Hz Ha Hb Hc Ea Eb Ec. change (2 ^ 51)%Z with 2251799813685248%Z in *.
  assert (I : forall n, (Z.abs n < 9007199254740992)%Z -> fmt 53 1024 (IZR n) /\ Rabs (IZR n) < bpow radix2 1024).
  { intros n Hn. split; [apply fmt_IZR; [vm_compute; discriminate|exact Hn]|].
    apply Rlt_trans with (bpow radix2 53); [|apply bpow_lt; lia]. rewrite <- abs_IZR. change (bpow radix2 53) with (IZR 9007199254740992). apply IZR_lt, Hn. }
  destruct (I (x + y)%Z) as [I1 I1']; [lia|]. destruct (I (y + z)%Z) as [I2 I2']; [lia|]. destruct (I (x - y)%Z) as [I3 I3']; [lia|].
  destruct (I (x + y + z)%Z) as [I4 I4']; [lia|]. destruct (I x) as [I5 I5']; [lia|].
  unfold u_sub, u_add.
  destruct (fadd_exact a b Ha Hb) as [E1 F1]; [rewrite Ea, Eb, <- plus_IZR; assumption..|].
  destruct (fadd_exact b c Hb Hc) as [E2 F2]; [rewrite Eb, Ec, <- plus_IZR; assumption..|].
  destruct (fsub_exact a b Ha Hb) as [E3 F3]; [rewrite Ea, Eb, <- minus_IZR; assumption..|].
  rewrite Ea, Eb, <- plus_IZR in E1. rewrite Eb, Ec, <- plus_IZR in E2. rewrite Ea, Eb, <- minus_IZR in E3.
  destruct (fadd_exact (fadd a b) c F1 Hc) as [E4 F4]; [rewrite E1, Ec, <- plus_IZR; assumption..|].
  destruct (fadd_exact a (fadd b c) Ha F2) as [E5 F5]; [rewrite E2, Ea, <- plus_IZR, Z.add_assoc; assumption..|].
  destruct (fsub_exact (fadd a b) b F1 Hb) as [E6 F6]; [rewrite E1, Eb, <- minus_IZR, Z.add_simpl_r; assumption..|].
  repeat split.
  - rewrite E6, E1, Eb, Ea, plus_IZR. ring.
  - rewrite E4, E5, E1, E2, Ec, Ea, !plus_IZR. ring.
  - exact E1.
  - exact E3.
Qed.
Print Assumptions C35_whole_numbers.

(** In general, subtraction undoes addition only up to rounding: for quantities up to 2^e in
    size, (a + b) - b differs from a by at most 2^(e-51). *)
Theorem C35_add_sub_error : forall (e : Z) (a b : f64), (-900 <= e <= 1000)%Z -> finite a -> finite b ->
  Rabs (B2R a) <= bpow radix2 e -> Rabs (B2R b) <= bpow radix2 e ->
  finite (u_sub (u_add a b) b) /\ Rabs (B2R (u_sub (u_add a b) b) - B2R a) <= bpow radix2 (e - 51).
Proof.
  intros e a b He Ha Hb Ba Bb. unfold u_sub, u_add.
  assert (D : bpow radix2 (e + 1) = 2 * bpow radix2 e) by (rewrite Z.add_comm, bpow_plus; reflexivity).
  assert (L : bpow radix2 (e + 2) < bpow radix2 1024) by (apply bpow_lt; lia).
  assert (D2 : bpow radix2 (e + 2) = 4 * bpow radix2 e) by (rewrite Z.add_comm, bpow_plus; reflexivity).
  assert (Fm : fmt 53 1024 (bpow radix2 (e + 1))) by (apply fmt_bpow; unfold SpecFloat.emin; lia).
  apply Rabs_le_inv in Ba, Bb. pose proof (bpow_gt_0 radix2 e) as P.
  assert (S1 : Rabs (B2R a + B2R b) <= bpow radix2 (e + 1)) by (apply Rabs_le; lra).
  pose proof (rnd_abs_le _ _ Fm S1) as S2.
  destruct (fadd_R a b Ha Hb) as [E1 F1]; [lra|].
  pose proof (rnd_err (prec:=53) (emax:=1024) _ (e + 1) ltac:(unfold SpecFloat.emin; lia) S1) as R1.
  replace (e + 1 - 53 - 1)%Z with (-53 + e)%Z in R1 by ring. rewrite bpow_plus in R1. change (bpow radix2 (-53)) with (/ 9007199254740992) in R1.
  assert (S3 : Rabs (B2R (fadd a b) - B2R b) <= bpow radix2 (e + 1)).
  { rewrite E1. apply Rabs_le_inv in R1. apply Rabs_le. lra. }
  pose proof (rnd_abs_le _ _ Fm S3) as S4.
  destruct (fsub_R (fadd a b) b F1 Hb) as [E2 F2]; [lra|].
  split; [exact F2|]. rewrite E2.
  pose proof (rnd_err (prec:=53) (emax:=1024) _ (e + 1) ltac:(unfold SpecFloat.emin; lia) S3) as R2.
  replace (e + 1 - 53 - 1)%Z with (-53 + e)%Z in R2 by ring. rewrite bpow_plus in R2. change (bpow radix2 (-53)) with (/ 9007199254740992) in R2.
  rewrite E1 in R2 |- *. replace (e - 51)%Z with (-51 + e)%Z by ring. rewrite bpow_plus. change (bpow radix2 (-51)) with (/ 2251799813685248).
  apply Rabs_le_inv in R1, R2. apply Rabs_le. lra.
Qed.
Print Assumptions C35_add_sub_error.

(** 0.1, 0.2, 0.3 as doubles *)
Definition d01 : f64 := mk64 7205759403792794 (-56).
Definition d02 : f64 := mk64 7205759403792794 (-55).
Definition d03 : f64 := mk64 5404319552844595 (-54).

(** Subtraction does not undo addition exactly: (0.1 s + 0.2 s) - 0.2 s is not 0.1 s; and
    addition is not associative: (0.1 s + 0.2 s) + 0.3 s is not 0.1 s + (0.2 s + 0.3 s). *)
Theorem C35_group_laws_refuted :
  ~ (forall a b : f64, finite a -> finite b -> u_eq (u_sub (u_add a b) b) a = true) /\
  ~ (forall a b c : f64, finite a -> finite b -> finite c -> u_eq (u_add (u_add a b) c) (u_add a (u_add b c)) = true).
Proof.
  split.
  - intros H. specialize (H d01 d02 (eq_refl true) (eq_refl true)). revert H.
    assert (T : u_eq (u_sub (u_add d01 d02) d02) d01 = false) by (vm_compute; reflexivity). rewrite T. discriminate.
  - intros H. specialize (H d01 d02 d03 (eq_refl true) (eq_refl true) (eq_refl true)). revert H.
    assert (T : u_eq (u_add (u_add d01 d02) d03) (u_add d01 (u_add d02 d03)) = false) by (vm_compute; reflexivity). rewrite T. discriminate.
Qed.
Print Assumptions C35_group_laws_refuted.

(** Frequency and period are reciprocal up to one rounding, converting there and back is off
    by at most two, the order is reversed, and 0 Hz and the infinite period correspond. *)
Theorem C35_reciprocal : forall f : f64, finite f ->
  bpow radix2 (-1022) <= Rabs (B2R f) <= bpow radix2 1022 ->
  nearest (period_of f) (1 / B2R f) /\ nearest (frequency_of f) (1 / B2R f) /\
  Rabs (B2R f * B2R (period_of f) - 1) <= / 9007199254740992 /\
  finite (frequency_of (period_of f)) /\
  Rabs (B2R (frequency_of (period_of f)) - B2R f) <= 3 * / 9007199254740992 * Rabs (B2R f).
Proof.
  intros f F H. unfold frequency_of, period_of. destruct (recip_range _ H) as [N _].
  destruct (period_R f F H) as (G & E & R & d & Hd & Ed). destruct (period_R _ G R) as (G' & E' & R' & d' & Hd' & Ed').
  set (p := fdiv (mk64 1 0) f) in *.
  assert (Q : forall x, Rabs x <= / 9007199254740992 -> - / 9007199254740992 <= x <= / 9007199254740992) by (intros; apply Rabs_le_inv; assumption).
  split; [apply nearest_rd; assumption|]. split; [apply nearest_rd; assumption|].
  split; [rewrite Ed; replace (B2R f * (/ B2R f * (1 + d)) - 1) with d by (field; exact N); exact Hd|].
  split; [exact G'|].
  specialize (Q d Hd) as Qd. specialize (Q d' Hd') as Qd'.
  assert (D : 1 + d <> 0) by lra.
  rewrite Ed', Ed. rewrite Rinv_mult, Rinv_inv.
  replace (B2R f * / (1 + d) * (1 + d') - B2R f) with ((d' - d) * / (1 + d) * B2R f) by (field; exact D).
  rewrite Rabs_mult. apply Rmult_le_compat_r; [apply Rabs_pos|].
  apply Rabs_le. assert (I : 0 < / (1 + d) <= 1 + / 1024).
  { split; [apply Rinv_0_lt_compat; lra|]. apply (Rmult_le_reg_l (1 + d)); [lra|]. rewrite Rinv_r by lra. nra. }
  split; nra.
Qed.
Print Assumptions C35_reciprocal.

Theorem C35_period_order : forall f g : f64, finite f -> finite g -> 0 < B2R f -> B2R f <= B2R g ->
  u_le (period_of g) (period_of f) = true /\ u_le (frequency_of g) (frequency_of f) = true.
Proof.
  intros f g Hf Hg P L. destruct one64 as [E1 F1].
  destruct (C35_monotone f g (mk64 1 0) Hf Hg F1 L) as (_ & _ & _ & _ & _ & _ & _ & Q).
  split; apply Q; rewrite ?E1; lra.
Qed.
Print Assumptions C35_period_order.

Theorem C35_zero_frequency :
  period_of fzero = B754_infinity false /\ frequency_of (period_of fzero) = fzero.
Proof. split; reflexivity. Qed.
Print Assumptions C35_zero_frequency.

(** There and back is not the identity: frequency(period(49 Hz)) is not 49 Hz. *)
Theorem C35_round_trip_refuted :
  ~ (forall f : f64, finite f -> 1 <= B2R f <= 20000 -> u_eq (frequency_of (period_of f)) f = true).
Proof.
  intros H. destruct (mk64_small 49 0) as [E F]; [reflexivity|lia|]. specialize (H (mk64 49 0) F).
  assert (T : u_eq (frequency_of (period_of (mk64 49 0))) (mk64 49 0) = false) by (vm_compute; reflexivity). rewrite T in H.
  discriminate H. rewrite E. change (bpow radix2 0) with 1. lra.
Qed.
Print Assumptions C35_round_trip_refuted.

(** Integer literals: Hz, s and dB carry the nearest double to the written number (exactly it
    up to 2^53), kHz and MHz exactly a thousand / a million times it while that is below
    2^53, ms and us a thousandth / a millionth of it within 3 half-ulps. *)
Theorem C35_literals : forall n : N,
  ((n < 2 ^ 64)%N -> nearest (lit_Hz n) (IZR (Z.of_N n)) /\ nearest (lit_s n) (IZR (Z.of_N n)) /\ nearest (lit_dB n) (IZR (Z.of_N n))) /\
  ((n <= 2 ^ 53)%N -> B2R (lit_Hz n) = IZR (Z.of_N n) /\ B2R (lit_s n) = IZR (Z.of_N n) /\ B2R (lit_dB n) = IZR (Z.of_N n)) /\
  ((n * 1000 <= 2 ^ 53)%N -> finite (lit_kHz n) /\ B2R (lit_kHz n) = 1000 * IZR (Z.of_N n)) /\
  ((n * 1000000 <= 2 ^ 53)%N -> finite (lit_MHz n) /\ B2R (lit_MHz n) = 1000000 * IZR (Z.of_N n)) /\
  ((n <= 2 ^ 53)%N -> finite (lit_ms n) /\ Rabs (B2R (lit_ms n) - IZR (Z.of_N n) / 1000) <= 3 * / 9007199254740992 * (IZR (Z.of_N n) / 1000)) /\
  ((n <= 2 ^ 53)%N -> finite (lit_us n) /\ Rabs (B2R (lit_us n) - IZR (Z.of_N n) / 1000000) <= 3 * / 9007199254740992 * (IZR (Z.of_N n) / 1000000)).
Proof.
  intros n. change (2 ^ 64)%N with 18446744073709551616%N. change (2 ^ 53)%N with 9007199254740992%N.
  assert (A : forall m, (n < m)%N -> 0 <= IZR (Z.of_N n) < IZR (Z.of_N m)).
  { intros m H. split; [apply IZR_le; lia|apply IZR_lt; lia]. }
  assert (Big : forall r, Rabs r <= bpow radix2 1000 -> Rabs (rd r) < bpow radix2 1024).
  { intros r H. apply range_ok, bp_small. apply Rle_trans with (1 := H). apply bpow_le; lia. }
  assert (B : (n <= 9007199254740992)%N -> finite (mk64 (Z.of_N n) 0) /\ B2R (mk64 (Z.of_N n) 0) = IZR (Z.of_N n)).
  { intros H. destruct (fmk_exact (prec:=53) (emax:=1024) (Z.of_N n) 0) as [E F].
    - change (bpow radix2 0) with 1. rewrite Rmult_1_r. destruct (N.eq_dec n 9007199254740992) as [->|Q].
      + change (IZR (Z.of_N 9007199254740992)) with (bpow radix2 53). apply fmt_bpow. unfold SpecFloat.emin; lia.
      + apply fmt_IZR; [vm_compute; discriminate|]. change (2 ^ 53)%Z with 9007199254740992%Z. lia.
    - change (bpow radix2 0) with 1. rewrite Rmult_1_r, Rabs_pos_eq by (apply IZR_le; lia).
      apply Rle_lt_trans with (bpow radix2 53); [change (bpow radix2 53) with (IZR 9007199254740992); apply IZR_le; lia|apply bpow_lt; lia].
    - split; [exact F|]. change (mk64 (Z.of_N n) 0) with (fmk (prec:=53) (emax:=1024) (Z.of_N n) 0). rewrite E. change (bpow radix2 0) with 1. ring. }
  assert (I : forall z, (0 <= z <= 9007199254740992)%Z -> fmt 53 1024 (IZR z) /\ Rabs (IZR z) < bpow radix2 1024).
  { intros z Hz. split.
    - destruct (Z.eq_dec z 9007199254740992) as [->|Q].
      + change (IZR 9007199254740992) with (bpow radix2 53). apply fmt_bpow. unfold SpecFloat.emin; lia.
      + apply fmt_IZR; [vm_compute; discriminate|]. change (2 ^ 53)%Z with 9007199254740992%Z. lia.
    - rewrite Rabs_pos_eq by (apply IZR_le; lia). apply Rle_lt_trans with (bpow radix2 53); [change (bpow radix2 53) with (IZR 9007199254740992); apply IZR_le; lia|apply bpow_lt; lia]. }
  assert (T : forall (k : f64) (q : R), finite k -> 0 < q <= 1 -> / 1048576 <= q -> Rabs (B2R k - q) <= / 9007199254740992 * q -> (n <= 9007199254740992)%N ->
    finite (fmul (mk64 (Z.of_N n) 0) k) /\ Rabs (B2R (fmul (mk64 (Z.of_N n) 0) k) - IZR (Z.of_N n) * q) <= 3 * / 9007199254740992 * (IZR (Z.of_N n) * q)).
  { intros k q Fk Hq Lq Ek Hn. destruct (B Hn) as [F1 E1]. apply Rabs_le_inv in Ek.
    assert (Hn' : 0 <= IZR (Z.of_N n) <= 9007199254740992) by (split; apply IZR_le; lia).
    assert (Hk : 0 < B2R k <= 2) by lra.
    destruct (fmul_R (mk64 (Z.of_N n) 0) k F1 Fk) as [E2 F2].
    { apply Big. rewrite E1, Rabs_pos_eq by (apply Rmult_le_pos; lra). apply Rle_trans with (bpow radix2 54); [|apply bpow_le; lia].
      change (bpow radix2 54) with 18014398509481984. apply Rle_trans with (9007199254740992 * 2); [apply Rmult_le_compat; lra|lra]. }
    split; [exact F2|]. rewrite E2, E1.
    destruct (N.eq_dec n 0) as [->|Nz].
    { change (IZR (Z.of_N 0)) with 0. rewrite !Rmult_0_l, rnd_0, Rminus_0_r, Rabs_R0. lra. }
    assert (One : 1 <= IZR (Z.of_N n)) by (apply IZR_le; lia).
    set (x := IZR (Z.of_N n)) in *.
    assert (Pn : x * B2R k <= x * q * (1 + / 9007199254740992)) by (rewrite Rmult_assoc; apply Rmult_le_compat_l; lra).
    assert (Pl : x * q * (1 - / 9007199254740992) <= x * B2R k) by (rewrite Rmult_assoc; apply Rmult_le_compat_l; lra).
    assert (Low : bpow radix2 (-1022) <= Rabs (x * B2R k)).
    { rewrite Rabs_pos_eq by (apply Rmult_le_pos; lra). apply Rle_trans with (bpow radix2 (-21)); [apply bpow_le; lia|].
      change (bpow radix2 (-21)) with (/ 2097152). apply Rle_trans with (1 * B2R k); [lra|apply Rmult_le_compat_r; lra]. }
    pose proof (rnd_rel64 _ Low) as R. rewrite (Rabs_pos_eq (x * B2R k)) in R by (apply Rmult_le_pos; lra). apply Rabs_le_inv in R.
    assert (Px : 0 < x * q) by (apply Rmult_lt_0_compat; lra). apply Rabs_le. lra. }
  split; [|split; [|split; [|split; [|split]]]].
  - intros H. destruct (A _ H) as [A1 A2].
    assert (Q : nearest (mk64 (Z.of_N n) 0) (IZR (Z.of_N n))); [|repeat split; apply Q].
    destruct (fmk_R (prec:=53) (emax:=1024) (Z.of_N n) 0) as [E F].
    + change (bpow radix2 0) with 1. rewrite Rmult_1_r. apply Big. rewrite Rabs_pos_eq by exact A1.
      apply Rle_trans with (bpow radix2 64); [|apply bpow_le; lia]. change (bpow radix2 64) with (IZR 18446744073709551616). apply Rlt_le. exact A2.
    + apply nearest_rd; [exact F|]. change (mk64 (Z.of_N n) 0) with (fmk (prec:=53) (emax:=1024) (Z.of_N n) 0). rewrite E. change (bpow radix2 0) with 1. rewrite Rmult_1_r. reflexivity.
  - intros H. destruct (B H) as [F E]. unfold lit_Hz, lit_s, lit_dB. repeat split; exact E.
  - intros H. destruct (B ltac:(lia)) as [F E]. destruct (mk64_small 1000 0) as [E3 F3]; [reflexivity|lia|]. change (bpow radix2 0) with 1 in E3. rewrite Rmult_1_r in E3.
    unfold lit_kHz, lit_1e3. destruct (I (Z.of_N n * 1000)%Z) as [I1 I2]; [lia|]. rewrite mult_IZR in I1, I2.
    destruct (fmul_exact (mk64 (Z.of_N n) 0) (mk64 1000 0) F F3) as [E2 F2]; [rewrite E, E3; assumption..|]. split; [exact F2|]. rewrite E2, E, E3. ring.
  - intros H. destruct (B ltac:(lia)) as [F E]. destruct (mk64_small 1000000 0) as [E3 F3]; [reflexivity|lia|]. change (bpow radix2 0) with 1 in E3. rewrite Rmult_1_r in E3.
    unfold lit_MHz, lit_1e6. destruct (I (Z.of_N n * 1000000)%Z) as [I1 I2]; [lia|]. rewrite mult_IZR in I1, I2.
    destruct (fmul_exact (mk64 (Z.of_N n) 0) (mk64 1000000 0) F F3) as [E2 F2]; [rewrite E, E3; assumption..|]. split; [exact F2|]. rewrite E2, E, E3. ring.
  - intros H. destruct (mk64_small 4611686018427388 (-62)) as [E F]; [reflexivity|lia|]. change (bpow radix2 (-62)) with (/ 4611686018427387904) in E.
    destruct (T lit_1em3 (/ 1000)) as [T1 T2]; [exact F|lra|lra|unfold lit_1em3; rewrite E; apply Rabs_le; lra|exact H|]. split; [exact T1|exact T2].
  - intros H. destruct (mk64_small 4722366482869645 (-72)) as [E F]; [reflexivity|lia|]. change (bpow radix2 (-72)) with (/ 4722366482869645213696) in E.
    destruct (T lit_1em6 (/ 1000000)) as [T1 T2]; [exact F|lra|lra|unfold lit_1em6; rewrite E; apply Rabs_le; lra|exact H|]. split; [exact T1|exact T2].
Qed.
Print Assumptions C35_literals.

(** 9_ms is not the double nearest to 9/1000 s: the literal multiplies by the rounded 1e-3. *)
Theorem C35_ms_literal_refuted : ~ (forall n : N, (n < 100)%N -> nearest (lit_ms n) (IZR (Z.of_N n) / 1000)).
Proof.
  intros H. specialize (H 9%N ltac:(lia)). change (IZR (Z.of_N 9)) with 9 in H. destruct H as [F H].
  destruct (mk64_small 5188146770730811 (-59)) as [E1 F1]; [reflexivity|lia|].
  destruct (mk64_small 5188146770730812 (-59)) as [E2 F2]; [reflexivity|lia|].
  specialize (H _ F1). rewrite E1 in H.
  assert (T : feq (lit_ms 9) (mk64 5188146770730812 (-59)) = true) by (vm_compute; reflexivity).
  apply (feq_true _ _ F F2) in T. rewrite T, E2 in H. change (bpow radix2 (-59)) with (/ 576460752303423488) in H.
  rewrite Rabs_pos_eq in H by lra. first [rewrite (Rabs_left1 (5188146770730811 * _ - _)) in H by lra | rewrite (Rabs_pos_eq (5188146770730811 * _ - _)) in H by lra]. lra.
Qed.
Print Assumptions C35_ms_literal_refuted.

Example C35_ex : u_lt (lit_Hz 440) (lit_kHz 1) = true /\ u_eq (lit_ms 1) (period_of (lit_kHz 1)) = true /\
  u_eq (mul_s (lit_s 3) (Int 2)) (lit_s 6) = true /\ u_eq (u_sub (lit_dB 3) (lit_dB 10)) (u_neg (lit_dB 7)) = true.
Proof. repeat split; vm_compute; reflexivity. Qed.
