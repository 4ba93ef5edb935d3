(** Relative rounding error in binary32 and binary64, one-sided forms. *)
From Coq Require Import ZArith Reals Bool Lia Lra Psatz.
From Flocq Require Import Core.Core IEEE754.BinarySingleNaN Relative.
From Verif Require Import Float FloatFacts.
Local Open Scope R_scope.

Lemma rnd_rel32 x : bpow radix2 (-126) <= Rabs x -> Rabs (rnd 24 128 x - x) <= / 16777216 * Rabs x.
Proof.
  intros H. pose proof (relative_error_N_FLT radix2 (-149) 24 eq_refl (fun t => negb (Z.even t)) x H) as E.
  change (bpow radix2 (- (24) + 1)) with (/ 8388608) in E. unfold rnd. change (round radix2 fx ZnearestE x) with (round radix2 (FLT_exp (-149) 24) (Znearest (fun t => negb (Z.even t))) x).
  pose proof (Rabs_pos x). lra.
Qed.
Lemma rnd_rel64 x : bpow radix2 (-1022) <= Rabs x -> Rabs (rnd 53 1024 x - x) <= / 9007199254740992 * Rabs x.
Proof.
  intros H. pose proof (relative_error_N_FLT radix2 (-1074) 53 eq_refl (fun t => negb (Z.even t)) x H) as E.
  change (bpow radix2 (- (53) + 1)) with (/ 4503599627370496) in E. unfold rnd. change (round radix2 fx ZnearestE x) with (round radix2 (FLT_exp (-1074) 53) (Znearest (fun t => negb (Z.even t))) x).
  pose proof (Rabs_pos x). lra.
Qed.
Lemma rnd_rel32_pos x : bpow radix2 (-126) <= x -> x * (1 - / 16777216) <= rnd 24 128 x <= x * (1 + / 16777216).
Proof.
  intros H. assert (P : 0 <= x) by (pose proof (bpow_ge_0 radix2 (-126)); lra).
  pose proof (rnd_rel32 x) as E. rewrite (Rabs_pos_eq x P) in E. specialize (E H). apply Rabs_le_inv in E. lra.
Qed.
Lemma rnd_rel64_pos x : bpow radix2 (-1022) <= x -> x * (1 - / 9007199254740992) <= rnd 53 1024 x <= x * (1 + / 9007199254740992).
Proof.
  intros H. assert (P : 0 <= x) by (pose proof (bpow_ge_0 radix2 (-1022)); lra).
  pose proof (rnd_rel64 x) as E. rewrite (Rabs_pos_eq x P) in E. specialize (E H). apply Rabs_le_inv in E. lra.
Qed.
(** a rounded integer *)
Lemma z32_R m : (0 <= m < 2 ^ 100)%Z -> B2R (mk32 m 0) = rnd 24 128 (IZR m) /\ fin (mk32 m 0) /\
  IZR m * (1 - / 16777216) <= B2R (mk32 m 0) <= IZR m * (1 + / 16777216).
Proof.
  intros H.
  assert (H0 : 0 <= IZR m) by (apply IZR_le; lia).
  assert (B : Rabs (rnd 24 128 (IZR m * bpow radix2 0)) < bpow radix2 128).
  { apply Rle_lt_trans with (bpow radix2 100); [|apply bpow_lt; lia]. apply rnd_abs_le.
    - apply fmt_bpow. unfold SpecFloat.emin. lia.
    - change (bpow radix2 0) with 1. rewrite Rmult_1_r, Rabs_pos_eq by exact H0. change (bpow radix2 100) with (IZR (2 ^ 100)). apply IZR_le. lia. }
  destruct (fmk_R (prec:=24) (emax:=128) m 0 B) as [E F]. change (fmk m 0) with (mk32 m 0) in *.
  change (bpow radix2 0) with 1 in E. rewrite Rmult_1_r in E. split; [exact E|]. split; [exact F|]. rewrite E.
  destruct (Z.eq_dec m 0) as [->|N]; [rewrite rnd_0; lra|].
  apply rnd_rel32_pos. apply Rle_trans with 1; [|apply IZR_le; lia].
  change 1 with (bpow radix2 0). apply bpow_le. lia.
Qed.
