(** The 1 Hz lowpass at 48 kHz: rounding its coefficients to float puts a pole at 1. *)
From Coq Require Import Reals Lra Lia.
From Flocq Require Import Core.Core IEEE754.BinarySingleNaN.
From Verif Require Import Common Float FloatFacts FloatRel Sin_Proof Filt_Proof Bq_Model Bq_Coef Dyn_Proof.
Local Open Scope R_scope.
Local Notation fin x := (is_finite x = true).
Local Notation v x := (B2R x).
Local Notation rn := (rnd 24 128).
Local Notation rd := (rnd 53 1024).

(** rounding to float a value between 2^(e-1) and 2^e *)
Lemma rn_pin x e n : (-120 <= e <= 120)%Z -> bpow radix2 (e - 1) <= Rabs x < bpow radix2 e ->
  Rabs (x * bpow radix2 (24 - e) - IZR n) < / 2 -> rn x = IZR n * bpow radix2 (e - 24).
Proof.
  intros He Hx Hn. assert (N : x <> 0). { intros ->. rewrite Rabs_R0 in Hx. generalize (bpow_gt_0 radix2 (e - 1)). lra. }
  assert (M : (mag radix2 x = e :> Z)%Z) by (apply mag_unique; exact Hx).
  unfold rnd, FloatFacts.fx, round, scaled_mantissa, F2R. cbn [Fnum Fexp].
  assert (C : cexp radix2 (SpecFloat.fexp 24 128) x = (e - 24)%Z) by (unfold cexp, SpecFloat.fexp, SpecFloat.emin; rewrite M; lia).
  rewrite C. replace (- (e - 24))%Z with (24 - e)%Z by lia. rewrite (Znearest_imp _ _ n Hn). reflexivity.
Qed.
(** interval bounds on the steps *)
Lemma rd_in x a b e : a <= x <= b -> Rabs a <= 4 -> Rabs b <= 4 -> e = bpow radix2 (-50) -> a - e <= rd x <= b + e.
Proof.
  intros H A B ->. apply Rabs_le_inv in A, B.
  assert (X : Rabs x <= bpow radix2 2) by (change (bpow radix2 2) with 4; apply Rabs_le; split; lra).
  assert (E := rnd_err (prec:=53) (emax:=1024) x 2 ltac:(cbn; lia) X). change (2 - 53 - 1)%Z with (-52)%Z in E.
  assert (bpow radix2 (-52) <= bpow radix2 (-50)) by (apply bpow_le; lia). apply Rabs_le_inv in E. lra.
Qed.
Lemma quo_in x a lo hi : 0 < a -> lo * a <= x <= hi * a -> lo <= x / a <= hi.
Proof.
  intros Ha H. assert (I : 0 < / a) by (apply Rinv_0_lt_compat; exact Ha). unfold Rdiv. split.
  - replace lo with (lo * a * / a) by (field; lra). apply Rmult_le_compat_r; lra.
  - replace hi with (hi * a * / a) by (field; lra). apply Rmult_le_compat_r; lra.
Qed.
Definition w48 := omega 1 48000.
Lemma w48_in : 0.000130899691 <= w48 <= 0.000130899696.
Proof. unfold w48, omega. pose proof PI_tight. lra. Qed.
Lemma sin48 : 0.000130899690 <= sin w48 <= 0.000130899696.
Proof.
  pose proof w48_in as H. destruct (sin_cub w48 ltac:(lra)) as (A & B). split; [|lra].
  assert (w48 ^ 3 <= 0.000131 ^ 3) by (apply pow_incr; lra). lra.
Qed.
Lemma cos48 : 0.9999999914326 <= cos w48 <= 0.9999999914327.
Proof.
  pose proof w48_in as H. destruct (cos_quad w48 ltac:(lra)) as (A & B).
  assert (w48 ^ 4 <= 0.000131 ^ 4) by (apply pow_incr; lra).
  assert (w48 ^ 2 <= 0.000130899696 ^ 2) by (apply pow_incr; lra).
  assert (0.000130899691 ^ 2 <= w48 ^ 2) by (apply pow_incr; lra). split; lra.
Qed.
Section One.
Variables sn cs q : f64.
Hypothesis Fs : fin sn. Hypothesis Fc : fin cs. Hypothesis Fq : fin q.
Hypothesis Hs : Rabs (v sn - sin w48) <= bpow radix2 (-36).
Hypothesis Hc : Rabs (v cs - cos w48) <= bpow radix2 (-36).
Hypothesis Hq : Rabs (v q - 0.707) <= bpow radix2 (-36).
Local Notation al := (alpha_q ops64 sn q).
Lemma b36 : bpow radix2 (-36) <= 0.000000000015 /\ bpow radix2 (-50) <= 0.00000000000001.
Proof. change (bpow radix2 (-36)) with (/ 68719476736). change (bpow radix2 (-50)) with (/ 1125899906842624). lra. Qed.
Lemma in1024 x c : Rabs x <= c -> c <= 4 -> Rabs x < bpow radix2 1024.
Proof. intros A B. assert (bpow radix2 3 < bpow radix2 1024) by (apply bpow_lt; lia). change (bpow radix2 3) with 8 in *. lra. Qed.
Lemma two_q : fin (mul ops64 (two ops64) q) /\ 1.4139999999 <= v (mul ops64 (two ops64) q) <= 1.4140000001.
Proof.
  destruct b36 as (B & B'). apply Rabs_le_inv in Hq. destruct (v_two q q q) as (E & F). cbn [mul ops64].
  destruct (rd_in (v (two ops64) * v q) 1.41399999995 1.41400000005 _ ltac:(rewrite E; lra) ltac:(rewrite Rabs_pos_eq; lra) ltac:(rewrite Rabs_pos_eq; lra) eq_refl) as (L & U).
  destruct (fmul_R (two ops64) q F Fq) as (V & G); [eapply in1024; [apply Rabs_le; split; [|exact (Rle_trans _ _ _ U ltac:(instantiate (1:=2); lra))]; lra|lra]|].
  split; [exact G|]. rewrite V. lra.
Qed.
Lemma al_in : fin al /\ 0.00009257401 <= v al <= 0.00009257407.
Proof.
  destruct b36 as (B & B'). apply Rabs_le_inv in Hs. destruct two_q as (F & Q). pose proof sin48 as S. unfold alpha_q. cbn [quo ops64].
  set (m := mul ops64 (two ops64) q) in *.
  assert (X : 0.000092574015 <= v sn / v m <= 0.000092574065) by (apply quo_in; lra).
  destruct (rd_in _ _ _ _ X ltac:(rewrite Rabs_pos_eq; lra) ltac:(rewrite Rabs_pos_eq; lra) eq_refl) as (L & U).
  destruct (fdiv_R sn m Fs) as (V & G); [lra|eapply in1024; [apply Rabs_le; split; [|exact (Rle_trans _ _ _ U ltac:(instantiate (1:=2); lra))]; lra|lra]|].
  split; [exact G|]. rewrite V. lra.
Qed.
Lemma a0_in : fin (fadd (one ops64) al) /\ 1.00009257400 <= v (fadd (one ops64) al) <= 1.00009257408.
Proof.
  destruct b36 as (B & B'). destruct al_in as (F & A). destruct (v_one q q q) as (E & G).
  destruct (rd_in (v (one ops64) + v al) 1.00009257401 1.00009257407 _ ltac:(rewrite E; lra) ltac:(rewrite Rabs_pos_eq; lra) ltac:(rewrite Rabs_pos_eq; lra) eq_refl) as (L & U).
  destruct (fadd_R (one ops64) al G F) as (V & K); [eapply in1024; [apply Rabs_le; split; [|exact (Rle_trans _ _ _ U ltac:(instantiate (1:=2); lra))]; lra|lra]|].
  split; [exact K|]. rewrite V. lra.
Qed.
Lemma a2_in : fin (fsub (one ops64) al) /\ 0.99990742592 <= v (fsub (one ops64) al) <= 0.99990742600.
Proof.
  destruct b36 as (B & B'). destruct al_in as (F & A). destruct (v_one q q q) as (E & G).
  destruct (rd_in (v (one ops64) - v al) 0.99990742593 0.99990742599 _ ltac:(rewrite E; lra) ltac:(rewrite Rabs_pos_eq; lra) ltac:(rewrite Rabs_pos_eq; lra) eq_refl) as (L & U).
  destruct (fsub_R (one ops64) al G F) as (V & K); [eapply in1024; [apply Rabs_le; split; [|exact (Rle_trans _ _ _ U ltac:(instantiate (1:=2); lra))]; lra|lra]|].
  split; [exact K|]. rewrite V. lra.
Qed.
Lemma a1_in : let a1 := d_a1 (cfg_lowpass ops64 cs al) in fin a1 /\ -1.9999999830 <= v a1 <= -1.9999999827.
Proof.
  cbn [cfg_lowpass d_a1 ops64 mul neg]. destruct b36 as (B & B'). apply Rabs_le_inv in Hc. pose proof cos48 as S. destruct (v_two q q q) as (E & G).
  set (t := two ops64) in *.
  assert (E' : v (fneg t) = -2) by (rewrite fneg_R'; lra). assert (G' : fin (fneg t)) by (rewrite fneg_fin'; exact G).
  destruct (rd_in (v (fneg t) * v cs) (-1.9999999829) (-1.9999999828) _ ltac:(rewrite E'; lra) ltac:(rewrite Rabs_left; lra) ltac:(rewrite Rabs_left; lra) eq_refl) as (L & U).
  destruct (fmul_R (fneg t) cs G' Fc) as (V & K); [eapply in1024; [apply Rabs_le; split; [|exact (Rle_trans _ _ _ U ltac:(instantiate (1:=2); lra))]; lra|lra]|].
  split; [exact K|]. rewrite V. lra.
Qed.
Lemma pinned : let c := design_coefs ops64 to32 (cfg_lowpass ops64 cs al) in
  v (k3 c) = IZR (-16775663) * bpow radix2 (-23) /\ v (k4 c) = IZR 16774110 * bpow radix2 (-24).
Proof.
  cbv zeta. destruct b36 as (B & B'). destruct a0_in as (F0 & A0). destruct a2_in as (F2 & A2). destruct a1_in as (F1 & A1).
  assert (B60 : 8 <= bpow radix2 60) by (apply (bpow_le radix2 3 60); lia).
  split.
  - change (k3 _) with (Q32 (d_a1 (cfg_lowpass ops64 cs al)) (fadd (one ops64) al)).
    set (a1 := d_a1 (cfg_lowpass ops64 cs al)) in *. set (a0 := fadd (one ops64) al) in *.
    destruct (Q32_val a1 a0 F1 F0 ltac:(lra)) as (_ & ->); [apply Rabs_le; lra|].
    assert (X : -1.999814853 <= v a1 / v a0 <= -1.999814851) by (apply quo_in; lra).
    destruct (rd_in _ _ _ _ X ltac:(rewrite Rabs_left; lra) ltac:(rewrite Rabs_left; lra) eq_refl) as (L & U).
    rewrite (rn_pin _ 1 (-16775663)); [reflexivity|lia| |].
    + change (bpow radix2 (1 - 1)) with 1. change (bpow radix2 1) with 2. rewrite Rabs_left by lra. lra.
    + change (bpow radix2 (24 - 1)) with 8388608. apply Rabs_def1; lra.
  - change (k4 _) with (Q32 (fsub (one ops64) al) (fadd (one ops64) al)).
    set (a2 := fsub (one ops64) al) in *. set (a0 := fadd (one ops64) al) in *.
    destruct (Q32_val a2 a0 F2 F0 ltac:(lra)) as (_ & ->); [apply Rabs_le; lra|].
    assert (X : 0.9998148688 <= v a2 / v a0 <= 0.9998148693) by (apply quo_in; lra).
    destruct (rd_in _ _ _ _ X ltac:(rewrite Rabs_pos_eq; lra) ltac:(rewrite Rabs_pos_eq; lra) eq_refl) as (L & U).
    rewrite (rn_pin _ 0 16774110); [reflexivity|lia| |].
    + change (bpow radix2 (0 - 1)) with (/ 2). change (bpow radix2 0) with 1. rewrite Rabs_pos_eq by lra. lra.
    + change (bpow radix2 (24 - 0)) with 16777216. apply Rabs_def1; lra.
Qed.
End One.
(** such sines, cosines and q exist *)
Lemma lit_near m e x : (Z.abs m < 2 ^ 53)%Z -> (0 <= e <= 100)%Z -> Rabs (IZR m / IZR (2 ^ e) - x) <= bpow radix2 (-36) ->
  fin (mk64 m (- e)) /\ Rabs (v (mk64 m (- e)) - x) <= bpow radix2 (-36).
Proof.
  intros Hm He H. destruct (mk64_small m (- e) Hm ltac:(lia)) as (E & F). split; [exact F|]. rewrite E, bpow_opp.
  replace (bpow radix2 e) with (IZR (2 ^ e)) by (apply (IZR_Zpower radix2); lia). exact H.
Qed.
Lemma case48 : exists sn cs q : f64, fin sn /\ fin cs /\ fin q /\ Rabs (v sn - sin w48) <= bpow radix2 (-36) /\
  Rabs (v cs - cos w48) <= bpow radix2 (-36) /\ Rabs (v q - 0.707) <= bpow radix2 (-36).
Proof.
  pose proof sin48. pose proof cos48. assert (B : / 69000000000 <= bpow radix2 (-36)) by (change (bpow radix2 (-36)) with (/ 68719476736); lra).
  destruct (lit_near 150917071006134 60 (sin w48)) as (A1 & A2); [reflexivity|lia|change (2 ^ 60)%Z with 1152921504606846976%Z; apply Rabs_le; lra|].
  destruct (lit_near 4503599588786581 52 (cos w48)) as (C1 & C2); [reflexivity|lia|change (2 ^ 52)%Z with 4503599627370496%Z; apply Rabs_le; lra|].
  destruct (lit_near 3184044936550940 52 0.707) as (D1 & D2); [reflexivity|lia|change (2 ^ 52)%Z with 4503599627370496%Z; apply Rabs_le; lra|].
  exists (mk64 150917071006134 (- 60)), (mk64 4503599588786581 (- 52)), (mk64 3184044936550940 (- 52)). auto 7.
Qed.
