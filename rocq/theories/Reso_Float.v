(** The resonant filter in binary32: bounded, and close to the exact filter. *)
From Coq Require Import Reals Lra Lia.
From Flocq Require Import Core.Core IEEE754.BinarySingleNaN.
From Verif Require Import Common Float FloatFacts FloatRel FloatLerp Bq_Model Bq_Spec Bq_Lin Bq_Proof Bq_Float Reso_Model Reso_Proof.
Local Open Scope R_scope.
Local Notation fin x := (is_finite x = true).
Local Notation v x := (B2R x).
Local Notation rn := (rnd 24 128).
Local Notation u := (/ 16777216).
Local Notation h := (bpow radix2 (-150)).

Lemma h_pos : 0 < h. Proof. apply bpow_gt_0. Qed.
Lemma big_K K : 0 <= K <= bpow radix2 90 -> K * 1024 <= bpow radix2 101.
Proof. intros H. assert (E : bpow radix2 101 = 2048 * bpow radix2 90) by (change 101%Z with (11 + 90)%Z; rewrite bpow_plus; reflexivity). lra. Qed.
Lemma big_h : h <= 1. Proof. change 1 with (bpow radix2 0). apply bpow_le. lia. Qed.
Lemma abs_via a b e m : Rabs (a - b) <= e -> Rabs b <= m -> Rabs a <= m + e.
Proof. intros H1 H2. replace a with (b + (a - b)) by ring. eapply Rle_trans; [apply Rabs_triang|]. lra. Qed.
Lemma abs_chain a b c e1 e2 : Rabs (a - b) <= e1 -> Rabs (b - c) <= e2 -> Rabs (a - c) <= e1 + e2.
Proof. intros H1 H2. replace (a - c) with ((a - b) + (b - c)) by ring. eapply Rle_trans; [apply Rabs_triang|]. lra. Qed.
Lemma abs_add2 a b A B : Rabs a <= A -> Rabs b <= B -> Rabs (a + b) <= A + B.
Proof. intros. eapply Rle_trans; [apply Rabs_triang|]. lra. Qed.
Lemma abs_sub2 a b A B : Rabs a <= A -> Rabs b <= B -> Rabs (a - b) <= A + B.
Proof. intros. unfold Rminus. eapply Rle_trans; [apply Rabs_triang|]. rewrite Rabs_Ropp. lra. Qed.
Lemma scale_err a b x e : 0 <= a -> Rabs (x - b) <= e -> Rabs (a * x - a * b) <= a * e.
Proof. intros Ha H. replace (a * x - a * b) with (a * (x - b)) by ring. rewrite Rabs_mult, (Rabs_pos_eq a) by exact Ha. apply Rmult_le_compat_l; assumption. Qed.
Lemma scale_abs a x A : 0 <= a -> Rabs x <= A -> Rabs (a * x) <= a * A.
Proof. intros Ha H. rewrite Rabs_mult, (Rabs_pos_eq a) by exact Ha. apply Rmult_le_compat_l; assumption. Qed.

Lemma add' (x y : f32) A : Rabs (v x + v y) <= A -> fin x -> fin y -> A <= bpow radix2 101 -> fin (fadd x y) /\ Rabs (v (fadd x y) - (v x + v y)) <= u * A + h.
Proof. intros H Fx Fy L. apply op_add; try assumption. split; [eapply Rle_trans; [apply Rabs_pos|exact H]|exact L]. Qed.
Lemma mul' (x y : f32) A : Rabs (v x * v y) <= A -> fin x -> fin y -> A <= bpow radix2 101 -> fin (fmul x y) /\ Rabs (v (fmul x y) - v x * v y) <= u * A + h.
Proof. intros H Fx Fy L. apply op_mul; try assumption. split; [eapply Rle_trans; [apply Rabs_pos|exact H]|exact L]. Qed.

Section Step.
Variables (f fb : f32).
Hypothesis (Ff : fin f) (Fb : fin fb).
Local Notation F := (v f).
Local Notation H := (v fb).
Hypothesis (HF : 0 < F <= 3 / 4) (HH : 0 <= H <= 5.001).

(** the first stage: 4.1 u F S + u M0 away, S the size of what is added up *)
Lemma step0 (s y0 y1 : f32) (B M0 M1 K : R) : fin s -> fin y0 -> fin y1 ->
  0 <= B <= K -> 0 <= M0 <= K -> 0 <= M1 <= K -> 1 <= K <= bpow radix2 90 ->
  Rabs (v s) <= B -> Rabs (v y0) <= M0 -> Rabs (v y1) <= M1 ->
  let y := fadd y0 (fmul f (fadd (fsub s y0) (fmul fb (fsub y0 y1)))) in let S := B + M0 + H * (M0 + M1) in
  fin y /\ Rabs (v y - (v y0 + F * (v s - v y0 + H * (v y0 - v y1)))) <= u * (5.1 * (F * S) + M0) + 16 * h.
Proof.
  intros Fs F0 F1 KB K0 K1 HK Hs H0 H1. cbn zeta. pose proof h_pos as hp. pose proof big_h as hb. pose proof (big_K K ltac:(lra)) as BK.
  set (P := H * (M0 + M1)). assert (P0 : 0 <= P) by (apply Rmult_le_pos; lra).
  assert (PK : P <= 10.01 * K). { unfold P. apply Rle_trans with (5.001 * (2 * K)); [apply Rmult_le_compat; lra|lra]. }
  destruct (op_sub s y0 (B + M0) Fs F0 ltac:(lra) (abs_sub2 _ _ _ _ Hs H0)) as (Fa & Ea). set (a := fsub s y0) in *.
  destruct (op_sub y0 y1 (M0 + M1) F0 F1 ltac:(lra) (abs_sub2 _ _ _ _ H0 H1)) as (Fb' & Eb). set (b := fsub y0 y1) in *.
  pose proof (scale_err H _ _ _ (proj1 HH) Eb) as EHb. replace (H * (u * (M0 + M1) + h)) with (u * P + H * h) in EHb by (unfold P; ring).
  assert (Hh : H * h <= 5.001 * h) by (apply Rmult_le_compat_r; lra). assert (Hh0 : 0 <= H * h) by (apply Rmult_le_pos; lra).
  pose proof (scale_abs H (v y0 - v y1) _ (proj1 HH) (abs_sub2 _ _ _ _ H0 H1)) as AHb. fold P in AHb.
  pose proof (abs_via _ _ _ _ EHb AHb) as BHb.
  destruct (op_mul fb b (P + (u * P + H * h)) Fb Fb' ltac:(lra) BHb) as (Fc & Ec). set (c := fmul fb b) in *.
  pose proof (abs_chain _ _ _ _ _ Ec EHb) as Ec'. pose proof (abs_via _ _ _ _ Ec' AHb) as Bc.
  pose proof (abs_via _ _ _ _ Ea (abs_sub2 _ _ _ _ Hs H0)) as Ba.
  set (Sx := B + M0 + P). assert (S0 : 0 <= Sx) by (unfold Sx; lra).
  assert (Eac : Rabs (v a + v c - (v s - v y0 + H * (v y0 - v y1))) <= u * (2.01 * Sx) + 7.1 * h).
  { replace (v a + v c - (v s - v y0 + H * (v y0 - v y1))) with ((v a - (v s - v y0)) + (v c - H * (v y0 - v y1))) by ring.
    eapply Rle_trans; [apply Rabs_triang|]. unfold Sx. lra. }
  assert (Aac : Rabs (v s - v y0 + H * (v y0 - v y1)) <= Sx). { unfold Sx. apply abs_add2; [apply abs_sub2; assumption|exact AHb]. }
  pose proof (abs_via _ _ _ _ Eac Aac) as Bac.
  destruct (add' a c _ Bac Fa Fc ltac:(unfold Sx; lra)) as (Fd & Ed). set (d := fadd a c) in *.
  pose proof (abs_chain _ _ _ _ _ Ed Eac) as Ed'. set (X := v s - v y0 + H * (v y0 - v y1)) in *.
  assert (Ed2 : Rabs (v d - X) <= u * (3.02 * Sx) + 8.2 * h) by lra. clear Ed Ed'.
  pose proof (scale_err F _ _ _ ltac:(lra) Ed2) as EFd. pose proof (scale_abs F X _ ltac:(lra) Aac) as AFX.
  set (Q := F * Sx) in *. assert (Q0 : 0 <= Q) by (apply Rmult_le_pos; lra).
  assert (QK : Q <= 13 * K). { unfold Q. apply Rle_trans with (1 * (13 * K)); [apply Rmult_le_compat; unfold Sx; lra|lra]. }
  replace (F * (u * (3.02 * Sx) + 8.2 * h)) with (u * (3.02 * Q) + 8.2 * (F * h)) in EFd by (unfold Q; ring).
  assert (Fh : F * h <= 0.75 * h) by (apply Rmult_le_compat_r; lra). assert (Fh0 : 0 < F * h) by (apply Rmult_lt_0_compat; lra).
  pose proof (abs_via _ _ _ _ EFd AFX) as BFd.
  destruct (mul' f d _ BFd Ff Fd ltac:(lra)) as (Fe & Ee). set (e := fmul f d) in *.
  pose proof (abs_chain _ _ _ _ _ Ee EFd) as Ee'.
  assert (Ee2 : Rabs (v e - F * X) <= u * (4.03 * Q) + 7.4 * h) by lra. clear Ee Ee'.
  pose proof (abs_via _ _ _ _ Ee2 AFX) as Be. pose proof (abs_add2 _ _ _ _ H0 Be) as Bs.
  destruct (add' y0 e _ Bs F0 Fe ltac:(lra)) as (Fy & Ey). split; [exact Fy|].
  replace (v (fadd y0 e) - (v y0 + F * X)) with ((v (fadd y0 e) - (v y0 + v e)) + (v e - F * X)) by ring. eapply Rle_trans; [apply Rabs_triang|]. lra.
Qed.

(** the second stage *)
Lemma step1 (y0 y1 : f32) (M0 M1 K : R) : fin y0 -> fin y1 ->
  0 <= M0 <= K -> 0 <= M1 <= K -> 1 <= K <= bpow radix2 90 -> Rabs (v y0) <= M0 -> Rabs (v y1) <= M1 ->
  let y := fadd y1 (fmul f (fsub y0 y1)) in
  fin y /\ Rabs (v y - (v y1 + F * (v y0 - v y1))) <= u * (3.1 * (F * (M0 + M1)) + M1) + 4 * h.
Proof.
  intros F0 F1 K0 K1 HK H0 H1. cbn zeta. pose proof h_pos as hp. pose proof big_h as hb. pose proof (big_K K ltac:(lra)) as BK.
  destruct (op_sub y0 y1 (M0 + M1) F0 F1 ltac:(lra) (abs_sub2 _ _ _ _ H0 H1)) as (Fb' & Eb). set (b := fsub y0 y1) in *.
  pose proof (scale_err F _ _ _ ltac:(lra) Eb) as EFb. pose proof (scale_abs F (v y0 - v y1) _ ltac:(lra) (abs_sub2 _ _ _ _ H0 H1)) as AFb.
  set (Q := F * (M0 + M1)) in *. assert (Q0 : 0 <= Q) by (apply Rmult_le_pos; lra).
  assert (QK : Q <= 2 * K). { unfold Q. apply Rle_trans with (1 * (2 * K)); [apply Rmult_le_compat; lra|lra]. }
  replace (F * (u * (M0 + M1) + h)) with (u * Q + F * h) in EFb by (unfold Q; ring).
  assert (Fh : F * h <= 0.75 * h) by (apply Rmult_le_compat_r; lra). assert (Fh0 : 0 < F * h) by (apply Rmult_lt_0_compat; lra).
  pose proof (abs_via _ _ _ _ EFb AFb) as BFb.
  destruct (mul' f b _ BFb Ff Fb' ltac:(lra)) as (Fe & Ee). set (e := fmul f b) in *.
  pose proof (abs_chain _ _ _ _ _ Ee EFb) as Ee'.
  assert (Ee2 : Rabs (v e - F * (v y0 - v y1)) <= u * (2.01 * Q) + 1.9 * h) by lra. clear Ee Ee'.
  pose proof (abs_via _ _ _ _ Ee2 AFb) as Be. pose proof (abs_add2 _ _ _ _ H1 Be) as Bs.
  destruct (add' y1 e _ Bs F1 Fe ltac:(lra)) as (Fy & Ey). split; [exact Fy|].
  replace (v (fadd y1 e) - (v y1 + F * (v y0 - v y1))) with ((v (fadd y1 e) - (v y1 + v e)) + (v e - F * (v y0 - v y1))) by ring.
  eapply Rle_trans; [apply Rabs_triang|]. lra.
Qed.
End Step.

(** a signal preceded by two zeros, with the entry at n + 2 replaced *)
Definition patch (Zy : nat -> R) (n : nat) (y : R) (k : nat) : R := if Nat.eqb k (S (S n)) then y else Zy k.

Section Run.
Variables (f fb rr : f32) (x : nat -> f32) (B r : R).
Hypothesis (Ff : fin f) (Fb : fin fb).
Local Notation F := (v f).
Local Notation H := (v fb).
Hypothesis (HF : 0 < F <= 3 / 4) (HH : 0 <= H <= 5.001) (Hr : 0 <= r < 1) (Efb : H = rs_feedback opsR F r).
Hypothesis (Hd : / 129 <= F * (1 - r)).
Hypothesis (Hx : forall t, fin (x t) /\ Rabs (v (x t)) <= B) (HB : B <= bpow radix2 60).
Definition rG := 4 / (F * (1 - r) * (F * (1 - r))).
Definition rDd := F * F * B + bpow radix2 (-120).
Definition rM := 4 * rG * rDd.
Definition rE0 := u * (5.1 * rDd + 62.5 * rM) + 12 * h.
Definition rE1 := u * (9.6 * rM) + 4 * h.
Definition rW := rE0 + 5.01 * rE1.
Definition rA := 1 - F + F * H.
Local Notation st n := (rs_feed ops32 (mkReso f fb rr fzero fzero) x n).
Local Notation y0 n := (rs_y0 (st n)).
Local Notation y1 n := (rs_y1 (st n)).
Local Notation T := (rT F r).
Local Notation D := (rD F r).

Lemma rB0 : 0 <= B. Proof. destruct (Hx 0) as [_ X]. pose proof (Rabs_pos (v (x 0%nat))). lra. Qed.
Lemma rG_range : 4 <= rG <= 66564.
Proof.
  unfold rG. set (d := F * (1 - r)) in *. assert (D1 : d <= 1). { unfold d. apply Rle_trans with (1 * 1); [apply Rmult_le_compat; lra|lra]. }
  assert (DD : / 16641 <= d * d). { replace (/ 16641) with (/ 129 * / 129) by lra. apply Rmult_le_compat; lra. }
  assert (DD1 : d * d <= 1). { apply Rle_trans with (1 * 1); [apply Rmult_le_compat; lra|lra]. }
  split; apply (Rmult_le_reg_r (d * d)); try lra; unfold Rdiv; rewrite (Rmult_assoc 4), Rinv_l by lra; lra.
Qed.
Lemma rG_eq w : w * rG = w / (1 - (1 - F * (1 - r) / 2)) / (1 - (1 - F * (1 - r) / 2)).
Proof. unfold rG. field. split; [|split]; lra. Qed.
Lemma rDd_pos : bpow radix2 (-120) <= rDd.
Proof. unfold rDd. pose proof rB0. assert (0 <= F * F * B) by (apply Rmult_le_pos; [apply Rmult_le_pos; lra|lra]). lra. Qed.
Lemma rM_facts : 0 < rM /\ B <= rM /\ rM <= bpow radix2 82 /\ h <= / 1000000000 * rM /\ rDd <= / 16 * rM /\ F * F * B <= rDd /\ rDd * rG = / 4 * rM.
Proof.
  pose proof rB0 as B0. pose proof rG_range as HG. pose proof rDd_pos as HD. pose proof (bpow_gt_0 radix2 (-120)) as T0.
  assert (GD : 0 < rG * rDd) by (apply Rmult_lt_0_compat; lra). assert (M0 : 0 < rM) by (unfold rM; lra). split; [exact M0|].
  assert (Q : 16 * rDd <= rM). { unfold rM. pose proof (Rmult_le_compat_r rDd 4 rG ltac:(lra) (proj1 HG)). lra. }
  split. { unfold rM, rG, rDd. set (q := 1 - r) in *. assert (Q1 : 0 < q <= 1) by (unfold q; lra). assert (QQ : 0 < q * q <= 1). { split; [apply Rmult_lt_0_compat; lra|]. apply Rle_trans with (1 * 1); [apply Rmult_le_compat; lra|lra]. }
    replace (4 * (4 / (F * q * (F * q))) * (F * F * B + bpow radix2 (-120))) with (16 * (B / (q * q)) + 16 * bpow radix2 (-120) / (F * q * (F * q))) by (field; lra).
    assert (0 <= 16 * bpow radix2 (-120) / (F * q * (F * q))). { apply Rmult_le_pos; [lra|]. apply Rlt_le, Rinv_0_lt_compat. assert (0 < F * q) by (apply Rmult_lt_0_compat; lra). apply Rmult_lt_0_compat; assumption. }
    assert (B <= B / (q * q)). { apply (Rmult_le_reg_r (q * q)); [lra|]. unfold Rdiv. rewrite Rmult_assoc, Rinv_l by lra. apply Rmult_le_compat_l; lra. }
    lra. }
  split. { assert (DB : rDd <= 2 * bpow radix2 60). { unfold rDd. assert (bpow radix2 (-120) <= bpow radix2 60) by (apply bpow_le; lia). assert (F * F * B <= 1 * B); [|lra]. apply Rmult_le_compat_r; [lra|]. apply Rle_trans with (1 * 1); [apply Rmult_le_compat; lra|lra]. }
    unfold rM. assert (4 * rG * rDd <= 4 * 66564 * (2 * bpow radix2 60)) by (apply Rmult_le_compat; lra).
    assert (bpow radix2 82 = 4194304 * bpow radix2 60) by (change 82%Z with (22 + 60)%Z; rewrite bpow_plus; reflexivity). pose proof (bpow_gt_0 radix2 60). lra. }
  split. { assert (h = bpow radix2 (-120) * / 1073741824) by (change (-150)%Z with (-120 + -30)%Z; rewrite bpow_plus; reflexivity). lra. }
  split; [lra|]. split; [unfold rDd; lra|]. unfold rM. field.
Qed.
Lemma rW_facts : 0 <= rE0 /\ 0 <= rE1 /\ rE1 <= / 100 * rM /\ (rDd + rW) * rG <= 0.75 * rM.
Proof.
  destruct rM_facts as (M0 & _ & _ & Hh & HD & _ & DG). pose proof h_pos. pose proof rG_range as HG. pose proof rDd_pos. pose proof (bpow_gt_0 radix2 (-120)).
  assert (E0 : 0 <= rE0) by (unfold rE0; lra). assert (E1 : 0 <= rE1) by (unfold rE1; lra). split; [exact E0|]. split; [exact E1|]. split; [unfold rE1; lra|].
  assert (W : rW <= u * (112 * rM)) by (unfold rW, rE0, rE1; lra). assert (W0 : 0 <= rW) by (unfold rW; lra).
  assert (WG : rW * rG <= u * (112 * rM) * 66564) by (apply Rmult_le_compat; lra). rewrite Rmult_plus_distr_r, DG. lra.
Qed.
Lemma rA_range : 0 <= rA <= 4.01.
Proof. unfold rA. assert (X0 : 0 <= F * H) by (apply Rmult_le_pos; lra). assert (X1 : F * (H - 1) <= 3 / 4 * 4.001). { destruct (Rle_lt_dec H 1). - assert (X2 : 0 <= F * (1 - H)) by (apply Rmult_le_pos; lra). lra. - apply Rmult_le_compat; lra. } split; lra. Qed.
Lemma T_eq : T = (1 - F) + rA - F * F * H. Proof. destruct (fb_eq F r ltac:(lra)) as [A _]. rewrite <- Efb in A. rewrite <- A. unfold rA. ring. Qed.
Lemma D_eq : D = rA * (1 - F). Proof. destruct (fb_eq F r ltac:(lra)) as [_ A]. rewrite <- Efb in A. rewrite <- A. unfold rA. ring. Qed.

Lemma par n : rs_f (st n) = f /\ rs_fb (st n) = fb.
Proof. destruct (feed_par ops32 (mkReso f fb rr fzero fzero) x n) as (A & C & _). exact (conj A C). Qed.
Lemma y0_S n : y0 (S n) = fadd (y0 n) (fmul f (fadd (fsub (x n) (y0 n)) (fmul fb (fsub (y0 n) (y1 n))))).
Proof. cbn [rs_feed rs_step rs_y0 add sub mul ops32]. destruct (par n) as [-> ->]. reflexivity. Qed.
Lemma y1_S n : y1 (S n) = fadd (y1 n) (fmul f (fsub (y0 (S n)) (y1 n))).
Proof. rewrite y0_S. cbn [rs_feed rs_step rs_y1 add sub mul ops32]. destruct (par n) as [-> ->]. reflexivity. Qed.

Definition e0 n := v (y0 (S n)) - (v (y0 n) + F * (v (x n) - v (y0 n) + H * (v (y0 n) - v (y1 n)))).
Definition e1 n := v (y1 (S n)) - (v (y1 n) + F * (v (y0 (S n)) - v (y1 n))).
Definition e1p n := match n with O => 0 | S m => e1 m end.
Definition Zy k := match k with O => 0 | S m => v (y1 m) end.
Definition ok n := fin (y0 n) /\ fin (y1 n) /\ Rabs (v (y1 n)) <= rM /\ F * Rabs (v (y0 n)) <= 2 * rM.
Definition small n := Rabs (F * e0 n) <= rE0 /\ Rabs (e1 n) <= rE1.

Lemma y0_val n : F * v (y0 n) = v (y1 n) - (1 - F) * Zy n - e1p n.
Proof. destruct n as [|n]; [cbn [rs_feed rs_y0 rs_y1 Zy e1p]; change (v (fzero : f32)) with 0; ring|]. cbn [Zy e1p]. unfold e1. ring. Qed.
Lemma star n : v (y1 n) + F * (v (y0 (S n)) - v (y1 n)) = (F * F * v (x n) + F * e0 n - rA * e1p n) - - T * Zy (S n) - D * Zy n.
Proof.
  rewrite T_eq, D_eq. change (Zy (S n)) with (v (y1 n)). pose proof (y0_val n) as E. unfold e0.
  transitivity ((1 - F) * v (y1 n) + rA * (F * v (y0 n)) - F * F * H * v (y1 n) + F * F * v (x n) + F * (v (y0 (S n)) - (v (y0 n) + F * (v (x n) - v (y0 n) + H * (v (y0 n) - v (y1 n)))))).
  - unfold rA. ring.
  - rewrite E. ring.
Qed.
Lemma rec n : Zy (S (S n)) = (F * F * v (x n) + F * e0 n + e1 n - rA * e1p n) - - T * Zy (S n) - D * Zy n.
Proof. pose proof (star n) as E. change (Zy (S (S n))) with (v (y1 (S n))). unfold e1 at 1. rewrite E. ring. Qed.
Lemma xt n : Rabs (F * F * v (x n)) <= F * F * B.
Proof. apply scale_abs; [apply Rmult_le_pos; lra|apply Hx]. Qed.
Lemma e1p_small n : (forall t, (t < n)%nat -> small t) -> Rabs (e1p n) <= rE1.
Proof. intros S. destruct rW_facts as (_ & E1 & _). destruct n as [|n]; [cbn [e1p]; rewrite Rabs_R0; exact E1|]. apply S. lia. Qed.
Lemma A_small n : (forall t, (t < n)%nat -> small t) -> Rabs (rA * e1p n) <= 4.01 * rE1.
Proof. intros S. pose proof rA_range. eapply Rle_trans; [apply scale_abs; [lra|apply e1p_small, S]|]. destruct rW_facts as (_ & E1 & _). apply Rmult_le_compat_r; lra. Qed.

Lemma step_ok n : ok n -> (forall t, (t < n)%nat -> small t) -> small n /\ ok (S n).
Proof.
  intros (Fy0 & Fy1 & M1 & M0) S. destruct rM_facts as (MP & BM & M82 & Hh & HD & FB & DG). destruct rW_facts as (E0 & E1 & E1s & WG). pose proof rB0 as B0. pose proof rG_range as HG.
  pose proof h_pos as hp. destruct (Hx n) as [Fx Bx].
  (* sizes *)
  assert (F129 : / 129 <= F). { apply Rle_trans with (F * (1 - r)); [exact Hd|]. rewrite <- (Rmult_1_r F) at 2. apply Rmult_le_compat_l; lra. }
  set (N := 2 * rM / F). assert (FN : F * N = 2 * rM) by (unfold N; field; lra).
  assert (N0 : 0 <= N). { apply (Rmult_le_reg_l F); [lra|]. rewrite Rmult_0_r, FN. lra. }
  assert (N1 : N <= 258 * rM). { apply (Rmult_le_reg_l F); [lra|]. rewrite FN. apply Rle_trans with (/ 129 * (258 * rM)); [lra|]. apply Rmult_le_compat_r; lra. }
  set (K := 258 * rM + 1). assert (K90 : 1 <= K <= bpow radix2 90).
  { split; [unfold K; lra|]. assert (bpow radix2 90 = 256 * bpow radix2 82) by (change 90%Z with (8 + 82)%Z; rewrite bpow_plus; reflexivity).
    assert (1 <= bpow radix2 80) by (change 1 with (bpow radix2 0); apply bpow_le; lia). assert (bpow radix2 82 = 4 * bpow radix2 80) by (change 82%Z with (2 + 80)%Z; rewrite bpow_plus; reflexivity).
    assert (rM <= bpow radix2 80).
    { unfold rM. assert (DB : rDd <= 1.001 * bpow radix2 60). { unfold rDd. assert (bpow radix2 (-120) <= / 1024 * bpow radix2 60) by (apply Rle_trans with (bpow radix2 50); [apply bpow_le; lia|right; change 60%Z with (10 + 50)%Z; rewrite bpow_plus; change (bpow radix2 10) with 1024; field]). assert (F * F * B <= 1 * B); [|lra]. apply Rmult_le_compat_r; [lra|]. apply Rle_trans with (1 * 1); [apply Rmult_le_compat; lra|lra]. }
      assert (4 * rG * rDd <= 4 * 66564 * (1.001 * bpow radix2 60)) by (apply Rmult_le_compat; pose proof rDd_pos; pose proof (bpow_gt_0 radix2 (-120)); lra).
      assert (bpow radix2 80 = 1048576 * bpow radix2 60) by (change 80%Z with (20 + 60)%Z; rewrite bpow_plus; reflexivity). pose proof (bpow_gt_0 radix2 60). lra. }
    unfold K. lra. }
  assert (Y0 : Rabs (v (y0 n)) <= N) by (apply (Rmult_le_reg_l F); [lra|]; rewrite FN; exact M0).
  destruct (step0 f fb Ff Fb HF HH (x n) (y0 n) (y1 n) B N rM K Fx Fy0 Fy1 ltac:(unfold K; lra) ltac:(unfold K; lra) ltac:(unfold K; lra) K90 Bx Y0 M1) as (Fy0' & Ey0).
  rewrite <- y0_S in Fy0', Ey0. fold (e0 n) in Ey0.
  assert (SE0 : Rabs (F * e0 n) <= rE0).
  { pose proof (scale_abs F _ _ ltac:(lra) Ey0) as X. eapply Rle_trans; [exact X|]. clear X.
    replace (F * (u * (5.1 * (F * (B + N + H * (N + rM))) + N) + 16 * h)) with (u * (5.1 * (F * F * B + F * (F * N) + F * H * (F * N) + F * (F * H) * rM) + F * N) + 16 * (F * h)) by ring. rewrite FN.
    assert (X1 : F * (2 * rM) <= 3 / 4 * (2 * rM)) by (apply Rmult_le_compat_r; lra). assert (FH : 0 <= F * H <= 3.751) by (split; [apply Rmult_le_pos; lra|apply Rle_trans with (3 / 4 * 5.001); [apply Rmult_le_compat; lra|lra]]).
    assert (X2 : F * H * (2 * rM) <= 3.751 * (2 * rM)) by (apply Rmult_le_compat_r; lra).
    assert (X3 : F * (F * H) * rM <= 2.814 * rM) by (apply Rmult_le_compat_r; [lra|]; apply Rle_trans with (3 / 4 * 3.751); [apply Rmult_le_compat; lra|lra]).
    assert (X4 : F * h <= 3 / 4 * h) by (apply Rmult_le_compat_r; lra). unfold rE0. lra. }
  (* the exact second stage *)
  set (ys := v (y1 n) + F * (v (y0 (Datatypes.S n)) - v (y1 n))).
  pose proof (A_small n S) as AS. pose proof (reso_radius F r ltac:(lra) Hr) as RR.
  assert (YS : Rabs ys <= 0.75 * rM).
  { assert (SB := second_bound (1 - F * (1 - r) / 2) (- T) D (patch Zy n ys) RR ltac:(lra) (rDd + rW) (Datatypes.S n)).
    assert (P0 : patch Zy n ys 0 = 0) by reflexivity. assert (P1 : patch Zy n ys 1 = 0) by reflexivity. rewrite P0, P1, Rabs_R0, Rmult_0_r, !Rplus_0_l, <- rG_eq in SB.
    assert (PN : patch Zy n ys (Datatypes.S (Datatypes.S n)) = ys) by (unfold patch; rewrite Nat.eqb_refl; reflexivity).
    rewrite <- PN. eapply Rle_trans; [|exact WG]. apply SB with (t := Datatypes.S (Datatypes.S n)); [pose proof rDd_pos; pose proof (bpow_gt_0 radix2 (-120)); unfold rW; lra| |lia].
    assert (PZ : forall k, (k <= Datatypes.S n)%nat -> patch Zy n ys k = Zy k). { intros k Hk. unfold patch. assert (E : Nat.eqb k (Datatypes.S (Datatypes.S n)) = false) by (apply Nat.eqb_neq; lia). rewrite E. reflexivity. }
    intros t Ht. rewrite (PZ (Datatypes.S t)), (PZ t) by lia. destruct (Nat.eq_dec t n) as [->|Nt].
    - rewrite PN. exists (F * F * v (x n) + F * e0 n - rA * e1p n). split; [exact (star n)|].
      unfold Rminus. eapply Rle_trans; [apply Rabs_triang|]. rewrite Rabs_Ropp. pose proof (abs_add2 _ _ _ _ (xt n) SE0). unfold rW. lra.
    - rewrite PZ by lia. exists (F * F * v (x t) + F * e0 t + e1 t - rA * e1p t). split; [exact (rec t)|].
      destruct (S t ltac:(lia)) as [s0 s1]. pose proof (A_small t ltac:(intros t' Ht'; apply S; lia)) as At.
      unfold Rminus. eapply Rle_trans; [apply Rabs_triang|]. rewrite Rabs_Ropp. pose proof (abs_add2 _ _ _ _ (abs_add2 _ _ _ _ (xt t) s0) s1). unfold rW. lra. }
  assert (FY0 : F * Rabs (v (y0 (Datatypes.S n))) <= 2 * rM).
  { rewrite <- (Rabs_pos_eq F) at 1 by lra. rewrite <- Rabs_mult. replace (F * v (y0 (Datatypes.S n))) with (ys + - ((1 - F) * v (y1 n))) by (unfold ys; ring).
    eapply Rle_trans; [apply Rabs_triang|]. rewrite Rabs_Ropp. pose proof (scale_abs (1 - F) _ _ ltac:(lra) M1) as X. assert ((1 - F) * rM <= 1 * rM) by (apply Rmult_le_compat_r; lra). lra. }
  assert (Y0' : Rabs (v (y0 (Datatypes.S n))) <= N) by (apply (Rmult_le_reg_l F); [lra|]; rewrite FN; exact FY0).
  destruct (step1 f Ff HF (y0 (Datatypes.S n)) (y1 n) N rM K Fy0' Fy1 ltac:(unfold K; lra) ltac:(unfold K; lra) K90 Y0' M1) as (Fy1' & Ey1).
  rewrite <- y1_S in Fy1', Ey1. fold (e1 n) in Ey1.
  assert (SE1 : Rabs (e1 n) <= rE1).
  { eapply Rle_trans; [exact Ey1|]. replace (F * (N + rM)) with (F * N + F * rM) by ring. rewrite FN. assert (XM : F * rM <= 3 / 4 * rM) by (apply Rmult_le_compat_r; lra). unfold rE1. lra. }
  split; [split; assumption|]. split; [exact Fy0'|]. split; [exact Fy1'|]. split; [|exact FY0].
  replace (v (y1 (Datatypes.S n))) with (ys + e1 n) by (unfold e1, ys; ring). eapply Rle_trans; [apply Rabs_triang|]. lra.
Qed.
Lemma run_ok : forall n, ok n /\ (forall t, (t < n)%nat -> small t).
Proof.
  destruct rM_facts as (MP & _). induction n as [|n [I J]].
  - split; [|intros; lia]. unfold ok. cbn [rs_feed rs_y0 rs_y1]. change (v (fzero : f32)) with 0. rewrite Rabs_R0, Rmult_0_r. repeat split; lra.
  - destruct (step_ok n I J) as [S O]. split; [exact O|]. intros t Ht. destruct (Nat.eq_dec t n) as [->|]; [exact S|apply J; lia].
Qed.

Local Notation yr := (rs_out opsR (mkReso F H (v rr) 0 0) (fun t => v (x t))).
Lemma track n : Rabs (v (rs_out ops32 (mkReso f fb rr fzero fzero) x n) - yr n) <= rW * rG.
Proof.
  set (Zr := pad yr). pose proof (reso_radius F r ltac:(lra) Hr) as RR. destruct rW_facts as (E0 & E1 & _).
  assert (SB := second_bound (1 - F * (1 - r) / 2) (- T) D (fun k => Zy k - Zr k) RR ltac:(lra) rW (S n)).
  cbv beta in SB.
  assert (P0 : Zy 0 - Zr 0%nat = 0) by (unfold Zr; cbn [Zy pad]; ring). assert (P1 : Zy 1 - Zr 1%nat = 0) by (unfold Zr; cbn [Zy pad rs_feed rs_y1]; change (v (fzero : f32)) with 0; ring).
  rewrite P0, P1, Rabs_R0, Rmult_0_r, !Rplus_0_l, <- rG_eq in SB.
  apply SB with (t := S (S n)); [unfold rW; lra| |lia]. intros t Ht. exists (F * e0 t + e1 t - rA * e1p t). split.
  - rewrite (rec t). assert (R : Zr (S (S t)) = F * F * v (x t) - - T * Zr (S t) - D * Zr t).
    { unfold Zr. change (pad yr (S (S t))) with (yr t). pose proof (two_stage F H (mkReso F H (v rr) 0 0) (fun t => v (x t)) t eq_refl eq_refl eq_refl eq_refl) as E. cbn zeta in E.
      destruct (fb_eq F r ltac:(lra)) as [TT DD]. rewrite <- Efb in TT, DD. rewrite TT, DD in E. rewrite E at 1.
      assert (A1 : ago yr t 1 = pad yr (S t)) by (unfold ago, pad; destruct t as [|[|t]]; cbn [Nat.leb Nat.sub]; rewrite ?Nat.sub_0_r; reflexivity).
      assert (A2 : ago yr t 2 = pad yr t) by (unfold ago, pad; destruct t as [|[|t]]; cbn [Nat.leb Nat.sub]; rewrite ?Nat.sub_0_r; reflexivity).
      rewrite A1, A2. ring. }
    rewrite R. ring.
  - destruct (run_ok (S t)) as [_ S]. destruct (S t ltac:(lia)) as [s0 s1]. pose proof (A_small t ltac:(intros t' Ht'; apply S; lia)) as At.
    unfold Rminus. eapply Rle_trans; [apply Rabs_triang|]. rewrite Rabs_Ropp. pose proof (abs_add2 _ _ _ _ s0 s1). unfold rW. lra.
Qed.
End Run.
