(** Certified fixed-point logarithms of the integers 1 .. 1024, by the area-tangent series, used to
    check the decibel tables of Db_Table. *)
From Coq Require Import Reals Lra Lia ZArith List Bool.
From Verif Require Import Common Expo.
Import ListNotations.
Local Open Scope R_scope.

(** partial sums of ln ((1+z)/(1-z)) = 2 (z + z^3/3 + z^5/5 + ...), from the n-th term *)
Fixpoint psum (J n : nat) (z : R) : R :=
  match J with O => 0 | S J => 2 / INR (2 * n + 1) * z ^ (2 * n + 1) + psum J (S n) z end.
Fixpoint dsum (J n : nat) (z : R) : R :=
  match J with O => 0 | S J => 2 * z ^ (2 * n) + dsum J (S n) z end.
Lemma d_psum J : forall n z, derivable_pt_lim (psum J n) z (dsum J n z).
Proof.
  induction J as [|J IH]; intros n z; [exact (d_const 0 z)|]. cbn [psum dsum].
  apply (d_plus (fun z => 2 / INR (2 * n + 1) * z ^ (2 * n + 1)) (psum J (S n))); [|apply IH].
  eapply d_eq; [apply d_scal; rewrite Nat.add_1_r; apply d_pow|]. assert (N : INR (S (2 * n)) <> 0) by (apply not_0_INR; lia). replace (INR (2 * n + 1)) with (INR (S (2 * n))) by (f_equal; lia). set (k := INR (S (2 * n))) in *. clearbody k. set (p := z ^ (2 * n)). clearbody p. field. exact N.
Qed.
Lemma dsum_geo J : forall n z, dsum J n z * (1 - z ^ 2) = 2 * z ^ (2 * n) - 2 * z ^ (2 * (n + J)).
Proof.
  induction J as [|J IH]; intros n z; cbn [dsum]; [rewrite Nat.add_0_r; ring|].
  rewrite Rmult_plus_distr_r, IH. replace (2 * (n + S J))%nat with (2 * (S n + J))%nat by lia.
  replace (2 * S n)%nat with (2 + 2 * n)%nat by lia. rewrite pow_add. ring.
Qed.
Lemma psum_0 J : forall n, psum J n 0 = 0.
Proof. induction J as [|J IH]; intros n; cbn [psum]; [reflexivity|]. rewrite IH, pow_i by lia. ring. Qed.
Lemma d_ln1p z : -1 < z -> derivable_pt_lim (fun z => ln (1 + z)) z (/ (1 + z)).
Proof.
  intros H. eapply d_eq; [apply (derivable_pt_lim_comp (fun z => 1 + z) ln); [apply (d_plus (fun _ => 1) (fun z => z)); [apply d_const|apply derivable_pt_lim_id]|apply derivable_pt_lim_ln; lra]|]. ring.
Qed.
Lemma d_ln1m z : z < 1 -> derivable_pt_lim (fun z => ln (1 - z)) z (- / (1 - z)).
Proof.
  intros H. eapply d_eq; [apply (derivable_pt_lim_comp (fun z => 1 - z) ln); [apply (d_minus (fun _ => 1) (fun z => z)); [apply d_const|apply derivable_pt_lim_id]|apply derivable_pt_lim_ln; lra]|]. ring.
Qed.
Lemma atanh_bound J z : 0 <= z < 1 ->
  0 <= ln (1 + z) - ln (1 - z) - psum J 0 z <= 2 * z ^ (2 * J + 1) / (1 - z ^ 2).
Proof.
  intros H. destruct (Rle_lt_or_eq_dec 0 z (proj1 H)) as [P|<-].
  2:{ rewrite Rplus_0_r, Rminus_0_r, psum_0, ln_1, pow_i by lia. lra. }
  destruct (MVT_cor2 (fun z => ln (1 + z) - ln (1 - z) - psum J 0 z) (fun z => / (1 + z) - - / (1 - z) - dsum J 0 z) 0 z P) as (c & E & C1 & C2).
  { intros c Hc. apply d_minus; [apply d_minus; [apply d_ln1p; lra|apply d_ln1m; lra]|apply d_psum]. }
  rewrite Rplus_0_r, Rminus_0_r, psum_0, ln_1 in E. replace (0 - 0 - 0) with 0 in E by ring. rewrite !Rminus_0_r in E. rewrite E.
  pose proof (dsum_geo J 0 c) as G. cbn [Nat.add] in G. replace (2 * 0)%nat with 0%nat in G by lia. rewrite pow_O in G.
  assert (K : 0 < 1 - c ^ 2) by nra.
  assert (D : / (1 + c) - - / (1 - c) - dsum J 0 c = 2 * c ^ (2 * J) / (1 - c ^ 2)).
  { replace (dsum J 0 c) with ((2 * 1 - 2 * c ^ (2 * J)) / (1 - c ^ 2)) by (rewrite <- G; field; lra). field. repeat split; nra. }
  rewrite D. assert (K2 : 0 < 1 - z ^ 2) by nra. assert (0 <= c ^ (2 * J)) by (apply pow_le; lra).
  assert (c ^ (2 * J) <= z ^ (2 * J)) by (apply pow_incr; lra).
  split.
  - apply Rmult_le_pos; [|lra]. apply Rmult_le_pos; [lra|]. apply Rlt_le, Rinv_0_lt_compat, K.
  - rewrite pow_add, pow_1. replace (2 * (z ^ (2 * J) * z) / (1 - z ^ 2)) with (2 * z ^ (2 * J) / (1 - z ^ 2) * z) by (field; lra).
    apply Rmult_le_compat_r; [lra|]. unfold Rdiv. apply Rmult_le_compat; [lra|apply Rlt_le, Rinv_0_lt_compat, K|lra|].
    apply Rinv_le_contravar; nra.
Qed.

(** the same in integers: [atl J q w2 k] sums q/k + (q/w2)/(k+2) + ... *)
Local Open Scope Z_scope.
Fixpoint atl (J : nat) (q w2 k : Z) : Z * Z :=
  match J with O => (0, q) | S J => let '(s, qf) := atl J (q / w2) w2 (k + 2) in (q / k + s, qf) end.
Local Open Scope R_scope.
Lemma floor_div q k r : (0 < k)%Z -> IZR q <= r < IZR q + 1 -> IZR (q / k) <= r / IZR k < IZR (q / k) + 1.
Proof.
  intros K [A B]. assert (K' : 0 < IZR k) by (apply IZR_lt; lia). pose proof (Z.div_mod q k ltac:(lia)) as E. pose proof (Z.mod_pos_bound q k K) as M.
  assert (L : (k * (q / k) <= q)%Z) by lia. assert (U : (q + 1 <= k * (q / k) + k)%Z) by lia.
  apply IZR_le in L, U. rewrite mult_IZR in L. rewrite !plus_IZR, mult_IZR in U.
  assert (Hk : r / IZR k * IZR k = r) by (field; lra). split.
  - apply Rmult_le_reg_r with (IZR k); [exact K'|]. rewrite Hk. lra.
  - apply Rmult_lt_reg_r with (IZR k); [exact K'|]. rewrite Hk. lra.
Qed.
Lemma atl_ok w z (Q : R) : (0 < w)%Z -> z = / IZR w -> forall J n q,
  IZR q <= 2 * Q * z ^ (2 * n + 1) < IZR q + 1 ->
  let '(s, qf) := atl J q (w * w) (2 * Z.of_nat n + 1) in
  IZR s <= Q * psum J n z <= IZR s + INR J /\ IZR qf <= 2 * Q * z ^ (2 * (n + J) + 1) < IZR qf + 1.
Proof.
  intros W Ez. assert (W' : 0 < IZR w) by (apply IZR_lt; lia). assert (W0 : IZR w <> 0) by lra.
  induction J as [|J IH]; intros n q H; cbn [atl psum].
  - rewrite Nat.add_0_r. cbn [INR]. lra.
  - specialize (IH (S n) (q / (w * w))%Z). replace (2 * Z.of_nat (S n) + 1)%Z with (2 * Z.of_nat n + 1 + 2)%Z in IH by lia.
    destruct (atl J (q / (w * w)) (w * w) (2 * Z.of_nat n + 1 + 2)) as [s qf].
    assert (H2 : IZR (q / (w * w)) <= 2 * Q * z ^ (2 * S n + 1) < IZR (q / (w * w)) + 1).
    { pose proof (floor_div q (w * w) _ ltac:(nia) H) as F. rewrite mult_IZR in F.
      replace (2 * Q * z ^ (2 * S n + 1)) with (2 * Q * z ^ (2 * n + 1) / (IZR w * IZR w)); [exact F|].
      replace (2 * S n + 1)%nat with (2 + (2 * n + 1))%nat by lia. rewrite (pow_add z 2), Ez. field. exact W0. }
    destruct (IH H2) as [I1 I2]. replace (n + S J)%nat with (S n + J)%nat by lia. split; [|exact I2].
    pose proof (floor_div q (2 * Z.of_nat n + 1) _ ltac:(lia) H) as F.
    assert (E : IZR (2 * Z.of_nat n + 1) = INR (2 * n + 1)) by (rewrite INR_IZR_INZ; f_equal; lia). rewrite E in F.
    rewrite plus_IZR, S_INR, Rmult_plus_distr_l.
    replace (Q * (2 / INR (2 * n + 1) * z ^ (2 * n + 1))) with (2 * Q * z ^ (2 * n + 1) / INR (2 * n + 1)) by (field; apply not_0_INR; lia). lra.
Qed.

Definition Qs : Z := 68719476736. (* 2^36 *)
Definition terms (n : Z) : nat := if (n <? 8)%Z then 12%nat else if (n <? 32)%Z then 4%nat else 2%nat.
Fixpoint lns (fuel : nat) (n lo hi : Z) : list (Z * Z) :=
  match fuel with
  | O => []
  | S fuel => (lo, hi) ::
      let '(s, q) := atl (terms n) (2 * Qs / (2 * n + 1)) ((2 * n + 1) * (2 * n + 1)) 1 in
      lns fuel (n + 1) (lo + s) (hi + s + Z.of_nat (terms n) + 2 * (q + 1))
  end.
Lemma ln_step n : (0 < n)%Z -> let '(s, q) := atl (terms n) (2 * Qs / (2 * n + 1)) ((2 * n + 1) * (2 * n + 1)) 1 in
  IZR s <= IZR Qs * (ln (IZR (n + 1)) - ln (IZR n)) <= IZR (s + Z.of_nat (terms n) + 2 * (q + 1)).
Proof.
  intros Hn. assert (N : 0 < IZR n) by (apply IZR_lt; lia). set (w := (2 * n + 1)%Z). assert (Hw : (0 < w)%Z) by lia.
  assert (Ew : IZR w = 2 * IZR n + 1) by (unfold w; rewrite plus_IZR, mult_IZR; reflexivity). assert (Q0 : 0 < IZR Qs) by (apply IZR_lt; reflexivity).
  assert (Z1 : 0 < / IZR w) by (apply Rinv_0_lt_compat; lra).
  assert (Z3 : / IZR w <= / 3) by (apply Rinv_le_contravar; [lra|]; assert (1 <= IZR n) by (apply IZR_le; lia); lra).
  pose proof (atl_ok w (/ IZR w) (IZR Qs) Hw eq_refl (terms n) 0 (2 * Qs / w)) as A.
  change (2 * Z.of_nat 0 + 1)%Z with 1%Z in A. destruct (atl (terms n) (2 * Qs / w) (w * w) 1) as [s q].
  destruct A as [[A1 A2] [A3 A4]].
  { change (2 * 0 + 1)%nat with 1%nat. rewrite pow_1. change (2 * IZR Qs * / IZR w) with (2 * IZR Qs / IZR w). rewrite <- (mult_IZR 2 Qs). apply floor_div; [exact Hw|]. lra. }
  set (z := / IZR w) in *. pose proof (atanh_bound (terms n) z ltac:(lra)) as [B1 B2].
  assert (L : ln (IZR (n + 1)) - ln (IZR n) = ln (1 + z) - ln (1 - z)).
  { assert (LD : forall a b, 0 < a -> 0 < b -> ln a - ln b = ln (a / b)) by (intros a b Pa Pb; unfold Rdiv; rewrite ln_mult, ln_Rinv by (try apply Rinv_0_lt_compat; assumption); ring).
    rewrite !LD by (try (rewrite plus_IZR); lra). f_equal. rewrite plus_IZR. unfold z. rewrite Ew. field. repeat split; lra. }
  rewrite L. cbn [Nat.add] in A3, A4. set (t := 2 * IZR Qs * z ^ (2 * terms n + 1)) in *.
  assert (T : 0 <= t) by (apply Rmult_le_pos; [lra|apply pow_le; lra]).
  assert (R : IZR Qs * (2 * z ^ (2 * terms n + 1) / (1 - z ^ 2)) <= 2 * t).
  { replace (IZR Qs * (2 * z ^ (2 * terms n + 1) / (1 - z ^ 2))) with (t * / (1 - z ^ 2)) by (unfold t; field; nra).
    rewrite Rmult_comm. apply Rmult_le_compat_r; [exact T|]. replace 2 with (/ (/ 2)) by lra. apply Rinv_le_contravar; [lra|]. nra. }
  rewrite !plus_IZR, mult_IZR, plus_IZR, <- INR_IZR_INZ. 
  assert (IZR Qs * (ln (1 + z) - ln (1 - z) - psum (terms n) 0 z) <= IZR Qs * (2 * z ^ (2 * terms n + 1) / (1 - z ^ 2))) by (apply Rmult_le_compat_l; lra).
  assert (0 <= IZR Qs * (ln (1 + z) - ln (1 - z) - psum (terms n) 0 z)) by (apply Rmult_le_pos; lra).
  rewrite !Rmult_minus_distr_l in *. lra.
Qed.
Lemma lns_ok fuel : forall n lo hi, (0 < n)%Z -> IZR lo <= IZR Qs * ln (IZR n) <= IZR hi ->
  forall i l h, nth_error (lns fuel n lo hi) i = Some (l, h) -> IZR l <= IZR Qs * ln (IZR (n + Z.of_nat i)) <= IZR h.
Proof.
  induction fuel as [|f IH]; intros n lo hi Hn H i l h E; [destruct i; discriminate E|].
  cbn [lns] in E. pose proof (ln_step n Hn) as S. destruct (atl (terms n) _ _ 1) as [s q]. destruct i as [|i]; cbn [nth_error] in E.
  - injection E as <- <-. rewrite Z.add_0_r. exact H.
  - replace (n + Z.of_nat (Datatypes.S i))%Z with (n + 1 + Z.of_nat i)%Z by lia. apply (IH (n + 1)%Z (lo + s)%Z _ ltac:(lia)) in E; [exact E|].
    rewrite !plus_IZR in *. rewrite Rmult_minus_distr_l in S. lra.
Qed.
(** logarithms of 1 .. 1024 *)
Definition lntab : list (Z * Z) := lns 1024 1 0 0.
Lemma lntab_ok i l h : nth_error lntab i = Some (l, h) -> IZR l <= IZR Qs * ln (IZR (1 + Z.of_nat i)) <= IZR h.
Proof. apply lns_ok; [lia|]. rewrite ln_1. lra. Qed.
