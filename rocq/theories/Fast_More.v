(** Consequences: division, base 10, negative reciprocals, the exponential series. *)
From Coq Require Import ZArith Reals Lra Lia List Bool.
From Flocq Require Import Core.Core IEEE754.BinarySingleNaN.
From Verif Require Import Common Float FloatFacts FloatRel FloatLerp Frac_Proof Db_Model Env_Model Fast_Model Fast_Bits Fast_Ln Fast_Log Fast_Pow Fast_Spec Fast_Exp.
Import ListNotations.
Local Open Scope R_scope.
Local Notation fin x := (is_finite x = true).
Local Notation v x := (B2R x).
Local Notation rn := (rnd 24 128).

Lemma bits_neg (x : f32) : fin x -> v x < 0 -> bits_of x = (2 ^ 31 + bits_of (fneg x))%Z.
Proof. destruct x as [s|s| |s m e H]; intros F P; try discriminate; [cbn in P; lra|]. destruct s; [reflexivity|]. exfalso. assert (0 < F2R (Float radix2 (Z.pos m) e)) by (apply F2R_gt_0; reflexivity). cbn in P, H0. lra. Qed.
Lemma inverse_neg (x : f32) : fin x -> - bpow radix2 126 < v x < 0 -> fast_inverse x = None.
Proof.
  intros F H. assert (Fn : fin (fneg x)) by (apply fneg_fin'; exact F). assert (Vn : v (fneg x) = - v x) by apply fneg_R'.
  destruct (bits_pos (fneg x) Fn ltac:(lra)) as (E & G & (HE & HG) & B & D). unfold fast_inverse. rewrite (bits_neg x F ltac:(lra)), B.
  assert (E <= 252)%Z.
  { destruct D as [(H1 & V)|(H1 & _)]; [|lia]. destruct (Z.le_gt_cases E 252) as [C|C]; [exact C|exfalso]. rewrite normal_val in V. assert (X := fr_bnd G HG).
    assert (bpow radix2 126 <= bpow radix2 (E - 127)) by (apply bpow_le; lia). assert (P := bpow_gt_0 radix2 (E - 127)).
    assert (1 * bpow radix2 (E - 127) <= (1 + fr G) * bpow radix2 (E - 127)) by (apply Rmult_le_compat_r; lra). lra. }
  change (2 ^ 23)%Z with 8388608%Z in *. change (2 ^ 31)%Z with 2147483648%Z. change (2 ^ 32)%Z with 4294967296%Z. cbv zeta.
  replace (2147483648 + (E * 8388608 + G) <? 2147483648)%Z with false by (symmetry; apply Z.ltb_ge; lia).
  replace (2129859010 - (2147483648 + (E * 8388608 + G) - 4294967296) <? 2147483648)%Z with false by (symmetry; apply Z.ltb_ge; lia).
  rewrite andb_false_r. reflexivity.
Qed.
Lemma div_ok (a b : f32) : fin a -> fin b -> bpow radix2 (-126) <= v b < bpow radix2 125 -> Rabs (v a / v b) <= bpow radix2 127 ->
  exists y, fast_div a b = Some y /\ fin y /\ Rabs (v y - v a / v b) <= 0.0507 * Rabs (v a / v b) + bpow radix2 (-140).
Proof.
  intros Fa Fb Hb Hq. destruct (inverse_ok b Fb Hb) as (i & Ei & Fi & Pi & Bi). assert (Pb : 0 < v b) by (generalize (bpow_gt_0 radix2 (-126)); lra).
  set (q := v a / v b) in *. assert (Ea : v a * v i = q * (v b * v i)) by (unfold q; field; lra).
  assert (E1 : Rabs (v a * v i - q) <= 0.0506 * Rabs q). { rewrite Ea. replace (q * (v b * v i) - q) with (q * (v b * v i - 1)) by ring. rewrite Rabs_mult, Rmult_comm. apply Rmult_le_compat_r; [apply Rabs_pos|exact Bi]. }
  assert (Bm : Rabs (v a * v i) <= 1.0506 * Rabs q). { replace (v a * v i) with ((v a * v i - q) + q) by ring. eapply Rle_trans; [apply Rabs_triang|]. lra. }
  assert (B128 : bpow radix2 128 = 2 * bpow radix2 127) by (change 128%Z with (1 + 127)%Z; rewrite bpow_plus; reflexivity).
  assert (P127 := bpow_gt_0 radix2 127). assert (E2 := rnd_err_all (v a * v i)).
  assert (T150 : 0 <= bpow radix2 (-150) <= bpow radix2 (-140)) by (split; [apply bpow_ge_0|apply bpow_le; lia]).
  assert (T140 : bpow radix2 (-140) <= bpow radix2 100) by (apply bpow_le; lia).
  assert (T100 : bpow radix2 127 = 134217728 * bpow radix2 100) by (change 127%Z with (27 + 100)%Z; rewrite bpow_plus; reflexivity).
  assert (Br : Rabs (rn (v a * v i)) < bpow radix2 128). { replace (rn (v a * v i)) with ((rn (v a * v i) - v a * v i) + v a * v i) by ring. eapply Rle_lt_trans; [apply Rabs_triang|]. lra. }
  destruct (fmul_R a i Fa Fi Br) as (V & F). exists (fmul a i). split; [unfold fast_div; rewrite Ei; reflexivity|]. split; [exact F|]. rewrite V.
  replace (rn (v a * v i) - q) with ((rn (v a * v i) - v a * v i) + (v a * v i - q)) by ring. eapply Rle_trans; [apply Rabs_triang|]. assert (Rabs_q := Rabs_pos q). lra.
Qed.

(** base 10 *)
Lemma log10_2 x : log10 x = log2 x * (ln 2 / ln 10).
Proof. unfold log10, log2. pose proof ln2_pos. pose proof ln10_lo. field. lra. Qed.
Lemma ratio10 : 0.3010299 <= ln 2 / ln 10 <= 0.301031.
Proof.
  pose proof ln2_lo as A. pose proof ln10_lo as B. pose proof ln10_hi as C. assert (P : 0 < ln 10) by lra. assert (I : 0 < / ln 10) by (apply Rinv_0_lt_compat; exact P).
  unfold Rdiv. split.
  - replace 0.3010299 with (0.3010299 * ln 10 * / ln 10) by (field; lra). apply Rmult_le_compat_r; lra.
  - replace 0.301031 with (0.301031 * ln 10 * / ln 10) by (field; lra). apply Rmult_le_compat_r; lra.
Qed.
Lemma c10 : let c := lit 301029995663981 15 25 in fin c /\ v c = 10100891 / 33554432.
Proof.
  cbv zeta. destruct (mk32_small 10100891 (-25) ltac:(reflexivity) ltac:(lia)) as (E & F). change (mk32 10100891 (-25)) with (lit 301029995663981 15 25) in E, F.
  split; [exact F|]. rewrite E. change (bpow radix2 (-25)) with (/ 33554432). field.
Qed.
Lemma log2_range (x : f32) : fin x -> bpow radix2 (-126) <= v x -> Rabs (log2 (v x)) <= 129.
Proof.
  intros F H. destruct (bits_normal x F H) as (E & G & (HE & HG) & B & V). rewrite V, normal_val. assert (X := fr_bnd G HG).
  destruct (log_val (E - 127) (fr G) X) as (L & U). rewrite minus_IZR in L, U.
  assert (1 <= IZR E <= 254) by (split; apply IZR_le; lia). apply Rabs_le. split; lra.
Qed.
Lemma log10_ok (x : f32) : fin x -> bpow radix2 (-126) <= v x -> fin (fast_log10 x) /\ Rabs (v (fast_log10 x) - log10 (v x)) <= 0.0176.
Proof.
  intros F H. destruct (log2_ok x F H) as (F1 & E1). destruct c10 as (Fc & Vc). cbv zeta in Fc, Vc. assert (R := log2_range x F H). rewrite log10_2. pose proof ratio10 as Q.
  unfold fast_log10. set (c := lit 301029995663981 15 25) in *. set (l := fast_log2 x) in *. set (L := log2 (v x)) in *. set (q := ln 2 / ln 10) in *. clearbody c l L q.
  apply Rabs_le_inv in R, E1. assert (Bl : Rabs (v c * v l) <= bpow radix2 6) by (rewrite Vc; change (bpow radix2 6) with 64; apply Rabs_le; lra).
  destruct (fmul_bnd c l (bpow radix2 6) Fc F1) as (V & G & _); [apply fmt_bpow; cbn; lia|apply bpow_lt; lia|exact Bl|].
  split; [exact G|]. assert (E2 := rnd_err (prec:=24) (emax:=128) (v c * v l) 6 ltac:(cbn; lia) Bl). rewrite <- V in E2. change (6 - 24 - 1)%Z with (-19)%Z in E2. change (bpow radix2 (-19)) with (/ 524288) in E2.
  apply Rabs_le_inv in E2. rewrite Vc in E2.
  assert (E3 : Rabs (L * (10100891 / 33554432 - q)) <= 129 * 0.000002).
  { rewrite Rabs_mult. apply Rmult_le_compat; try apply Rabs_pos; apply Rabs_le; lra. }
  apply Rabs_le_inv in E3. apply Rabs_le. split; lra.
Qed.
Lemma l10 : fin (fast_log2 (mk32 10 0)) /\ v (fast_log2 (mk32 10 0)) = 13871840 / 4194304.
Proof.
  destruct (mk32_small 13871840 (-22) ltac:(reflexivity) ltac:(lia)) as (E & F). change (bpow radix2 (-22)) with (/ 4194304) in E.
  assert (Q : feq (fast_log2 (mk32 10 0)) (mk32 13871840 (-22)) = true) by (vm_compute; reflexivity).
  assert (Fl : fin (fast_log2 (mk32 10 0))) by (vm_compute; reflexivity).
  split; [exact Fl|]. rewrite (feq_true _ _ Fl F Q), E. reflexivity.
Qed.
Lemma pow10_ok (x : f32) : fin x -> Rabs (v x) <= 38 ->
  exists y, fast_pow10 x = Some y /\ fin y /\ 0 < v y /\ Rabs (log2 (v y) - v x * (log2 10 - 0.01462)) <= 0.058.
Proof.
  intros F H. destruct l10 as (Fl & Vl). unfold fast_pow10. set (l := fast_log2 (mk32 10 0)) in *. clearbody l. apply Rabs_le_inv in H.
  assert (Bm : Rabs (v x * v l) <= bpow radix2 7) by (rewrite Vl; change (bpow radix2 7) with 128; apply Rabs_le; lra).
  destruct (fmul_bnd x l (bpow radix2 7) F Fl) as (V & G & _); [apply fmt_bpow; cbn; lia|apply bpow_lt; lia|exact Bm|].
  assert (E := rnd_err (prec:=24) (emax:=128) (v x * v l) 7 ltac:(cbn; lia) Bm). rewrite <- V in E. change (7 - 24 - 1)%Z with (-18)%Z in E. change (bpow radix2 (-18)) with (/ 262144) in E.
  apply Rabs_le_inv in E. rewrite Vl in E.
  destruct (pow2_log (fmul x l) G ltac:(lra)) as (y & Ey & Fy & Py & Ly). exists y. split; [exact Ey|]. split; [exact Fy|]. split; [exact Py|].
  assert (Q : 3.3219178 <= log2 10 <= 3.3219285).
  { unfold log2. pose proof ln2_pos as P. pose proof ln10_lo. pose proof ln10_hi. assert (I : 0 < / ln 2) by (apply Rinv_0_lt_compat; exact P). unfold Rdiv. split.
    - replace 3.3219178 with (3.3219178 * ln 2 * / ln 2) by (field; lra). apply Rmult_le_compat_r; lra.
    - replace 3.3219285 with (3.3219285 * ln 2 * / ln 2) by (field; lra). apply Rmult_le_compat_r; lra. }
  assert (E3 : Rabs (v x * (log2 10 - 0.01462 - 13871840 / 4194304)) <= 38 * 0.00001) by (rewrite Rabs_mult; apply Rmult_le_compat; try apply Rabs_pos; apply Rabs_le; lra).
  apply Rabs_le_inv in E3. set (a := log2 (v y)) in *. apply Rabs_le. split; lra.
Qed.

(** the exponential series *)
Definition exps : list ((f32 -> f32) * nat) :=
  [(fast_exp3, 3%nat); (fast_exp4, 4%nat); (fast_exp5, 5%nat); (fast_exp6, 6%nat); (fast_exp7, 7%nat); (fast_exp8, 8%nat); (fast_exp9, 9%nat)].
Lemma lit_val k m e : feq k (mk32 m e) = true -> fin k -> (Z.abs m < 2 ^ 24)%Z -> (-149 <= e <= 0)%Z -> v k = IZR m / IZR (2 ^ (- e)).
Proof.
  intros Q F Hm He. destruct (mk32_small m e Hm ltac:(lia)) as (E & G). rewrite (feq_true _ _ F G Q), E. unfold Rdiv. f_equal.
  rewrite IZR_pow2 by lia. rewrite bpow_opp, Rinv_inv. reflexivity.
Qed.
Lemma exp_all cs k N m e (x : f32) n : feq k (mk32 m e) = true -> fin k -> (0 < m < 2 ^ 24)%Z -> (-100 <= e <= 0)%Z -> (m <= 2 ^ (- e))%Z -> (8388608 * Z.abs (m * N - 2 ^ (- e)) <= 2 ^ (- e))%Z ->
  fin x -> Rabs (v x) <= 1 -> Forall (fun c => 0 < c < 2 ^ 23)%Z cs -> (length cs <= 9)%nat -> cs <> [] ->
  (0 < N < 400000)%Z -> S cs <= 2.75 * IZR N -> hornerR cs (v x) / IZR N = series (n + 1) (v x) ->
  fin (fmul (horner cs x) k) /\ Rabs (v (fmul (horner cs x) k) - exp (v x)) <= 3 * (Rabs (v x) ^ (n + 1) / INR (fact (n + 1))) + bpow radix2 (-16).
Proof.
  intros Q Fk Hm He Hl HN Fx Hx Hc HL HE HZ HS EQ. assert (Vk := lit_val k m e Q Fk ltac:(lia) ltac:(lia)).
  assert (P0 : 0 < IZR (2 ^ (- e))) by (apply IZR_lt; apply Z.pow_pos_nonneg; lia). assert (I : 0 < / IZR (2 ^ (- e))) by (apply Rinv_0_lt_compat; exact P0).
  assert (Bk : 0 <= v k <= 1).
  { rewrite Vk. unfold Rdiv. split; [apply Rmult_le_pos; [apply IZR_le; lia|lra]|]. replace 1 with (IZR (2 ^ (- e)) * / IZR (2 ^ (- e))) by (field; lra). apply Rmult_le_compat_r; [lra|apply IZR_le; exact Hl]. }
  assert (Ek : Rabs (v k * IZR N - 1) <= bpow radix2 (-23)).
  { rewrite Vk. change (bpow radix2 (-23)) with (/ 8388608). replace (IZR m / IZR (2 ^ (- e)) * IZR N - 1) with (IZR (m * N - 2 ^ (- e)) / IZR (2 ^ (- e))) by (rewrite minus_IZR, mult_IZR; field; lra).
    unfold Rdiv. rewrite Rabs_mult, (Rabs_pos_eq (/ _)) by lra. rewrite <- abs_IZR. apply IZR_le in HN. rewrite mult_IZR in HN.
    apply Rle_trans with (/ 8388608 * IZR (2 ^ (- e)) * / IZR (2 ^ (- e))); [apply Rmult_le_compat_r; lra|right; field; lra]. }
  destruct (exp_err cs k x N Fx Hx Hc HL HE HZ HS Fk Bk Ek) as (F & E). split; [exact F|]. rewrite EQ in E. assert (R := remainder (n + 1) (v x) Hx).
  replace (v (fmul (horner cs x) k) - exp (v x)) with ((v (fmul (horner cs x) k) - series (n + 1) (v x)) + - (exp (v x) - series (n + 1) (v x))) by ring.
  eapply Rle_trans; [apply Rabs_triang|]. rewrite Rabs_Ropp. lra.
Qed.
Lemma F0 : INR (fact 0) = 1. Proof. reflexivity. Qed.
Lemma F1 : INR (fact 1) = 1. Proof. rewrite fact_simpl, mult_INR, F0. cbn [INR]. lra. Qed.
Lemma F2 : INR (fact 2) = 2. Proof. rewrite fact_simpl, mult_INR, F1. cbn [INR]. lra. Qed.
Lemma F3 : INR (fact 3) = 6. Proof. rewrite fact_simpl, mult_INR, F2. cbn [INR]. lra. Qed.
Lemma F4 : INR (fact 4) = 24. Proof. rewrite fact_simpl, mult_INR, F3. cbn [INR]. lra. Qed.
Lemma F5 : INR (fact 5) = 120. Proof. rewrite fact_simpl, mult_INR, F4. cbn [INR]. lra. Qed.
Lemma F6 : INR (fact 6) = 720. Proof. rewrite fact_simpl, mult_INR, F5. cbn [INR]. lra. Qed.
Lemma F7 : INR (fact 7) = 5040. Proof. rewrite fact_simpl, mult_INR, F6. cbn [INR]. lra. Qed.
Lemma F8 : INR (fact 8) = 40320. Proof. rewrite fact_simpl, mult_INR, F7. cbn [INR]. lra. Qed.
Lemma F9 : INR (fact 9) = 362880. Proof. rewrite fact_simpl, mult_INR, F8. cbn [INR]. lra. Qed.
Lemma exps_ok f n : In (f, n) exps -> forall x, fin x -> Rabs (v x) <= 1 ->
  fin (f x) /\ Rabs (v (f x) - exp (v x)) <= 3 * (Rabs (v x) ^ (n + 1) / INR (fact (n + 1))) + bpow radix2 (-16).
Proof.
  intros H x Fx Hx. unfold exps in H. cbn [In] in H.
  destruct H as [H|[H|[H|[H|[H|[H|[H|[]]]]]]]]; inversion H; subst; clear H.
  - change (fast_exp3 x) with (fmul (horner [6; 6; 3]%Z x) sixth). refine (exp_all [6; 6; 3]%Z sixth 6 11184810 (-26) x 3 _ _ _ _ _ _ Fx Hx _ _ _ _ _ _);
      [vm_compute; reflexivity|vm_compute; reflexivity|vm_compute; split; reflexivity|lia|vm_compute; discriminate|vm_compute; discriminate|repeat constructor|cbn [length]; lia|discriminate|split; reflexivity|cbn [S]; lra|].
    cbn [hornerR Nat.add series]. rewrite ?F0, ?F1, ?F2, ?F3, ?F4, ?F5, ?F6, ?F7, ?F8, ?F9. cbn [pow]. field.
  - change (fast_exp4 x) with (fmul (horner [24; 24; 12; 4]%Z x) (lit 41666666 9 28)). refine (exp_all [24; 24; 12; 4]%Z (lit 41666666 9 28) 24 11184810 (-28) x 4 _ _ _ _ _ _ Fx Hx _ _ _ _ _ _);
      [vm_compute; reflexivity|vm_compute; reflexivity|vm_compute; split; reflexivity|lia|vm_compute; discriminate|vm_compute; discriminate|repeat constructor|cbn [length]; lia|discriminate|split; reflexivity|cbn [S]; lra|].
    cbn [hornerR Nat.add series]. rewrite ?F0, ?F1, ?F2, ?F3, ?F4, ?F5, ?F6, ?F7, ?F8, ?F9. cbn [pow]. field.
  - change (fast_exp5 x) with (fmul (horner [120; 120; 60; 20; 5]%Z x) (lit 83333333 10 30)). refine (exp_all [120; 120; 60; 20; 5]%Z (lit 83333333 10 30) 120 8947848 (-30) x 5 _ _ _ _ _ _ Fx Hx _ _ _ _ _ _);
      [vm_compute; reflexivity|vm_compute; reflexivity|vm_compute; split; reflexivity|lia|vm_compute; discriminate|vm_compute; discriminate|repeat constructor|cbn [length]; lia|discriminate|split; reflexivity|cbn [S]; lra|].
    cbn [hornerR Nat.add series]. rewrite ?F0, ?F1, ?F2, ?F3, ?F4, ?F5, ?F6, ?F7, ?F8, ?F9. cbn [pow]. field.
  - change (fast_exp6 x) with (fmul (horner [720; 720; 360; 120; 30; 6]%Z x) (lit 13888888 10 33)). refine (exp_all [720; 720; 360; 120; 30; 6]%Z (lit 13888888 10 33) 720 11930464 (-33) x 6 _ _ _ _ _ _ Fx Hx _ _ _ _ _ _);
      [vm_compute; reflexivity|vm_compute; reflexivity|vm_compute; split; reflexivity|lia|vm_compute; discriminate|vm_compute; discriminate|repeat constructor|cbn [length]; lia|discriminate|split; reflexivity|cbn [S]; lra|].
    cbn [hornerR Nat.add series]. rewrite ?F0, ?F1, ?F2, ?F3, ?F4, ?F5, ?F6, ?F7, ?F8, ?F9. cbn [pow]. field.
  - change (fast_exp7 x) with (fmul (horner [5040; 5040; 2520; 840; 210; 42; 7]%Z x) (lit 19841269 11 36)). refine (exp_all [5040; 5040; 2520; 840; 210; 42; 7]%Z (lit 19841269 11 36) 5040 13634816 (-36) x 7 _ _ _ _ _ _ Fx Hx _ _ _ _ _ _);
      [vm_compute; reflexivity|vm_compute; reflexivity|vm_compute; split; reflexivity|lia|vm_compute; discriminate|vm_compute; discriminate|repeat constructor|cbn [length]; lia|discriminate|split; reflexivity|cbn [S]; lra|].
    cbn [hornerR Nat.add series]. rewrite ?F0, ?F1, ?F2, ?F3, ?F4, ?F5, ?F6, ?F7, ?F8, ?F9. cbn [pow]. field.
  - change (fast_exp8 x) with (fmul (horner [40320; 40320; 20160; 6720; 1680; 336; 56; 8]%Z x) (lit 24801587301 15 39)). refine (exp_all [40320; 40320; 20160; 6720; 1680; 336; 56; 8]%Z (lit 24801587301 15 39) 40320 13634817 (-39) x 8 _ _ _ _ _ _ Fx Hx _ _ _ _ _ _);
      [vm_compute; reflexivity|vm_compute; reflexivity|vm_compute; split; reflexivity|lia|vm_compute; discriminate|vm_compute; discriminate|repeat constructor|cbn [length]; lia|discriminate|split; reflexivity|cbn [S]; lra|].
    cbn [hornerR Nat.add series]. rewrite ?F0, ?F1, ?F2, ?F3, ?F4, ?F5, ?F6, ?F7, ?F8, ?F9. cbn [pow]. field.
  - change (fast_exp9 x) with (fmul (horner [362880; 362880; 181440; 60480; 15120; 3024; 504; 72; 9]%Z x) (lit 275573192 14 42)). refine (exp_all [362880; 362880; 181440; 60480; 15120; 3024; 504; 72; 9]%Z (lit 275573192 14 42) 362880 12119837 (-42) x 9 _ _ _ _ _ _ Fx Hx _ _ _ _ _ _);
      [vm_compute; reflexivity|vm_compute; reflexivity|vm_compute; split; reflexivity|lia|vm_compute; discriminate|vm_compute; discriminate|repeat constructor|cbn [length]; lia|discriminate|split; reflexivity|cbn [S]; lra|].
    cbn [hornerR Nat.add series]. rewrite ?F0, ?F1, ?F2, ?F3, ?F4, ?F5, ?F6, ?F7, ?F8, ?F9. cbn [pow]. field.
Qed.
