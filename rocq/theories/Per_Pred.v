(** Predictions on a signal with one pulse per period. *)
From Coq Require Import Reals Lra.
From Flocq Require Import Core.Core IEEE754.BinarySingleNaN.
From Verif Require Import Common CommonFacts Float FloatFacts Ring_Model Ring_Spec Ring_Proof Bitset_Model Bitset_Spec Bitset_Proof DetectF_Proof
  Zc_Model Zc_Spec Zc_Proof FloatRel PD_Model PD_Spec PD_Proof PD_Pred Pitch_Model Per_Spec Per_Zc Per_Ana Per_Proof.
Local Open Scope Z_scope.

Lemma frac_value (D : f32) P : fin D -> 4 <= P < 2 ^ 24 -> fadd (mk32 P 0) (fsub D D) = z32 P.
Proof.
  intros FD HP. destruct (mk32_small P 0 ltac:(lia) ltac:(lia)) as [VP FP]. change (bpow radix2 0) with 1%R in VP. rewrite Rmult_1_r in VP.
  assert (BP : (Rabs (IZR P) < bpow radix2 128)%R).
  { rewrite <- abs_IZR. apply Rlt_trans with (bpow radix2 24); [|apply bpow_lt; lia]. change (bpow radix2 24) with (IZR (2 ^ 24)). apply IZR_lt. lia. }
  destruct (fsub_R D D FD FD) as [VS FS].
  { rewrite Rminus_diag_eq, rnd_0, Rabs_R0 by reflexivity. apply bpow_gt_0. }
  rewrite Rminus_diag_eq, rnd_0 in VS by reflexivity.
  assert (FM : fmt 24 128 (IZR P)) by (rewrite <- VP; apply fmt_v).
  destruct (fadd_R (mk32 P 0) (fsub D D) FP FS) as [VA FA].
  { rewrite VS, VP, Rplus_0_r, rnd_fmt by exact FM. exact BP. }
  rewrite VS, VP, Rplus_0_r, rnd_fmt in VA by exact FM.
  assert (P0 : (IZR P <> 0)%R) by (apply IZR_neq; lia).
  apply (B2R_inj 24 128); [| |unfold z32; rewrite VP; exact VA]; apply is_finite_strict_B2R; [rewrite VA|unfold z32; rewrite VP]; exact P0.
Qed.
Lemma z32_gt m P : 0 <= m < P -> P < 2 ^ 24 -> fgt (z32 P) (z32 m) = true.
Proof.
  intros Hm HP. destruct (mk32_small P 0 ltac:(lia) ltac:(lia)) as [VP FP]. destruct (mk32_small m 0 ltac:(lia) ltac:(lia)) as [VM FM].
  change (bpow radix2 0) with 1%R in *. rewrite Rmult_1_r in *.
  change (fgt (z32 P) (z32 m)) with (flt (z32 m) (z32 P)). apply (flt_true (z32 m) (z32 P) FM FP). unfold z32. rewrite VP, VM. apply IZR_lt. lia.
Qed.
Lemma z32_not_m1 P : 4 <= P < 2 ^ 24 -> feq (z32 P) (z32 (-1)) = false.
Proof.
  intros HP. destruct (mk32_small P 0 ltac:(lia) ltac:(lia)) as [VP FP]. destruct (mk32_small (-1) 0 ltac:(reflexivity) ltac:(lia)) as [VM FM].
  change (bpow radix2 0) with 1%R in *. rewrite Rmult_1_r in *.
  destruct (feq (z32 P) (z32 (-1))) eqn:Q; [|reflexivity]. exfalso.
  unfold feq, z32 in Q. rewrite (Beqb_correct 24 128 _ _ FP FM), VP, VM in Q.
  destruct (Req_bool_spec (IZR P) (IZR (-1))) as [X|X]; [apply eq_IZR in X; lia|discriminate].
Qed.

Section Pred.
Variables (oob : f32 -> Z) (hyst : f32) (nw min : N) (range : Z) (x : Z -> f32) (P a c D : Z) (h : Z -> f32) (p0 : pd).
Hypothesis Hn : (nw <= 2 ^ 28)%N.
Hypothesis E0 : pd_make hyst nw min range = Some p0.
Let W := z_win (p_zc p0).
Hypothesis HD : 0 <= D.
Hypothesis HD2 : D mod (Z.of_N W / 2) = 0.
Hypothesis Hq : forall k, 0 <= k < D -> flt fzero (cond_of hyst x k) = false.
Hypothesis Hh : forall k, h k = cond_of hyst x (k + D).
Hypothesis OP : one_pulse h hyst P a c.
Hypothesis HA : a < Z.of_N W / 2.
Hypothesis HP : 4 <= P < 2 ^ 24.
Hypothesis HPW : 2 * P <= Z.of_N W.
Hypothesis HM : P + 2 <= 2 * (Z.of_N (N.max (W / 64 / 2 - 1) 1) * 64).
Hypothesis ST : is_finite (fsub (h a) (h (a - 1))) = true.
Hypothesis Mn : Z.of_N min < P.
Lemma start_wb : (128 <= W <= 2 ^ 28)%N /\ (W mod 64 = 0)%N.
Proof using All.
  assert (Mn' : Z.of_N min <= P) by lia.
  exact (start_w oob hyst nw min range x P a c D h p0 Hn E0 HD HD2 Hq Hh OP HA HP HPW HM ST Mn').
Qed.
Lemma step0 p k z m E J : pd_run oob p0 (first_samples x k) = Some p -> (forall s, zc_step (p_zc p) s = zc_step z s) -> D <= Z.of_nat k ->
  perinv (Z.of_N W) h hyst P a c (Z.of_nat k - D) z m E J ->
  exists p' m' E' J', pd_step oob p (x (Z.of_nat k)) = Some p' /\ perinv (Z.of_N W) h hyst P a c (Z.of_nat (S k) - D) (p_zc p') m' E' J' /\
    (z_ready (p_zc p') = false -> z_frame (p_zc p') = (z_frame z + 1)%N).
Proof using All.
  intros Er Tr Dk I. assert (Mn' : Z.of_N min <= P) by lia.
  destruct (pd_step_per oob hyst nw min range x P a c D h p0 Hn E0 HD HD2 Hq Hh OP HA HP HPW HM ST Mn' p k z m E J Er Tr Dk I)
    as (p' & m' & E' & J' & Es & I' & _ & _ & _ & S2).
  exists p', m', E', J'. split; [exact Es|]. split; [exact I'|]. intros R. exact (proj1 (S2 R)).
Qed.

(** a closed edge is strong *)
Lemma closed_strong o m e z : edge_at h P a o m c e -> seen h (z_peak z) -> seen h (z_peak_update z) ->
  fge (zi_peak e) (fmul (zc_peak_pulse z) pulse_threshold) = true.
Proof using All.
  intros [E1 E2 E3 E4 E5] K1 K2. pose proof (op_order _ _ _ _ _ OP) as O.
  assert (S : forall v, seen h v -> flt (zi_peak e) v = false /\ (v = fzero \/ flt fzero v = true)).
  { intros v [->|(k & Hk & Pos & ->)].
    - split; [|left; reflexivity]. destruct (flt_asym fzero (zi_peak e)) as [X|X]; [exact X|congruence].
    - split; [|right; exact Pos].
      assert (Ka : a <= k). { destruct (Z_lt_ge_dec k a) as [X|X]; [|lia]. rewrite (op_before _ _ _ _ _ OP k) in Pos by lia. discriminate Pos. }
      set (q := (k - a) / P). pose proof (Z.div_mod (k - a) P ltac:(lia)) as Dq. pose proof (Z.mod_pos_bound (k - a) P ltac:(lia)) as M. fold q in Dq.
      assert (Q0 : 0 <= q) by (apply Z.div_pos; lia). set (r := (k - a) mod P) in *.
      assert (Hr : h k = h (a + r)).
      { replace k with ((a + r) + q * P) by lia. apply (per 128 ltac:(lia) ltac:(reflexivity) h hyst P a c OP ltac:(lia) q (a + r)); lia. }
      rewrite Hr in *. apply E5. split; [lia|].
      destruct (Z_lt_ge_dec (a + r) c) as [X|X]; [lia|]. rewrite (op_after _ _ _ _ _ OP (a + r)) in Pos by lia. discriminate Pos. }
  destruct (S _ K1) as [S1 S2]. destruct (S _ K2) as [S3 S4].
  unfold zc_peak_pulse. unfold fmax. destruct (flt (z_peak z) (z_peak_update z)); apply strong_peak; auto.
Qed.

(** the collected edges, whatever the state: all but the latest are closed *)
Lemma edges n z m E J : perinv (Z.of_N W) h hyst P a c n z m E J -> forall i, (i < z_num z)%N ->
  exists e, zc_at z i = Some e /\ zi_curr e = h a /\ zi_prev e = h (a - 1) /\
    zi_lead e = a + (m - zlen E + 1 + Z.of_N i) * P - (n - zc_now z) /\
    ((i + 1 < z_num z)%N \/ z_state z = false -> edge_at h P a (n - zc_now z) (m - zlen E + 1 + Z.of_N i) c e).
Proof using All.
  intros I i Hi. destruct start_wb as (B & M).
  destruct I as [R Nm Hw Hy Hp Cp Pk Ld Lo Sh Fr].
  destruct (ring_at z E J i R Nm Hi) as (e & Ae & Qe). exists e. split; [exact Ae|].
  assert (Ql : (N.to_nat i < length E)%nat) by lia.
  destruct (z_state z).
  - destruct Sh as (g & r & -> & G & T & B1). cbn [length] in *. unfold zlen. cbn [length].
    destruct (S (length r) - 1 - N.to_nat i)%nat as [|k] eqn:Ek; cbn [nth_error] in Qe.
    + injection Qe as <-. destruct G as [G1 G2 G3 G4 G5]. split; [exact G2|]. split; [exact G3|]. split.
      * rewrite G1. replace (m - Z.of_nat (S (length r)) + 1 + Z.of_N i) with m by lia. reflexivity.
      * intros [X|X]; [lia|discriminate].
    + destruct (train_nth W B M h P a c r _ _ _ _ T Qe) as [A1 A2].
      replace (m - 1 - Z.of_nat k) with (m - Z.of_nat (S (length r)) + 1 + Z.of_N i) in A1 by lia.
      pose proof A1 as [G1 G2 G3 G4 G5]. split; [exact G2|]. split; [exact G3|]. split; [exact G1|]. intros _. exact A1.
  - destruct Sh as (T & _). destruct (train_nth W B M h P a c E _ _ _ _ T Qe) as [A1 A2].
    replace (m - Z.of_nat (length E - 1 - N.to_nat i)) with (m - zlen E + 1 + Z.of_N i) in A1 by (unfold zlen; lia).
    pose proof A1 as [G1 G2 G3 G4 G5]. split; [exact G2|]. split; [exact G3|]. split; [exact G1|]. intros _. exact A1.
Qed.
Lemma neighbours n z m E J i e f : perinv (Z.of_N W) h hyst P a c n z m E J -> (i + 1 < z_num z)%N ->
  zc_at z i = Some e -> zc_at z (i + 1) = Some f -> zi_frac_period e f = Some (z32 P).
Proof using All.
  intros I Hi Ae Af. destruct (edges _ _ _ _ _ I i ltac:(lia)) as (e' & Ae' & C1 & V1 & L1 & _).
  destruct (edges _ _ _ _ _ I (i + 1)%N ltac:(lia)) as (f' & Af' & C2 & V2 & L2 & _).
  assert (e' = e) by congruence. assert (f' = f) by congruence. subst e' f'.
  unfold zi_frac_period. assert (Ld : zi_lead f - zi_lead e = P) by (rewrite L1, L2; lia).
  destruct (Z.leb_spec (zi_lead e) (zi_lead f)) as [_|X]; [|lia]. rewrite Ld. f_equal.
  assert (Dx : zi_dx f = zi_dx e) by (unfold zi_dx; rewrite C1, C2, V1, V2; reflexivity). rewrite Dx.
  apply frac_value; [|exact HP]. unfold zi_dx. rewrite C1, V1. pose proof (op_order _ _ _ _ _ OP) as O.
  apply dx_fin; [exact ST|exact (op_rise _ _ _ _ _ OP)|]. exact (pre_rise h hyst P a c OP).
Qed.

Section One.
Variables (p : pd) (n m : Z) (E J : list zinfo).
Hypothesis I : perinv (Z.of_N W) h hyst P a c n (p_zc p) m E J.
Hypothesis Mp : p_min p = min.
Lemma before_strong i : (1 <= i < z_num (p_zc p))%N -> forall f, zc_at (p_zc p) i = Some f -> long_before p f (i - 1) (z32 P).
Proof using All.
  intros Hi f Af. destruct (edges _ _ _ _ _ I (i - 1)%N ltac:(lia)) as (e & Ae & _ & _ & _ & S).
  assert (Hs : (i - 1 + 1 < z_num (p_zc p))%N) by lia.
  destruct (pi_pk _ _ _ _ _ _ _ _ _ _ _ I) as [K1 K2]. exists e. split; [|split].
  - split; [lia|]. split; [exact Ae|]. unfold pd_threshold. exact (closed_strong _ _ e _ (S (or_introl Hs)) K1 K2).
  - apply (neighbours _ _ _ _ _ (i - 1)%N e f I); [lia|exact Ae|]. replace (i - 1 + 1)%N with i by lia. exact Af.
  - rewrite Mp. apply z32_gt; lia.
Qed.
Lemma predicts_P v : predicts p v -> v = z32 (-1) \/ v = z32 P.
Proof using All.
  intros [(i & f & Hi & (S1 & S2 & S3) & _ & C)|[-> _]]; [|left; reflexivity].
  destruct C as [(j & Hj & (e & (T1 & T2 & T3) & T4 & T5) & No)|[-> _]]; [right|left; reflexivity].
  pose proof (before_strong i ltac:(lia) f S2) as B.
  destruct (N.eq_dec j (i - 1)) as [->|Q].
  - destruct B as (g & (U1 & U2 & U3) & U4 & _). congruence.
  - exfalso. exact (No (i - 1)%N _ ltac:(lia) B).
Qed.
Lemma predicts_closed v : z_state (p_zc p) = false -> (2 <= z_num (p_zc p))%N -> predicts p v -> v = z32 P.
Proof using All.
  intros St N2 Hv. destruct (predicts_P v Hv) as [->|X]; [exfalso|exact X].
  set (L := z_num (p_zc p)) in *. destruct (edges _ _ _ _ _ I (L - 1)%N ltac:(lia)) as (f & Af & _ & _ & _ & S).
  destruct (pi_pk _ _ _ _ _ _ _ _ _ _ _ I) as [K1 K2].
  assert (Sf : strong p (L - 1) f).
  { split; [lia|]. split; [exact Af|]. unfold pd_threshold. exact (closed_strong _ _ f _ (S (or_intror St)) K1 K2). }
  destruct Hv as [(i & g & Hi & (S1 & S2 & S3) & La & C)|[_ X]].
  - pose proof (before_strong i ltac:(lia) g S2) as B. destruct C as [(j & Hj & (e & (T1 & T2 & T3) & T4 & T5) & No)|[_ X]].
    + destruct (N.eq_dec j (i - 1)) as [->|Q].
      * destruct B as (e' & (U1 & U2 & U3) & U4 & _). assert (Z : z32 P = z32 (-1)) by congruence.
        pose proof (z32_not_m1 P HP) as F. rewrite Z in F. rewrite z32_m1_feq in F. discriminate.
      * exact (No (i - 1)%N _ ltac:(lia) B).
    + exact (X (i - 1)%N _ ltac:(lia) B).
  - exact (X (L - 1)%N f ltac:(lia) Sf).
Qed.
End One.

(** the run, with the length of the window *)
Definition frames (z : zc) (n : Z) : Prop :=
  (Z.of_N (z_frame z) = n /\ z_ready z = false) \/
  (W / 2 <= z_frame z /\ (z_ready z = false -> W / 2 + 1 <= z_frame z))%N.
Lemma run_per2 k : D <= Z.of_nat k -> exists p z m E J, pd_run oob p0 (first_samples x k) = Some p /\ p_min p = min /\
  (forall s, zc_step (p_zc p) s = zc_step z s) /\ (D < Z.of_nat k \/ D = 0 -> p_zc p = z) /\
  perinv (Z.of_N W) h hyst P a c (Z.of_nat k - D) z m E J /\ frames z (Z.of_nat k - D).
Proof using All.
  assert (Mn' : Z.of_N min <= P) by lia.
  intros Dk. assert (X : exists j, k = (Z.to_nat D + j)%nat) by (exists (k - Z.to_nat D)%nat; lia). destruct X as (j & ->). clear Dk.
  destruct start_wb as (B & M).
  assert (PM : forall xs p, pd_run oob p0 xs = Some p -> p_min p = min).
  { intros xs p Er. destruct (pd_run_ok oob hyst nw min range xs Hn) as (q0 & q & G1 & G2 & _ & _ & _ & _ & _ & Pm & _). congruence. }
  destruct (start_per oob hyst nw min range x P a c D h p0 Hn E0 HD HD2 Hq Hh OP HA HP HPW HM ST Mn') as (J & I).
  induction j as [|j IH].
  - destruct (quiet_end oob hyst nw min range x P a c D h p0 Hn E0 HD HD2 Hq Hh OP HA HP HPW HM ST Mn') as (p & Er & Tr & Z0).
    rewrite Nat.add_0_r. exists p, (first_zc hyst h p0), (-1), [], J. replace (Z.of_nat (Z.to_nat D) - D) with 0 by lia.
    split; [exact Er|]. split; [exact (PM _ _ Er)|]. split; [exact Tr|]. split; [intros [X|X]; [lia|exact (Z0 X)]|]. split; [exact I|].
    left. split; reflexivity.
  - destruct IH as (p & z & m & E & J1 & Er & _ & Tr & _ & Ip & S).
    destruct (step0 p (Z.to_nat D + j) z m E J1 Er Tr ltac:(lia) Ip) as (p' & m' & E' & J' & Es & I' & S2).
    replace (Z.to_nat D + Datatypes.S j)%nat with (Datatypes.S (Z.to_nat D + j)) by lia. set (k := (Z.to_nat D + j)%nat) in *.
    assert (Er' : pd_run oob p0 (first_samples x (Datatypes.S k)) = Some p') by (rewrite first_snoc, pd_run_snoc, Er; exact Es).
    exists p', (p_zc p'), m', E', J'. split; [exact Er'|]. split; [exact (PM _ _ Er')|]. split; [reflexivity|]. split; [reflexivity|]. split; [exact I'|].
    unfold frames in *. destruct (z_ready (p_zc p')) eqn:R.
    + right. split; [|discriminate]. pose proof (pi_frame _ _ _ _ _ _ _ _ _ _ _ I') as Fr. rewrite R in Fr. destruct Fr as (_ & Fr & _).
      unfold zc_now in Fr. rewrite R in Fr. pose proof (pi_win _ _ _ _ _ _ _ _ _ _ _ I') as Wn. fold W in Wn.
      assert (Ww : z_win (p_zc p') = W) by (apply N2Z.inj; exact Wn). rewrite Ww in Fr.
      assert (Wm : (W mod 2 = 0)%N) by (generalize (N.div_mod W 64 ltac:(lia)); rewrite M; intros Y; rewrite Y, N.add_0_r; replace (64 * (W / 64))%N with ((32 * (W / 64)) * 2)%N by lia; apply N.mod_mul; lia).
      pose proof (N.div_mod W 2 ltac:(lia)). lia.
    + rewrite (S2 eq_refl). destruct S as [[S _]|[S _]]; [left; split; [lia|reflexivity]|right]. split; intros; lia.
Qed.

(** the state after an ended pulse *)
Lemma ended p n m E J : perinv (Z.of_N W) h hyst P a c n (p_zc p) m E J -> frames (p_zc p) n ->
  forall q, 1 <= q -> n = c + q * P + 1 -> z_state (p_zc p) = false /\ (2 <= z_num (p_zc p))%N.
Proof using All.
  intros I S q Hq1 Hk. unfold frames in S. pose proof (op_order _ _ _ _ _ OP) as O. pose proof I as [R Nm Hw Hy Hp Cp Pk Ld Lo Sh Fr].
  destruct start_wb as (B & M).
  assert (W2 : Z.of_N (W / 2) * 2 = Z.of_N W).
  { assert (Wm : (W mod 2 = 0)%N) by (generalize (N.div_mod W 64 ltac:(lia)); rewrite M; intros Y; rewrite Y, N.add_0_r; replace (64 * (W / 64))%N with ((32 * (W / 64)) * 2)%N by lia; apply N.mod_mul; lia).
    pose proof (N.div_mod W 2 ltac:(lia)). lia. }
  assert (St : z_state (p_zc p) = false).
  { destruct (z_state (p_zc p)); [exfalso|reflexivity]. destruct Sh as (_ & _ & _ & _ & _ & B1). rewrite Hk in B1.
    assert (q < m) by (destruct (Z_lt_ge_dec q m) as [Y|Y]; [exact Y|assert (m * P <= q * P) by (apply Z.mul_le_mono_nonneg_r; lia); lia]).
    assert ((q + 1) * P <= m * P) by (apply Z.mul_le_mono_nonneg_r; lia). lia. }
  split; [exact St|]. rewrite St in Sh. destruct Sh as (_ & Tm & Tn). rewrite Hk in Tm, Tn. rewrite Nm.
  assert (Mq : m = q).
  { assert (q < m + 1).
    { destruct (Z_lt_ge_dec q (m + 1)) as [Y|Y]; [exact Y|]. assert ((m + 1) * P <= q * P) by (apply Z.mul_le_mono_nonneg_r; lia). lia. }
    destruct Tm as [Tm|Tm]; [lia|]. assert (m < q + 1); [|lia].
    destruct (Z_lt_ge_dec m (q + 1)) as [Y|Y]; [exact Y|]. assert ((q + 1) * P <= m * P) by (apply Z.mul_le_mono_nonneg_r; lia). lia. }
  subst m. destruct Lo as (L1 & L2 & L3 & L4). assert (Zl : zlen E = Z.of_nat (length E)) by reflexivity.
  destruct L3 as [L3|L3]; [lia|].
  assert (Nw : P + 1 <= zc_now (p_zc p)).
  { assert (1 * P <= q * P) by (apply Z.mul_le_mono_nonneg_r; lia). unfold zc_now. assert (Ww : z_win (p_zc p) = W) by (apply N2Z.inj; exact Hw). rewrite Ww. destruct (z_ready (p_zc p)) eqn:Rd.
    - destruct S as [[_ X]|[X _]]; [discriminate|]. lia.
    - destruct S as [[X _]|[_ X]]; [rewrite X; lia|]. specialize (X eq_refl). lia. }
  assert (1 < zlen E); [|lia]. destruct (Z_lt_ge_dec 1 (zlen E)) as [Y|Y]; [exact Y|exfalso].
  assert ((q - 1) * P <= (q - zlen E) * P) by (apply Z.mul_le_mono_nonneg_r; lia). lia.
Qed.
(** pulses end at the closing samples only *)
Lemma fall_at n z z' m m' E E' J J' : perinv (Z.of_N W) h hyst P a c n z m E J -> perinv (Z.of_N W) h hyst P a c (n + 1) z' m' E' J' ->
  z_state z = true -> z_state z' = false -> n = c + m * P.
Proof using All.
  intros I I' S S'. pose proof (op_order _ _ _ _ _ OP) as O. pose proof (pi_shape _ _ _ _ _ _ _ _ _ _ _ I) as Sh. pose proof (pi_shape _ _ _ _ _ _ _ _ _ _ _ I') as Sh'.
  rewrite S in Sh. rewrite S' in Sh'. destruct Sh as (_ & _ & _ & _ & _ & B1). destruct Sh' as (_ & B2 & B3).
  assert (M1 : m < m' + 1).
  { destruct (Z_lt_ge_dec m (m' + 1)) as [Y|Y]; [exact Y|]. assert ((m' + 1) * P <= m * P) by (apply Z.mul_le_mono_nonneg_r; lia). lia. }
  destruct (pi_low _ _ _ _ _ _ _ _ _ _ _ I) as (_ & M0 & _). destruct B2 as [B2|B2].
  - exfalso. subst m'. pose proof (pi_shape _ _ _ _ _ _ _ _ _ _ _ I) as Sh. rewrite S in Sh. destruct Sh as (e & r & -> & _). unfold zlen in M0. cbn [length] in M0. lia.
  - assert (m * P <= m' * P) by (apply Z.mul_le_mono_nonneg_r; lia). lia.
Qed.
Lemma in_pulse_at n z m E J : perinv (Z.of_N W) h hyst P a c n z m E J -> forall q, 0 <= q -> n = c + q * P -> z_state z = true.
Proof using All.
  intros I q Hq0 Hqn. pose proof (op_order _ _ _ _ _ OP) as O. pose proof (pi_shape _ _ _ _ _ _ _ _ _ _ _ I) as Sh. destruct (z_state z); [reflexivity|exfalso].
  destruct Sh as (_ & B2 & B3). destruct (Z_lt_ge_dec q (m + 1)) as [Y|Y].
  - destruct B2 as [B2|B2]; [|assert (q * P <= m * P) by (apply Z.mul_le_mono_nonneg_r; lia); lia].
    lia.
  - assert ((m + 1) * P <= q * P) by (apply Z.mul_le_mono_nonneg_r; lia). lia.
Qed.
End Pred.

(** histories of samples and predictions *)
Lemma calls_app oob cs1 : forall p cs2, pd_calls oob p (cs1 ++ cs2) = do q <- pd_calls oob p cs1 ; pd_calls oob q cs2.
Proof.
  induction cs1 as [|[s|] cs IH]; intros p cs2; cbn [app pd_calls]; [reflexivity| |].
  - destruct (pd_step oob p s); cbn [bind]; [apply IH|reflexivity].
  - destruct (pd_predict p); cbn [bind]; [apply IH|reflexivity].
Qed.
Lemma samples_app cs1 cs2 : samples (cs1 ++ cs2) = samples cs1 ++ samples cs2.
Proof. induction cs1 as [|[s|] cs IH]; cbn [app samples]; [reflexivity|f_equal; exact IH|exact IH]. Qed.
Lemma first_len x k : length (first_samples x k) = k.
Proof. unfold first_samples. rewrite map_length, seq_length. reflexivity. Qed.
Lemma pit_pd oob cs : forall t t', pit_calls oob t cs = Some t' -> pd_calls oob (t_pd t) cs = Some (t_pd t') /\ t_sps t' = t_sps t.
Proof.
  induction cs as [|[s|] cs IH]; intros t t'; cbn [pit_calls pd_calls].
  - intros E. injection E as <-. auto.
  - unfold pit_step. destruct (pd_step oob (t_pd t) s) as [p|]; cbn [bind]; [|discriminate]. cbv zeta.
    match goal with |- context [bind ?z _] => assert (Q : exists t1 b, z = Some (t1, b) /\ t_pd t1 = p /\ t_sps t1 = t_sps t) end.
    { assert (Bs : forall u i, t_pd (bias oob u i) = t_pd u /\ t_sps (bias oob u i) = t_sps u).
      { intros u i. unfold bias. destruct (bias_pick _ _ _ _ _) as [r [|]]; [|auto]. cbv zeta. destruct (fge _ _); [auto|]. destruct (flt _ _); auto. }
      destruct (z_ready (p_zc p)); [|eexists _, _; split; [reflexivity|auto]].
      destruct (feq _ _); [eexists _, _; split; [reflexivity|auto]|].
      destruct (feq _ _).
      - destruct (_ && _)%bool; eexists _, _; (split; [reflexivity|auto]).
      - eexists _, _. split; [reflexivity|]. destruct (fgt _ _); [rewrite (proj1 (Bs _ _)), (proj2 (Bs _ _))|]; destruct (flt _ _); auto. }
    destruct Q as (t1 & b & -> & <- & Sp). cbn [bind fst]. intros E. destruct (IH _ _ E) as [A B]. rewrite B. auto.
  - unfold predict_frequency. destruct (pd_predict (t_pd t)) as [[p v]|]; cbn [bind fst snd]; [|discriminate].
    intros E. destruct (IH _ _ E) as [A B]. cbn [t_pd t_sps] in A, B. auto.
Qed.

Section Calls.
Variables (oob : f32 -> Z) (hyst : f32) (nw min : N) (range : Z) (x : Z -> f32) (P a c D : Z) (h : Z -> f32) (p0 : pd).
Hypothesis Hn : (nw <= 2 ^ 28)%N.
Hypothesis E0 : pd_make hyst nw min range = Some p0.
Let W := z_win (p_zc p0).
Hypothesis HD : 0 <= D.
Hypothesis HD2 : D mod (Z.of_N W / 2) = 0.
Hypothesis Hq : forall k, 0 <= k < D -> flt fzero (cond_of hyst x k) = false.
Hypothesis Hh : forall k, h k = cond_of hyst x (k + D).
Hypothesis OP : one_pulse h hyst P a c.
Hypothesis HA : a < Z.of_N W / 2.
Hypothesis HP : 4 <= P < 2 ^ 24.
Hypothesis HPW : 2 * P <= Z.of_N W.
Hypothesis HM : P + 2 <= 2 * (Z.of_N (N.max (W / 64 / 2 - 1) 1) * 64).
Hypothesis ST : is_finite (fsub (h a) (h (a - 1))) = true.
Hypothesis Mn : Z.of_N min < P.

(** the state after a history *)
Lemma calls_at cs k q : samples cs = first_samples x k -> pd_calls oob p0 cs = Some q -> D < Z.of_nat k ->
  exists m E J, p_min q = min /\ perinv (Z.of_N W) h hyst P a c (Z.of_nat k - D) (p_zc q) m E J /\ frames p0 (p_zc q) (Z.of_nat k - D).
Proof using All.
  intros Es Ec Dk. destruct (calls_run oob cs p0 q Ec) as (r & v & e & Er & ->). rewrite Es in Er.
  destruct (run_per2 oob hyst nw min range x P a c D h p0 Hn E0 HD HD2 Hq Hh OP HA HP HPW HM ST Mn k ltac:(lia)) as (p & z & m & E & J & Ep & Mp & _ & Zz & I & F).
  assert (p = r) by congruence. subst p. rewrite <- (Zz (or_introl Dk)) in I, F. exists m, E, J. auto.
Qed.
(** ... within the silence: no edges *)
Lemma calls_silent cs k q : samples cs = first_samples x k -> pd_calls oob p0 cs = Some q -> Z.of_nat k <= D -> z_num (p_zc q) = 0%N.
Proof using All.
  intros Es Ec Dk. destruct (calls_run oob cs p0 q Ec) as (r & v & e & Er & ->). rewrite Es in Er. assert (Mn' : Z.of_N min <= P) by lia.
  destruct (quiet oob hyst nw min range x P a c D h p0 Hn E0 HD HD2 Hq Hh OP HA HP HPW HM ST Mn' k Dk) as (f & Eq & _).
  rewrite Eq in Er. injection Er as <-. reflexivity.
Qed.
Lemma predict_cases cs k q q' v : samples cs = first_samples x k -> pd_calls oob p0 cs = Some q ->
  p_predicted q = z32 (-1) \/ p_predicted q = z32 P -> pd_predict q = Some (q', v) -> (v = z32 (-1) \/ v = z32 P) /\ p_predicted q' = v.
Proof using All.
  intros Es Ec Hp Hv.
  destruct (feq (p_predicted q) (z32 (-1)) && negb (p_mark q =? p_predict_edge q)%N)%bool eqn:C.
  - apply andb_true_iff in C. destruct C as [C1 C2]. apply negb_true_iff, N.eqb_neq in C2.
    assert (Hm : p_predicted q = z32 (-1)) by (destruct Hp as [X|X]; [exact X|rewrite X, (z32_not_m1 P HP) in C1; discriminate]).
    pose proof (predict_fresh q q' v Hm C2 Hv) as Pr.
    split.
    { destruct (Z_lt_ge_dec D (Z.of_nat k)) as [Dk|Dk].
      - destruct (calls_at cs k q Es Ec Dk) as (m & E & J & Mp & I & F).
        exact (predicts_P oob hyst nw min range x P a c D h p0 Hn E0 HD HD2 Hq Hh OP HA HP HPW HM ST Mn q _ m E J I Mp v Pr).
      - left. pose proof (calls_silent cs k q Es Ec ltac:(lia)) as N0. destruct Pr as [(i & f & _ & (Hi & _) & _)|[X _]]; [exfalso; lia|exact X]. }
    unfold pd_predict in Hv. rewrite C1 in Hv. replace (p_mark q =? p_predict_edge q)%N with false in Hv by (symmetry; apply N.eqb_neq; exact C2). cbn [andb negb] in Hv.
    destruct (if (1 <? z_num (p_zc q))%N then predict_outer q (N.to_nat (z_num (p_zc q))) else Some None) as [o|]; cbn [bind] in Hv; [|discriminate].
    injection Hv as <- <-. reflexivity.
  - unfold pd_predict in Hv. rewrite C in Hv. injection Hv as <- <-. auto.
Qed.
Lemma calls_predicted cs : forall k q, samples cs = first_samples x k -> pd_calls oob p0 cs = Some q -> p_predicted q = z32 (-1) \/ p_predicted q = z32 P.
Proof using All.
  induction cs as [|[s|] cs IH] using rev_ind; intros k q Es Ec.
  - cbn [pd_calls] in Ec. injection Ec as <-. left. exact (proj2 (make_minv _ _ _ _ _ E0)).
  - rewrite samples_app in Es. cbn [samples] in Es. destruct k as [|k].
    { exfalso. cbn in Es. destruct (samples cs); discriminate. }
    rewrite first_snoc in Es. apply app_inj_tail in Es. destruct Es as [Es _].
    rewrite calls_app in Ec. destruct (pd_calls oob p0 cs) as [p|] eqn:Ep; cbn [bind pd_calls] in Ec; [|discriminate].
    destruct (pd_step oob p s) as [p'|] eqn:E1; cbn [bind] in Ec; [|discriminate]. injection Ec as <-.
    rewrite (proj1 (step_mutable _ _ _ _ E1)). destruct (fell p p'); [left; reflexivity|]. exact (IH k p Es eq_refl).
  - rewrite samples_app in Es. cbn [samples] in Es. rewrite app_nil_r in Es.
    rewrite calls_app in Ec. destruct (pd_calls oob p0 cs) as [p|] eqn:Ep; cbn [bind pd_calls] in Ec; [|discriminate].
    destruct (pd_predict p) as [[p' v]|] eqn:E1; cbn [bind fst] in Ec; [|discriminate]. injection Ec as <-.
    destruct (predict_cases cs k p p' v Es Ep (IH k p Es eq_refl) E1) as [A ->]. exact A.
Qed.
(** a prediction at the end of a pulse *)
Lemma predict_at_end cs q k p q' v : (N.of_nat (length cs) + 1 < 2 ^ 64)%N -> 1 <= q -> Z.of_nat k = D + c + q * P -> samples cs = first_samples x k ->
  pd_calls oob p0 (cs ++ [Sample (x (Z.of_nat k))]) = Some p -> pd_predict p = Some (q', v) -> v = z32 P.
Proof using All.
  intros Hl Hq1 Hk Es Ec Hv. pose proof (op_order _ _ _ _ _ OP) as O.
  assert (Es' : samples (cs ++ [Sample (x (Z.of_nat k))]) = first_samples x (S k)) by (rewrite samples_app, Es, first_snoc; reflexivity).
  assert (Dk : 1 * P <= q * P) by (apply Z.mul_le_mono_nonneg_r; lia).
  destruct (calls_at _ _ _ Es' Ec ltac:(lia)) as (m & E & J & Mp & I & F).
  destruct (ended oob hyst nw min range x P a c D h p0 Hn E0 HD HD2 Hq Hh OP HA HP HPW HM ST Mn p _ m E J I F q Hq1 ltac:(lia)) as [St N2].
  pose proof Ec as Ec'. rewrite calls_app in Ec'. destruct (pd_calls oob p0 cs) as [p1|] eqn:E1; cbn [bind pd_calls] in Ec'; [|discriminate].
  destruct (pd_step oob p1 (x (Z.of_nat k))) as [p2|] eqn:E2; cbn [bind] in Ec'; [|discriminate]. assert (p2 = p) by congruence. subst p2.
  destruct (calls_at _ _ _ Es E1 ltac:(lia)) as (m1 & F1 & J1 & _ & I1 & _).
  assert (S1 : z_state (p_zc p1) = true).
  { apply (in_pulse_at oob hyst nw min range x P a c D h p0 Hn E0 HD HD2 Hq Hh OP HA HP HPW HM ST Mn _ _ m1 F1 J1 I1 q); lia. }
  assert (Fl : fell p1 p = true) by (unfold fell; rewrite S1, St; reflexivity).
  pose proof (predict_after_edge oob hyst nw min range p0 cs p1 _ p [] p q' v ltac:(cbn [length]; lia) E0 E1 E2 Fl eq_refl Hv) as Pr.
  exact (predicts_closed oob hyst nw min range x P a c D h p0 Hn E0 HD HD2 Hq Hh OP HA HP HPW HM ST Mn p _ m E J I Mp v St N2 Pr).
Qed.
(** until the next pulse ends *)
Lemma predict_until cs q k : (N.of_nat (length cs) + 1 < 2 ^ 64)%N -> 1 <= q -> Z.of_nat k = D + c + q * P -> samples cs = first_samples x k ->
  forall cs2 j p, samples (cs ++ Sample (x (Z.of_nat k)) :: Predict :: cs2) = first_samples x j -> Z.of_nat j <= D + c + (q + 1) * P ->
  pd_calls oob p0 (cs ++ Sample (x (Z.of_nat k)) :: Predict :: cs2) = Some p -> pd_predict p = Some (p, z32 P).
Proof using All.
  intros Hl Hq1 Hk Es cs2.
  induction cs2 as [|[s|] cs2 IH] using rev_ind; intros j p Ej Hj Ec.
  - replace (cs ++ [Sample (x (Z.of_nat k)); Predict]) with ((cs ++ [Sample (x (Z.of_nat k))]) ++ [Predict]) in Ec by (rewrite <- app_assoc; reflexivity).
    rewrite calls_app in Ec. destruct (pd_calls oob p0 (cs ++ [Sample (x (Z.of_nat k))])) as [p1|] eqn:E1; cbn [bind pd_calls] in Ec; [|discriminate].
    destruct (pd_predict p1) as [[p2 v]|] eqn:E2; cbn [bind fst] in Ec; [|discriminate]. injection Ec as <-.
    rewrite <- (predict_at_end cs q k p1 p2 v Hl Hq1 Hk Es E1 E2). exact (predict_again _ _ _ E2).
  - replace (cs ++ Sample (x (Z.of_nat k)) :: Predict :: cs2 ++ [Sample s]) with ((cs ++ Sample (x (Z.of_nat k)) :: Predict :: cs2) ++ [Sample s]) in Ej, Ec by (rewrite <- app_assoc; reflexivity).
    set (cc := cs ++ Sample (x (Z.of_nat k)) :: Predict :: cs2) in *.
    assert (Lc : (S k <= length (samples cc))%nat).
    { unfold cc. rewrite samples_app, Es. cbn [samples]. rewrite app_length, first_len. cbn [length]. lia. }
    rewrite samples_app in Ej. cbn [samples] in Ej. destruct j as [|j].
    { exfalso. cbn in Ej. destruct (samples cc); discriminate. }
    rewrite first_snoc in Ej. apply app_inj_tail in Ej. destruct Ej as [Ej Sx]. rewrite Ej, first_len in Lc.
    rewrite calls_app in Ec. destruct (pd_calls oob p0 cc) as [p1|] eqn:E1; cbn [bind pd_calls] in Ec; [|discriminate].
    destruct (pd_step oob p1 s) as [p2|] eqn:E2; cbn [bind] in Ec; [|discriminate]. injection Ec as <-.
    apply (predict_kept oob p1 p1 (z32 P) s p2 (IH j p1 Ej ltac:(lia) eq_refl) E2).
    destruct (fell p1 p2) eqn:Fl; [exfalso|reflexivity]. unfold fell in Fl. apply andb_true_iff in Fl. destruct Fl as [S1 S2]. apply negb_true_iff in S2.
    pose proof (op_order _ _ _ _ _ OP) as O. assert (Dk : 1 * P <= q * P) by (apply Z.mul_le_mono_nonneg_r; lia).
    destruct (calls_at _ _ _ Ej E1 ltac:(lia)) as (m1 & F1 & J1 & _ & I1 & _).
    assert (Ec2 : pd_calls oob p0 (cc ++ [Sample s]) = Some p2) by (rewrite calls_app, E1; cbn [bind pd_calls]; rewrite E2; reflexivity).
    assert (Ej2 : samples (cc ++ [Sample s]) = first_samples x (S j)) by (rewrite samples_app, Ej, first_snoc, Sx; reflexivity).
    destruct (calls_at _ _ _ Ej2 Ec2 ltac:(lia)) as (m2 & F2 & J2 & _ & I2 & _). replace (Z.of_nat (S j) - D) with (Z.of_nat j - D + 1) in I2 by lia.
    pose proof (fall_at oob hyst nw min range x P a c D h p0 Hn E0 HD HD2 Hq Hh OP HA HP HPW HM ST Mn _ _ _ m1 m2 F1 F2 J1 J2 I1 I2 S1 S2) as Q.
    assert (q < m1) by (destruct (Z_lt_ge_dec q m1) as [Y|Y]; [exact Y|assert (m1 * P <= q * P) by (apply Z.mul_le_mono_nonneg_r; lia); lia]).
    assert ((q + 1) * P <= m1 * P) by (apply Z.mul_le_mono_nonneg_r; lia). lia.
  - replace (cs ++ Sample (x (Z.of_nat k)) :: Predict :: cs2 ++ [Predict]) with ((cs ++ Sample (x (Z.of_nat k)) :: Predict :: cs2) ++ [Predict]) in Ej, Ec by (rewrite <- app_assoc; reflexivity).
    set (cc := cs ++ Sample (x (Z.of_nat k)) :: Predict :: cs2) in *.
    rewrite samples_app in Ej. cbn [samples] in Ej. rewrite app_nil_r in Ej.
    rewrite calls_app in Ec. destruct (pd_calls oob p0 cc) as [p1|] eqn:E1; cbn [bind pd_calls] in Ec; [|discriminate].
    pose proof (IH j p1 Ej Hj eq_refl) as Q. rewrite Q in Ec. cbn [bind fst] in Ec. injection Ec as <-. exact Q.
Qed.
End Calls.
