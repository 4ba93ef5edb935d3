(** The analysis of a window filled with one pulse per period. *)
From Coq Require Import Reals Lra.
From Flocq Require Import Core.Core IEEE754.BinarySingleNaN.
From Verif Require Import Common CommonFacts Float FloatFacts Ring_Model Ring_Spec Ring_Proof Bitset_Model Bitset_Spec Bitset_Proof DetectF_Proof
  Zc_Model Zc_Spec Zc_Proof PD_Model PD_Spec PD_Proof Per_Spec Per_Zc.
Local Open Scope Z_scope.

(** in_pulse *)
Section Arc.
Variables P a c : Z.
Hypothesis HP : 4 <= P.
Hypothesis Hac : 0 <= a < c /\ c < a + P.
(** the pattern without an onset *)
Definition pp (k : Z) : bool := (k - a) mod P <? c - a.
Lemma pp_q k q : a + q * P <= k < a + (q + 1) * P -> pp k = (k <? c + q * P).
Proof.
  intros B. unfold pp. replace ((k - a) mod P) with (k - a - q * P) by (apply (Z.mod_unique _ _ q); lia).
  destruct (Z.ltb_spec (k - a - q * P) (c - a)), (Z.ltb_spec k (c + q * P)); try reflexivity; lia.
Qed.
Lemma pp_in k q : a + q * P <= k < c + q * P -> pp k = true.
Proof. intros B. rewrite (pp_q k q) by lia. destruct (Z.ltb_spec k (c + q * P)); auto; lia. Qed.
Lemma pp_out k q : c + q * P <= k < a + (q + 1) * P -> pp k = false.
Proof. intros B. rewrite (pp_q k q) by lia. destruct (Z.ltb_spec k (c + q * P)); auto; lia. Qed.
Lemma inp_pp k : c - P <= k -> in_pulse P a c k = pp k.
Proof.
  intros B. unfold in_pulse. fold (pp k). destruct (Z.leb_spec a k) as [L|L]; [reflexivity|]. cbn [andb]. symmetry. apply (pp_out k (-1)). lia.
Qed.
Lemma inp_in k q : 0 <= q -> a + q * P <= k < c + q * P -> in_pulse P a c k = true.
Proof.
  intros Hq B. assert (0 <= q * P) by (apply Z.mul_nonneg_nonneg; lia). unfold in_pulse. fold (pp k). rewrite (pp_in k q B).
  destruct (Z.leb_spec a k); [reflexivity|lia].
Qed.
Lemma inp_per k : c - P <= k -> in_pulse P a c (k + P) = in_pulse P a c k.
Proof.
  intros B. rewrite !inp_pp by lia. unfold pp. replace (k + P - a) with (k - a + 1 * P) by lia. rewrite Z.mod_add by lia. reflexivity.
Qed.
(** the only places where a pulse begins *)
Lemma pp_edge k : pp (k - 1) = false -> pp k = true -> (k - a) mod P = 0.
Proof.
  intros F T. set (q := (k - a) / P). pose proof (Z.div_mod (k - a) P ltac:(lia)) as D. pose proof (Z.mod_pos_bound (k - a) P ltac:(lia)) as M. fold q in D.
  assert (B : a + q * P <= k < a + (q + 1) * P) by lia. rewrite (pp_q k q B) in T.
  destruct (Z.eq_dec ((k - a) mod P) 0) as [E|E]; [exact E|exfalso]. rewrite (pp_q (k - 1) q) in F by lia. lia.
Qed.
(** half a period apart, the pattern differs somewhere within any half period plus one *)
Lemma inp_half o : c - P <= o -> exists j, 0 <= j <= P - P / 2 /\ in_pulse P a c (o + j) <> in_pulse P a c (o + j + P / 2).
Proof.
  intros Co. set (d := P / 2). assert (D : 2 * d <= P <= 2 * d + 1) by (unfold d; lia).
  enough (X : exists j, 0 <= j <= P - d /\ pp (o + j) <> pp (o + j + d)).
  { destruct X as (j & Hj & X). exists j. split; [exact Hj|]. rewrite !inp_pp by lia. exact X. }
  (* the rise in [o+1, o+P] *)
  set (s := (a - o - 1) mod P + 1). pose proof (Z.mod_pos_bound (a - o - 1) P ltac:(lia)) as M. fold s in M.
  set (q := - ((a - o - 1) / P)). pose proof (Z.div_mod (a - o - 1) P ltac:(lia)) as E.
  assert (T : o + s = a + q * P) by (unfold s, q; lia). assert (Bs : 1 <= s <= P) by (unfold s; lia).
  assert (R1 : pp (o + s) = true) by (apply (pp_in _ q); lia).
  assert (R0 : pp (o + s - 1) = false) by (apply (pp_out _ (q - 1)); lia).
  assert (NR : forall k, (k - (o + s) = d \/ k - (o + s) = - d) -> pp (k - 1) = false -> pp k = true -> False).
  { intros k Hk F G. pose proof (pp_edge k F G) as X. pose proof (Z.div_mod (k - a) P ltac:(lia)) as Dk. rewrite X in Dk.
    assert (Y : ((k - a) / P - q) * P = d \/ ((k - a) / P - q) * P = - d) by lia.
    set (u := (k - a) / P - q) in *. destruct (Z.eq_dec u 0) as [U|U]; [rewrite U in Y; lia|].
    assert (P <= Z.abs (u * P)). { rewrite Z.abs_mul. rewrite (Z.abs_eq P) by lia. assert (1 <= Z.abs u) by lia. nia. }
    lia. }
  destruct (Z_le_gt_dec s (P - d)) as [L|L].
  - destruct (Bool.bool_dec (pp (o + s)) (pp (o + s + d))) as [Q|Q]; [|exists s; split; [lia|exact Q]].
    destruct (Bool.bool_dec (pp (o + (s - 1))) (pp (o + (s - 1) + d))) as [Q'|Q']; [|exists (s - 1); split; [lia|exact Q']].
    exfalso. apply (NR (o + s + d)); [lia| |congruence]. replace (o + s + d - 1) with (o + (s - 1) + d) by lia.
    rewrite <- Q'. replace (o + (s - 1)) with (o + s - 1) by lia. exact R0.
  - destruct (Bool.bool_dec (pp (o + (s - d))) (pp (o + (s - d) + d))) as [Q|Q]; [|exists (s - d); split; [lia|exact Q]].
    destruct (Bool.bool_dec (pp (o + (s - d - 1))) (pp (o + (s - d - 1) + d))) as [Q'|Q']; [|exists (s - d - 1); split; [lia|exact Q']].
    exfalso. replace (o + (s - d) + d) with (o + s) in Q by lia. replace (o + (s - d - 1) + d) with (o + s - 1) in Q' by lia.
    apply (NR (o + s - d)); [lia| |]; [replace (o + s - d - 1) with (o + (s - d - 1)) by lia|replace (o + s - d) with (o + (s - d)) by lia]; congruence.
Qed.
End Arc.

(** positive numbers against the pulse threshold *)
Lemma strong_peak (v pk : f32) : flt fzero pk = true -> flt pk v = false -> (v = fzero \/ flt fzero v = true) -> fge pk (fmul v pulse_threshold) = true.
Proof.
  intros Hp Hl Hv.
  assert (Ft : fin pulse_threshold) by (vm_compute; reflexivity).
  assert (T0 : (0 <= B2R pulse_threshold)%R).
  { apply (fle_true fzero pulse_threshold eq_refl Ft). vm_compute. reflexivity. }
  assert (T1 : (B2R pulse_threshold <= 1)%R).
  { destruct (mk32_small 1 0 ltac:(reflexivity) ltac:(lia)) as [V1 F1]. change (bpow radix2 0) with 1%R in V1. rewrite Rmult_1_r in V1. rewrite <- V1.
    apply (fle_true pulse_threshold (mk32 1 0) Ft F1). vm_compute. reflexivity. }
  assert (FV : fin v -> fin (fmul v pulse_threshold) /\ (B2R (fmul v pulse_threshold) <= B2R v)%R).
  { intros Fv. assert (V0 : (0 <= B2R v)%R).
    { destruct Hv as [->|Hv]; [apply Rle_refl|]. apply (flt_true fzero v eq_refl Fv) in Hv. apply Rlt_le. exact Hv. }
    assert (PR : (0 <= B2R v * B2R pulse_threshold <= B2R v)%R).
    { split; [apply Rmult_le_pos; assumption|]. rewrite <- (Rmult_1_r (B2R v)) at 2. apply Rmult_le_compat_l; assumption. }
    assert (Fm : fmt 24 128 (B2R v)) by apply fmt_v.
    assert (RB : (0 <= rnd 24 128 (B2R v * B2R pulse_threshold) <= B2R v)%R).
    { split; [apply rnd_ge_fmt; [apply fmt_0|lra]|apply rnd_le_fmt; [exact Fm|lra]]. }
    destruct (fmul_R v pulse_threshold Fv Ft) as [E F].
    { rewrite Rabs_pos_eq by lra. apply Rle_lt_trans with (1 := proj2 RB). apply Rle_lt_trans with (1 := Rle_abs _). apply abs_B2R_lt_emax. }
    split; [exact F|]. rewrite E. lra. }
  change (fge pk (fmul v pulse_threshold)) with (fle (fmul v pulse_threshold) pk).
  destruct (is_finite pk) eqn:Fp.
  - assert (Fv : fin v).
    { destruct Hv as [->|Hv]; [reflexivity|]. destruct v as [|[|]| |]; try reflexivity; try discriminate Hv.
      destruct pk as [|[|]| |]; try discriminate Fp; discriminate Hl. }
    destruct (FV Fv) as [F L]. apply (flt_false pk v Fp Fv) in Hl. apply (fle_true _ _ F Fp). lra.
  - destruct pk as [|[|]| |]; try discriminate Fp; try discriminate Hp.
    destruct (is_finite v) eqn:Fv.
    + destruct (FV Fv) as [F _]. destruct (fmul v pulse_threshold) as [[|]|[|]| |[|] mm ee bb]; try discriminate F; reflexivity.
    + destruct Hv as [->|Hv]; [discriminate Fv|]. destruct v as [|[|]| |]; try discriminate Fv; try discriminate Hv. vm_compute. reflexivity.
Qed.

Lemma countN_pos f n j : (j < N.of_nat n)%N -> f j = true -> (countN f n <> 0)%N.
Proof.
  induction n as [|n IH]; intros L T; [lia|]. cbn [countN]. destruct (N.eq_dec j (N.of_nat n)) as [->|Q]; [rewrite T; lia|].
  specialize (IH ltac:(lia) T). lia.
Qed.
Lemma countN_none f n : (forall j, (j < N.of_nat n)%N -> f j = false) -> countN f n = 0%N.
Proof. intros H. rewrite (countN_ext f (fun _ => false) n H). apply countN_false. Qed.

Lemma filter_all {A} (f : A -> bool) l : (forall x, In x l -> f x = true) -> filter f l = l.
Proof.
  induction l as [|x l IH]; intros T; [reflexivity|]. cbn [filter]. rewrite (T x (or_introl eq_refl)), IH; [reflexivity|].
  intros y Hy. apply T. right. exact Hy.
Qed.

Section Win.
Variable W : N.
Hypothesis HW : (128 <= W <= 2 ^ 28)%N.
Hypothesis HW64 : (W mod 64 = 0)%N.
Variables (h : Z -> f32) (hyst : f32) (P a c : Z).
Hypothesis OP : one_pulse h hyst P a c.
Hypothesis HP : 4 <= P.
Hypothesis HPW : 2 * P <= Z.of_N W.
Notation Wz := (Z.of_N W).
Hypothesis HA : a < Wz / 2.
Notation perinv := (Per_Zc.perinv Wz h hyst P a c).
Notation train := (Per_Zc.train h P a c).
Notation edge_at := (Per_Zc.edge_at h P a).

Lemma WzB : 128 <= Wz <= 268435456. Proof. change (2 ^ 28)%N with 268435456%N in HW. lia. Qed.
Lemma Wz2 : Wz mod 2 = 0. Proof. lia. Qed.
Lemma train_nth E : forall o m k e, train o m E -> nth_error E k = Some e ->
  edge_at o (m - Z.of_nat k) c e /\ zi_trail e = c + (m - Z.of_nat k) * P - o.
Proof.
  induction E as [|g t IH]; intros o m [|k] e T N; try discriminate N; cbn [train nth_error Per_Zc.train] in *.
  - destruct T as (A1 & A2 & _). injection N as <-. rewrite Z.sub_0_r. auto.
  - destruct T as (_ & _ & T). destruct (IH o (m - 1) k e T N) as [B1 B2].
    replace (m - Z.of_nat (S k)) with (m - 1 - Z.of_nat k) by lia. auto.
Qed.

(** a full window *)
Record full (z : zc) (o m0 : Z) (L : N) : Prop := mkFull
  { fu_num : z_num z = L; fu_two : (2 <= L)%N; fu_o : 0 <= o; fu_m0 : 0 <= m0;
    fu_edge : forall i, (i < L)%N -> exists e, zc_at z i = Some e /\ edge_at o (m0 + Z.of_N i) c e /\ zi_trail e = c + (m0 + Z.of_N i) * P - o;
    fu_first : (m0 = 0 \/ c + (m0 - 1) * P - o < 0) /\ 0 <= c + m0 * P - o;
    fu_last : o + Wz <= a + (m0 + Z.of_N L) * P;
    fu_pk : seen h (z_peak z) /\ seen h (z_peak_update z) }.
Lemma ready_full n z m E J : perinv n z m E J -> z_ready z = true -> z_state z = false /\ full z (n - zc_now z) (m - zlen E + 1) (z_num z).
Proof.
  intros [R Nm Hw Hy Hp Cp Pk Ld Lo Sh Fr] Rd. rewrite Rd in Fr. destruct Fr as (St & F1 & L2). rewrite St in Sh.
  destruct Sh as (T & Tm & Tn). destruct Lo as (L1 & L3 & L4 & L5). split; [exact St|].
  assert (Q : Z.of_N (z_num z) = zlen E) by (rewrite Nm; unfold zlen; lia).
  constructor; auto; try lia.
  - intros i Hi. destruct (ring_at z E J i R Nm Hi) as (e & Ae & Qe). exists e. split; [exact Ae|].
    destruct (train_nth E _ _ _ _ T Qe) as [B1 B2].
    replace (m - zlen E + 1 + Z.of_N i) with (m - Z.of_nat (length E - 1 - N.to_nat i)); [auto|]. unfold zlen in *. lia.
Qed.

Section Full.
Variables (z : zc) (o m0 : Z) (L : N).
Hypothesis F : full z o m0 L.
Lemma ordN : 0 <= a < c /\ c < a + P. Proof. exact (op_order _ _ _ _ _ OP). Qed.

Lemma all_strong i e : zc_at z i = Some e -> (i < L)%N -> fge (zi_peak e) (fmul (zc_peak_pulse z) pulse_threshold) = true.
Proof.
  intros A Hi. destruct (fu_edge _ _ _ _ F i Hi) as (e' & A' & [E1 E2 E3 E4 E5] & _). rewrite A in A'. injection A' as <-.
  pose proof ordN as O.
  assert (S : forall v, seen h v -> flt (zi_peak e) v = false /\ (v = fzero \/ flt fzero v = true)).
  { intros v [->|(k & Hk & Pos & ->)].
    - split; [|left; reflexivity]. destruct (flt_asym fzero (zi_peak e)) as [X|X]; [exact X|congruence].
    - split; [|right; exact Pos].
      (* k is in a pulse *)
      assert (Ka : a <= k). { destruct (Z_lt_ge_dec k a) as [X|X]; [|lia]. rewrite (op_before _ _ _ _ _ OP k) in Pos by lia. discriminate Pos. }
      set (q := (k - a) / P). pose proof (Z.div_mod (k - a) P ltac:(lia)) as D. pose proof (Z.mod_pos_bound (k - a) P ltac:(lia)) as M. fold q in D.
      assert (Q0 : 0 <= q) by (apply Z.div_pos; lia). set (r := (k - a) mod P) in *.
      assert (Hr : h k = h (a + r)). { replace k with ((a + r) + q * P) by lia. apply (per Wz WzB Wz2 h hyst P a c OP HP q (a + r)); lia. }
      rewrite Hr in *. apply E5. split; [lia|].
      destruct (Z_lt_ge_dec (a + r) c) as [X|X]; [lia|]. rewrite (op_after _ _ _ _ _ OP (a + r)) in Pos by lia. discriminate Pos. }
  destruct (fu_pk _ _ _ _ F) as [K1 K2]. destruct (S _ K1) as [S1 S2]. destruct (S _ K2) as [S3 S4].
  unfold zc_peak_pulse. unfold fmax. destruct (flt (z_peak z) (z_peak_update z)); apply strong_peak; auto.
Qed.

Variable p : pd.
Hypothesis Zp : p_zc p = z.
Lemma qual_all i : (i < L)%N -> forall Q, qualifies p i Q = match zc_at z i with Some e => Q e | None => false end.
Proof.
  intros Hi Q. unfold qualifies, pd_threshold. rewrite Zp. destruct (fu_edge _ _ _ _ F i Hi) as (e & A & _). rewrite A.
  rewrite (all_strong i e A Hi). reflexivity.
Qed.
Lemma some_iff Q : some_edge p Q = true <-> exists i e, (i < L)%N /\ zc_at z i = Some e /\ Q e = true.
Proof.
  unfold some_edge. rewrite Zp, (fu_num _ _ _ _ F). split.
  - intros T. apply existsb_exists in T. destruct T as (q & Hq & T). apply in_seq in Hq. rewrite qual_all in T by lia.
    destruct (zc_at z (N.of_nat q)) as [e|] eqn:A; [|discriminate]. exists (N.of_nat q), e. split; [lia|auto].
  - intros (i & e & Hi & A & T). apply existsb_exists. exists (N.to_nat i). split; [apply in_seq; lia|].
    rewrite N2Nat.id, qual_all by exact Hi. rewrite A. exact T.
Qed.
Hypothesis Bs : bits_spec W p.
Lemma win_pulses : (2 <= p_pulses p)%N.
Proof.
  destruct Bs as (_ & -> & _). rewrite Zp, (fu_num _ _ _ _ F). pose proof (fu_two _ _ _ _ F).
  rewrite filter_all, seq_length; [lia|]. intros q Hq. apply in_seq in Hq. rewrite qual_all by lia.
  destruct (fu_edge _ _ _ _ F (N.of_nat q) ltac:(lia)) as (e & -> & _). reflexivity.
Qed.
Lemma win_half : p_half_empty p = false.
Proof.
  destruct Bs as (_ & _ & ->). pose proof ordN as O. pose proof (fu_two _ _ _ _ F) as L2. destruct (fu_first _ _ _ _ F) as [F1 F2].
  pose proof (fu_last _ _ _ _ F) as FL. pose proof (fu_o _ _ _ _ F) as O0.
  assert (Wh : 2 * Z.of_N (W / 2) = Wz) by lia.
  apply orb_false_iff. split; apply negb_false_iff; apply some_iff.
  - destruct (fu_edge _ _ _ _ F 0%N ltac:(lia)) as (e0 & A0 & [E0 _ _ _ _] & _). rewrite Z.add_0_r in E0.
    destruct (fu_edge _ _ _ _ F 1%N ltac:(lia)) as (e1 & A1 & [E1 _ _ _ _] & _). change (Z.of_N 1) with 1 in E1.
    replace ((m0 + 1) * P) with (m0 * P + P) in E1 by ring. replace ((m0 - 1) * P) with (m0 * P - P) in F1 by ring.
    destruct (Z_le_gt_dec 0 (zi_lead e0)) as [X|X].
    + exists 0%N, e0. split; [lia|]. split; [exact A0|]. destruct F1 as [F1|F1]; [rewrite F1 in *|]; lia.
    + exists 1%N, e1. split; [lia|]. split; [exact A1|]. lia.
  - destruct (fu_edge _ _ _ _ F (L - 1)%N ltac:(lia)) as (e & A & _ & E). exists (L - 1)%N, e. split; [lia|]. split; [exact A|].
    replace ((m0 + Z.of_N (L - 1)) * P) with ((m0 + Z.of_N L) * P - P) in E by (rewrite N2Z.inj_sub by lia; ring). lia.
Qed.
Lemma win_bits j : (j < W)%N -> bs_get 64 (p_bits p) j = Some (in_pulse P a c (o + Z.of_N j)).
Proof.
  intros Hj. destruct Bs as (B & _). rewrite (B j Hj). f_equal. pose proof ordN as O.
  destruct (fu_first _ _ _ _ F) as [F1 F2]. pose proof (fu_last _ _ _ _ F) as FL. pose proof (fu_o _ _ _ _ F) as O0. pose proof (fu_m0 _ _ _ _ F) as M0.
  set (k := o + Z.of_N j). apply Bool.eq_iff_eq_true. rewrite some_iff. split.
  - intros (i & e & Hi & A & T). destruct (fu_edge _ _ _ _ F i Hi) as (e' & A' & [E1 _ _ _ _] & E2). rewrite A in A'. injection A' as <-.
    assert (Tp : 0 <= zi_trail e).
    { rewrite E2. assert (0 <= Z.of_N i * P) by (apply Z.mul_nonneg_nonneg; lia). replace ((m0 + Z.of_N i) * P) with (m0 * P + Z.of_N i * P) by ring. lia. }
    unfold covers in T. apply (inp_in P a c HP O k (m0 + Z.of_N i)); lia.
  - intros T. unfold in_pulse in T. apply andb_true_iff in T. destruct T as [T0 T]. apply Z.leb_le in T0. apply Z.ltb_lt in T.
    set (q := (k - a) / P). pose proof (Z.div_mod (k - a) P ltac:(lia)) as D. pose proof (Z.mod_pos_bound (k - a) P ltac:(lia)) as M. fold q in D.
    assert (Q0 : 0 <= q) by (apply Z.div_pos; lia). replace (P * q) with (q * P) in D by ring.
    assert (Ql : m0 <= q).
    { destruct F1 as [F1|F1]; [lia|]. destruct (Z_le_gt_dec m0 q) as [X|X]; [exact X|].
      assert (q * P <= (m0 - 1) * P) by (apply Z.mul_le_mono_nonneg_r; lia). lia. }
    assert (Qh : q < m0 + Z.of_N L).
    { destruct (Z_lt_ge_dec q (m0 + Z.of_N L)) as [X|X]; [exact X|].
      assert ((m0 + Z.of_N L) * P <= q * P) by (apply Z.mul_le_mono_nonneg_r; lia). lia. }
    destruct (fu_edge _ _ _ _ F (Z.to_N (q - m0)) ltac:(lia)) as (e & A & [E1 _ _ _ _] & E2).
    rewrite Z2N.id in E1, E2 by lia. replace (m0 + (q - m0)) with q in E1, E2 by lia.
    exists (Z.to_N (q - m0)), e. split; [lia|]. split; [exact A|]. unfold covers. lia.
Qed.
Lemma win_mismatch lag j : (j + lag < W)%N -> mismatch 64 (p_bits p) lag j = xorb (in_pulse P a c (o + Z.of_N j)) (in_pulse P a c (o + Z.of_N j + Z.of_N lag)).
Proof.
  intros Hj. unfold mismatch. rewrite !win_bits by lia. f_equal. f_equal. lia.
Qed.
(** once the window is past the onset *)
Hypothesis Clean : c - P <= o.
Lemma win_zero : cnt W (p_bits p) (Z.to_N P) = 0%N.
Proof.
  unfold cnt. apply countN_none. intros j Hj. rewrite N2Nat.id in Hj. rewrite win_mismatch by lia.
  rewrite Z2N.id by lia. pose proof ordN as O. rewrite (inp_per P a c HP O) by lia. apply xorb_nilpotent.
Qed.
Hypothesis HM : P + 2 <= 2 * (Z.of_N (N.max (W / 64 / 2 - 1) 1) * 64).
Lemma win_half_nonzero : cnt W (p_bits p) (Z.to_N P / 2) <> 0%N.
Proof.
  pose proof ordN as O. destruct (inp_half P a c HP O o Clean) as (j & Hj & D).
  unfold cnt. apply (countN_pos _ _ (Z.to_N j)).
  - rewrite N2Nat.id. lia.
  - rewrite win_mismatch by lia. rewrite N2Z.inj_div, !Z2N.id by lia. change (Z.of_N 2) with 2.
    destruct (in_pulse P a c (o + j)), (in_pulse P a c (o + j + P / 2)); try reflexivity; exfalso; apply D; reflexivity.
Qed.
End Full.
End Win.
