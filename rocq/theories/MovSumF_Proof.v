From Coq Require Import Reals Lra.
From Flocq Require Import Core.Core IEEE754.BinarySingleNaN.
From Verif Require Import Common CommonFacts Ring_Model Ring_Spec Ring_Proof MovSum_Model MovSum_Spec MovSum_Proof
  Float FloatFacts MovSumF_Model MovSumF_Spec.

Definition kval (x : f32) : Z := Ztrunc (B2R x * 8388608).
Definition krep (a : f64) (x : Z) : Prop := fin a /\ B2R a = (IZR x / 8388608)%R.

Lemma pcm_kval x : pcm24 x -> fin x /\ (Z.abs (kval x) <= 2 ^ 23)%Z /\ B2R x = (IZR (kval x) / 8388608)%R.
Proof.
  intros [F (k & Hk & E)]. split; [exact F|]. assert (kval x = k) as ->.
  { unfold kval. rewrite E. replace (IZR k / 8388608 * 8388608)%R with (IZR k) by lra. apply Ztrunc_IZR. }
  split; assumption.
Qed.

Lemma div_bpow k : (IZR k / 8388608 = IZR k * bpow radix2 (-23))%R.
Proof. change (bpow radix2 (-23)) with (/ 8388608)%R. reflexivity. Qed.

Lemma fmt64_k k : (Z.abs k < 2 ^ 53)%Z -> fmt 53 1024 (IZR k / 8388608).
Proof. intros H. rewrite div_bpow. apply fmt_F2R; [exact H|]. unfold SpecFloat.emin. lia. Qed.
Lemma abs_k_lt k : (Z.abs k < 2 ^ 53)%Z -> (Rabs (IZR k / 8388608) < bpow radix2 1024)%R.
Proof.
  intros H. apply Rlt_le_trans with (bpow radix2 53); [|apply bpow_le; lia].
  rewrite div_bpow, Rabs_mult, <- abs_IZR. rewrite (Rabs_pos_eq (bpow radix2 (-23))) by apply bpow_ge_0.
  change (bpow radix2 53) with (IZR (2 ^ 53)). apply IZR_lt in H.
  apply Rle_lt_trans with (IZR (Z.abs k) * 1)%R; [|lra].
  apply Rmult_le_compat_l; [apply IZR_le; lia|]. change 1%R with (bpow radix2 0). apply bpow_le. lia.
Qed.

Lemma kadd a x t : krep a x -> pcm24 t -> (Z.abs (x + kval t) < 2 ^ 53)%Z ->
  krep (fadd a (to64 t)) (x + kval t).
Proof.
  intros [Fa Ea] Ht Hb. destruct (pcm_kval t Ht) as (Ft & Bt & Et). destruct (to64_R t Ft) as [E6 F6].
  assert (S : (B2R a + B2R (to64 t) = IZR (x + kval t) / 8388608)%R).
  { rewrite Ea, E6, Et, plus_IZR. lra. }
  destruct (fadd_exact a (to64 t) Fa F6) as [E F].
  - rewrite S. apply fmt64_k. exact Hb.
  - rewrite S. apply abs_k_lt. exact Hb.
  - split; [exact F|]. rewrite E. exact S.
Qed.
Lemma ksub a x t : krep a x -> pcm24 t -> (Z.abs (x - kval t) < 2 ^ 53)%Z ->
  krep (fsub a (to64 t)) (x - kval t).
Proof.
  intros [Fa Ea] Ht Hb. destruct (pcm_kval t Ht) as (Ft & Bt & Et). destruct (to64_R t Ft) as [E6 F6].
  assert (S : (B2R a - B2R (to64 t) = IZR (x - kval t) / 8388608)%R).
  { rewrite Ea, E6, Et, minus_IZR. lra. }
  destruct (fsub_exact a (to64 t) Fa F6) as [E F].
  - rewrite S. apply fmt64_k. exact Hb.
  - rewrite S. apply abs_k_lt. exact Hb.
  - split; [exact F|]. rewrite E. exact S.
Qed.

Lemma of_size_pow2 j : (0 <= j <= 30)%Z -> B2R (mk32 (2 ^ j) 0) = bpow radix2 j /\ fin (mk32 (2 ^ j) 0).
Proof.
  intros H. assert (E : (IZR (2 ^ j) * bpow radix2 0 = bpow radix2 j)%R).
  { change (bpow radix2 0) with 1%R. rewrite Rmult_1_r, <- (IZR_Zpower radix2) by lia. reflexivity. }
  destruct (fmk_exact (prec:=24) (emax:=128) (2 ^ j) 0) as [E1 F1].
  - rewrite E. apply fmt_bpow. unfold SpecFloat.emin. lia.
  - rewrite E. rewrite Rabs_pos_eq by apply bpow_ge_0. apply bpow_lt. lia.
  - unfold mk32. rewrite E1. split; [exact E|exact F1].
Qed.

Lemma kscale t (W : N) (j : N) : pcm24 t -> W = (2 ^ j)%N -> (W <= 2 ^ 29)%N ->
  exists a, fs_scale t W = Some a /\ krep a (kval t * Z.of_N W).
Proof.
  intros Ht HW HWb. destruct (pcm_kval t Ht) as (Ft & Bt & Et).
  assert (Hj : (0 <= Z.of_N j <= 29)%Z).
  { split; [lia|]. subst W. apply N.pow_le_mono_r_iff in HWb; lia. }
  assert (HZ : Z.of_N W = (2 ^ Z.of_N j)%Z) by (subst W; rewrite N2Z.inj_pow; reflexivity).
  destruct (of_size_pow2 (Z.of_N j)) as [Es Fs]; [lia|].
  set (sz := mk32 (2 ^ Z.of_N j) 0) in *.
  assert (P : (B2R t * B2R sz = IZR (kval t) * bpow radix2 (Z.of_N j - 23))%R).
  { rewrite Et, Es, div_bpow, Rmult_assoc, <- bpow_plus. do 2 f_equal. lia. }
  assert (PB : (Rabs (B2R t * B2R sz) < bpow radix2 128)%R).
  { apply Rle_lt_trans with (bpow radix2 (23 + (Z.of_N j - 23))); [|apply bpow_lt; lia].
    rewrite P, Rabs_mult, bpow_plus, (Rabs_pos_eq (bpow _ _)) by apply bpow_ge_0.
    apply Rmult_le_compat_r; [apply bpow_ge_0|]. rewrite <- abs_IZR.
    change (bpow radix2 23) with (IZR (2 ^ 23)). apply IZR_le. exact Bt. }
  destruct (fmul_exact t sz Ft Fs) as [Em Fm].
  - rewrite P. apply fmt_F2R; [lia|]. unfold SpecFloat.emin. lia.
  - exact PB.
  - destruct (to64_R (fmul t sz) Fm) as [E6 F6].
    exists (to64 (fmul t sz)). unfold fs_scale. rewrite HZ. split; [reflexivity|].
    split; [exact F6|]. rewrite E6, Em, P, mult_IZR.
    rewrite (IZR_Zpower radix2) by lia. unfold Z.sub. rewrite bpow_plus.
    change (bpow radix2 (- (23))) with (/ 8388608)%R. unfold Rdiv. ring.
Qed.

Lemma rsum_k l : Forall pcm24 l -> rsum l = (IZR (zsum (map kval l)) / 8388608)%R.
Proof.
  induction 1 as [|x l Hx Hl IH]; cbn [map rsum zsum fold_right]; [lra|].
  destruct (pcm_kval x Hx) as (_ & _ & E). rewrite plus_IZR.
  unfold rsum, zsum in IH. rewrite IH, E. lra.
Qed.

Lemma fs_exact (W : N) ops : (1 <= W <= 2 ^ 29)%N -> Forall (op_all pcm24) ops ->
  ((exists j, W = (2 ^ j)%N) \/ forall v, ~ In (MFill v) ops) ->
  exists m0 m, fs_make W = Some m0 /\ fs_run m0 ops = Some m /\ ms_size m = W /\
    fin (ms_sum m) /\ B2R (ms_sum m) = rsum (window fzero (N.to_nat W) ops) /\
    length (window (fzero : f32) (N.to_nat W) ops) = N.to_nat W /\ Forall pcm24 (window fzero (N.to_nat W) ops).
Proof.
  intros HW Hops Hf.
  assert (Gz : pcm24 fzero).
  { split; [reflexivity|]. exists 0%Z. split; [lia|]. cbn. lra. }
  assert (Kz : kval fzero = 0%Z).
  { unfold kval, fzero. cbn [B2R]. rewrite Rmult_0_l. apply (Ztrunc_IZR 0). }
  assert (HB : (2 ^ 23 * (Z.of_N W + 1) < 2 ^ 53)%Z) by lia.
  assert (WG : Forall pcm24 (window fzero (N.to_nat W) ops)).
  { eapply window_good with (1 := Gz); eauto. }
  assert (WL : length (window (fzero : f32) (N.to_nat W) ops) = N.to_nat W).
  { eapply window_length. }
  destruct (ms_exact (T:=f32) (Acc:=f64) fzero fzero (fun a s => Some (fadd a (to64 s)))
    (fun a s => Some (fsub a (to64 s))) fs_scale to32 kval krep pcm24 (exists j, W = (2 ^ j)%N) (2 ^ 23) W)
    with (ops := ops) as (m0 & m & E0 & E & Hs & Fm & Hrep).
  - lia.
  - exact Gz.
  - exact Kz.
  - split; [reflexivity|]. cbn. lra.
  - intros t Ht. apply pcm_kval. exact Ht.
  - intros a x t Ha Ht Hb. eexists; split; [reflexivity|]. apply kadd; auto. lia.
  - intros a x t Ha Ht Hb. eexists; split; [reflexivity|]. apply ksub; auto. lia.
  - intros (j & Hj) t Ht. apply kscale with (j := j); auto. lia.
  - exact Hops.
  - exact Hf.
  - exists m0, m. rewrite (rsum_k _ WG). repeat split; auto.
Qed.

Lemma abs_rsum l : Forall pcm24 l -> (Rabs (rsum l) <= INR (length l))%R.
Proof.
  induction 1 as [|x l Hx Hl IH]; [cbn; rewrite Rabs_R0; lra|].
  change (rsum (x :: l)) with (B2R x + rsum l)%R. rewrite (S_INR (length l) : INR (length (x :: l)) = _).
  destruct (pcm_kval x Hx) as (_ & B & E).
  apply Rle_trans with (1 := Rabs_triang _ _). rewrite Rplus_comm. apply Rplus_le_compat; [exact IH|].
  rewrite E, div_bpow, Rabs_mult, (Rabs_pos_eq (bpow _ _)) by apply bpow_ge_0. rewrite <- abs_IZR.
  apply IZR_le in B. change (bpow radix2 (-23)) with (/ 8388608)%R. change (2 ^ 23)%Z with 8388608%Z in B. lra.
Qed.

Lemma size32 (W : N) : (1 <= W <= 2 ^ 29)%N ->
  B2R (mk32 (Z.of_N W) 0) = rnd 24 128 (IZR (Z.of_N W)) /\ fin (mk32 (Z.of_N W) 0) /\ (1 <= rnd 24 128 (IZR (Z.of_N W)) <= bpow radix2 29)%R.
Proof.
  intros HW.
  assert (L : (1 <= rnd 24 128 (IZR (Z.of_N W)))%R).
  { apply rnd_ge_fmt; [apply (fmt_bpow (prec:=24) (emax:=128) 0); unfold SpecFloat.emin; lia|]. apply IZR_le. lia. }
  assert (U : (rnd 24 128 (IZR (Z.of_N W)) <= bpow radix2 29)%R).
  { apply rnd_le_fmt; [apply (fmt_bpow (prec:=24) (emax:=128) 29); unfold SpecFloat.emin; lia|].
    change (bpow radix2 29) with (IZR (2 ^ 29)). apply IZR_le. lia. }
  assert (M : (IZR (Z.of_N W) * bpow radix2 0 = IZR (Z.of_N W))%R) by (change (bpow radix2 0) with 1%R; ring).
  destruct (fmk_R (prec:=24) (emax:=128) (Z.of_N W) 0) as [E F].
  - rewrite M. rewrite Rabs_pos_eq by lra. apply Rle_lt_trans with (1 := U). apply bpow_lt. lia.
  - rewrite M in E. unfold mk32. auto.
Qed.

Lemma fs_out (W : N) (m : movsum f32 f64) l : (1 <= W <= 2 ^ 29)%N -> ms_size m = W -> fin (ms_sum m) -> B2R (ms_sum m) = rsum l ->
  length l = N.to_nat W -> Forall pcm24 l ->
  fin (fs_sum m) /\ B2R (fs_sum m) = rnd 24 128 (rsum l) /\
  fin (fs_average m) /\ B2R (fs_average m) = rnd 24 128 (rnd 24 128 (rsum l) / rnd 24 128 (IZR (Z.of_N W))) /\
  (Rabs (B2R (fs_average m)) <= 1)%R.
Proof.
  intros HW HS F E HL HP.
  destruct (size32 W HW) as (Es & Fs & L & U).
  assert (B : (Rabs (rsum l) <= IZR (Z.of_N W))%R).
  { apply Rle_trans with (1 := abs_rsum l HP). rewrite HL, INR_IZR_INZ. apply IZR_le. lia. }
  assert (B2 : (Rabs (rnd 24 128 (rsum l)) <= rnd 24 128 (IZR (Z.of_N W)))%R).
  { unfold rnd. rewrite <- round_NE_abs by apply fx_valid. apply rnd_le. exact B. }
  destruct (fconv_R (p':=24) (e':=128) (ms_sum m) F) as [E1 F1].
  { rewrite E. apply Rle_lt_trans with (1 := B2). apply Rle_lt_trans with (1 := U). apply bpow_lt. lia. }
  rewrite E in E1. change (B2R (fs_sum m) = rnd 24 128 (rsum l)) in E1. split; [exact F1|]. split; [exact E1|].
  assert (Hn : B2R (mk32 (Z.of_N W) 0) <> 0%R) by (rewrite Es; lra).
  destruct (fdiv_bnd (fs_sum m) (mk32 (Z.of_N W) 0) 1) as (E2 & F2 & B3).
  - exact F1.
  - exact Hn.
  - apply (fmt_bpow (prec:=24) (emax:=128) 0). unfold SpecFloat.emin; lia.
  - apply (bpow_lt radix2 0 128). lia.
  - rewrite E1, Es. unfold Rdiv. rewrite Rabs_mult, Rabs_inv, (Rabs_pos_eq (rnd 24 128 (IZR (Z.of_N W)))) by lra.
    apply Rmult_le_reg_r with (rnd 24 128 (IZR (Z.of_N W))); [lra|]. rewrite Rmult_assoc, Rinv_l by lra. lra.
  - change (fs_average m) with (fdiv (fs_sum m) (mk32 (Z.of_N (ms_size m)) 0)). rewrite HS. split; [exact F2|]. split; [|exact B3]. rewrite E2.
    rewrite E1, Es. reflexivity.
Qed.

(** evaluating a concrete run without normalising the proof parts of the floats *)
Lemma fs_run_test (W : N) ops (f : movsum f32 f64 -> bool) :
  match bind (fs_make W) (fun m0 => fs_run m0 ops) with Some m => f m | None => false end = true ->
  exists m0 m, fs_make W = Some m0 /\ fs_run m0 ops = Some m /\ f m = true.
Proof.
  intros H. destruct (fs_make W) as [m0|]; [|discriminate]. cbn [bind] in H.
  destruct (fs_run m0 ops) as [m|] eqn:E; [|discriminate]. eauto.
Qed.
