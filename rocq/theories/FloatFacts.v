(** Facts about the arithmetic of Float.v, in terms of real numbers. *)
From Coq Require Import ZArith Reals Bool Lia Lra Psatz.
From Flocq Require Import Core.Core IEEE754.BinarySingleNaN.
From Verif Require Import Float.

Section F.
Context {prec emax : Z} {Hp : Prec_gt_0 prec} {He : Prec_lt_emax prec emax}.
Notation fl := (binary_float prec emax).
Definition fx : Z -> Z := SpecFloat.fexp prec emax.
Definition rnd (r : R) : R := round radix2 fx ZnearestE r.
Definition fmt (r : R) : Prop := generic_format radix2 fx r.
Definition fin (x : fl) : Prop := is_finite x = true.
Local Notation v := (B2R (prec:=prec) (emax:=emax)).

Global Instance fx_valid : Valid_exp fx.
Proof. unfold fx. apply fexp_correct. exact Hp. Qed.
Global Instance fx_mono : Monotone_exp fx.
Proof. unfold fx. apply fexp_monotone. Qed.

Lemma fmt_v x : fmt (v x).
Proof. apply generic_format_B2R. Qed.
Lemma rnd_fmt r : fmt r -> rnd r = r.
Proof. intros H. unfold rnd. apply round_generic; auto. apply valid_rnd_N. Qed.
Lemma rnd_v x : rnd (v x) = v x.
Proof. apply rnd_fmt, fmt_v. Qed.
Lemma rnd_le a b : (a <= b)%R -> (rnd a <= rnd b)%R.
Proof. intros H. unfold rnd. apply round_le; auto; [apply fx_valid|apply valid_rnd_N]. Qed.
Lemma rnd_le_fmt a b : fmt b -> (a <= b)%R -> (rnd a <= b)%R.
Proof. intros F H. rewrite <- (rnd_fmt b F). apply rnd_le; auto. Qed.
Lemma rnd_ge_fmt a b : fmt a -> (a <= b)%R -> (a <= rnd b)%R.
Proof. intros F H. rewrite <- (rnd_fmt a F). apply rnd_le; auto. Qed.
Lemma rnd_abs_le a b : fmt b -> (Rabs a <= b)%R -> (Rabs (rnd a) <= b)%R.
Proof.
  intros F H. unfold rnd. apply abs_round_le_generic; auto; [apply fx_valid|apply valid_rnd_N].
Qed.
Lemma fmt_0 : fmt 0. Proof. apply generic_format_0. Qed.
Lemma rnd_0 : rnd 0 = 0%R. Proof. apply rnd_fmt, fmt_0. Qed.
Lemma rnd_opp r : rnd (- r) = (- rnd r)%R.
Proof. unfold rnd. apply round_NE_opp. Qed.
Lemma fmt_opp r : fmt r -> fmt (- r).
Proof. apply generic_format_opp. Qed.

Lemma fin_lt_emax x : (Rabs (v x) < bpow radix2 emax)%R.
Proof. apply abs_B2R_lt_emax. Qed.

Ltac solve_ovf H := rewrite Rlt_bool_true in H by assumption.

Lemma fadd_R x y : fin x -> fin y -> (Rabs (rnd (v x + v y)) < bpow radix2 emax)%R ->
  v (fadd x y) = rnd (v x + v y) /\ fin (fadd x y).
Proof.
  intros Fx Fy Hb. pose proof (Bplus_correct prec emax Hp He mode_NE x y Fx Fy) as H.
  cbn [round_mode] in H. unfold rnd, fx in Hb. solve_ovf H. split; apply H.
Qed.
Lemma fsub_R x y : fin x -> fin y -> (Rabs (rnd (v x - v y)) < bpow radix2 emax)%R ->
  v (fsub x y) = rnd (v x - v y) /\ fin (fsub x y).
Proof.
  intros Fx Fy Hb. pose proof (Bminus_correct prec emax Hp He mode_NE x y Fx Fy) as H.
  cbn [round_mode] in H. unfold rnd, fx in Hb. solve_ovf H. split; apply H.
Qed.
Lemma fmul_R x y : fin x -> fin y -> (Rabs (rnd (v x * v y)) < bpow radix2 emax)%R ->
  v (fmul x y) = rnd (v x * v y) /\ fin (fmul x y).
Proof.
  intros Fx Fy Hb. pose proof (Bmult_correct prec emax Hp He mode_NE x y) as H.
  cbn [round_mode] in H. unfold rnd, fx in Hb. solve_ovf H. destruct H as (H1 & H2 & _). split; [exact H1|].
  unfold fin, fmul. unfold fin in Fx, Fy. rewrite H2, Fx, Fy. reflexivity.
Qed.
Lemma fdiv_R x y : fin x -> v y <> 0%R -> (Rabs (rnd (v x / v y)) < bpow radix2 emax)%R ->
  v (fdiv x y) = rnd (v x / v y) /\ fin (fdiv x y).
Proof.
  intros Fx Fy Hb. pose proof (Bdiv_correct prec emax Hp He mode_NE x y Fy) as H.
  cbn [round_mode] in H. unfold rnd, fx in Hb. solve_ovf H. destruct H as (H1 & H2 & _). split; [exact H1|].
  unfold fin, fdiv. rewrite H2. exact Fx.
Qed.

(** bounded results: B a representable bound below the overflow threshold *)
Lemma fadd_bnd x y B : fin x -> fin y -> fmt B -> (B < bpow radix2 emax)%R -> (Rabs (v x + v y) <= B)%R ->
  v (fadd x y) = rnd (v x + v y) /\ fin (fadd x y) /\ (Rabs (v (fadd x y)) <= B)%R.
Proof.
  intros Fx Fy FB HB H. pose proof (rnd_abs_le _ _ FB H) as K.
  destruct (fadd_R x y Fx Fy) as [E F]; [lra|]. rewrite E. auto.
Qed.
Lemma fsub_bnd x y B : fin x -> fin y -> fmt B -> (B < bpow radix2 emax)%R -> (Rabs (v x - v y) <= B)%R ->
  v (fsub x y) = rnd (v x - v y) /\ fin (fsub x y) /\ (Rabs (v (fsub x y)) <= B)%R.
Proof.
  intros Fx Fy FB HB H. pose proof (rnd_abs_le _ _ FB H) as K.
  destruct (fsub_R x y Fx Fy) as [E F]; [lra|]. rewrite E. auto.
Qed.
Lemma fmul_bnd x y B : fin x -> fin y -> fmt B -> (B < bpow radix2 emax)%R -> (Rabs (v x * v y) <= B)%R ->
  v (fmul x y) = rnd (v x * v y) /\ fin (fmul x y) /\ (Rabs (v (fmul x y)) <= B)%R.
Proof.
  intros Fx Fy FB HB H. pose proof (rnd_abs_le _ _ FB H) as K.
  destruct (fmul_R x y Fx Fy) as [E F]; [lra|]. rewrite E. auto.
Qed.
Lemma fdiv_bnd x y B : fin x -> v y <> 0%R -> fmt B -> (B < bpow radix2 emax)%R -> (Rabs (v x / v y) <= B)%R ->
  v (fdiv x y) = rnd (v x / v y) /\ fin (fdiv x y) /\ (Rabs (v (fdiv x y)) <= B)%R.
Proof.
  intros Fx Fy FB HB H. pose proof (rnd_abs_le _ _ FB H) as K.
  destruct (fdiv_R x y Fx Fy) as [E F]; [lra|]. rewrite E. auto.
Qed.

(** exact results *)
Lemma fadd_exact x y : fin x -> fin y -> fmt (v x + v y) -> (Rabs (v x + v y) < bpow radix2 emax)%R ->
  v (fadd x y) = (v x + v y)%R /\ fin (fadd x y).
Proof.
  intros Fx Fy F B. destruct (fadd_R x y Fx Fy) as [E H]; [rewrite rnd_fmt by exact F; exact B|].
  rewrite E, rnd_fmt by exact F. auto.
Qed.
Lemma fsub_exact x y : fin x -> fin y -> fmt (v x - v y) -> (Rabs (v x - v y) < bpow radix2 emax)%R ->
  v (fsub x y) = (v x - v y)%R /\ fin (fsub x y).
Proof.
  intros Fx Fy F B. destruct (fsub_R x y Fx Fy) as [E H]; [rewrite rnd_fmt by exact F; exact B|].
  rewrite E, rnd_fmt by exact F. auto.
Qed.
Lemma fmul_exact x y : fin x -> fin y -> fmt (v x * v y) -> (Rabs (v x * v y) < bpow radix2 emax)%R ->
  v (fmul x y) = (v x * v y)%R /\ fin (fmul x y).
Proof.
  intros Fx Fy F B. destruct (fmul_R x y Fx Fy) as [E H]; [rewrite rnd_fmt by exact F; exact B|].
  rewrite E, rnd_fmt by exact F. auto.
Qed.

(** comparisons *)
Lemma flt_R x y : fin x -> fin y -> flt x y = Rlt_bool (v x) (v y).
Proof. intros. apply Bltb_correct; assumption. Qed.
Lemma fle_R x y : fin x -> fin y -> fle x y = Rle_bool (v x) (v y).
Proof. intros. apply Bleb_correct; assumption. Qed.
Lemma flt_true x y : fin x -> fin y -> (flt x y = true <-> (v x < v y)%R).
Proof. intros Fx Fy. rewrite flt_R by assumption. destruct (Rlt_bool_spec (v x) (v y)); split; intros; auto; try discriminate; lra. Qed.
Lemma flt_false x y : fin x -> fin y -> (flt x y = false <-> (v y <= v x)%R).
Proof. intros Fx Fy. rewrite flt_R by assumption. destruct (Rlt_bool_spec (v x) (v y)); split; intros; auto; try discriminate; lra. Qed.
Lemma fle_true x y : fin x -> fin y -> (fle x y = true <-> (v x <= v y)%R).
Proof. intros Fx Fy. rewrite fle_R by assumption. destruct (Rle_bool_spec (v x) (v y)); split; intros; auto; try discriminate; lra. Qed.
Lemma fle_false x y : fin x -> fin y -> (fle x y = false <-> (v y < v x)%R).
Proof. intros Fx Fy. rewrite fle_R by assumption. destruct (Rle_bool_spec (v x) (v y)); split; intros; auto; try discriminate; lra. Qed.

(** representable dyadics *)
Lemma fmt_F2R m e : (Z.abs m < 2 ^ prec)%Z -> (SpecFloat.emin prec emax <= e)%Z -> fmt (IZR m * bpow radix2 e).
Proof.
  intros Hm He'. unfold fmt, fx. apply generic_format_FLT.
  exists (Float radix2 m e); auto.
Qed.
Lemma fmt_IZR m : (SpecFloat.emin prec emax <= 0)%Z -> (Z.abs m < 2 ^ prec)%Z -> fmt (IZR m).
Proof.
  intros E H. replace (IZR m) with (IZR m * bpow radix2 0)%R by (cbn; lra). apply fmt_F2R; auto.
Qed.
Lemma fmt_bpow e : (SpecFloat.emin prec emax <= e)%Z -> fmt (bpow radix2 e).
Proof.
  intros H. replace (bpow radix2 e) with (IZR 1 * bpow radix2 e)%R by ring. apply fmt_F2R; auto.
  cbn. apply Z.pow_gt_1; [lia|]. exact Hp.
Qed.

(** fmk is exact on representable dyadics *)
Lemma fmk_R m e : (Rabs (rnd (IZR m * bpow radix2 e)) < bpow radix2 emax)%R ->
  v (fmk m e) = rnd (IZR m * bpow radix2 e) /\ fin (fmk m e).
Proof.
  intros Hb. pose proof (binary_normalize_correct prec emax Hp He mode_NE m e false) as H.
  cbn [round_mode] in H. unfold rnd, fx in Hb. unfold F2R in H; cbn [Fnum Fexp] in H. solve_ovf H.
  split; apply H.
Qed.
Lemma fmk_exact m e : fmt (IZR m * bpow radix2 e) -> (Rabs (IZR m * bpow radix2 e) < bpow radix2 emax)%R ->
  v (fmk m e) = (IZR m * bpow radix2 e)%R /\ fin (fmk m e).
Proof.
  intros F B. destruct (fmk_R m e) as [E H]; [rewrite rnd_fmt by exact F; exact B|].
  rewrite E, rnd_fmt by exact F. auto.
Qed.

(** a bounded real in a binade below emax *)
Lemma lt_emax e r : (e <= emax)%Z -> (r < bpow radix2 e)%R -> (r < bpow radix2 emax)%R.
Proof. intros H1 H2. apply Rlt_le_trans with (1 := H2). apply bpow_le. exact H1. Qed.
End F.
Arguments rnd prec emax : clear implicits.
Arguments fmt prec emax : clear implicits.

(** conversions *)
Section Conv.
Context {p e p' e' : Z} {Hp : Prec_gt_0 p} {He : Prec_lt_emax p e} {Hp' : Prec_gt_0 p'} {He' : Prec_lt_emax p' e'}.
Lemma fconv_R (x : binary_float p e) : fin x -> (Rabs (rnd p' e' (B2R x)) < bpow radix2 e')%R ->
  B2R (fconv x : binary_float p' e') = rnd p' e' (B2R x) /\ fin (fconv x : binary_float p' e').
Proof.
  intros Fx Hb. destruct x as [s|s| |s m ex H]; try discriminate Fx.
  - cbn. rewrite rnd_0. split; reflexivity.
  - cbn [fconv]. pose proof (binary_normalize_correct p' e' Hp' He' mode_NE (cond_Zopp s (Z.pos m)) ex s) as K.
    cbn [round_mode] in K. unfold rnd, fx in Hb. cbn [B2R] in Hb |- *. rewrite Rlt_bool_true in K by exact Hb.
    destruct K as (K1 & K2 & _). split; [exact K1|exact K2].
Qed.
Lemma fconv_exact (x : binary_float p e) : fin x -> fmt p' e' (B2R x) -> (Rabs (B2R x) < bpow radix2 e')%R ->
  B2R (fconv x : binary_float p' e') = B2R x /\ fin (fconv x : binary_float p' e').
Proof.
  intros Fx F B. destruct (fconv_R x Fx) as [E H]; [rewrite rnd_fmt by exact F; exact B|].
  rewrite E, rnd_fmt by exact F. auto.
Qed.
End Conv.

(** widening is exact *)
Lemma to64_R (x : f32) : fin x -> B2R (to64 x) = B2R x /\ fin (to64 x).
Proof.
  intros F. apply fconv_exact; auto.
  - apply generic_inclusion_mag with (fexp1 := fx (prec:=24) (emax:=128)).
    + intros _. unfold fx, SpecFloat.fexp, SpecFloat.emin. lia.
    + apply generic_format_B2R.
  - apply Rlt_le_trans with (1 := fin_lt_emax x). apply bpow_le. lia.
Qed.

Lemma mk64_small m e : (Z.abs m < 2 ^ 53)%Z -> (-1074 <= e <= 971)%Z ->
  B2R (mk64 m e) = (IZR m * bpow radix2 e)%R /\ fin (mk64 m e).
Proof.
  intros Hm He. apply (fmk_exact (prec:=53) (emax:=1024)).
  - apply fmt_F2R; [exact Hm|unfold SpecFloat.emin; lia].
  - rewrite Rabs_mult, (Rabs_pos_eq (bpow _ _)) by apply bpow_ge_0.
    apply Rlt_le_trans with (bpow radix2 53 * bpow radix2 e)%R.
    + apply Rmult_lt_compat_r; [apply bpow_gt_0|]. rewrite <- abs_IZR. change (bpow radix2 53) with (IZR (2 ^ 53)). apply IZR_lt, Hm.
    + rewrite <- bpow_plus. apply bpow_le. lia.
Qed.
Lemma mk32_small m e : (Z.abs m < 2 ^ 24)%Z -> (-149 <= e <= 104)%Z ->
  B2R (mk32 m e) = (IZR m * bpow radix2 e)%R /\ fin (mk32 m e).
Proof.
  intros Hm He. apply (fmk_exact (prec:=24) (emax:=128)).
  - apply fmt_F2R; [exact Hm|unfold SpecFloat.emin; lia].
  - rewrite Rabs_mult, (Rabs_pos_eq (bpow _ _)) by apply bpow_ge_0.
    apply Rlt_le_trans with (bpow radix2 24 * bpow radix2 e)%R.
    + apply Rmult_lt_compat_r; [apply bpow_gt_0|]. rewrite <- abs_IZR. change (bpow radix2 24) with (IZR (2 ^ 24)). apply IZR_lt, Hm.
    + rewrite <- bpow_plus. apply bpow_le. lia.
Qed.

(** rounding error: at most 2^(e - prec - 1) for |x| <= 2^e *)
Section Err.
Context {prec emax : Z} {Hp : Prec_gt_0 prec} {He : Prec_lt_emax prec emax}.
Local Open Scope R_scope.
Lemma rnd_err x e : (SpecFloat.emin prec emax <= e - prec)%Z -> Rabs x <= bpow radix2 e ->
  Rabs (rnd prec emax x - x) <= bpow radix2 (e - prec - 1).
Proof.
  intros H1 H2. destruct (Req_dec x 0) as [->|N].
  { rewrite rnd_0, Rminus_0_r, Rabs_R0. apply bpow_ge_0. }
  destruct (Rle_lt_or_eq_dec _ _ H2) as [L|E].
  - unfold rnd. eapply Rle_trans; [apply (error_le_half_ulp radix2 (fx (prec:=prec) (emax:=emax)))|].
    apply Rle_trans with (/ 2 * bpow radix2 (e - prec)).
    + apply Rmult_le_compat_l; [lra|].
      rewrite ulp_neq_0 by exact N. apply bpow_le. unfold cexp, fx, SpecFloat.fexp.
      pose proof (mag_le_bpow radix2 x e N L). lia.
    + pose proof (bpow_plus radix2 1 (e - prec - 1)) as Q. replace (1 + (e - prec - 1))%Z with (e - prec)%Z in Q by ring.
      rewrite Q. change (bpow radix2 1) with 2. lra.
  - rewrite rnd_fmt.
    + unfold Rminus. rewrite Rplus_opp_r, Rabs_R0. apply bpow_ge_0.
    + destruct (Rle_lt_dec 0 x) as [P|P].
      * rewrite Rabs_pos_eq in E by exact P. rewrite E. apply fmt_bpow. unfold Prec_gt_0 in Hp. lia.
      * rewrite Rabs_left in E by exact P. replace x with (- bpow radix2 e) by lra. apply fmt_opp, fmt_bpow. unfold Prec_gt_0 in Hp. lia.
Qed.
Lemma feq_true (x y : binary_float prec emax) : fin x -> fin y -> feq x y = true -> B2R x = B2R y.
Proof.
  intros Fx Fy H. unfold feq in H. rewrite Beqb_correct in H by assumption.
  destruct (Req_bool_spec (B2R x) (B2R y)); [assumption|discriminate].
Qed.
Lemma fneg_R' (x : binary_float prec emax) : B2R (fneg x) = - B2R x. Proof. apply B2R_Bopp. Qed.
Lemma fneg_fin' (x : binary_float prec emax) : fin x -> fin (fneg x).
Proof. unfold fin, fneg. rewrite is_finite_Bopp. auto. Qed.
End Err.
