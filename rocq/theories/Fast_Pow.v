From Coq Require Import ZArith Reals Lra Lia Bool.
From Flocq Require Import Core.Core IEEE754.BinarySingleNaN.
From Flocq Require Mult_error.
From Verif Require Import Common Float FloatFacts Frac_Proof Db_Model Fast_Model Fast_Bits Fast_Ln Fast_Log Fast_Spec.
Local Open Scope R_scope.
Local Notation fin x := (is_finite x = true).
Local Notation v x := (B2R x).
Local Notation rn := (rnd 24 128).

Lemma fmt_up (x : f32) e : (0 <= e)%Z -> fmt 24 128 (v x * bpow radix2 e).
Proof. intros H. apply (Mult_error.mult_bpow_pos_exact_FLT radix2 (-149) 24); [exact (fmt_v x)|exact H]. Qed.
Lemma to_u32_R (x : f32) : fin x -> 0 <= v x < 4294967296 -> exists i, to_u32 x = Some i /\ (0 <= i < 2 ^ 32)%Z /\ IZR i <= v x < IZR i + 1 /\ i = Ztrunc (v x).
Proof.
  intros F H. exists (Ztrunc (v x)). unfold to_u32. rewrite (ftrunc_R x F). rewrite Ztrunc_floor by lra.
  assert (A := Zfloor_lb (v x)). assert (B := Zfloor_ub (v x)).
  assert (0 <= Zfloor (v x))%Z by (apply Zfloor_lub; exact (proj1 H)). assert (Zfloor (v x) < 4294967296)%Z by (apply lt_IZR; lra).
  change (2 ^ 32)%Z with 4294967296%Z. replace (0 <=? Zfloor (v x))%Z with true by (symmetry; apply Z.leb_le; assumption).
  replace (Zfloor (v x) <? 4294967296)%Z with true by (symmetry; apply Z.ltb_lt; assumption). repeat split; auto.
Qed.
(** the argument of the conversion, for an argument at least -126 *)
Definition arg (p : R) : R := rn (p + v c_log).
Lemma scaled (p : f32) : fin p -> -126 <= v p <= 1024 ->
  let t := fmul (mk32 1 23) (fadd p c_log) in fin t /\ v t = arg (v p) * 8388608 /\ Rabs (arg (v p) - (v p + 16638633 / 131072)) <= bpow radix2 (-14).
Proof.
  intros F H. destruct clog as (Fc & Vc). cbv zeta.
  destruct (fadd_bnd p c_log (bpow radix2 11) F Fc) as (V1 & F1 & B1); [apply fmt_bpow; cbn; lia|apply b128; lia|rewrite Vc; change (bpow radix2 11) with 2048; apply Rabs_le; lra|].
  destruct (mk32_small 1 23 ltac:(reflexivity) ltac:(lia)) as (V2 & F2). rewrite Rmult_1_l in V2.
  assert (X : v (mk32 1 23) * v (fadd p c_log) = v (fadd p c_log) * bpow radix2 23) by (rewrite V2; ring).
  destruct (fmul_exact (mk32 1 23) (fadd p c_log) F2 F1) as (V3 & F3).
  - rewrite X. apply fmt_up. lia.
  - rewrite X, Rabs_mult, (Rabs_pos_eq (bpow radix2 23)) by apply bpow_ge_0. apply Rle_lt_trans with (bpow radix2 11 * bpow radix2 23); [apply Rmult_le_compat_r; [apply bpow_ge_0|exact B1]|]. rewrite <- bpow_plus. apply b128. lia.
  - split; [exact F3|]. split; [rewrite V3, X, V1; reflexivity|]. unfold arg. rewrite Vc in *.
    apply (rnd_err (prec:=24) (emax:=128) (v p + 16638633 / 131072) 11); [cbn; lia|change (bpow radix2 11) with 2048; apply Rabs_le; lra].
Qed.
Lemma split_bits i : (0 <= i)%Z -> exists E F, (0 <= E /\ 0 <= F < 2 ^ 23)%Z /\ i = (E * 2 ^ 23 + F)%Z /\ IZR i / 8388608 = IZR E + fr F.
Proof.
  intros H. exists (i / 2 ^ 23)%Z, (i mod 2 ^ 23)%Z. assert (M := Z.mod_pos_bound i (2 ^ 23) ltac:(reflexivity)).
  assert (D := Z.div_mod i (2 ^ 23) ltac:(discriminate)). split; [split; [apply Z.div_pos; [exact H|reflexivity]|exact M]|]. split; [lia|].
  rewrite D at 1. rewrite plus_IZR, mult_IZR. change (IZR (2 ^ 23)) with 8388608. unfold fr. field.
Qed.
Definition pow_bits (a : R) : Z := Ztrunc (a * 8388608).
Lemma pow_split (p : f32) : fin p -> -126 <= v p <= 384 ->
  fast_pow2 p = Some (of_bits (pow_bits (arg (v p)))) /\ exists E F, (0 <= E /\ 0 <= F < 2 ^ 23)%Z /\ pow_bits (arg (v p)) = (E * 2 ^ 23 + F)%Z /\
  v p + 126.942695 - bpow radix2 (-13) <= IZR E + fr F <= v p + 126.942696 + bpow radix2 (-13).
Proof.
  intros F H. destruct (scaled p F ltac:(lra)) as (F1 & V1 & E1). apply Rabs_le_inv in E1. 
  assert (S14 : bpow radix2 (-14) <= 0.000062 /\ bpow radix2 (-13) = 2 * bpow radix2 (-14) /\ 0.000061 <= bpow radix2 (-14)) by (change (bpow radix2 (-14)) with (/ 16384); change (bpow radix2 (-13)) with (/ 8192); lra).
  destruct (to_u32_R _ F1 ltac:(rewrite V1; lra)) as (i & Hi & Ri & Bi & Ei). rewrite V1 in Ei, Bi.
  destruct (mk32_small (-126) 0 ltac:(reflexivity) ltac:(lia)) as (Vm & Fm). change (bpow radix2 0) with 1 in Vm.
  split.
  - unfold fast_pow2. replace (flt p (mk32 (-126) 0)) with false by (symmetry; apply (flt_false p _ F Fm); rewrite Vm; lra).
    cbv beta iota zeta delta [bind]. rewrite Hi, Ei. reflexivity.
  - destruct (split_bits i ltac:(lia)) as (E & G & R & D & Q). exists E, G. split; [exact R|]. split; [unfold pow_bits; rewrite <- Ei; exact D|].
    rewrite <- Q. lra.
Qed.
(** a range of exponents that is neither subnormal nor infinite *)
Lemma Rpower_log2 x p lo hi : 0 < x -> lo <= log2 x - p <= hi -> Rpower 2 p * Rpower 2 lo <= x <= Rpower 2 p * Rpower 2 hi.
Proof.
  intros Px H. pose proof ln2_pos as L. assert (E : x = Rpower 2 (log2 x)) by (unfold Rpower, log2; replace (ln x / ln 2 * ln 2) with (ln x) by (field; lra); rewrite exp_ln; auto).
  rewrite <- !Rpower_plus. rewrite E. split; apply Rle_Rpower; lra.
Qed.
Lemma pow_lo : 0.96 <= Rpower 2 (-0.0575).
Proof. unfold Rpower. pose proof ln2_hi. pose proof ln2_lo. generalize (exp_ineq1_le (-0.0575 * ln 2)). lra. Qed.
Lemma pow_hi : Rpower 2 0.0293 <= 1.021.
Proof.
  unfold Rpower. pose proof ln2_hi. pose proof ln2_lo. assert (I := exp_ineq1_le (- (0.0293 * ln 2))). assert (P := exp_pos (0.0293 * ln 2)).
  assert (E : exp (- (0.0293 * ln 2)) * exp (0.0293 * ln 2) = 1) by (rewrite <- exp_plus, Rplus_opp_l; apply exp_0).
  set (e := exp (0.0293 * ln 2)) in *. set (d := exp (- (0.0293 * ln 2))) in *.
  assert (0.97969 * e <= 1) by (rewrite <- E; apply Rmult_le_compat_r; lra). lra.
Qed.
Lemma pow2_log (p : f32) : fin p -> -125.9 <= v p <= 128 -> exists y, fast_pow2 p = Some y /\ fin y /\ 0 < v y /\ -0.0575 <= log2 (v y) - v p <= 0.0293.
Proof.
  intros F H. destruct (pow_split p F ltac:(lra)) as (E1 & E & G & (HE & HG) & D & B).
  assert (X := fr_bnd G HG). assert (S13 : 0 < bpow radix2 (-13) <= 0.0001221) by (change (bpow radix2 (-13)) with (/ 8192); lra).
  assert (1 <= E <= 254)%Z. { assert (0 < E < 255)%Z; [|lia]. split; apply lt_IZR; lra. }
  destruct (of_bits_normal E G H0 HG) as (F2 & V2). rewrite D in E1. eexists. split; [exact E1|]. split; [exact F2|]. rewrite V2, normal_val.
  split; [apply Rmult_lt_0_compat; [lra|apply bpow_gt_0]|]. destruct (log_val (E - 127) (fr G) X) as (L & U). rewrite minus_IZR in L, U. lra.
Qed.
Lemma pow2_ok (p : f32) : fin p -> -125.9 <= v p <= 128 -> exists y, fast_pow2 p = Some y /\ fin y /\ 0.96 * Rpower 2 (v p) <= v y <= 1.021 * Rpower 2 (v p).
Proof.
  intros F H. destruct (pow2_log p F H) as (y & E & Fy & P & L). exists y. split; [exact E|]. split; [exact Fy|].
  destruct (Rpower_log2 _ _ _ _ P L) as (A & B). assert (0 < Rpower 2 (v p)) by apply exp_pos. pose proof pow_lo. pose proof pow_hi.
  split; [apply Rle_trans with (2 := A)|apply Rle_trans with (1 := B)]; rewrite Rmult_comm; apply Rmult_le_compat_r || apply Rmult_le_compat_l; lra.
Qed.
(** monotone up to 128 *)
Lemma of_bits_mono a b : (0 <= a <= b)%Z -> (b < 255 * 2 ^ 23)%Z -> fin (of_bits a) /\ fin (of_bits b) /\ v (of_bits a) <= v (of_bits b).
Proof.
  intros H Hb. destruct (split_bits a ltac:(lia)) as (E & F & (HE & HF) & A & _). destruct (split_bits b ltac:(lia)) as (E' & F' & (HE' & HF') & B & _).
  assert (V : forall E F, (0 <= E < 255)%Z -> (0 <= F < 2 ^ 23)%Z -> fin (of_bits (E * 2 ^ 23 + F)) /\
    v (of_bits (E * 2 ^ 23 + F)) = (if (E =? 0)%Z then IZR F * bpow radix2 (-149) else IZR (2 ^ 23 + F) * bpow radix2 (E - 150))).
  { intros e f He Hf. destruct (Z.eqb_spec e 0) as [->|N]; [rewrite Z.mul_0_l, Z.add_0_l; apply of_bits_sub; exact Hf|apply of_bits_normal; [lia|exact Hf]]. }
  subst a b. change (2 ^ 23)%Z with 8388608%Z in *. destruct (V E F ltac:(lia) HF) as (F1 & V1). destruct (V E' F' ltac:(lia) HF') as (F2 & V2).
  split; [exact F1|]. split; [exact F2|]. rewrite V1, V2.
  destruct (Z.eqb_spec E 0) as [Z1|N1], (Z.eqb_spec E' 0) as [Z2|N2].
  - apply Rmult_le_compat_r; [apply bpow_ge_0|]. apply IZR_le. lia.
  - apply Rle_trans with (IZR 8388608 * bpow radix2 (-149)); [apply Rmult_le_compat_r; [apply bpow_ge_0|apply IZR_le; lia]|].
    apply Rmult_le_compat; [apply IZR_le; lia|apply bpow_ge_0|apply IZR_le; lia|apply bpow_le; lia].
  - lia.
  - destruct (Z.eq_dec E E') as [<-|N]; [apply Rmult_le_compat_r; [apply bpow_ge_0|apply IZR_le; lia]|].
    apply Rle_trans with (IZR 16777216 * bpow radix2 (E - 150)); [apply Rmult_le_compat_r; [apply bpow_ge_0|apply IZR_le; lia]|].
    apply Rle_trans with (IZR 8388608 * bpow radix2 (E' - 150)); [|apply Rmult_le_compat_r; [apply bpow_ge_0|apply IZR_le; lia]].
    change (IZR 16777216) with (bpow radix2 24). change (IZR 8388608) with (bpow radix2 23). rewrite <- !bpow_plus. apply bpow_le. lia.
Qed.
Definition clip (p : f32) : f32 := if flt p (mk32 (-126) 0) then mk32 (-126) 0 else p.
Lemma clip_R (p : f32) : fin p -> fin (clip p) /\ v (clip p) = Rmax (-126) (v p) /\ fast_pow2 p = fast_pow2 (clip p).
Proof.
  intros F. destruct (mk32_small (-126) 0 ltac:(reflexivity) ltac:(lia)) as (Vm & Fm). change (bpow radix2 0) with 1 in Vm. rewrite Rmult_1_r in Vm.
  unfold clip. destruct (flt p (mk32 (-126) 0)) eqn:C.
  - apply (flt_true p _ F Fm) in C. rewrite Vm in C. split; [exact Fm|]. split; [rewrite Vm, Rmax_left; lra|].
    unfold fast_pow2. replace (flt p (mk32 (-126) 0)) with true by (symmetry; apply (flt_true p _ F Fm); rewrite Vm; lra).
    replace (flt (mk32 (-126) 0) (mk32 (-126) 0)) with false by (symmetry; apply (flt_false _ _ Fm Fm); lra). reflexivity.
  - apply (flt_false p _ F Fm) in C. rewrite Vm in C. split; [exact F|]. split; [rewrite Rmax_right; lra|reflexivity].
Qed.
Lemma pow2_mono (p q : f32) : fin p -> fin q -> v p <= v q <= 128 ->
  exists y z, fast_pow2 p = Some y /\ fast_pow2 q = Some z /\ fin y /\ fin z /\ v y <= v z.
Proof.
  intros Fp Fq H. destruct (clip_R p Fp) as (F1 & V1 & ->). destruct (clip_R q Fq) as (F2 & V2 & ->).
  assert (M : -126 <= v (clip p) <= v (clip q)) by (rewrite V1, V2; split; [apply Rmax_l|apply Rle_max_compat_l; lra]).
  assert (U : v (clip q) <= 128) by (rewrite V2; apply Rmax_lub; lra). set (a := clip p) in *. set (b := clip q) in *.
  destruct (pow_split a F1 ltac:(lra)) as (E1 & E & G & (HE & HG) & D & B). destruct (pow_split b F2 ltac:(lra)) as (E2 & E' & G' & (HE' & HG') & D' & B').
  assert (I : (pow_bits (arg (v a)) <= pow_bits (arg (v b)))%Z).
  { unfold pow_bits. apply Ztrunc_le. apply Rmult_le_compat_r; [lra|]. apply rnd_le. lra. }
  assert (S13 : 0 < bpow radix2 (-13) <= 0.0001221) by (change (bpow radix2 (-13)) with (/ 8192); lra).
  assert (X := fr_bnd G' HG'). assert (E' < 255)%Z by (apply lt_IZR; lra).
  destruct (of_bits_mono (pow_bits (arg (v a))) (pow_bits (arg (v b)))) as (Q1 & Q2 & Q3).
  - rewrite D, D' in *. change (2 ^ 23)%Z with 8388608%Z in *. lia.
  - rewrite D'. change (2 ^ 23)%Z with 8388608%Z in *. lia.
  - eexists; eexists. split; [exact E1|]. split; [exact E2|]. auto.
Qed.
(** far below: flushed to a subnormal *)
Lemma pow2_flush (p : f32) : fin p -> v p <= -126 -> exists y, fast_pow2 p = Some y /\ fin y /\ 0.94 * bpow radix2 (-126) <= v y < bpow radix2 (-126).
Proof.
  intros Fp H. destruct (clip_R p Fp) as (F1 & V1 & ->). rewrite Rmax_left in V1 by exact H. set (a := clip p) in *.
  destruct (pow_split a F1 ltac:(lra)) as (E1 & E & G & (HE & HG) & D & B). assert (X := fr_bnd G HG).
  assert (S13 : 0 < bpow radix2 (-13) <= 0.0001221) by (change (bpow radix2 (-13)) with (/ 8192); lra).
  assert (E = 0)%Z. { assert (E < 1)%Z; [|lia]. apply lt_IZR. lra. } subst E. rewrite Z.mul_0_l, Z.add_0_l in D. rewrite D in E1.
  destruct (of_bits_sub G HG) as (F2 & V2). eexists. split; [exact E1|]. split; [exact F2|]. rewrite V2.
  assert (Q : IZR G = fr G * bpow radix2 23) by (unfold fr; change (bpow radix2 23) with 8388608; field).
  rewrite Q, Rmult_assoc, <- bpow_plus. change (23 + -149)%Z with (-126)%Z. assert (P := bpow_gt_0 radix2 (-126)).
  split; [apply Rmult_le_compat_r; lra|]. rewrite <- (Rmult_1_l (bpow radix2 (-126))) at 2. apply Rmult_lt_compat_r; lra.
Qed.
(** far above: negative, then undefined *)
Lemma of_bits_neg n : (0 <= n < 2 ^ 31)%Z -> of_bits (2 ^ 31 + n) = fneg (of_bits n).
Proof.
  intros H. unfold of_bits. replace ((2 ^ 31 + n) / 2 ^ 23 mod 256)%Z with (n / 2 ^ 23 mod 256)%Z.
  2:{ replace (2 ^ 31 + n)%Z with (n + 256 * 2 ^ 23)%Z by (change (2 ^ 31)%Z with (256 * 2 ^ 23)%Z; lia). rewrite Z.div_add by discriminate.
      replace (n / 2 ^ 23 + 256)%Z with (n / 2 ^ 23 + 1 * 256)%Z by lia. rewrite Z.mod_add by discriminate. reflexivity. }
  replace ((2 ^ 31 + n) mod 2 ^ 23)%Z with (n mod 2 ^ 23)%Z.
  2:{ replace (2 ^ 31 + n)%Z with (n + 256 * 2 ^ 23)%Z by (change (2 ^ 31)%Z with (256 * 2 ^ 23)%Z; lia). rewrite Z.mod_add by discriminate. reflexivity. }
  replace ((2 ^ 31 + n) / 2 ^ 31)%Z with 1%Z by (replace (2 ^ 31 + n)%Z with (1 * 2 ^ 31 + n)%Z by lia; rewrite Z.div_add_l by discriminate; rewrite Z.div_small by lia; reflexivity).
  rewrite (Z.div_small n (2 ^ 31)) by exact H. reflexivity.
Qed.
Lemma pow2_negative (p : f32) : fin p -> 129.1 <= v p <= 384 -> exists y, fast_pow2 p = Some y /\ fin y /\ v y < 0.
Proof.
  intros F H. destruct (pow_split p F ltac:(lra)) as (E1 & E & G & (HE & HG) & D & B).
  assert (S13 : 0 < bpow radix2 (-13) <= 0.0001221) by (change (bpow radix2 (-13)) with (/ 8192); lra). assert (X := fr_bnd G HG).
  assert (256 <= E <= 510)%Z. { split; [assert (255 < E)%Z; [apply lt_IZR|]; [lra|lia]|]. assert (E < 511)%Z; [apply lt_IZR; lra|lia]. }
  assert (Pn : fin (of_bits ((E - 256) * 2 ^ 23 + G)) /\ ((E - 256 = 0 /\ G = 0)%Z \/ 0 < v (of_bits ((E - 256) * 2 ^ 23 + G)))).
  { destruct (Z.eq_dec (E - 256) 0) as [Z0|N].
    - rewrite Z0, Z.mul_0_l, Z.add_0_l. destruct (of_bits_sub G HG) as (A1 & A2). split; [exact A1|]. destruct (Z.eq_dec G 0) as [->|NG]; [left; auto|right].
      rewrite A2. apply Rmult_lt_0_compat; [apply IZR_lt; lia|apply bpow_gt_0].
    - destruct (of_bits_normal (E - 256) G ltac:(lia) HG) as (A1 & A2). split; [exact A1|right]. rewrite A2, normal_val. apply Rmult_lt_0_compat; [lra|apply bpow_gt_0]. }
  assert (En : (E * 2 ^ 23 + G = 2 ^ 31 + ((E - 256) * 2 ^ 23 + G))%Z) by (change (2 ^ 31)%Z with (256 * 2 ^ 23)%Z; lia).
  rewrite D, En, of_bits_neg in E1 by (change (2 ^ 31)%Z with 2147483648%Z; change (2 ^ 23)%Z with 8388608%Z in *; lia).
  destruct Pn as (A1 & [(Z0 & Z1)|A2]).
  - exfalso. subst G. assert (E = 256)%Z by lia. subst E. unfold fr in B. lra.
  - eexists. split; [exact E1|]. split; [apply fneg_fin'; exact A1|]. rewrite fneg_R'. lra.
Qed.
Lemma pow2_undefined (p : f32) : fin p -> 386 <= v p <= 1024 -> fast_pow2 p = None.
Proof.
  intros F H. destruct (scaled p F ltac:(lra)) as (F1 & V1 & E1). apply Rabs_le_inv in E1. 
  assert (S14 : 0 < bpow radix2 (-14) <= 0.000062) by (change (bpow radix2 (-14)) with (/ 16384); lra).
  destruct (mk32_small (-126) 0 ltac:(reflexivity) ltac:(lia)) as (Vm & Fm). change (bpow radix2 0) with 1 in Vm.
  unfold fast_pow2. replace (flt p (mk32 (-126) 0)) with false by (symmetry; apply (flt_false p _ F Fm); rewrite Vm; lra).
  cbv beta iota zeta delta [bind]. unfold to_u32. rewrite (ftrunc_R _ F1), V1.
  assert (4294967296 <= Ztrunc (arg (v p) * 8388608))%Z. { rewrite Ztrunc_floor by lra. apply Zfloor_lub. lra. }
  change (2 ^ 32)%Z with 4294967296%Z. replace (Ztrunc (arg (v p) * 8388608) <? 4294967296)%Z with false by (symmetry; apply Z.ltb_ge; assumption).
  rewrite andb_false_r. reflexivity.
Qed.
