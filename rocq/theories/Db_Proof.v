From Coq Require Import Reals Lra Psatz.
From Flocq Require Import Core.Core IEEE754.BinarySingleNaN.
From Verif Require Import Common CommonFacts Float FloatFacts FloatRel FloatLerp Env_Spec Frac_Model Frac_Proof Db_Table Db_Model.
Local Open Scope R_scope.

(** ** table entries *)
Definition fits24 (k : Z) : bool :=
  let b := (Z.log2 k - 23)%Z in
  if (b <=? 0)%Z then (0 <=? k)%Z && (k <? 2 ^ 24)%Z
  else (Z.shiftl (Z.shiftr k b) b =? k)%Z && (0 <? k)%Z && (Z.log2 k <? 90)%Z.
Fixpoint increasing (l : list Z) : bool :=
  match l with
  | a :: (b :: _) as t => (a <? b)%Z && increasing t
  | _ => true
  end.
Definition good (l : list Z) : bool := forallb fits24 l && increasing l.
Definition unit60 (k : Z) : R := IZR k * bpow radix2 (-60).

Lemma fits24_R k : fits24 k = true ->
  B2R (mk32 k (-60)) = unit60 k /\ fin (mk32 k (-60)) /\ fmt 24 128 (unit60 k) /\ 0 <= unit60 k < bpow radix2 30.
Proof.
  intros H.
  assert (exists m b, (0 <= b)%Z /\ k = (m * 2 ^ b)%Z /\ (0 <= m < 2 ^ 24)%Z /\ (k < 2 ^ 90)%Z) as (m & b & Hb & E & Hm & Hk).
  { unfold fits24 in H. destruct (Z.log2 k - 23 <=? 0)%Z eqn:C.
    - apply andb_prop in H. destruct H as [H1 H2]. apply Z.leb_le in H1. apply Z.ltb_lt in H2.
      exists k, 0%Z. change (2 ^ 24)%Z with 16777216%Z in *. change (2 ^ 90)%Z with 1237940039285380274899124224%Z.
      rewrite Z.pow_0_r. lia.
    - apply Z.leb_gt in C. apply andb_prop in H. destruct H as [H H3]. apply andb_prop in H. destruct H as [H1 H2].
      apply Z.eqb_eq in H1. apply Z.ltb_lt in H2, H3.
      exists (Z.shiftr k (Z.log2 k - 23)), (Z.log2 k - 23)%Z.
      destruct (Z.log2_spec k H2) as [S1 S2].
      rewrite Z.shiftl_mul_pow2 in H1 by lia. split; [lia|]. split; [congruence|].
      rewrite Z.shiftr_div_pow2 by lia. split.
      + split; [apply Z.div_pos; [lia|apply Z.pow_pos_nonneg; lia]|].
        apply Z.div_lt_upper_bound; [apply Z.pow_pos_nonneg; lia|].
        rewrite <- Z.pow_add_r by lia. replace (Z.log2 k - 23 + 24)%Z with (Z.succ (Z.log2 k)) by lia. exact S2.
      + eapply Z.lt_le_trans; [exact S2|]. apply Z.pow_le_mono_r; lia. }
  assert (U : unit60 k = IZR m * bpow radix2 (b - 60)).
  { replace (b - 60)%Z with (b + -60)%Z by lia. unfold unit60. rewrite E, mult_IZR, bpow_plus. change (IZR (2 ^ b)) with (IZR (Z.pow radix2 b)).
    rewrite IZR_Zpower by exact Hb. ring. }
  assert (Fm : fmt 24 128 (unit60 k)).
  { rewrite U. apply fmt_F2R; [rewrite Z.abs_eq by lia; apply Hm|]. unfold SpecFloat.emin. lia. }
  assert (B : 0 <= unit60 k < bpow radix2 30).
  { unfold unit60. split.
    - apply Rmult_le_pos; [|apply bpow_ge_0]. apply IZR_le. rewrite E. apply Z.mul_nonneg_nonneg; [lia|apply Z.pow_nonneg; lia].
    - replace (bpow radix2 30) with (bpow radix2 90 * bpow radix2 (-60)) by (rewrite <- bpow_plus; reflexivity).
      apply Rmult_lt_compat_r; [apply bpow_gt_0|]. change (bpow radix2 90) with (IZR (2 ^ 90)). apply IZR_lt, Hk. }
  destruct (fmk_exact (prec:=24) (emax:=128) k (-60) Fm) as [E1 F1].
  { unfold unit60 in B. rewrite Rabs_pos_eq by apply B. apply Rlt_trans with (1 := proj2 B). apply bpow_lt. lia. }
  split; [exact E1|]. split; [exact F1|]. split; [exact Fm|exact B].
Qed.

(** the value of entry i of a table (0 beyond it) *)
Definition val (t : list Z) (i : Z) : R := unit60 (nth (Z.to_nat i) t 0%Z).

Lemma increasing_nth l : increasing l = true -> forall i, (S i < length l)%nat -> (nth i l 0 < nth (S i) l 0)%Z.
Proof.
  induction l as [|a l IH]; intros H i Hi; [cbn in Hi; lia|].
  destruct l as [|b l]; [cbn in Hi; lia|].
  change ((a <? b)%Z && increasing (b :: l) = true) in H. apply andb_prop in H. destruct H as [H1 H2].
  destruct i as [|i]; [apply Z.ltb_lt in H1; exact H1|].
  change (nth i (b :: l) 0%Z < nth (S i) (b :: l) 0%Z)%Z. apply (IH H2). cbn [length] in *. lia.
Qed.

Lemma val_step t i : good t = true -> (0 <= i)%Z -> (i + 1 < Z.of_nat (length t))%Z -> val t i < val t (i + 1).
Proof.
  intros G H0 H. apply andb_prop in G. destruct G as [_ G]. unfold val, unit60.
  apply Rmult_lt_compat_r; [apply bpow_gt_0|]. apply IZR_lt.
  replace (Z.to_nat (i + 1)) with (S (Z.to_nat i)) by lia. apply increasing_nth; [exact G|lia].
Qed.
Lemma val_mono t i j : good t = true -> (0 <= i <= j)%Z -> (j < Z.of_nat (length t))%Z -> val t i <= val t j.
Proof.
  intros G H Hj. replace j with (i + Z.of_nat (Z.to_nat (j - i)))%Z in * by lia.
  induction (Z.to_nat (j - i)) as [|n IH]; [replace (i + Z.of_nat 0)%Z with i by lia; lra|].
  eapply Rle_trans; [apply IH; lia|]. replace (i + Z.of_nat (S n))%Z with ((i + Z.of_nat n) + 1)%Z by lia.
  apply Rlt_le, val_step; auto; lia.
Qed.
Lemma val_ok t i : good t = true -> (0 <= i < Z.of_nat (length t))%Z -> (i < 2 ^ 32)%Z ->
  exists v, table_at t i = Some v /\ B2R v = val t i /\ fin v /\ fmt 24 128 (val t i) /\ 0 <= val t i < bpow radix2 30.
Proof.
  intros G H Hi. apply andb_prop in G. destruct G as [G _]. rewrite forallb_forall in G.
  unfold table_at. rewrite Z.mod_small by lia.
  destruct (nth_error t (Z.to_nat i)) as [k|] eqn:E; [|apply nth_error_None in E; lia].
  assert (K : fits24 k = true) by (apply G; eapply nth_error_In; exact E).
  destruct (fits24_R k K) as (K1 & K2 & K3 & K4). exists (mk32 k (-60)).
  assert (V : val t i = unit60 k) by (unfold val; rewrite (nth_error_nth _ _ 0%Z E); reflexivity).
  rewrite V. cbn [option_map]. auto.
Qed.

(** ** the interpolated lookup *)
Notation rn := (rnd 24 128).
Definition seg (v1 v2 mu : R) : R := rn (v1 + rn (mu * rn (v2 - v1))).
Definition interp (t : list Z) (off : Z) (x : R) : R :=
  seg (val t (Zfloor x - off)) (val t (Zfloor x - off + 1)) (x - IZR (Zfloor x)).

Lemma seg_mono v1 v2 m1 m2 : v1 <= v2 -> m1 <= m2 -> seg v1 v2 m1 <= seg v1 v2 m2.
Proof.
  intros Hv Hm. unfold seg. apply rnd_le. apply Rplus_le_compat_l. apply rnd_le.
  apply Rmult_le_compat_r; [|exact Hm]. apply rnd_ge_fmt; [apply fmt_0|lra].
Qed.

Lemma sub_int_exact (x : f32) k : fin x -> (0 <= k)%Z -> IZR k <= B2R x < bpow radix2 24 -> fmt 24 128 (B2R x - IZR k).
Proof.
  intros F K [H1 H2]. pose proof (FLT_format_B2R 24 128 _ x) as [[m e] Em M1 M2]. unfold F2R in Em; cbn [Fnum Fexp] in *.
  change (radix_val radix2) with 2%Z in M1.
  destruct (Z_le_dec 0 e) as [P|P].
  - assert (E : B2R x = IZR (m * 2 ^ e)).
    { rewrite Em, mult_IZR. f_equal. rewrite <- IZR_Zpower by exact P. reflexivity. }
    rewrite E in *. rewrite <- minus_IZR. apply fmt_IZR; [unfold SpecFloat.emin; lia|].
    change (bpow radix2 24) with (IZR (2 ^ 24)) in H2. apply lt_IZR in H2. apply le_IZR in H1. lia.
  - assert (Q : B2R x - IZR k = IZR (m - k * 2 ^ (- e)) * bpow radix2 e).
    { rewrite Em at 1. rewrite minus_IZR, Rmult_minus_distr_r. f_equal. rewrite mult_IZR.
      assert (W : IZR (2 ^ (- e)) = bpow radix2 (- e)) by (rewrite <- IZR_Zpower by lia; reflexivity).
      rewrite W, Rmult_assoc, <- bpow_plus. replace (- e + e)%Z with 0%Z by ring. cbn [bpow]. ring. }
    rewrite Q. apply fmt_F2R; [|exact M2].
    assert (D : (0 <= m - k * 2 ^ (- e))%Z).
    { apply le_IZR. apply Rmult_le_reg_r with (bpow radix2 e); [apply bpow_gt_0|]. rewrite Rmult_0_l, <- Q. lra. }
    assert (0 <= k * 2 ^ (- e))%Z by (apply Z.mul_nonneg_nonneg; [exact K|apply Z.pow_nonneg; lia]).
    lia.
Qed.

Lemma lookup_ok t off (x : f32) : good t = true -> fin x -> (0 <= off)%Z ->
  IZR off <= B2R x < IZR (off + Z.of_nat (length t) - 1) -> (off + Z.of_nat (length t) <= 4096)%Z ->
  exists y, lookup t off x = Some y /\ fin y /\ B2R y = interp t off (B2R x) /\
    val t (Zfloor (B2R x) - off) <= B2R y <= val t (Zfloor (B2R x) - off + 1) /\
    Rabs (B2R y - (val t (Zfloor (B2R x) - off) + (B2R x - IZR (Zfloor (B2R x))) *
      (val t (Zfloor (B2R x) - off + 1) - val t (Zfloor (B2R x) - off))))
    <= bpow radix2 (-21) * val t (Zfloor (B2R x) - off + 1) + bpow radix2 (-147).
Proof.
  intros G F Hoff [H1 H2] HL.
  assert (H0 : 0 <= B2R x) by (apply IZR_le in Hoff; lra).
  set (i := Zfloor (B2R x)).
  assert (Hi : (off <= i)%Z) by (apply Zfloor_lub; exact H1).
  assert (Hi2 : (i < off + Z.of_nat (length t) - 1)%Z).
  { apply lt_IZR. apply Rle_lt_trans with (B2R x); [apply Zfloor_lb|exact H2]. }
  assert (P32 : (2 ^ 32 = 4294967296)%Z) by reflexivity.
  assert (TU : to_u32 x = Some i).
  { unfold to_u32. rewrite (ftrunc_R x F), Ztrunc_floor by exact H0. fold i.
    replace (0 <=? i)%Z with true by (symmetry; apply Z.leb_le; lia).
    replace (i <? 2 ^ 32)%Z with true by (symmetry; apply Z.ltb_lt; lia). reflexivity. }
  destruct (val_ok t (i - off) G) as (v1 & T1 & E1 & F1 & M1 & B1); [lia|lia|].
  destruct (val_ok t (i - off + 1) G) as (v2 & T2 & E2 & F2 & M2 & B2); [lia|lia|].
  destruct (mk32_small i 0) as [E3 F3]; [change (2 ^ 24)%Z with 16777216%Z; lia|lia|].
  change (bpow radix2 0) with 1 in E3. rewrite Rmult_1_r in E3.
  pose proof (Zfloor_lb (B2R x)) as L. pose proof (Zfloor_ub (B2R x)) as U. fold i in L, U.
  assert (X24 : B2R x < bpow radix2 24).
  { apply Rlt_le_trans with (IZR 4096); [|change (bpow radix2 24) with (IZR 16777216); apply IZR_le; lia].
    apply Rlt_le_trans with (1 := H2). apply IZR_le. lia. }
  destruct (fsub_exact x (mk32 i 0) F F3) as [E4 F4].
  { rewrite E3. apply sub_int_exact; [exact F|lia|split; [exact L|exact X24]]. }
  { rewrite E3, Rabs_pos_eq by lra. apply Rlt_trans with 1; [lra|]. apply (bpow_lt radix2 0 128). lia. }
  rewrite E3 in E4.
  assert (C : coefficient (fsub x (mk32 i 0))) by (split; [exact F4|rewrite E4; lra]).
  assert (B126 : bpow radix2 30 < bpow radix2 126) by (apply bpow_lt; lia).
  assert (Bd1 : bounded v1) by (split; [exact F1|rewrite E1, Rabs_pos_eq by apply B1; lra]).
  assert (Bd2 : bounded v2) by (split; [exact F2|rewrite E2, Rabs_pos_eq by apply B2; lra]).
  pose proof (val_step t (i - off) G ltac:(lia) ltac:(lia)) as ST.
  destruct (lerp_f32 v1 v2 _ Bd1 Bd2 C) as [[Fy _] Ry].
  destruct (interp_between v1 v2 (fsub x (mk32 i 0)) F1 F2 F4 (proj2 Bd1) (proj2 Bd2) (proj2 C)) as (_ & Ey & _).
  pose proof (lerp_err v1 v2 (fsub x (mk32 i 0)) (val t (i - off + 1)) Bd1 Bd2 C) as Er.
  exists (linear_interpolate v1 v2 (fsub x (mk32 i 0))).
  split. { unfold lookup. rewrite TU. cbv beta iota zeta delta [bind]. rewrite T1, T2. reflexivity. }
  change (fadd v1 (fmul (fsub x (mk32 i 0)) (fsub v2 v1))) with (linear_interpolate v1 v2 (fsub x (mk32 i 0))) in *.
  split; [exact Fy|]. split.
  { rewrite Ey, E1, E2, E4. reflexivity. }
  split.
  { rewrite E1, E2 in Ry. rewrite Rmin_left, Rmax_right in Ry by lra. exact Ry. }
  rewrite E1, E2, E4 in Er. apply Er; rewrite Rabs_pos_eq; lra.
Qed.

Lemma interp_mono t off (x y : f32) : good t = true -> fin x -> fin y -> (0 <= off)%Z ->
  (off + Z.of_nat (length t) <= 4096)%Z ->
  IZR off <= B2R x -> B2R x <= B2R y -> B2R y < IZR (off + Z.of_nat (length t) - 1) ->
  interp t off (B2R x) <= interp t off (B2R y).
Proof.
  intros G Fx Fy Ho HL H1 H2 H3.
  destruct (lookup_ok t off x G Fx Ho (conj H1 (Rle_lt_trans _ _ _ H2 H3)) HL) as (a & _ & _ & Ea & Ra & _).
  destruct (lookup_ok t off y G Fy Ho (conj (Rle_trans _ _ _ H1 H2) H3) HL) as (b & _ & _ & Eb & Rb & _).
  pose proof (Zfloor_le _ _ H2) as L.
  assert (L0 : (off <= Zfloor (B2R x))%Z) by (apply Zfloor_lub; exact H1).
  assert (L1 : (Zfloor (B2R y) < off + Z.of_nat (length t) - 1)%Z).
  { apply lt_IZR. apply Rle_lt_trans with (B2R y); [apply Zfloor_lb|exact H3]. }
  destruct (Z.eq_dec (Zfloor (B2R x)) (Zfloor (B2R y))) as [E|N].
  - unfold interp. rewrite E. apply seg_mono; [|lra].
    apply Rlt_le, val_step; auto; lia.
  - rewrite <- Ea, <- Eb. eapply Rle_trans; [apply Ra|]. eapply Rle_trans; [|apply Rb].
    apply val_mono; auto; lia.
Qed.

(** ** the tables *)
Lemma good0 : good db_units0 = true. Proof. vm_compute. reflexivity. Qed.
Lemma good1 : good db_units1 = true. Proof. vm_compute. reflexivity. Qed.
Lemma good2 : good db_units2 = true. Proof. vm_compute. reflexivity. Qed.
Lemma good3 : good inv_db_units = true. Proof. vm_compute. reflexivity. Qed.
Lemma len0 : Z.of_nat (length db_units0) = 1024%Z. Proof. vm_compute. reflexivity. Qed.
Lemma len1 : Z.of_nat (length db_units1) = 1024%Z. Proof. vm_compute. reflexivity. Qed.
Lemma len2 : Z.of_nat (length db_units2) = 1024%Z. Proof. vm_compute. reflexivity. Qed.
Lemma len3 : Z.of_nat (length inv_db_units) = 1201%Z. Proof. vm_compute. reflexivity. Qed.
Lemma val_le t i t' j : (nth (Z.to_nat i) t 0 <=? nth (Z.to_nat j) t' 0)%Z = true -> val t i <= val t' j.
Proof. intros H. apply Z.leb_le in H. unfold val, unit60. apply Rmult_le_compat_r; [apply bpow_ge_0|apply IZR_le, H]. Qed.
Lemma val_eq t i k : (nth (Z.to_nat i) t 0 =? k)%Z = true -> val t i = unit60 k.
Proof. intros H. apply Z.eqb_eq in H. unfold val. rewrite H. reflexivity. Qed.
Lemma join01 : val db_units0 896 <= val db_units1 7. Proof. apply val_le. vm_compute. reflexivity. Qed.
Lemma join12 : val db_units1 1023 <= val db_units2 0. Proof. apply val_le. vm_compute. reflexivity. Qed.
Lemma unit60_int n : (0 <= n)%Z -> unit60 (n * 2 ^ 60) = IZR n.
Proof.
  intros H. unfold unit60. rewrite mult_IZR. change (IZR (2 ^ 60)) with (bpow radix2 60).
  rewrite Rmult_assoc, <- bpow_plus. change (bpow radix2 (60 + -60)) with 1. ring.
Qed.
Lemma join23 : val db_units2 1023 <= 121.
Proof.
  change 121 with (IZR 121). rewrite <- unit60_int by lia. unfold val, unit60.
  apply Rmult_le_compat_r; [apply bpow_ge_0|]. apply IZR_le. apply Z.leb_le. vm_compute. reflexivity.
Qed.
Lemma start0 : val db_units0 0 = 0.
Proof. rewrite (val_eq _ _ (0 * 2 ^ 60)) by (vm_compute; reflexivity). apply unit60_int. lia. Qed.
Lemma start3 : val inv_db_units 0 = 1.
Proof. rewrite (val_eq _ _ (1 * 2 ^ 60)) by (vm_compute; reflexivity). apply unit60_int. lia. Qed.
Lemma end3 : val inv_db_units 1200 = 1000000.
Proof. rewrite (val_eq _ _ (1000000 * 2 ^ 60)) by (vm_compute; reflexivity). apply unit60_int. lia. Qed.

(** ** a2db on arguments >= 1 *)
Definition a2db_R (a : R) : R :=
  if Rlt_bool a 8 then interp db_units0 0 ((a - 1) * 128)
  else if Rlt_bool a 1024 then interp db_units1 1 a
  else if Rlt_bool a 1048576 then interp db_units2 1 (a / 1024)
  else 121.

Lemma lit32 m : (Z.abs m < 2 ^ 24)%Z -> B2R (mk32 m 0) = IZR m /\ fin (mk32 m 0).
Proof.
  intros H. destruct (mk32_small m 0 H ltac:(lia)) as [E F]. rewrite E. change (bpow radix2 0) with 1.
  rewrite Rmult_1_r. auto.
Qed.
Lemma lit64 m : (Z.abs m < 2 ^ 53)%Z -> B2R (mk64 m 0) = IZR m /\ fin (mk64 m 0).
Proof.
  intros H. destruct (mk64_small m 0 H ltac:(lia)) as [E F]. rewrite E. change (bpow radix2 0) with 1.
  rewrite Rmult_1_r. auto.
Qed.
Lemma to32_exact (x : f64) : fin x -> fmt 24 128 (B2R x) -> Rabs (B2R x) < bpow radix2 128 ->
  B2R (to32 x) = B2R x /\ fin (to32 x).
Proof. intros F M B. apply (fconv_exact (p:=53) (e:=1024) (p':=24) (e':=128)); auto. Qed.
Lemma fmt32_64 r : fmt 24 128 r -> fmt 53 1024 r.
Proof.
  intros H. apply generic_inclusion_mag with (fexp1 := fx (prec:=24) (emax:=128)); [|exact H].
  intros _. unfold fx, SpecFloat.fexp, SpecFloat.emin. lia.
Qed.

(** multiplying or dividing a float by a power of two is exact (away from underflow) *)
Lemma fmt_scale r k : fmt 24 128 r -> bpow radix2 (-100) <= Rabs r \/ r = 0 -> (-20 <= k <= 20)%Z -> fmt 24 128 (r * bpow radix2 k).
Proof.
  intros H [B| ->] Hk; [|rewrite Rmult_0_l; apply fmt_0].
  assert (Hr : r <> 0) by (intros ->; rewrite Rabs_R0 in B; pose proof (bpow_gt_0 radix2 (-100)); lra).
  unfold fmt in *. unfold generic_format in *.
  assert (Mg : mag radix2 (r * bpow radix2 k) = (mag radix2 r + k)%Z :> Z) by (apply mag_mult_bpow; exact Hr).
  assert (Lm : (-100 < mag radix2 r)%Z).
  { apply (lt_bpow radix2). apply Rle_lt_trans with (1 := B). apply bpow_mag_gt. }
  assert (Ce : cexp radix2 (fx (prec:=24) (emax:=128)) (r * bpow radix2 k) = (cexp radix2 (fx (prec:=24) (emax:=128)) r + k)%Z).
  { unfold cexp. rewrite Mg. unfold fx, SpecFloat.fexp, SpecFloat.emin. lia. }
  unfold scaled_mantissa in *. rewrite Ce.
  replace (r * bpow radix2 k * bpow radix2 (- (cexp radix2 (fx (prec:=24) (emax:=128)) r + k)))
    with (r * bpow radix2 (- cexp radix2 (fx (prec:=24) (emax:=128)) r)).
  2:{ rewrite Rmult_assoc, <- bpow_plus. f_equal. f_equal. lia. }
  unfold F2R in *. cbn [Fnum Fexp] in *. rewrite bpow_plus, <- Rmult_assoc, <- H. reflexivity.
Qed.

Lemma arg0_ok (a : f32) : fin a -> 1 <= B2R a < 8 ->
  let x := to32 (fmul (to64 (fsub a (mk32 1 0))) (mk64 128 0)) in
  fin x /\ B2R x = (B2R a - 1) * 128.
Proof.
  intros F H. cbn zeta.
  destruct (lit32 1 ltac:(reflexivity)) as [E1 F1].
  assert (B24 : 8 < bpow radix2 24) by (change (bpow radix2 24) with (IZR 16777216); lra).
  assert (M : fmt 24 128 (B2R a - 1)) by (apply (sub_int_exact a 1); [exact F|lia|lra]).
  destruct (fsub_exact a (mk32 1 0) F F1) as [E2 F2].
  { rewrite E1. exact M. }
  { rewrite E1, Rabs_pos_eq by lra. apply Rlt_trans with 8; [lra|]. change 8 with (bpow radix2 3). apply bpow_lt. lia. }
  rewrite E1 in E2.
  destruct (to64_R _ F2) as [E3 F3]. rewrite E2 in E3.
  destruct (lit64 128 ltac:(reflexivity)) as [E4 F4].
  assert (M2 : fmt 24 128 ((B2R a - 1) * 128)).
  { change 128 with (bpow radix2 7). apply fmt_scale; [exact M| |lia].
    destruct (Req_dec (B2R a) 1) as [Q|Q]; [right; lra|left]. rewrite Rabs_pos_eq by lra.
    assert (S : 1 + bpow radix2 (-23) <= B2R a).
    { assert (F1' : fmt 24 128 1) by (apply (fmt_bpow (prec:=24) (emax:=128) 0); unfold SpecFloat.emin; lia).
      pose proof (succ_le_lt radix2 (fx (prec:=24) (emax:=128)) 1 (B2R a) F1' (fmt_v a) ltac:(lra)) as SL.
      rewrite (succ_eq_pos radix2 (fx (prec:=24) (emax:=128)) 1 ltac:(lra)) in SL.
      change 1 with (bpow radix2 0) in SL at 2. rewrite ulp_bpow in SL.
      change (fx (prec:=24) (emax:=128) (0 + 1)) with (-23)%Z in SL. exact SL. }
    assert (bpow radix2 (-100) <= bpow radix2 (-23)) by (apply bpow_le; lia). lra. }
  destruct (fmul_exact (to64 (fsub a (mk32 1 0))) (mk64 128 0) F3 F4) as [E5 F5].
  { rewrite E3, E4. apply fmt32_64. exact M2. }
  { rewrite E3, E4, Rabs_pos_eq by lra. apply Rlt_trans with 1024; [lra|]. change 1024 with (bpow radix2 10). apply bpow_lt. lia. }
  rewrite E3, E4 in E5.
  destruct (to32_exact _ F5) as [E6 F6].
  { rewrite E5. exact M2. }
  { rewrite E5, Rabs_pos_eq by lra. apply Rlt_trans with 1024; [lra|]. change 1024 with (bpow radix2 10). apply bpow_lt. lia. }
  split; [exact F6|]. rewrite E6, E5. reflexivity.
Qed.
Lemma arg2_ok (a : f32) : fin a -> 1024 <= B2R a < 1048576 ->
  let x := to32 (fdiv (to64 a) (mk64 1024 0)) in
  fin x /\ B2R x = B2R a / 1024.
Proof.
  intros F H. cbn zeta.
  destruct (to64_R _ F) as [E3 F3].
  destruct (lit64 1024 ltac:(reflexivity)) as [E4 F4].
  assert (M2 : fmt 24 128 (B2R a / 1024)).
  { change (B2R a / 1024) with (B2R a * bpow radix2 (-10)). apply fmt_scale; [apply fmt_v| |lia].
    left. rewrite Rabs_pos_eq by lra. apply Rle_trans with (bpow radix2 0); [apply bpow_le; lia|change (bpow radix2 0) with 1; lra]. }
  assert (B : Rabs (B2R a / 1024) < bpow radix2 128).
  { rewrite Rabs_pos_eq by lra. apply Rlt_trans with 1048576; [lra|]. change 1048576 with (bpow radix2 20). apply bpow_lt. lia. }
  destruct (fdiv_R (to64 a) (mk64 1024 0) F3) as [E5 F5].
  { rewrite E4. lra. }
  { rewrite E3, E4, rnd_fmt by (apply fmt32_64; exact M2). apply Rlt_trans with (1 := B). apply bpow_lt. lia. }
  rewrite E3, E4, rnd_fmt in E5 by (apply fmt32_64; exact M2).
  destruct (to32_exact _ F5) as [E6 F6].
  { rewrite E5. exact M2. }
  { rewrite E5. exact B. }
  split; [exact F6|]. rewrite E6, E5. reflexivity.
Qed.

Lemma flt_lit (a : f32) m : fin a -> (Z.abs m < 2 ^ 24)%Z -> flt a (mk32 m 0) = Rlt_bool (B2R a) (IZR m).
Proof. intros F H. destruct (lit32 m H) as [E G]. rewrite (flt_R _ _ F G), E. reflexivity. Qed.

Lemma a2db_ge1 f (a : f32) : fin a -> 1 <= B2R a ->
  exists y, a2db_rec (S f) a = Some y /\ fin y /\ B2R y = a2db_R (B2R a) /\ 0 <= B2R y <= 121.
Proof.
  intros F H. cbn [a2db_rec].
  assert (G0 : fge a fzero = true).
  { change (fge a fzero) with (fle fzero a). apply (fle_true fzero a eq_refl F). cbn. lra. }
  rewrite G0. rewrite !flt_lit by (exact F || reflexivity). unfold a2db_R.
  assert (V0 : forall t i, good t = true -> (0 <= i < Z.of_nat (length t))%Z -> (i < 2 ^ 32)%Z -> 0 <= val t i).
  { intros t i Gt Hi Hi2. destruct (val_ok t i Gt Hi Hi2) as (? & _ & _ & _ & _ & B & _). exact B. }
  assert (V2 : val db_units0 1023 <= 121).
  { eapply Rle_trans; [|apply join23]. apply val_le. vm_compute. reflexivity. }
  assert (V3 : val db_units1 1023 <= 121).
  { eapply Rle_trans; [|apply join23]. apply val_le. vm_compute. reflexivity. }
  pose proof join23 as V4.
  destruct (Rlt_bool_spec (B2R a) 1); [lra|].
  destruct (Rlt_bool_spec (B2R a) 8) as [H8|H8].
  { destruct (arg0_ok a F ltac:(lra)) as [Fx Ex].
    destruct (lookup_ok db_units0 0 _ good0 Fx ltac:(lia)) as (y & E & Fy & Ey & Ry & _).
    - rewrite len0, Ex. change (0 + 1024 - 1)%Z with 1023%Z. lra.
    - rewrite len0. lia.
    - exists y. split; [exact E|]. split; [exact Fy|]. split; [rewrite Ey, Ex; reflexivity|].
      assert (0 <= Zfloor (B2R (to32 (fmul (to64 (fsub a (mk32 1 0))) (mk64 128 0)))) < 1023)%Z.
      { rewrite Ex. split; [apply Zfloor_lub; lra|]. apply lt_IZR. eapply Rle_lt_trans; [apply Zfloor_lb|]. lra. }
      set (i := Zfloor _) in *. split.
      + eapply Rle_trans; [|apply Ry]. apply V0; [exact good0|rewrite len0; lia|lia].
      + eapply Rle_trans; [apply Ry|]. eapply Rle_trans; [|exact V2]. apply val_mono; [exact good0|lia|rewrite len0; lia]. }
  destruct (Rlt_bool_spec (B2R a) 1024) as [H1|H1].
  { destruct (lookup_ok db_units1 1 a good1 F ltac:(lia)) as (y & E & Fy & Ey & Ry & _).
    - rewrite len1. change (1 + 1024 - 1)%Z with 1024%Z. lra.
    - rewrite len1. lia.
    - exists y. split; [exact E|]. split; [exact Fy|]. split; [exact Ey|].
      assert (1 <= Zfloor (B2R a) < 1024)%Z.
      { split; [apply Zfloor_lub; lra|]. apply lt_IZR. eapply Rle_lt_trans; [apply Zfloor_lb|]. lra. }
      split.
      + eapply Rle_trans; [|apply Ry]. apply V0; [exact good1|rewrite len1; lia|lia].
      + eapply Rle_trans; [apply Ry|]. eapply Rle_trans; [|exact V3]. apply val_mono; [exact good1|lia|rewrite len1; lia]. }
  destruct (Rlt_bool_spec (B2R a) 1048576) as [H2|H2].
  { destruct (arg2_ok a F ltac:(lra)) as [Fx Ex].
    destruct (lookup_ok db_units2 1 _ good2 Fx ltac:(lia)) as (y & E & Fy & Ey & Ry & _).
    - rewrite len2, Ex. change (1 + 1024 - 1)%Z with 1024%Z. lra.
    - rewrite len2. lia.
    - exists y. split; [exact E|]. split; [exact Fy|]. split; [rewrite Ey, Ex; reflexivity|].
      assert (1 <= Zfloor (B2R (to32 (fdiv (to64 a) (mk64 1024 0)))) < 1024)%Z.
      { rewrite Ex. split; [apply Zfloor_lub; lra|]. apply lt_IZR. eapply Rle_lt_trans; [apply Zfloor_lb|]. lra. }
      set (i := Zfloor _) in *. split.
      + eapply Rle_trans; [|apply Ry]. apply V0; [exact good2|rewrite len2; lia|lia].
      + eapply Rle_trans; [apply Ry|]. eapply Rle_trans; [|exact V4]. apply val_mono; [exact good2|lia|rewrite len2; lia]. }
  destruct (lit32 121 ltac:(reflexivity)) as [E F'].
  exists (mk32 121 0). split; [reflexivity|]. split; [exact F'|]. rewrite E. split; [reflexivity|lra].
Qed.

(** each piece lies between its first and last table entries *)
Lemma piece t off (x : f32) lo hi : good t = true -> fin x -> (0 <= off)%Z -> (off + Z.of_nat (length t) <= 4096)%Z ->
  (off <= lo)%Z -> (hi <= off + Z.of_nat (length t) - 1)%Z -> IZR lo <= B2R x < IZR hi ->
  val t (lo - off) <= interp t off (B2R x) <= val t (hi - off).
Proof.
  intros G F Ho HL H1 H2 [H3 H4].
  assert (IZR off <= IZR lo) by (apply IZR_le; exact H1).
  assert (IZR hi <= IZR (off + Z.of_nat (length t) - 1)) by (apply IZR_le; exact H2).
  destruct (lookup_ok t off x G F Ho ltac:(lra) HL) as (y & _ & _ & Ey & Ry & _).
  rewrite <- Ey.
  assert (lo <= Zfloor (B2R x))%Z by (apply Zfloor_lub; exact H3).
  assert (Zfloor (B2R x) < hi)%Z by (apply lt_IZR; eapply Rle_lt_trans; [apply Zfloor_lb|exact H4]).
  split; [eapply Rle_trans; [|apply Ry]|eapply Rle_trans; [apply Ry|]]; apply val_mono; auto; lia.
Qed.

Lemma a2db_R_mono (a b : f32) : fin a -> fin b -> 1 <= B2R a -> B2R a <= B2R b -> a2db_R (B2R a) <= a2db_R (B2R b).
Proof.
  intros Fa Fb H1 H2.
  assert (P0 : forall a : f32, fin a -> 1 <= B2R a < 8 -> interp db_units0 0 ((B2R a - 1) * 128) <= val db_units0 896).
  { intros c F H. destruct (arg0_ok c F H) as [Fx Ex]. rewrite <- Ex.
    apply (piece db_units0 0 _ 0 896 good0 Fx); try (rewrite ?len0; lia). rewrite Ex. lra. }
  assert (P1 : forall a : f32, fin a -> 8 <= B2R a < 1024 -> val db_units1 7 <= interp db_units1 1 (B2R a) <= val db_units1 1023).
  { intros c F H. apply (piece db_units1 1 c 8 1024 good1 F); try (rewrite ?len1; lia). lra. }
  assert (P2 : forall a : f32, fin a -> 1024 <= B2R a < 1048576 -> val db_units2 0 <= interp db_units2 1 (B2R a / 1024) <= val db_units2 1023).
  { intros c F H. destruct (arg2_ok c F H) as [Fx Ex]. rewrite <- Ex.
    apply (piece db_units2 1 _ 1 1024 good2 Fx); try (rewrite ?len2; lia). rewrite Ex. lra. }
  pose proof join01. pose proof join12. pose proof join23.
  assert (J1 : val db_units1 7 <= val db_units1 1023) by (apply val_mono; [exact good1|lia|rewrite len1; lia]).
  assert (J2 : val db_units2 0 <= val db_units2 1023) by (apply val_mono; [exact good2|lia|rewrite len2; lia]).
  unfold a2db_R.
  destruct (Rlt_bool_spec (B2R a) 8) as [A8|A8].
  { specialize (P0 a Fa ltac:(lra)).
    destruct (Rlt_bool_spec (B2R b) 8) as [B8|B8].
    - destruct (arg0_ok a Fa ltac:(lra)) as [Fx Ex]. destruct (arg0_ok b Fb ltac:(lra)) as [Fy Ey].
      rewrite <- Ex, <- Ey. apply (interp_mono _ _ _ _ good0 Fx Fy); [lia|rewrite len0; lia|rewrite Ex; lra|rewrite Ex, Ey; lra|].
      rewrite Ey, len0. change (0 + 1024 - 1)%Z with 1023%Z. lra.
    - destruct (Rlt_bool_spec (B2R b) 1024) as [B1|B1]; [specialize (P1 b Fb ltac:(lra)); lra|].
      destruct (Rlt_bool_spec (B2R b) 1048576) as [B2|B2]; [specialize (P2 b Fb ltac:(lra)); lra|lra]. }
  destruct (Rlt_bool_spec (B2R b) 8) as [B8|B8]; [lra|].
  destruct (Rlt_bool_spec (B2R a) 1024) as [A1|A1].
  { destruct (Rlt_bool_spec (B2R b) 1024) as [B1|B1].
    - apply (interp_mono _ _ _ _ good1 Fa Fb); [lia|rewrite len1; lia|lra|lra|].
      rewrite len1. change (1 + 1024 - 1)%Z with 1024%Z. lra.
    - specialize (P1 a Fa ltac:(lra)). destruct (Rlt_bool_spec (B2R b) 1048576) as [B2|B2]; [specialize (P2 b Fb ltac:(lra)); lra|lra]. }
  destruct (Rlt_bool_spec (B2R b) 1024) as [B1|B1]; [lra|].
  destruct (Rlt_bool_spec (B2R a) 1048576) as [A2|A2].
  { destruct (Rlt_bool_spec (B2R b) 1048576) as [B2|B2].
    - destruct (arg2_ok a Fa ltac:(lra)) as [Fx Ex]. destruct (arg2_ok b Fb ltac:(lra)) as [Fy Ey].
      rewrite <- Ex, <- Ey. apply (interp_mono _ _ _ _ good2 Fx Fy); [lia|rewrite len2; lia|rewrite Ex; lra|rewrite Ex, Ey; lra|].
      rewrite Ey, len2. change (1 + 1024 - 1)%Z with 1024%Z. lra.
    - specialize (P2 a Fa ltac:(lra)). lra. }
  destruct (Rlt_bool_spec (B2R b) 1048576) as [B2|B2]; lra.
Qed.
