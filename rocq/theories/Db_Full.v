From Coq Require Import Reals Lra Psatz.
From Flocq Require Import Core.Core IEEE754.BinarySingleNaN.
From Verif Require Import Common CommonFacts Float FloatFacts FloatRel FloatLerp Env_Spec Frac_Model Frac_Proof Db_Table Db_Model Db_Proof.
Local Open Scope R_scope.

(** a float that is not a NaN and has a clear sign bit: +0, positive, +infinity *)
Definition nonneg (a : f32) : Prop := is_nan a = false /\ Bsign a = false.

Lemma fmt1 : fmt 24 128 1. Proof. apply (fmt_bpow (prec:=24) (emax:=128) 0). unfold SpecFloat.emin; lia. Qed.
Lemma nonneg_cases (a : f32) : nonneg a -> a = B754_zero false \/ a = B754_infinity false \/ (fin a /\ 0 < B2R a).
Proof.
  intros [H1 H2]. destruct a as [s|s| |s m e p]; cbn in H1, H2; try discriminate; subst; auto.
  right; right. split; [reflexivity|]. apply (F2R_gt_0 radix2). reflexivity.
Qed.
Lemma nonneg_fin (a : f32) : fin a -> 0 < B2R a -> nonneg a.
Proof.
  intros F H. destruct a as [s|s| |s m e p]; cbn in *; try discriminate; try lra.
  split; [reflexivity|]. destruct s; [|reflexivity]. exfalso.
  pose proof (F2R_lt_0 radix2 {| Fnum := cond_Zopp true (Zpos m); Fexp := e |} ltac:(reflexivity)) as Q. lra.
Qed.
Lemma fle_inf (x : f32) : is_nan x = false -> fle x (B754_infinity false) = true.
Proof. destruct x as [[]|[]| |[] m e p]; cbn; try discriminate; reflexivity. Qed.
Lemma fle_from_inf (x : f32) : fle (B754_infinity false) x = true -> x = B754_infinity false.
Proof. destruct x as [[]|[]| |[] m e p]; cbn; try discriminate; reflexivity. Qed.
Lemma fin_not_nan (x : f32) : fin x -> is_nan x = false.
Proof. destruct x; cbn; auto; discriminate. Qed.

Definition one : f32 := mk32 1 0.
Lemma one_R : B2R one = 1 /\ fin one.
Proof. exact (lit32 1 ltac:(reflexivity)). Qed.

(** 1.0f / a for 0 < a < 1 *)
Lemma recip_cases (a : f32) : fin a -> 0 < B2R a ->
  (fin (fdiv one a) /\ B2R (fdiv one a) = rnd 24 128 (1 / B2R a)) \/
  (fdiv one a = B754_infinity false /\ bpow radix2 128 <= rnd 24 128 (1 / B2R a)).
Proof.
  intros F H. destruct one_R as [E1 F1].
  assert (Q : 0 <= rnd 24 128 (1 / B2R a)).
  { apply rnd_ge_fmt; [apply fmt_0|]. apply Rmult_le_pos; [lra|]. apply Rlt_le, Rinv_0_lt_compat, H. }
  destruct (Rlt_le_dec (rnd 24 128 (1 / B2R a)) (bpow radix2 128)) as [L|L].
  - left. destruct (fdiv_R one a F1 ltac:(lra)) as [E G].
    + rewrite E1, Rabs_pos_eq by exact Q. exact L.
    + rewrite E1 in E. auto.
  - right. split; [|exact L].
    pose proof (Bdiv_correct 24 128 _ _ mode_NE one a ltac:(lra)) as C. rewrite E1 in C.
    change (round radix2 (SpecFloat.fexp 24 128) (round_mode mode_NE) (1 / B2R a)) with (rnd 24 128 (1 / B2R a)) in C.
    rewrite Rlt_bool_false in C by (rewrite Rabs_pos_eq; assumption).
    destruct (nonneg_fin a F H) as [_ S].
    change (fdiv one a) with (Bdiv mode_NE one a).
    assert (S1 : Bsign one = false) by (vm_compute; reflexivity).
    rewrite S, S1 in C. revert C. generalize (Bdiv mode_NE one a). intros x C.
    change (B2SF x = SpecFloat.S754_infinity false) in C.
    destruct x as [s|s| |s m e p]; cbn in C; try discriminate.
    injection C as ->. reflexivity.
Qed.

Definition ge1 (a : f32) : Prop := fle one a = true.
Lemma ge1_cases a : ge1 a -> a = B754_infinity false \/ (fin a /\ 1 <= B2R a).
Proof.
  intros H. unfold ge1 in H. destruct one_R as [E1 F1].
  destruct (is_finite a) eqn:F.
  - right. split; [exact F|]. apply (fle_true one a F1 F) in H. lra.
  - left. destruct a as [s|s| |s m e p]; try discriminate F.
    + destruct s; [|reflexivity]. exfalso. revert H. vm_compute. discriminate.
    + exfalso. revert H. vm_compute. discriminate.
Qed.
Lemma ge1_fin a : fin a -> 1 <= B2R a -> ge1 a.
Proof. intros F H. destruct one_R as [E1 F1]. apply (fle_true one a F1 F). lra. Qed.
Lemma ge1_inf : ge1 (B754_infinity false).
Proof. apply fle_inf. apply fin_not_nan, one_R. Qed.
Lemma recip_zero : fdiv one (B754_zero false) = B754_infinity false.
Proof. vm_compute. reflexivity. Qed.

Lemma flt_one (a : f32) : nonneg a -> flt a one = true -> a = B754_zero false \/ (fin a /\ 0 < B2R a < 1).
Proof.
  intros N H. destruct one_R as [E1 F1].
  destruct (nonneg_cases a N) as [->|[->|[F P]]]; [auto| |].
  - exfalso. revert H. vm_compute. discriminate.
  - right. split; [exact F|]. apply (flt_true a one F F1) in H. lra.
Qed.
Lemma not_flt_one (a : f32) : nonneg a -> flt a one = false -> ge1 a.
Proof.
  intros N H. destruct one_R as [E1 F1].
  destruct (nonneg_cases a N) as [->|[->|[F P]]].
  - exfalso. revert H. vm_compute. discriminate.
  - apply ge1_inf.
  - apply (flt_false a one F F1) in H. apply ge1_fin; [exact F|lra].
Qed.
Lemma recip_le1 x : 0 < x <= 1 -> 1 <= 1 / x.
Proof.
  intros H. apply Rmult_le_reg_r with x; [lra|]. unfold Rdiv. rewrite Rmult_assoc, Rinv_l by lra. lra.
Qed.
Lemma recip_ge1 (a : f32) : nonneg a -> flt a one = true -> ge1 (fdiv one a).
Proof.
  intros N H. destruct (flt_one a N H) as [->|[F P]].
  - rewrite recip_zero. apply ge1_inf.
  - destruct (recip_cases a F ltac:(lra)) as [[G E]|[-> _]]; [|apply ge1_inf].
    apply ge1_fin; [exact G|]. rewrite E. apply rnd_ge_fmt; [apply fmt1|]. apply recip_le1. lra.
Qed.
Lemma recip_anti (a b : f32) : nonneg a -> nonneg b -> flt a one = true -> flt b one = true -> fle a b = true ->
  fle (fdiv one b) (fdiv one a) = true.
Proof.
  intros Na Nb Ha Hb L.
  assert (NN : is_nan (fdiv one b) = false).
  { destruct (ge1_cases _ (recip_ge1 b Nb Hb)) as [->|[G _]]; [reflexivity|apply fin_not_nan, G]. }
  destruct (flt_one a Na Ha) as [->|[Fa Pa]]; [rewrite recip_zero; apply fle_inf, NN|].
  destruct (flt_one b Nb Hb) as [->|[Fb Pb]].
  { exfalso. apply (fle_true a (B754_zero false) Fa eq_refl) in L. cbn in L. lra. }
  apply (fle_true a b Fa Fb) in L.
  assert (M : rnd 24 128 (1 / B2R b) <= rnd 24 128 (1 / B2R a)).
  { apply rnd_le. unfold Rdiv. rewrite !Rmult_1_l. apply Rinv_le_contravar; lra. }
  destruct (recip_cases a Fa ltac:(lra)) as [[Ga Ea]|[-> _]]; [|apply fle_inf, NN].
  destruct (recip_cases b Fb ltac:(lra)) as [[Gb Eb]|[Eb Bb]].
  - apply (fle_true _ _ Gb Ga). lra.
  - exfalso. pose proof (fin_lt_emax (fdiv one a)) as X. rewrite Ea in X. apply Rabs_lt_inv in X. lra.
Qed.

Lemma a2db_inf f : a2db_rec (S f) (B754_infinity false) = Some (mk32 121 0).
Proof.
  cbn [a2db_rec].
  replace (fge (B754_infinity false) fzero) with true by (vm_compute; reflexivity).
  replace (flt (B754_infinity false) (mk32 1 0)) with false by (vm_compute; reflexivity).
  replace (flt (B754_infinity false) (mk32 8 0)) with false by (vm_compute; reflexivity).
  replace (flt (B754_infinity false) (mk32 1024 0)) with false by (vm_compute; reflexivity).
  replace (flt (B754_infinity false) (mk32 1048576 0)) with false by (vm_compute; reflexivity).
  reflexivity.
Qed.
Lemma a2db_up f a : ge1 a -> exists y, a2db_rec (S f) a = Some y /\ fin y /\ 0 <= B2R y <= 121.
Proof.
  intros G. destruct (ge1_cases a G) as [->|[F H]].
  - exists (mk32 121 0). split; [apply a2db_inf|]. destruct (lit32 121 ltac:(reflexivity)) as [E F]. rewrite E. split; [exact F|lra].
  - destruct (a2db_ge1 f a F H) as (y & E & Fy & _ & B). eauto.
Qed.
Lemma a2db_up_mono f a b y z : ge1 a -> fle a b = true ->
  a2db_rec (S f) a = Some y -> a2db_rec (S f) b = Some z -> B2R y <= B2R z.
Proof.
  intros Ga L Ea Eb. destruct (lit32 121 ltac:(reflexivity)) as [E1 F1].
  destruct (a2db_up f a Ga) as (y' & Ea' & Fy & By).
  assert (y' = y) by congruence. subst y'.
  destruct (ge1_cases a Ga) as [->|[Fa Ha]].
  - apply fle_from_inf in L. subst b. assert (y = z) by congruence. subst. lra.
  - destruct (is_finite b) eqn:Fb.
    + apply (fle_true a b Fa Fb) in L.
      destruct (a2db_ge1 f a Fa Ha) as (y' & Ea2 & _ & Ry & _). destruct (a2db_ge1 f b Fb ltac:(lra)) as (z' & Eb2 & _ & Rz & _).
      assert (y' = y) by congruence. assert (z' = z) by congruence. subst.
      rewrite Ry, Rz. apply a2db_R_mono; auto.
    + assert (b = B754_infinity false).
      { destruct b as [s|s| |s m e p]; try discriminate Fb.
        - destruct s; [|reflexivity]. exfalso. revert L. destruct a as [[]|[]| |[] m e p]; cbn; discriminate.
        - exfalso. revert L. destruct a as [[]|[]| |[] m e p]; cbn; discriminate. }
      subst b. rewrite a2db_inf in Eb. assert (z = mk32 121 0) by congruence. subst z. rewrite E1. lra.
Qed.

Lemma nonneg_fge (a : f32) : nonneg a -> fge a fzero = true.
Proof. intros [H1 H2]. destruct a as [s|s| |s m e p]; cbn in *; try discriminate; subst; reflexivity. Qed.

Lemma a2db_unfold f a : nonneg a -> flt a one = true ->
  a2db_rec (S f) a = option_map fneg (a2db_rec f (fdiv one a)).
Proof.
  intros N H. cbn [a2db_rec]. rewrite (nonneg_fge a N). unfold one in H. rewrite H.
  unfold one. destruct (a2db_rec f (fdiv (mk32 1 0) a)); reflexivity.
Qed.

Lemma a2db_cases (a : f32) : nonneg a ->
  (ge1 a /\ exists y, a2db a = Some y /\ a2db_rec 2 a = Some y /\ fin y /\ 0 <= B2R y <= 121) \/
  (flt a one = true /\ exists y, a2db a = Some (fneg y) /\ a2db_rec 2 (fdiv one a) = Some y /\ fin y /\ 0 <= B2R y <= 121).
Proof.
  intros N. destruct (flt a one) eqn:H.
  - right. split; [reflexivity|]. destruct (a2db_up 1 _ (recip_ge1 a N H)) as (y & E & F & B).
    exists y. split; [|auto]. unfold a2db. rewrite (a2db_unfold 2 a N H), E. reflexivity.
  - left. pose proof (not_flt_one a N H) as G. split; [exact G|].
    destruct (a2db_up 1 a G) as (y & E & F & B). exists y. split; [|auto].
    destruct (ge1_cases a G) as [->|[Fa Ha]]; [unfold a2db; rewrite a2db_inf in E |- *; exact E|].
    destruct (a2db_ge1 1 a Fa Ha) as (y1 & E1 & _). destruct (a2db_ge1 2 a Fa Ha) as (y2 & E2 & _).
    unfold a2db. rewrite <- E. cbn [a2db_rec].
    rewrite (nonneg_fge a N). unfold one in H. rewrite H. reflexivity.
Qed.

Lemma a2db_total (a : f32) : nonneg a -> exists y, a2db a = Some y /\ is_finite y = true /\ -121 <= B2R y <= 121.
Proof.
  intros N. destruct (a2db_cases a N) as [[_ (y & E & _ & F & B)]|[_ (y & E & _ & F & B)]].
  - exists y. split; [exact E|]. split; [exact F|lra].
  - exists (fneg y). split; [exact E|]. split; [apply fneg_fin', F|]. rewrite fneg_R'. lra.
Qed.

Lemma a2db_monotone (a b : f32) : nonneg a -> nonneg b -> fle a b = true ->
  exists y z, a2db a = Some y /\ a2db b = Some z /\ fle y z = true.
Proof.
  intros Na Nb L. destruct one_R as [E1 F1].
  destruct (a2db_cases a Na) as [[Ga (y & Ea & Ra & Fy & By)]|[Ga (y & Ea & Ra & Fy & By)]];
  destruct (a2db_cases b Nb) as [[Gb (z & Eb & Rb & Fz & Bz)]|[Gb (z & Eb & Rb & Fz & Bz)]].
  - exists y, z. split; [exact Ea|]. split; [exact Eb|]. apply (fle_true y z Fy Fz). apply (a2db_up_mono 1 a b y z Ga L Ra Rb).
  - exfalso. destruct (flt_one b Nb Gb) as [->|[Fb Pb]].
    + destruct (ge1_cases a Ga) as [->|[Fa Ha]]; [apply fle_from_inf in L; discriminate|].
      apply (fle_true a (B754_zero false) Fa eq_refl) in L. cbn in L. lra.
    + destruct (ge1_cases a Ga) as [->|[Fa Ha]]; [apply fle_from_inf in L; subst; discriminate|].
      apply (fle_true a b Fa Fb) in L. lra.
  - exists (fneg y), z. split; [exact Ea|]. split; [exact Eb|]. apply (fle_true (fneg y) z (fneg_fin' _ Fy) Fz). rewrite fneg_R'. lra.
  - exists (fneg y), (fneg z). split; [exact Ea|]. split; [exact Eb|].
    apply (fle_true _ _ (fneg_fin' _ Fy) (fneg_fin' _ Fz)). rewrite !fneg_R'.
    pose proof (a2db_up_mono 1 _ _ z y (recip_ge1 b Nb Gb) (recip_anti a b Na Nb Ga Gb L) Rb Ra). lra.
Qed.

Lemma a2db_rejects (a : f32) : ~ nonneg a -> a2db a = None.
Proof.
  intros H. unfold a2db, nonneg in *. destruct a as [s|s| |s m e p]; cbn [is_nan Bsign] in H.
  - destruct s; [|exfalso; apply H; auto]. 
    cbn [a2db_rec].
    replace (fge (B754_zero true) fzero) with true by (vm_compute; reflexivity).
    replace (flt (B754_zero true) (mk32 1 0)) with true by (vm_compute; reflexivity).
    replace (fge (fdiv (mk32 1 0) (B754_zero true)) fzero) with false by (vm_compute; reflexivity).
    reflexivity.
  - destruct s; [|exfalso; apply H; auto]. cbn [a2db_rec].
    replace (fge (B754_infinity true) fzero) with false by (vm_compute; reflexivity). reflexivity.
  - cbn [a2db_rec]. replace (fge B754_nan fzero) with false by (vm_compute; reflexivity). reflexivity.
  - destruct s; [|exfalso; apply H; auto]. cbn [a2db_rec].
    replace (fge (B754_finite true m e p) fzero) with false; [reflexivity|].
    reflexivity.
Qed.

(** ** db2a *)
Definition db2a_R (x : R) : R := interp inv_db_units 0 (rnd 24 128 (x * 10)).
Lemma below_120 (x : f32) : fin x -> B2R x < 120 -> B2R x <= 120 - bpow radix2 (-17).
Proof.
  intros F H. change (bpow radix2 (-17)) with (/ 131072).
  destruct (Rlt_le_dec (B2R x) 64) as [L|L]; [lra|].
  assert (F120 : fmt 24 128 120).
  { change 120 with (IZR 120). apply fmt_IZR; [unfold SpecFloat.emin; lia|reflexivity]. }
  pose proof (succ_le_lt radix2 (fx (prec:=24) (emax:=128)) (B2R x) 120 (fmt_v x) F120 H) as SL.
  rewrite succ_eq_pos in SL by lra. rewrite ulp_neq_0 in SL by lra.
  assert (Mg : mag radix2 (B2R x) = 7%Z :> Z).
  { apply mag_unique. rewrite Rabs_pos_eq by lra. change (bpow radix2 (7 - 1)) with 64. change (bpow radix2 7) with 128. lra. }
  unfold cexp in SL. rewrite Mg in SL. change (fx (prec:=24) (emax:=128) 7) with (-17)%Z in SL.
  change (bpow radix2 (-17)) with (/ 131072) in SL. lra.
Qed.
Lemma times10 (x : f32) : fin x -> 0 <= B2R x < 120 ->
  fin (fmul x (mk32 10 0)) /\ B2R (fmul x (mk32 10 0)) = rnd 24 128 (B2R x * 10) /\ 0 <= rnd 24 128 (B2R x * 10) < 1200.
Proof.
  intros F H. destruct (lit32 10 ltac:(reflexivity)) as [E1 F1].
  pose proof (below_120 x F (proj2 H)) as L. change (bpow radix2 (-17)) with (/ 131072) in L.
  assert (R0 : 0 <= rnd 24 128 (B2R x * 10)) by (apply rnd_ge_fmt; [apply fmt_0|lra]).
  pose proof (rnd_err (prec:=24) (emax:=128) (B2R x * 10) 11) as Er.
  change (11 - 24 - 1)%Z with (-14)%Z in Er. change (bpow radix2 11) with 2048 in Er. change (bpow radix2 (-14)) with (/ 16384) in Er.
  assert (Er' : Rabs (rnd 24 128 (B2R x * 10) - B2R x * 10) <= / 16384).
  { apply Er; [unfold SpecFloat.emin; lia|]. rewrite Rabs_pos_eq by lra. lra. }
  apply Rabs_le_inv in Er'.
  assert (R1 : rnd 24 128 (B2R x * 10) < 1200) by lra.
  destruct (fmul_R x (mk32 10 0) F F1) as [E G].
  - rewrite E1, Rabs_pos_eq by exact R0. apply Rlt_trans with 2048; [lra|]. change 2048 with (bpow radix2 11). apply bpow_lt. lia.
  - rewrite E1 in E. auto.
Qed.

(** a non-negative level *)
Lemma db2a_inf f x : fin x -> 120 <= B2R x -> db2a_rec (S f) x = Some (mk32 1000000 0).
Proof.
  intros F H. cbn [db2a_rec].
  replace (flt x fzero) with false.
  2:{ symmetry. apply (flt_false x fzero F eq_refl). cbn. lra. }
  rewrite flt_lit by (exact F || reflexivity). rewrite Rlt_bool_false by exact H. reflexivity.
Qed.
Lemma db2a_mid f x : fin x -> 0 <= B2R x < 120 ->
  exists y, db2a_rec (S f) x = Some y /\ fin y /\ B2R y = db2a_R (B2R x) /\ 1 <= B2R y <= 1000000.
Proof.
  intros F H. destruct (times10 x F H) as (G & E & B). cbn [db2a_rec].
  replace (flt x fzero) with false.
  2:{ symmetry. apply (flt_false x fzero F eq_refl). cbn. lra. }
  rewrite flt_lit by (exact F || reflexivity). rewrite Rlt_bool_true by apply H.
  destruct (lookup_ok inv_db_units 0 _ good3 G ltac:(lia)) as (y & El & Fy & Ey & _).
  - rewrite len3, E. exact B.
  - rewrite len3. lia.
  - exists y. split; [exact El|]. split; [exact Fy|]. split; [rewrite Ey, E; reflexivity|]. rewrite Ey.
    pose proof (piece inv_db_units 0 _ 0 1200 good3 G ltac:(lia) ltac:(rewrite len3; lia) ltac:(lia) ltac:(rewrite len3; lia)) as P.
    rewrite E in P |- *. specialize (P B). change (0 - 0)%Z with 0%Z in P. change (1200 - 0)%Z with 1200%Z in P. rewrite start3, end3 in P. exact P.
Qed.
Lemma million : B2R (mk32 1000000 0) = 1000000 /\ fin (mk32 1000000 0).
Proof. exact (lit32 1000000 ltac:(reflexivity)). Qed.

(** level >= 0 or NaN or +infinity: no recursion *)
Lemma db2a_up f x : flt x fzero = false ->
  exists y, db2a_rec (S f) x = Some y /\ fin y /\ 1 <= B2R y <= 1000000.
Proof.
  intros H. destruct million as [E6 F6].
  destruct (is_finite x) eqn:F.
  - apply (flt_false x fzero F eq_refl) in H. cbn in H.
    destruct (Rlt_le_dec (B2R x) 120) as [L|L].
    + destruct (db2a_mid f x F (conj H L)) as (y & E & Fy & _ & B). eauto.
    + exists (mk32 1000000 0). rewrite (db2a_inf f x F L), E6. split; [reflexivity|]. split; [exact F6|lra].
  - exists (mk32 1000000 0). rewrite E6. split; [|split; [exact F6|lra]].
    cbn [db2a_rec]. rewrite H.
    replace (flt x (mk32 120 0)) with false; [reflexivity|].
    destruct x as [s|s| |s m e p]; try discriminate F.
    + destruct s; [exfalso; revert H; vm_compute; discriminate|vm_compute; reflexivity].
    + vm_compute; reflexivity.
Qed.
Lemma db2a_R_mono (x y : f32) : fin x -> fin y -> 0 <= B2R x -> B2R x <= B2R y < 120 -> db2a_R (B2R x) <= db2a_R (B2R y).
Proof.
  intros Fx Fy H1 H2. destruct (times10 x Fx ltac:(lra)) as (Gx & Ex & Bx). destruct (times10 y Fy ltac:(lra)) as (Gy & Ey & By).
  unfold db2a_R. rewrite <- Ex, <- Ey. apply (interp_mono _ _ _ _ good3 Gx Gy); [lia|rewrite len3; lia|rewrite Ex; lra| |].
  - rewrite Ex, Ey. apply rnd_le. lra.
  - rewrite len3, Ey. apply By.
Qed.
Lemma db2a_up_mono f x y a b : flt x fzero = false -> fle x y = true ->
  db2a_rec (S f) x = Some a -> db2a_rec (S f) y = Some b -> B2R a <= B2R b.
Proof.
  intros Hx L Ea Eb. destruct million as [E6 F6].
  destruct (db2a_up f x Hx) as (a' & Ea' & _ & Ba). assert (a' = a) by congruence. subst a'.
  destruct (is_finite x) eqn:Fx.
  2:{ (* +infinity *)
    destruct x as [s|s| |s m e p]; try discriminate Fx.
    - destruct s; [exfalso; revert Hx; vm_compute; discriminate|]. apply fle_from_inf in L. subst y.
      assert (a = b) by congruence. subst. lra.
    - exfalso. revert L. destruct y; cbn; discriminate. }
  apply (flt_false x fzero Fx eq_refl) in Hx. change (B2R fzero) with 0 in Hx.
  destruct (is_finite y) eqn:Fy.
  - apply (fle_true x y Fx Fy) in L.
    destruct (Rlt_le_dec (B2R y) 120) as [Ly|Ly].
    + destruct (db2a_mid f x Fx ltac:(lra)) as (a' & Ea2 & _ & Ra & _). destruct (db2a_mid f y Fy ltac:(lra)) as (b' & Eb2 & _ & Rb & _).
      assert (a' = a) by congruence. assert (b' = b) by congruence. subst. rewrite Ra, Rb. apply db2a_R_mono; auto; lra.
    + rewrite (db2a_inf f y Fy Ly) in Eb. assert (b = mk32 1000000 0) by congruence. subst b. lra.
  - assert (Ey : flt y fzero = false /\ b = mk32 1000000 0).
    { destruct y as [s|s| |s m e p]; try discriminate Fy.
      - destruct s; [exfalso; revert L; destruct x as [[]|[]| |[] m e p]; cbn; discriminate|].
        split; [vm_compute; reflexivity|]. cbn [db2a_rec] in Eb.
        replace (flt (B754_infinity false) fzero) with false in Eb by (vm_compute; reflexivity).
        replace (flt (B754_infinity false) (mk32 120 0)) with false in Eb by (vm_compute; reflexivity).
        congruence.
      - exfalso. revert L. destruct x as [[]|[]| |[] m e p]; cbn; discriminate. }
    destruct Ey as [_ ->]. lra.
Qed.

Lemma fneg_flt (x : f32) : flt x fzero = true -> flt (fneg x) fzero = false.
Proof. destruct x as [[]|[]| |[] m e p]; intros H; try discriminate H; reflexivity. Qed.
Lemma fneg_fle (x y : f32) : fle x y = true -> fle (fneg y) (fneg x) = true.
Proof.
  intros L. destruct (is_finite x) eqn:Fx; destruct (is_finite y) eqn:Fy.
  - apply (fle_true x y Fx Fy) in L. apply (fle_true _ _ (fneg_fin' _ Fy) (fneg_fin' _ Fx)). rewrite !fneg_R'. lra.
  - revert L. destruct y as [[]|[]| |[] m e p]; try discriminate Fy; destruct x as [[]|[]| |[] m' e' p']; try discriminate Fx; cbn; auto.
  - revert L. destruct x as [[]|[]| |[] m e p]; try discriminate Fx; destruct y as [[]|[]| |[] m' e' p']; try discriminate Fy; cbn; auto.
  - revert L. destruct x as [[]|[]| |[] m e p]; try discriminate Fx; destruct y as [[]|[]| |[] m' e' p']; try discriminate Fy; cbn; auto.
Qed.

(** reciprocal of an amplitude in [1, 10^6] *)
Lemma recip_big (y : f32) : fin y -> 1 <= B2R y <= 1000000 ->
  fin (fdiv one y) /\ B2R (fdiv one y) = rnd 24 128 (1 / B2R y) /\ 9 / 10000000 <= B2R (fdiv one y) <= 1.
Proof.
  intros F H. destruct one_R as [E1 F1].
  assert (Q0 : / 1000000 <= 1 / B2R y).
  { unfold Rdiv. rewrite Rmult_1_l. apply Rinv_le_contravar; lra. }
  assert (Q1 : 1 / B2R y <= 1).
  { apply Rmult_le_reg_r with (B2R y); [lra|]. unfold Rdiv. rewrite Rmult_assoc, Rinv_l by lra. lra. }
  assert (Q2 : rnd 24 128 (1 / B2R y) <= 1) by (apply rnd_le_fmt; [apply fmt1|exact Q1]).
  pose proof (rnd_rel32_pos (1 / B2R y)) as [Q3 _].
  { apply Rle_trans with (bpow radix2 (-20)); [apply bpow_le; lia|change (bpow radix2 (-20)) with (/ 1048576)].
    apply Rle_trans with (2 := Q0). apply Rinv_le_contravar; lra. }
  assert (Q4 : 9 / 10000000 <= rnd 24 128 (1 / B2R y)) by nra.
  destruct (fdiv_R one y F1 ltac:(lra)) as [E G].
  - rewrite E1, Rabs_pos_eq by lra. apply Rle_lt_trans with (1 := Q2). apply (bpow_lt radix2 0 128). lia.
  - rewrite E1 in E. rewrite E. auto.
Qed.

Lemma db2a_cases (x : f32) :
  (flt x fzero = false /\ exists y, db2a x = Some y /\ db2a_rec 2 x = Some y /\ fin y /\ 1 <= B2R y <= 1000000) \/
  (flt x fzero = true /\ exists y, db2a x = Some (fdiv one y) /\ db2a_rec 2 (fneg x) = Some y /\ fin y /\ 1 <= B2R y <= 1000000).
Proof.
  destruct (flt x fzero) eqn:H.
  - right. split; [reflexivity|]. destruct (db2a_up 1 (fneg x) (fneg_flt x H)) as (y & E & F & B).
    exists y. split; [|auto]. unfold db2a. change (db2a_rec 3 x) with
      (if flt x fzero then do y <- db2a_rec 2 (fneg x) ; Some (fdiv (mk32 1 0) y)
       else if flt x (mk32 120 0) then lookup inv_db_units 0 (fmul x (mk32 10 0)) else Some (mk32 1000000 0)).
    rewrite H, E. reflexivity.
  - left. split; [reflexivity|]. destruct (db2a_up 1 x H) as (y & E & F & B). exists y. split; [|auto].
    unfold db2a. rewrite <- E. cbn [db2a_rec]. rewrite H. reflexivity.
Qed.
Lemma db2a_total (x : f32) : exists y, db2a x = Some y /\ is_finite y = true /\ 9 / 10000000 <= B2R y <= 1000000.
Proof.
  destruct (db2a_cases x) as [[_ (y & E & _ & F & B)]|[_ (y & E & _ & F & B)]].
  - exists y. split; [exact E|]. split; [exact F|lra].
  - destruct (recip_big y F B) as (G & _ & R). exists (fdiv one y). split; [exact E|]. split; [exact G|lra].
Qed.
Lemma db2a_monotone (x y : f32) : fle x y = true ->
  exists a b, db2a x = Some a /\ db2a y = Some b /\ fle a b = true.
Proof.
  intros L.
  destruct (db2a_cases x) as [[Hx (a & Ea & Ra & Fa & Ba)]|[Hx (a & Ea & Ra & Fa & Ba)]];
  destruct (db2a_cases y) as [[Hy (b & Eb & Rb & Fb & Bb)]|[Hy (b & Eb & Rb & Fb & Bb)]].
  - exists a, b. split; [exact Ea|]. split; [exact Eb|]. apply (fle_true a b Fa Fb). apply (db2a_up_mono 1 x y a b Hx L Ra Rb).
  - destruct (recip_big b Fb Bb) as (Gb & _ & Xb). exfalso.
    revert Hx Hy L. clear. intros Hx Hy L.
    destruct (is_finite x) eqn:Fx; destruct (is_finite y) eqn:Fy.
    + apply (flt_false x fzero Fx eq_refl) in Hx. apply (flt_true y fzero Fy eq_refl) in Hy. apply (fle_true x y Fx Fy) in L. change (B2R fzero) with 0 in *. lra.
    + destruct y as [[]|[]| |[] m e p]; try discriminate Fy; try discriminate Hy. destruct x as [[]|[]| |[] m e p]; try discriminate Fx; cbn in L; discriminate.
    + destruct x as [[]|[]| |[] m e p]; try discriminate Fx; try discriminate Hx.
      * apply fle_from_inf in L. subst. discriminate.
      * destruct y; cbn in L; discriminate.
    + destruct y as [[]|[]| |[] m e p]; try discriminate Fy; try discriminate Hy. destruct x as [[]|[]| |[] m e p]; try discriminate Fx; try discriminate Hx; cbn in L; discriminate.
  - destruct (recip_big a Fa Ba) as (Ga & _ & Xa). exists (fdiv one a), b. split; [exact Ea|]. split; [exact Eb|]. apply (fle_true _ _ Ga Fb). lra.
  - destruct (recip_big a Fa Ba) as (Ga & Va & Xa). destruct (recip_big b Fb Bb) as (Gb & Vb & Xb).
    exists (fdiv one a), (fdiv one b). split; [exact Ea|]. split; [exact Eb|]. apply (fle_true _ _ Ga Gb). rewrite Va, Vb.
    apply rnd_le. unfold Rdiv. rewrite !Rmult_1_l. apply Rinv_le_contravar; [lra|].
    apply (db2a_up_mono 1 (fneg y) (fneg x) b a (fneg_flt y Hy) (fneg_fle x y L) Rb Ra).
Qed.
