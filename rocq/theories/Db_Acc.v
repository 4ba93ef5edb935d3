(** Accuracy of a2db: the tables hold 20 log10 of their positions, and linear interpolation of a
    logarithm is off by at most 1/(8 N^2). *)
From Coq Require Import Reals Lra Lia ZArith List Bool.
From Flocq Require Import Core.Core IEEE754.BinarySingleNaN.
From Verif Require Import Common Float FloatFacts FloatLerp FloatRel Expo Frac_Model Db_Table Db_Model Db_Proof Db_Full Db_Ln Fast_Ln.
From Verif Require Fast_Exp.
Local Open Scope R_scope.

(** a function with decreasing derivative that vanishes at 0 and 1 is not negative between *)
Lemma concave_pos f f' : (forall t, 0 <= t <= 1 -> derivable_pt_lim f t (f' t)) -> f 0 = 0 -> f 1 = 0 ->
  (forall s t, 0 <= s <= t -> t <= 1 -> f' t <= f' s) -> forall t, 0 <= t <= 1 -> 0 <= f t.
Proof.
  intros D F0 F1 M t Ht.
  destruct (Rle_lt_or_eq_dec 0 t (proj1 Ht)) as [A|<-]; [|lra]. destruct (Rle_lt_or_eq_dec t 1 (proj2 Ht)) as [B| ->]; [|lra].
  destruct (MVT_cor2 f f' 0 t A) as (c & E1 & C1); [intros; apply D; lra|].
  destruct (MVT_cor2 f f' t 1 B) as (d & E2 & C2); [intros; apply D; lra|].
  rewrite F0 in E1. rewrite F1 in E2. pose proof (M c d ltac:(lra) ltac:(lra)).
  assert (E : f t = (f' c - f' d) * (t * (1 - t))).
  { replace ((f' c - f' d) * (t * (1 - t))) with (f' c * (t - 0) * (1 - t) - f' d * (1 - t) * t) by ring. rewrite <- E1, <- E2. ring. }
  rewrite E. apply Rmult_le_pos; [lra|]. apply Rmult_le_pos; lra.
Qed.
Lemma d_lnN N t : 0 < N + t -> derivable_pt_lim (fun t => ln (N + t)) t (/ (N + t)).
Proof.
  intros H. eapply d_eq; [apply (derivable_pt_lim_comp (fun t => N + t) ln); [apply (d_plus (fun _ => N) (fun t => t)); [apply d_const|apply derivable_pt_lim_id]|apply derivable_pt_lim_ln; lra]|]. ring.
Qed.
Lemma ln_chord N f : 0 < N -> 0 <= f <= 1 ->
  0 <= ln (N + f) - (ln N + f * (ln (N + 1) - ln N)) <= / (8 * N ^ 2).
Proof.
  intros HN Hf. assert (N2 : 0 < N ^ 2) by nra. set (d := ln (N + 1) - ln N).
  assert (Dl : forall t, 0 <= t <= 1 -> derivable_pt_lim (fun t => ln (N + t) - (ln N + t * d)) t (/ (N + t) - d)).
  { intros t Ht. apply d_minus; [apply d_lnN; lra|]. eapply d_eq; [apply (d_plus (fun _ => ln N) (fun t => t * d)); [apply d_const|]|].
    - apply (derivable_pt_lim_mult id (fun _ => d)); [apply derivable_pt_lim_id|apply d_const]. - unfold id. ring. }
  assert (Mono : forall s t, 0 <= s <= t -> t <= 1 -> / (N + t) <= / (N + s)) by (intros; apply Rinv_le_contravar; lra).
  split.
  - apply (concave_pos (fun t => ln (N + t) - (ln N + t * d)) (fun t => / (N + t) - d) Dl); auto.
    + rewrite Rplus_0_r. ring. + unfold d. ring.
    + intros s t A B. pose proof (Mono s t A B). lra.
  - assert (P : 0 <= / (2 * N ^ 2) * (f - f ^ 2) - (ln (N + f) - (ln N + f * d))).
    { apply (concave_pos (fun t => / (2 * N ^ 2) * (t - t ^ 2) - (ln (N + t) - (ln N + t * d))) (fun t => / (2 * N ^ 2) * (1 - 2 * t) - (/ (N + t) - d))); auto.
      - intros t Ht. apply d_minus; [|apply Dl; exact Ht]. apply d_scal. apply (d_minus id (fun t => t ^ 2)); [apply derivable_pt_lim_id|].
        eapply d_eq; [apply (d_pow 1)|]. cbn [INR]. ring.
      - rewrite Rplus_0_r. ring. - unfold d. ring.
      - intros s t A B. assert (E : / (N + s) - / (N + t) <= (t - s) * / (N ^ 2)).
        { replace (/ (N + s) - / (N + t)) with ((t - s) * / ((N + s) * (N + t))) by (field; lra). apply Rmult_le_compat_l; [lra|]. apply Rinv_le_contravar; nra. }
        replace (/ (2 * N ^ 2)) with (/ 2 * / N ^ 2) by (field; lra). nra. }
    assert (Q : / (2 * N ^ 2) * (f - f ^ 2) <= / (8 * N ^ 2)).
    { replace (/ (8 * N ^ 2)) with (/ (2 * N ^ 2) * / 4) by (field; lra). apply Rmult_le_compat_l; [apply Rlt_le, Rinv_0_lt_compat; lra|pose proof (Rle_0_sqr (f - / 2)) as SQ; unfold Rsqr in SQ; replace (f ^ 2) with (f * f) by ring; lra]. }
    fold d. lra.
Qed.

(** ** tables *)
Definition db_of (a : R) : R := 20 * ln a / ln 10.
Definition l10 : Z := 158232442705.
Definition h10 : Z := 158232442817.
Lemma ln10_bounds : IZR l10 <= IZR Qs * ln 10 <= IZR h10.
Proof.
  assert (T : match nth_error lntab 9 with Some (l, h) => (l =? l10)%Z && (h =? h10)%Z | None => false end = true) by (vm_compute; reflexivity).
  destruct (nth_error lntab 9) as [[l h]|] eqn:E; [|discriminate T]. apply andb_prop in T. destruct T as [T1 T2]. apply Z.eqb_eq in T1, T2. subst.
  exact (lntab_ok 9 _ _ E).
Qed.
Lemma Qs_pos : 0 < IZR Qs. Proof. apply IZR_lt. reflexivity. Qed.
Lemma ln10_pos : 2.3025 < ln 10 < 2.3026.
Proof.
  pose proof ln10_bounds as [A B]. pose proof Qs_pos as P. unfold l10, h10, Qs in *. split; lra.
Qed.
Definition eps60 : Z := 5764607523034. (* 5e-6 * 2^60 *)
Local Open Scope Z_scope.
Definition entry_ok (clo chi : Z) (p : Z * (Z * Z)) : bool :=
  let '(u, (lo, hi)) := p in
  (20 * (hi + chi) * 2 ^ 60 <=? (u + eps60) * l10) && ((u - eps60) * l10 <=? 20 * (lo + clo) * 2 ^ 60) && ((u - eps60) * h10 <=? 20 * (lo + clo) * 2 ^ 60).
From Verif Require Fast_Exp.
Local Open Scope R_scope.
Lemma entry_R clo chi u lo hi (c y : R) : entry_ok clo chi (u, (lo, hi)) = true -> (0 <= u)%Z ->
  IZR clo <= IZR Qs * c <= IZR chi -> IZR lo <= IZR Qs * y <= IZR hi ->
  Rabs (unit60 u - 20 * (y + c) / ln 10) <= 0.000005.
Proof.
  intros H U C Y. unfold entry_ok in H. apply andb_prop in H. destruct H as [H H3]. apply andb_prop in H. destruct H as [H1 H2].
  apply Z.leb_le in H1, H2, H3. apply IZR_le in H1, H2, H3. rewrite !mult_IZR, !plus_IZR in H1. rewrite !mult_IZR, minus_IZR, plus_IZR in H2, H3.
  pose proof ln10_bounds as B. pose proof Qs_pos as P. pose proof ln10_pos as L. apply IZR_le in U.
  change (IZR (2 ^ 60)) with 1152921504606846976 in *. set (q := IZR Qs) in *. set (ten := ln 10) in *. 
  assert (E1 : IZR eps60 = 5764607523034) by reflexivity. rewrite E1 in *.
  unfold unit60. change (bpow radix2 (-60)) with (/ 1152921504606846976). set (a := IZR u) in *. set (w := 1152921504606846976) in *.
  assert (W : w > 0) by (unfold w; lra).
  assert (Up : 20 * (y + c) * w <= (a + 5764607523034) * ten).
  { apply Rmult_le_reg_l with q; [exact P|]. 
    apply Rle_trans with (20 * (IZR hi + IZR chi) * w); [|eapply Rle_trans; [exact H1|]].
    - replace (q * (20 * (y + c) * w)) with (20 * (q * y + q * c) * w) by ring. apply Rmult_le_compat_r; lra.
    - replace (q * ((a + 5764607523034) * ten)) with ((a + 5764607523034) * (q * ten)) by ring. apply Rmult_le_compat_l; lra. }
  assert (Lo : (a - 5764607523034) * ten <= 20 * (y + c) * w).
  { apply Rmult_le_reg_l with q; [exact P|].
    apply Rle_trans with (20 * (IZR lo + IZR clo) * w); [|replace (q * (20 * (y + c) * w)) with (20 * (q * y + q * c) * w) by ring; apply Rmult_le_compat_r; lra].
    replace (q * ((a - 5764607523034) * ten)) with ((a - 5764607523034) * (q * ten)) by ring.
    destruct (Rle_dec 0 (a - 5764607523034)) as [S|S].
    - eapply Rle_trans; [|exact H3]. apply Rmult_le_compat_l; lra.
    - eapply Rle_trans; [|exact H2]. apply Rmult_le_compat_neg_l; lra. }
  assert (D : 20 * (y + c) / ten * ten = 20 * (y + c)) by (field; lra).
  set (v := 20 * (y + c) / ten) in *. rewrite <- D in Up, Lo.
  assert (Up' : v * w <= a + 5764607523034) by (apply Rmult_le_reg_r with ten; [lra|]; lra).
  assert (Lo' : a - 5764607523034 <= v * w) by (apply Rmult_le_reg_r with ten; [lra|]; lra).
  clear - Up' Lo'. unfold w in *. apply Rabs_le. split; lra.
Qed.

Lemma len_ln : length lntab = 1024%nat. Proof. vm_compute. reflexivity. Qed.
Lemma combine_nth_error {A B} (l : list A) (m : list B) : forall i a b, nth_error l i = Some a -> nth_error m i = Some b -> nth_error (combine l m) i = Some (a, b).
Proof. revert m. induction l as [|x l IH]; intros [|y m] [|i] a b H1 H2; try discriminate; cbn in *; [congruence|apply IH; assumption]. Qed.
Lemma nth_error_skipn {A} (l : list A) k i : nth_error (skipn k l) i = nth_error l (k + i).
Proof. revert l. induction k as [|k IH]; intros [|x l]; cbn; auto. destruct i; reflexivity. Qed.
Lemma tab_val t clo chi k (c : R) : good t = true -> forallb (entry_ok clo chi) (combine t (skipn k lntab)) = true ->
  IZR clo <= IZR Qs * c <= IZR chi ->
  forall i, (0 <= i < Z.of_nat (length t))%Z -> (i + Z.of_nat k < 1024)%Z ->
  Rabs (val t i - 20 * (ln (IZR (1 + Z.of_nat k + i)) + c) / ln 10) <= 0.000005.
Proof.
  intros G H C i Hi Hk. unfold val. set (n := Z.to_nat i). 
  destruct (nth_error lntab (k + n)) as [[l h]|] eqn:E; [|apply nth_error_None in E; rewrite len_ln in E; lia].
  assert (E0 : nth_error t n = Some (nth n t 0%Z)) by (apply nth_error_nth'; lia).
  assert (I : In (nth n t 0%Z, (l, h)) (combine t (skipn k lntab))).
  { apply nth_error_In with n. apply combine_nth_error; [exact E0|]. rewrite nth_error_skipn. exact E. }
  rewrite forallb_forall in H. apply H in I.
  apply (entry_R _ _ _ _ _ c (ln (IZR (1 + Z.of_nat k + i))) I); [|exact C|].
  - unfold good in G. apply andb_prop in G. destruct G as [G _]. rewrite forallb_forall in G. specialize (G _ (nth_error_In _ _ E0)).
    unfold fits24 in G. cbv zeta in G. destruct (Z.log2 _ - 23 <=? 0)%Z; repeat (apply andb_prop in G; destruct G as [G ?]); lia.
  - replace (1 + Z.of_nat k + i)%Z with (1 + Z.of_nat (k + n))%Z by lia. apply lntab_ok. exact E.
Qed.

Definition lo128 : Z := 333428980486.  Definition hi128 : Z := 333428983064.
Definition lo1024 : Z := 476327114238. Definition hi1024 : Z := 476327120400.
Lemma ln_entry n l h : match nth_error lntab n with Some (l', h') => (l' =? l)%Z && (h' =? h)%Z | None => false end = true ->
  IZR l <= IZR Qs * ln (IZR (1 + Z.of_nat n)) <= IZR h.
Proof.
  intros T. destruct (nth_error lntab n) as [[l' h']|] eqn:E; [|discriminate T]. apply andb_prop in T. destruct T as [T1 T2]. apply Z.eqb_eq in T1, T2. subst.
  exact (lntab_ok n _ _ E).
Qed.
Lemma tab0 : forallb (entry_ok (- hi128) (- lo128)) (combine db_units0 (skipn 127 lntab)) = true. Proof. vm_compute. reflexivity. Qed.
Lemma tab1 : forallb (entry_ok 0 0) (combine db_units1 (skipn 0 lntab)) = true. Proof. vm_compute. reflexivity. Qed.
Lemma tab2 : forallb (entry_ok lo1024 hi1024) (combine db_units2 (skipn 0 lntab)) = true. Proof. vm_compute. reflexivity. Qed.
Lemma val0 i : (0 <= i <= 896)%Z -> Rabs (val db_units0 i - 20 * (ln (IZR (128 + i)) + - ln 128) / ln 10) <= 0.000005.
Proof.
  intros H. pose proof (ln_entry 127 lo128 hi128 ltac:(vm_compute; reflexivity)) as B. change (IZR (1 + Z.of_nat 127)) with 128 in B.
  apply (tab_val _ _ _ 127 (- ln 128) good0 tab0); [rewrite !opp_IZR; lra|rewrite len0; lia|lia].
Qed.
Lemma val1 i : (0 <= i <= 1023)%Z -> Rabs (val db_units1 i - 20 * (ln (IZR (1 + i)) + 0) / ln 10) <= 0.000005.
Proof. intros H. apply (tab_val _ _ _ 0 0 good1 tab1); [lra|rewrite len1; lia|lia]. Qed.
Lemma val2 i : (0 <= i <= 1023)%Z -> Rabs (val db_units2 i - 20 * (ln (IZR (1 + i)) + ln 1024) / ln 10) <= 0.000005.
Proof.
  intros H. pose proof (ln_entry 1023 lo1024 hi1024 ltac:(vm_compute; reflexivity)) as B. change (IZR (1 + Z.of_nat 1023)) with 1024 in B.
  apply (tab_val _ _ _ 0 (ln 1024) good2 tab2); [lra|rewrite len2; lia|lia].
Qed.

(** interpolating between two entries *)
Lemma lerp_db (N f c v1 v2 y B G : R) : 0 < N -> 0 <= f <= 1 ->
  Rabs (v1 - 20 * (ln N + c) / ln 10) <= 0.000005 -> Rabs (v2 - 20 * (ln (N + 1) + c) / ln 10) <= 0.000005 ->
  Rabs (y - (v1 + f * (v2 - v1))) <= B -> ln (N + f) - (ln N + f * (ln (N + 1) - ln N)) <= G ->
  Rabs (y - 20 * (ln (N + f) + c) / ln 10) <= B + 0.000005 + 8.6863 * G.
Proof.
  intros HN Hf H1 H2 Hy HG. pose proof ln10_pos as L. pose proof (ln_chord N f HN Hf) as [C1 _].
  set (a := ln N) in *. set (b := ln (N + 1)) in *. set (m := ln (N + f)) in *.
  assert (K : forall x, 0 <= x -> 0 <= 20 * x / ln 10 <= 8.6863 * x).
  { intros x Hx. assert (I : / ln 10 <= / 2.3025) by (apply Rinv_le_contravar; lra). assert (0 < / ln 10) by (apply Rinv_0_lt_compat; lra). unfold Rdiv.
    split; [apply Rmult_le_pos; lra|]. apply Rle_trans with (20 * x * / 2.3025); [apply Rmult_le_compat_l; lra|lra]. }
  destruct (K (m - (a + f * (b - a))) C1) as [K1 K2].
  replace (y - 20 * (m + c) / ln 10) with ((y - (v1 + f * (v2 - v1))) + (((1 - f) * (v1 - 20 * (a + c) / ln 10) + f * (v2 - 20 * (b + c) / ln 10)) - 20 * (m - (a + f * (b - a))) / ln 10)) by (field; lra).
  set (e1 := v1 - 20 * (a + c) / ln 10) in *. set (e2 := v2 - 20 * (b + c) / ln 10) in *.
  apply Rabs_le_inv in H1, H2, Hy. assert (- 0.000005 <= (1 - f) * e1 + f * e2 <= 0.000005) by (split; nra).
  assert (8.6863 * (m - (a + f * (b - a))) <= 8.6863 * G) by lra.
  apply Rabs_le. lra.
Qed.

Lemma floor_split (X : R) (k : Z) : IZR k <= X -> exists n f, (k <= n)%Z /\ Zfloor X = n /\ X = IZR n + f /\ 0 <= f < 1.
Proof.
  intros H. exists (Zfloor X), (X - IZR (Zfloor X)). pose proof (Zfloor_lb X). pose proof (Zfloor_ub X).
  split; [apply Zfloor_lub; exact H|]. split; [reflexivity|]. split; lra.
Qed.
Lemma tiny : bpow radix2 (-147) <= 0.00000001.
Proof. apply Rle_trans with (bpow radix2 (-30)); [apply bpow_le; lia|]. change (bpow radix2 (-30)) with (/ 1073741824). lra. Qed.
Lemma lnmul a b : 0 < a -> 0 < b -> ln (a * b) = ln a + ln b. Proof. intros. apply ln_mult; assumption. Qed.

Lemma inv_sq N k w : 0 < k <= N -> 8 * (k * k) = w -> / (8 * N ^ 2) <= / w.
Proof. intros H <-. apply Rinv_le_contravar; [nra|]. replace (N ^ 2) with (N * N) by ring. apply Rmult_le_compat_l; [lra|]. apply Rmult_le_compat; lra. Qed.
Lemma a2db_R_acc (a : f32) : fin a -> 1 <= B2R a ->
  (B2R a < 8 -> Rabs (a2db_R (B2R a) - db_of (B2R a)) <= 0.000082) /\
  (8 <= B2R a < 1024 -> Rabs (a2db_R (B2R a) - db_of (B2R a)) <= 0.0171) /\
  (1024 <= B2R a < 1048576 -> Rabs (a2db_R (B2R a) - db_of (B2R a)) <= 0.522).
Proof.
  intros F H. pose proof tiny as T. assert (B21 : bpow radix2 (-21) = / 2097152) by reflexivity.
  split; [|split]; intros R; unfold a2db_R.
  - rewrite Rlt_bool_true by lra. destruct (arg0_ok a F ltac:(lra)) as [Fx Ex]. set (x := to32 _) in *.
    destruct (lookup_ok db_units0 0 x good0 Fx ltac:(lia)) as (y & _ & _ & Ey & _ & Er); [rewrite Ex, len0; change (0 + 1024 - 1)%Z with 1023%Z; cbn; lra|rewrite len0; lia|].
    rewrite <- Ex, <- Ey. rewrite Ex in Er. destruct (floor_split ((B2R a - 1) * 128) 0 ltac:(lra)) as (n & f & Hn & En & Ef & Hf).
    rewrite En, Z.sub_0_r in Er. replace ((B2R a - 1) * 128 - IZR n) with f in Er by lra.
    assert (n896 : (n < 896)%Z) by (apply lt_IZR; lra).
    assert (V20 : val db_units0 (n + 1) <= 20).
    { apply Rle_trans with (val db_units0 896); [apply val_mono; [exact good0|lia|rewrite len0; lia]|]. rewrite <- (unit60_int 20) by lia.
      unfold val, unit60. apply Rmult_le_compat_r; [apply bpow_ge_0|]. apply IZR_le. apply Z.leb_le. vm_compute. reflexivity. }
    pose proof (val0 n ltac:(lia)) as V1. pose proof (val0 (n + 1) ltac:(lia)) as V2.
    assert (N128 : 128 <= IZR (128 + n)) by (apply IZR_le; lia).
    replace (IZR (128 + (n + 1))) with (IZR (128 + n) + 1) in V2 by (rewrite !plus_IZR; ring).
    pose proof (lerp_db (IZR (128 + n)) f (- ln 128) _ _ _ _ _ ltac:(lra) ltac:(lra) V1 V2 Er (proj2 (ln_chord (IZR (128 + n)) f ltac:(lra) ltac:(lra)))) as Q.
    assert (Ea : B2R a = / 128 * (IZR (128 + n) + f)) by (rewrite plus_IZR; lra).
    replace (db_of (B2R a)) with (20 * (ln (IZR (128 + n) + f) + - ln 128) / ln 10).
    2:{ unfold db_of. rewrite Ea, lnmul by lra. rewrite ln_Rinv by lra. f_equal. ring. }
    eapply Rle_trans; [exact Q|]. rewrite B21.
    assert (S : / (8 * IZR (128 + n) ^ 2) <= / 131072) by (apply (inv_sq _ 128); lra). lra.
  - rewrite Rlt_bool_false, Rlt_bool_true by lra.
    destruct (lookup_ok db_units1 1 a good1 F ltac:(lia)) as (y & _ & _ & Ey & _ & Er); [rewrite len1; change (1 + 1024 - 1)%Z with 1024%Z; cbn; lra|rewrite len1; lia|].
    rewrite <- Ey. destruct (floor_split (B2R a) 8 ltac:(lra)) as (n & f & Hn & En & Ef & Hf).
    rewrite En in Er. replace (B2R a - IZR n) with f in Er by lra. replace (n - 1 + 1)%Z with n in Er by lia.
    assert (n1024 : (n < 1024)%Z) by (apply lt_IZR; lra).
    assert (V121 : val db_units1 n <= 121).
    { eapply Rle_trans; [apply (val_mono _ n 1023 good1); [lia|rewrite len1; lia]|]. eapply Rle_trans; [exact join12|]. eapply Rle_trans; [|exact join23]. apply val_mono; [exact good2|lia|rewrite len2; lia]. }
    pose proof (val1 (n - 1) ltac:(lia)) as V1. pose proof (val1 n ltac:(lia)) as V2. replace (1 + (n - 1))%Z with n in V1 by lia.
    assert (N8 : 8 <= IZR n) by (apply IZR_le; lia). replace (IZR (1 + n)) with (IZR n + 1) in V2 by (rewrite plus_IZR; ring).
    pose proof (lerp_db (IZR n) f 0 _ _ _ _ _ ltac:(lra) ltac:(lra) V1 V2 Er (proj2 (ln_chord (IZR n) f ltac:(lra) ltac:(lra)))) as Q.
    unfold db_of. rewrite Ef. rewrite Rplus_0_r in Q. eapply Rle_trans; [exact Q|]. rewrite B21.
    assert (S : / (8 * IZR n ^ 2) <= / 512) by (apply (inv_sq _ 8); lra). lra.
  - rewrite Rlt_bool_false, Rlt_bool_false, Rlt_bool_true by lra. destruct (arg2_ok a F ltac:(lra)) as [Fx Ex]. set (x := to32 _) in *.
    assert (RX : 1 <= B2R a / 1024 < 1024) by lra.
    destruct (lookup_ok db_units2 1 x good2 Fx ltac:(lia)) as (y & _ & _ & Ey & _ & Er); [rewrite Ex, len2; change (1 + 1024 - 1)%Z with 1024%Z; cbn; lra|rewrite len2; lia|].
    rewrite <- Ex, <- Ey. rewrite Ex in Er. destruct (floor_split (B2R a / 1024) 1 ltac:(lra)) as (n & f & Hn & En & Ef & Hf).
    rewrite En in Er. replace (B2R a / 1024 - IZR n) with f in Er by lra. replace (n - 1 + 1)%Z with n in Er by lia.
    assert (n1024 : (n < 1024)%Z) by (apply lt_IZR; lra).
    assert (V121 : val db_units2 n <= 121) by (eapply Rle_trans; [|exact join23]; apply val_mono; [exact good2|lia|rewrite len2; lia]).
    pose proof (val2 (n - 1) ltac:(lia)) as V1. pose proof (val2 n ltac:(lia)) as V2. replace (1 + (n - 1))%Z with n in V1 by lia.
    assert (N1 : 1 <= IZR n) by (apply IZR_le; lia). replace (IZR (1 + n)) with (IZR n + 1) in V2 by (rewrite plus_IZR; ring).
    assert (G : ln (IZR n + f) - (ln (IZR n) + f * (ln (IZR n + 1) - ln (IZR n))) <= 0.06).
    { destruct (Z.eq_dec n 1) as [->|N2].
      - change (IZR 1) with 1. rewrite ln_1, Rminus_0_r, Rplus_0_l. change (1 + 1) with 2.
        (* the tangent at 1.4427 *)
        assert (Tg : ln (1 + f) <= ln 1.4427 + ((1 + f) / 1.4427 - 1)).
        { pose proof (exp_ineq1_le ((1 + f) / 1.4427 - 1)) as X. replace (1 + ((1 + f) / 1.4427 - 1)) with ((1 + f) / 1.4427) in X by ring.
          assert (Q0 : 0 < (1 + f) / 1.4427) by lra. apply ln_le in X; [|exact Q0]. rewrite ln_exp in X. unfold Rdiv in X at 1. rewrite ln_mult, ln_Rinv in X by lra. lra. }
        assert (Lg : ln 1.4427 <= 0.3666).
        { rewrite <- (ln_exp 0.3666). apply ln_le; [lra|]. assert (E8 : exp (0.3666 / 8) >= 1.04689).
          { pose proof (Fast_Exp.rem_pos 4 (0.3666 / 8) ltac:(lra)) as [X _]. unfold Fast_Exp.series in X. cbn in X. lra. }
          apply (exp_lo 0.3666 1.20115); [|lra]. split; [lra|]. apply (exp_lo _ 1.09597); [|lra]. split; [lra|].
          apply (exp_lo _ 1.04689); [|lra]. split; [lra|]. replace (0.3666 / 2 / 2 / 2) with (0.3666 / 8) by lra. lra. }
        pose proof ln2_lo. pose proof ln2_hi.
        assert (f * 0.69314 <= f * ln 2) by (apply Rmult_le_compat_l; lra). lra.
      - assert (2 <= IZR n) by (apply IZR_le; lia). pose proof (proj2 (ln_chord (IZR n) f ltac:(lra) ltac:(lra))).
        assert (S : / (8 * IZR n ^ 2) <= / 32) by (apply (inv_sq _ 2); lra). lra. }
    pose proof (lerp_db (IZR n) f (ln 1024) _ _ _ _ _ ltac:(lra) ltac:(lra) V1 V2 Er G) as Q.
    assert (Ea : B2R a = (IZR n + f) * 1024) by lra.
    replace (db_of (B2R a)) with (20 * (ln (IZR n + f) + ln 1024) / ln 10) by (unfold db_of; rewrite Ea, lnmul by lra; reflexivity).
    eapply Rle_trans; [exact Q|]. rewrite B21. lra.
Qed.
