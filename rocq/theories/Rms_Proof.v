From Coq Require Import Reals Lra Lia.
From Flocq Require Import Core.Core IEEE754.BinarySingleNaN.
From Verif Require Import Common CommonFacts Float FloatFacts FloatRel FloatLerp Env_Model Env_Spec Env_Proof Env_Props MovSum_Model MovSumF_Model MovSumF_Spec MovSumF_Proof
  Drift_Proof Db_Model Db_Proof Db_Full Db_Props Db_Acc DbAcc_Props Cond_Proof Rms_Model Rms_Spec.
Local Open Scope R_scope.
Local Notation rn := (rnd 24 128).

Lemma sm_run_snoc st xs x : sm_run st (xs ++ [x]) = do st' <- sm_run st xs ; sm_step st' x.
Proof.
  revert st. induction xs as [|y xs IH]; intros st; cbn [app sm_run bind].
  - destruct (sm_step st x); reflexivity.
  - destruct (sm_step st y) as [st'|]; cbn [bind]; [apply IH|reflexivity].
Qed.
Lemma rms_run_snoc st xs x : rms_run st (xs ++ [x]) = do st' <- rms_run st xs ; rms_step st' x.
Proof.
  revert st. induction xs as [|y xs IH]; intros st; cbn [app rms_run bind].
  - destruct (rms_step st x); reflexivity.
  - destruct (rms_step st y) as [st'|]; cbn [bind]; [apply IH|reflexivity].
Qed.
Lemma outputs_snoc div hold xs x e : fe_run (fe_make (S div) hold) (xs ++ [x]) = Some e ->
  follower_outputs div hold (xs ++ [x]) = follower_outputs div hold xs ++ [fe_peak e].
Proof.
  intros E. unfold follower_outputs. rewrite app_length, Nat.add_1_r, seq_S, map_app. cbn [map Nat.add]. f_equal.
  - apply map_ext_in. intros i Hi. apply in_seq in Hi. rewrite firstn_app.
    replace (S i - length xs)%nat with 0%nat by lia. rewrite firstn_O, app_nil_r. reflexivity.
  - rewrite firstn_all2 by (rewrite app_length; cbn; lia). rewrite E. reflexivity.
Qed.
Lemma firstn_cons_firstn {A} n (s : A) l : firstn n (s :: firstn n l) = firstn n (s :: l).
Proof. destruct n as [|n]; [reflexivity|]. change (s :: firstn n (firstn (S n) l) = s :: firstn n l). f_equal. rewrite firstn_firstn. f_equal. lia. Qed.


(** the state after a history *)
Lemma sm_inv div hold B xs : (1 <= N.of_nat div <= 65535)%N -> (1 <= hold <= 2 ^ 29)%N -> bpow radix2 (-900) <= B <= bpow radix2 900 ->
  (forall x, In x xs -> small B x) -> (Z.of_nat (length xs) <= 2 ^ 48)%Z ->
  exists st0 st, sm_make div hold = Some st0 /\ sm_run st0 xs = Some st /\ fe_run (fe_make (S div) hold) xs = Some (sm_fe st) /\
    dinv hold B (length xs) (sm_ma st) (firstn (N.to_nat hold) (rev (follower_outputs div hold xs) ++ repeat fzero (N.to_nat hold))).
Proof.
  intros Hd Hh HB. assert (B0 : 0 <= B) by (pose proof (bpow_ge_0 radix2 (-900)); lra).
  assert (H63 : (1 <= hold <= 2 ^ 63)%N) by (change (2 ^ 63)%N with 9223372036854775808%N; change (2 ^ 29)%N with 536870912%N in Hh; lia).
  destruct (dinv_make hold B H63 B0) as (m0 & E0 & I0).
  unfold sm_make. rewrite E0. cbn [bind]. induction xs as [|x xs IH] using rev_ind; intros Hx Hn.
  - eexists _, _. split; [reflexivity|]. split; [reflexivity|]. split; [reflexivity|]. cbn [sm_ma length].
    unfold follower_outputs. cbn [length seq map rev app]. rewrite firstn_all2 by (rewrite repeat_length; lia). exact I0.
  - rewrite app_length in Hn. cbn [length] in Hn.
    destruct IH as (st0 & st & E & R & Rf & I); [intros y Hy; apply Hx, in_or_app; left; exact Hy|lia|].
    exists st0. injection E as <-.
    assert (Nn : forall y, In y (xs ++ [x]) -> is_nan y = false) by (intros y Hy; apply fin_not_nan, (Hx y Hy)).
    assert (Ne : xs ++ [x] <> []) by (destruct xs; discriminate).
    destruct (C22_fast_envelope_follower div hold (xs ++ [x]) Hd Nn Ne) as (e & Ee & _ & _ & _ & Pin & _).
    assert (Sp : small B (fe_peak e)).
    { destruct Pin as [<-|Pin]; [apply zero_small; exact B0|]. apply Hx. apply In_nth_error in Pin. destruct Pin as [i Hi].
      set (K := (_ * _)%nat) in Hi. rewrite <- (firstn_skipn K (xs ++ [x])). apply in_or_app. right. eapply nth_error_In, Hi. }
    assert (Es : fe_step (sm_fe st) x = Some e).
    { rewrite fe_run_snoc, Rf in Ee. cbn [bind] in Ee. destruct (fe_step (sm_fe st) x); exact Ee. }
    destruct (dinv_step hold B (length xs) (sm_ma st) _ (fe_peak e) Hh HB ltac:(lia) I Sp) as (m' & Em & I').
    exists (mkSmf e m'). split; [reflexivity|]. split.
    { rewrite sm_run_snoc, R. cbn [bind]. unfold sm_step. rewrite Es. cbn [bind]. unfold fs_step in Em. rewrite Em. reflexivity. }
    split; [exact Ee|]. cbn [sm_ma]. rewrite app_length, Nat.add_1_r, (outputs_snoc div hold xs x e Ee), rev_unit. cbn [app].
    rewrite firstn_cons_firstn in I'. exact I'.
Qed.

Lemma dinv_mean W B n m w : (1 <= W <= 2 ^ 29)%N -> bpow radix2 (-100) <= B <= bpow radix2 90 -> (Z.of_nat n <= 2 ^ 48)%Z -> dinv W B n m w ->
  fin (fs_average m) /\ Rabs (B2R (fs_average m) - rsum w / INR (N.to_nat W)) <= mean_error (N.to_nat W) B n.
Proof.
  intros HW HB Hn ((l & _ & Hs & _) & Lw & Hw & F & D).
  assert (B0 : 0 < B) by (pose proof (bpow_gt_0 radix2 (-100)); lra). set (k := INR (N.to_nat W)) in *.
  pose proof (dinv_small W B n ltac:(lia) ltac:(lra) Hn) as Sm. fold k in Sm.
  pose proof (rsum_bound B _ Hw) as Rb. rewrite Lw in Rb. fold k in Rb.
  destruct (avg_acc W m B HW Hs F HB) as [Fa Ea].
  { fold k. replace (B2R (ms_sum m)) with ((B2R (ms_sum m) - rsum w) + rsum w) by ring. eapply Rle_trans; [apply Rabs_triang|]. lra. }
  split; [exact Fa|]. fold k in Ea. unfold mean_error. fold k.
  assert (K1 : 1 <= k) by (unfold k; change 1 with (INR 1); apply le_INR; lia).
  replace (B2R (fs_average m) - rsum w / k) with ((B2R (fs_average m) - B2R (ms_sum m) / k) + (B2R (ms_sum m) - rsum w) / k) by (unfold Rdiv; ring).
  eapply Rle_trans; [apply Rabs_triang|]. rewrite Rplus_comm. apply Rplus_le_compat; [|exact Ea].
  unfold Rdiv. rewrite Rabs_mult, (Rabs_pos_eq (/ k)) by (apply Rlt_le, Rinv_0_lt_compat; lra).
  apply Rmult_le_compat_r; [apply Rlt_le, Rinv_0_lt_compat; lra|exact D].
Qed.

(** squares *)
Lemma square_ok (s : f32) (A : R) : input_range A -> fin s -> Rabs (B2R s) <= A ->
  fin (fmul s s) /\ B2R (fmul s s) = rn (B2R s * B2R s) /\ 0 <= B2R (fmul s s) <= rn (A * A).
Proof.
  intros HA F H. assert (A0 : 0 < A) by (pose proof (bpow_gt_0 radix2 (-40)); destruct HA; lra).
  assert (SA : Rabs (B2R s * B2R s) <= A * A) by (rewrite Rabs_mult; apply Rmult_le_compat; try apply Rabs_pos; assumption).
  assert (A80 : A * A <= bpow radix2 80). { change 80%Z with (40 + 40)%Z. rewrite bpow_plus. apply Rmult_le_compat; destruct HA; lra. }
  destruct (fmul_bnd s s (bpow radix2 80) F F) as (V & F' & _); [apply fmt_bpow; unfold SpecFloat.emin; lia|apply bpow_lt; lia|lra|].
  split; [exact F'|]. split; [exact V|]. rewrite V. pose proof (Rle_0_sqr (B2R s)) as Q. unfold Rsqr in Q. split.
  - apply rnd_ge_fmt; [apply fmt_0|exact Q].
  - apply rnd_le. rewrite Rabs_pos_eq in SA by exact Q. exact SA.
Qed.
Lemma square_range A : input_range A -> bpow radix2 (-80) <= rn (A * A) <= bpow radix2 80.
Proof.
  intros [H1 H2]. assert (P := bpow_gt_0 radix2 (-40)). split.
  - apply rnd_ge_fmt; [apply fmt_bpow; unfold SpecFloat.emin; lia|]. change (-80)%Z with (-40 + -40)%Z. rewrite bpow_plus. apply Rmult_le_compat; lra.
  - apply rnd_le_fmt; [apply fmt_bpow; unfold SpecFloat.emin; lia|]. change 80%Z with (40 + 40)%Z. rewrite bpow_plus. apply Rmult_le_compat; lra.
Qed.

(** the threshold float(-120_dB) *)
Lemma threshold_ok : exists t, db2a (mk32 (-120) 0) = Some t /\ fin t /\ 0.0000009999998 < B2R t < 0.0000010000002.
Proof.
  destruct (C34_db2a_total (mk32 (-120) 0)) as (t & E & F & _). exists t. split; [exact E|]. split; [exact F|].
  assert (T : match db2a (mk32 (-120) 0) with Some t => flt (mk32 8796092 (-43)) t && flt t (mk32 8796094 (-43)) | None => false end = true) by (vm_compute; reflexivity).
  rewrite E in T. apply andb_prop in T. destruct T as [T1 T2].
  destruct (mk32_small 8796092 (-43)) as [V1 F1]; [reflexivity|lia|]. destruct (mk32_small 8796094 (-43)) as [V2 F2]; [reflexivity|lia|].
  change (bpow radix2 (-43)) with (/ 8796093022208) in V1, V2.
  apply (flt_true _ _ F1 F) in T1. apply (flt_true _ _ F F2) in T2. rewrite V1 in T1. rewrite V2 in T2. lra.
Qed.

(** from the smoothed mean square to the level *)
Lemma half_level (lv : f32) : fin lv -> -121 <= B2R lv <= 121 ->
  fin (fdiv (to64 lv) (to64 (mk32 2 0))) /\ -60.5 <= B2R (fdiv (to64 lv) (to64 (mk32 2 0))) <= 60.5 /\
  Rabs (B2R (fdiv (to64 lv) (to64 (mk32 2 0))) - B2R lv / 2) <= 0.000000001 /\ (B2R lv = -121 -> B2R (fdiv (to64 lv) (to64 (mk32 2 0))) = -60.5).
Proof.
  intros F B. destruct (to64_R lv F) as [V1 F1]. destruct (lit32 2 ltac:(reflexivity)) as [E2 G2]. destruct (to64_R _ G2) as [V2 F2]. rewrite E2 in V2.
  assert (f60 : fmt 53 1024 60.5). { replace 60.5 with (IZR 121 * bpow radix2 (-1)) by (change (bpow radix2 (-1)) with (/ 2); lra). apply (fmt_F2R (prec:=53) (emax:=1024)); [reflexivity|unfold SpecFloat.emin; lia]. }
  assert (fm60 : fmt 53 1024 (-60.5)). { replace (-60.5) with (IZR (-121) * bpow radix2 (-1)) by (change (bpow radix2 (-1)) with (/ 2); lra). apply (fmt_F2R (prec:=53) (emax:=1024)); [reflexivity|unfold SpecFloat.emin; lia]. }
  destruct (fdiv_bnd (to64 lv) (to64 (mk32 2 0)) 60.5 F1) as (V & Fd & Bd); [rewrite V2; lra|exact f60|apply Rlt_trans with (bpow radix2 6); [change (bpow radix2 6) with 64; lra|apply bpow_lt; lia]|rewrite V1, V2; apply Rabs_le; lra|].
  rewrite V1, V2 in V. split; [exact Fd|]. split; [pose proof (Rabs_le_inv _ _ Bd); lra|]. split.
  - rewrite V. eapply Rle_trans; [apply rd_err_all|]. assert (Rabs (B2R lv / 2) <= 60.5) by (apply Rabs_le; lra).
    change (bpow radix2 (-53)) with (/ 9007199254740992). assert (bpow radix2 (-1075) <= 0.0000000001) by (apply Rle_trans with (bpow radix2 (-40)); [apply bpow_le; lia|change (bpow radix2 (-40)) with (/ 1099511627776); lra]). lra.
  - intros E. rewrite V, E. replace (-121 / 2) with (-60.5) by lra. apply round_generic; [apply valid_rnd_N|exact fm60].
Qed.
Lemma ln_sqrt e : 0 < e -> 20 * ln (sqrt e) / ln 10 = (20 * ln e / ln 10) / 2.
Proof.
  intros H. assert (S : 0 < sqrt e) by (apply sqrt_lt_R0; exact H). pose proof ln10_pos.
  rewrite <- (sqrt_sqrt e) at 2 by lra. rewrite ln_mult by exact S. field. lra.
Qed.
Lemma level_step (v t : f32) : fin v -> db2a (mk32 (-120) 0) = Some t ->
  exists d, decibel_of_amplitude (to64 (if flt v t then fzero else v)) = Some d /\ level_ok (B2R v) (fdiv d (to64 (mk32 2 0))).
Proof.
  intros F Et. destruct threshold_ok as (t' & Et' & Ft & Bt). rewrite Et in Et'. injection Et' as <-.
  unfold decibel_of_amplitude. rewrite to32_to64. destruct (flt v t) eqn:L.
  - apply (flt_true v t F Ft) in L. destruct (C34_a2db_fixed_points) as (_ & Z & _). unfold fzero. rewrite Z. cbn [option_map].
    eexists. split; [reflexivity|]. destruct (lit32 (-121) ltac:(reflexivity)) as [E F121].
    destruct (half_level (mk32 (-121) 0) F121 ltac:(rewrite E; lra)) as (Fd & Bd & _ & Zd).
    split; [exact Fd|]. split; [exact Bd|]. split; [intros _; apply Zd, E|]. split; [|split]; intros H; exfalso; lra.
  - apply (flt_false v t F Ft) in L. assert (P : 0 < B2R v) by lra. destruct (nonneg_fin v F P) as [N S].
    destruct (C34_a2db_total v N S) as (lv & E & Fl & Bl). rewrite E. cbn [option_map]. eexists. split; [reflexivity|].
    destruct (half_level lv Fl Bl) as (Fd & Bd & Ad & _). set (d := fdiv _ _) in *.
    destruct (C34_a2db_accuracy v F) as (A1 & A2 & A3). unfold level_ok. rewrite (ln_sqrt _ P).
    split; [exact Fd|]. split; [exact Bd|]. split; [intros H; exfalso; lra|].
    apply Rabs_le_inv in Ad.
    assert (K : forall e, (exists y, a2db v = Some y /\ Rabs (B2R y - 20 * ln (B2R v) / ln 10) <= e) -> Rabs (B2R d - 20 * ln (B2R v) / ln 10 / 2) <= e / 2 + 0.000000001).
    { intros e (y & Ey & Ay). assert (y = lv) by congruence. subst y. apply Rabs_le_inv in Ay. apply Rabs_le. lra. }
    split; [|split]; intros H.
    + specialize (K _ (A1 H)). lra.
    + specialize (K _ (A2 H)). lra.
    + specialize (K _ (A3 ltac:(lra))). lra.
Qed.

Lemma rms_inv hold A xs : (1 <= hold <= 2 ^ 29)%N -> input_range A -> (forall x, In x xs -> is_finite x = true /\ Rabs (B2R x) <= A) ->
  (Z.of_nat (length xs) <= 2 ^ 48)%Z ->
  exists st0 st s0, rms_make hold = Some st0 /\ rms_run st0 xs = Some st /\ sm_make 2 hold = Some s0 /\
    sm_run s0 (map (fun s => fmul s s) xs) = Some (rm_env st) /\
    (xs <> [] -> level_ok (B2R (sm_value (rm_env st))) (rm_db st)).
Proof.
  intros Hh HA. pose proof (square_range A HA) as HC. set (C := rn (A * A)) in *.
  assert (HC9 : bpow radix2 (-900) <= C <= bpow radix2 900).
  { assert (bpow radix2 (-900) <= bpow radix2 (-80)) by (apply bpow_le; lia). assert (bpow radix2 80 <= bpow radix2 900) by (apply bpow_le; lia). lra. }
  assert (HC1 : bpow radix2 (-100) <= C <= bpow radix2 90).
  { assert (bpow radix2 (-100) <= bpow radix2 (-80)) by (apply bpow_le; lia). assert (bpow radix2 80 <= bpow radix2 90) by (apply bpow_le; lia). lra. }
  induction xs as [|x xs IH] using rev_ind; intros Hx Hn.
  - destruct (sm_inv 2 hold C [] ltac:(cbn; lia) Hh HC9) as (s0 & s & E & _); [intros y []|cbn; lia|].
    unfold rms_make. rewrite E. cbn [bind]. eexists _, _, _. split; [reflexivity|]. split; [reflexivity|]. split; [reflexivity|]. split; [reflexivity|]. intros Q. destruct (Q eq_refl).
  - rewrite app_length in Hn. cbn [length] in Hn.
    destruct IH as (st0 & st & s0 & E & R & E0 & R0 & _); [intros y Hy; apply Hx, in_or_app; left; exact Hy|lia|].
    assert (Sq : forall y, In y (map (fun s => fmul s s) (xs ++ [x])) -> small C y).
    { intros y Hy. apply in_map_iff in Hy. destruct Hy as (z & <- & Hz). destruct (Hx z Hz) as [Fz Lz].
      destruct (square_ok z A HA Fz Lz) as (F & _ & B). split; [exact F|]. rewrite Rabs_pos_eq; [apply B|apply B]. }
    destruct (sm_inv 2 hold C (map (fun s => fmul s s) (xs ++ [x])) ltac:(cbn; lia) Hh HC9 Sq) as (s0' & s & E0' & R0' & _ & I); [rewrite map_length, app_length; cbn [length]; lia|].
    rewrite E0 in E0'. injection E0' as <-. rewrite map_app in R0'. cbn [map] in R0'. pose proof R0' as R1. rewrite sm_run_snoc, R0 in R1. cbn [bind] in R1.
    eapply dinv_mean in I; [|exact Hh|exact HC1|rewrite map_length, app_length; cbn [length]; lia]. destruct I as [Fa _].
    destruct threshold_ok as (t & Et & _).
    destruct (level_step (sm_value s) t Fa Et) as (d & Ed & Ld).
    exists st0, (mkRms s (fdiv d (to64 (mk32 2 0)))), s0. split; [exact E|]. split.
    { rewrite rms_run_snoc, R. cbn [bind]. unfold rms_step. rewrite Et. cbn [bind]. rewrite R1. cbn [bind]. cbv zeta.
      pose proof (f_equal (fun o => do d <- o ; Some (mkRms s (fdiv d (to64 (mk32 2 0))))) Ed) as Q. cbv beta in Q. exact Q. }
    split; [exact E0|]. cbn [rm_env rm_db]. split; [rewrite map_app; exact R0'|]. intros _. exact Ld.
Qed.

Lemma skipn_add {A} (a b : nat) (l : list A) : skipn a (skipn b l) = skipn (a + b) l.
Proof. revert l. induction b as [|b IH]; intros l; [rewrite Nat.add_0_r; reflexivity|]. rewrite Nat.add_succ_r. destruct l; cbn [skipn]; [apply skipn_nil|apply IH]. Qed.
(** a steady input: the last outputs of the fast follower all have the input's value *)
Lemma peak_steady div hold (xs : list f32) c : (1 <= N.of_nat div <= 65535)%N -> (forall x : f32, In x xs -> is_finite x = true) -> xs <> [] ->
  let P := S (N.to_nat (hold mod 65536)) in
  (forall x : f32, In x (skipn (length xs - (2 * div + 2) * P) xs) -> B2R x = c) -> 0 <= c ->
  exists e, fe_run (fe_make (S div) hold) xs = Some e /\ B2R (fe_peak e) = c.
Proof.
  intros Hd Hf Ne P Hc C0.
  destruct (C22_fast_envelope_follower div hold xs Hd (fun x H => fin_not_nan x (Hf x H)) Ne) as (e & E & Z0 & _ & U & M & _).
  fold P in U, M. exists e. split; [exact E|].
  assert (P1 : (1 <= P)%nat) by (unfold P; lia).
  assert (Mm : In (fe_peak e) (fzero :: skipn (length xs - (2 * div + 2) * P) xs)).
  { destruct M as [M|M]; [left; exact M|right]. revert M.
    set (m := (length xs / P)%nat). assert (D : (length xs < P * (m + 1))%nat) by (pose proof (Nat.mul_succ_div_gt (length xs) P); unfold m; nia).
    assert (H : ((length xs - (2 * div + 2) * P) <= (m - (2 * div + 1)) * P)%nat) by nia.
    set (q := (length xs - (2 * div + 2) * P)%nat) in *. remember ((m - (2 * div + 1)) * P - q)%nat as r eqn:Er.
    intros Q0. assert (Q : In (fe_peak e) (skipn (r + q) xs)) by (replace (r + q)%nat with ((m - (2 * div + 1)) * P)%nat by lia; exact Q0). rewrite <- (firstn_skipn r (skipn q xs)). apply in_or_app. right. rewrite skipn_add. exact Q. }
  assert (Fe : fin (fe_peak e)).
  { destruct Mm as [<- | Q]; [reflexivity|]. apply Hf. rewrite <- (firstn_skipn (length xs - (2 * div + 2) * P) xs). apply in_or_app. right. exact Q. }
  assert (L : exists y, In y (skipn (length xs - div * P) xs) /\ In y (skipn (length xs - (2 * div + 2) * P) xs) /\ fin y).
  { destruct (exists_last Ne) as (l & y & ->). exists y. rewrite app_length. cbn [length].
    assert (K : forall k, (1 <= k)%nat -> In y (skipn (length l + 1 - k) (l ++ [y]))).
    { intros k Hk. rewrite skipn_app. apply in_or_app. right. replace (length l + 1 - k - length l)%nat with 0%nat by lia. left. reflexivity. }
    assert (D1 : (1 <= div)%nat) by lia. assert (D2 : (1 <= div * P)%nat) by (apply (Nat.mul_le_mono 1 div 1 P); assumption).
    split; [apply K; exact D2|]. split; [apply K, (Nat.mul_le_mono 1 (2 * div + 2) 1 P); [lia|exact P1]|]. apply Hf, in_or_app. right. left. reflexivity. }
  destruct L as (y & Ly & Ly' & Fy). specialize (U y Ly). apply (flt_false _ _ Fe Fy) in U. rewrite (Hc y Ly') in U.
  destruct Mm as [Q | Q]; [|apply Hc; exact Q].
  assert (V : B2R (fe_peak e) = 0) by (rewrite <- Q; reflexivity). rewrite V in *. lra.
Qed.

Lemma skipn_seq k : forall a n, skipn k (seq a n) = seq (a + k) (n - k).
Proof.
  induction k as [|k IH]; intros a n; [rewrite Nat.add_0_r, Nat.sub_0_r; reflexivity|].
  destruct n as [|n]; [reflexivity|]. cbn [seq skipn]. rewrite IH. replace (S a + k)%nat with (a + S k)%nat by lia. reflexivity.
Qed.
Lemma rsum_same c (l : list f32) : (forall x, In x l -> B2R x = c) -> rsum l = INR (length l) * c.
Proof.
  induction l as [|x l IH]; intros H.
  - unfold rsum. cbn. lra.
  - change (x :: l) with ([x] ++ l). rewrite rsum_app. rewrite (IH (fun y Hy => H y (or_intror Hy))).
    replace (rsum [x]) with (B2R x) by (unfold rsum; cbn; lra). rewrite (H x (or_introl eq_refl)). rewrite app_length. cbn [length]. rewrite plus_INR. cbn [INR]. lra.
Qed.
Lemma outputs_length div hold xs : length (follower_outputs div hold xs) = length xs.
Proof. unfold follower_outputs. rewrite map_length, seq_length. reflexivity. Qed.
Lemma outputs_steady div hold (xs : list f32) c W : (1 <= N.of_nat div <= 65535)%N -> (forall x : f32, In x xs -> is_finite x = true) ->
  let P := S (N.to_nat (hold mod 65536)) in (W <= length xs)%nat ->
  (forall x : f32, In x (skipn (length xs - (W + (2 * div + 2) * P)) xs) -> B2R x = c) -> 0 <= c ->
  forall y, In y (firstn W (rev (follower_outputs div hold xs) ++ repeat fzero W)) -> B2R y = c.
Proof.
  intros Hd Hf P HW Hc C0 y Hy. rewrite firstn_app in Hy. apply in_app_or in Hy. destruct Hy as [Hy|Hy].
  2:{ rewrite rev_length, outputs_length in Hy. exfalso. revert Hy. replace (W - length xs)%nat with 0%nat by lia. intros []. }
  rewrite firstn_rev in Hy. apply in_rev in Hy. rewrite outputs_length in Hy. unfold follower_outputs in Hy. rewrite skipn_map in Hy.
  apply in_map_iff in Hy. destruct Hy as (i & <- & Hi). rewrite skipn_seq in Hi. apply in_seq in Hi. cbn [Nat.add] in Hi.
  set (zs := firstn (S i) xs). assert (Lz : length zs = S i) by (unfold zs; rewrite firstn_length; lia).
  destruct (peak_steady div hold zs c Hd) as (e & E & V).
  - intros x Hx. apply Hf. rewrite <- (firstn_skipn (S i) xs). apply in_or_app. left. exact Hx.
  - intros Q. rewrite Q in Lz. cbn in Lz. lia.
  - fold P. rewrite Lz. intros x Hx. apply Hc. set (q := (length xs - (W + (2 * div + 2) * P))%nat).
    set (r := (S i - (2 * div + 2) * P)%nat) in *. assert (q <= r)%nat by (unfold q, r; lia).
    unfold zs in Hx. rewrite skipn_firstn_comm in Hx.
    assert (Hx' : In x (skipn r xs)). { rewrite <- (firstn_skipn (S i - r) (skipn r xs)). apply in_or_app. left. exact Hx. }
    replace r with ((r - q) + q)%nat in Hx' by lia. rewrite <- skipn_add in Hx'. rewrite <- (firstn_skipn (r - q) (skipn q xs)). apply in_or_app. right. exact Hx'.
  - exact C0.
  - rewrite E. exact V.
Qed.
Lemma mean_steady div hold (xs : list f32) c W : (1 <= N.of_nat div <= 65535)%N -> (forall x : f32, In x xs -> is_finite x = true) ->
  let P := S (N.to_nat (hold mod 65536)) in (1 <= W <= length xs)%nat ->
  (forall x : f32, In x (skipn (length xs - (W + (2 * div + 2) * P)) xs) -> B2R x = c) -> 0 <= c ->
  last_mean W (follower_outputs div hold xs) = c.
Proof.
  intros Hd Hf P HW Hc C0. unfold last_mean. rewrite (rsum_same c).
  - rewrite firstn_length, app_length, rev_length, outputs_length, repeat_length. replace (Nat.min W (length xs + W)) with W by lia.
    assert (0 < INR W) by (apply lt_0_INR; lia). field. lra.
  - apply outputs_steady; try assumption. lia.
Qed.
