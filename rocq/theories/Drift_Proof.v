(** The float moving sum on arbitrary floats: the double accumulator drifts by at most a fixed
    multiple of 2^-51 per sample. *)
From Coq Require Import Reals Lra Lia.
From Flocq Require Import Core.Core IEEE754.BinarySingleNaN.
From Verif Require Import Common CommonFacts Float FloatFacts FloatRel FloatLerp Ring_Model Ring_Spec Ring_Proof
  MovSum_Model MovSum_Spec MovSum_Proof MovSumF_Model MovSumF_Spec MovSumF_Proof.
Local Open Scope R_scope.
Local Notation rn := (rnd 24 128).
Local Notation rd := (rnd 53 1024).

Lemma rd_err_all x : Rabs (rd x - x) <= bpow radix2 (-53) * Rabs x + bpow radix2 (-1075).
Proof.
  assert (B53 : bpow radix2 (-53) = / 9007199254740992) by reflexivity.
  pose proof (bpow_ge_0 radix2 (-1075)). pose proof (Rabs_pos x).
  destruct (Rle_lt_dec (bpow radix2 (-1022)) (Rabs x)) as [L|L].
  - pose proof (rnd_rel64 x L). rewrite B53. lra.
  - pose proof (rnd_err (prec:=53) (emax:=1024) x (-1021)) as E. change (-1021 - 53 - 1)%Z with (-1075)%Z in E.
    assert (0 <= bpow radix2 (-53) * Rabs x) by (apply Rmult_le_pos; [apply bpow_ge_0|assumption]).
    assert (Rabs (rd x - x) <= bpow radix2 (-1075)); [|lra]. apply E; [unfold SpecFloat.emin; lia|].
    apply Rlt_le. apply Rlt_trans with (1 := L). apply bpow_lt. lia.
Qed.

Definition winv (W : N) (m : movsum f32 f64) (w : list f32) : Prop :=
  exists l, ring_rel (ms_buff m) l /\ ms_size m = W /\ (N.to_nat W <= length l)%nat /\ w = firstn (N.to_nat W) l.

Lemma winv_make W : (1 <= W <= 2 ^ 63)%N -> exists m, fs_make W = Some m /\ winv W m (repeat fzero (N.to_nat W)) /\ ms_sum m = fzero.
Proof.
  intros HW. destruct (ring_rel_make (fzero : f32) W) as (r & c & E & R & (j & Hc & Hge & Hmin) & S & B); [lia|].
  unfold fs_make, ms_make. rewrite E. cbn [bind]. eexists; split; [reflexivity|]. split; [|reflexivity].
  destruct (ring_rel_step (fzero : f32) r _ OpClear R) as (r1 & E1 & R1). cbn [rb_step] in E1. injection E1 as <-.
  cbn [spec_step] in R1. rewrite repeat_length in R1.
  exists (repeat fzero (N.to_nat c)). cbn [ms_buff ms_size ms_sum]. rewrite repeat_length.
  split; [exact R1|]. split; [reflexivity|]. split; [lia|]. symmetry. apply firstn_repeat_le. lia.
Qed.

Definition fs_step (m : movsum f32 f64) (s : f32) : option (f32 * movsum f32 f64) :=
  ms_step (T:=f32) (Acc:=f64) (fun a s => Some (fadd a (to64 s))) (fun a s => Some (fsub a (to64 s))) to32 m s.
Lemma winv_step W m w (s : f32) : (1 <= W <= 2 ^ 63)%N -> winv W m w ->
  exists w0 old m', w = w0 ++ [old] /\ fs_step m s = Some (to32 (ms_sum m'), m') /\
    ms_sum m' = fsub (fadd (ms_sum m) (to64 s)) (to64 old) /\ winv W m' (s :: w0) /\ s :: w0 = firstn (N.to_nat W) (s :: w).
Proof.
  intros HW (l & R & Hs & Hlen & Hw). pose proof (ring_rel_len _ _ R) as Hpos. unfold fs_step, ms_step.
  destruct (vget_lt l (W - 1)%N) as [old Hold]; [lia|].
  assert (Q : rb_get (ms_buff m) (sub64 (ms_size m) 1) = Some old).
  { rewrite Hs, sub64_1 by lia. rewrite (ring_rel_get _ _ _ R), N.mod_small by lia. exact Hold. }
  assert (Hsp : w = firstn (N.to_nat W - 1) l ++ [old]).
  { subst w. unfold vget in Hold. apply nth_error_split in Hold. destruct Hold as (l1 & l2 & -> & Hl1).
    replace (N.to_nat W) with (length l1 + 1)%nat by lia. rewrite firstn_app_2. cbn [firstn]. f_equal.
    replace (length l1 + 1 - 1)%nat with (length l1 + 0)%nat by lia. rewrite firstn_app_2. cbn [firstn]. rewrite app_nil_r. reflexivity. }
  destruct (ring_rel_step (fzero : f32) _ _ (OpPush s) R) as (b & Eb & Rb). cbn [rb_step] in Eb.
  exists (firstn (N.to_nat W - 1) l), old, (mkMS b (ms_size m) (fsub (fadd (ms_sum m) (to64 s)) (to64 old))). split; [exact Hsp|]. split; [cbn [bind]; rewrite Q; cbn [bind]; rewrite Eb; cbn [bind]; reflexivity|]. split; [reflexivity|].
  assert (Hw' : firstn (N.to_nat W) (s :: w) = s :: firstn (N.to_nat W - 1) l).
  { destruct (N.to_nat W) as [|k] eqn:Ek; [lia|]. cbn [firstn]. f_equal. subst w. rewrite firstn_firstn. f_equal. lia. }
  split; [|symmetry; exact Hw'].
  exists (firstn (length l) (s :: l)). cbn [ms_buff ms_size ms_sum]. split; [exact Rb|]. split; [exact Hs|].
  split. { rewrite firstn_length. cbn [length]. lia. }
  rewrite firstn_firstn. replace (Init.Nat.min (N.to_nat W) (length l)) with (N.to_nat W) by lia.
  destruct (N.to_nat W) as [|k] eqn:Ek; [lia|]. cbn [firstn]. do 2 f_equal. lia.
Qed.

Lemma rsum_app a b : rsum (a ++ b) = rsum a + rsum b.
Proof. unfold rsum. induction a as [|x a IH]; cbn; [ring|]. rewrite IH. ring. Qed.
Definition small (B : R) (x : f32) : Prop := fin x /\ Rabs (B2R x) <= B.
Lemma rsum_bound B l : Forall (small B) l -> Rabs (rsum l) <= INR (length l) * B.
Proof.
  intros H. induction H as [|x l [_ Hx] Hl IH]; [cbn; rewrite Rabs_R0; lra|].
  change (rsum (x :: l)) with (B2R x + rsum l). cbn [length]. rewrite S_INR.
  eapply Rle_trans; [apply Rabs_triang|]. lra.
Qed.

(** one sample *)
Lemma drift_step W m w (s : f32) (B e : R) : (1 <= W <= 2 ^ 32)%N -> bpow radix2 (-900) <= B <= bpow radix2 900 -> winv W m w -> length w = N.to_nat W -> Forall (small B) w -> small B s ->
  fin (ms_sum m) -> Rabs (B2R (ms_sum m) - rsum w) <= e -> e <= INR (N.to_nat W) * B ->
  exists m' w0 old, fs_step m s = Some (to32 (ms_sum m'), m') /\ w = w0 ++ [old] /\ winv W m' (s :: w0) /\ s :: w0 = firstn (N.to_nat W) (s :: w) /\
    fin (ms_sum m') /\ Rabs (B2R (ms_sum m') - rsum (s :: w0)) <= e + (INR (N.to_nat W) + 1) * B * bpow radix2 (-51).
Proof.
  intros HW HB I Lw Hw [Fs Hs] Fm He Le.
  destruct (winv_step W m w s ltac:(change (2 ^ 63)%N with (9223372036854775808)%N; change (2 ^ 32)%N with 4294967296%N in HW; lia) I) as (w0 & old & m' & Ew & Es & Em & I' & Ef).
  exists m', w0, old. split; [exact Es|]. split; [exact Ew|]. split; [exact I'|]. split; [exact Ef|].
  assert (Ho : small B old) by (rewrite Forall_forall in Hw; apply Hw; rewrite Ew; apply in_or_app; right; left; reflexivity). destruct Ho as [Fo Ho].
  pose proof (rsum_bound B w Hw) as Rb. rewrite Lw in Rb.
  set (k := INR (N.to_nat W)) in *.
  assert (K1 : 1 <= k). { unfold k. change 1 with (INR 1). apply le_INR. lia. }
  assert (K2 : k <= bpow radix2 32). { unfold k. rewrite INR_IZR_INZ. change (bpow radix2 32) with (IZR 4294967296). apply IZR_le. change (2 ^ 32)%N with 4294967296%N in HW. lia. }
  destruct (to64_R s Fs) as [Vs Fs64]. destruct (to64_R old Fo) as [Vo Fo64].
  set (S := B2R (ms_sum m)) in *.
  assert (B0 : 0 < B) by (pose proof (bpow_gt_0 radix2 (-900)); lra).
  assert (KB : B <= k * B) by (rewrite <- (Rmult_1_l B) at 1; apply Rmult_le_compat_r; lra).
  assert (SB : Rabs S <= 2 * (k * B)).
  { replace S with ((S - rsum w) + rsum w) by ring. eapply Rle_trans; [apply Rabs_triang|]. lra. }
  assert (T : bpow radix2 (-1075) <= 0.001 * (B * bpow radix2 (-53))).
  { apply Rle_trans with (0.001 * (bpow radix2 (-900) * bpow radix2 (-53))); [|apply Rmult_le_compat_l; [lra|apply Rmult_le_compat_r; [apply bpow_ge_0|apply HB]]].
    rewrite <- bpow_plus. apply Rle_trans with (bpow radix2 (-10) * bpow radix2 (-900 + -53)); [rewrite <- bpow_plus; apply bpow_le; lia|].
    apply Rmult_le_compat_r; [apply bpow_ge_0|]. change (bpow radix2 (-10)) with (/ 1024). lra. }
  set (u := bpow radix2 (-53)) in *. assert (U : 0 < u <= / 1000000000000) by (unfold u; change (bpow radix2 (-53)) with (/ 9007199254740992); lra).
  assert (BIG : 8 * (k * B) < bpow radix2 1000).
  { apply Rle_lt_trans with (8 * (bpow radix2 32 * bpow radix2 900)).
    - apply Rmult_le_compat_l; [lra|]. apply Rmult_le_compat; lra.
    - rewrite <- bpow_plus. change 8 with (bpow radix2 3). rewrite <- bpow_plus. apply bpow_lt. lia. }
  assert (f1000 : fmt 53 1024 (bpow radix2 1000)) by (apply (fmt_bpow (prec:=53) (emax:=1024)); unfold SpecFloat.emin; lia).
  assert (l1000 : bpow radix2 1000 < bpow radix2 1024) by (apply bpow_lt; lia).
  apply Rabs_le_inv in Hs. apply Rabs_le_inv in Ho. apply Rabs_le_inv in SB. apply Rabs_le_inv in He.
  destruct (fadd_bnd (ms_sum m) (to64 s) (bpow radix2 1000) Fm Fs64 f1000 l1000) as (Va & Fa & _).
  { fold S. rewrite Vs. apply Rabs_le. lra. }
  fold S in Va. rewrite Vs in Va.
  pose proof (rd_err_all (S + B2R s)) as E1. assert (A1 : Rabs (S + B2R s) <= 2 * (k * B) + B) by (apply Rabs_le; lra).
  assert (E1' : Rabs (rd (S + B2R s) - (S + B2R s)) <= u * (2 * (k * B) + B) + 0.001 * (B * u)).
  { eapply Rle_trans; [exact E1|]. apply Rplus_le_compat; [apply Rmult_le_compat_l; lra|exact T]. }
  clear E1. set (P := u * (k * B)) in *. set (Q := u * B) in *.
  assert (P0 : 0 <= P <= / 1000000000000 * (k * B)) by (unfold P; split; [apply Rmult_le_pos; lra|apply Rmult_le_compat_r; lra]).
  assert (Q0 : 0 <= Q <= / 1000000000000 * B) by (unfold Q; split; [apply Rmult_le_pos; lra|apply Rmult_le_compat_r; lra]).
  assert (QP : Q <= P) by (unfold P, Q; apply Rmult_le_compat_l; lra).
  assert (E1 : Rabs (rd (S + B2R s) - (S + B2R s)) <= 2 * P + 1.001 * Q).
  { eapply Rle_trans; [exact E1'|]. unfold P, Q. lra. }
  clear E1'. apply Rabs_le_inv in E1. set (a1 := rd (S + B2R s)) in *.
  destruct (fsub_bnd (fadd (ms_sum m) (to64 s)) (to64 old) (bpow radix2 1000) Fa Fo64 f1000 l1000) as (Vb & Fb & _).
  { rewrite Va, Vo. fold a1. apply Rabs_le. lra. }
  rewrite Va, Vo in Vb. fold a1 in Vb. rewrite <- Em in Vb, Fb. split; [exact Fb|].
  pose proof (rd_err_all (a1 - B2R old)) as E2. assert (A2 : Rabs (a1 - B2R old) <= 2 * (k * B) + 2 * B + 2 * P + 1.001 * Q) by (apply Rabs_le; lra).
  assert (UK : u * k <= 0.000001).
  { apply Rle_trans with (u * bpow radix2 32); [apply Rmult_le_compat_l; lra|]. unfold u. rewrite <- bpow_plus. change (bpow radix2 (-53 + 32)) with (/ 2097152). lra. }
  assert (UP : u * P <= 0.000001 * Q). { replace (u * P) with ((u * k) * Q) by (unfold P, Q; ring). apply Rmult_le_compat_r; lra. }
  assert (UQ : u * Q <= 0.000001 * Q) by (apply Rmult_le_compat_r; lra).
  assert (E2' : Rabs (rd (a1 - B2R old) - (a1 - B2R old)) <= 2 * P + 2.002 * Q).
  { eapply Rle_trans; [exact E2|]. apply Rle_trans with (u * (2 * (k * B) + 2 * B + 2 * P + 1.001 * Q) + 0.001 * (B * u)); [apply Rplus_le_compat; [apply Rmult_le_compat_l; lra|exact T]|].
    replace (u * (2 * (k * B) + 2 * B + 2 * P + 1.001 * Q) + 0.001 * (B * u)) with (2 * P + 2.001 * Q + 2 * (u * P) + 1.001 * (u * Q)) by (unfold P, Q; lra). lra. }
  apply Rabs_le_inv in E2'. rewrite Vb.
  assert (Rs : rsum w = rsum w0 + B2R old) by (rewrite Ew, rsum_app; cbn; ring).
  change (rsum (s :: w0)) with (B2R s + rsum w0).
  replace ((k + 1) * B * bpow radix2 (-51)) with (4 * P + 4 * Q).
  2:{ change (-51)%Z with (2 + -53)%Z. rewrite bpow_plus. change (bpow radix2 2) with 4. fold u. unfold P, Q. ring. }
  apply Rabs_le. lra.
Qed.

(** the average as computed: two narrowings and a float division *)
Lemma avg_acc (W : N) (m : movsum f32 f64) (B : R) : (1 <= W <= 2 ^ 29)%N -> ms_size m = W -> fin (ms_sum m) ->
  bpow radix2 (-100) <= B <= bpow radix2 90 -> Rabs (B2R (ms_sum m)) <= 2 * (INR (N.to_nat W) * B) ->
  fin (fs_average m) /\ Rabs (B2R (fs_average m) - B2R (ms_sum m) / INR (N.to_nat W)) <= bpow radix2 (-21) * B.
Proof.
  intros HW HS F HB HM. destruct (size32 W HW) as (Es & Fs & L & U).
  set (S := B2R (ms_sum m)) in *.
  assert (EK : INR (N.to_nat W) = IZR (Z.of_N W)) by (rewrite INR_IZR_INZ; f_equal; lia).
  set (k := INR (N.to_nat W)) in *.
  assert (K1 : 1 <= k). { rewrite EK. apply IZR_le. lia. }
  assert (K2 : k <= bpow radix2 29). { rewrite EK. change (bpow radix2 29) with (IZR 536870912). apply IZR_le. change (2 ^ 29)%N with 536870912%N in HW. lia. }
  rewrite <- EK in *. set (kf := rn k) in *.
  assert (B0 : 0 < B) by (pose proof (bpow_gt_0 radix2 (-100)); lra).
  assert (RK : k * (1 - / 16777216) <= kf <= k * (1 + / 16777216)).
  { apply rnd_rel32_pos. apply Rle_trans with 1; [apply (bpow_le radix2 (-126) 0); lia|exact K1]. }
  assert (BIG : 4 * (k * B) <= bpow radix2 126).
  { apply Rle_trans with (4 * (bpow radix2 29 * bpow radix2 90)).
    - apply Rmult_le_compat_l; [lra|]. apply Rmult_le_compat; lra.
    - rewrite <- bpow_plus. change 4 with (bpow radix2 2). rewrite <- bpow_plus. apply bpow_le. lia. }
  assert (l126 : bpow radix2 126 < bpow radix2 128) by (apply bpow_lt; lia).
  assert (f126 : fmt 24 128 (bpow radix2 126)) by (apply fmt_bpow; unfold SpecFloat.emin; lia).
  assert (KB : B <= k * B) by (rewrite <- (Rmult_1_l B) at 1; apply Rmult_le_compat_r; lra).
  destruct (fconv_R (p':=24) (e':=128) (ms_sum m) F) as [E1 F1].
  { apply Rle_lt_trans with (bpow radix2 126); [|exact l126]. apply rnd_abs_le; [exact f126|fold S; lra]. }
  fold S in E1. fold (to32 (ms_sum m)) in E1, F1. change (to32 (ms_sum m)) with (fs_sum m) in E1, F1.
  pose proof (rnd_err_all S) as RS.
  assert (T : bpow radix2 (-150) <= 0.0001 * (/ 16777216 * B)).
  { apply Rle_trans with (0.0001 * (/ 16777216 * bpow radix2 (-100))); [|apply Rmult_le_compat_l; [lra|apply Rmult_le_compat_l; [lra|apply HB]]].
    change (/ 16777216) with (bpow radix2 (-24)). rewrite <- bpow_plus. apply Rle_trans with (bpow radix2 (-20) * bpow radix2 (-24 + -100)); [rewrite <- bpow_plus; apply bpow_le; lia|].
    apply Rmult_le_compat_r; [apply bpow_ge_0|]. change (bpow radix2 (-20)) with (/ 1048576). lra. }
  set (u := / 16777216) in *. assert (U0 : 0 < u <= 0.0000001) by (unfold u; lra).
  assert (PB : 0 <= u * B <= 0.0000001 * B) by (split; [apply Rmult_le_pos; lra|apply Rmult_le_compat_r; lra]).
  assert (PK : 0 <= u * (k * B) <= 0.0000001 * (k * B)) by (split; [apply Rmult_le_pos; lra|apply Rmult_le_compat_r; lra]).
  assert (PBK : u * B <= u * (k * B)) by (apply Rmult_le_compat_l; lra).
  assert (RS' : Rabs (rn S - S) <= u * (2.0001 * (k * B))).
  { eapply Rle_trans; [exact RS|]. assert (u * Rabs S <= u * (2 * (k * B))) by (apply Rmult_le_compat_l; lra). lra. }
  assert (K0 : 0 < kf). { assert (0 < k * (1 - u)) by (apply Rmult_lt_0_compat; lra). lra. }
  (* the quotient before its rounding *)
  assert (IK : k * / k = 1) by (apply Rinv_r; lra). assert (IKF : kf * / kf = 1) by (apply Rinv_r; lra).
  assert (QE : Rabs (rn S / kf - S / k) <= u * (4.01 * B)).
  { replace (rn S / kf - S / k) with ((rn S - S) / kf + S / k * ((k - kf) / kf)) by (field; lra).
    assert (IKb : / kf <= 1.0001 * / k).
    { apply Rmult_le_reg_l with kf; [lra|]. rewrite IKF. apply Rle_trans with (k * (1 - u) * (1.0001 * / k)).
      - replace (k * (1 - u) * (1.0001 * / k)) with (k * / k * ((1 - u) * 1.0001)) by ring. rewrite IK. lra.
      - apply Rmult_le_compat_r; [|lra]. apply Rmult_le_pos; [lra|]. apply Rlt_le, Rinv_0_lt_compat. lra. }
    assert (I0 : 0 < / kf) by (apply Rinv_0_lt_compat; lra). assert (Ik0 : 0 < / k) by (apply Rinv_0_lt_compat; lra).
    eapply Rle_trans; [apply Rabs_triang|].
    assert (T1 : Rabs ((rn S - S) / kf) <= u * (2.001 * B)).
    { unfold Rdiv. rewrite Rabs_mult, (Rabs_pos_eq (/ kf)) by lra.
      apply Rle_trans with (u * (2.0001 * (k * B)) * (1.0001 * / k)); [apply Rmult_le_compat; try apply Rabs_pos; lra|].
      replace (u * (2.0001 * (k * B)) * (1.0001 * / k)) with (k * / k * (2.0001 * 1.0001) * (u * B)) by ring. rewrite IK. lra. }
    assert (T2 : Rabs (S / k * ((k - kf) / kf)) <= u * (2.001 * B)).
    { unfold Rdiv. rewrite !Rabs_mult, (Rabs_pos_eq (/ kf)), (Rabs_pos_eq (/ k)) by lra.
      assert (D : Rabs (k - kf) <= k * u) by (apply Rabs_le; lra).
      apply Rle_trans with ((2 * (k * B) * / k) * ((k * u) * (1.0001 * / k))).
      - apply Rmult_le_compat; try (apply Rmult_le_pos; try apply Rabs_pos; lra).
        + apply Rmult_le_compat_r; lra.
        + apply Rmult_le_compat; try apply Rabs_pos; lra.
      - replace ((2 * (k * B) * / k) * ((k * u) * (1.0001 * / k))) with ((k * / k) * (k * / k) * (2 * 1.0001 * (u * B))) by ring. rewrite IK. lra. }
    lra. }
  assert (SK : Rabs (S / k) <= 2 * B).
  { unfold Rdiv. rewrite Rabs_mult, (Rabs_pos_eq (/ k)) by (apply Rlt_le, Rinv_0_lt_compat; lra).
    apply Rmult_le_reg_r with k; [lra|]. rewrite Rmult_assoc, Rinv_l by lra. lra. }
  apply Rabs_le_inv in QE. apply Rabs_le_inv in SK.
  assert (QB : Rabs (rn S / kf) <= 2.001 * B) by (apply Rabs_le; lra).
  destruct (fdiv_bnd (fs_sum m) (mk32 (Z.of_N W) 0) (bpow radix2 126)) as (E2 & F2 & _).
  - exact F1.
  - rewrite Es. lra.
  - exact f126.
  - exact l126.
  - rewrite E1, Es. lra.
  - change (fs_average m) with (fdiv (fs_sum m) (mk32 (Z.of_N (ms_size m)) 0)). rewrite HS. split; [exact F2|]. rewrite E2, E1, Es.
    pose proof (rnd_err_all (rn S / kf)) as RQ. assert (u * Rabs (rn S / kf) <= u * (2.001 * B)) by (apply Rmult_le_compat_l; lra). fold u in RQ.
    assert (RQ' : Rabs (rn (rn S / kf) - rn S / kf) <= u * (2.01 * B)) by lra.
    apply Rabs_le_inv in RQ'. replace (bpow radix2 (-21)) with (8 * u) by (unfold u; change (bpow radix2 (-21)) with (/ 2097152); lra).
    apply Rabs_le. lra.
Qed.

(** any number of samples (and clears) *)
Definition no_fill (o : ms_op f32) : Prop := match o with MFill _ => False | _ => True end.
Lemma rsum_zero n : rsum (repeat (fzero : f32) n) = 0.
Proof. unfold rsum. induction n as [|n IH]; cbn [repeat fold_right]; [reflexivity|]. rewrite IH. cbn. ring. Qed.
Lemma zero_small B : 0 <= B -> small B fzero.
Proof. intros H. split; [reflexivity|]. cbn. rewrite Rabs_R0. exact H. Qed.

Definition dinv (W : N) (B : R) (n : nat) (m : movsum f32 f64) (w : list f32) : Prop :=
  winv W m w /\ length w = N.to_nat W /\ Forall (small B) w /\ fin (ms_sum m) /\
  Rabs (B2R (ms_sum m) - rsum w) <= INR n * ((INR (N.to_nat W) + 1) * B * bpow radix2 (-51)).
Lemma dinv_make W B : (1 <= W <= 2 ^ 63)%N -> 0 <= B -> exists m, fs_make W = Some m /\ dinv W B 0 m (repeat fzero (N.to_nat W)).
Proof.
  intros HW HB. destruct (winv_make W HW) as (m & E & I & Z). exists m. split; [exact E|]. split; [exact I|]. split; [apply repeat_length|].
  split. { apply Forall_forall. intros x Hx. apply repeat_spec in Hx. subst x. apply zero_small; exact HB. }
  rewrite Z. split; [reflexivity|]. rewrite rsum_zero. cbn. rewrite Rminus_0_r, Rabs_R0. lra.
Qed.
Lemma dinv_small W B n : (1 <= W)%N -> 0 <= B -> (Z.of_nat n <= 2 ^ 48)%Z ->
  INR n * ((INR (N.to_nat W) + 1) * B * bpow radix2 (-51)) <= INR (N.to_nat W) * B.
Proof.
  intros HW HB Hn. set (k := INR (N.to_nat W)). assert (K1 : 1 <= k) by (unfold k; change 1 with (INR 1); apply le_INR; lia).
  assert (N1 : INR n <= bpow radix2 48). { rewrite INR_IZR_INZ. change (bpow radix2 48) with (IZR 281474976710656). apply IZR_le. change (2 ^ 48)%Z with 281474976710656%Z in Hn. lia. }
  assert (P : 0 <= (k + 1) * B) by (apply Rmult_le_pos; lra).
  replace (INR n * ((k + 1) * B * bpow radix2 (-51))) with ((INR n * bpow radix2 (-51)) * ((k + 1) * B)) by ring.
  apply Rle_trans with (/ 8 * ((k + 1) * B)).
  - apply Rmult_le_compat_r; [exact P|]. apply Rle_trans with (bpow radix2 48 * bpow radix2 (-51)); [apply Rmult_le_compat_r; [apply bpow_ge_0|exact N1]|].
    rewrite <- bpow_plus. change (bpow radix2 (48 + -51)) with (/ 8). lra.
  - assert (B <= k * B) by (rewrite <- (Rmult_1_l B) at 1; apply Rmult_le_compat_r; lra). lra.
Qed.
Lemma dinv_step W B n m w s : (1 <= W <= 2 ^ 29)%N -> bpow radix2 (-900) <= B <= bpow radix2 900 -> (Z.of_nat n <= 2 ^ 48)%Z ->
  dinv W B n m w -> small B s -> exists m', fs_step m s = Some (to32 (ms_sum m'), m') /\ dinv W B (S n) m' (firstn (N.to_nat W) (s :: w)).
Proof.
  intros HW HB Hn (I & Lw & Hw & Fm & He) Hs.
  assert (B0 : 0 <= B) by (pose proof (bpow_ge_0 radix2 (-900)); lra).
  destruct (drift_step W m w s B _ ltac:(change (2 ^ 32)%N with 4294967296%N; change (2 ^ 29)%N with 536870912%N in HW; lia) HB I Lw Hw Hs Fm He (dinv_small W B n ltac:(lia) B0 Hn)) as (m' & w0 & old & E & Ew & I' & Ef & F' & D).
  exists m'. split; [exact E|]. rewrite <- Ef. split; [exact I'|]. split. { rewrite Ew, app_length in Lw. cbn [length] in *. lia. }
  split. { constructor; [exact Hs|]. rewrite Ew in Hw. apply Forall_app in Hw. apply Hw. }
  split; [exact F'|]. rewrite S_INR. lra.
Qed.
Lemma dinv_clear W B n m w : 0 <= B -> dinv W B n m w -> dinv W B (S n) (ms_clear (T:=f32) (Acc:=f64) fzero fzero m) (repeat fzero (N.to_nat W)).
Proof.
  intros HB ((l & R & Hs & Hlen & Hw) & Lw & _ & _ & _). split.
  { destruct (ring_rel_step (fzero : f32) _ _ OpClear R) as (b & Eb & Rb). cbn [rb_step] in Eb. injection Eb as <-.
    exists (repeat fzero (length l)). cbn [ms_buff ms_size ms_sum ms_clear]. rewrite repeat_length.
    split; [exact Rb|]. split; [exact Hs|]. split; [exact Hlen|]. symmetry. apply firstn_repeat_le. exact Hlen. }
  split; [apply repeat_length|]. split. { apply Forall_forall. intros x Hx. apply repeat_spec in Hx. subst x. apply zero_small; exact HB. }
  cbn [ms_clear ms_sum]. split; [reflexivity|]. rewrite rsum_zero. cbn [B2R]. change (B2R (fzero : f64)) with 0. rewrite Rminus_0_r, Rabs_R0.
  apply Rmult_le_pos; [apply pos_INR|]. apply Rmult_le_pos; [|apply bpow_ge_0]. apply Rmult_le_pos; [|exact HB]. pose proof (pos_INR (N.to_nat W)). lra.
Qed.
Lemma dinv_run W B ops : (1 <= W <= 2 ^ 29)%N -> bpow radix2 (-900) <= B <= bpow radix2 900 -> Forall (op_all (small B)) ops -> Forall no_fill ops ->
  forall n m w, (Z.of_nat (n + length ops) <= 2 ^ 48)%Z -> dinv W B n m w ->
  exists m', fs_run m ops = Some m' /\ dinv W B (n + length ops) m' (fold_left (win_step fzero (N.to_nat W)) ops w).
Proof.
  intros HW HB. assert (B0 : 0 <= B) by (pose proof (bpow_ge_0 radix2 (-900)); lra).
  induction ops as [|o ops IH]; intros Ho Hf n m w Hn I.
  - exists m. split; [reflexivity|]. cbn [length fold_left]. rewrite Nat.add_0_r. exact I.
  - inversion Ho as [|? ? H1 H2]; subst. inversion Hf as [|? ? H3 H4]; subst. cbn [length] in *.
    replace (n + S (length ops))%nat with (S n + length ops)%nat in * by lia.
    destruct o as [s| |v]; [| |destruct H3]; cbn [op_all] in H1; cbn [fold_left win_step].
    + destruct (dinv_step W B n m w s HW HB ltac:(lia) I H1) as (m1 & E & I1).
      destruct (IH H2 H4 (S n) m1 _ Hn I1) as (m' & E' & I'). exists m'. split; [|exact I'].
      unfold fs_run in *. cbn [ms_run ms_apply]. unfold fs_step in E. rewrite E. cbn [bind snd]. exact E'.
    + destruct (IH H2 H4 (S n) _ _ Hn (dinv_clear W B n m w B0 I)) as (m' & E' & I'). exists m'. split; [|exact I'].
      unfold fs_run in *. cbn [ms_run ms_apply bind]. exact E'.
Qed.
