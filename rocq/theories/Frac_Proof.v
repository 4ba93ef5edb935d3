From Coq Require Import Reals Lra Psatz.
From Flocq Require Import Core.Core IEEE754.BinarySingleNaN.
From Verif Require Import Common CommonFacts Ring_Model Ring_Spec Ring_Proof Float FloatFacts Frac_Model Frac_Spec.
Local Open Scope R_scope.

Notation r32 := (rnd 24 128).
Notation fx32 := (fx (prec:=24) (emax:=128)).

(** floor and truncation *)
Lemma ffloor_R (x : f32) : fin x -> B2R (ffloor x) = IZR (Zfloor (B2R x)) /\ fin (ffloor x).
Proof.
  intros F. destruct (Bnearbyint_correct 24 128 _ mode_DN x) as (E & G & _).
  split; [|unfold fin, ffloor; rewrite G; exact F].
  unfold ffloor. rewrite E. cbn [round_mode]. unfold round, scaled_mantissa, cexp, FIX_exp, F2R. cbn [Fnum Fexp].
  cbn [bpow Z.opp]. rewrite !Rmult_1_r. reflexivity.
Qed.
Lemma ftrunc_R (x : f32) : fin x -> ftrunc x = Some (Ztrunc (B2R x)).
Proof.
  intros F. unfold ftrunc. rewrite F. f_equal. apply eq_IZR. rewrite (Btrunc_correct 24 128 _ x).
  unfold round, scaled_mantissa, cexp, FIX_exp, F2R. cbn [Fnum Fexp].
  cbn [bpow Z.opp]. rewrite !Rmult_1_r. reflexivity.
Qed.
Lemma to_size_R (x : f32) : fin x -> 0 <= B2R x -> B2R x < bpow radix2 64 ->
  to_size x = Some (Z.to_N (Zfloor (B2R x))).
Proof.
  intros F H0 H1. unfold to_size. rewrite (ftrunc_R x F), Ztrunc_floor by exact H0.
  assert (0 <= Zfloor (B2R x))%Z by (apply Zfloor_lub; exact H0).
  assert (Zfloor (B2R x) < 2 ^ 64)%Z.
  { apply lt_IZR. apply Rle_lt_trans with (B2R x); [apply Zfloor_lb|]. exact H1. }
  destruct (Z.leb_spec 0 (Zfloor (B2R x))); [|lia]. destruct (Z.ltb_spec (Zfloor (B2R x)) (2 ^ 64)); [|lia]. reflexivity.
Qed.

(** the fractional part is computed without rounding error *)
Lemma frac_mu_exact (x : f32) : fin x -> 0 <= B2R x ->
  fin (frac_mu x) /\ B2R (frac_mu x) = B2R x - IZR (Zfloor (B2R x)).
Proof.
  intros F H0. destruct (ffloor_R x F) as [E G].
  pose proof (Zfloor_lb (B2R x)) as L. pose proof (Zfloor_ub (B2R x)) as U.
  assert (K : fmt 24 128 (B2R x - IZR (Zfloor (B2R x)))).
  { (* multiple of ulp(x), not larger than x *)
    pose proof (FLT_format_B2R 24 128 _ x) as [[m e] Em H1 H2]. unfold F2R in Em; cbn [Fnum Fexp] in *.
    destruct (Z_le_dec 0 e) as [P|P].
    - (* integer: difference 0 *)
      assert (B2R x = IZR (m * 2 ^ e)).
      { rewrite Em, mult_IZR. f_equal. rewrite <- IZR_Zpower by exact P. reflexivity. }
      rewrite H, Zfloor_IZR. unfold Rminus. rewrite Rplus_opp_r. apply fmt_0.
    - assert (Q : B2R x - IZR (Zfloor (B2R x)) = IZR (m - Zfloor (B2R x) * 2 ^ (- e)) * bpow radix2 e).
      { rewrite Em at 1. rewrite minus_IZR, Rmult_minus_distr_r. f_equal. rewrite mult_IZR.
        assert (W : IZR (2 ^ (- e)) = bpow radix2 (- e)) by (rewrite <- IZR_Zpower by lia; reflexivity).
        rewrite W, Rmult_assoc, <- bpow_plus. replace (- e + e)%Z with 0%Z by ring. cbn [bpow]. ring. }
      rewrite Q. apply fmt_F2R; [|exact H2].
      assert (W : (0 <= Zfloor (B2R x))%Z) by (apply Zfloor_lub; exact H0).
      assert (M0 : (0 <= m)%Z).
      { apply le_IZR. apply Rmult_le_reg_r with (bpow radix2 e); [apply bpow_gt_0|]. rewrite Rmult_0_l, <- Em. exact H0. }
      assert (D : (0 <= m - Zfloor (B2R x) * 2 ^ (- e))%Z).
      { apply le_IZR. apply Rmult_le_reg_r with (bpow radix2 e); [apply bpow_gt_0|]. rewrite Rmult_0_l, <- Q. lra. }
      assert (0 <= Zfloor (B2R x) * 2 ^ (- e))%Z by (apply Z.mul_nonneg_nonneg; [exact W|apply Z.pow_nonneg; lia]).
      change (radix_val radix2) with 2%Z in H1. lia. }
  destruct (fsub_exact x (ffloor x) F G) as [E1 F1].
  - rewrite E. exact K.
  - rewrite E. rewrite Rabs_pos_eq by lra. apply Rlt_trans with 1; [lra|]. apply (bpow_lt radix2 0 128). lia.
  - split; [exact F1|]. unfold frac_mu. rewrite E1, E. reflexivity.
Qed.
Lemma frac_mu_range (x : f32) : fin x -> 0 <= B2R x -> 0 <= B2R (frac_mu x) < 1.
Proof.
  intros F H0. destruct (frac_mu_exact x F H0) as [_ ->].
  pose proof (Zfloor_lb (B2R x)). pose proof (Zfloor_ub (B2R x)). lra.
Qed.

(** a float below 1 is at most 1 - 2^-24 *)
Lemma float_lt_1 (m : f32) : B2R m < 1 -> B2R m <= 1 - bpow radix2 (-24).
Proof.
  intros H. assert (F1 : fmt 24 128 1) by (apply (fmt_bpow (prec:=24) (emax:=128) 0); unfold SpecFloat.emin; lia).
  pose proof (pred_ge_gt radix2 fx32 (B2R m) 1 (fmt_v m) F1 H) as P.
  assert (E : pred radix2 fx32 1 = 1 - bpow radix2 (-24)); [|lra].
  change 1 with (bpow radix2 0) at 1. rewrite pred_bpow. reflexivity.
Qed.

(** scaling a normal positive float by a float below 1 gives at most the predecessor *)
Lemma scale_le_pred (m : f32) (x : R) : 0 <= B2R m < 1 -> fmt 24 128 x -> bpow radix2 (-125) <= x ->
  r32 (B2R m * x) <= pred radix2 fx32 x.
Proof.
  intros Hm Fx Hx. pose proof (float_lt_1 m (proj2 Hm)) as H1.
  pose proof (bpow_gt_0 radix2 (-125)) as P. assert (X : 0 < x) by lra.
  pose proof (generic_format_pred radix2 fx32 x Fx) as Fp.
  unfold rnd. change (Generic_fmt.round radix2 (SpecFloat.fexp 24 128)) with (Generic_fmt.round radix2 fx32).
  apply round_N_le_midp; [exact _|exact Fp|]. rewrite (succ_pred radix2 fx32 x Fx).
  assert (G : (x - pred radix2 fx32 x) / 2 < bpow radix2 (-24) * x).
  { rewrite pred_eq_pos by lra. unfold pred_pos.
    pose proof (bpow_mag_le radix2 x ltac:(lra)) as He1. pose proof (bpow_mag_gt radix2 x) as He2.
    rewrite Rabs_pos_eq in He1, He2 by lra. remember (mag_val radix2 x (mag radix2 x)) as e eqn:Em.
    assert (Ee : (-125 < e)%Z). { apply (lt_bpow radix2). apply Rle_lt_trans with x; lra. }
    destruct (Req_bool_spec x (bpow radix2 (e - 1))) as [Q|Q].
    - replace (x - (x - bpow radix2 (fx32 (e - 1)))) with (bpow radix2 (fx32 (e - 1))) by ring.
      rewrite Q at 1. rewrite <- bpow_plus.
      replace (fx32 (e - 1)) with (e - 1 - 24)%Z by (unfold fx, SpecFloat.fexp, SpecFloat.emin; lia).
      replace (-24 + (e - 1))%Z with (e - 1 - 24)%Z by ring. pose proof (bpow_gt_0 radix2 (e - 1 - 24)). lra.
    - rewrite ulp_neq_0 by lra. unfold cexp. rewrite <- Em.
      replace (x - (x - bpow radix2 (fx32 e))) with (bpow radix2 (fx32 e)) by ring.
      replace (fx32 e) with (1 + (-24 + (e - 1)))%Z by (unfold fx, SpecFloat.fexp, SpecFloat.emin; lia).
      rewrite bpow_plus, (bpow_plus radix2 (-24)). change (bpow radix2 1) with 2.
      assert (bpow radix2 (e - 1) < x) by lra. pose proof (bpow_gt_0 radix2 (-24)).
      assert (bpow radix2 (-24) * bpow radix2 (e - 1) < bpow radix2 (-24) * x) by (apply Rmult_lt_compat_l; lra).
      lra. }
  assert (B2R m * x <= (1 - bpow radix2 (-24)) * x) by (apply Rmult_le_compat_r; lra).
  lra.
Qed.

(** for 0 <= d the rounded scaled rounded difference does not exceed d, d a difference of floats *)
Lemma scale_le (m a b : f32) : 0 <= B2R m < 1 -> 0 <= B2R a - B2R b ->
  0 <= r32 (B2R m * r32 (B2R a - B2R b)) <= B2R a - B2R b.
Proof.
  intros Hm Hd. set (d := B2R a - B2R b) in *.
  assert (Rd : 0 <= r32 d) by (rewrite <- (rnd_0 (prec:=24) (emax:=128)); apply rnd_le; exact Hd).
  split.
  - rewrite <- (rnd_0 (prec:=24) (emax:=128)). apply rnd_le. apply Rmult_le_pos; lra.
  - destruct (Rle_lt_dec (bpow radix2 (-125)) (r32 d)) as [P|P].
    + apply Rle_trans with (pred radix2 fx32 (r32 d)).
      { apply scale_le_pred; [exact Hm|apply generic_format_round; exact _|exact P]. }
      (* pred (round d) <= d *)
      destruct (Rle_lt_dec (r32 d) d) as [Q|Q].
      { apply Rle_trans with (r32 d); [apply pred_le_id|exact Q]. }
      apply Rnot_lt_le. intros Z.
      pose proof (round_N_le_midp radix2 fx32 (fun z => negb (Z.even z)) (pred radix2 fx32 (r32 d)) d) as K.
      specialize (K ltac:(apply generic_format_pred, generic_format_round; exact _)).
      assert (Frd : generic_format radix2 fx32 (r32 d)) by (apply generic_format_round; exact _).
      rewrite (succ_pred radix2 fx32 (r32 d) Frd) in K.
      assert (S : pred radix2 fx32 (r32 d) < r32 d).
      { apply pred_lt_id. pose proof (bpow_gt_0 radix2 (-125)). lra. }
      specialize (K ltac:(lra)). change (r32 d <= pred radix2 fx32 (r32 d)) in K. lra.
    + (* tiny: the difference is exact *)
      assert (E : r32 d = d).
      { apply rnd_fmt.
        destruct (FLT_format_B2R 24 128 _ a) as [[m1 e1] E1 A1 B1]. destruct (FLT_format_B2R 24 128 _ b) as [[m2 e2] E2 A2 B2].
        unfold F2R in E1, E2; cbn [Fnum Fexp] in *. assert (B1' : (-149 <= e1)%Z) by exact B1. assert (B2' : (-149 <= e2)%Z) by exact B2.
        assert (D : d = IZR (m1 * 2 ^ (e1 + 149) - m2 * 2 ^ (e2 + 149)) * bpow radix2 (-149)).
        { unfold d. rewrite E1, E2, minus_IZR, !mult_IZR.
          change (2 ^ (e1 + 149))%Z with (radix2 ^ (e1 + 149))%Z. change (2 ^ (e2 + 149))%Z with (radix2 ^ (e2 + 149))%Z.
          rewrite !IZR_Zpower by lia. rewrite Rmult_minus_distr_r, !Rmult_assoc, <- !bpow_plus.
          replace (e1 + 149 + -149)%Z with e1 by ring. replace (e2 + 149 + -149)%Z with e2 by ring. reflexivity. }
        set (k := (m1 * 2 ^ (e1 + 149) - m2 * 2 ^ (e2 + 149))%Z) in D.
        rewrite D. apply fmt_F2R; [|unfold SpecFloat.emin; lia].
        (* |k| < 2^24 since round d < 2^-125 *)
        assert (d < bpow radix2 (-125)).
        { apply Rnot_le_lt. intros Z. assert (bpow radix2 (-125) <= r32 d); [|lra].
          apply rnd_ge_fmt; [apply fmt_bpow; unfold SpecFloat.emin; lia|exact Z]. }
        assert (K0 : (0 <= k)%Z).
        { apply le_IZR. apply Rmult_le_reg_r with (bpow radix2 (-149)); [apply bpow_gt_0|]. lra. }
        rewrite Z.abs_eq by exact K0. apply lt_IZR. apply Rmult_lt_reg_r with (bpow radix2 (-149)); [apply bpow_gt_0|].
        rewrite <- D. change (IZR (2 ^ 24)) with (bpow radix2 24). rewrite <- bpow_plus. exact H. }
      rewrite E. rewrite <- E at 2. apply rnd_le. nra.
Qed.

(** linear interpolation between two floats with mu in [0,1) never leaves their interval *)
Lemma interp_between (y1 y2 mu : f32) : fin y1 -> fin y2 -> fin mu ->
  Rabs (B2R y1) <= bpow radix2 126 -> Rabs (B2R y2) <= bpow radix2 126 -> 0 <= B2R mu < 1 ->
  fin (linear_interpolate y1 y2 mu) /\
  B2R (linear_interpolate y1 y2 mu) = r32 (B2R y1 + r32 (B2R mu * r32 (B2R y2 - B2R y1))) /\
  Rmin (B2R y1) (B2R y2) <= B2R (linear_interpolate y1 y2 mu) <= Rmax (B2R y1) (B2R y2).
Proof.
  intros F1 F2 Fm A1 A2 Hm.
  assert (B1 := Rabs_le_inv _ _ A1). assert (B2 := Rabs_le_inv _ _ A2).
  assert (T : bpow radix2 127 = 2 * bpow radix2 126) by exact (bpow_plus radix2 1 126).
  assert (Fb : fmt 24 128 (bpow radix2 127)) by (apply fmt_bpow; unfold SpecFloat.emin; lia).
  assert (Lb : bpow radix2 127 < bpow radix2 128) by (apply bpow_lt; lia).
  destruct (fsub_bnd y2 y1 (bpow radix2 127) F2 F1 Fb Lb) as (E3 & F3 & B3); [apply Rabs_le; lra|].
  assert (B4 : Rabs (B2R mu * B2R (fsub y2 y1)) <= bpow radix2 127).
  { rewrite Rabs_mult, (Rabs_pos_eq (B2R mu)) by lra. pose proof (Rabs_pos (B2R (fsub y2 y1))). nra. }
  destruct (fmul_bnd mu (fsub y2 y1) (bpow radix2 127) Fm F3 Fb Lb B4) as (E4 & F4 & _).
  rewrite E3 in E4.
  (* the increment lies between 0 and y2 - y1 *)
  assert (I : (0 <= B2R y2 - B2R y1 /\ 0 <= B2R (fmul mu (fsub y2 y1)) <= B2R y2 - B2R y1) \/
              (B2R y2 - B2R y1 <= 0 /\ B2R y2 - B2R y1 <= B2R (fmul mu (fsub y2 y1)) <= 0)).
  { destruct (Rle_lt_dec 0 (B2R y2 - B2R y1)) as [P|P].
    - left. split; [exact P|]. rewrite E4. apply scale_le; auto.
    - right. split; [lra|]. pose proof (scale_le mu y1 y2 Hm ltac:(lra)) as Q.
      replace (B2R y1 - B2R y2) with (- (B2R y2 - B2R y1)) in Q by ring.
      rewrite rnd_opp in Q. replace (B2R mu * - r32 (B2R y2 - B2R y1)) with (- (B2R mu * r32 (B2R y2 - B2R y1))) in Q by ring.
      rewrite rnd_opp, <- E4 in Q. lra. }
  assert (B5 : Rabs (B2R y1 + B2R (fmul mu (fsub y2 y1))) <= bpow radix2 126).
  { apply Rabs_le. destruct I as [[? ?]|[? ?]]; lra. }
  assert (Fb' : fmt 24 128 (bpow radix2 126)) by (apply fmt_bpow; unfold SpecFloat.emin; lia).
  assert (Lb' : bpow radix2 126 < bpow radix2 128) by (apply bpow_lt; lia).
  destruct (fadd_bnd y1 (fmul mu (fsub y2 y1)) (bpow radix2 126) F1 F4 Fb' Lb' B5) as (E6 & F6 & B6).
  change (linear_interpolate y1 y2 mu) with (fadd y1 (fmul mu (fsub y2 y1))).
  split; [exact F6|]. split; [rewrite E6, E4; reflexivity|].
  rewrite E6. split.
  - unfold Rmin. destruct (Rle_dec (B2R y1) (B2R y2)).
    + apply rnd_ge_fmt; [apply fmt_v|]. destruct I as [[? ?]|[? ?]]; lra.
    + apply rnd_ge_fmt; [apply fmt_v|]. destruct I as [[? ?]|[? ?]]; lra.
  - unfold Rmax. destruct (Rle_dec (B2R y1) (B2R y2)).
    + apply rnd_le_fmt; [apply fmt_v|]. destruct I as [[? ?]|[? ?]]; lra.
    + apply rnd_le_fmt; [apply fmt_v|]. destruct I as [[? ?]|[? ?]]; lra.
Qed.
Lemma interp_zero (y1 y2 mu : f32) : fin y1 -> fin y2 -> fin mu ->
  Rabs (B2R y1) <= bpow radix2 126 -> Rabs (B2R y2) <= bpow radix2 126 -> B2R mu = 0 ->
  B2R (linear_interpolate y1 y2 mu) = B2R y1.
Proof.
  intros F1 F2 Fm A1 A2 Hm.
  destruct (interp_between y1 y2 mu F1 F2 Fm A1 A2 ltac:(lra)) as (_ & E & _).
  rewrite E, Hm, Rmult_0_l, rnd_0, Rplus_0_r. apply rnd_v.
Qed.

(** The delay line: the value returned at call t, in terms of the history. *)
Local Open Scope nat_scope.
Section Gen.
Context {T I : Type} (zero : T) (tosize : I -> option N) (interp : T -> T -> I -> T) (idx : I -> N).
Lemma gdelay_run_gen calls : forall r l hist c,
  ring_rel r l -> N.of_nat (length l) = c ->
  l = firstn (length l) (hist ++ repeat zero (length l)) ->
  Forall (fun e => tosize (snd e) = Some (idx (snd e)) /\ (idx (snd e) < 2 ^ 63)%N) calls ->
  exists ys, gdelay_run tosize interp r calls = Some ys /\ length ys = length calls /\
    forall t x i, nth_error calls t = Some (x, i) ->
      let k := idx i in
      let h := rev (map fst (firstn t calls)) ++ hist in
      nth_error ys t =
      Some (interp (nth (N.to_nat (k mod c)) h zero) (nth (N.to_nat ((k + 1) mod c)) h zero) i).
Proof.
  induction calls as [|[x i] cs IH]; intros r l hist c R Hc Hl HF.
  - exists []. repeat split; auto. intros [|t] x i H; discriminate.
  - pose proof (ring_rel_len _ _ R) as Hpos. inversion HF as [|? ? [Fi Hi] HF']; subst. cbn [snd] in *.
    set (c := N.of_nat (length l)) in *.
    assert (Hget : forall j, rb_get r j = Some (nth (N.to_nat (j mod c)) hist zero)).
    { intros j. rewrite (ring_rel_get _ _ j R). fold c. unfold vget. rewrite Hl.
      assert (Hm : (j mod c < c)%N) by (apply N.mod_lt; lia).
      rewrite nth_error_firstn. destruct (Nat.ltb_spec (N.to_nat (j mod c)) (length l)) as [_|]; [|lia].
      destruct (Nat.ltb_spec (N.to_nat (j mod c)) (length hist)) as [H|H].
      - rewrite nth_error_app1 by auto. apply nth_error_nth'. exact H.
      - rewrite nth_error_app2 by auto. rewrite nth_error_repeat_if.
        destruct (Nat.ltb_spec (N.to_nat (j mod c) - length hist) (length l)) as [_|]; [|lia].
        rewrite nth_overflow by auto. reflexivity. }
    set (k := idx i) in *.
    assert (Ha : add64 k 1 = (k + 1)%N).
    { unfold add64. apply wrap64_small. unfold W64. change (2 ^ 64)%N with 18446744073709551616%N.
      change (2 ^ 63)%N with 9223372036854775808%N in Hi. lia. }
    destruct (ring_rel_step zero r l (OpPush x) R) as (r1 & E1 & R1).
    cbn [rb_step] in E1. cbn [spec_step] in R1.
    assert (Es : gdelay_step tosize interp r x i = Some (interp (nth (N.to_nat (k mod c)) hist zero) (nth (N.to_nat ((k + 1) mod c)) hist zero) i, r1)).
    { unfold gdelay_step, gfrac_get. rewrite Fi. cbn [bind]. rewrite Ha, !Hget. cbn [bind].
      rewrite E1. reflexivity. }
    assert (Hl1 : length (firstn (length l) (x :: l)) = length l)
      by (rewrite firstn_length; simpl; lia).
    destruct (IH r1 _ (x :: hist) c R1) as (ys & Ey & Ly & Hy).
    + rewrite Hl1. reflexivity.
    + rewrite Hl1. destruct (length l) as [|m] eqn:Em; [lia|].
      cbn [firstn app]. f_equal. rewrite Hl at 1.
      rewrite firstn_firstn. f_equal.  lia.
    + exact HF'.
    + cbn [gdelay_run]. rewrite Es. cbn [bind snd fst]. rewrite Ey. cbn [bind].
      eexists; split; [reflexivity|]. split; [simpl; lia|].
      intros [|t] x' i' H.
      * cbn in H. injection H as <- <-. reflexivity.
      * cbn [nth_error] in H |- *. rewrite (Hy t x' i' H). cbn [firstn map rev fst].
        rewrite <- app_assoc. reflexivity.
Qed.

Lemma tap_hist (calls : list (T * I)) t d : t <= length calls ->
  nth d (rev (map fst (firstn t calls)) ++ []) zero = tap zero (map fst calls) t d.
Proof using Type.
  clear interp tosize idx. intros Ht. rewrite app_nil_r. unfold tap.
  assert (Hlen : length (map fst (firstn t calls)) = t) by (rewrite map_length, firstn_length; lia).
  destruct (Nat.ltb_spec d t) as [H1|H1].
  - rewrite rev_nth by lia. rewrite Hlen. replace (t - S d) with (t - 1 - d) by lia.
    rewrite <- firstn_map. rewrite <- (firstn_skipn t (map fst calls)) at 2.
    rewrite app_nth1; [reflexivity|]. rewrite firstn_length, map_length. lia.
  - apply nth_overflow. rewrite rev_length. lia.
Qed.

Lemma gdelay_spec n calls : (n <= 2 ^ 63)%N ->
  Forall (fun e => tosize (snd e) = Some (idx (snd e)) /\ (idx (snd e) < 2 ^ 63)%N) calls ->
  exists r0 c ys, gdelay_make zero n = Some r0 /\ least_pow2_ge n c /\
    gdelay_run tosize interp r0 calls = Some ys /\ length ys = length calls /\
    forall t x i, nth_error calls t = Some (x, i) ->
      nth_error ys t =
      Some (interp (tap zero (map fst calls) t (N.to_nat (idx i mod c)))
              (tap zero (map fst calls) t (N.to_nat ((idx i + 1) mod c))) i).
Proof.
  intros Hn HF.
  destruct (ring_rel_make zero n Hn) as (r0 & c & E & R & L & S & B).
  pose proof (ring_rel_len _ _ R) as Hpos.
  destruct (gdelay_run_gen calls r0 _ [] c R) as (ys & Ey & Ly & Hy).
  - rewrite repeat_length. lia.
  - cbn [app]. rewrite repeat_length, firstn_all2; [reflexivity|rewrite repeat_length; lia].
  - exact HF.
  - exists r0, c, ys. unfold gdelay_make. repeat split; auto; try apply L.
    intros t x i H. rewrite (Hy t x i H). cbn zeta.
    assert (t < length calls) by (apply nth_error_Some; congruence).
    rewrite !tap_hist by lia. reflexivity.
Qed.
End Gen.

Lemma delay_idx (i : f32) : (fin i /\ 0 <= B2R i < bpow radix2 63)%R ->
  to_size i = Some (Z.to_N (Zfloor (B2R i))) /\ (Z.to_N (Zfloor (B2R i)) < 2 ^ 63)%N.
Proof.
  intros (F & H0 & H1). split.
  - apply to_size_R; auto. apply Rlt_trans with (1 := H1). apply bpow_lt. lia.
  - assert (Zfloor (B2R i) < 2 ^ 63)%Z.
    { apply lt_IZR. apply Rle_lt_trans with (B2R i); [apply Zfloor_lb|exact H1]. }
    change (2 ^ 63)%N with 9223372036854775808%N. change (2 ^ 63)%Z with 9223372036854775808%Z in H. lia.
Qed.
Lemma delay_run_test n calls (f : list f32 -> bool) :
  match delay_make n with Some r => match delay_run r calls with Some ys => f ys | None => false end | None => false end = true ->
  exists r0 ys, delay_make n = Some r0 /\ delay_run r0 calls = Some ys /\ f ys = true.
Proof.
  destruct (delay_make n) as [r|] eqn:E; [|discriminate]. destruct (delay_run r calls) as [ys|] eqn:E2; [|discriminate].
  intros H. exists r, ys. auto.
Qed.
