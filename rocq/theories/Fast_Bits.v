(** Encoding of floats, and the approximations that work on it. *)
From Coq Require Import ZArith Reals Lra Lia Bool.
From Flocq Require Import Core.Core IEEE754.BinarySingleNaN.
From Verif Require Import Common Float FloatFacts Db_Model Fast_Model.
Local Open Scope R_scope.
Local Notation fin x := (is_finite x = true).
Local Notation v x := (B2R x).
Local Notation rn := (rnd 24 128).

Lemma IZR_pow2 e : (0 <= e)%Z -> IZR (2 ^ e) = bpow radix2 e.
Proof. intros H. apply (IZR_Zpower radix2). exact H. Qed.
Lemma pos_mant (m : positive) (e : Z) : SpecFloat.bounded 24 128 m e = true ->
  (Zpos m < 2 ^ 24 /\ -149 <= e <= 104 /\ (2 ^ 23 <= Zpos m \/ e = -149))%Z.
Proof.
  unfold SpecFloat.bounded, SpecFloat.canonical_mantissa. intros H. apply andb_prop in H. destruct H as (C & L).
  apply Zeq_bool_eq in C. apply Zle_bool_imp_le in L. rewrite Zpos_digits2_pos in C. unfold SpecFloat.fexp, SpecFloat.emin in C.
  assert (D := Zdigits_correct radix2 (Zpos m)). cbn [Z.abs] in D.
  set (d := Zdigits radix2 (Z.pos m)) in *.
  assert (P0 : (0 <= d)%Z) by apply Zdigits_ge_0. change (3 - 128 - 24)%Z with (-149)%Z in C. change (128 - 24)%Z with 104%Z in L.
  change (Zpower (radix_val radix2) (d - 1) <= Zpos m < Zpower (radix_val radix2) d)%Z in D. destruct D as (D1 & D2).
  assert (X : (d <= 24)%Z) by lia. split; [|split; [lia|]].
  - apply Z.lt_le_trans with (1 := D2). change (2 ^ 24)%Z with (Zpower (radix_val radix2) 24). apply Zpower_le. exact X.
  - destruct (Z.eq_dec e (-149)); [right; assumption|left]. assert (d = 24)%Z by lia. rewrite H in D1. exact D1.
Qed.
(** positive floats: exponent field E and fraction field F *)
Lemma bits_pos (x : f32) : fin x -> 0 < v x -> exists E F, (0 <= E <= 254 /\ 0 <= F < 2 ^ 23)%Z /\ bits_of x = (E * 2 ^ 23 + F)%Z /\
  (((1 <= E)%Z /\ v x = IZR (2 ^ 23 + F) * bpow radix2 (E - 150)) \/ (E = 0%Z /\ v x = IZR F * bpow radix2 (-149))).
Proof.
  destruct x as [s|s| |s m e H]; cbn [is_finite B2R]; intros Fx Px; try discriminate; [lra|].
  destruct s; cbn [cond_Zopp] in Px.
  { exfalso. assert (F2R (Float radix2 (Z.neg m) e) < 0) by (apply F2R_lt_0; reflexivity). unfold SpecFloat.cond_Zopp in Px. cbn in Px, H0. lra. }
  destruct (pos_mant m e H) as (A & B & C). cbn [bits_of]. unfold SpecFloat.cond_Zopp, F2R. cbn [Fnum Fexp].
  destruct (Z.ltb_spec (Z.pos m) (2 ^ 23)) as [L|L].
  - assert (e = -149)%Z by lia. subst e. exists 0%Z, (Z.pos m). repeat split; try lia. right. split; reflexivity.
  - exists (e + 150)%Z, (Z.pos m - 2 ^ 23)%Z. repeat split; try lia. left. split; [lia|].
    replace (2 ^ 23 + (Z.pos m - 2 ^ 23))%Z with (Z.pos m) by lia. replace (e + 150 - 150)%Z with e by lia. reflexivity.
Qed.
Lemma fields E F : (0 <= E < 256)%Z -> (0 <= F < 2 ^ 23)%Z ->
  ((E * 2 ^ 23 + F) / 2 ^ 23 mod 256 = E /\ (E * 2 ^ 23 + F) mod 2 ^ 23 = F /\ (E * 2 ^ 23 + F) / 2 ^ 31 mod 2 = 0)%Z.
Proof.
  intros HE HF. rewrite Z.div_add_l by discriminate. rewrite (Z.div_small F) by exact HF. rewrite Z.add_0_r, (Z.mod_small E) by lia.
  split; [reflexivity|]. split.
  - rewrite Z.add_comm, Z.mod_add by discriminate. apply Z.mod_small; exact HF.
  - rewrite (Z.div_small (E * 2 ^ 23 + F)); [reflexivity|]. change (2 ^ 31)%Z with 2147483648%Z. change (2 ^ 23)%Z with 8388608%Z in *. lia.
Qed.
Lemma of_bits_normal E F : (1 <= E <= 254)%Z -> (0 <= F < 2 ^ 23)%Z ->
  fin (of_bits (E * 2 ^ 23 + F)) /\ v (of_bits (E * 2 ^ 23 + F)) = IZR (2 ^ 23 + F) * bpow radix2 (E - 150).
Proof.
  intros HE HF. destruct (fields E F ltac:(lia) HF) as (A & B & C). unfold of_bits. rewrite A, B, C.
  cbv zeta. replace (E =? 255)%Z with false by (symmetry; apply Z.eqb_neq; lia). replace (E =? 0)%Z with false by (symmetry; apply Z.eqb_neq; lia). change (0 =? 1)%Z with false. cbv beta iota.
  destruct (mk32_small (2 ^ 23 + F) (E - 150)) as (V & G); [change (2 ^ 24)%Z with 16777216%Z; change (2 ^ 23)%Z with 8388608%Z in *; lia|lia|]. split; assumption.
Qed.
Lemma of_bits_sub F : (0 <= F < 2 ^ 23)%Z -> fin (of_bits F) /\ v (of_bits F) = IZR F * bpow radix2 (-149).
Proof.
  intros HF. destruct (fields 0 F ltac:(lia) HF) as (A & B & C). rewrite Z.mul_0_l, Z.add_0_l in A, B, C. unfold of_bits. rewrite A, B, C.
  cbv zeta. change (0 =? 255)%Z with false. change (0 =? 0)%Z with true. change (0 =? 1)%Z with false. cbv beta iota.
  destruct (mk32_small F (-149)) as (V & G); [change (2 ^ 24)%Z with 16777216%Z; change (2 ^ 23)%Z with 8388608%Z in *; lia|lia|]. split; assumption.
Qed.
(** positive normal floats *)
Lemma bits_normal (x : f32) : fin x -> bpow radix2 (-126) <= v x -> exists E F, (1 <= E <= 254 /\ 0 <= F < 2 ^ 23)%Z /\
  bits_of x = (E * 2 ^ 23 + F)%Z /\ v x = IZR (2 ^ 23 + F) * bpow radix2 (E - 150).
Proof.
  intros Fx Hx. assert (P : 0 < v x) by (generalize (bpow_gt_0 radix2 (-126)); lra).
  destruct (bits_pos x Fx P) as (E & F & (HE & HF) & B & [(H1 & V)|(H0 & V)]).
  - exists E, F. repeat split; try assumption; lia.
  - exfalso. assert (IZR F < IZR (2 ^ 23)) by (apply IZR_lt; lia). rewrite IZR_pow2 in H by lia.
    assert (IZR F * bpow radix2 (-149) < bpow radix2 23 * bpow radix2 (-149)) by (apply Rmult_lt_compat_r; [apply bpow_gt_0|exact H]).
    rewrite <- bpow_plus in H1. change (23 + -149)%Z with (-126)%Z in H1. lra.
Qed.
(** 1 + F/2^23 as a real, and the value of a normal float *)
Definition fr (F : Z) : R := IZR F * / 8388608.
Lemma fr_bnd F : (0 <= F < 2 ^ 23)%Z -> 0 <= fr F < 1.
Proof.
  intros H. unfold fr. assert (0 <= IZR F) by (apply IZR_le; lia). assert (IZR F < IZR (2 ^ 23)) by (apply IZR_lt; lia).
  change (IZR (2 ^ 23)) with 8388608 in *. lra.
Qed.
Lemma normal_val E F : IZR (2 ^ 23 + F) * bpow radix2 (E - 150) = (1 + fr F) * bpow radix2 (E - 127).
Proof.
  rewrite plus_IZR. change (IZR (2 ^ 23)) with 8388608. replace (E - 127)%Z with (E - 150 + 23)%Z by lia. rewrite bpow_plus.
  change (bpow radix2 23) with 8388608. unfold fr. field.
Qed.

(** ** the reciprocal *)
Definition K := 7541186%Z.
Lemma inverse_ok (x : f32) : fin x -> bpow radix2 (-126) <= v x < bpow radix2 125 ->
  exists y, fast_inverse x = Some y /\ fin y /\ 0 < v y /\ Rabs (v x * v y - 1) <= 0.0506.
Proof.
  intros Fx (L & U). destruct (bits_normal x Fx L) as (E & F & (HE & HF) & B & V).
  assert (E251 : (E <= 251)%Z).
  { destruct (Z.le_gt_cases E 251) as [G|G]; [exact G|exfalso]. rewrite V, normal_val in U. assert (X := fr_bnd F HF).
    assert (bpow radix2 125 <= bpow radix2 (E - 127)) by (apply bpow_le; lia). assert (P := bpow_gt_0 radix2 (E - 127)).
    assert (1 * bpow radix2 (E - 127) <= (1 + fr F) * bpow radix2 (E - 127)) by (apply Rmult_le_compat_r; lra). lra. }
  assert (X := fr_bnd F HF). unfold fast_inverse. rewrite B.
  change (2 ^ 23)%Z with 8388608%Z in *. change (2 ^ 31)%Z with 2147483648%Z. change (2 ^ 32)%Z with 4294967296%Z.
  replace (E * 8388608 + F <? 2147483648)%Z with true by (symmetry; apply Z.ltb_lt; lia). cbv zeta.
  change 2129859010%Z with (253 * 8388608 + K)%Z.
  set (y := (253 * 8388608 + K - (E * 8388608 + F))%Z).
  assert (Hy : (0 <= y < 2147483648)%Z) by (unfold y, K; lia).
  replace (- (2147483648) <=? y)%Z with true by (symmetry; apply Z.leb_le; lia). replace (y <? 2147483648)%Z with true by (symmetry; apply Z.ltb_lt; lia).
  rewrite Z.mod_small by lia. cbn [andb]. eexists; split; [reflexivity|].
  assert (KF : fr K = 7541186 / 8388608) by (unfold fr, K; field).
  destruct (Z.le_gt_cases F K) as [C|C].
  - assert (Ey : y = ((253 - E) * 2 ^ 23 + (K - F))%Z) by (unfold y; change (2 ^ 23)%Z with 8388608%Z; lia).
    rewrite Ey. destruct (of_bits_normal (253 - E) (K - F)) as (G & W); [lia|change (2 ^ 23)%Z with 8388608%Z; unfold K in *; lia|].
    split; [exact G|]. rewrite W, V, !normal_val.
    assert (Ef : fr (K - F) = fr K - fr F) by (unfold fr; rewrite minus_IZR; ring). rewrite Ef.
    assert (CF : fr F <= fr K) by (unfold fr; apply Rmult_le_compat_r; [lra|apply IZR_le; exact C]).
    split; [apply Rmult_lt_0_compat; [lra|apply bpow_gt_0]|].
    replace ((1 + fr F) * bpow radix2 (E - 127) * ((1 + (fr K - fr F)) * bpow radix2 (253 - E - 127))) with
      ((1 + fr F) * (1 + (fr K - fr F)) * (bpow radix2 (E - 127) * bpow radix2 (253 - E - 127))) by ring.
    rewrite <- bpow_plus. replace (E - 127 + (253 - E - 127))%Z with (-1)%Z by lia. change (bpow radix2 (-1)) with (/ 2).
    rewrite KF in *. set (f := fr F) in *.
    assert (0 <= f * (7541186 / 8388608 - f)) by (apply Rmult_le_pos; lra).
    assert (0 <= (f - 7541186 / 16777216) * (f - 7541186 / 16777216)) by apply Rle_0_sqr.
    apply Rabs_le. split; lra.
  - assert (Ey : y = ((252 - E) * 2 ^ 23 + (2 ^ 23 + K - F))%Z) by (unfold y; change (2 ^ 23)%Z with 8388608%Z; lia).
    rewrite Ey. destruct (of_bits_normal (252 - E) (2 ^ 23 + K - F)) as (G & W); [lia|change (2 ^ 23)%Z with 8388608%Z; unfold K in *; lia|].
    split; [exact G|]. rewrite W, V. change (8388608 + F)%Z with (2 ^ 23 + F)%Z. rewrite !normal_val.
    assert (Ef : fr (2 ^ 23 + K - F) = 1 + fr K - fr F) by (unfold fr; rewrite minus_IZR, plus_IZR; change (IZR (2 ^ 23)) with 8388608; field). rewrite Ef.
    assert (CF : fr K <= fr F) by (unfold fr; apply Rmult_le_compat_r; [lra|apply IZR_le; lia]).
    rewrite KF in *. set (f := fr F) in *.
    split; [apply Rmult_lt_0_compat; [lra|apply bpow_gt_0]|].
    replace ((1 + f) * bpow radix2 (E - 127) * ((1 + (1 + 7541186 / 8388608 - f)) * bpow radix2 (252 - E - 127))) with
      ((1 + f) * (1 + (1 + 7541186 / 8388608 - f)) * (bpow radix2 (E - 127) * bpow radix2 (252 - E - 127))) by ring.
    rewrite <- bpow_plus. replace (E - 127 + (252 - E - 127))%Z with (-2)%Z by lia. change (bpow radix2 (-2)) with (/ 4).
    assert (0 <= (1 - f) * (f - 7541186 / 8388608)) by (apply Rmult_le_pos; lra).
    assert (0 <= (f - (1 + 7541186 / 8388608) / 2) * (f - (1 + 7541186 / 8388608) / 2)) by apply Rle_0_sqr.
    apply Rabs_le. split; lra.
Qed.
