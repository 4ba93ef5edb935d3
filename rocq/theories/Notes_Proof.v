From Coq Require Import Reals Lra Psatz.
From Flocq Require Import Core.Core IEEE754.BinarySingleNaN.
From Verif Require Import Common CommonFacts Float FloatFacts Midi_Proof Notes_Model Notes_Spec.
Local Open Scope R_scope.

(** the literal is correctly rounded: 2385698798484657 * 2^-51 is within half a unit
    (2^-52) of 1.059463094359295 *)
Lemma root12_literal : (2 * Z.abs (2385698798484657 * 10 ^ 15 - 1059463094359295 * 2 ^ 51) <= 10 ^ 15)%Z.
Proof. vm_compute. discriminate. Qed.

(** 2^60 * 2^(k/12), rounded down, for k = 0 .. 11 *)
Definition root_table : list Z :=
  [ 1152921504606846976; 1221477784824144587; 1294110633600925654;
    1371062456318104877; 1452590072530635490; 1538965573078900220;
    1630477228166597776; 1727430449435750374; 1830148809249668226;
    1938975120585633118; 2054272581141342534; 2176425985473463223 ]%Z.
Definition root_table_ok : bool :=
  forallb (fun k => let a := nth k root_table 0%Z in
    ((0 <? a) && (a ^ 12 <=? 2 ^ (720 + Z.of_nat k)) && (2 ^ (720 + Z.of_nat k) <=? (a + 1) ^ 12))%Z) (seq 0 12).
Lemma root_table_checked : root_table_ok = true.
Proof. vm_compute. reflexivity. Qed.

(** checker: f is positive, finite and within 1e-14 (relative) of 440 * 2^(s/12) *)
Definition near12 (f : f64) (s : Z) : bool :=
  match f with
  | B754_finite false m e _ =>
      let q := (s / 12)%Z in
      let a := nth (Z.to_nat (s mod 12)) root_table 0%Z in
      let v := (100000000000000 * Z.pos m * 2 ^ (e + 70))%Z in
      ((0 <=? e + 70) && (0 <=? q + 10) &&
       (99999999999999 * 440 * (a + 1) * 2 ^ (q + 10) <=? v) &&
       (v <=? 100000000000001 * 440 * a * 2 ^ (q + 10)))%Z
  | _ => false
  end.

Lemma pow_lt_mono x y n : 0 <= x < y -> (0 < n)%nat -> x ^ n < y ^ n.
Proof.
  intros H. induction n as [|n IH]; [lia|]. intros _. destruct n as [|n]; [cbn; lra|].
  specialize (IH ltac:(lia)). change (x * x ^ S n < y * y ^ S n).
  apply Rmult_le_0_lt_compat; try lra. apply pow_le. lra.
Qed.
Lemma pow_le_inv x y n : 0 <= y -> (0 < n)%nat -> x ^ n <= y ^ n -> x <= y.
Proof.
  intros Hy Hn H. apply Rnot_lt_le. intros K. pose proof (pow_lt_mono y x n ltac:(lra) Hn). lra.
Qed.

Lemma root_pow12 s : Rpower 2 (IZR s / 12) ^ 12 = bpow radix2 s.
Proof.
  rewrite <- Rpower_pow by apply exp_pos. rewrite Rpower_mult.
  replace (IZR s / 12 * INR 12) with (IZR s) by (cbn; field).
  rewrite <- powerRZ_Rpower by lra. rewrite bpow_powerRZ. reflexivity.
Qed.
Lemma bpow_pow12 e : bpow radix2 e ^ 12 = bpow radix2 (12 * e).
Proof.
  replace (12 * e)%Z with (e + e + e + e + e + e + e + e + e + e + e + e)%Z by ring. rewrite !bpow_plus. ring.
Qed.
Lemma root_table_R k : (k < 12)%nat ->
  let a := nth k root_table 0%Z in
  (0 < a)%Z /\ IZR a <= Rpower 2 (INR k / 12) * bpow radix2 60 <= IZR (a + 1).
Proof.
  intros Hk. cbv zeta. pose proof root_table_checked as C. unfold root_table_ok in C. rewrite forallb_forall in C.
  specialize (C k ltac:(apply in_seq; lia)). cbv zeta in C. set (a := nth k root_table 0%Z) in *. clearbody a.
  apply andb_prop in C; destruct C as [C C3]. apply andb_prop in C; destruct C as [C1 C2].
  apply Z.ltb_lt in C1. apply Z.leb_le in C2, C3. split; [exact C1|].
  set (x := Rpower 2 (INR k / 12) * bpow radix2 60).
  assert (Px : 0 < x) by (apply Rmult_lt_0_compat; [apply exp_pos|apply bpow_gt_0]).
  assert (Ex : x ^ 12 = IZR (2 ^ (720 + Z.of_nat k))).
  { unfold x. rewrite Rpow_mult_distr, INR_IZR_INZ, root_pow12, bpow_pow12, <- bpow_plus.
    change 2%Z with (radix_val radix2). rewrite IZR_Zpower by lia. f_equal. lia. }
  split.
  - apply (pow_le_inv _ _ 12); [lra|lia|]. rewrite Ex, pow_IZR. apply IZR_le. exact C2.
  - apply (pow_le_inv _ _ 12); [apply IZR_le; lia|lia|]. rewrite Ex, pow_IZR. apply IZR_le. exact C3.
Qed.
Lemma near12_correct f s : near12 f s = true ->
  fin f /\ 0 < B2R f /\ Rabs (B2R f - tempered s) <= tempered s / 100000000000000.
Proof.
  destruct f as [b|b| |[|] m e H]; try discriminate. cbn [near12]. cbv zeta. intros K.
  apply andb_prop in K; destruct K as [K K4]. apply andb_prop in K; destruct K as [K K3]. apply andb_prop in K; destruct K as [K1 K2].
  apply Z.leb_le in K1, K2, K3, K4. split; [reflexivity|].
  set (f := B2R (B754_finite false m e H : f64)).
  assert (Ef : f = IZR (Z.pos m) * bpow radix2 e) by reflexivity.
  assert (Pf : 0 < f). { rewrite Ef. apply Rmult_lt_0_compat; [apply IZR_lt; lia|apply bpow_gt_0]. }
  split; [exact Pf|].
  pose proof (Z.mod_pos_bound s 12 ltac:(lia)) as Mb.
  destruct (root_table_R (Z.to_nat (s mod 12)) ltac:(lia)) as (A0 & A1 & A2).
  rewrite INR_IZR_INZ, Z2Nat.id in A1, A2 by lia.
  set (a := nth (Z.to_nat (s mod 12)) root_table 0%Z) in *. clearbody a.
  set (r := Rpower 2 (IZR (s mod 12) / 12)) in *.
  set (q := (s / 12)%Z) in *.
  assert (Et : tempered s * bpow radix2 70 = 440 * (r * bpow radix2 60) * IZR (2 ^ (q + 10))).
  { unfold tempered, r. replace (IZR s / 12) with (IZR q + IZR (s mod 12) / 12).
    2: { rewrite (Z.div_mod s 12) at 2 by lia. fold q. rewrite plus_IZR, mult_IZR. field. }
    rewrite Rpower_plus. replace (Rpower 2 (IZR q)) with (bpow radix2 q)
      by (rewrite <- powerRZ_Rpower by lra; rewrite bpow_powerRZ; reflexivity).
    change 2%Z with (radix_val radix2). rewrite IZR_Zpower by lia.
    rewrite bpow_plus. replace (bpow radix2 70) with (bpow radix2 60 * bpow radix2 10) by (rewrite <- bpow_plus; reflexivity). ring. }
  assert (Ev : IZR (100000000000000 * Z.pos m * 2 ^ (e + 70)) = 100000000000000 * f * bpow radix2 70).
  { rewrite !mult_IZR. change 2%Z with (radix_val radix2). rewrite IZR_Zpower by lia. rewrite bpow_plus, Ef. ring. }
  apply IZR_le in K3, K4. rewrite Ev in K3, K4. rewrite !mult_IZR in K3, K4.
  set (P := IZR (2 ^ (q + 10))) in *.
  assert (PP : 0 < P) by (apply IZR_lt; apply Z.pow_pos_nonneg; lia).
  set (x := r * bpow radix2 60) in *. clearbody x.
  pose proof (bpow_gt_0 radix2 70) as B70. set (b := bpow radix2 70) in *. clearbody b. set (t := tempered s) in *. clearbody t.
  assert (Q1 : 99999999999999 * (t * b) <= 100000000000000 * f * b) by (rewrite Et; nra).
  assert (Q2 : 100000000000000 * f * b <= 100000000000001 * (t * b)) by (rewrite Et; nra).
  assert (R1 : 99999999999999 * t <= 100000000000000 * f) by (apply Rmult_le_reg_r with (1 := B70); lra).
  assert (R2 : 100000000000000 * f <= 100000000000001 * t) by (apply Rmult_le_reg_r with (1 := B70); lra).
  apply Rabs_le. lra.
Qed.

(** bool test on all keys *)
Definition nf_test (key : N) (test : f64 -> bool) : bool :=
  match note_frequency key with Some f => test f | None => false end.
Lemma nf_test_ok key test : nf_test key test = true -> exists f, note_frequency key = Some f /\ test f = true.
Proof. unfold nf_test. destruct (note_frequency key) as [f|]; [|discriminate]. intros H. exists f. auto. Qed.

Lemma keys_near : forall key, (key < 120)%N -> (9 <= key)%N -> nf_test key (fun f => near12 f (Z.of_N key - 69)) = true.
Proof.
  assert (H : forall key, (key < N.of_nat 120)%N -> (key <? 9)%N || nf_test key (fun f => near12 f (Z.of_N key - 69)) = true).
  { apply below_forallb. vm_compute. reflexivity. }
  intros key H1 H2. specialize (H key ltac:(lia)). destruct (N.ltb_spec key 9); [lia|exact H].
Qed.
Lemma keys_double : forall key, (key < 108)%N -> (9 <= key)%N ->
  nf_test key (fun f => nf_test (key + 12) (fun g => feq g (fmul (mk64 2 0) f) && is_finite (fmul (mk64 2 0) f))) = true.
Proof.
  assert (H : forall key, (key < N.of_nat 108)%N -> (key <? 9)%N ||
    nf_test key (fun f => nf_test (key + 12) (fun g => feq g (fmul (mk64 2 0) f) && is_finite (fmul (mk64 2 0) f))) = true).
  { apply below_forallb. vm_compute. reflexivity. }
  intros key H1 H2. specialize (H key ltac:(lia)). destruct (N.ltb_spec key 9); [lia|exact H].
Qed.
Lemma keys_incr : forall key, (key < 119)%N -> (9 <= key)%N ->
  nf_test key (fun f => nf_test (key + 1) (fun g => flt f g)) = true.
Proof.
  assert (H : forall key, (key < N.of_nat 119)%N -> (key <? 9)%N ||
    nf_test key (fun f => nf_test (key + 1) (fun g => flt f g)) = true).
  { apply below_forallb. vm_compute. reflexivity. }
  intros key H1 H2. specialize (H key ltac:(lia)). destruct (N.ltb_spec key 9); [lia|exact H].
Qed.

Lemma keys_incr_all : forall d key, (9 <= key)%N -> (key + N.of_nat (S d) <= 119)%N ->
  exists f g, note_frequency key = Some f /\ note_frequency (key + N.of_nat (S d)) = Some g /\ B2R f < B2R g.
Proof.
  induction d as [|d IH]; intros key H1 H2.
  - destruct (nf_test_ok _ _ (keys_incr key ltac:(lia) H1)) as (f & Ef & Hf).
    destruct (nf_test_ok _ _ Hf) as (g & Eg & Hg). exists f, g.
    replace (key + N.of_nat 1)%N with (key + 1)%N by lia. split; [exact Ef|]. split; [exact Eg|].
    destruct (nf_test_ok _ _ (keys_near key ltac:(lia) H1)) as (f' & Ef' & Nf). rewrite Ef in Ef'. injection Ef' as <-.
    destruct (nf_test_ok _ _ (keys_near (key + 1) ltac:(lia) ltac:(lia))) as (g' & Eg' & Ng). rewrite Eg in Eg'. injection Eg' as <-.
    apply near12_correct in Nf, Ng. apply (flt_true f g); tauto.
  - destruct (IH key H1 ltac:(lia)) as (f & g & Ef & Eg & H).
    destruct (nf_test_ok _ _ (keys_incr (key + N.of_nat (S d)) ltac:(lia) ltac:(lia))) as (g1 & Eg1 & Hg1).
    destruct (nf_test_ok _ _ Hg1) as (g2 & Eg2 & Hg2). rewrite Eg in Eg1. injection Eg1 as <-.
    exists f, g2. replace (key + N.of_nat (S (S d)))%N with (key + N.of_nat (S d) + 1)%N by lia.
    split; [exact Ef|]. split; [exact Eg2|]. apply Rlt_trans with (1 := H).
    destruct (nf_test_ok _ _ (keys_near (key + N.of_nat (S d)) ltac:(lia) ltac:(lia))) as (f' & Ef' & Nf). rewrite Eg in Ef'. injection Ef' as <-.
    destruct (nf_test_ok _ _ (keys_near (key + N.of_nat (S d) + 1) ltac:(lia) ltac:(lia))) as (g' & Eg' & Ng). rewrite Eg2 in Eg'. injection Eg' as <-.
    apply near12_correct in Nf, Ng. apply (flt_true g g2); tauto.
Qed.

Lemma keys_double_R key : (9 <= key)%N -> (key <= 107)%N ->
  exists f g, note_frequency key = Some f /\ note_frequency (key + 12) = Some g /\ B2R g = 2 * B2R f.
Proof.
  intros H1 H2. destruct (nf_test_ok _ _ (keys_double key ltac:(lia) H1)) as (f & Ef & Hf).
  destruct (nf_test_ok _ _ Hf) as (g & Eg & Hg). exists f, g. split; [exact Ef|]. split; [exact Eg|].
  destruct (nf_test_ok _ _ (keys_near key ltac:(lia) H1)) as (f' & Ef' & Nf). rewrite Ef in Ef'. injection Ef' as <-.
  destruct (nf_test_ok _ _ (keys_near (key + 12) ltac:(lia) ltac:(lia))) as (g' & Eg' & Ng). rewrite Eg in Eg'. injection Eg' as <-.
  apply near12_correct in Nf, Ng. apply andb_prop in Hg. destruct Hg as [Q Fi].
  unfold feq in Q. rewrite Beqb_correct in Q by tauto.
  destruct (Req_bool_spec (B2R g) (B2R (fmul (mk64 2 0) f))) as [E|]; [|discriminate]. rewrite E.
  destruct (mk64_small 2 0) as [E2 F2]; [lia|lia|].
  assert (V : B2R (mk64 2 0) = 2) by (rewrite E2; cbn [bpow]; lra).
  pose proof (Bmult_correct 53 1024 _ _ mode_NE (mk64 2 0) f) as M. cbn [round_mode] in M.
  change (round radix2 (SpecFloat.fexp 53 1024) ZnearestE) with (rnd 53 1024) in M. rewrite V in M.
  assert (Fm : fmt 53 1024 (2 * B2R f)).
  { destruct (FLT_format_B2R 53 1024 _ f) as [[m e] Em Hm He]. rewrite Em. unfold F2R; cbn [Fnum Fexp] in *.
    replace (2 * (IZR m * bpow radix2 e)) with (IZR m * bpow radix2 (e + 1)) by (rewrite bpow_plus; change (bpow radix2 1) with 2; ring).
    apply fmt_F2R; [exact Hm|]. unfold SpecFloat.emin in *. change (3 - 1024 - 53)%Z with (-1074)%Z in He. lia. }
  rewrite (rnd_fmt _ Fm) in M.
  destruct (Rlt_bool_spec (Rabs (2 * B2R f)) (bpow radix2 1024)) as [L|L].
  - exact (proj1 M).
  - exfalso. change (Bmult mode_NE (mk64 2 0) f) with (fmul (mk64 2 0) f) in M.
    destruct (fmul (mk64 2 0) f); try discriminate M; discriminate Fi.
Qed.

Definition arr_test (a : note_array) (i : nat) (test : f64 -> bool) : bool :=
  match nth_error (notes_array a) i with Some f => test f | None => false end.
Lemma arr_near a i : (i < 8)%nat -> a <> arr_eb ->
  arr_test a i (fun f => near12 f (12 * (Z.of_nat i - 4) + semitones a)) = true.
Proof.
  intros Hi Ha.
  assert (H : forallb (fun i => arr_test a i (fun f => near12 f (12 * (Z.of_nat i - 4) + semitones a))) (seq 0 8) = true).
  { destruct a; try (vm_compute; reflexivity). congruence. }
  rewrite forallb_forall in H. apply H. apply in_seq. lia.
Qed.
Lemma arr_eb_E i : (i < 8)%nat -> arr_test arr_eb i (fun f => near12 f (12 * (Z.of_nat i - 4) + semitones arr_E)) = true.
Proof.
  intros Hi.
  assert (H : forallb (fun i => arr_test arr_eb i (fun f => near12 f (12 * (Z.of_nat i - 4) + semitones arr_E))) (seq 0 8) = true)
    by (vm_compute; reflexivity).
  rewrite forallb_forall in H. apply H. apply in_seq. lia.
Qed.
Lemma tempered_pos s : 0 < tempered s.
Proof. apply Rmult_lt_0_compat; [lra|apply exp_pos]. Qed.
Lemma tempered_step s : 1.059 * tempered s <= tempered (s + 1).
Proof.
  unfold tempered. replace (IZR (s + 1) / 12) with (IZR s / 12 + 1 / 12) by (rewrite plus_IZR; field).
  rewrite Rpower_plus. pose proof (exp_pos (IZR s / 12 * ln 2)) as P. fold (Rpower 2 (IZR s / 12)) in P.
  assert (R : 1.059 <= Rpower 2 (1 / 12)).
  { apply (pow_le_inv 1.059 _ 12); [apply Rlt_le, exp_pos|lia|].
    change (1 / 12) with (IZR 1 / 12). rewrite root_pow12. change (bpow radix2 1) with 2. cbn [pow]. lra. }
  nra.
Qed.
