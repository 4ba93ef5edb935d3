(** C32: the FFT computes the discrete Fourier transform.
    [fft arithR k] is the code's own recursion run on real numbers with exact sines (rounding is
    left out); [fft arith64 k] is the code in double, with its own sine series. *)
From Coq Require Import ZArith NArith List Arith Lia Reals Lra.
From Flocq Require Import Core.Core IEEE754.BinarySingleNaN.
From Verif Require Import Common Float Fft_Model Fft_Spec Fft_Proof Fft_Real Fft_Double.
Import ListNotations.
Local Open Scope R_scope.

(** For every N = 2^k and every array of N interleaved complex numbers (or longer): the first N
    numbers are replaced by their transform, what follows is untouched, no access leaves the
    array and no int overflows. *)
Theorem C32_fft_is_dft : forall (k : nat) (d : list R),
  (1 <= k <= 29)%nat -> (2 * 2 ^ k <= length d)%nat ->
  exists d', fft arithR k d = Some d' /\ length d' = length d /\
    (forall j, (j < 2 ^ k)%nat ->
       re d' j = dft_re (2 ^ k) (re d) (im d) j /\ im d' j = dft_im (2 ^ k) (re d) (im d) j) /\
    (forall m, (2 * 2 ^ k <= m)%nat -> nth m d' 0 = nth m d 0).
Proof.
  intros k d Hk Hl. destruct (fft_spec arithR k d Hk Hl) as (d' & E & L & A & F).
  exists d'. split; [exact E|]. split; [exact L|]. split; [|exact F].
  intros j Hj. specialize (A j Hj). rewrite fft_rec_dft in A by exact Hj.
  unfold cx in A. cbn [a_zero arithR] in A. rewrite !Nat.add_0_l in A.
  split; [exact (f_equal fst A)|exact (f_equal snd A)].
Qed.
Print Assumptions C32_fft_is_dft.

(** The code in double: for every array, whatever its contents (infinities and NaNs included),
    the call stays inside the 2N numbers and completes without overflow. *)
Theorem C32_fft_in_bounds : forall (k : nat) (d : list f64),
  (1 <= k <= 29)%nat -> (2 * 2 ^ k <= length d)%nat ->
  exists d', fft arith64 k d = Some d' /\ length d' = length d /\
    (forall m, (2 * 2 ^ k <= m)%nat -> nth m d' fzero = nth m d fzero).
Proof.
  intros k d Hk Hl. destruct (fft_spec arith64 k d Hk Hl) as (d' & E & L & _ & F).
  exists d'. auto.
Qed.
Print Assumptions C32_fft_in_bounds.

(** The code in double, its rounding included: its own truncated sine series, the running product
    of the twiddle factors and every addition and multiplication. For finite numbers bounded by B
    (up to 2^890, so that nothing overflows) every output is finite and within 2^-49 N^2 B of
    the exact transform; the added 2^-900 covers underflow. *)
Theorem C32_fft_double_accuracy : forall (k : nat) (d : list f64) (B : R),
  (1 <= k <= 29)%nat -> (2 * 2 ^ k <= length d)%nat -> 0 <= B <= bpow radix2 890 ->
  (forall m, (m < 2 * 2 ^ k)%nat -> is_finite (nth m d fzero) = true /\ Rabs (B2R (nth m d fzero)) <= B) ->
  exists d', fft arith64 k d = Some d' /\ length d' = length d /\
    (forall m, (m < 2 * 2 ^ k)%nat -> is_finite (nth m d' fzero) = true) /\
    let x := re (map B2R d) in let y := im (map B2R d) in
    let E := bpow radix2 (-49) * (2 ^ k * 2 ^ k) * (B + bpow radix2 (-900)) in
    forall j, (j < 2 ^ k)%nat ->
      Rabs (re (map B2R d') j - dft_re (2 ^ k) x y j) <= E /\
      Rabs (im (map B2R d') j - dft_im (2 ^ k) x y j) <= E.
Proof.
  intros k d B Hk Hl HB Hd. destruct (fft_spec arith64 k d Hk Hl) as (d' & ER & L & A & _).
  exists d'. split; [exact ER|]. split; [exact L|].
  assert (NR : forall (l : list f64) m, nth m (map B2R l) 0 = B2R (nth m l fzero)).
  { intros l m. exact (map_nth B2R l fzero m). }
  set (yy := fun n => cx arith64 d 0 n) in *. set (G := 1.5 * B + 1000 * h).
  pose proof h_pos as hp.
  assert (abs_sq : forall t, Rabs t * Rabs t = t * t) by (intros t; rewrite <- Rabs_mult; apply Rabs_pos_eq, sq0).
  assert (HG : 1000 * h <= G <= bpow radix2 900).
  { unfold G. split; [lra|]. pose proof h_small as hs.
    assert (X : 1 <= bpow radix2 890) by (change 1 with (bpow radix2 0); apply bpow_le; lia).
    assert (Y : bpow radix2 900 = 1024 * bpow radix2 890) by (change 1024 with (bpow radix2 10); rewrite <- bpow_plus; reflexivity). lra. }
  assert (Hy : forall n, (n < 2 ^ k)%nat -> F2 (yy n) /\ cn (V2 (yy n)) <= G).
  { intros n Hn. destruct (Hd (2 * n)%nat ltac:(lia)) as [F1 B1]. destruct (Hd (2 * n + 1)%nat ltac:(lia)) as [F3 B3].
    split; [split; [exact F1|exact F3]|].
    unfold yy, cx, V2. cbn [fst snd]. rewrite !Nat.add_0_l. change (a_zero arith64) with (fzero : f64).
    unfold G. apply Rle_trans with (1.5 * B); [|lra]. unfold cn. cbn [fst snd].
    rewrite <- (sqrt_square (1.5 * B)) by lra. apply sqrt_le_1_alt.
    rewrite <- (abs_sq (B2R (nth (2 * n) d fzero))), <- (abs_sq (B2R (nth (2 * n + 1) d fzero))).
    pose proof (Rmult_le_compat _ _ _ _ (Rabs_pos _) (Rabs_pos _) B1 B1). pose proof (Rmult_le_compat _ _ _ _ (Rabs_pos _) (Rabs_pos _) B3 B3).
    pose proof (Rle_0_sqr B). unfold Rsqr in *. lra. }
  assert (K : forall j, (j < 2 ^ k)%nat -> F2 (cx arith64 d' 0 j) /\
    cn (minus2 (V2 (cx arith64 d' 0 j)) (dft (2 ^ k) (fun n => V2 (yy n)) j)) <= 10 * N2 k * N2 k * G * U).
  { intros j Hj. specialize (A j Hj). fold yy in A. destruct (fft_rec_err k ltac:(lia) yy G HG Hy j Hj) as (X & Y & _). rewrite A. auto. }
  split.
  - intros m Hm. destruct (Nat.Even_or_Odd m) as [[j ->]|[j ->]].
    + destruct (K j ltac:(lia)) as [[X _] _]. exact X.
    + destruct (K j ltac:(lia)) as [[_ X] _]. exact X.
  - cbv zeta. intros j Hj. destruct (K j Hj) as [_ Y].
    assert (EX : forall n, fst (V2 (yy n)) = re (map B2R d) n) by (intros n; unfold re; rewrite NR; reflexivity).
    assert (EY : forall n, snd (V2 (yy n)) = im (map B2R d) n) by (intros n; unfold im; rewrite NR; reflexivity).
    assert (LE : 10 * N2 k * N2 k * G * U <= bpow radix2 (-49) * (2 ^ k * 2 ^ k) * (B + bpow radix2 (-900))).
    { unfold N2, G. set (q := 2 ^ k). assert (Q : 0 < q * q) by (unfold q; pose proof (pow_lt 2 k ltac:(lra)); apply Rmult_lt_0_compat; assumption).
      replace (bpow radix2 (-49)) with (16 * U) by (unfold U; change 16 with (bpow radix2 4); rewrite <- bpow_plus; reflexivity).
      assert (H9 : bpow radix2 (-900) = bpow radix2 100 * h) by (unfold h; rewrite <- bpow_plus; reflexivity). rewrite H9.
      assert (P : 1000 <= bpow radix2 100) by (apply Rle_trans with (bpow radix2 10); [change (bpow radix2 10) with 1024; lra|apply bpow_le; lia]).
      assert (UP : 0 < U) by (rewrite U_val; lra).
      replace (10 * q * q * (1.5 * B + 1000 * h) * U) with ((q * q * U) * (15 * B + 10000 * h)) by lra.
      replace (16 * U * (q * q) * (B + bpow radix2 100 * h)) with ((q * q * U) * (16 * B + 16 * (bpow radix2 100 * h))) by ring.
      apply Rmult_le_compat_l; [apply Rlt_le, Rmult_lt_0_compat; assumption|].
      pose proof (Rmult_le_compat_r h _ _ (Rlt_le _ _ hp) P). lra. }
    pose proof (Rle_trans _ _ _ (cn_re _) (Rle_trans _ _ _ Y LE)) as ZR. pose proof (Rle_trans _ _ _ (cn_im _) (Rle_trans _ _ _ Y LE)) as ZI.
    unfold minus2, dft in ZR, ZI. cbn [fst snd] in ZR, ZI.
    assert (X1 : dft_re (2 ^ k) (fun n => fst (V2 (yy n))) (fun n => snd (V2 (yy n))) j = dft_re (2 ^ k) (re (map B2R d)) (im (map B2R d)) j) by (apply sum_ext; intros n _; rewrite EX, EY; reflexivity).
    assert (X2 : dft_im (2 ^ k) (fun n => fst (V2 (yy n))) (fun n => snd (V2 (yy n))) j = dft_im (2 ^ k) (re (map B2R d)) (im (map B2R d)) j) by (apply sum_ext; intros n _; rewrite EX, EY; reflexivity).
    unfold V2 in ZR, ZI, X1, X2. cbn [fst snd] in ZR, ZI, X1, X2. rewrite X1 in ZR. rewrite X2 in ZI.
    split.
    + unfold re at 1. rewrite NR. exact ZR.
    + unfold im at 1. rewrite NR. exact ZI.
Qed.
Print Assumptions C32_fft_double_accuracy.

(** The compile-time sine and cosine series it is built from, at the angles the transform uses:
    sin (A pi / 2^k) to 2.3 A units of 2^-53 and cos to 5. *)
Theorem C32_series_accuracy : forall (k A : nat), (3 <= k <= 29)%nat -> (A = 1 \/ A = 2)%nat ->
  is_finite (sin64 (2 ^ k) A) = true /\
  Rabs (B2R (sin64 (2 ^ k) A) - sin (INR A * PI / 2 ^ k)) <= INR A * 2.3 * bpow radix2 (-53) /\
  Rabs (B2R (cos64 (2 ^ k) A) - cos (INR A * PI / 2 ^ k)) <= 5 * bpow radix2 (-53).
Proof.
  intros k A Hk HA. pose proof (sin64_err k A Hk HA) as S. rewrite pow_INR in S. exact S.
Qed.
Print Assumptions C32_series_accuracy.

(** An array shorter than 2N numbers is overrun: nothing checks its length. *)
Theorem C32_fft_short_overrun : fft arithR 2 [1; 2; 3; 4; 5; 6; 7] = None.
Proof. reflexivity. Qed.
Print Assumptions C32_fft_short_overrun.

(** the hypotheses are met, and the specification is not the identity: for four real samples
    entry 2 of the transform is x0 - x1 + x2 - x3 *)
Example C32_witness : let d := [1; 0; 2; 0; 3; 0; 5; 0] in
  exists d', fft arithR 2 d = Some d' /\ re d' 0 = 11 /\ re d' 2 = -3 /\ re d' 1 = -2 /\ im d' 1 = 3 /\ im d' 3 = -3.
Proof.
  cbv zeta. eexists. split; [cbv -[Rplus Rminus Rmult]; reflexivity|].
  unfold re, im. cbn [nth Nat.mul Nat.add]. repeat split; lra.
Qed.

(** The accuracy theorem's hypotheses are met by 1, 0, 2, 0, 3, 0, 5, 0 in double with B = 5. *)
Example C32_double_witness : let d := [mk64 1 0; fzero; mk64 2 0; fzero; mk64 3 0; fzero; mk64 5 0; fzero] in
  forall m, (m < 2 * 2 ^ 2)%nat -> is_finite (nth m d fzero) = true /\ Rabs (B2R (nth m d fzero)) <= 5.
Proof.
  cbv zeta. intros m Hm.
  assert (I : forall z, (0 <= z <= 5)%Z -> is_finite (mk64 z 0) = true /\ Rabs (B2R (mk64 z 0)) <= 5).
  { intros z Hz. destruct (int64 z) as [E F]; [lia|]. split; [exact F|]. rewrite E, Rabs_pos_eq by (apply (IZR_le 0); lia). apply IZR_le. lia. }
  assert (Z : is_finite (fzero : f64) = true /\ Rabs (B2R (fzero : f64)) <= 5) by (split; [reflexivity|cbn; rewrite Rabs_R0; lra]).
  destruct m as [|[|[|[|[|[|[|[|m]]]]]]]]; cbn [nth]; try exact Z; try (apply I; lia); exfalso; cbn in Hm; lia.
Qed.
