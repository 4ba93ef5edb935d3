(** C30 (allpass filters) and C31 (biquads).  "Exact" is the code run on real numbers, "float" the
    code run on IEEE binary32. *)
From Coq Require Import Reals Lra Lia List.
From Flocq Require Import Core.Core IEEE754.BinarySingleNaN.
From Verif Require Import Common Float FloatFacts Bq_Model Bq_Spec Bq_Lin Bq_Proof Bq_Design Bq_Resp Bq_Float Bq_Coef Bq_Allpass Bq_AllpassF Bq_Round.
Local Open Scope R_scope.

(** * C31: biquads *)
(** ** Any coefficients *)
Theorem C31_difference_equation :
  forall c x, difference_equation (k0 c) (k1 c) (k2 c) (k3 c) (k4 c) x (bq_out opsR (bq_make opsR c) x).
Proof. apply diff_eq. Qed.
Print Assumptions C31_difference_equation.
(** ... with coefficients changed by config() at any time: the delays are not disturbed *)
Theorem C31_retuned :
  forall c0 (c : nat -> coefs R) x, let y := bq_out_cfg opsR (bq_make opsR c0) c x in
  forall t, y t = k0 (c t) * x t + k1 (c t) * ago x t 1 + k2 (c t) * ago x t 2 - k3 (c t) * ago y t 1 - k4 (c t) * ago y t 2.
Proof.
  intros c0 c x y t. unfold y. destruct t as [|[|t]]; unfold ago; cbn [Nat.leb Nat.sub]; rewrite ?Nat.sub_0_r; reflexivity.
Qed.
Print Assumptions C31_retuned.
Theorem C31_linear :
  forall c p q x z n, bq_out opsR (bq_make opsR c) (fun t => p * x t + q * z t) n =
    p * bq_out opsR (bq_make opsR c) x n + q * bq_out opsR (bq_make opsR c) z n.
Proof. apply bq_lin. Qed.
Print Assumptions C31_linear.
Theorem C31_time_invariant :
  forall c x d n, bq_out opsR (bq_make opsR c) (fun t => ago x t d) n = ago (bq_out opsR (bq_make opsR c) x) n d.
Proof.
  intros c x d. apply (diff_unique (k0 c) (k1 c) (k2 c) (k3 c) (k4 c) (fun t => ago x t d)); [apply diff_eq|].
  assert (U : forall f t, ago f t d = if Nat.leb d t then f (t - d)%nat else 0) by reflexivity.
  intros t. rewrite !(ago_shift _ d), !U. destruct (Nat.leb d t); [|ring]. apply diff_eq.
Qed.
Print Assumptions C31_time_invariant.
(** bounded input gives bounded output when the poles are inside the circle of radius r < 1 *)
Theorem C31_bounded :
  forall c x B r, pole_radius r (k3 c) (k4 c) -> r < 1 -> 0 <= B -> (forall t, Rabs (x t) <= B) ->
  forall n, Rabs (bq_out opsR (bq_make opsR c) x n) <= (Rabs (k0 c) + Rabs (k1 c) + Rabs (k2 c)) * B / ((1 - r) * (1 - r)).
Proof.
  intros c x B r Hr R1 HB Hx n. assert (R0 : 0 < r) by (destruct Hr; assumption).
  set (z := bq_out opsR (bq_make opsR c) x). set (K := Rabs (k0 c) + Rabs (k1 c) + Rabs (k2 c)).
  assert (K0 : 0 <= K) by (unfold K; generalize (Rabs_pos (k0 c)) (Rabs_pos (k1 c)) (Rabs_pos (k2 c)); lra).
  assert (SB := second_bound r (k3 c) (k4 c) (pad z) Hr R1 (K * B) (S n)). cbn [pad] in SB. rewrite Rabs_R0, Rmult_0_r, !Rplus_0_l in SB.
  replace (K * B / ((1 - r) * (1 - r))) with (K * B / (1 - r) / (1 - r)) by (field; lra).
  apply SB with (t := S (S n)); [apply Rmult_le_pos; lra| |lia]. intros t Ht.
  exists (k0 c * x t + k1 c * ago x t 1 + k2 c * ago x t 2). split.
  - cbn [pad]. unfold z at 1. rewrite (diff_eq c). fold z. f_equal; [f_equal|]; f_equal; unfold ago, pad; destruct t as [|[|t]]; cbn [Nat.leb Nat.sub]; rewrite ?Nat.sub_0_r; reflexivity.
  - assert (A : forall k, Rabs (ago x t k) <= B) by (intros k; unfold ago; destruct (Nat.leb k t); [apply Hx|rewrite Rabs_R0; exact HB]).
    eapply Rle_trans; [apply Rabs_triang|]. eapply Rle_trans; [apply Rplus_le_compat_r, Rabs_triang|].
    assert (A0 := mul_le (k0 c) _ _ _ (Rle_refl _) (Hx t)).
    assert (A1 := mul_le (k1 c) _ _ _ (Rle_refl _) (A 1%nat)). assert (A2 := mul_le (k2 c) _ _ _ (Rle_refl _) (A 2%nat)). unfold K. lra.
Qed.
Print Assumptions C31_bounded.
(** [pole_radius] means what it says *)
Theorem C31_pole_radius :
  forall r a3 a4, pole_radius r a3 a4 -> forall u v, u * u - v * v + a3 * u + a4 = 0 -> 2 * u * v + a3 * v = 0 -> u * u + v * v <= r * r.
Proof.
  intros r a3 a4 H u v E1 E2. assert (N := radius_roots r a3 a4 H u v E1 E2). assert (S := nrm_sq (u, v)). cbn [fst snd] in S. rewrite <- S.
  apply sq_le; [apply nrm_nonneg|exact N].
Qed.
Print Assumptions C31_pole_radius.

(** ** The designs, for every 0 < f < sps/2, every positive Q or bandwidth and every gain in dB.
    [omega f sps] = 2 pi f / sps is the centre, 0 is DC and PI the Nyquist frequency. *)
Theorem C31_stable :
  forall s f sps w, legal f sps w -> let c := bq_c (bq_design s f sps w) in
  poles_inside (k3 c) (k4 c) /\ exists r, r < 1 /\ pole_radius r (k3 c) (k4 c).
Proof.
  intros s f sps w L c. assert (T := ok_triangle _ (ok_cfg f sps w L s)). fold c in T. destruct (triangle_radius _ _ T) as (r & Hr & R1). split.
  - intros u v E1 E2. assert (N := radius_roots _ _ _ Hr u v E1 E2). assert (S := nrm_sq (u, v)). cbn [fst snd] in S. rewrite <- S.
    assert (P := nrm_nonneg (u, v)). apply Rle_lt_trans with (r * r); [apply sq_le; assumption|]. replace 1 with (1 * 1) by ring. destruct Hr as (R0 & _). apply Rmult_le_0_lt_compat; lra.
  - exists r. split; [exact R1|exact Hr].
Qed.
Print Assumptions C31_stable.
Section Responses.
Variables (f sps : R) (w : width).
Hypothesis L : legal f sps w.
Local Notation sys s := (bq_out opsR (bq_design s f sps w)).
Local Notation w0 := (omega f sps).
Theorem C31_lowpass : response (sys Lowpass) 0 1 0 /\ response (sys Lowpass) PI 0 0 /\ (forall q, w = Q q -> response (sys Lowpass) w0 q (- (PI / 2))).
Proof. split; [apply lp_dc; exact L|]. split; [apply lp_ny; exact L|]. intros q E. apply lp_c; assumption. Qed.
Print Assumptions C31_lowpass.
Theorem C31_highpass : response (sys Highpass) 0 0 0 /\ response (sys Highpass) PI 1 0 /\ (forall q, w = Q q -> response (sys Highpass) w0 q (PI / 2)).
Proof. split; [apply hp_dc; exact L|]. split; [apply hp_ny; exact L|]. intros q E. apply hp_c; assumption. Qed.
Print Assumptions C31_highpass.
Theorem C31_bandpass_csg : response (sys Bandpass_csg) 0 0 0 /\ response (sys Bandpass_csg) PI 0 0 /\ (forall q, w = Q q -> response (sys Bandpass_csg) w0 q 0).
Proof. split; [apply bc_dc; exact L|]. split; [apply bc_ny; exact L|]. intros q E. apply bc_c; assumption. Qed.
Print Assumptions C31_bandpass_csg.
Theorem C31_bandpass_cpg : response (sys Bandpass_cpg) 0 0 0 /\ response (sys Bandpass_cpg) PI 0 0 /\ response (sys Bandpass_cpg) w0 1 0.
Proof. split; [apply bp_dc; exact L|]. split; [apply bp_ny; exact L|apply bp_c; exact L]. Qed.
Print Assumptions C31_bandpass_cpg.
Theorem C31_notch : response (sys Notch) 0 1 0 /\ response (sys Notch) PI 1 0 /\ response (sys Notch) w0 0 0.
Proof. split; [apply no_dc; exact L|]. split; [apply no_ny; exact L|apply no_c; exact L]. Qed.
Print Assumptions C31_notch.
(** unit gain at every frequency, half a turn at the centre *)
Theorem C31_allpass : (forall v, exists th, response (sys Allpass) v 1 th) /\ response (sys Allpass) 0 1 0 /\ response (sys Allpass) w0 1 PI.
Proof. split; [intros v; apply ap_b; exact L|]. split; [apply ap_dc; exact L|apply ap_c; exact L]. Qed.
Print Assumptions C31_allpass.
Theorem C31_peaking : forall db, response (sys (Peaking db)) 0 1 0 /\ response (sys (Peaking db)) PI 1 0 /\ response (sys (Peaking db)) w0 (Rpower 10 (db / 20)) 0.
Proof. intros db. split; [apply pk_dc; exact L|]. split; [apply pk_ny; exact L|apply pk_c; exact L]. Qed.
Print Assumptions C31_peaking.
Theorem C31_lowshelf : forall db, response (sys (Lowshelf db)) 0 (Rpower 10 (db / 20)) 0 /\ response (sys (Lowshelf db)) PI 1 0 /\
  exists th, response (sys (Lowshelf db)) w0 (Rpower 10 (db / 2 / 20)) th.
Proof. intros db. split; [apply ls_dc; exact L|]. split; [apply ls_ny; exact L|apply ls_c; exact L]. Qed.
Print Assumptions C31_lowshelf.
Theorem C31_highshelf : forall db, response (sys (Highshelf db)) 0 1 0 /\ response (sys (Highshelf db)) PI (Rpower 10 (db / 20)) 0 /\
  exists th, response (sys (Highshelf db)) w0 (Rpower 10 (db / 2 / 20)) th.
Proof. intros db. split; [apply hs_dc; exact L|]. split; [apply hs_ny; exact L|apply hs_c; exact L]. Qed.
Print Assumptions C31_highshelf.
(** no overshoot: the gain at any frequency v lies between those at the ends (the low and high pass
    for Q up to 1/sqrt 2, the default being 0.707) *)
Theorem C31_gain_limits : forall v,
  (exists g th, 0 <= g <= 1 /\ response (sys Bandpass_cpg) v g th) /\
  (exists g th, 0 <= g <= 1 /\ response (sys Notch) v g th) /\
  (forall q, w = Q q -> 2 * (q * q) <= 1 -> (exists g th, 0 <= g <= 1 /\ response (sys Lowpass) v g th) /\ (exists g th, 0 <= g <= 1 /\ response (sys Highpass) v g th)) /\
  (forall db, 0 <= db -> (exists g th, 1 <= g <= Rpower 10 (db / 20) /\ response (sys (Peaking db)) v g th) /\
    (exists g th, 1 <= g <= Rpower 10 (db / 20) /\ response (sys (Lowshelf db)) v g th) /\
    (exists g th, 1 <= g <= Rpower 10 (db / 20) /\ response (sys (Highshelf db)) v g th)).
Proof.
  assert (P : forall (X : (nat -> R) -> nat -> R) v lo hi, (exists g th, 0 <= g /\ lo <= g <= hi /\ response X v g th) -> exists g th, lo <= g <= hi /\ response X v g th).
  { intros X v lo hi (g & th & _ & A & B). exists g, th. auto. }
  intros v. split; [apply P, bp_b; exact L|]. split; [apply P, no_b; exact L|]. split.
  - intros q E H. split; apply P; [apply (lp_b f sps w L q)|apply (hp_b f sps w L q)]; assumption.
  - intros db H. repeat split; apply P; [apply pk_b|apply ls_b|apply hs_b]; assumption.
Qed.
Print Assumptions C31_gain_limits.
(** Q of the bandpass and the notch: their half-power frequencies are those whose prewarped values
    tan(v/2) satisfy |t^2 - t0^2| = t t0 / q, i.e. t0 is their geometric mean and they are t0/q apart *)
Theorem C31_bandpass_half_power : forall q v, w = Q q -> 0 < v < PI ->
  Rabs (tan (v / 2) * tan (v / 2) - tan (w0 / 2) * tan (w0 / 2)) = tan (v / 2) * tan (w0 / 2) / q ->
  (exists th, response (sys Bandpass_cpg) v (/ sqrt 2) th) /\ (exists th, response (sys Notch) v (/ sqrt 2) th).
Proof. intros q v. apply q_half. exact L. Qed.
Print Assumptions C31_bandpass_half_power.
(** a bandwidth of n octaves: the half-power frequencies lie n/2 * (w0 / sin w0) octaves below and above
    the centre on the prewarped axis tan(v/2) *)
Theorem C31_bandwidth : forall n v, w = BW n -> 0 < v < PI ->
  let k := Rpower 2 (n / 2 * (w0 / sin w0)) in tan (v / 2) = tan (w0 / 2) * k \/ tan (v / 2) = tan (w0 / 2) / k ->
  (exists th, response (sys Bandpass_cpg) v (/ sqrt 2) th) /\ (exists th, response (sys Notch) v (/ sqrt 2) th).
Proof. intros n v. apply bw_half. exact L. Qed.
Print Assumptions C31_bandwidth.
End Responses.
(** The shelving filters take a q parameter but ignore it. *)
Theorem C31_shelf_q_matters_refuted :
  ~ (exists db f sps q1 q2, legal f sps (Q q1) /\ legal f sps (Q q2) /\ bq_design (Lowshelf db) f sps (Q q1) <> bq_design (Lowshelf db) f sps (Q q2)) /\
  ~ (exists db f sps q1 q2, legal f sps (Q q1) /\ legal f sps (Q q2) /\ bq_design (Highshelf db) f sps (Q q1) <> bq_design (Highshelf db) f sps (Q q2)).
Proof. split; intros (db & f & sps & q1 & q2 & _ & _ & H); apply H; reflexivity. Qed.
Print Assumptions C31_shelf_q_matters_refuted.
(** concrete legal parameters: 1 kHz at 44.1 kHz, Q 0.707 and one octave *)
Example C31_legal_ex : legal 1000 44100 (Q (707 / 1000)) /\ legal 1000 44100 (BW 1).
Proof. unfold legal. repeat split; lra. Qed.
Example C31_lowpass_ex : response (bq_out opsR (bq_design Lowpass 1000 44100 (Q (707 / 1000)))) (omega 1000 44100) (707 / 1000) (- (PI / 2)).
Proof. apply (C31_lowpass 1000 44100 _ (proj1 C31_legal_ex)). reflexivity. Qed.

Example C31_bandwidth_ex : let w0 := omega 1000 44100 in let k := Rpower 2 (1 / 2 * (w0 / sin w0)) in
  (exists th, response (bq_out opsR (bq_design Bandpass_cpg 1000 44100 (BW 1))) (2 * atan (tan (w0 / 2) * k)) (/ sqrt 2) th) /\
  (exists th, response (bq_out opsR (bq_design Notch 1000 44100 (BW 1))) (2 * atan (tan (w0 / 2) / k)) (/ sqrt 2) th).
Proof.
  cbv zeta. set (w0 := omega 1000 44100). set (k := Rpower 2 _).
  assert (W := omega_range 1000 44100 (proj1 (proj2 C31_legal_ex)) (proj1 (proj2 (proj2 C31_legal_ex)))). fold w0 in W.
  assert (T : 0 < tan (w0 / 2)) by (apply tan_gt_0; lra). assert (K : 0 < k) by (unfold k, Rpower; apply exp_pos).
  assert (R : forall x, 0 < x -> 0 < 2 * atan x < PI).
  { intros x Hx. generalize (atan_bound x). assert (Y := atan_increasing 0 x Hx). rewrite atan_0 in Y. lra. }
  assert (E : forall x, tan (2 * atan x / 2) = x) by (intros x; replace (2 * atan x / 2) with (atan x) by field; apply tan_atan).
  split.
  - refine (proj1 (C31_bandwidth 1000 44100 (BW 1) (proj2 C31_legal_ex) 1 _ eq_refl _ _)); [apply R; apply Rmult_lt_0_compat; assumption|]. left. apply E.
  - refine (proj2 (C31_bandwidth 1000 44100 (BW 1) (proj2 C31_legal_ex) 1 _ eq_refl _ _)); [apply R; apply Rdiv_lt_0_compat; assumption|]. right. apply E.
Qed.

(** ** Float *)
(** The float filter neither overflows nor drifts away, for ever: for every input with |x| <= B and
    finite float coefficients whose poles lie within radius r <= 1 - 1/512, every output is finite,
    bounded, and close to the output of the exact filter with the same coefficients. *)
Theorem C31_float :
  forall c x B r, finite_coefs c -> (forall t, is_finite (x t) = true /\ Rabs (B2R (x t)) <= B) ->
  pole_radius r (B2R (k3 c)) (B2R (k4 c)) -> r <= 1 - / 512 ->
  let D := (Rabs (B2R (k0 c)) + Rabs (B2R (k1 c)) + Rabs (B2R (k2 c))) * B + bpow radix2 (-120) in
  let G := / ((1 - r) * (1 - r)) in
  16 * G * D <= bpow radix2 100 ->
  forall n, is_finite (bq_out ops32 (bq_make ops32 c) x n) = true /\
    Rabs (B2R (bq_out ops32 (bq_make ops32 c) x n)) <= 4 * G * D /\
    Rabs (B2R (bq_out ops32 (bq_make ops32 c) x n) - bq_out opsR (bq_make opsR (exact c)) (fun t => B2R (x t)) n) <= bpow radix2 (-16) * (G * G) * D.
Proof.
  intros c x B r Hc Hx Hr R1 D G Hb n.
  destruct (run_ok c x B r Hc Hx Hr R1 Hb (S n) n) as (F & M & _); [lia|]. split; [exact F|]. split; [exact M|].
  eapply Rle_trans; [exact (track c x B r Hc Hx Hr R1 Hb n)|]. eapply Rle_trans; [exact (WG c x B r Hx Hr R1)|].
  change (bpow radix2 (-16)) with (/ 65536). unfold D, G. fold (feedforward c). unfold Bq_Float.D, Bq_Float.G. lra.
Qed.
Print Assumptions C31_float.
(** the symmetries the zeros of the responses depend on survive the rounding of the coefficients
    (computed in double, stored in float) *)
Theorem C31_float_coefficients :
  forall sn cs al, is_finite sn = true -> is_finite cs = true -> is_finite al = true ->
  bpow radix2 (-60) <= B2R sn <= 1 -> -1 <= B2R cs <= 1 -> bpow radix2 (-60) <= B2R al <= bpow radix2 40 ->
  let co d := exact (bq_c (bq_design64 d)) in
  (let c := co (cfg_lowpass ops64 cs al) in k2 c = k0 c /\ k1 c = 2 * k0 c) /\
  (let c := co (cfg_highpass ops64 cs al) in k2 c = k0 c /\ k1 c = - (2 * k0 c)) /\
  (let c := co (cfg_bandpass_csg ops64 sn cs al) in k1 c = 0 /\ k2 c = - k0 c) /\
  (let c := co (cfg_bandpass_cpg ops64 cs al) in k1 c = 0 /\ k2 c = - k0 c) /\
  (let c := co (cfg_notch ops64 cs al) in k2 c = k0 c /\ k1 c = k3 c) /\
  (let c := co (cfg_allpass ops64 cs al) in k0 c = k4 c /\ k1 c = k3 c /\ k2 c = 1).
Proof.
  intros sn cs al Fs Fc Fa Hs Hc Ha. 
  destruct (lp_coefs cs cs al Fc Fa Hc Ha) as (A1 & A2). destruct (hp_coefs cs cs al Fc Fa Hc Ha) as (B1 & B2).
  destruct (csg_coefs sn cs al Fs Fa Hs Ha) as (C1 & C2). destruct (cpg_coefs cs cs al Fa Ha) as (D1 & D2).
  destruct (ap_coefs cs cs al Fa Ha) as (E1 & E2 & E3).
  repeat split; try assumption; try reflexivity.
Qed.
Print Assumptions C31_float_coefficients.
(** hence, with the float coefficients, the lowpass still blocks Nyquist, the highpass DC, and the
    allpass has unit gain everywhere, exactly, as long as its poles are inside the unit circle *)
Theorem C31_float_allpass_exact :
  forall cs al, is_finite al = true -> bpow radix2 (-60) <= B2R al <= bpow radix2 40 ->
  let c := exact (bq_c (bq_design64 (cfg_allpass ops64 cs al))) in
  Rabs (k4 c) < 1 -> Rabs (k3 c) < 1 + k4 c -> forall w, exists th, response (bq_out opsR (bq_make opsR c)) w 1 th.
Proof.
  intros cs al Fa Ha c H4 H3 w. destruct (ap_coefs cs cs al Fa Ha) as (E1 & E2 & E3).
  assert (F1 : k0 c = k4 c) by (apply (f_equal (fun z => B2R z) E1)). assert (F2 : k1 c = k3 c) by (apply (f_equal (fun z => B2R z) E2)).
  assert (F3 : k2 c = 1) by exact E3. clearbody c. apply gain_one; [split; assumption|]. cbn [bq_make bq_c]. unfold num2, den2. rewrite F1, F2, F3. ring.
Qed.
Print Assumptions C31_float_allpass_exact.
Theorem C31_float_blocks :
  forall cs al, is_finite cs = true -> is_finite al = true -> -1 <= B2R cs <= 1 -> bpow radix2 (-60) <= B2R al <= bpow radix2 40 ->
  (let c := exact (bq_c (bq_design64 (cfg_lowpass ops64 cs al))) in
    Rabs (k4 c) < 1 -> Rabs (k3 c) < 1 + k4 c -> response (bq_out opsR (bq_make opsR c)) PI 0 0) /\
  (let c := exact (bq_c (bq_design64 (cfg_highpass ops64 cs al))) in
    Rabs (k4 c) < 1 -> Rabs (k3 c) < 1 + k4 c -> response (bq_out opsR (bq_make opsR c)) 0 0 0).
Proof.
  intros cs al Fc Fa Hc Ha. destruct (lp_coefs cs cs al Fc Fa Hc Ha) as (A1 & A2). destruct (hp_coefs cs cs al Fc Fa Hc Ha) as (B1 & B2).
  split; intros c H4 H3.
  - assert (F1 : k2 c = k0 c) by (apply (f_equal (fun z => B2R z) A1)). assert (F2 : k1 c = 2 * k0 c) by exact A2. clearbody c.
    apply respond; [split; assumption| |]; cbn [bq_make bq_c]; rewrite cos_PI, sin_PI, F1, ?F2; ring.
  - assert (F1 : k2 c = k0 c) by (apply (f_equal (fun z => B2R z) B1)). assert (F2 : k1 c = - (2 * k0 c)) by exact B2. clearbody c.
    apply respond; [split; assumption| |]; cbn [bq_make bq_c]; rewrite cos_0, sin_0, F1, ?F2; ring.
Qed.
Print Assumptions C31_float_blocks.
(** "the poles designed inside the unit circle are inside it": not after the coefficients are rounded to
    float.  Whatever sine, cosine and q (to 36 bits) the library functions deliver, the 1 Hz lowpass at
    48 kHz with q = 0.707 gets a pole exactly at 1, so it never forgets its input *)
Theorem C31_float_poles_inside_refuted :
  forall sn cs q : f64, is_finite sn = true -> is_finite cs = true -> is_finite q = true ->
  Rabs (B2R sn - sin (omega 1 48000)) <= bpow radix2 (-36) -> Rabs (B2R cs - cos (omega 1 48000)) <= bpow radix2 (-36) ->
  Rabs (B2R q - 0.707) <= bpow radix2 (-36) ->
  let c := exact (bq_c (bq_design64 (cfg_lowpass ops64 cs (alpha_q ops64 sn q)))) in
  1 * 1 + k3 c * 1 + k4 c = 0 /\ ~ poles_inside (k3 c) (k4 c).
Proof.
  intros sn cs q Fs Fc Fq Hs Hc Hq c. destruct (pinned sn cs q Fs Fc Fq Hs Hc Hq) as (E3 & E4).
  change (k3 c = IZR (-16775663) * bpow radix2 (-23)) in E3. change (k4 c = IZR 16774110 * bpow radix2 (-24)) in E4. clearbody c.
  change (bpow radix2 (-23)) with (/ 8388608) in E3. change (bpow radix2 (-24)) with (/ 16777216) in E4.
  split; [rewrite E3, E4; lra|]. intros P. specialize (P 1 0). assert (1 * 1 + 0 * 0 < 1); [apply P; rewrite ?E3, ?E4; lra|lra].
Qed.
Print Assumptions C31_float_poles_inside_refuted.
Example C31_unstable_case : exists sn cs q : f64, is_finite sn = true /\ is_finite cs = true /\ is_finite q = true /\
  Rabs (B2R sn - sin (omega 1 48000)) <= bpow radix2 (-36) /\ Rabs (B2R cs - cos (omega 1 48000)) <= bpow radix2 (-36) /\
  Rabs (B2R q - 0.707) <= bpow radix2 (-36).
Proof. exact case48. Qed.
(** a filter that meets the hypotheses of C31_float: poles of modulus 1/2 *)
Definition bq_ex : coefs f32 := mkCoefs (mk32 1 0) (mk32 1 (-1)) (mk32 1 (-2)) (mk32 (-1) (-1)) (mk32 1 (-2)).
Example C31_float_ex : forall x, (forall t, is_finite (x t) = true /\ Rabs (B2R (x t)) <= 1) ->
  forall n, is_finite (bq_out ops32 (bq_make ops32 bq_ex) x n) = true.
Proof.
  intros x Hx n. 
  assert (V : forall m e, (Z.abs m < 2 ^ 24)%Z -> (-10 <= e <= 10)%Z -> B2R (mk32 m e) = IZR m * bpow radix2 e /\ is_finite (mk32 m e) = true)
    by (intros m e Hm He; apply mk32_small; [exact Hm|lia]).
  destruct (V 1%Z 0%Z ltac:(reflexivity) ltac:(lia)) as (V0 & F0). destruct (V 1%Z (-1)%Z ltac:(reflexivity) ltac:(lia)) as (V1 & F1).
  destruct (V 1%Z (-2)%Z ltac:(reflexivity) ltac:(lia)) as (V2 & F2). destruct (V (-1)%Z (-1)%Z ltac:(reflexivity) ltac:(lia)) as (V3 & F3).
  change (bpow radix2 0) with 1 in V0. change (bpow radix2 (-1)) with (/ 2) in V1, V3. change (bpow radix2 (-2)) with (/ 4) in V2.
  destruct (C31_float bq_ex x 1 (/ 2)) with (n := n) as (R & _); unfold bq_ex; cbn [k0 k1 k2 k3 k4]; rewrite ?V0, ?V1, ?V2, ?V3.
  - repeat split; assumption.
  - exact Hx.
  - unfold pole_radius. rewrite Rabs_pos_eq by lra. rewrite Rabs_left by lra. lra.
  - lra.
  - rewrite !Rabs_pos_eq by lra. assert (bpow radix2 (-120) < 1) by (apply (bpow_lt radix2 (-120) 0); lia).
    assert (1024 <= bpow radix2 100) by (apply (bpow_le radix2 10 100); lia). lra.
  - exact R.
Qed.

(** * C30: allpass filters *)
(** Energy: what went in is what came out plus what is stored. *)
Theorem C30_one_pole_energy :
  forall a x n, -1 < a < 1 -> let y := ap_feed opsR a 0 x n in
  energy x n = energy (ap_out opsR a 0 x) n + y * y / (1 - a * a) /\ energy (ap_out opsR a 0 x) n <= energy x n.
Proof.
  intros a x n Ha y. assert (A : a * a < 1). { destruct (Rle_or_lt 0 a); [assert (a * a <= a * 1) by (apply Rmult_le_compat_l; lra); lra|]. assert ((- a) * (- a) <= (- a) * 1) by (apply Rmult_le_compat_l; lra). lra. }
  assert (E := ap_energy a 0 x n ltac:(lra)). fold y in E. replace (0 * 0 / (1 - a * a)) with 0 in E by (field; lra). rewrite Rplus_0_r in E. split; [exact E|].
  assert (0 <= y * y / (1 - a * a)) by (apply Rmult_le_pos; [apply sq_nonneg|left; apply Rinv_0_lt_compat; lra]). lra.
Qed.
Print Assumptions C30_one_pole_energy.
Theorem C30_polyphase_energy :
  forall a x n, -1 < a < 1 -> let p := pp_feed opsR (pp_make opsR a) x n in
  energy x n = energy (pp_out opsR (pp_make opsR a) x) n
    + ((a * py1 p - px1 p) * (a * py1 p - px1 p) + (a * py2 p - px2 p) * (a * py2 p - px2 p)) / (1 - a * a) /\
  energy (pp_out opsR (pp_make opsR a) x) n <= energy x n.
Proof.
  intros a x n Ha p. split; [|apply pp_le; exact Ha].
  assert (A : a * a < 1). { destruct (Rle_or_lt 0 a); [assert (a * a <= a * 1) by (apply Rmult_le_compat_l; lra); lra|]. assert ((- a) * (- a) <= (- a) * 1) by (apply Rmult_le_compat_l; lra). lra. }
  assert (E := pp_energy (pp_make opsR a) x n). cbn [pa pp_make] in E. specialize (E ltac:(lra)).
  assert (Z : pp_store (pp_make opsR a) = 0) by (unfold pp_store; cbn [pp_make pa px1 px2 py1 py2 zro opsR]; field; lra). rewrite Z, Rplus_0_r in E.
  rewrite E. unfold pp_store. rewrite pp_feed_a. reflexivity.
Qed.
Print Assumptions C30_polyphase_energy.
(** Unit gain at every frequency; [one_pole_allpass(f, sps)] turns the phase by 90 degrees at f. *)
Theorem C30_unit_gain :
  forall a w, -1 < a < 1 -> (exists th, response (ap_out opsR a 0) w 1 th) /\ (exists th, response (pp_out opsR (pp_make opsR a)) w 1 th).
Proof. intros a w Ha. split; [apply ap_gain|apply pp_gain]; exact Ha. Qed.
Print Assumptions C30_unit_gain.
Theorem C30_pivot :
  forall f sps, 0 < f -> 2 * f < sps -> -1 < ap_pole f sps < 1 /\ response (ap_out opsR (ap_pole f sps) 0) (omega f sps) 1 (- (PI / 2)).
Proof. intros f sps Hf Hs. split; [apply pole_range; assumption|apply pivot; assumption]. Qed.
Print Assumptions C30_pivot.
(** hilbert_quadrature: both outputs have the amplitude of the input at every frequency, and carry
    at most its energy *)
Lemma hil_range : Forall (fun a => -1 < a < 1) (map pa (h_a hil_R :: h_b hil_R :: h_c hil_R :: h_d hil_R :: h_w hil_R :: h_x hil_R :: h_y hil_R :: h_z hil_R :: nil)).
Proof. unfold hil_R, hil_make. cbn [map h_a h_b h_c h_d h_w h_x h_y h_z pa pp_make]. repeat constructor; lra. Qed.
Theorem C30_hilbert_unit_gain :
  forall w, (exists th, response (fun x n => fst (hil_out opsR hil_R x n)) w 1 th) /\ (exists th, response (fun x n => snd (hil_out opsR hil_R x n)) w 1 th).
Proof.
  intros w. assert (R := hil_range). unfold hil_R, hil_make in R. cbn [map h_a h_b h_c h_d h_w h_x h_y h_z pa pp_make] in R.
  repeat match goal with H : Forall _ (_ :: _) |- _ => inversion H; clear H; subst end.
  unfold hil_R. set (a := 47940086558884 / _) in *. set (b := 87621849353931 / _) in *. set (c := 976597589508199 / _) in *. set (d := 997499255935549 / _) in *.
  set (w' := 161758498367701 / _) in *. set (x' := 733028932341491 / _) in *. set (y := 945349700329113 / _) in *. set (z := 990599156684529 / _) in *.
  split.
  - destruct (pp_gain a w ltac:(assumption)) as (t1 & H1'). destruct (pp_cascade _ b w t1 ltac:(assumption) H1') as (t2 & H2').
    destruct (pp_cascade _ c w t2 ltac:(assumption) H2') as (t3 & H3'). destruct (pp_cascade _ d w t3 ltac:(assumption) H3') as (t4 & H4').
    exists (t4 - w). eapply resp_ext; [|exact (delay_resp _ w 1 t4 H4')]. intros x n. rewrite hil_fst.
    destruct n; unfold ago; cbn [Nat.leb Nat.sub zro opsR]; rewrite ?Nat.sub_0_r; reflexivity.
  - destruct (pp_gain w' w ltac:(assumption)) as (t1 & H1'). destruct (pp_cascade _ x' w t1 ltac:(assumption) H1') as (t2 & H2').
    destruct (pp_cascade _ y w t2 ltac:(assumption) H2') as (t3 & H3'). destruct (pp_cascade _ z w t3 ltac:(assumption) H3') as (t4 & H4').
    exists t4. eapply resp_ext; [|exact H4']. intros x n. apply hil_snd.
Qed.
Print Assumptions C30_hilbert_unit_gain.
Theorem C30_hilbert_energy :
  forall x n, energy (fun t => fst (hil_out opsR hil_R x t)) n <= energy x n /\ energy (fun t => snd (hil_out opsR hil_R x t)) n <= energy x n.
Proof.
  intros x n. assert (R := hil_range). unfold hil_R, hil_make in R. cbn [map h_a h_b h_c h_d h_w h_x h_y h_z pa pp_make] in R.
  repeat match goal with H : Forall _ (_ :: _) |- _ => inversion H; clear H; subst end.
  unfold hil_R. set (a := 47940086558884 / _) in *. set (b := 87621849353931 / _) in *. set (c := 976597589508199 / _) in *. set (d := 997499255935549 / _) in *.
  set (w' := 161758498367701 / _) in *. set (x' := 733028932341491 / _) in *. set (y := 945349700329113 / _) in *. set (z := 990599156684529 / _) in *.
  split.
  - rewrite (energy_ext _ (fun t => match t with O => 0 | S m => pp_out opsR (pp_make opsR d) (pp_out opsR (pp_make opsR c) (pp_out opsR (pp_make opsR b) (pp_out opsR (pp_make opsR a) x))) m end)) by (intros t _; apply hil_fst).
    destruct n as [|n]; [cbn [energy]; lra|]. rewrite energy_delay.
    do 4 (eapply Rle_trans; [apply pp_le; assumption|]). cbn [energy]. generalize (sq_nonneg (x n)). lra.
  - rewrite (energy_ext _ (pp_out opsR (pp_make opsR z) (pp_out opsR (pp_make opsR y) (pp_out opsR (pp_make opsR x') (pp_out opsR (pp_make opsR w') x))))) by (intros t _; apply hil_snd).
    do 3 (eapply Rle_trans; [apply pp_le; assumption|]). apply pp_le; assumption.
Qed.
Print Assumptions C30_hilbert_energy.
(** Float: finite for ever and close to the exact filter with the same coefficient. *)
Theorem C30_float :
  forall a x B, is_finite a = true -> Rabs (B2R a) <= 1 - bpow radix2 (-18) -> (forall t, is_finite (x t) = true /\ Rabs (B2R (x t)) <= B) ->
  let D := B + bpow radix2 (-120) in let d := 1 - Rabs (B2R a) in 10 * D / d <= bpow radix2 100 ->
  forall n,
  (let y := ap_out ops32 a fzero x n in
   is_finite y = true /\ Rabs (B2R y - ap_out opsR (B2R a) 0 (fun t => B2R (x t)) n) <= bpow radix2 (-17) * D / (d * d)) /\
  (let y := pp_out ops32 (pp_make ops32 a) x n in
   is_finite y = true /\ Rabs (B2R y) <= 5 * D / d /\
   Rabs (B2R y - pp_out opsR (pp_make opsR (B2R a)) (fun t => B2R (x t)) n) <= bpow radix2 (-17) * D / (d * d)).
Proof.
  intros a x B Fa Ha Hx D d Hb n. change (bpow radix2 (-18)) with (/ 262144) in Ha. change (bpow radix2 (-17)) with (/ 131072).
  assert (B0 := B0 x B Hx). assert (Hb' : 2 * amax a B <= bpow radix2 100).
  { unfold amax. fold D d. replace (2 * (5 * D / d)) with (10 * D / d) by (unfold Rdiv; ring). exact Hb. }
  assert (AE := aerr_form a B Ha B0). fold D d in AE. assert (T := bpow_gt_0 radix2 (-120)). assert (A0 := Rabs_pos (B2R a)).
  assert (Hd : 0 < d) by (unfold d; lra). assert (D0 : 0 < D) by (unfold D; lra).
  assert (I : 0 < / d) by (apply Rinv_0_lt_compat; exact Hd).
  assert (Q : aerr a B / d <= 32 * / 16777216 * D / (d * d)).
  { replace (32 * / 16777216 * D / (d * d)) with (32 * / 16777216 * D / d * / d) by (field; lra). apply Rmult_le_compat_r; lra. }
  assert (P : 0 < D / (d * d)) by (apply Rmult_lt_0_compat; [exact D0|apply Rinv_0_lt_compat; apply Rmult_lt_0_compat; exact Hd]).
  split.
  - destruct (ap_track_out a x B Fa Ha Hx Hb' n) as (F & E). split; [exact F|]. eapply Rle_trans; [exact E|]. fold d.
    replace (3 * aerr a B / d) with (3 * (aerr a B / d)) by (unfold Rdiv; ring).
    replace (/ 131072 * D / (d * d)) with (/ 131072 * (D / (d * d))) by (unfold Rdiv; ring).
    replace (32 * / 16777216 * D / (d * d)) with (32 * / 16777216 * (D / (d * d))) in Q by (unfold Rdiv; ring). lra.
  - destruct (pp_run a x B Fa Ha Hx Hb' (S n) n) as (F & M & _); [lia|]. split; [exact F|]. split; [exact M|].
    eapply Rle_trans; [exact (pp_track a x B Fa Ha Hx Hb' n)|]. fold d. 
    replace (/ 131072 * D / (d * d)) with (/ 131072 * (D / (d * d))) by (unfold Rdiv; ring).
    replace (32 * / 16777216 * D / (d * d)) with (32 * / 16777216 * (D / (d * d))) in Q by (unfold Rdiv; ring). lra.
Qed.
Print Assumptions C30_float.
(** hilbert_quadrature in float: for ever finite, both outputs, for samples up to 2^60 in
    magnitude, and at most 2^28 times the largest sample (a crude bound: the fourth filter's
    pole is 0.0025 from the unit circle). *)
Lemma pp_float_bound : forall (a : f32) k g x B, is_finite a = true -> fle (fneg (mk32 k (-24))) a = true -> fle a (mk32 k (-24)) = true ->
  (0 <= k <= 16777216 - 64)%Z -> 5 * 16777216 <= g * (16777216 - IZR k) -> (forall t, is_finite (x t) = true /\ Rabs (B2R (x t)) <= B) ->
  2 * (g * (B + bpow radix2 (-120))) <= bpow radix2 100 ->
  forall n, is_finite (pp_out ops32 (pp_make ops32 a) x n) = true /\ Rabs (B2R (pp_out ops32 (pp_make ops32 a) x n)) <= g * (B + bpow radix2 (-120)).
Proof.
  intros a k g x B F L1 L2 Hk Hg Hx Hb n.
  destruct (mk32_small k (-24) ltac:(change (2 ^ 24)%Z with 16777216%Z; lia) ltac:(lia)) as [E G]. change (bpow radix2 (-24)) with (/ 16777216) in E.
  assert (GN : is_finite (fneg (mk32 k (-24))) = true) by (unfold fneg; rewrite is_finite_Bopp; exact G).
  apply (fle_true _ _ GN F) in L1. apply (fle_true _ _ F G) in L2. unfold fneg in L1. rewrite B2R_Bopp in L1. rewrite E in L1, L2.
  assert (K : 0 <= IZR k <= 16777216 - 64) by (split; [apply IZR_le; lia|]; replace (16777216 - 64) with (IZR (16777216 - 64)) by (rewrite minus_IZR; reflexivity); apply IZR_le; lia).
  assert (A : Rabs (B2R a) <= IZR k / 16777216) by (apply Rabs_le; lra).
  assert (B0 := B0 x B Hx). assert (T := bpow_gt_0 radix2 (-120)). set (D := B + bpow radix2 (-120)) in *. assert (D0 : 0 < D) by (unfold D; lra).
  set (d := 1 - Rabs (B2R a)). assert (Hd : / 262144 <= d) by (unfold d; lra).
  assert (Q : 5 * D / d <= g * D).
  { apply Rmult_le_reg_r with d; [lra|]. unfold Rdiv. rewrite Rmult_assoc, Rinv_l, Rmult_1_r by lra.
    assert (5 <= g * d).
    { assert (0 <= g). { destruct (Rle_or_lt 0 g) as [|C]; [assumption|exfalso]. assert (g * (16777216 - IZR k) <= 0); [|lra]. rewrite <- (Rmult_0_l (16777216 - IZR k)). apply Rmult_le_compat_r; lra. }
      assert (g * (1 - IZR k / 16777216) <= g * d) by (apply Rmult_le_compat_l; unfold d; lra). lra. }
    replace (g * D * d) with (g * d * D) by ring. apply Rmult_le_compat_r; lra. }
  assert (H1 : Rabs (B2R a) <= 1 - bpow radix2 (-18)) by (change (bpow radix2 (-18)) with (/ 262144); unfold d in Hd; lra).
  assert (H2 : 10 * D / d <= bpow radix2 100) by (replace (10 * D / d) with (2 * (5 * D / d)) by (unfold Rdiv; ring); lra).
  destruct (C30_float a x B F H1 Hx H2 n) as [_ Y]. cbn zeta in Y. fold D d in Y. destruct Y as (Y1 & Y2 & _). split; [exact Y1|lra].
Qed.
Theorem C30_hilbert_float :
  forall x B, (forall t, is_finite (x t) = true /\ Rabs (B2R (x t)) <= B) -> B <= bpow radix2 60 ->
  forall n, let (re, im) := hil_out ops32 hil_32 x n in
    is_finite re = true /\ is_finite im = true /\
    Rabs (B2R re) <= bpow radix2 28 * (B + bpow radix2 (-120)) /\ Rabs (B2R im) <= bpow radix2 28 * (B + bpow radix2 (-120)).
Proof.
  intros x B Hx HB n. assert (B0 := B0 x B Hx). assert (T := bpow_gt_0 radix2 (-120)).
  assert (T1 : bpow radix2 (-120) <= 1) by (apply (bpow_le radix2 (-120) 0); lia).
  assert (P : bpow radix2 60 * 1000000000 <= bpow radix2 100).
  { change 100%Z with (60 + 40)%Z. rewrite bpow_plus. apply Rmult_le_compat_l; [apply bpow_ge_0|]. apply (IZR_le 1000000000 1099511627776). lia. }
  assert (P0 : 1 <= bpow radix2 60) by (apply (bpow_le radix2 0 60); lia).
  change (bpow radix2 28) with 268435456. set (t := bpow radix2 (-120)) in *. set (M := bpow radix2 100) in *. set (U := bpow radix2 60) in *.
  rewrite (surjective_pairing (hil_out ops32 hil_32 x n)). unfold hil_32. rewrite hil_fst, hil_snd.
  assert (S1 := pp_float_bound (to32 (dec 47940086558884 14)) 8053064 9.7 x B ltac:(vm_compute; reflexivity) ltac:(vm_compute; reflexivity) ltac:(vm_compute; reflexivity) ltac:(lia) ltac:(lra) Hx ltac:(fold t M; lra)).
  assert (S2 := pp_float_bound (to32 (dec 87621849353931 14)) 14701886 40.5 _ _ ltac:(vm_compute; reflexivity) ltac:(vm_compute; reflexivity) ltac:(vm_compute; reflexivity) ltac:(lia) ltac:(lra) S1 ltac:(fold t M; lra)).
  assert (S3 := pp_float_bound (to32 (dec 976597589508199 15)) 16384630 214 _ _ ltac:(vm_compute; reflexivity) ltac:(vm_compute; reflexivity) ltac:(vm_compute; reflexivity) ltac:(lia) ltac:(lra) S2 ltac:(fold t M; lra)).
  assert (S4 := pp_float_bound (to32 (dec 997499255935549 15)) 16735273 2001 _ _ ltac:(vm_compute; reflexivity) ltac:(vm_compute; reflexivity) ltac:(vm_compute; reflexivity) ltac:(lia) ltac:(lra) S3 ltac:(fold t M; lra)).
  assert (R1 := pp_float_bound (to32 (dec 161758498367701 15)) 2717909 6 x B ltac:(vm_compute; reflexivity) ltac:(vm_compute; reflexivity) ltac:(vm_compute; reflexivity) ltac:(lia) ltac:(lra) Hx ltac:(fold t M; lra)).
  assert (R2 := pp_float_bound (to32 (dec 733028932341491 15)) 12299377 18.8 _ _ ltac:(vm_compute; reflexivity) ltac:(vm_compute; reflexivity) ltac:(vm_compute; reflexivity) ltac:(lia) ltac:(lra) R1 ltac:(fold t M; lra)).
  assert (R3 := pp_float_bound (to32 (dec 945349700329113 15)) 15861180 92 _ _ ltac:(vm_compute; reflexivity) ltac:(vm_compute; reflexivity) ltac:(vm_compute; reflexivity) ltac:(lia) ltac:(lra) R2 ltac:(fold t M; lra)).
  assert (R4 := pp_float_bound (to32 (dec 990599156684529 15)) 16619510 534 _ _ ltac:(vm_compute; reflexivity) ltac:(vm_compute; reflexivity) ltac:(vm_compute; reflexivity) ltac:(lia) ltac:(lra) R3 ltac:(fold t M; lra)).
  fold t in S4, R4. destruct (R4 n) as [R4f R4b]. clear - S4 R4f R4b B0 T. split; [|split; [exact R4f|split; [|lra]]].
  - destruct n as [|m]; [reflexivity|apply S4].
  - destruct n as [|m]; [change (B2R (zro ops32)) with 0; rewrite Rabs_R0; lra|]. destruct (S4 m) as [_ S]. lra.
Qed.
Print Assumptions C30_hilbert_float.
Example C30_hilbert_float_ex : exists x, (forall t : nat, is_finite (x t : f32) = true /\ Rabs (B2R (x t)) <= 1) /\ B2R (x 0%nat) = 1.
Proof.
  destruct (mk32_small 1 0 ltac:(lia) ltac:(lia)) as [E F]. cbn [bpow] in E. rewrite Rmult_1_l in E.
  exists (fun _ => mk32 1 0). rewrite E. split; [intros _; split; [exact F|rewrite Rabs_R1; lra]|reflexivity].
Qed.
Example C30_pivot_ex : response (ap_out opsR (ap_pole 1000 44100) 0) (omega 1000 44100) 1 (- (PI / 2)).
Proof. apply C30_pivot; lra. Qed.
