From Verif Require Import Common CommonFacts Phase_Model.
Open Scope N_scope.

Lemma W32_val : W32 = 4294967296. Proof. reflexivity. Qed.

Definition valid_it (i : phase_iter) : Prop := pi_phase i < W32 /\ pi_incr i < W32.

Lemma incr_inc i n : pi_incr (Nat.iter n pi_inc i) = pi_incr i.
Proof. induction n; [reflexivity|exact IHn]. Qed.
Lemma incr_dec i n : pi_incr (Nat.iter n pi_dec i) = pi_incr i.
Proof. induction n; [reflexivity|exact IHn]. Qed.

Lemma phase_n i n : valid_it i ->
  pi_phase (Nat.iter n pi_inc i) = (pi_phase i + N.of_nat n * pi_incr i) mod W32.
Proof.
  intros [V1 V2]. induction n as [|n IH].
  - cbn [Nat.iter nat_rect]. rewrite N.mul_0_l, N.add_0_r, N.mod_small; auto.
  - change (Nat.iter (S n) pi_inc i) with (pi_inc (Nat.iter n pi_inc i)).
    unfold pi_inc at 1; cbn [pi_phase]. rewrite incr_inc, IH. unfold add32.
    rewrite N.add_mod_idemp_l by discriminate. f_equal. lia.
Qed.

Lemma inc_dec i : valid_it i -> pi_dec (pi_inc i) = i /\ pi_inc (pi_dec i) = i.
Proof.
  intros [V1 V2]. destruct i as [p d]; cbn [pi_phase pi_incr] in *. unfold pi_dec, pi_inc, add32, sub32; cbn [pi_phase pi_incr].
  rewrite W32_val in *. split; f_equal; lia.
Qed.

Lemma wrap_step p d : p < W32 -> d < W32 -> (p + d) / W32 = if (W32 <=? p + d) then 1 else 0.
Proof.
  intros. rewrite W32_val in *. destruct (N.leb_spec 4294967296 (p + d)); lia.
Qed.

Lemma cycles_S i n : valid_it i ->
  (pi_phase i + N.of_nat (S n) * pi_incr i) / W32 =
  (pi_phase i + N.of_nat n * pi_incr i) / W32 +
  (if W32 <=? pi_phase (Nat.iter n pi_inc i) + pi_incr i then 1 else 0).
Proof.
  intros V. rewrite (phase_n i n V). destruct V as [V1 V2].
  rewrite <- wrap_step by (auto; apply N.mod_lt; discriminate).
  set (a := pi_phase i + N.of_nat n * pi_incr i).
  replace (pi_phase i + N.of_nat (S n) * pi_incr i) with (a + pi_incr i) by (unfold a; lia).
  rewrite (N.div_mod a W32) at 1 by discriminate.
  replace (W32 * (a / W32) + a mod W32 + pi_incr i) with (a / W32 * W32 + (a mod W32 + pi_incr i)) by lia.
  rewrite N.div_add_l by discriminate. reflexivity.
Qed.

Lemma first_aux p d : p < W32 -> d < W32 -> ((p + d) mod W32 <? d) = (W32 <=? p + d).
Proof.
  intros B V. rewrite W32_val in *. destruct (N.leb_spec 4294967296 (p + d)) as [H|H].
  - apply N.ltb_lt. replace (p + d) with ((p + d - 4294967296) + 1 * 4294967296) by lia.
    rewrite N.mod_add by discriminate. rewrite N.mod_small by lia. lia.
  - apply N.ltb_ge. rewrite N.mod_small by exact H. lia.
Qed.
Lemma first_wrapped i n : valid_it i ->
  pi_first (Nat.iter (S n) pi_inc i) = (W32 <=? pi_phase (Nat.iter n pi_inc i) + pi_incr i).
Proof.
  intros V. change (Nat.iter (S n) pi_inc i) with (pi_inc (Nat.iter n pi_inc i)).
  assert (B : pi_phase (Nat.iter n pi_inc i) < W32).
  { rewrite (phase_n i n V). apply N.mod_lt. discriminate. }
  destruct V as [V1 V2]. unfold pi_first.
  change (pi_incr (pi_inc (Nat.iter n pi_inc i))) with (pi_incr (Nat.iter n pi_inc i)).
  change (pi_phase (pi_inc (Nat.iter n pi_inc i))) with (add32 (pi_phase (Nat.iter n pi_inc i)) (pi_incr (Nat.iter n pi_inc i))).
  rewrite !incr_inc. unfold add32.
  revert B. generalize (pi_phase (Nat.iter n pi_inc i)). intros p B. apply first_aux; assumption.
Qed.

Lemma last_wraps i : valid_it i -> pi_last i = (W32 <=? pi_phase i + pi_incr i).
Proof.
  intros [V1 V2]. unfold pi_last, sub32, ph_end, one_cyc. rewrite W32_val in *. lia.
Qed.

Lemma count_first i n : valid_it i ->
  N.of_nat (length (filter (fun k => pi_first (Nat.iter k pi_inc i)) (seq 1 n))) =
  (pi_phase i + N.of_nat n * pi_incr i) / W32.
Proof.
  intros V. induction n as [|n IH].
  - cbn [seq filter length]. destruct V as [V1 V2]. rewrite N.mul_0_l, N.add_0_r, N.div_small; auto.
  - rewrite seq_S, filter_app, app_length, Nat2N.inj_add, IH, (cycles_S i n V). f_equal.
    cbn [filter Nat.add]. rewrite (first_wrapped i n V).
    destruct (W32 <=? pi_phase (Nat.iter n pi_inc i) + pi_incr i); reflexivity.
Qed.

(** one-shot *)
Lemma lor_ones a : a < W32 -> N.lor a (W32 - 1) = W32 - 1.
Proof.
  intros H. change (W32 - 1) with (N.ones 32). apply N.bits_inj. intros k.
  rewrite N.lor_spec. destruct (N.ltb_spec k 32).
  - rewrite N.ones_spec_low by lia. apply orb_true_r.
  - rewrite N.ones_spec_high by lia. rewrite orb_false_r.
    rewrite <- (N.mod_small a (2 ^ 32)) by exact H. apply N.mod_pow2_bits_high. lia.
Qed.
Lemma land_ones_small a : a < W32 -> N.land a (W32 - 1) = a.
Proof. intros H. change (W32 - 1) with (N.ones 32). rewrite N.land_ones. apply N.mod_small. exact H. Qed.

Lemma os_inc_min i : valid_it i ->
  os_inc i = mkPI (N.min (pi_phase i + pi_incr i) ph_end) (pi_incr i).
Proof.
  intros [V1 V2]. unfold os_inc. f_equal.
  assert (B : add32 (pi_phase i) (pi_incr i) < W32) by (apply N.mod_lt; discriminate).
  unfold neg_bool32. destruct (N.ltb_spec (add32 (pi_phase i) (pi_incr i)) (pi_phase i)) as [H|H].
  - rewrite lor_ones by exact B. unfold add32, ph_end, one_cyc in *. rewrite W32_val in *. lia.
  - rewrite N.lor_0_r. unfold add32, ph_end, one_cyc in *. rewrite W32_val in *. lia.
Qed.
Lemma os_dec_max i : valid_it i ->
  os_dec i = mkPI (pi_phase i - pi_incr i) (pi_incr i).
Proof.
  intros [V1 V2]. unfold os_dec. f_equal.
  assert (B : sub32 (pi_phase i) (pi_incr i) < W32) by (apply N.mod_lt; discriminate).
  unfold neg_bool32. destruct (N.leb_spec (sub32 (pi_phase i) (pi_incr i)) (pi_phase i)) as [H|H].
  - rewrite land_ones_small by exact B. unfold sub32 in *. rewrite W32_val in *. lia.
  - rewrite N.land_0_r. unfold sub32 in *. rewrite W32_val in *. lia.
Qed.

Lemma os_inc_n i n : valid_it i ->
  Nat.iter n os_inc i = mkPI (N.min (pi_phase i + N.of_nat n * pi_incr i) ph_end) (pi_incr i).
Proof.
  intros [V1 V2]. induction n as [|n IH].
  - destruct i as [p d]; cbn [Nat.iter nat_rect pi_phase pi_incr] in *. f_equal.
    unfold ph_end, one_cyc. rewrite W32_val in *. lia.
  - change (Nat.iter (S n) os_inc i) with (os_inc (Nat.iter n os_inc i)). rewrite IH.
    rewrite os_inc_min; cbn [pi_phase pi_incr].
    + f_equal. unfold ph_end, one_cyc. rewrite W32_val in *. lia.
    + split; cbn [pi_phase pi_incr]; auto. unfold ph_end, one_cyc. rewrite W32_val in *. lia.
Qed.
Lemma os_dec_n i n : valid_it i ->
  Nat.iter n os_dec i = mkPI (pi_phase i - N.of_nat n * pi_incr i) (pi_incr i).
Proof.
  intros [V1 V2]. induction n as [|n IH].
  - destruct i as [p d]; cbn [Nat.iter nat_rect pi_phase pi_incr] in *. f_equal. lia.
  - change (Nat.iter (S n) os_dec i) with (os_dec (Nat.iter n os_dec i)). rewrite IH.
    rewrite os_dec_max; cbn [pi_phase pi_incr].
    + f_equal. lia.
    + split; cbn [pi_phase pi_incr]; auto. rewrite W32_val in *. lia.
Qed.
