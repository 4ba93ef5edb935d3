(** Second-order linear recurrences over the reals: factoring into two complex first-order ones,
    bounds and decay.  Complex numbers are pairs. *)
From Coq Require Import Reals Lra Lia.
Local Open Scope R_scope.

Definition nrm (z : R * R) : R := sqrt (fst z * fst z + snd z * snd z).
Definition cadd (z w : R * R) : R * R := (fst z + fst w, snd z + snd w).
Definition cmul (z w : R * R) : R * R := (fst z * fst w - snd z * snd w, fst z * snd w + snd z * fst w).
Definition csub (z w : R * R) : R * R := (fst z - fst w, snd z - snd w).
Lemma sq_nonneg x : 0 <= x * x. Proof. exact (Rle_0_sqr x). Qed.
Lemma nrm_nonneg z : 0 <= nrm z. Proof. apply sqrt_pos. Qed.
Lemma nrm_sq z : nrm z * nrm z = fst z * fst z + snd z * snd z.
Proof. apply sqrt_sqrt. generalize (sq_nonneg (fst z)) (sq_nonneg (snd z)). lra. Qed.
Lemma le_sq a b : 0 <= b -> a * a <= b * b -> a <= b.
Proof. intros Hb H. destruct (Rle_or_lt a b) as [|L]; [assumption|]. exfalso. assert (b * b < a * a); [|lra]. apply Rmult_le_0_lt_compat; lra. Qed.
Lemma sq_le a b : 0 <= a -> a <= b -> a * a <= b * b. Proof. intros. apply Rmult_le_compat; lra. Qed.
Lemma nrm_mul z w : nrm (cmul z w) = nrm z * nrm w.
Proof.
  unfold nrm. rewrite <- sqrt_mult by (generalize (sq_nonneg (fst z)) (sq_nonneg (snd z)) (sq_nonneg (fst w)) (sq_nonneg (snd w)); lra).
  f_equal. unfold cmul. cbn [fst snd]. ring.
Qed.
Lemma nrm_tri z w : nrm (cadd z w) <= nrm z + nrm w.
Proof.
  apply le_sq; [generalize (nrm_nonneg z) (nrm_nonneg w); lra|].
  rewrite nrm_sq. replace ((nrm z + nrm w) * (nrm z + nrm w)) with (nrm z * nrm z + nrm w * nrm w + 2 * (nrm z * nrm w)) by ring.
  rewrite 2 nrm_sq. unfold cadd. cbn [fst snd]. destruct z as (a, b), w as (c, d). cbn [fst snd] in *.
  assert (a * c + b * d <= nrm (a, b) * nrm (c, d)); [|lra].
  apply le_sq; [apply Rmult_le_pos; apply nrm_nonneg|].
  replace (nrm (a, b) * nrm (c, d) * (nrm (a, b) * nrm (c, d))) with ((nrm (a, b) * nrm (a, b)) * (nrm (c, d) * nrm (c, d))) by ring.
  rewrite 2 nrm_sq. cbn [fst snd]. generalize (sq_nonneg (a * d - b * c)). lra.
Qed.
Lemma nrm_real x : nrm (x, 0) = Rabs x.
Proof. unfold nrm. cbn [fst snd]. replace (x * x + 0 * 0) with (x²) by (unfold Rsqr; ring). apply sqrt_Rsqr_abs. Qed.
Lemma nrm_le z r : 0 <= r -> fst z * fst z + snd z * snd z <= r * r -> nrm z <= r.
Proof. intros Hr H. apply le_sq; [exact Hr|]. rewrite nrm_sq. exact H. Qed.

(** all roots of z^2 + a3 z + a4 lie in the disc of radius r *)
Definition in_radius (r a3 a4 : R) : Prop := 0 < r /\ Rabs a4 <= r * r /\ Rabs a3 * r <= r * r + a4.

Lemma factor r a3 a4 : in_radius r a3 a4 ->
  exists p q, cadd p q = (- a3, 0) /\ cmul p q = (a4, 0) /\ nrm p <= r /\ nrm q <= r.
Proof.
  intros (Hr & H4 & H3). assert (A4 : - (r * r) <= a4 <= r * r) by (revert H4; unfold Rabs; destruct Rcase_abs; lra).
  assert (A3 : Rabs a3 <= 2 * r) by (apply Rmult_le_reg_r with r; [exact Hr|]; lra).
  set (d := a3 * a3 - 4 * a4).
  destruct (Rle_or_lt 0 d) as [Hd|Hd].
  - set (s := sqrt d). assert (Ss : s * s = d) by (apply sqrt_sqrt; exact Hd). assert (S0 : 0 <= s) by apply sqrt_pos.
    assert (Ls : s <= 2 * r - Rabs a3).
    { apply le_sq; [lra|]. rewrite Ss. unfold d. assert (Rabs a3 * Rabs a3 = a3 * a3) by (unfold Rabs; destruct Rcase_abs; ring).
      replace ((2 * r - Rabs a3) * (2 * r - Rabs a3)) with (4 * (r * r) - 4 * (Rabs a3 * r) + Rabs a3 * Rabs a3) by ring. lra. }
    exists ((- a3 + s) / 2, 0), ((- a3 - s) / 2, 0). unfold cadd, cmul. cbn [fst snd]. rewrite 2 nrm_real.
    repeat split; try (f_equal; try field; try ring).
    + replace ((- a3 + s) / 2 * ((- a3 - s) / 2) - 0 * 0) with ((a3 * a3 - s * s) / 4) by field. rewrite Ss. unfold d. field.
    + revert Ls; unfold Rabs; repeat destruct Rcase_abs; lra.
    + revert Ls; unfold Rabs; repeat destruct Rcase_abs; lra.
  - set (s := sqrt (- d)). assert (Ss : s * s = - d) by (apply sqrt_sqrt; lra).
    assert (N : forall v, v * v = s * s -> nrm (- a3 / 2, v / 2) <= r).
    { intros v Hv. apply nrm_le; [lra|]. cbn [fst snd]. replace (- a3 / 2 * (- a3 / 2) + v / 2 * (v / 2)) with ((a3 * a3 + v * v) / 4) by field.
      rewrite Hv, Ss. unfold d. lra. }
    exists (- a3 / 2, s / 2), (- a3 / 2, - s / 2). unfold cadd, cmul. cbn [fst snd].
    repeat split; try (f_equal; try field; try ring).
    + replace (- a3 / 2 * (- a3 / 2) - s / 2 * (- s / 2)) with ((a3 * a3 + s * s) / 4) by field. rewrite Ss. unfold d. field.
    + apply N. reflexivity.
    + apply N. ring.
Qed.

(** one complex pole *)
Lemma first_bound (q : R * R) (e w : nat -> R * R) r B n : nrm q <= r -> 0 <= r < 1 -> 0 <= B ->
  (forall t, (t < n)%nat -> e (S t) = cadd (cmul q (e t)) (w t) /\ nrm (w t) <= B) ->
  forall t, (t <= n)%nat -> nrm (e t) <= nrm (e 0%nat) + B / (1 - r).
Proof.
  intros Hq Hr HB H. induction t as [|t IH]; intros Ht.
  - assert (0 <= B / (1 - r)) by (apply Rmult_le_pos; [lra|left; apply Rinv_0_lt_compat; lra]). lra.
  - destruct (H t) as (E & W); [lia|]. rewrite E. eapply Rle_trans; [apply nrm_tri|]. rewrite nrm_mul.
    assert (I := IH ltac:(lia)). assert (N0 := nrm_nonneg (e 0%nat)).
    assert (X : nrm q * nrm (e t) <= r * (nrm (e 0%nat) + B / (1 - r))) by (apply Rmult_le_compat; [apply nrm_nonneg|apply nrm_nonneg|exact Hq|exact I]).
    assert (Y : B = (1 - r) * (B / (1 - r))) by (field; lra). set (D := B / (1 - r)) in *.
    assert (0 <= (1 - r) * nrm (e 0%nat)) by (apply Rmult_le_pos; lra). lra.
Qed.
Lemma first_decay (q : R * R) (e : nat -> R * R) r : nrm q <= r ->
  (forall t, e (S t) = cmul q (e t)) -> forall t, nrm (e t) <= nrm (e 0%nat) * r ^ t.
Proof.
  intros Hq H. induction t as [|t IH]; [cbn; lra|]. rewrite H, nrm_mul.
  replace (nrm (e 0%nat) * r ^ S t) with (r * (nrm (e 0%nat) * r ^ t)) by (cbn [pow]; ring).
  apply Rmult_le_compat; [apply nrm_nonneg|apply nrm_nonneg|exact Hq|exact IH].
Qed.

Section Second.
Variables (r a3 a4 : R) (Y : nat -> R).
Hypothesis (Hr : in_radius r a3 a4) (Hr1 : r < 1).
Local Notation one_step t w := (Y (S (S t)) = w - a3 * Y (S t) - a4 * Y t).

Lemma stage p q (w : R) t : cadd p q = (- a3, 0) -> cmul p q = (a4, 0) -> one_step t w ->
  csub (Y (S (S t)), 0) (cmul p (Y (S t), 0)) = cadd (cmul q (csub (Y (S t), 0) (cmul p (Y t, 0)))) (w, 0).
Proof.
  destruct p as (p1, p2), q as (q1, q2). unfold cadd, cmul, csub. cbn [fst snd]. intros E1 E2 ->.
  injection E1 as E1 E1'. injection E2 as E2 E2'. f_equal.
  - replace a3 with (- (p1 + q1)) by lra. rewrite <- E2. ring.
  - replace q2 with (- p2) in * by lra. assert (p1 * p2 = q1 * p2 ) by lra.
    assert (p2 * (p1 - q1) = 0) by lra. replace (0 - (p1 * 0 + p2 * Y (S t))) with (- p2 * Y (S t)) by ring. 
    replace (p1 * - p2 + p2 * q1) with 0 in * by lra.
    transitivity (- p2 * Y (S t) + (p1 * p2 - q1 * p2) * Y t); [replace (p1 * p2 - q1 * p2) with 0 by lra; ring|]. ring_simplify.
    replace (q1 * p2) with (p1 * p2) by lra. ring.
Qed.
Lemma peel p t : Rabs (Y (S t)) <= nrm p * Rabs (Y t) + nrm (csub (Y (S t), 0) (cmul p (Y t, 0))).
Proof.
  rewrite <- 2 nrm_real, <- nrm_mul. eapply Rle_trans; [|apply nrm_tri]. right. f_equal.
  unfold cadd, csub. cbn [fst snd]. f_equal; ring.
Qed.
Lemma start p : nrm p <= r -> nrm (csub (Y 1, 0) (cmul p (Y 0, 0))) <= Rabs (Y 1%nat) + r * Rabs (Y 0%nat).
Proof.
  intros Hp. replace (csub (Y 1, 0) (cmul p (Y 0, 0))) with (cadd (Y 1%nat, 0) (cmul p (- Y 0%nat, 0))).
  - eapply Rle_trans; [apply nrm_tri|]. rewrite nrm_mul, 2 nrm_real, Rabs_Ropp.
    apply Rplus_le_compat_l. apply Rmult_le_compat_r; [apply Rabs_pos|exact Hp].
  - unfold cadd, csub, cmul. cbn [fst snd]. f_equal; ring.
Qed.
Lemma second_bound B n : 0 <= B -> (forall t, (t < n)%nat -> exists w, one_step t w /\ Rabs w <= B) ->
  forall t, (t <= S n)%nat -> Rabs (Y t) <= Rabs (Y 0%nat) + (Rabs (Y 1%nat) + r * Rabs (Y 0%nat) + B / (1 - r)) / (1 - r).
Proof.
  intros HB H. destruct (factor _ _ _ Hr) as (p & q & E1 & E2 & Hp & Hq). destruct Hr as (R0 & _).
  set (e := fun t => csub (Y (S t), 0) (cmul p (Y t, 0))).
  set (W := fun t => Y (S (S t)) + a3 * Y (S t) + a4 * Y t).
  assert (F : forall t, (t <= n)%nat -> nrm (e t) <= nrm (e 0%nat) + B / (1 - r)).
  { apply (first_bound q e (fun t => (W t, 0)) r B n); [exact Hq|lra|exact HB|].
    intros t Ht. destruct (H t Ht) as (w & Hw & Bw). assert (Ew : W t = w) by (unfold W; rewrite Hw; ring).
    split; [apply stage; try assumption; rewrite Ew; exact Hw|]. rewrite nrm_real, Ew. exact Bw. }
  assert (S0 := start p Hp). fold (e 0%nat) in S0.
  set (M := Rabs (Y 1%nat) + r * Rabs (Y 0%nat) + B / (1 - r)) in *.
  assert (D0 : 0 <= B / (1 - r)) by (apply Rmult_le_pos; [lra|left; apply Rinv_0_lt_compat; lra]).
  assert (M0 : 0 <= M). { unfold M. generalize (Rabs_pos (Y 1%nat)). assert (0 <= r * Rabs (Y 0%nat)) by (apply Rmult_le_pos; [lra|apply Rabs_pos]). lra. }
  assert (M1 : M = (1 - r) * (M / (1 - r))) by (field; lra). set (V := M / (1 - r)) in *.
  assert (V0 : 0 <= V) by (apply Rmult_le_pos; [lra|left; apply Rinv_0_lt_compat; lra]).
  induction t as [|t IH]; intros Ht; [lra|].
  eapply Rle_trans; [apply (peel p)|]. assert (I := IH ltac:(lia)). assert (G := F t ltac:(lia)). fold (e t).
  assert (nrm p * Rabs (Y t) <= r * (Rabs (Y 0%nat) + V)) by (apply Rmult_le_compat; [apply nrm_nonneg|apply Rabs_pos|exact Hp|exact I]).
  assert (0 <= (1 - r) * Rabs (Y 0%nat)) by (apply Rmult_le_pos; [lra|apply Rabs_pos]).
  assert (nrm (e t) <= M) by (unfold M; lra). lra.
Qed.

Lemma second_decay : (forall t, one_step t 0) ->
  exists C rho, 0 <= rho < 1 /\ forall t, Rabs (Y t) <= C * rho ^ t.
Proof.
  intros H. destruct (factor _ _ _ Hr) as (p & q & E1 & E2 & Hp & Hq). destruct Hr as (R0 & _).
  set (e := fun t => csub (Y (S t), 0) (cmul p (Y t, 0))).
  assert (F : forall t, nrm (e t) <= nrm (e 0%nat) * r ^ t).
  { apply (first_decay q); [exact Hq|]. intros t. unfold e. rewrite (stage p q 0 t E1 E2 (H t)).
    unfold cadd. cbn [fst snd]. rewrite 2 Rplus_0_r. symmetry. apply surjective_pairing. }
  set (s := (1 + r) / 2). set (E := nrm (e 0%nat)) in *. assert (E0 : 0 <= E) by apply nrm_nonneg.
  set (C := Rabs (Y 0%nat) + E / (s - r)). assert (Sr : r < s < 1) by (unfold s; lra).
  assert (Q : E = (s - r) * (E / (s - r))) by (field; lra).
  assert (Q0 : 0 <= E / (s - r)) by (apply Rmult_le_pos; [lra|left; apply Rinv_0_lt_compat; lra]).
  assert (C0 : 0 <= C) by (unfold C; generalize (Rabs_pos (Y 0%nat)); lra).
  exists C, s. split; [lra|]. induction t as [|t IH]; [cbn [pow]; unfold C; lra|].
  eapply Rle_trans; [apply (peel p)|]. fold (e t).
  assert (A : nrm p * Rabs (Y t) <= r * (C * s ^ t)) by (apply Rmult_le_compat; [apply nrm_nonneg|apply Rabs_pos|exact Hp|exact IH]).
  assert (B : nrm (e t) <= E * s ^ t).
  { eapply Rle_trans; [apply F|]. apply Rmult_le_compat_l; [exact E0|]. apply pow_incr. lra. }
  assert (P : 0 <= s ^ t) by (apply pow_le; lra).
  assert (X : E <= (s - r) * C). { unfold C. rewrite Q at 1. apply Rmult_le_compat_l; [lra|]. generalize (Rabs_pos (Y 0%nat)). lra. }
  assert (Z : E * s ^ t <= (s - r) * C * s ^ t) by (apply Rmult_le_compat_r; assumption).
  replace (C * s ^ S t) with (r * (C * s ^ t) + (s - r) * C * s ^ t) by (cbn [pow]; ring). lra.
Qed.
End Second.

Lemma decay_small C rho : 0 <= rho < 1 -> forall eps, 0 < eps -> exists n, forall t, (n <= t)%nat -> C * rho ^ t < eps.
Proof.
  intros Hr eps He. destruct (Rle_or_lt C 0) as [Hc|Hc].
  - exists 0%nat. intros t _. assert (0 <= rho ^ t) by (apply pow_le; lra). assert (0 <= (- C) * rho ^ t) by (apply Rmult_le_pos; lra). lra.
  - destruct (pow_lt_1_zero rho) with (y := eps / C) as (n & Hn).
    + rewrite Rabs_pos_eq; lra.
    + apply Rmult_lt_0_compat; [lra|apply Rinv_0_lt_compat; lra].
    + exists n. intros t Ht. specialize (Hn t Ht). rewrite Rabs_pos_eq in Hn by (apply pow_le; lra).
      apply Rmult_lt_compat_l with (r := C) in Hn; [|exact Hc]. replace (C * (eps / C)) with eps in Hn by (field; lra). exact Hn.
Qed.

(** the open stability triangle is the same as all roots strictly inside the unit circle *)
Definition triangle (a3 a4 : R) : Prop := Rabs a4 < 1 /\ Rabs a3 < 1 + a4.
Lemma triangle_radius a3 a4 : triangle a3 a4 -> exists r, in_radius r a3 a4 /\ r < 1.
Proof.
  intros (H4 & H3). set (h := Rmin (1 + a4 - Rabs a3) (1 - Rabs a4) / 2).
  assert (L1 := Rmin_l (1 + a4 - Rabs a3) (1 - Rabs a4)). assert (L2 := Rmin_r (1 + a4 - Rabs a3) (1 - Rabs a4)).
  assert (L3 : 0 < Rmin (1 + a4 - Rabs a3) (1 - Rabs a4)) by (apply Rmin_glb_lt; lra).
  set (m := Rmin _ _) in *. assert (Hm : m <= 1) by (generalize (Rabs_pos a4); lra).
  assert (H0 := sq_nonneg h). assert (Hh : 0 < h <= 1 / 2) by (unfold h; lra).
  exists (1 - h). split; [|lra]. split; [lra|]. split.
  - replace ((1 - h) * (1 - h)) with (1 - 2 * h + h * h) by ring. replace (2 * h) with m by (unfold h; field). lra.
  - replace ((1 - h) * (1 - h)) with (1 - 2 * h + h * h) by ring. replace (2 * h) with m by (unfold h; field).
    assert (0 <= Rabs a3 * h) by (apply Rmult_le_pos; [apply Rabs_pos|lra]).
    replace (Rabs a3 * (1 - h)) with (Rabs a3 - Rabs a3 * h) by ring. 
    lra.
Qed.
Lemma radius_roots r a3 a4 : in_radius r a3 a4 -> forall u v, u * u - v * v + a3 * u + a4 = 0 -> 2 * u * v + a3 * v = 0 -> nrm (u, v) <= r.
Proof.
  intros Hr u v E1 E2. assert (Hr' := Hr). destruct (factor _ _ _ Hr) as ((p1, p2) & (q1, q2) & F1 & F2 & Hp & Hq). destruct Hr' as (R0 & _).
  unfold cadd, cmul in F1, F2. cbn [fst snd] in F1, F2. injection F1 as F1 F1'. injection F2 as F2 F2'.
  assert (Z : nrm (cmul (csub (u, v) (p1, p2)) (csub (u, v) (q1, q2))) = 0).
  { unfold nrm, cmul, csub. cbn [fst snd].
    replace ((u - p1) * (u - q1) - (v - p2) * (v - q2)) with (u * u - v * v - (p1 + q1) * u + (p2 + q2) * v + (p1 * q1 - p2 * q2)) by ring.
    replace ((u - p1) * (v - q2) + (v - p2) * (u - q1)) with (2 * u * v - (p1 + q1) * v - (p2 + q2) * u + (p1 * q2 + p2 * q1)) by ring.
    rewrite F1, F1', F2, F2'. replace (u * u - v * v - - a3 * u + 0 * v + a4) with 0 by lra.
    replace (2 * u * v - - a3 * v - 0 * u + 0) with 0 by lra. rewrite Rmult_0_l, Rplus_0_l. apply sqrt_0. }
  rewrite nrm_mul in Z. apply Rmult_integral in Z.
  assert (X : forall z w, nrm (csub z w) = 0 -> nrm w <= r -> nrm z <= r).
  { intros z w H H'. replace z with (cadd (csub z w) w) by (destruct z, w; unfold cadd, csub; cbn [fst snd]; f_equal; ring).
    eapply Rle_trans; [apply nrm_tri|]. lra. }
  destruct Z as [Z|Z]; eapply X; eassumption.
Qed.
