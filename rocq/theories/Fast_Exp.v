(** The truncated exponential series, exactly and in float arithmetic. *)
From Coq Require Import ZArith Reals Lra Lia List Bool.
From Flocq Require Import Core.Core IEEE754.BinarySingleNaN.
From Verif Require Import Common Float FloatFacts FloatLerp Fast_Model Expo.
Import ListNotations.
Local Open Scope R_scope.
Local Notation fin x := (is_finite x = true).
Local Notation v x := (B2R x).
Local Notation rn := (rnd 24 128).

(** sum of x^k / k! for k < n *)
Fixpoint series (n : nat) (x : R) : R := match n with O => 0 | S m => series m x + x ^ m / INR (fact m) end.
Lemma d_series n x : derivable_pt_lim (series (S n)) x (series n x).
Proof.
  induction n.
  - apply (d_eq _ _ 0); [|reflexivity]. apply (derivable_pt_lim_ext (fun _ => 1)); [intros; cbn; field|apply d_const].
  - apply (derivable_pt_lim_ext (fun x => series (S n) x + / INR (fact (S n)) * x ^ S n)); [intros t; change (series (S (S n)) t) with (series (S n) t + t ^ S n / INR (fact (S n))); unfold Rdiv; ring|].
    eapply d_eq; [apply d_plus; [exact IHn|apply d_scal, d_pow]|]. change (series (S n) x) with (series n x + x ^ n / INR (fact n)).
    rewrite fact_simpl, mult_INR. assert (INR (fact n) <> 0) by apply INR_fact_neq_0. assert (INR (S n) <> 0) by (apply not_0_INR; lia). field. split; assumption.
Qed.
Lemma series_0 n : series (S n) 0 = 1.
Proof. induction n; [cbn; field|]. change (series (S (S n)) 0) with (series (S n) 0 + 0 ^ S n / INR (fact (S n))). rewrite IHn, pow_i by lia. unfold Rdiv. ring. Qed.
Lemma pos_local f f' b : (forall x, derivable_pt_lim f x (f' x)) -> f 0 = 0 ->
  (forall x, 0 <= x <= b -> 0 <= f' x) -> forall x, 0 <= x <= b -> 0 <= f x.
Proof.
  intros D Z P x Hx. destruct (Req_dec x 0) as [->|N]; [lra|].
  destruct (MVT_cor2 f f' 0 x) as (c & E & Hc); [lra|intros c _; apply D|].
  rewrite Z, !Rminus_0_r in E. rewrite E. apply Rmult_le_pos; [apply P; lra|lra].
Qed.
Lemma d_monomial n x : derivable_pt_lim (fun x => x ^ S n / INR (fact (S n))) x (x ^ n / INR (fact n)).
Proof.
  apply (derivable_pt_lim_ext (fun x => / INR (fact (S n)) * x ^ S n)); [intros; unfold Rdiv; ring|]. eapply d_eq; [apply d_scal, d_pow|].
  rewrite fact_simpl, mult_INR. assert (INR (fact n) <> 0) by apply INR_fact_neq_0. assert (INR (S n) <> 0) by (apply not_0_INR; lia). field. split; assumption.
Qed.
Lemma rem_pos n : forall x, 0 <= x <= 1 -> 0 <= exp x - series n x <= 3 * (x ^ n / INR (fact n)).
Proof.
  induction n; intros x Hx.
  - cbn. pose proof (exp_pos x). assert (exp x <= 3); [|lra]. apply Rle_trans with (exp 1); [|apply exp_le_3].
    destruct (Req_dec x 1) as [->|N]; [lra|left; apply exp_increasing; lra].
  - assert (A : 0 <= exp x - series (S n) x).
    { apply (pos_local (fun x => exp x - series (S n) x) (fun x => exp x - series n x) 1); [|rewrite exp_0, series_0; ring|intros y Hy; apply IHn; exact Hy|exact Hx].
      intros y. apply d_minus; [apply derivable_pt_lim_exp|apply d_series]. }
    assert (B : 0 <= 3 * (x ^ S n / INR (fact (S n))) - (exp x - series (S n) x)).
    { apply (pos_local (fun x => 3 * (x ^ S n / INR (fact (S n))) - (exp x - series (S n) x)) (fun x => 3 * (x ^ n / INR (fact n)) - (exp x - series n x)) 1); [| |intros y Hy; destruct (IHn y Hy); lra|exact Hx].
      - intros y. apply d_minus; [apply d_scal, d_monomial|apply d_minus; [apply derivable_pt_lim_exp|apply d_series]].
      - rewrite exp_0, series_0, pow_i by lia. unfold Rdiv. ring. }
    lra.
Qed.
Lemma rem_neg n : forall x, 0 <= x <= 1 -> 0 <= (-1) ^ n * (exp (- x) - series n (- x)) <= x ^ n / INR (fact n).
Proof.
  induction n; intros x Hx.
  - cbn. pose proof (exp_pos (- x)). assert (exp (- x) <= 1); [|lra]. pose proof (e0 x ltac:(lra)). lra.
  - assert (D : forall y, derivable_pt_lim (fun x => (-1) ^ S n * (exp (- x) - series (S n) (- x))) y ((-1) ^ n * (exp (- y) - series n (- y)))).
    { intros y. eapply d_eq; [apply d_scal, d_minus; [apply d_expn|]|].
      - apply (derivable_pt_lim_comp Ropp (series (S n)) y (-1) (series n (- y))); [|apply d_series].
        apply (derivable_pt_lim_ext (fun x => 0 - x)); [intros; ring|]. eapply d_eq; [apply d_minus; [apply d_const|apply derivable_pt_lim_id]|ring].
      - cbn [pow]. ring. }
    assert (A : 0 <= (-1) ^ S n * (exp (- x) - series (S n) (- x))).
    { apply (pos_local (fun x => (-1) ^ S n * (exp (- x) - series (S n) (- x))) (fun x => (-1) ^ n * (exp (- x) - series n (- x))) 1); [exact D|rewrite Ropp_0, exp_0, series_0; ring|intros y Hy; apply IHn; exact Hy|exact Hx]. }
    assert (B : 0 <= x ^ S n / INR (fact (S n)) - (-1) ^ S n * (exp (- x) - series (S n) (- x))).
    { apply (pos_local (fun x => x ^ S n / INR (fact (S n)) - (-1) ^ S n * (exp (- x) - series (S n) (- x))) (fun x => x ^ n / INR (fact n) - (-1) ^ n * (exp (- x) - series n (- x))) 1); [| |intros y Hy; destruct (IHn y Hy); lra|exact Hx].
      - intros y. apply d_minus; [apply d_monomial|apply D].
      - rewrite Ropp_0, exp_0, series_0, (pow_i (S n)) by lia. unfold Rdiv. ring. }
    lra.
Qed.
Lemma remainder n x : Rabs x <= 1 -> Rabs (exp x - series n x) <= 3 * (Rabs x ^ n / INR (fact n)).
Proof.
  intros H. assert (Q : forall t, 0 <= t -> 0 <= t ^ n / INR (fact n)). { intros t Ht. apply Rmult_le_pos; [apply pow_le; exact Ht|left; apply Rinv_0_lt_compat, INR_fact_lt_0]. }
  destruct (Rle_or_lt 0 x) as [P|P].
  - rewrite (Rabs_pos_eq x) in * by exact P. destruct (rem_pos n x ltac:(lra)). rewrite Rabs_pos_eq; lra.
  - rewrite (Rabs_left x) in * by exact P. destruct (rem_neg n (- x) ltac:(lra)) as (A & B). rewrite Ropp_involutive in A, B. specialize (Q (- x) ltac:(lra)).
    replace (Rabs (exp x - series n x)) with (Rabs ((-1) ^ n * (exp x - series n x))) by (rewrite Rabs_mult, pow_1_abs; ring). rewrite Rabs_pos_eq; lra.
Qed.

(** ** the float evaluation *)
Fixpoint hornerR (cs : list Z) (x : R) : R :=
  match cs with [] => x | c :: cs' => IZR c + (match cs' with [] => x | _ => x * hornerR cs' x end) end.
Definition u := / 16777216.
Fixpoint S (cs : list Z) : R := match cs with [] => 1 | c :: cs' => IZR c + S cs' end.
Lemma S_ge cs : Forall (fun c => 0 < c < 2 ^ 23)%Z cs -> 1 <= S cs.
Proof. induction 1 as [|c cs H _ IH]; cbn [S]; [lra|]. assert (0 < IZR c) by (apply IZR_lt; lia). lra. Qed.
Lemma horner_err cs (x : f32) : fin x -> Rabs (v x) <= 1 -> Forall (fun c => 0 < c < 2 ^ 23)%Z cs -> S cs <= 2097152 -> (length cs <= 20)%nat -> cs <> [] ->
  fin (horner cs x) /\ Rabs (v (horner cs x) - hornerR cs (v x)) <= 5 * u * INR (length cs) * S cs /\ Rabs (hornerR cs (v x)) <= S cs.
Proof.
  intros Fx Hx. induction cs as [|c cs IH]; intros Hc HS HL HN; [congruence|clear HN]. inversion Hc as [|? ? C Hc']; subst.
  destruct (mk32_small c 0 ltac:(change (2 ^ 24)%Z with 16777216%Z; change (2 ^ 23)%Z with 8388608%Z in *; lia) ltac:(lia)) as (Vc & Fc). change (bpow radix2 0) with 1 in Vc. rewrite Rmult_1_r in Vc.
  assert (Pc : 0 < IZR c) by (apply IZR_lt; lia). assert (G := S_ge cs Hc'). assert (B24 : bpow radix2 24 < bpow radix2 128) by (apply bpow_lt; lia).
  assert (Eu : u = / 16777216) by reflexivity. assert (t150 : 0 <= bpow radix2 (-150) <= u / 1000).
  { split; [apply bpow_ge_0|]. apply Rle_trans with (bpow radix2 (-40)); [apply bpow_le; lia|]. unfold u. change (bpow radix2 (-40)) with (/ 1099511627776). lra. }
  destruct cs as [|d cs].
  - cbn [horner hornerR S length] in *. apply Rabs_le_inv in Hx. 
    destruct (fadd_bnd (mk32 c 0) x (bpow radix2 24) Fc Fx) as (V & F & _); [apply fmt_bpow; cbn; lia|exact B24|rewrite Vc; change (bpow radix2 24) with 16777216; apply Rabs_le; lra|].
    split; [exact F|]. split; [|apply Rabs_le; lra]. rewrite V, Vc. assert (E := rnd_err_all (IZR c + v x)). fold u in E.
    assert (Rabs (IZR c + v x) <= IZR c + 1) by (apply Rabs_le; lra).
    assert (u * Rabs (IZR c + v x) <= u * (IZR c + 1)) by (apply Rmult_le_compat_l; [unfold u; lra|assumption]).
    cbn [INR]. unfold u in *. lra.
  - set (cs' := d :: cs) in *. assert (L' : (length cs' <= 20)%nat) by (cbn [length] in *; lia).
    destruct (IH Hc' ltac:(cbn [S] in HS; fold cs' in HS; lra) L' ltac:(discriminate)) as (F1 & E1 & B1).
    change (horner (c :: cs') x) with (fadd (mk32 c 0) (fmul x (horner cs' x))). change (hornerR (c :: cs') (v x)) with (IZR c + v x * hornerR cs' (v x)).
    change (S (c :: cs')) with (IZR c + S cs') in *. change (length (c :: cs')) with (Datatypes.S (length cs')) in *. rewrite S_INR.
    assert (Ln : 0 <= INR (length cs') <= 19) by (split; [apply pos_INR|replace 19 with (INR 19) by (cbn; lra); apply le_INR; lia]).
    set (h := horner cs' x) in *. set (r := hornerR cs' (v x)) in *. set (s := S cs') in *. set (n := INR (length cs')) in *. clearbody h r s n. clear IH Hc Hc' L' HL cs'.
    assert (Ns : n * s <= 19 * s) by (apply Rmult_le_compat_r; lra). assert (Ps : 0 <= n * s) by (apply Rmult_le_pos; lra).
    replace (5 * u * n * s) with (5 * u * (n * s)) in E1 by ring.
    assert (Bh : Rabs (v h) <= 1.0001 * s). { replace (v h) with ((v h - r) + r) by ring. eapply Rle_trans; [apply Rabs_triang|]. unfold u in *. lra. }
    assert (Bx : Rabs (v x * v h) <= 1.0001 * s). { rewrite Rabs_mult. assert (0 <= Rabs (v h)) by apply Rabs_pos. assert (Rabs (v x) * Rabs (v h) <= 1 * Rabs (v h)) by (apply Rmult_le_compat_r; lra). lra. }
    destruct (fmul_bnd x h (bpow radix2 24) Fx F1) as (V2 & F2 & B2); [apply fmt_bpow; cbn; lia|exact B24|change (bpow radix2 24) with 16777216; lra|].
    assert (E2 := rnd_err_all (v x * v h)). fold u in E2. rewrite <- V2 in E2. set (m := fmul x h) in *. clearbody m.
    assert (u * Rabs (v x * v h) <= u * (1.0001 * s)) by (apply Rmult_le_compat_l; [unfold u; lra|exact Bx]).
    assert (Bm : Rabs (v m) <= 1.0002 * s). { replace (v m) with ((v m - v x * v h) + v x * v h) by ring. eapply Rle_trans; [apply Rabs_triang|]. unfold u in *. lra. }
    assert (Bs : Rabs (IZR c + v m) <= IZR c + 1.0002 * s) by (eapply Rle_trans; [apply Rabs_triang|rewrite (Rabs_pos_eq (IZR c)); lra]).
    destruct (fadd_bnd (mk32 c 0) m (bpow radix2 24) Fc F2) as (V3 & F3 & _); [apply fmt_bpow; cbn; lia|exact B24|rewrite Vc; change (bpow radix2 24) with 16777216; lra|].
    assert (E3 := rnd_err_all (IZR c + v m)). fold u in E3. rewrite Vc in V3. rewrite <- V3 in E3.
    assert (u * Rabs (IZR c + v m) <= u * (IZR c + 1.0002 * s)) by (apply Rmult_le_compat_l; [unfold u; lra|exact Bs]).
    split; [exact F3|]. split.
    + replace (v (fadd (mk32 c 0) m) - (IZR c + v x * r)) with ((v (fadd (mk32 c 0) m) - (IZR c + v m)) + ((v m - v x * v h) + v x * (v h - r))) by ring.
      eapply Rle_trans; [apply Rabs_triang|]. assert (T := Rabs_triang (v m - v x * v h) (v x * (v h - r))). rewrite (Rabs_mult (v x)) in T.
      assert (Rabs (v x) * Rabs (v h - r) <= 1 * Rabs (v h - r)) by (apply Rmult_le_compat_r; [apply Rabs_pos|exact Hx]).
      assert (0 <= n * IZR c) by (apply Rmult_le_pos; lra). replace (5 * u * (n + 1) * (IZR c + s)) with (5 * u * (n * IZR c) + 5 * u * (n * s) + 5 * u * IZR c + 5 * u * s) by ring.
      unfold u in *. lra.
    + eapply Rle_trans; [apply Rabs_triang|]. rewrite (Rabs_pos_eq (IZR c)) by lra. rewrite Rabs_mult. assert (Rabs (v x) * Rabs r <= 1 * Rabs r) by (apply Rmult_le_compat_r; [apply Rabs_pos|exact Hx]). lra.
Qed.
(** (c_0 + ...) * k with k close to 1/N and S = c_0 + ... <= 3 N *)
Lemma exp_err cs (k : f32) (x : f32) (N : Z) : fin x -> Rabs (v x) <= 1 -> Forall (fun c => 0 < c < 2 ^ 23)%Z cs -> (length cs <= 9)%nat -> cs <> [] ->
  (0 < N < 400000)%Z -> S cs <= 2.75 * IZR N -> fin k -> 0 <= v k <= 1 -> Rabs (v k * IZR N - 1) <= bpow radix2 (-23) ->
  fin (fmul (horner cs x) k) /\ Rabs (v (fmul (horner cs x) k) - hornerR cs (v x) / IZR N) <= bpow radix2 (-16).
Proof.
  intros Fx Hx Hc HL HN HZ HS Fk Bk Ek. assert (N0 : 0 < IZR N) by (apply IZR_lt; lia). assert (N1 : IZR N < 400000) by (apply IZR_lt; lia).
  destruct (horner_err cs x Fx Hx Hc ltac:(lra) ltac:(lia) HN) as (F1 & E1 & B1). assert (G := S_ge cs Hc).
  assert (Ln : 0 <= INR (length cs) <= 9) by (split; [apply pos_INR|replace 9 with (INR 9) by (cbn; lra); apply le_INR; lia]).
  set (h := horner cs x) in *. set (r := hornerR cs (v x)) in *. set (s := S cs) in *. set (n := INR (length cs)) in *. clearbody h r s n.
  assert (Ns : n * s <= 9 * s) by (apply Rmult_le_compat_r; lra). replace (5 * u * n * s) with (5 * u * (n * s)) in E1 by ring.
  assert (Eh : Rabs (v h - r) <= 45 * u * s) by (unfold u in *; lra).
  set (K := v k) in *. assert (KN : K * IZR N <= 1.000001) by (apply Rabs_le_inv in Ek; change (bpow radix2 (-23)) with (/ 8388608) in Ek; lra).
  assert (Ks : K * s <= 2.7501). { assert (K * s <= K * (2.75 * IZR N)) by (apply Rmult_le_compat_l; lra). lra. }
  assert (Kd : Rabs (v h * K - r * K) <= 45 * u * 2.7501).
  { replace (v h * K - r * K) with ((v h - r) * K) by ring. rewrite Rabs_mult, (Rabs_pos_eq K) by lra.
    assert (Rabs (v h - r) * K <= 45 * u * s * K) by (apply Rmult_le_compat_r; lra). assert (45 * u * (K * s) <= 45 * u * 2.7501) by (apply Rmult_le_compat_l; [unfold u; lra|lra]). lra. }
  assert (Kr : Rabs (r * K) <= 2.7501). { rewrite Rabs_mult, (Rabs_pos_eq K) by lra. assert (Rabs r * K <= s * K) by (apply Rmult_le_compat_r; lra). lra. }
  assert (Kh : Rabs (v h * K) <= 2.76). { replace (v h * K) with ((v h * K - r * K) + r * K) by ring. eapply Rle_trans; [apply Rabs_triang|]. unfold u in *. lra. }
  destruct (fmul_bnd h k (bpow radix2 2) F1 Fk) as (V2 & F2 & B2); [apply fmt_bpow; cbn; lia|apply bpow_lt; lia|change (bpow radix2 2) with 4; fold K; lra|]. fold K in V2.
  assert (E2 := rnd_err_all (v h * K)). fold u in E2. rewrite <- V2 in E2. split; [exact F2|].
  assert (R0 : Rabs (r * K - r / IZR N) <= 2.75 * bpow radix2 (-23)).
  { replace (r * K - r / IZR N) with ((r / IZR N) * (K * IZR N - 1)) by (field; lra). rewrite Rabs_mult. assert (Rabs (r / IZR N) <= 2.75).
    { unfold Rdiv. rewrite Rabs_mult, (Rabs_pos_eq (/ IZR N)) by (left; apply Rinv_0_lt_compat; lra). apply Rle_trans with (2.75 * IZR N * / IZR N); [apply Rmult_le_compat_r; [left; apply Rinv_0_lt_compat; lra|lra]|right; field; lra]. }
    apply Rmult_le_compat; try apply Rabs_pos; assumption. }
  replace (v (fmul h k) - r / IZR N) with ((v (fmul h k) - v h * K) + ((v h * K - r * K) + (r * K - r / IZR N))) by ring.
  eapply Rle_trans; [apply Rabs_triang|]. assert (T := Rabs_triang (v h * K - r * K) (r * K - r / IZR N)).
  assert (u * Rabs (v h * K) <= u * 2.76) by (apply Rmult_le_compat_l; [unfold u; lra|exact Kh]).
  assert (bpow radix2 (-150) <= bpow radix2 (-40)) by (apply bpow_le; lia).
  change (bpow radix2 (-40)) with (/ 1099511627776) in *. change (bpow radix2 (-23)) with (/ 8388608) in *. change (bpow radix2 (-16)) with (/ 65536). unfold u in *. lra.
Qed.
