(** C49: the dynamic smoother. *)
From Coq Require Import Reals Lra Lia ZArith.
From Flocq Require Import Core.Core IEEE754.BinarySingleNaN.
From Flocq Require Mult_error.
From Flocq Require Mult_error.
From Verif Require Import Common Float FloatFacts FloatRel FloatLerp Env_Proof Dyn_Proof Smooth_Model Smooth_Spec Smooth_Proof.
Local Open Scope R_scope.
Local Notation rn := (rnd 24 128).

(** The base coefficient is 2 gc / (1 + gc) for every tangent gc, between 0 and 2, whether given to the constructor or
    set later; the default sensitivity is 1/2. *)
Theorem C49_base_coefficient :
  forall gc : f64, tan_value gc ->
  let g0 := ds_g0 (ds_make_default gc) in
  is_finite g0 = true /\ 0 <= B2R g0 <= 2 /\ Rabs (B2R g0 - 2 * B2R gc / (1 + B2R gc)) <= bpow radix2 (-22) /\
  ds_g0 (ds_base_frequency (ds_make_default fzero) gc) = g0 /\ ds_make_default gc = ds_make (mk32 1 (-1)) gc /\
  (bpow radix2 (-100) <= B2R gc -> 0 < B2R g0).
Proof.
  intros gc H. cbn [ds_make_default ds_make ds_base_frequency ds_g0]. destruct (coeff_ok gc H) as (F & B & A & V).
  split; [exact F|]. split; [exact B|]. split; [exact A|]. split; [reflexivity|]. split; [reflexivity|]. intros L. rewrite V. destruct H as [Fg Hg].
  set (x := B2R gc) in *. set (d := rnd 53 1024 (1 + x)). assert (P := bpow_gt_0 radix2 (-100)).
  assert (D1 : 1 <= d). { unfold d. apply rnd_ge_fmt; [change 1 with (bpow radix2 0); apply fmt_bpow; unfold SpecFloat.emin; lia|lra]. }
  assert (L1 : bpow radix2 (-100) <= 1) by (change 1 with (bpow radix2 0); apply bpow_le; lia).
  assert (Q : bpow radix2 (-100) <= 2 * x / d).
  { apply (Rmult_le_reg_r d); [lra|]. unfold Rdiv. rewrite Rmult_assoc, Rinv_l by lra. rewrite Rmult_1_r.
    destruct (Rle_lt_dec x 1) as [X|X].
    - assert (D2 : d <= 2) by (apply rnd_le_fmt; [change 2 with (bpow radix2 1); apply fmt_bpow; unfold SpecFloat.emin; lia|lra]).
      apply Rle_trans with (bpow radix2 (-100) * 2); [apply Rmult_le_compat_l; lra|lra].
    - assert (D2 : d <= 2 * x). { apply rnd_le_fmt; [|lra]. rewrite Rmult_comm. change 2 with (bpow radix2 1). apply (Mult_error.mult_bpow_pos_exact_FLT radix2 (3 - 1024 - 53) 53); [apply fmt_v|lia]. }
      apply Rle_trans with (1 * d); [apply Rmult_le_compat_r; lra|lra]. }
  apply Rlt_le_trans with (bpow radix2 (-100)); [exact P|].
  apply rnd_ge_fmt; [apply fmt_bpow; unfold SpecFloat.emin; lia|]. apply rnd_ge_fmt; [apply fmt_bpow; unfold SpecFloat.emin; lia|exact Q].
Qed.
Print Assumptions C49_base_coefficient.

(** Every output is finite and, for inputs of magnitude at most B, at most B (1 + 2^-19): whatever the history,
    and however the base frequency was changed. *)
Theorem C49_bounded :
  forall (sensitivity : f32) (gc : f64) (B : R) (ops : list ds_op) (s : f32),
  smoother_range sensitivity B -> tan_value gc -> Forall (op_in B) ops -> op_in B (DSample s) ->
  let o := fst (ds_step (ds_run (ds_make sensitivity gc) ops) s) in
  is_finite o = true /\ Rabs (B2R o) <= B * (1 + bpow radix2 (-19)).
Proof.
  intros se gc B ops s Hr Hg Ho [Fs Bs] o. pose proof Hr as (_ & _ & HB).
  pose proof (run_inv B ops HB Ho _ (make_inv se gc B Hr Hg)) as I.
  destruct (step_facts B _ s HB I Fs Bs) as (E & _). unfold o. rewrite E. destruct I as (_ & _ & _ & _ & _ & _ & F & H). auto.
Qed.
Print Assumptions C49_bounded.

Lemma min1_close a b e : 0 <= e -> Rabs (a - b) <= e \/ (1 <= a /\ 1 <= b) -> Rabs (Rmin a 1 - Rmin b 1) <= e.
Proof.
  intros E [H|[H1 H2]].
  - apply Rabs_le_inv in H. apply Rabs_le. unfold Rmin. destruct (Rle_dec a 1), (Rle_dec b 1); lra.
  - rewrite !Rmin_right by lra. rewrite Rminus_eq_0, Rabs_R0. exact E.
Qed.
Lemma step_internal :
  forall (sensitivity : f32) (gc : f64) (B : R) (ops : list ds_op) (s : f32),
  smoother_range sensitivity B -> tan_value gc -> Forall (op_in B) ops -> op_in B (DSample s) ->
  let st := ds_run (ds_make sensitivity gc) ops in let st' := snd (ds_step st s) in
  let low1 := B2R (ds_low1 st) in let low2 := B2R (ds_low2 st) in
  fst (ds_step st s) = ds_low2 st /\
  exists g, Rmin (B2R (ds_g0 st)) 1 <= g <= 1 /\
    Rabs (g - Rmin (B2R (ds_g0 st) + B2R (ds_sense st) * Rabs (low1 - low2)) 1) <= bpow radix2 (-21) /\
    Rabs (B2R (ds_low1 st') - (low1 + g * (B2R s - low1))) <= B * bpow radix2 (-20) /\
    Rabs (B2R (ds_low2 st') - (low2 + g * (B2R (ds_low1 st') - low2))) <= B * bpow radix2 (-20).
Proof.
  intros se gc B ops s Hr Hg Ho [Fs Bs]. cbn zeta. pose proof Hr as (_ & _ & HB).
  pose proof (run_inv B ops HB Ho _ (make_inv se gc B Hr Hg)) as I. set (st := ds_run _ _) in *.
  destruct (step_facts B st s HB I Fs Bs) as (E & _ & _ & _ & g & G1 & G2 & S1 & S2). cbn zeta in *. split; [exact E|]. exists g. split; [exact G1|].
  destruct (eps_small B (proj1 HB)) as [[_ E1] _]. assert (B0 : 0 < B) by (pose proof (bpow_gt_0 radix2 (-100)); lra).
  assert (E2 : eps (M_of B) <= B * bpow radix2 (-20)). { assert (0 < B * bpow radix2 (-20)) by (apply Rmult_lt_0_compat; [exact B0|apply bpow_gt_0]). lra. }
  split; [|split; eapply Rle_trans; [exact S1|exact E2|exact S2|exact E2]].
  rewrite G2. apply min1_close; [apply bpow_ge_0|]. destruct I as (_ & Hs & _ & H0 & _).
  set (g0 := B2R (ds_g0 st)) in *. set (k := B2R (ds_sense st)) in *. set (d := B2R (ds_low1 st) - B2R (ds_low2 st)).
  set (t := bpow radix2 (-150)). assert (T0 : 0 < t) by apply bpow_gt_0.
  assert (KT : 0 <= k * t <= 0.0000000000001). { split; [apply Rmult_le_pos; lra|]. apply Rle_trans with (bpow radix2 63 * t); [apply Rmult_le_compat_r; lra|]. unfold t. rewrite <- bpow_plus. apply Rle_trans with (bpow radix2 (-60)); [apply bpow_le; lia|change (bpow radix2 (-60)) with (/ 1152921504606846976); lra]. }
  assert (T1 : t <= 0.0000000000001). { apply Rle_trans with (bpow radix2 (-60)); [apply bpow_le; lia|change (bpow radix2 (-60)) with (/ 1152921504606846976); lra]. }
  pose proof (rnd_err_all d) as D1. fold t in D1.
  assert (D2 : Rabs (Rabs (rn d) - Rabs d) <= / 16777216 * Rabs d + t) by (eapply Rle_trans; [apply Rabs_triang_inv2|exact D1]).
  set (a := Rabs (rn d)) in *. set (b := Rabs d) in *. assert (b0 : 0 <= b) by apply Rabs_pos. assert (a0 : 0 <= a) by apply Rabs_pos.
  assert (KB : 0 <= k * b) by (apply Rmult_le_pos; lra).
  assert (K1 : Rabs (k * a - k * b) <= / 16777216 * (k * b) + k * t).
  { rewrite <- Rmult_minus_distr_l, Rabs_mult, (Rabs_pos_eq k) by lra. replace (/ 16777216 * (k * b) + k * t) with (k * (/ 16777216 * b + t)) by ring. apply Rmult_le_compat_l; lra. }
  assert (KA : 0 <= k * a) by (apply Rmult_le_pos; lra).
  pose proof (rnd_err_all (k * a)) as D3. fold t in D3. rewrite (Rabs_pos_eq (k * a)) in D3 by lra.
  apply Rabs_le_inv in K1. apply Rabs_le_inv in D3. set (p := rn (k * a)) in *.
  assert (P1 : - (0.00000012 * (k * b) + 0.000000000001) <= p - k * b <= 0.00000012 * (k * b) + 0.000000000001) by lra.
  assert (P0 : 0 <= p) by (unfold p; apply rnd_ge_fmt; [apply fmt_0|lra]).
  pose proof (rnd_err_all (g0 + p)) as D4. fold t in D4. rewrite (Rabs_pos_eq (g0 + p)) in D4 by lra. apply Rabs_le_inv in D4.
  change (bpow radix2 (-21)) with (/ 2097152).
  destruct (Rle_lt_dec (g0 + k * b) 2) as [L|L]; [left; apply Rabs_le; lra|right; lra].
Qed.
Lemma state_params se gc ops : ds_sense (ds_run (ds_make se gc) ops) = fmul se (mk32 4 0) /\ ds_g0 (ds_run (ds_make se gc) ops) = ds_coeff (base_in_force gc ops).
Proof.
  unfold ds_run, base_in_force. 
  assert (K : forall ops st gc, ds_g0 st = ds_coeff gc -> ds_sense (fold_left ds_do ops st) = ds_sense st /\
    ds_g0 (fold_left ds_do ops st) = ds_coeff (fold_left (fun g o => match o with DBase gc' => gc' | DSample _ => g end) ops gc)).
  { clear. induction ops as [|o ops IH]; intros st gc H; cbn [fold_left]; [auto|]. destruct o as [s|g]; cbn [ds_do].
    - destruct (IH (snd (ds_step st s)) gc) as [A B]; [exact H|]. split; [exact A|exact B].
    - destruct (IH (ds_base_frequency st g) g) as [A B]; [reflexivity|]. split; [exact A|exact B]. }
  exact (K ops (ds_make se gc) gc eq_refl).
Qed.
Lemma base_ok B gc ops : tan_value gc -> Forall (op_in B) ops -> tan_value (base_in_force gc ops).
Proof.
  intros H Ho. unfold base_in_force. revert gc H. induction Ho as [|o ops H1 H2 IH]; intros gc H; [exact H|]. cbn [fold_left].
  apply IH. destruct o; [exact H|exact H1].
Qed.
Lemma times4 (s : f32) B : smoother_range s B -> B2R (fmul s (mk32 4 0)) = 4 * B2R s.
Proof.
  intros (F & H & _). destruct (int32 4 ltac:(reflexivity)) as [V4 F4].
  destruct (fmul_exact s (mk32 4 0) F F4) as [E _].
  - rewrite V4. change 4 with (bpow radix2 2). apply Mult_error.mult_bpow_pos_exact_FLT; [apply fmt_v|lia].
  - rewrite V4, Rabs_pos_eq by lra. apply Rle_lt_trans with (bpow radix2 62); [|apply bpow_lt; lia]. change 62%Z with (60 + 2)%Z. rewrite bpow_plus. change (bpow radix2 2) with 4. lra.
  - rewrite E, V4. ring.
Qed.
(** How one sample moves the smoother, x = gc the tangent of the base frequency in force: both stages move by the
    same fraction g = min(2x/(1+x) + 4 sensitivity |band|, 1), which grows with the difference of the stages (the
    "band" signal); the result is the second stage before the move. *)
Theorem C49_step :
  forall (sensitivity : f32) (gc : f64) (B : R) (ops : list ds_op) (s : f32),
  smoother_range sensitivity B -> tan_value gc -> Forall (op_in B) ops -> op_in B (DSample s) ->
  let st := ds_run (ds_make sensitivity gc) ops in let st' := snd (ds_step st s) in
  let low1 := B2R (ds_low1 st) in let low2 := B2R (ds_low2 st) in
  let x := B2R (base_in_force gc ops) in
  fst (ds_step st s) = ds_low2 st /\
  exists g, 0 <= g <= 1 /\
    Rabs (g - Rmin (2 * x / (1 + x) + 4 * B2R sensitivity * Rabs (low1 - low2)) 1) <= bpow radix2 (-20) /\
    Rabs (B2R (ds_low1 st') - (low1 + g * (B2R s - low1))) <= B * bpow radix2 (-20) /\
    Rabs (B2R (ds_low2 st') - (low2 + g * (B2R (ds_low1 st') - low2))) <= B * bpow radix2 (-20).
Proof.
  intros se gc B ops s Hr Hg Ho Hs. pose proof (step_internal se gc B ops s Hr Hg Ho Hs) as K. cbn zeta in *.
  destruct K as (E & g & G1 & G2 & S1 & S2). split; [exact E|]. exists g.
  destruct (state_params se gc ops) as [P1 P2]. rewrite P1, P2, (times4 se B Hr) in G2. rewrite P2 in G1.
  destruct (coeff_ok _ (base_ok B gc ops Hg Ho)) as (_ & C1 & C2 & _).
  split. { split; [|lra]. apply Rle_trans with (2 := proj1 G1). apply Rmin_glb; lra. }
  split; [|split; [exact S1|exact S2]].
  set (a := B2R (ds_coeff (base_in_force gc ops))) in *. set (q := 2 * B2R (base_in_force gc ops) / (1 + B2R (base_in_force gc ops))) in *.
  set (d := 4 * B2R se * Rabs _) in *.
  assert (C3 : Rabs ((a + d) - (q + d)) <= bpow radix2 (-22)) by (replace ((a + d) - (q + d)) with (a - q) by ring; exact C2).
  pose proof (min1_close (a + d) (q + d) (bpow radix2 (-22)) (bpow_ge_0 _ _) (or_introl C3)) as M.
  change (bpow radix2 (-20)) with (/ 1048576). change (bpow radix2 (-21)) with (/ 2097152) in G2. change (bpow radix2 (-22)) with (/ 4194304) in M.
  apply Rabs_le_inv in G2, M. apply Rabs_le. lra.
Qed.
Print Assumptions C49_step.

(** A constant input c is approached: after n samples of it the smoother's value (its next output) is within
    (n+1) (1-y)^n 2.1 B + 2^-19 B / y of c, y = min(g0, 1). *)
Theorem C49_settles :
  forall (sensitivity : f32) (gc : f64) (B : R) (ops : list ds_op) (c s : f32) (n : nat),
  smoother_range sensitivity B -> tan_value gc -> Forall (op_in B) ops -> op_in B (DSample c) ->
  let st := ds_run (ds_make sensitivity gc) ops in 0 < B2R (ds_g0 st) ->
  let y := Rmin (B2R (ds_g0 st)) 1 in
  let o := fst (ds_step (ds_run st (repeat (DSample c) n)) s) in
  Rabs (B2R o - B2R c) <= (INR n + 1) * (1 - y) ^ n * (2.1 * B) + bpow radix2 (-19) * B / y.
Proof.
  intros se gc B ops c s n Hr Hg Ho [Fc Bc]. cbn zeta. intros G. pose proof Hr as (_ & _ & HB).
  pose proof (run_inv B ops HB Ho _ (make_inv se gc B Hr Hg)) as I. set (st := ds_run (ds_make se gc) ops) in *.
  destruct (settle B st c HB I Fc Bc G n) as (_ & _ & _ & H). cbn zeta in H. cbn [ds_step fst].
  destruct (eps_small B (proj1 HB)) as [[_ E1] _]. assert (B0 : 0 < B) by (pose proof (bpow_gt_0 radix2 (-100)); lra).
  set (y := Rmin (B2R (ds_g0 st)) 1) in *. assert (Y : 0 < y) by (apply Rmin_glb_lt; lra).
  eapply Rle_trans; [exact H|]. apply Rplus_le_compat_l. unfold Rdiv. rewrite <- Rmult_assoc. apply Rmult_le_compat_r; [apply Rlt_le, Rinv_0_lt_compat; exact Y|].
  change (bpow radix2 (-19)) with (/ 524288). change (bpow radix2 (-20)) with (/ 1048576) in E1. lra.
Qed.
Print Assumptions C49_settles.

(** "The smoother's output never leaves the range of its inputs": false by one ulp when g reaches 1. *)
Theorem C49_no_overshoot_refuted :
  exists (gc : f64) (xs : list f32) (s o : f32),
    tan_value gc /\ o = fst (ds_step (ds_run (ds_make_default gc) (map DSample xs)) s) /\ (forall x, In x (s :: xs) -> flt x o = true).
Proof.
  exists (mk64 1 0), [mk32 (-1) 0; mk32 16777215 (-24)], (mk32 16777215 (-24)). eexists. split; [|split; [reflexivity|]].
  - destruct (mk64_small 1 0) as [V F]; [reflexivity|lia|]. split; [exact F|]. rewrite V. change (bpow radix2 0) with 1. assert (1 <= bpow radix2 60) by (change 1 with (bpow radix2 0); apply bpow_le; lia). lra.
  - intros x [<- | [<- | [<- | []]]]; vm_compute; reflexivity.
Qed.
Print Assumptions C49_no_overshoot_refuted.

(** The hypotheses are met: unit signals, sensitivity 1/2, gc = 1/4. *)
Example C49_example : smoother_range (mk32 1 (-1)) 1 /\ tan_value (mk64 1 (-2)) /\ Forall (op_in 1) [DSample (mk32 1 0); DBase (mk64 1 (-3)); DSample (mk32 (-1) 0)].
Proof.
  assert (H0 : forall k, (0 <= k)%Z -> 1 <= bpow radix2 k) by (intros k Hk; change 1 with (bpow radix2 0); apply bpow_le; exact Hk).
  assert (H1 : forall k, (k <= 0)%Z -> bpow radix2 k <= 1) by (intros k Hk; change 1 with (bpow radix2 0); apply bpow_le; exact Hk).
  pose proof (H0 60%Z ltac:(lia)). pose proof (H1 (-100)%Z ltac:(lia)).
  destruct (mk32_small 1 (-1)) as [V1 F1]; [reflexivity|lia|]. destruct (mk64_small 1 (-2)) as [V2 F2]; [reflexivity|lia|]. destruct (mk64_small 1 (-3)) as [V3 F3]; [reflexivity|lia|].
  destruct (int32 1 ltac:(reflexivity)) as [V4 F4]. destruct (int32 (-1) ltac:(reflexivity)) as [V5 F5].
  change (bpow radix2 (-1)) with (/ 2) in V1. change (bpow radix2 (-2)) with (/ 4) in V2. change (bpow radix2 (-3)) with (/ 8) in V3.
  split; [split; [exact F1|split; [rewrite V1; lra|lra]]|]. split; [split; [exact F2|rewrite V2; lra]|].
  apply Forall_cons; [split; [exact F4|rewrite V4; apply Rabs_le; lra]|]. apply Forall_cons; [split; [exact F3|rewrite V3; lra]|].
  apply Forall_cons; [split; [exact F5|rewrite V5; apply Rabs_le; lra]|apply Forall_nil].
Qed.
