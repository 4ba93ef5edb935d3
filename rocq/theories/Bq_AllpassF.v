(** The binary32 allpass filters: bounded forever, and close to the exact filters. *)
From Coq Require Import Reals Lra Lia.
From Flocq Require Import Core.Core IEEE754.BinarySingleNaN.
From Verif Require Import Common Float FloatFacts FloatRel FloatLerp Bq_Model Bq_Spec Bq_Lin Bq_Proof Bq_Float Bq_Allpass.
Local Open Scope R_scope.
Local Notation fin x := (is_finite x = true).
Local Notation v x := (B2R x).
Local Notation u := (/ 16777216).
Local Notation h := (bpow radix2 (-150)).
Local Notation tiny := (bpow radix2 (-120)).

Lemma h_tiny : 0 < h /\ h <= / 1000000000 * tiny /\ tiny < 1.
Proof.
  split; [apply bpow_gt_0|]. split; [|apply (bpow_lt radix2 (-120) 0); lia].
  rewrite h_small. change (bpow radix2 (-30)) with (/ 1073741824). generalize (bpow_gt_0 radix2 (-120)). lra.
Qed.

Section Common.
Variables (a : f32) (B : R).
Hypothesis Fa : fin a.
Hypothesis Ha : Rabs (v a) <= 1 - / 262144.
Hypothesis HB : 0 <= B.
Definition amax := 5 * (B + tiny) / (1 - Rabs (v a)).
Hypothesis Hbig : 2 * amax <= bpow radix2 100.
Lemma amax_eq : Rabs (v a) * amax = amax - 5 * (B + tiny).
Proof. unfold amax. field. lra. Qed.
Lemma amax_range : 5 * (B + tiny) <= amax <= 5 * 262144 * (B + tiny).
Proof.
  assert (T := bpow_gt_0 radix2 (-120)). assert (A0 := Rabs_pos (v a)). unfold amax. split.
  - apply Rmult_le_reg_r with (1 - Rabs (v a)); [lra|]. replace (5 * (B + tiny) / (1 - Rabs (v a)) * (1 - Rabs (v a))) with (5 * (B + tiny)) by (field; lra).
    assert (0 <= 5 * (B + tiny) * Rabs (v a)) by (apply Rmult_le_pos; lra). lra.
  - apply Rmult_le_reg_r with (1 - Rabs (v a)); [lra|]. replace (5 * (B + tiny) / (1 - Rabs (v a)) * (1 - Rabs (v a))) with (5 * (B + tiny)) by (field; lra).
    assert (0 <= (1 - Rabs (v a) - / 262144) * (5 * 262144 * (B + tiny))) by (apply Rmult_le_pos; lra). lra.
Qed.
Lemma a_le x X : Rabs x <= X -> Rabs (v a * x) <= Rabs (v a) * X.
Proof. intros H. apply mul_le; [lra|exact H]. Qed.
Lemma a_shrink X : 0 <= X -> Rabs (v a) * X <= X.
Proof. intros H. assert (0 <= (1 - Rabs (v a)) * X) by (apply Rmult_le_pos; lra). lra. Qed.
Definition aerr := 4 * u * (2 * B + amax) + 4 * h.

(** polyphase: a * (s + y2) - x2 *)
Lemma pp_err (s y2 x2 : f32) : fin s -> fin y2 -> fin x2 -> Rabs (v s) <= B -> Rabs (v y2) <= amax -> Rabs (v x2) <= B ->
  let r := fsub (fmul a (fadd s y2)) x2 in
  fin r /\ Rabs (v r - (v a * (v s + v y2) - v x2)) <= aerr /\ Rabs (v r) <= amax.
Proof.
  intros Fs Fy Fx Hs Hy Hx. cbv zeta. destruct h_tiny as (H0 & H1 & H2). assert (T := bpow_gt_0 radix2 (-120)).
  assert (ME := amax_eq). assert (MR := amax_range). assert (B101 := bpow_split). assert (B100 : 1 <= bpow radix2 100) by (apply (bpow_le radix2 0 100); lia).
  set (big := bpow radix2 101) in *. set (M := amax) in *. set (A := Rabs (v a)) in *. assert (A0 : 0 <= A) by apply Rabs_pos.
  apply abs_le_iff in Hs, Hy, Hx.
  destruct (op_add s y2 (B + M) Fs Fy) as (F1 & E1); [fold big; lra|apply abs_le_iff; lra|].
  set (t := fadd s y2) in *. clearbody t.
  set (e1 := v t - (v s + v y2)) in *. assert (Et : v t = v s + v y2 + e1) by (unfold e1; ring).
  assert (P1 : Rabs (v a * (v s + v y2)) <= A * B + (M - 5 * (B + tiny))).
  { replace (A * B + (M - 5 * (B + tiny))) with (A * (B + M)) by lra. apply a_le. apply abs_le_iff; lra. }
  assert (AB : A * B <= B) by (apply a_shrink; exact HB).
  assert (P2 := a_le e1 _ E1). assert (P2' := a_shrink (u * (B + M) + h) ltac:(lra)). fold A in P2, P2'.
  assert (P3 : v a * v t = v a * (v s + v y2) + v a * e1) by (rewrite Et; ring).
  set (q := v a * (v s + v y2)) in *. set (qe := v a * e1) in *. apply abs_le_iff in P1, P2.
  destruct (op_mul a t (2 * (B + M)) Fa F1) as (F2 & E2); [fold big; lra|rewrite P3; apply abs_le_iff; lra|].
  rewrite P3 in E2. apply abs_le_iff in E2. set (m := fmul a t) in *. clearbody m.
  (* the product is at most A (B + M) (1 + 2u) *)
  destruct (op_sub m x2 (2 * B + M) F2 Fx) as (F3 & E3); [fold big; lra|apply abs_le_iff; lra|].
  apply abs_le_iff in E3. set (r := fsub m x2) in *. clearbody r. split; [exact F3|].
  assert (E : Rabs (v r - (q - v x2)) <= aerr) by (unfold aerr; fold M; apply abs_le_iff; lra).
  split; [exact E|]. unfold aerr in E. fold M in E. apply abs_le_iff in E. apply abs_le_iff. lra.
Qed.

(** one pole: out = y + a * s; y' = s - a * out *)
Lemma ap_err (y s : f32) : fin y -> fin s -> Rabs (v y) <= amax -> Rabs (v s) <= B ->
  let out := fadd y (fmul a s) in let y' := fsub s (fmul a out) in
  fin out /\ fin y' /\ Rabs (v out - (v y + v a * v s)) <= aerr /\ Rabs (v y' - (v s - v a * (v y + v a * v s))) <= 2 * aerr /\
  Rabs (v y') <= amax /\ Rabs (v out) <= 2 * amax.
Proof.
  intros Fy Fs Hy Hs. cbv zeta. destruct h_tiny as (H0 & H1 & H2). assert (T := bpow_gt_0 radix2 (-120)).
  assert (ME := amax_eq). assert (MR := amax_range). assert (B101 := bpow_split). assert (B100 : 1 <= bpow radix2 100) by (apply (bpow_le radix2 0 100); lia).
  set (big := bpow radix2 101) in *. set (M := amax) in *. set (A := Rabs (v a)) in *. assert (A0 : 0 <= A) by apply Rabs_pos.
  assert (AB : A * B <= B) by (apply a_shrink; exact HB).
  assert (P1 := a_le (v s) B Hs). fold A in P1.
  assert (P4 := a_le (v y) M Hy). fold A in P4. rewrite ME in P4.
  assert (P5 : Rabs (v a * (v a * v s)) <= B). { eapply Rle_trans; [apply a_le; exact P1|]. fold A. eapply Rle_trans; [apply a_shrink; apply Rmult_le_pos; lra|exact AB]. }
  destruct (op_mul a s B Fa Fs) as (F1 & E1); [fold big; lra|lra|].
  apply abs_le_iff in Hy, Hs, P1.
  set (m := fmul a s) in *. clearbody m. set (as_ := v a * v s) in *.
  apply abs_le_iff in E1.
  destruct (op_add y m (M + 2 * B + h) Fy F1) as (F2 & E2); [fold big; lra|apply abs_le_iff; lra|].
  apply abs_le_iff in E2. set (out := fadd y m) in *. clearbody out.
  set (e := v out - (v y + as_)). assert (He : Rabs e <= u * (M + 4 * B) + 3 * h) by (unfold e; apply abs_le_iff; lra).
  assert (Eo : v out = v y + as_ + e) by (unfold e; ring).
  assert (P6 := a_le e _ He). assert (P6' := a_shrink (u * (M + 4 * B) + 3 * h) ltac:(lra)). fold A in P6, P6'.
  assert (P7 : v a * v out = v a * v y + v a * as_ + v a * e) by (rewrite Eo; ring).
  set (ay := v a * v y) in *. set (aas := v a * as_) in *. set (ae := v a * e) in *. apply abs_le_iff in P4, P5, P6, He.
  destruct (op_mul a out (M + 2 * B) Fa F2) as (F3 & E3); [fold big; lra|rewrite P7; apply abs_le_iff; lra|].
  rewrite P7 in E3. apply abs_le_iff in E3. set (n := fmul a out) in *. clearbody n.
  destruct (op_sub s n (M + 4 * B) Fs F3) as (F4 & E4); [fold big; lra|apply abs_le_iff; lra|].
  apply abs_le_iff in E4. set (y' := fsub s n) in *. clearbody y'.
  split; [exact F2|]. split; [exact F4|]. split. { fold e. unfold aerr. fold M. apply abs_le_iff; lra. }
  replace (v a * (v y + as_)) with (ay + aas) by (unfold ay, aas; ring).
  assert (E : Rabs (v y' - (v s - (ay + aas))) <= 2 * aerr) by (unfold aerr; fold M; apply abs_le_iff; lra).
  split; [exact E|]. split; [|apply abs_le_iff; lra]. unfold aerr in E. fold M in E. apply abs_le_iff in E. apply abs_le_iff. lra.
Qed.
End Common.

Lemma absorb A W e n : 0 <= A < 1 -> 0 <= W -> e 0%nat = 0 -> (forall t, (t < n)%nat -> e (S t) <= A * e t + W) ->
  forall t, (t <= n)%nat -> e t <= W / (1 - A).
Proof.
  intros HA HW E0 H. assert (Q : W = (1 - A) * (W / (1 - A))) by (field; lra).
  assert (Q0 : 0 <= W / (1 - A)) by (apply Rmult_le_pos; [lra|left; apply Rinv_0_lt_compat; lra]).
  induction t as [|t IH]; intros Ht; [lra|]. specialize (H t ltac:(lia)). specialize (IH ltac:(lia)).
  assert (A * e t <= A * (W / (1 - A))) by (apply Rmult_le_compat_l; lra). lra.
Qed.

Section PP.
Variables (a : f32) (x : nat -> f32) (B : R).
Hypothesis Fa : fin a.
Hypothesis Ha : Rabs (v a) <= 1 - / 262144.
Hypothesis Hx : forall t, fin (x t) /\ Rabs (v (x t)) <= B.
Hypothesis Hbig : 2 * amax a B <= bpow radix2 100.
Local Notation p := (pp_make ops32 a).
Local Notation y n := (pp_out ops32 p x n).
Local Notation yr n := (pp_out opsR (pp_make opsR (v a)) (fun t => v (x t)) n).
Lemma B0 : 0 <= B. Proof. destruct (Hx 0) as (_ & H). generalize (Rabs_pos (v (x 0%nat))). lra. Qed.
Lemma M0 : 0 <= amax a B.
Proof. assert (H := amax_range a B Ha B0). generalize (bpow_gt_0 radix2 (-120)) B0. lra. Qed.
Lemma pp_run : forall n t, (t < n)%nat -> fin (y t) /\ Rabs (v (y t)) <= amax a B /\
  Rabs (v (y t) - (v a * (v (x t) + pad (fun k => v (y k)) t) - pad (fun k => v (x k)) t)) <= aerr a B.
Proof.
  induction n as [|n IH]; [lia|]. intros t Ht. destruct (Nat.eq_dec t n) as [->|]; [|apply IH; lia].
  assert (Ey : y n = fsub (fmul a (fadd (x n) (py2 (pp_feed ops32 p x n)))) (px2 (pp_feed ops32 p x n))).
  { unfold pp_out, pp_step. cbn [snd]. rewrite pp_feed_a. reflexivity. }
  assert (X2 : fin (px2 (pp_feed ops32 p x n)) /\ Rabs (v (px2 (pp_feed ops32 p x n))) <= B /\ v (px2 (pp_feed ops32 p x n)) = pad (fun k => v (x k)) n).
  { rewrite pp_x2. destruct n as [|[|m]]; [| |split; [apply Hx|split; [apply Hx|reflexivity]]];
      (split; [reflexivity|split; [change (Rabs 0 <= B); rewrite Rabs_R0; apply B0|reflexivity]]). }
  assert (Y2 : fin (py2 (pp_feed ops32 p x n)) /\ Rabs (v (py2 (pp_feed ops32 p x n))) <= amax a B /\ v (py2 (pp_feed ops32 p x n)) = pad (fun k => v (y k)) n).
  { rewrite pp_y2. destruct n as [|[|m]]; [split; [reflexivity|split; [change (Rabs 0 <= amax a B); rewrite Rabs_R0; apply M0|reflexivity]]
    |split; [reflexivity|split; [change (Rabs 0 <= amax a B); rewrite Rabs_R0; apply M0|reflexivity]]|].
    destruct (IH m) as (F & G & _); [lia|]. split; [exact F|]. split; [exact G|reflexivity]. }
  destruct X2 as (X2 & X2' & E2). destruct Y2 as (Y2 & Y2' & E3). destruct (Hx n) as (X0 & X0').
  destruct (pp_err a B Fa Ha B0 Hbig _ _ _ X0 Y2 X2 X0' Y2' X2') as (F & E & G). rewrite <- Ey in F, E, G. rewrite E2, E3 in E. auto.
Qed.
Lemma pp_track n : Rabs (v (y n) - yr n) <= aerr a B / (1 - Rabs (v a)).
Proof.
  assert (A0 := Rabs_pos (v a)).
  assert (W0 : 0 <= aerr a B). { unfold aerr. generalize B0 M0 (bpow_gt_0 radix2 (-150)). lra. }
  assert (R : forall t, yr t = v a * (v (x t) + pad (fun k => yr k) t) - pad (fun k => v (x k)) t).
  { intros t. unfold pp_out at 1. unfold pp_step. cbn [snd add sub mul opsR]. rewrite pp_feed_a, pp_x2, pp_y2. destruct t as [|[|t]]; reflexivity. }
  assert (Q0 : 0 <= aerr a B / (1 - Rabs (v a))) by (apply Rmult_le_pos; [lra|left; apply Rinv_0_lt_compat; lra]).
  assert (S : forall m t, (t < m)%nat -> Rabs (v (y t) - yr t) <= aerr a B / (1 - Rabs (v a))).
  { induction m as [|m IH]; [lia|]. intros t Ht. destruct (Nat.eq_dec t m) as [->|]; [|apply IH; lia].
    destruct (pp_run (S m) m) as (_ & _ & E); [lia|]. rewrite (R m).
    set (d := pad (fun k => v (y k)) m - pad (fun k => yr k) m).
    assert (Hd : Rabs d <= aerr a B / (1 - Rabs (v a))).
    { unfold d. destruct m as [|[|m]]; cbn [pad]; [rewrite Rminus_0_r, Rabs_R0; exact Q0|rewrite Rminus_0_r, Rabs_R0; exact Q0|apply IH; lia]. }
    set (q := v a * (v (x m) + pad (fun k => v (y k)) m) - pad (fun k => v (x k)) m) in *.
    replace (v (y m) - (v a * (v (x m) + pad (fun k => yr k) m) - pad (fun k => v (x k)) m)) with ((v (y m) - q) + v a * d) by (unfold q, d; ring).
    eapply Rle_trans; [apply Rabs_triang|]. assert (P := a_le a d _ Hd). 
    assert (Q : aerr a B = (1 - Rabs (v a)) * (aerr a B / (1 - Rabs (v a)))) by (field; lra). lra. }
  apply (S (Datatypes.S n)). lia.
Qed.
End PP.

Section AP.
Variables (a : f32) (x : nat -> f32) (B : R).
Hypothesis Fa : fin a.
Hypothesis Ha : Rabs (v a) <= 1 - / 262144.
Hypothesis Hx : forall t, fin (x t) /\ Rabs (v (x t)) <= B.
Hypothesis Hbig : 2 * amax a B <= bpow radix2 100.
Local Notation z n := (ap_feed ops32 a fzero x n).
Local Notation zr n := (ap_feed opsR (v a) 0 (fun t => v (x t)) n).
Lemma ap_run n : fin (z n) /\ Rabs (v (z n)) <= amax a B.
Proof.
  induction n as [|n (F & G)]; [split; [reflexivity|]; change (Rabs 0 <= amax a B); rewrite Rabs_R0; exact (M0 a x B Ha Hx)|].
  destruct (Hx n) as (X0 & X0').
  destruct (ap_err a B Fa Ha (B0 x B Hx) Hbig (z n) (x n) F X0 G X0') as (_ & F2 & _ & _ & G2 & _). split; [exact F2|exact G2].
Qed.
Lemma ap_track n : Rabs (v (z n) - zr n) <= 2 * aerr a B / (1 - Rabs (v a)).
Proof.
  assert (A0 := Rabs_pos (v a)). assert (W0 : 0 <= aerr a B). { unfold aerr. generalize (B0 x B Hx) (M0 a x B Ha Hx) (bpow_gt_0 radix2 (-150)). lra. }
  apply (absorb (Rabs (v a)) (2 * aerr a B) (fun n => Rabs (v (z n) - zr n)) n); [lra|lra| | |lia].
  - cbn [ap_feed]. change (v fzero) with 0. rewrite Rminus_0_r. apply Rabs_R0.
  - intros t _. destruct (ap_run t) as (F & G). destruct (Hx t) as (X0 & X0').
    destruct (ap_err a B Fa Ha (B0 x B Hx) Hbig (z t) (x t) F X0 G X0') as (_ & _ & _ & E & _).
    change (v (z (S t))) with (v (fsub (x t) (fmul a (fadd (z t) (fmul a (x t)))))). cbn [ap_feed]. unfold ap_step. cbn [fst add sub mul opsR].
    set (w := v (fsub _ _)) in *. set (q := v (x t) - v a * (v (z t) + v a * v (x t))) in *.
    replace (w - (v (x t) - v a * (zr t + v a * v (x t)))) with ((w - q) + - (v a * (v (z t) - zr t))) by (unfold q; ring).
    eapply Rle_trans; [apply Rabs_triang|]. rewrite Rabs_Ropp, Rabs_mult. lra.
Qed.
Lemma ap_track_out n : fin (ap_out ops32 a fzero x n) /\
  Rabs (v (ap_out ops32 a fzero x n) - ap_out opsR (v a) 0 (fun t => v (x t)) n) <= 3 * aerr a B / (1 - Rabs (v a)).
Proof.
  destruct (ap_run n) as (F & G). destruct (Hx n) as (X0 & X0'). assert (A0 := Rabs_pos (v a)).
  destruct (ap_err a B Fa Ha (B0 x B Hx) Hbig (z n) (x n) F X0 G X0') as (F1 & _ & E & _). split; [exact F1|].
  assert (T := ap_track n). unfold ap_out, ap_step. cbn [snd add mul opsR]. change (add ops32) with (fadd (prec:=24) (emax:=128)). change (mul ops32) with (fmul (prec:=24) (emax:=128)).
  set (w := v (fadd _ _)) in *. replace (w - (zr n + v a * v (x n))) with ((w - (v (z n) + v a * v (x n))) + (v (z n) - zr n)) by ring.
  eapply Rle_trans; [apply Rabs_triang|]. assert (W0 : 0 <= aerr a B). { unfold aerr. generalize (B0 x B Hx) (M0 a x B Ha Hx) (bpow_gt_0 radix2 (-150)). lra. }
  assert (aerr a B <= aerr a B / (1 - Rabs (v a))).
  { apply Rmult_le_reg_r with (1 - Rabs (v a)); [lra|]. replace (aerr a B / (1 - Rabs (v a)) * (1 - Rabs (v a))) with (aerr a B) by (field; lra).
    assert (0 <= aerr a B * Rabs (v a)) by (apply Rmult_le_pos; lra). lra. }
  replace (3 * aerr a B / (1 - Rabs (v a))) with (aerr a B / (1 - Rabs (v a)) + 2 * aerr a B / (1 - Rabs (v a))) by (field; lra). lra.
Qed.
End AP.
Lemma aerr_form a B : Rabs (v a) <= 1 - / 262144 -> 0 <= B -> aerr a B <= 32 * u * (B + tiny) / (1 - Rabs (v a)).
Proof.
  intros Ha HB. destruct h_tiny as (H0 & H1 & H2). assert (A0 := Rabs_pos (v a)). assert (R := amax_range a B Ha HB). assert (T := bpow_gt_0 radix2 (-120)).
  apply Rle_trans with (32 / 5 * u * amax a B); [unfold aerr; lra|]. unfold amax. right. field. lra.
Qed.
