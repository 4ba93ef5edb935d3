(** The cookbook designs over the exact reals: stability and responses. *)
From Coq Require Import Reals Lra Lia.
From Verif Require Import Bq_Model Bq_Spec Bq_Lin Bq_Proof.
Local Open Scope R_scope.

Definition of_design (d : design R) : biquad R := bq_make opsR (design_coefs opsR (fun x => x) d).
Definition ok_design (d : design R) : Prop := 0 < d_a0 d /\ Rabs (d_a2 d) < d_a0 d /\ Rabs (d_a1 d) < d_a0 d + d_a2 d.

Lemma ok_triangle d : ok_design d -> triangle (k3 (bq_c (of_design d))) (k4 (bq_c (of_design d))).
Proof.
  intros (H0 & H2 & H1). unfold of_design, bq_make, design_coefs, triangle. cbn [bq_c k3 k4 quo opsR].
  assert (I : 0 < / d_a0 d) by (apply Rinv_0_lt_compat; exact H0).
  assert (P : forall x, Rabs (x / d_a0 d) = Rabs x / d_a0 d).
  { intros x. unfold Rdiv. rewrite Rabs_mult, (Rabs_pos_eq (/ d_a0 d)); lra. }
  rewrite 2 P. split.
  - apply Rmult_lt_reg_r with (d_a0 d); [exact H0|]. unfold Rdiv. rewrite Rmult_assoc, Rinv_l, Rmult_1_r, Rmult_1_l; lra.
  - apply Rmult_lt_reg_r with (d_a0 d); [exact H0|]. replace (Rabs (d_a1 d) / d_a0 d * d_a0 d) with (Rabs (d_a1 d)) by (field; lra).
    replace ((1 + d_a2 d / d_a0 d) * d_a0 d) with (d_a0 d + d_a2 d) by (field; lra). exact H1.
Qed.
Lemma d_respond d w g th : ok_design d ->
  (d_b0 d + d_b2 d) * cos w + d_b1 d = g * (((d_a0 d + d_a2 d) * cos w + d_a1 d) * cos th - (d_a0 d - d_a2 d) * sin w * sin th) ->
  (d_b0 d - d_b2 d) * sin w = g * (((d_a0 d + d_a2 d) * cos w + d_a1 d) * sin th + (d_a0 d - d_a2 d) * sin w * cos th) ->
  response (bq_out opsR (of_design d)) w g th.
Proof.
  intros H E1 E2. apply respond; [apply ok_triangle; exact H| |]; destruct H as (H0 & _);
    unfold of_design, bq_make, design_coefs; cbn [bq_c k0 k1 k2 k3 k4 quo opsR].
  - transitivity (((d_b0 d + d_b2 d) * cos w + d_b1 d) / d_a0 d); [field; lra|]. rewrite E1. field. lra.
  - transitivity (((d_b0 d - d_b2 d) * sin w) / d_a0 d); [field; lra|]. rewrite E2. field. lra.
Qed.
Definition dnum (d : design R) w := ((d_b0 d + d_b2 d) * cos w + d_b1 d) * ((d_b0 d + d_b2 d) * cos w + d_b1 d) + (d_b0 d - d_b2 d) * sin w * ((d_b0 d - d_b2 d) * sin w).
Definition dden (d : design R) w := ((d_a0 d + d_a2 d) * cos w + d_a1 d) * ((d_a0 d + d_a2 d) * cos w + d_a1 d) + (d_a0 d - d_a2 d) * sin w * ((d_a0 d - d_a2 d) * sin w).
Lemma d_any d w : ok_design d -> 0 < dden d w /\
  exists g th, 0 <= g /\ g * g * dden d w = dnum d w /\ response (bq_out opsR (of_design d)) w g th.
Proof.
  intros H. assert (T := ok_triangle d H). destruct H as (H0 & _).
  assert (SA : 0 < d_a0 d * d_a0 d) by (apply Rmult_lt_0_compat; exact H0).
  assert (E1 : dden d w = d_a0 d * d_a0 d * den2 (bq_c (of_design d)) w).
  { unfold den2, dden, of_design, bq_make, design_coefs. cbn [bq_c k0 k1 k2 k3 k4 quo opsR]. field. lra. }
  assert (E2 : dnum d w = d_a0 d * d_a0 d * num2 (bq_c (of_design d)) w).
  { unfold num2, dnum, of_design, bq_make, design_coefs. cbn [bq_c k0 k1 k2 k3 k4 quo opsR]. field. lra. }
  split. { rewrite E1. apply Rmult_lt_0_compat; [exact SA|]. apply den2_pos. exact T. }
  destruct (respond_any (of_design d) w T) as (g & th & G0 & G1 & G2). exists g, th. split; [exact G0|]. split; [|exact G2].
  rewrite E1, E2, <- G1. ring.
Qed.
(** gains compared *)
Lemma gain_le g n d k : 0 <= g -> 0 < d -> g * g * d = n -> 0 <= k -> n <= k * k * d -> g <= k.
Proof. intros G D E K L. apply le_sq; [exact K|]. apply Rmult_le_reg_r with d; [exact D|]. lra. Qed.
Lemma gain_ge g n d k : 0 <= g -> 0 < d -> g * g * d = n -> k * k * d <= n -> k <= g.
Proof. intros G D E L. apply le_sq; [exact G|]. apply Rmult_le_reg_r with d; [exact D|]. lra. Qed.

(** legal parameters: 0 < f < sps/2, a positive Q or bandwidth *)
Definition legal (f sps : R) (w : width) : Prop := 0 < f /\ 2 * f < sps /\ match w with Q q => 0 < q | BW v => 0 < v end.

Lemma omega_range f sps : 0 < f -> 2 * f < sps -> 0 < omega f sps < PI.
Proof.
  intros Hf Hs. unfold omega. assert (P := PI_RGT_0). assert (I : 0 < / sps) by (apply Rinv_0_lt_compat; lra). split.
  - apply Rmult_lt_0_compat; [|exact I]. apply Rmult_lt_0_compat; lra.
  - apply Rmult_lt_reg_r with sps; [lra|]. replace (2 * PI * f / sps * sps) with (PI * (2 * f)) by (field; lra).
    apply Rmult_lt_compat_l; lra.
Qed.
Lemma sinh_pos x : 0 < x -> 0 < sinh x.
Proof. intros H. unfold sinh. assert (exp (- x) < exp x) by (apply exp_increasing; lra). lra. Qed.

Section Facts.
Variables (f sps : R) (w : width).
Hypothesis L : legal f sps w.
Lemma sn_pos : 0 < sin (omega f sps).
Proof. destruct L as (A & B & _). destruct (omega_range f sps A B). apply sin_gt_0; assumption. Qed.
Lemma cs_sn : cos (omega f sps) * cos (omega f sps) + sin (omega f sps) * sin (omega f sps) = 1.
Proof. generalize (sin2_cos2 (omega f sps)). unfold Rsqr. lra. Qed.
Lemma cs_range : -1 < cos (omega f sps) < 1.
Proof.
  assert (S := sn_pos). assert (E := cs_sn). assert (0 < sin (omega f sps) * sin (omega f sps)) by (apply Rmult_lt_0_compat; exact S).
  set (c := cos _) in *. split; apply Rnot_le_lt; intros X.
  - assert (0 <= (-1 - c) * (1 - c)) by (apply Rmult_le_pos; lra). lra.
  - assert (0 <= (c - 1) * (c + 1)) by (apply Rmult_le_pos; lra). lra.
Qed.
Lemma al_pos : 0 < alpha f sps w.
Proof.
  assert (S := sn_pos). destruct L as (A & B & C). destruct (omega_range f sps A B) as (O & _). unfold alpha, alpha_q. cbn [quo mul two opsR]. destruct w as [q|v].
  - apply Rmult_lt_0_compat; [exact S|apply Rinv_0_lt_compat; lra].
  - apply Rmult_lt_0_compat; [exact S|]. apply sinh_pos.
    assert (0 < ln 2) by (rewrite <- ln_1; apply ln_increasing; lra).
    apply Rmult_lt_0_compat; [|apply Rinv_0_lt_compat; exact S]. apply Rmult_lt_0_compat; [|exact O]. apply Rmult_lt_0_compat; lra.
Qed.
Lemma amp_pos db : 0 < amp db. Proof. unfold amp, Rpower. apply exp_pos. Qed.

Lemma abs_lt x y : - y < x -> x < y -> Rabs x < y. Proof. intros. unfold Rabs. destruct Rcase_abs; lra. Qed.
Lemma ok_std b0 b1 b2 al : 0 < al -> ok_design (mkDesign b0 b1 b2 (1 + al) (- (2) * cos (omega f sps)) (1 - al)).
Proof. intros Ha. assert (C := cs_range). unfold ok_design. cbn [d_a0 d_a1 d_a2]. repeat split; [lra| |]; apply abs_lt; lra. Qed.
Lemma shelf_facts a : 0 < a -> let c := cos (omega f sps) in
  0 < (a + 1) + (a - 1) * c /\ 0 < (a + 1) - (a - 1) * c /\
  Rabs ((a - 1) + (a + 1) * c) < (a + 1) + (a - 1) * c /\ Rabs ((a - 1) - (a + 1) * c) < (a + 1) - (a - 1) * c.
Proof.
  intros Ha c. assert (C := cs_range). fold c in C.
  assert (0 < a * (1 + c)) by (apply Rmult_lt_0_compat; lra). assert (0 < a * (1 - c)) by (apply Rmult_lt_0_compat; lra).
  repeat split; try apply abs_lt; lra.
Qed.
Lemma be_sn_pos a : 0 < a -> 0 < sqrt (a + a) * sin (omega f sps).
Proof. intros Ha. apply Rmult_lt_0_compat; [apply sqrt_lt_R0; lra|apply sn_pos]. Qed.
Lemma ok_cfg s : ok_design (cfg s f sps w).
Proof.
  assert (A := al_pos). destruct s as [| | | | | |db|db|db]; try (apply ok_std; exact A).
  - assert (P := amp_pos db). apply ok_std. apply Rmult_lt_0_compat; [exact A|]. apply Rinv_0_lt_compat. exact P.
  - assert (P := amp_pos db). destruct (shelf_facts _ P) as (F1 & F2 & F3 & F4). assert (B := be_sn_pos _ P).
    unfold cfg, cfg_lowshelf, ok_design. cbn [d_a0 d_a1 d_a2 add sub mul quo neg one two opsR]. cbv zeta in *.
    set (a := amp db) in *. set (c := cos _) in *. set (bs := sqrt (a + a) * sin _) in *.
    repeat split; [lra|apply abs_lt; lra|]. rewrite Rabs_mult, Rabs_Ropp, (Rabs_pos_eq 2) by lra. lra.
  - assert (P := amp_pos db). destruct (shelf_facts _ P) as (F1 & F2 & F3 & F4). assert (B := be_sn_pos _ P).
    unfold cfg, cfg_highshelf, ok_design. cbn [d_a0 d_a1 d_a2 add sub mul quo neg one two opsR]. cbv zeta in *.
    set (a := amp db) in *. set (c := cos _) in *. set (bs := sqrt (a + a) * sin _) in *.
    repeat split; [lra|apply abs_lt; lra|]. rewrite Rabs_mult, (Rabs_pos_eq 2) by lra. lra.
Qed.
End Facts.
