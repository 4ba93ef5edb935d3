(** Termination (and non-termination) of the phases of the ADSR envelope. *)
From Coq Require Import Reals Lra Psatz.
From Flocq Require Import Core.Core IEEE754.BinarySingleNaN.
From Flocq Require Import Sterbenz.
From Verif Require Import Common CommonFacts Float FloatFacts FloatLerp Env_Model Env_Spec Env_Proof Coeff_Proof Adsr_Model Adsr_Spec Adsr_Proof.
Local Open Scope R_scope.
Local Notation rn := (rnd 24 128).
Local Notation ft := (fmt 24 128).

Lemma inv_bound a b : 0 < a <= b -> 0 < / b <= / a.
Proof. intros H. split; [apply Rinv_0_lt_compat; lra|apply Rinv_le_contravar; lra]. Qed.
Lemma coeff_far sps d N c : proper_rate sps d -> IZR sps * B2R d <= N -> c <= 2 / N - 2 / (N * N) - / 1048576 -> B2R (env_coeff sps d) <= 1 - c.
Proof.
  intros (H1 & H2 & H3 & H4) HN Hc. pose proof (env_coeff_bounds sps d H1 H2 H3 H4) as B. cbv zeta in B.
  change (bpow radix2 (-20)) with (/ 1048576) in B. set (n := IZR sps * B2R d) in *. clearbody n.
  assert (2 / N - 2 / (N * N) <= 2 / n - 2 / (n * n)); [|lra].
  assert (I : 0 < / N <= / n) by (apply inv_bound; lra).
  assert (J : / n <= / 2) by (apply Rinv_le_contravar; lra).
  replace (2 / (N * N)) with (2 * (/ N * / N)) by (field; lra). replace (2 / (n * n)) with (2 * (/ n * / n)) by (field; lra). unfold Rdiv. nra.
Qed.
Lemma coeff_near sps d N c : proper_rate sps d -> 2 <= N <= IZR sps * B2R d -> 2 / N + / 1048576 <= c -> 1 - c <= B2R (env_coeff sps d).
Proof.
  intros (H1 & H2 & H3 & H4) HN Hc. pose proof (env_coeff_bounds sps d H1 H2 H3 H4) as B. cbv zeta in B.
  change (bpow radix2 (-20)) with (/ 1048576) in B. set (n := IZR sps * B2R d) in *. clearbody n.
  assert (I : 0 < / n <= / N) by (apply inv_bound; lra). unfold Rdiv in *. lra.
Qed.

(** a phase whose measure goes down by [dl] on every call ends *)
Lemma samples_S e n : samples e (S n) = do r <- sample e ; samples (fst r) n.
Proof. reflexivity. Qed.
Lemma descend (P Q : adsr -> Prop) (mu : adsr -> R) (dl : R) : 0 < dl ->
  (forall e, P e -> 0 <= mu e) ->
  (forall e, P e -> exists e' o, sample e = Some (e', o) /\ (Q e' \/ (P e' /\ mu e' <= mu e - dl))) ->
  forall k e, P e -> mu e <= INR k * dl ->
  exists n e', samples e n = Some e' /\ Q e' /\ (n <= S k)%nat /\
    forall i e'', (i < n)%nat -> samples e i = Some e'' -> P e''.
Proof.
  intros D M S. induction k as [|k IH]; intros e H L.
  - cbn in L. destruct (S e H) as (e' & o & E & [G|[G1 G2]]).
    + exists 1%nat, e'. split; [cbn; rewrite E; reflexivity|]. split; [exact G|]. split; [lia|].
      intros i e'' Hi Si. assert (i = 0%nat) by lia. subst i. cbn in Si. injection Si as <-. exact H.
    + pose proof (M _ G1). lra.
  - rewrite S_INR in L. destruct (S e H) as (e' & o & E & [G|[G1 G2]]).
    + exists 1%nat, e'. split; [cbn; rewrite E; reflexivity|]. split; [exact G|]. split; [lia|].
      intros i e'' Hi Si. assert (i = 0%nat) by lia. subst i. cbn in Si. injection Si as <-. exact H.
    + destruct (IH e' G1 ltac:(lra)) as (n & f & Sn & Qf & Hn & Hp). exists (Datatypes.S n), f.
      split; [rewrite samples_S, E; exact Sn|]. split; [exact Qf|]. split; [lia|].
      intros [|i] e'' Hi Si; [cbn in Si; injection Si as <-; exact H|].
      rewrite samples_S, E in Si. apply (Hp i); [lia|exact Si].
Qed.
Lemma nat_above r : 0 <= r -> exists k : nat, r <= INR k <= r + 1.
Proof.
  intros H. exists (Z.to_nat (up r)). destruct (archimed r) as [A1 A2].
  assert (0 <= up r)%Z by (apply le_IZR; lra). rewrite INR_IZR_INZ, Z2Nat.id by assumption. lra.
Qed.
Lemma descend' (P Q : adsr -> Prop) (mu : adsr -> R) (dl : R) : 0 < dl ->
  (forall e, P e -> 0 <= mu e) ->
  (forall e, P e -> exists e' o, sample e = Some (e', o) /\ (Q e' \/ (P e' /\ mu e' <= mu e - dl))) ->
  forall e B, P e -> mu e <= B * dl -> 0 <= B ->
  exists n e', samples e n = Some e' /\ Q e' /\ INR n <= B + 2 /\
    forall i e'', (i < n)%nat -> samples e i = Some e'' -> P e''.
Proof.
  intros D M S e B H L HB. destruct (nat_above B HB) as (k & K1 & K2).
  destruct (descend P Q mu dl D M S k e H ltac:(nra)) as (n & e' & H1 & H2 & H3 & H4).
  exists n, e'. split; [exact H1|]. split; [exact H2|]. split; [|exact H4].
  apply le_INR in H3. rewrite S_INR in H3. lra.
Qed.

(** ** attack *)
Lemma lvl1_bounded l : level_in 1 l -> bounded l.
Proof. apply level_bounded. change 1 with (bpow radix2 0). apply bpow_le. lia. Qed.
Lemma attack_step (y c : f32) : level_in 1 y -> coefficient c -> B2R c <= 1 - / 262144 ->
  let y' := fadd attack_target (fmul c (fsub y attack_target)) in
  fin y' /\ B2R y + / 1048576 <= B2R y' <= B2R attack_target.
Proof.
  intros Hy Hc L y'. destruct target_b as [Tb Tf].
  pose proof (lerp_f32 attack_target y c target_bounded (lvl1_bounded _ Hy) Hc) as [[F _] B]. fold y' in F, B.
  pose proof (lerp_err attack_target y c (B2R attack_target) target_bounded (lvl1_bounded _ Hy) Hc) as E. fold y' in E.
  destruct Hy as [Fy By]. rewrite !Rabs_pos_eq in E by lra. specialize (E ltac:(lra) ltac:(lra)).
  split; [exact F|]. rewrite Rmax_left in B by lra. split; [|apply B].
  change (bpow radix2 (-21)) with (/ 2097152) in E.
  assert (X : bpow radix2 (-147) <= / 1000000000) by (apply Rle_trans with (bpow radix2 (-53)); [apply bpow_le; lia|change (bpow radix2 (-53)) with (/ 9007199254740992); lra]).
  apply Rabs_le_inv in E. destruct Hc as [_ Hc]. nra.
Qed.
Definition attacking (l : f32) (auto : Z) (e : adsr) : Prop :=
  a_state e = attack_state /\ a_level e = Some l /\ a_auto e = auto /\ level_in 1 (a_y e) /\ level_in 1 l /\ B2R (a_y e) <= B2R l /\
  coefficient (a_attack e) /\ B2R (a_attack e) <= 1 - / 262144.
Definition attack_done (l : f32) (auto : Z) (e : adsr) : Prop :=
  a_y e = l /\ a_level e = Some l /\ a_state e = (if (auto =? 1)%Z then decay_state else sustain_state).
Lemma attack_ends l auto e : auto = 1%Z \/ auto = (-1)%Z -> attacking l auto e ->
  exists n e', samples e n = Some e' /\ attack_done l auto e' /\ INR n <= 1048578 /\
    forall i e'', (i < n)%nat -> samples e i = Some e'' -> attacking l auto e''.
Proof.
  intros Ha H. replace 1048578 with (1048576 + 2) by lra.
  apply (descend' (attacking l auto) (attack_done l auto) (fun e => 1 - B2R (a_y e)) (/ 1048576)); try lra; auto.
  - intros f (_ & _ & _ & [_ By] & _). lra.
  - clear e H. intros e (St & El & Ea & Hy & Hl & Hyl & Hc & L). unfold sample. rewrite St. unfold update_attack. rewrite El.
    destruct (attack_step (a_y e) (a_attack e) Hy Hc L) as [F B].
    set (y' := fadd attack_target (fmul (a_attack e) (fsub (a_y e) attack_target))) in *.
    eexists _, _. split; [reflexivity|]. destruct (fgt y' l) eqn:G.
    + left. split; [reflexivity|]. split; [exact El|]. cbn [a_state set_y]. rewrite Ea. destruct Ha as [-> | ->]; reflexivity.
    + right. destruct Hl as [Fl Bl]. change (fgt y' l) with (flt l y') in G. apply (flt_false _ _ Fl F) in G.
      destruct Hy as [Fy By]. cbn [a_y set_y]. split; [|lra].
      unfold attacking. cbn [a_state a_level a_auto a_y a_attack set_y]. repeat split; try assumption; try lra; try apply Hc.
  - destruct H as (_ & _ & _ & [_ By] & _). lra.
Qed.

(** ** release to silence *)
Definition releasing (e : adsr) : Prop :=
  (a_state e = release_state \/ a_state e = note_release_state) /\ level_in 1 (a_y e) /\ a_off e = fzero /\ B2R (a_endoff e) = 0 /\ fin (a_endoff e) /\
  coefficient (a_release e) /\ B2R (a_release e) <= 1 - / 2097152.
Lemma release_step e : releasing e -> exists e' o, sample e = Some (e', o) /\
  ((a_state e' = note_off_state /\ a_y e' = fzero) \/ (releasing e' /\ B2R (a_y e') <= B2R (a_y e) - bpow radix2 (-36))).
Proof.
  intros (St & Hy & Eo & Ee & Fe & Hc & L).
  assert (E : sample e = Some (update_release e, a_y (update_release e))) by (unfold sample; destruct St as [-> | ->]; reflexivity).
  eexists _, _. split; [exact E|]. unfold update_release. rewrite Eo.
  assert (Z1 : level_in 1 fzero) by (split; [reflexivity|cbn; lra]).
  pose proof (lerp_f32 fzero (a_y e) (a_release e) (lvl1_bounded _ Z1) (lvl1_bounded _ Hy) Hc) as [[F _] B].
  set (y' := fadd fzero (fmul (a_release e) (fsub (a_y e) fzero))) in *.
  destruct hyst_b as [Hb Hf].
  assert (Fh : fin (fadd fzero hysteresis) /\ B2R (fadd fzero hysteresis) = B2R hysteresis).
  { assert (K : feq (fadd fzero hysteresis) hysteresis && is_finite (fadd fzero hysteresis) = true) by (vm_compute; reflexivity).
    apply andb_prop in K. destruct K as [K1 K2]. split; [exact K2|]. apply feq_true; assumption. }
  destruct Fh as [Fh Vh]. destruct (flt y' (fadd fzero hysteresis)) eqn:G.
  - left. cbn [a_state a_y set_y].
    replace (flt fzero (a_endoff e)) with false by (symmetry; apply (flt_false fzero (a_endoff e) eq_refl Fe); rewrite Ee; cbn; lra).
    replace (flt fzero hysteresis) with true by (symmetry; apply (flt_true fzero hysteresis eq_refl Hf); cbn; lra). auto.
  - right. apply (flt_false _ _ F Fh) in G. rewrite Vh in G. destruct Hy as [Fy By].
    (* y' = rn (c * y) *)
    assert (Vy : B2R y' <= B2R (a_y e) - bpow radix2 (-36)).
    { assert (B0 : B2R (fzero : f32) = 0) by reflexivity.
      destruct (fsub_exact (a_y e) fzero Fy eq_refl) as [S1 S2]; rewrite ?B0, ?Rminus_0_r; [apply fmt_v|apply fin_lt_emax|].
      rewrite B0, Rminus_0_r in S1.
      destruct Hc as [Fc Hc].
      assert (F1 : ft 1) by (apply (fmt_int 1); reflexivity).
      assert (L1 : 1 < bpow radix2 128) by (change 1 with (bpow radix2 0); apply bpow_lt; lia).
      destruct (fmul_bnd (a_release e) (fsub (a_y e) fzero) 1 Fc S2 F1 L1) as (Vm & Fm & Bm).
      { rewrite S1. rewrite Rabs_pos_eq; nra. }
      destruct (fadd_exact fzero (fmul (a_release e) (fsub (a_y e) fzero)) eq_refl Fm) as [Va _].
      { rewrite B0, Rplus_0_l. apply fmt_v. } { rewrite B0, Rplus_0_l. lra. }
      fold y' in Va. rewrite B0, Rplus_0_l in Va.
      rewrite Va, Vm, S1. rewrite Va, Vm, S1 in G.
      pose proof (rnd_err_all (B2R (a_release e) * B2R (a_y e))) as Er.
      rewrite (Rabs_pos_eq (_ * _)) in Er by nra. apply Rabs_le_inv in Er.
      assert (X : bpow radix2 (-150) <= bpow radix2 (-53)) by (apply bpow_le; lia). change (bpow radix2 (-53)) with (/ 9007199254740992) in X.
      change (bpow radix2 (-36)) with (/ 68719476736).
      set (c := B2R (a_release e)) in *. set (y := B2R (a_y e)) in *. set (r := rn (c * y)) in *. clearbody r c y.
      assert (0.00009999 <= y) by nra. nra. }
    cbn [a_y set_y]. split; [|exact Vy]. unfold releasing. cbn [a_state a_y a_off a_endoff a_release set_y].
    pose proof (bpow_gt_0 radix2 (-36)).
    rewrite Eo. repeat split; try assumption; try lra; try apply Hc. 
Qed.
Lemma release_ends e : releasing e ->
  exists n e', samples e n = Some e' /\ (a_state e' = note_off_state /\ a_y e' = fzero) /\ INR n <= bpow radix2 36 + 2 /\
    forall i e'', (i < n)%nat -> samples e i = Some e'' -> releasing e''.
Proof.
  intros H. apply (descend' releasing (fun e' => a_state e' = note_off_state /\ a_y e' = fzero) (fun e => B2R (a_y e)) (bpow radix2 (-36))); auto.
  - apply bpow_gt_0.
  - intros f (_ & [_ By] & _). lra.
  - exact release_step.
  - rewrite <- bpow_plus. change (bpow radix2 (36 + -36)) with 1. destruct H as (_ & [_ By] & _). lra.
  - apply bpow_ge_0.
Qed.

(** ** decay *)
(** the threshold test of update_decay, for a target in [0,1] *)
Lemma threshold (l : f32) : level_in 1 l -> fin (fadd l hysteresis) /\ B2R (fadd l hysteresis) = rn (B2R l + B2R hysteresis) /\
  B2R l + B2R hysteresis - / 16777216 <= B2R (fadd l hysteresis).
Proof.
  intros [F B]. destruct hyst_b as [Hb Hf].
  assert (F2 : ft 2) by (apply (fmt_int 2); reflexivity).
  assert (L2 : 2 < bpow radix2 128) by (change 2 with (bpow radix2 1); apply bpow_lt; lia).
  destruct (fadd_bnd l hysteresis 2 F Hf F2 L2) as (V & Ff & _); [apply Rabs_le; lra|].
  split; [exact Ff|]. split; [exact V|].
  pose proof (err32 (B2R l + B2R hysteresis) 1 ltac:(lia)) as E. change (bpow radix2 1) with 2 in E. change (bpow radix2 (1 - 25)) with (/ 16777216) in E.
  specialize (E ltac:(apply Rabs_le; lra)). rewrite <- V in E. apply Rabs_le_inv in E. lra.
Qed.
Lemma decay_real (y l c : f32) : level_in 1 y -> level_in 1 l -> coefficient c ->
  let y' := fadd l (fmul c (fsub y l)) in
  fin y' /\ B2R y' = rn (B2R l + rn (B2R c * rn (B2R y - B2R l))).
Proof.
  intros [Fy By] [Fl Bl] [Fc Hc] y'.
  assert (F1 : ft 1) by (apply (fmt_int 1); reflexivity). assert (F2 : ft 2) by (apply (fmt_int 2); reflexivity).
  assert (L1 : 1 < bpow radix2 128) by (change 1 with (bpow radix2 0); apply bpow_lt; lia).
  assert (L2 : 2 < bpow radix2 128) by (change 2 with (bpow radix2 1); apply bpow_lt; lia).
  destruct (fsub_bnd y l 1 Fy Fl F1 L1) as (Vs & Fs & Bs); [apply Rabs_le; lra|].
  destruct (fmul_bnd c (fsub y l) 1 Fc Fs F1 L1) as (Vm & Fm & Bm).
  { rewrite Rabs_mult, (Rabs_pos_eq (B2R c)) by lra. pose proof (Rabs_pos (B2R (fsub y l))). nra. }
  destruct (fadd_bnd l (fmul c (fsub y l)) 2 Fl Fm F2 L2) as (Va & Fa & _).
  { eapply Rle_trans; [apply Rabs_triang|]. rewrite (Rabs_pos_eq (B2R l)) by lra. lra. }
  split; [exact Fa|]. unfold y'. rewrite Va, Vm, Vs. reflexivity.
Qed.
Definition decaying (l : f32) (e : adsr) : Prop :=
  a_state e = decay_state /\ (exists lv, a_level e = Some lv /\ fmul lv (a_sustain e) = l) /\ level_in 1 l /\ level_in 1 (a_y e) /\
  B2R l <= B2R (a_y e) /\ coefficient (a_decay e).
Definition decay_done (l : f32) (e : adsr) : Prop :=
  a_state e = sustain_state /\ a_y e = l /\ a_start e = Some l.
Lemma decay_ends l e : decaying l e -> B2R (a_decay e) <= 1 - / 2048 ->
  exists n e', samples e n = Some e' /\ decay_done l e' /\ INR n <= 67108866 /\
    forall i e'', (i < n)%nat -> samples e i = Some e'' -> decaying l e''.
Proof.
  intros H L.
  destruct (descend' (fun e => decaying l e /\ B2R (a_decay e) <= 1 - / 2048) (decay_done l) (fun e => B2R (a_y e)) (/ 67108864)) with (e := e) (B := 67108864) as (n & e' & H1 & H2 & H3 & H4); try lra; auto.
  - intros f ((_ & _ & _ & [_ By] & _) & _). lra.
  - clear e H L. intros e ((St & (lv & El & Em) & Hl & Hy & Hyl & Hc) & L). unfold sample. rewrite St. unfold update_decay. rewrite El. cbv beta iota zeta delta [bind]. rewrite Em.
    destruct (decay_real (a_y e) l (a_decay e) Hy Hl Hc) as [F V].
    pose proof (level_lerp 1 l (a_y e) (a_decay e) ltac:(change 1 with (bpow radix2 0); apply bpow_le; lia) Hl Hy Hc) as Hy'.
    pose proof (lerp_f32 l (a_y e) (a_decay e) (lvl1_bounded _ Hl) (lvl1_bounded _ Hy) Hc) as [_ Bt]. rewrite Rmin_left, Rmax_right in Bt by lra.
    set (y' := fadd l (fmul (a_decay e) (fsub (a_y e) l))) in *.
    destruct (threshold l Hl) as (Ft & Vt & Lt). destruct hyst_b as [Hb Hf].
    eexists _, _. split; [reflexivity|]. destruct (flt y' (fadd l hysteresis)) eqn:G.
    + left. repeat split.
    + right. apply (flt_false _ _ F Ft) in G. cbn [a_y set_y a_decay]. split.
      * split; [|exact L]. unfold decaying. cbn [a_state a_level a_sustain a_y a_decay set_y].
        split; [exact St|]. split; [exists lv; auto|]. split; [exact Hl|]. split; [exact Hy'|]. split; [lra|exact Hc].
      * destruct Hy as [Fy By], Hl as [Fl Bl], Hc as [Fc Hc].
        set (y := B2R (a_y e)) in *. set (a := B2R l) in *. set (c := B2R (a_decay e)) in *.
        pose proof (rnd_err_all (y - a)) as E1. pose proof (rnd_err_all (c * rn (y - a))) as E2.
        assert (D0 : 0 <= rn (y - a)) by (apply rnd_ge_fmt; [apply fmt_0|lra]).
        set (d := rn (y - a)) in *. rewrite (Rabs_pos_eq (y - a)) in E1 by lra. rewrite (Rabs_pos_eq (c * d)) in E2 by nra.
        set (p := rn (c * d)) in *.
        assert (X : bpow radix2 (-150) <= bpow radix2 (-53)) by (apply bpow_le; lia). change (bpow radix2 (-53)) with (/ 9007199254740992) in X.
        apply Rabs_le_inv in E1, E2.
        assert (D1 : 0.00009 <= y - a) by lra.
        assert (Q0 : c * d <= c * ((y - a) + / 16777216 * (y - a) + / 9007199254740992)) by (apply Rmult_le_compat_l; lra).
        assert (Q1 : c * (y - a) <= (1 - / 2048) * (y - a)) by (apply Rmult_le_compat_r; lra).
        assert (Q2 : 0 <= c * (y - a)) by (apply Rmult_le_pos; lra).
        assert (Q3 : c * d <= (1 - / 2048) * (y - a) + / 16777216 * (y - a) + / 9007199254740992) by lra.
        assert (P1 : p <= (y - a) - / 2049 * (y - a) + / 1000000000000) by lra.
        pose proof (err32 (a + p) 0 ltac:(lia)) as E3. change (bpow radix2 0) with 1 in E3. change (bpow radix2 (0 - 25)) with (/ 33554432) in E3.
        assert (P2 : 0 <= p) by (apply rnd_ge_fmt; [apply fmt_0|apply Rmult_le_pos; lra]).
        specialize (E3 ltac:(apply Rabs_le; lra)). rewrite V. apply Rabs_le_inv in E3.
        assert (Dh : B2R hysteresis - / 16777216 <= y - a) by lra. lra.
  - destruct H as (_ & _ & _ & [_ By] & _). lra.
  - exists n, e'. split; [exact H1|]. split; [exact H2|]. split; [lra|]. intros i e'' Hi Si. exact (proj1 (H4 i e'' Hi Si)).
Qed.

(** non-termination: with a target in [1/2, 0.99] and a coefficient of at least 1 - 2^-12,
    the step never goes below the threshold *)
Lemma decay_stalls (y l c : f32) : level_in 1 y -> fin l -> / 2 <= B2R l <= 0.99 -> coefficient c -> 1 - / 4096 <= B2R c ->
  B2R (fadd l hysteresis) <= B2R y -> B2R (fadd l hysteresis) <= B2R (fadd l (fmul c (fsub y l))).
Proof.
  intros Hy Fl Bl Hc Lc Ly. assert (Hl : level_in 1 l) by (split; [exact Fl|lra]).
  destruct (decay_real y l c Hy Hl Hc) as [_ V]. rewrite V. clear V.
  destruct (threshold l Hl) as (Ft & Vt & Lt). destruct hyst_b as [Hb Hf].
  pose proof (fmt_v (fadd l hysteresis)) as FT. pose proof (fmt_v l) as FL.
  pose proof (err32 (B2R l + B2R hysteresis) 0 ltac:(lia)) as Eh. change (bpow radix2 0) with 1 in Eh. change (bpow radix2 (0 - 25)) with (/ 33554432) in Eh.
  specialize (Eh ltac:(apply Rabs_le; lra)). rewrite <- Vt in Eh. apply Rabs_le_inv in Eh.
  set (T := B2R (fadd l hysteresis)) in *. set (a := B2R l) in *. destruct Hc as [Fc Hc]. pose proof (fmt_v c) as FC. set (k := B2R c) in *.
  clearbody T a k. clear Vt.
  assert (FD : ft (T - a)).
  { apply (sterbenz radix2 (FLT_exp (-149) 24)); [exact FT|exact FL|]. lra. }
  assert (S1 : T - a <= rn (B2R y - a)) by (apply rnd_ge_fmt; [exact FD|lra]).
  assert (S2 : rn (k * (T - a)) <= rn (k * rn (B2R y - a))) by (apply rnd_le; apply Rmult_le_compat_l; lra).
  pose proof (rnd_err_all (k * (T - a))) as E. rewrite (Rabs_pos_eq (k * (T - a))) in E by (apply Rmult_le_pos; lra). apply Rabs_le_inv in E.
  assert (X : bpow radix2 (-150) <= bpow radix2 (-53)) by (apply bpow_le; lia). change (bpow radix2 (-53)) with (/ 9007199254740992) in X.
  assert (S3 : T - 0.000000026 <= a + rn (k * rn (B2R y - a))) by nra.
  (* rounding back up to T *)
  unfold rnd at 1. apply (round_N_ge_midp radix2 (fx (prec:=24) (emax:=128)) (fun t => negb (Z.even t))); [exact FT|].
  assert (PT : pred radix2 (fx (prec:=24) (emax:=128)) T = T - bpow radix2 (-24)).
  { rewrite pred_eq_pos by lra. unfold pred_pos.
    assert (Mg : mag radix2 T = 0%Z :> Z) by (apply mag_unique_pos; change (bpow radix2 (0 - 1)) with (/ 2); change (bpow radix2 0) with 1; lra).
    rewrite Mg. change (bpow radix2 (0 - 1)) with (/ 2). rewrite Req_bool_false by lra.
    rewrite ulp_neq_0 by lra. unfold cexp. rewrite Mg. reflexivity. }
  rewrite PT. change (bpow radix2 (-24)) with (/ 16777216). lra.
Qed.
Lemma decay_never l e : decaying l e -> / 2 <= B2R l <= 0.99 -> 1 - / 4096 <= B2R (a_decay e) ->
  B2R (fadd l hysteresis) <= B2R (a_y e) ->
  forall n, exists e', samples e n = Some e' /\ a_state e' = decay_state /\ B2R (fadd l hysteresis) <= B2R (a_y e').
Proof.
  intros H Bl Lc Ly n. revert e H Lc Ly. induction n as [|n IH]; intros e H Lc Ly.
  { exists e. split; [reflexivity|]. split; [apply H|exact Ly]. }
  destruct H as (St & (lv & El & Em) & Hl & Hy & Hyl & Hc).
  pose proof (decay_stalls (a_y e) l (a_decay e) Hy (proj1 Hl) Bl Hc Lc Ly) as Q.
  destruct (decay_real (a_y e) l (a_decay e) Hy Hl Hc) as [F _].
  pose proof (level_lerp 1 l (a_y e) (a_decay e) ltac:(change 1 with (bpow radix2 0); apply bpow_le; lia) Hl Hy Hc) as Hy'.
  pose proof (lerp_f32 l (a_y e) (a_decay e) (lvl1_bounded _ Hl) (lvl1_bounded _ Hy) Hc) as [_ Bt]. rewrite Rmin_left, Rmax_right in Bt by lra.
  destruct (threshold l Hl) as (Ft & _ & _).
  rewrite samples_S. unfold sample. rewrite St. unfold update_decay. rewrite El. cbv beta iota zeta delta [bind]. rewrite Em.
  set (y' := fadd l (fmul (a_decay e) (fsub (a_y e) l))) in *.
  replace (flt y' (fadd l hysteresis)) with false by (symmetry; apply (flt_false _ _ F Ft); exact Q).
  cbn [fst]. apply IH; [|exact Lc|exact Q]. unfold decaying. cbn [a_state a_level a_sustain a_y a_decay set_y].
  split; [exact St|]. split; [exists lv; auto|]. split; [exact Hl|]. split; [exact Hy'|]. split; [lra|exact Hc].
Qed.
