(** C46: the signal conditioner (peak follower, noise gate, compressor, make-up gain) and its
    band-limited variant. *)
From Coq Require Import Reals Lra.
From Flocq Require Import Core.Core IEEE754.BinarySingleNaN.
From Verif Require Import Common Float FloatFacts DetectF_Proof Env_Model Env_Spec Env_Proof Env_Props Coeff_Proof
  Dyn_Model Dyn_Spec Detect_Model Detect_Spec Detect_Proof DetectF_Props Db_Model Db_Props Val_Model Val_Props
  Filt_Model Filt_Spec Filt_Proof Filt_Props Cond_Model Cond_Spec Cond_Proof.
Local Open Scope R_scope.

Lemma attack_time sps : (4001 <= sps < 2 ^ 32)%Z -> time_ok sps (lit_us 500).
Proof.
  intros H. destruct (C35_literals 500) as (_ & _ & _ & _ & _ & L).
  assert (K : (500 <= 2 ^ 53)%N) by (apply N.leb_le; reflexivity).
  destruct (L K) as [F E]. clear L. change (Z.of_N 500) with 500%Z in E.
  assert (S0 : 4001 <= IZR sps) by (apply IZR_le; lia). apply Rabs_le_inv in E. split; [exact F|]. split; [|nra].
  apply Rle_trans with (bpow radix2 0); [change (bpow radix2 0) with 1; lra|apply bpow_le; lia].
Qed.

(** the three smoothing coefficients of a conditioner *)
Definition coefs_ok (c : cond_config) (sps : Z) (ce ca cr : R) : Prop :=
  smoothing ce sps (cc_env_release c) /\ smoothing ca sps (lit_us 500) /\ smoothing cr sps (cc_gate_release c).

Lemma time_smoothing sps d : (4001 <= sps < 2 ^ 32)%Z -> time_ok sps d -> coefficient (env_coeff sps d) /\ smoothing (B2R (env_coeff sps d)) sps d.
Proof.
  intros Hs (F & U & L). assert (Hs' : (0 < sps < 2 ^ 32)%Z) by lia. pose proof (C21_coefficients sps d Hs' F U L) as C.
  split; [exact C|]. split; [apply C|exact (C21_coefficient_value sps d Hs' F U L)].
Qed.
Lemma make_ok (c : cond_config) sps : cond_ok c sps -> exists k, cond_make c sps = Some k /\
  cinv c (env_coeff sps (cc_env_release c)) (env_coeff sps (lit_us 500)) (env_coeff sps (cc_gate_release c)) k /\
  db2a (to32 (cc_gate_onset c)) = Some (cn_onset k) /\ db2a (to32 (cc_gate_release_threshold c)) = Some (cn_release k) /\
  cond_observe k fzero = obs_start /\ cn_gate k = false.
Proof.
  intros H. unfold cond_make. destruct (float_of_db_total (cc_gate_onset c)) as [on E1]. destruct (float_of_db_total (cc_gate_release_threshold c)) as [off E2].
  rewrite E1, E2. cbv beta iota zeta delta [bind]. eexists. split; [reflexivity|]. split; [|split; [exact E1|split; [exact E2|split; reflexivity]]].
  split; cbn [cn_env_r cn_genv_a cn_genv_r cn_comp cn_makeup cn_env cn_genv]; try reflexivity; [apply zero_bounded|cbn; lra].
Qed.

(** C46.  For every sensible configuration and every history of samples and threshold changes,
    whatever thresholds are set: construction and every call complete (no assertion of the
    decibel conversion fails), and after every sample the output and the observers are those
    of the specification [sample_ok]. *)
Theorem C46_conditioner :
  forall (c : cond_config) (sps : Z) (cs : list cond_call), cond_ok c sps -> calls_ok (B2R (cc_comp_gain c)) cs ->
  exists k on off ce ca cr os, cond_make c sps = Some k /\ coefs_ok c sps ce ca cr /\
    db2a (to32 (cc_gate_onset c)) = Some on /\ db2a (to32 (cc_gate_release_threshold c)) = Some off /\
    cond_run k cs = Some os /\ conforms c ce ca cr on off obs_start cs os.
Proof.
  intros c sps cs H Ok. destruct (make_ok c sps H) as (k & E & I & E1 & E2 & O & _). destruct H as (Hs & T1 & T2 & Ht & Hr & FM & M0).
  destruct (time_smoothing sps _ Hs T1) as [C1 S1]. destruct (time_smoothing sps _ Hs T2) as [C2 S2]. destruct (time_smoothing sps _ Hs (attack_time sps Hs)) as [C3 S3].
  destruct (run_ok c _ _ _ C1 C3 C2 Ht Hr FM M0 cs k fzero I Ok) as (os & R & C). rewrite O in C.
  eexists _, _, _, _, _, _, _. split; [exact E|]. split; [exact (conj S1 (conj S3 S2))|]. split; [exact E1|]. split; [exact E2|]. split; [exact R|exact C].
Qed.
Print Assumptions C46_conditioner.

(** every observation of a conforming history *)
Lemma conforms_in c ce ca cr (P : cond_obs -> Prop) (Q : f32 -> Prop) :
  (forall on off p s o, P p -> Q s -> sample_ok c ce ca cr on off p s o -> P o) ->
  forall on off p cs os, conforms c ce ca cr on off p cs os -> P p -> (forall s, In (Process s) cs -> Q s) -> forall o, In o os -> P o.
Proof.
  intros St on off p cs os H. induction H; intros Hp Hq o' Ho; try (eapply IHconforms; eauto; intros; apply Hq; right; assumption).
  - destruct Ho.
  - assert (P o) by (eapply St; eauto; apply Hq; left; reflexivity). destruct Ho as [<-|Ho]; [assumption|]. apply IHconforms; auto. intros s' Hs'. apply Hq. right. exact Hs'.
Qed.

(** C46, envelopes: whatever the history, gate_env() stays in [0,1] and signal_env() between 0 and
    any bound of the inputs' magnitudes; with B the bound, no output exceeds B times the make-up
    gain, rounded. *)
Theorem C46_envelopes :
  forall (c : cond_config) (sps : Z) (cs : list cond_call) (b : f32), cond_ok c sps -> 0 <= B2R b -> input_ok (B2R (cc_comp_gain c)) b ->
  (forall s, In (Process s) cs -> is_finite s = true /\ Rabs (B2R s) <= B2R b) ->
  exists k os, cond_make c sps = Some k /\ cond_run k cs = Some os /\
  forall o, In o os -> 0 <= B2R (ob_gate_env o) <= 1 /\ 0 <= B2R (ob_signal_env o) <= B2R b /\
    is_finite (ob_out o) = true /\ Rabs (B2R (ob_out o)) <= B2R (fmul b (cc_comp_gain c)).
Proof.
  intros c sps cs b H B0 [Bb Bm] Hx. rewrite Rabs_pos_eq in Bm by exact B0.
  assert (M0 : 0 <= B2R (cc_comp_gain c)) by apply H. assert (FM : is_finite (cc_comp_gain c) = true) by apply H.
  assert (MB : forall s : f32, is_finite s = true -> Rabs (B2R s) <= B2R b -> Rabs (B2R s) * B2R (cc_comp_gain c) <= bpow radix2 126).
  { intros s Fs Ls. apply Rle_trans with (B2R b * B2R (cc_comp_gain c)); [apply Rmult_le_compat_r; lra|exact Bm]. }
  destruct (C46_conditioner c sps cs H) as (k & on & off & ce & ca & cr & os & E & _ & _ & _ & R & C).
  { intros s Hs. destruct (Hx s Hs) as [Fs Ls]. split; [split; [exact Fs|]|apply MB; auto]. destruct Bb as [_ Bb]. rewrite Rabs_pos_eq in Bb by exact B0. lra. }
  exists k, os. split; [exact E|]. split; [exact R|].
  assert (f126 : fmt 24 128 (bpow radix2 126)) by (apply fmt_bpow; unfold SpecFloat.emin; lia).
  assert (l126 : bpow radix2 126 < bpow radix2 128) by (apply bpow_lt; lia).
  assert (MS : forall s : f32, is_finite s = true -> Rabs (B2R s) <= B2R b -> B2R (fmul s (cc_comp_gain c)) = rnd 24 128 (B2R s * B2R (cc_comp_gain c))).
  { intros s Fs Ls. apply (fmul_bnd s (cc_comp_gain c) (bpow radix2 126)); auto. rewrite Rabs_mult, (Rabs_pos_eq (B2R (cc_comp_gain c))) by lra. apply MB; auto. }
  assert (Vb : B2R (fmul b (cc_comp_gain c)) = rnd 24 128 (B2R b * B2R (cc_comp_gain c))) by (apply MS; [apply Bb|rewrite Rabs_pos_eq; lra]).
  refine (conforms_in c ce ca cr (fun o => 0 <= B2R (ob_gate_env o) <= 1 /\ 0 <= B2R (ob_signal_env o) <= B2R b /\
    is_finite (ob_out o) = true /\ Rabs (B2R (ob_out o)) <= B2R (fmul b (cc_comp_gain c)))
    (fun s => is_finite s = true /\ Rabs (B2R s) <= B2R b) _ on off obs_start cs os C _ Hx).
  - intros on0 off0 p s o (G & S & _) (Fs & Ls) (((L1 & L2) & _) & Eg & Gg & a & _ & Fo & _ & _ & Lo).
    split; [destruct (ob_gate o); lra|]. split; [split; [pose proof (Rabs_pos (B2R s)); lra|eapply Rle_trans; [exact L2|apply Rmax_lub; lra]]|].
    split; [exact Fo|]. eapply Rle_trans; [exact Lo|]. rewrite MS, Vb by auto.
    assert (AB : forall z, Rabs (rnd 24 128 z) = rnd 24 128 (Rabs z)) by (intros z; symmetry; apply (round_NE_abs radix2 (fx (prec:=24) (emax:=128)))).
    rewrite AB. apply rnd_le. rewrite Rabs_mult, (Rabs_pos_eq (B2R (cc_comp_gain c))) by lra. apply Rmult_le_compat_r; lra.
  - cbn [obs_start ob_gate_env ob_signal_env ob_out B2R fzero]. split; [lra|]. split; [lra|]. split; [reflexivity|]. rewrite Rabs_R0, Vb. apply rnd_ge_fmt; [apply generic_format_0|nra].
Qed.
Print Assumptions C46_envelopes.

Definition samples (xs : list f32) : list cond_call := map Process xs.

(** C46, gate: with the thresholds in the right order, gate() after sample t is open exactly when
    signal_env() exceeded the onset threshold at some earlier point and has not been below the
    release threshold since. *)
Theorem C46_gate :
  forall (c : cond_config) (sps : Z) (xs : list f32), cond_ok c sps -> calls_ok (B2R (cc_comp_gain c)) (samples xs) ->
  fle (to32 (cc_gate_release_threshold c)) (to32 (cc_gate_onset c)) = true ->
  exists k on off os, cond_make c sps = Some k /\ db2a (to32 (cc_gate_onset c)) = Some on /\ db2a (to32 (cc_gate_release_threshold c)) = Some off /\
  cond_run k (samples xs) = Some os /\ length os = length xs /\
  forall t o, nth_error os t = Some o ->
    (ob_gate o = true <-> latch_on (fun e => flt on e) (fun e => flt e off) false (map ob_signal_env os) t).
Proof.
  intros c sps xs H Ok L. destruct (C46_conditioner c sps (samples xs) H Ok) as (k & on & off & ce & ca & cr & os & E & _ & E1 & E2 & R & C).
  exists k, on, off, os. split; [exact E|]. split; [exact E1|]. split; [exact E2|]. split; [exact R|].
  assert (K : forall xs on off p os, conforms c ce ca cr on off p (samples xs) os -> length os = length xs /\
     map ob_gate os = run (gate_step flt on off) (ob_gate p) (map ob_signal_env os)).
  { clear. induction xs as [|x xs IH]; intros on off p os C; cbn [samples map] in C; inversion C; subst; [auto|].
    match goal with X : conforms _ _ _ _ _ _ _ (map Process xs) _ |- _ => apply IH in X; destruct X as [H6 H7] end.
    split; [cbn [length]; congruence|]. cbn [map run].
    match goal with X : sample_ok _ _ _ _ _ _ _ _ _ |- _ => destruct X as (_ & G & _) end. pose proof (gate_step_spec on off (ob_gate p) (ob_signal_env o)) as Q.
    unfold gate_step in *. cbn [fst] in Q. rewrite Q, <- G. f_equal. exact H7. }
  destruct (K _ _ _ _ _ C) as [Ln Mp]. split; [exact Ln|]. intros t o Ht.
  destruct (C34_db2a_total (to32 (cc_gate_onset c))) as (on' & Eon & Fon & _). rewrite E1 in Eon. injection Eon as <-.
  destruct (C34_db2a_total (to32 (cc_gate_release_threshold c))) as (off' & Eoff & Foff & _). rewrite E2 in Eoff. injection Eoff as <-.
  destruct (C34_db2a_monotone _ _ L) as (a & b & Ea & Eb & Lab). rewrite E2 in Ea. rewrite E1 in Eb. injection Ea as <-. injection Eb as <-.
  apply (C24_noise_gate_float on off (map ob_signal_env os) Fon Foff).
  - apply (fle_true off on Foff Fon). exact Lab.
  - change false with (ob_gate obs_start). rewrite <- Mp. apply map_nth_error. exact Ht.
Qed.
Print Assumptions C46_gate.

(** C46, noise: as long as no sample is louder than the onset threshold, the gate stays closed and
    the output is silent. *)
Theorem C46_noise_is_silenced :
  forall (c : cond_config) (sps : Z) (xs : list f32) (on : f32), cond_ok c sps -> calls_ok (B2R (cc_comp_gain c)) (samples xs) ->
  db2a (to32 (cc_gate_onset c)) = Some on -> (forall x, In x xs -> Rabs (B2R x) <= B2R on) ->
  exists k os, cond_make c sps = Some k /\ cond_run k (samples xs) = Some os /\
  forall o, In o os -> ob_gate o = false /\ B2R (ob_gate_env o) = 0 /\ B2R (ob_out o) = 0.
Proof.
  intros c sps xs on H Ok Eon Hx.
  assert (M0 : 0 <= B2R (cc_comp_gain c)) by apply H. assert (FM : is_finite (cc_comp_gain c) = true) by apply H.
  destruct (make_ok c sps H) as (k & E & I & E1 & _ & _ & G0).
  destruct (C34_db2a_total (to32 (cc_gate_onset c))) as (on' & Eo' & Fon & Pon). rewrite Eon in E1, Eo'. injection E1 as E1. injection Eo' as <-.
  destruct H as (Hs & T1 & T2 & Ht & Hr & _ & _).
  destruct (time_smoothing sps _ Hs T1) as [C1 _]. destruct (time_smoothing sps _ Hs T2) as [C2 _]. destruct (time_smoothing sps _ Hs (attack_time sps Hs)) as [C3 _].
  exists k.
  assert (Z0 : B2R (cn_genv k) = 0) by (pose proof E as E'; unfold cond_make in E'; destruct (float_of_db (cc_gate_onset c)), (float_of_db (cc_gate_release_threshold c)); try discriminate E'; injection E' as <-; reflexivity).
  assert (S0 : B2R (cn_env k) = 0) by (pose proof E as E'; unfold cond_make in E'; destruct (float_of_db (cc_gate_onset c)), (float_of_db (cc_gate_release_threshold c)); try discriminate E'; injection E' as <-; reflexivity).
  assert (L0 : B2R (cn_env k) <= B2R on) by lra. clear S0.
  assert (K : forall xs k, cinv c (env_coeff sps (cc_env_release c)) (env_coeff sps (lit_us 500)) (env_coeff sps (cc_gate_release c)) k ->
     calls_ok (B2R (cc_comp_gain c)) (samples xs) -> (forall x, In x xs -> Rabs (B2R x) <= B2R on) ->
     on = cn_onset k -> cn_gate k = false -> B2R (cn_genv k) = 0 -> B2R (cn_env k) <= B2R on ->
     exists os, cond_run k (samples xs) = Some os /\ forall o, In o os -> ob_gate o = false /\ B2R (ob_gate_env o) = 0 /\ B2R (ob_out o) = 0).
  { clear - C1 C2 C3 Ht Hr FM M0 Fon. induction xs as [|x xs IH]; intros k I Ok Hx En G0 Z0 L0; [exists []; split; [reflexivity|intros o []]|].
    cbn [samples map cond_run cond_call1].
    destruct (step_ok c _ _ _ k x fzero C1 C3 C2 Ht Hr FM M0 I (Ok x (or_introl eq_refl))) as (k' & o & E & I' & E1 & E2 & ((S1 & S2) & _) & SG & SE & a & _ & _ & _ & _ & _).
    revert S1 S2 SG SE. unfold cond_observe, cond_gate, cond_gate_env, cond_signal_env. cbn [ob_gate ob_gate_env ob_signal_env ob_out]. intros S1 S2 SG SE.
    rewrite G0, <- En in SG. assert (Lx : B2R (cn_env k') <= B2R on) by (eapply Rle_trans; [exact S2|]; apply Rmax_lub; [exact L0|apply Hx; left; reflexivity]).
    rewrite (proj2 (flt_false on (cn_env k') Fon (proj1 (iv_env _ _ _ _ _ I'))) Lx) in SG. rewrite SG in SE.
    assert (Zg : B2R (cn_genv k') = 0) by lra.
    rewrite E. cbv beta iota zeta delta [bind]. cbn [fst snd].
    destruct (IH k' I') as (os & R & Ho); auto; [intros s Hs; apply Ok; right; exact Hs|intros y Hy; apply Hx; right; exact Hy|congruence|].
    fold (samples xs). rewrite R. eexists. split; [reflexivity|]. intros q [<-|Hq]; [|apply Ho; exact Hq].
    unfold cond_observe, cond_gate, cond_gate_env. cbn [ob_gate ob_gate_env ob_out]. split; [exact SG|]. split; [exact Zg|].
    (* the output is 0 because the gate envelope is *)
    destruct (Ok x (or_introl eq_refl)) as [Bx _]. revert E Zg. unfold cond_step.
    destruct (decibel_of_amplitude _) as [d|]; cbv beta iota zeta delta [bind]; [|intros X; discriminate X].
    destruct (float_of_db _) as [g|] eqn:Eg; [|intros X; discriminate X]. intros X. injection X as X1 X2. rewrite <- X1, <- X2. cbn [cn_genv]. intros Zg.
    assert (Fg' : is_finite (cn_genv k') = true) by apply I'. rewrite <- X1 in Fg'. cbn [cn_genv] in Fg'. set (ge := ef_step _ _ _ _) in *.
    assert (Zx : B2R (fmul x ge) = 0 /\ is_finite (fmul x ge) = true).
    { destruct (fmul_R x ge (proj1 Bx) Fg') as [V F]; [rewrite Zg, Rmult_0_r, rnd_0, Rabs_R0; apply bpow_gt_0|]. rewrite V, Zg, Rmult_0_r, rnd_0. auto. }
    destruct Zx as [Zx Fx]. destruct (C34_db2a_total (to32 (comp_gain (cn_comp k) d))) as (g' & Eg' & Fg & Rg). unfold float_of_db in Eg. rewrite Eg' in Eg. injection Eg as <-.
    assert (Fm : is_finite (fmul g' (cn_makeup k)) = true -> B2R (fmul (fmul x ge) (fmul g' (cn_makeup k))) = 0).
    { intros Fm. destruct (fmul_R (fmul x ge) (fmul g' (cn_makeup k)) Fx Fm) as [V _]; [rewrite Zx, Rmult_0_l, rnd_0, Rabs_R0; apply bpow_gt_0|]. rewrite V, Zx, Rmult_0_l. apply rnd_0. }
    destruct (fmul g' (cn_makeup k)) as [|[]| |]; try (apply Fm; reflexivity); destruct (fmul x ge) as [|[]| |]; reflexivity. }
  destruct (K xs k I Ok Hx E1 G0 Z0 L0) as (os & R & Ho). exists os. auto.
Qed.
Print Assumptions C46_noise_is_silenced.

(** C46, band-limited variant: it is the conditioner behind a band-pass filter (the difference of
    two one-pole lowpasses, of coefficients in [0,1)); for inputs of magnitude up to B it never
    fails, the filtered signal stays within 2B, and the output within 2B times the make-up gain. *)
Theorem C46_band_limited :
  forall (c : cond_config) (x1 x2 : f32) (f1 f2 : R) (sps : Z) (xs : list f32) (b b2 : f32), cond_ok c sps ->
  0.00001 * IZR sps <= f1 <= 0.15 * IZR sps -> 0.00001 * IZR sps <= f2 <= 0.15 * IZR sps ->
  lowpass_arg x1 f1 (IZR sps) -> lowpass_arg x2 f2 (IZR sps) ->
  0 <= B2R b -> B2R b2 = 2 * B2R b -> input_ok (B2R (cc_comp_gain c)) b2 ->
  (forall s, In s xs -> is_finite s = true /\ Rabs (B2R s) <= B2R b) ->
  let ys := band (lowpass_coeff x1) (lowpass_coeff x2) xs in
  exists bl k os, bl_make c x1 x2 sps = Some bl /\ cond_make c sps = Some k /\
    bl_run bl xs = Some os /\ cond_run k (samples ys) = Some os /\
    length ys = length xs /\ (forall y, In y ys -> is_finite y = true /\ Rabs (B2R y) <= B2R b2) /\
    forall o, In o os -> 0 <= B2R (ob_gate_env o) <= 1 /\ 0 <= B2R (ob_signal_env o) <= B2R b2 /\
      is_finite (ob_out o) = true /\ Rabs (B2R (ob_out o)) <= B2R (fmul b2 (cc_comp_gain c)).
Proof.
  intros c x1 x2 f1 f2 sps xs b b2 H Hf1 Hf2 A1 A2 B0 E2 Bi Hx ys.
  assert (S0 : 0 < IZR sps) by (apply IZR_lt; destruct H; lia).
  destruct (proj2 (C29_cutoff_coefficients x1 x1 f1 (IZR sps) S0 Hf1) A1) as [C1 _].
  destruct (proj2 (C29_cutoff_coefficients x2 x2 f2 (IZR sps) S0 Hf2) A2) as [C2 _].
  set (a1 := lowpass_coeff x1) in *. set (a2 := lowpass_coeff x2) in *.
  assert (Bb : B2R b <= bpow radix2 126). { destruct Bi as [[_ Q] _]. apply Rabs_le_inv in Q. lra. }
  assert (W : all_within (- B2R b) (B2R b) xs).
  { intros s Hs. destruct (Hx s Hs) as [Fs Ls]. split; [split; [exact Fs|lra]|apply Rabs_le_inv; exact Ls]. }
  assert (Z : - B2R b <= B2R (fzero : f32) <= B2R b) by (cbn; lra).
  destruct (C29_output_in_range _ _ a1 fzero xs C1 zero_bounded Z W) as (_ & Wu & _).
  destruct (C29_output_in_range _ _ a2 fzero _ C2 zero_bounded Z Wu) as (_ & Wv & _).
  set (u := filt_run (lowpass_step a1) fzero xs) in *. set (w := filt_run (lowpass_step a2) fzero u) in *.
  assert (Ln : forall st xs y, length (filt_run st y xs) = length xs) by (clear; induction xs; intros; cbn; auto).
  assert (Ly : length ys = length xs) by (unfold ys, band; rewrite map_length, combine_length; fold u; fold w; unfold w; rewrite Ln; unfold u; rewrite Ln; lia).
  assert (Hy : forall y, In y ys -> is_finite y = true /\ Rabs (B2R y) <= B2R b2).
  { intros y Hy. unfold ys, band in Hy. fold u in Hy. fold w in Hy. apply in_map_iff in Hy. destruct Hy as ([p q] & <- & Hpq). cbn [fst snd].
    destruct (Wu p (in_combine_l _ _ _ _ Hpq)) as [[Fp _] Rp]. destruct (Wv q (in_combine_r _ _ _ _ Hpq)) as [[Fq _] Rq].
    destruct (fsub_bnd p q (B2R b2) Fp Fq (generic_format_B2R _ _ b2)) as (_ & F & L); [pose proof (fin_lt_emax b2) as Q; rewrite Rabs_pos_eq in Q by lra; exact Q|apply Rabs_le; lra|].
    split; [exact F|exact L]. }
  assert (P2 : 0 <= B2R b2) by lra.
  destruct (C46_envelopes c sps (samples ys) b2 H P2 Bi) as (k & os & E & R & Ho).
  { intros s Hs. apply Hy. apply in_map_iff in Hs. destruct Hs as (q & Eq & Hq). injection Eq as <-. exact Hq. }
  exists (mkBl fzero a1 fzero a2 k), k, os. split; [unfold bl_make; rewrite E; reflexivity|]. split; [exact E|].
  split; [|split; [exact R|split; [exact Ly|split; [exact Hy|exact Ho]]]].
  rewrite <- R. unfold ys, band. clear. generalize (fzero : f32) at 2 4 as y2. generalize (fzero : f32) as y1. revert k.
  induction xs as [|s xs IH]; intros k y1 y2; [reflexivity|]. cbn [bl_run filt_run combine map samples cond_run cond_call1 fst snd].
  unfold bl_step. cbn [bl_a1 bl_a2 bl_lp1 bl_lp2 bl_cond].
  destruct (cond_step k _) as [[k' o]|]; cbv beta iota zeta delta [bind]; [|reflexivity]. cbn [fst snd bl_cond]. rewrite IH. reflexivity.
Qed.
Print Assumptions C46_band_limited.

(** C46, found: the finiteness of the samples is needed: two infinite samples in a row make the
    envelope NaN (infinity - infinity) and the decibel conversion's assertion fails. *)
Theorem C46_infinite_input_refuted :
  ~ (forall (xs : list f32) k, cond_make default_config 44100 = Some k -> (forall x, In x xs -> is_nan x = false) ->
     exists os, cond_run k (samples xs) = Some os).
Proof.
  intros Q. assert (T : match cond_make default_config 44100 with Some k => match cond_run k (samples [B754_infinity false; B754_infinity true]) with None => true | Some _ => false end | None => false end = true) by (vm_compute; reflexivity).
  destruct (cond_make default_config 44100) as [k|]; [|discriminate T].
  destruct (Q [B754_infinity false; B754_infinity true] k eq_refl) as [os E]; [|rewrite E in T; discriminate T].
  intros x [<-|[<-|[]]]; reflexivity.
Qed.
Print Assumptions C46_infinite_input_refuted.

(** the default configuration at 44.1 kHz is sensible, and a burst of half-scale samples opens the
    gate; the third output is audible *)
Example C46_example : cond_ok default_config 44100 /\
  match cond_make default_config 44100 with
  | Some k => match cond_run k (samples [mk32 1 (-1); mk32 1 (-1); mk32 1 (-1)]) with
              | Some [_; _; o] => ob_gate o && fgt (ob_out o) (mk32 1 (-3)) && flt (ob_out o) (mk32 1 (-2))
              | _ => false end
  | None => false end = true.
Proof.
  split; [|vm_compute; reflexivity].
  assert (Ms : forall n, (n = 50 \/ n = 10)%N -> time_ok 44100 (lit_ms n)).
  { intros n Hn. destruct (C35_literals n) as (_ & _ & _ & _ & L & _).
    assert (K : (n <= 2 ^ 53)%N) by (apply N.leb_le; destruct Hn; subst; reflexivity).
    destruct (L K) as [F E]. clear L. assert (V : IZR (Z.of_N n) = 50 \/ IZR (Z.of_N n) = 10) by (destruct Hn; subst; [left|right]; reflexivity).
    apply Rabs_le_inv in E. split; [exact F|]. assert (B2R (lit_ms n) <= 1) by (destruct V; lra). split; [|destruct V; lra].
    apply Rle_trans with (bpow radix2 0); [change (bpow radix2 0) with 1; lra|apply bpow_le; lia]. }
  destruct (mk64_small (-27) 0 ltac:(reflexivity) ltac:(lia)) as [V1 F1]. change (bpow radix2 0) with 1 in V1.
  destruct (mk32_small 1 (-2) ltac:(reflexivity) ltac:(lia)) as [V2 F2]. change (bpow radix2 (-2)) with (/ 4) in V2.
  destruct (int32 10 ltac:(reflexivity)) as [V3 F3].
  split; [lia|]. split; [apply Ms; auto|]. split; [apply Ms; auto|]. cbn [cc_comp_threshold cc_comp_slope cc_comp_gain default_config].
  split; [|split; [|split; [exact F3|rewrite V3; lra]]].
  - split; [exact F1|]. rewrite V1. apply Rle_trans with (bpow radix2 5); [change (bpow radix2 5) with 32; apply Rabs_le; lra|apply bpow_le; lia].
  - split; [exact F2|]. rewrite V2. lra.
Qed.
