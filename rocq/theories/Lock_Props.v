(** Property C55, the reports of the dual pitch detector.  Theorems only. *)
From Coq Require Import Reals Lra.
From Flocq Require Import Core.Core IEEE754.BinarySingleNaN.
From Verif Require Import Common Float FloatFacts Zc_Model Zc_Spec PD_Model PD_Spec PD_Proof PD_Pred Pitch_Model Pitch_Spec Pitch_Proof Pitch_Props FloatRel
  Dual_Model Dual_Spec Dual_Proof Dual_Props Per_Spec Per_Zc Per_Ana Per_Proof Per_Pred Per_Dual Per_Props Per_Lock.
Local Open Scope Z_scope.

(** A signal that has one pulse per period of [P] samples, and whose negation has one too (both
    conditioned, both after silence of any length), fed with predict_frequency() called anywhere.
    Take any moment from one window and a half plus P past the onsets on.  If the dual detector has
    not reported a pitch yet, or its running mean is less than an octave from sps / P, then from one
    window plus P later on it reports exactly the float sps / P with periodicity exactly 1, at every
    sample, for ever.  (Otherwise the octave lock of C43 holds: it never reports it.) *)
Theorem C55_dual_report :
  forall oob hyst n min range sps lo hi x P a c a' c' t0 d0, ints oob -> (n <= 2 ^ 28)%N -> (1 <= sps < 2 ^ 24)%N ->
  pit_make hyst n min range sps = Some t0 -> dual_make hyst n min range sps lo hi = Some d0 ->
  one_pulse (cond_of hyst x) hyst P a c -> is_finite (fsub (cond_of hyst x a) (cond_of hyst x (a - 1))) = true ->
  one_pulse (cond_of hyst (fun k => fneg (x k))) hyst P a' c' ->
  is_finite (fsub (cond_of hyst (fun k => fneg (x k)) a') (cond_of hyst (fun k => fneg (x k)) (a' - 1))) = true ->
  4 <= P < 2 ^ 24 -> Z.of_N min <= P -> 2 * P <= Z.of_N (z_win (p_zc (t_pd t0))) ->
  P + 2 <= 2 * (Z.of_N (N.max (z_win (p_zc (t_pd t0)) / 64 / 2 - 1) 1) * 64) ->
  forall cs k d, samples cs = first_samples x k -> dual_calls oob d0 cs = Some d ->
  Z.max a a' + Z.of_N (z_win (p_zc (t_pd t0))) + Z.of_N (z_win (p_zc (t_pd t0))) / 2 + P <= Z.of_nat k ->
  d_first d = true \/ (sane (d_mean d) /\ octave (d_mean d) (fdiv (z32 (Z.of_N sps)) (z32 P))) ->
  forall later j, samples (cs ++ later) = first_samples x j -> Z.of_nat k + Z.of_N (z_win (p_zc (t_pd t0))) + P <= Z.of_nat j ->
  exists d', dual_calls oob d0 (cs ++ later) = Some d' /\
    dual_frequency d' = fdiv (z32 (Z.of_N sps)) (z32 P) /\ dual_periodicity d' = z32 1.
Proof.
  intros oob hyst n min range sps lo hi x P a c a' c' t0 d0 Ho Hn Hs Et Ed OP ST OP2 ST2 HP Mn HPW HM cs k d Sk Ek Hk M later j Sj Hj.
  change (2 ^ 24) with 16777216 in HP.
  assert (Hm : (min < 2 ^ 64)%N) by (change (2 ^ 64)%N with 18446744073709551616%N; lia).
  assert (HP' : 4 <= P < 2 ^ 24) by (change (2 ^ 24) with 16777216; lia).
  assert (E0 : pd_make hyst n min range = Some (t_pd t0)).
  { unfold pit_make in Et. destruct (pd_make hyst n min range) as [p|]; [|discriminate Et]. cbn [bind] in Et. injection Et as <-. reflexivity. }
  destruct (make_inv oob _ _ _ _ _ _ _ _ Ed) as (t1 & Et1 & I0). assert (t1 = t0) by congruence. subst t1.
  destruct (lock_calls oob hyst n min range x P a c a' c' (t_pd t0) Hn E0 OP OP2 HP' HPW HM ST ST2 Mn Ho Hm sps t0 Hs Et d0 cs k d I0 Ek Sk Hk M later j Sj)
    as (d' & E & _ & L).
  exists d'. split; [exact E|]. pose proof (op_order _ _ _ _ _ OP) as O.
  destruct (report_within oob hyst n min range x P a c (t_pd t0) Hn E0 OP HP' HPW HM ST Mn k ltac:(lia)) as (i & Hi & A).
  destruct L as (C & _ & _); [exists i; split; [lia|exact A]|]. unfold dual_frequency, dual_periodicity. rewrite C. split; reflexivity.
Qed.
Print Assumptions C55_dual_report.

(** 503 samples of silence, then the signal of Per_Props starting at its rise: the detector on the
    signal sees pulses from 503 to 510, the one on the negated signal from 510 to 523 *)
Definition late2 (k : Z) : f32 := if k <? 503 then fzero else wave k.
Lemma late2_at k : 503 <= k -> late2 k = wave k.
Proof. intros Hk. unfold late2. destruct (Z.ltb_spec k 503); [lia|reflexivity]. Qed.
Lemma cond_late2 k : 503 <= k -> cond_of hyst55 late2 k = cond_of hyst55 wave k.
Proof. intros Hk. unfold cond_of. rewrite late2_at by exact Hk. reflexivity. Qed.
Lemma late2_quiet k : 0 <= k < 503 -> flt fzero (cond_of hyst55 late2 k) = false /\ flt fzero (cond_of hyst55 (fun k => fneg (late2 k)) k) = false.
Proof.
  intros Hk. unfold cond_of, late2. destruct (Z.ltb_spec k 0) as [X|_]; [lia|]. destruct (Z.ltb_spec k 503) as [_|X]; [|lia].
  assert (T : negb (flt fzero (fadd fzero (fdiv hyst55 (mk32 2 0)))) && negb (flt fzero (fadd (fneg fzero) (fdiv hyst55 (mk32 2 0)))) = true) by (vm_compute; reflexivity).
  apply andb_true_iff in T. destruct T as [T1 T2]. split; [apply negb_true_iff; exact T1|apply negb_true_iff; exact T2].
Qed.
Lemma late2_pulse : one_pulse (cond_of hyst55 late2) hyst55 20 503 510.
Proof.
  assert (E502 : cond_of hyst55 late2 502 = cond_of hyst55 wave 502).
  { assert (L : late2 502 = wave 502) by (vm_compute; reflexivity). unfold cond_of. rewrite L. reflexivity. }
  constructor.
  - lia.
  - intros k Hk. rewrite (cond_late2 (k + 20)) by lia.
    replace (cond_of hyst55 late2 k) with (cond_of hyst55 wave k) by (destruct (Z.eq_dec k 502) as [->|N]; [symmetry; exact E502|symmetry; apply cond_late2; lia]).
    rewrite (cond_wave (k + 20)), (cond_wave k) by lia. f_equal. replace (k + 20) with (k + 1 * 20) by lia. apply Z.mod_add. lia.
  - intros k Hk. apply late2_quiet. lia.
  - rewrite cond_late2, wave_pos by lia. reflexivity.
  - intros k Hk [C1 C2]. rewrite cond_late2, wave_pos in C1 by lia. lia.
  - split; [rewrite cond_late2, wave_pos by lia|rewrite cond_late2, wave_low by lia]; reflexivity.
  - intros k Hk. rewrite cond_late2, wave_pos by lia. lia.
Qed.
Notation wave' := (fun k => fneg (wave k)).
Notation late2' := (fun k => fneg (late2 k)).
Lemma cond_wave' k : 0 <= k -> cond_of hyst55 wave' k = cond_of hyst55 wave' (k mod 20).
Proof.
  intros Hk. pose proof (Z.mod_pos_bound k 20 ltac:(lia)) as M. unfold cond_of. destruct (Z.ltb_spec k 0) as [X|_]; [lia|].
  destruct (Z.ltb_spec (k mod 20) 0) as [X|_]; [lia|]. unfold wave. rewrite Zmod_mod. reflexivity.
Qed.
Lemma wave_pos' k : 0 <= k -> flt fzero (cond_of hyst55 wave' k) = ((k mod 20 =? 1) || ((10 <=? k mod 20) && (k mod 20 <? 17)) || (k mod 20 =? 19))%bool.
Proof.
  assert (T : forall k, 0 <= k < 20 -> Bool.eqb (flt fzero (cond_of hyst55 wave' k)) ((k =? 1) || ((10 <=? k) && (k <? 17)) || (k =? 19))%bool = true)
    by (apply all20; vm_compute; reflexivity).
  intros Hk. rewrite cond_wave' by exact Hk. apply Bool.eqb_prop, T. apply Z.mod_pos_bound. lia.
Qed.
Lemma wave_low' k : 0 <= k -> flt (cond_of hyst55 wave' k) hyst55 = ((3 <=? k mod 20) && (k mod 20 <? 10))%bool.
Proof.
  assert (T : forall k, 0 <= k < 20 -> Bool.eqb (flt (cond_of hyst55 wave' k) hyst55) ((3 <=? k) && (k <? 10))%bool = true)
    by (apply all20; vm_compute; reflexivity).
  intros Hk. rewrite cond_wave' by exact Hk. apply Bool.eqb_prop, T. apply Z.mod_pos_bound. lia.
Qed.
Lemma cond_late2' k : 503 <= k -> cond_of hyst55 late2' k = cond_of hyst55 wave' k.
Proof. intros Hk. unfold cond_of. rewrite late2_at by exact Hk. reflexivity. Qed.
Lemma late2_pulse' : one_pulse (cond_of hyst55 late2') hyst55 20 510 523.
Proof.
  constructor.
  - lia.
  - intros k Hk. rewrite !cond_late2' by lia. rewrite (cond_wave' (k + 20)), (cond_wave' k) by lia. f_equal.
    replace (k + 20) with (k + 1 * 20) by lia. apply Z.mod_add. lia.
  - intros k Hk. destruct (Z_lt_ge_dec k 503) as [L|L]; [apply late2_quiet; lia|]. rewrite cond_late2', wave_pos' by lia. lia.
  - rewrite cond_late2', wave_pos' by lia. reflexivity.
  - intros k Hk [C1 C2]. rewrite cond_late2', wave_low' in C2 by lia. lia.
  - split; [rewrite cond_late2', wave_pos' by lia|rewrite cond_late2', wave_low' by lia]; reflexivity.
  - intros k Hk. rewrite cond_late2', wave_pos' by lia. lia.
Qed.
Lemma samples_of l : samples (map Sample l) = l.
Proof. induction l as [|y l IH]; [reflexivity|]. cbn [map samples]. f_equal. exact IH. Qed.
Definition d722 : option dual :=
  do d0 <- dual_make hyst55 100 4 10 44100 (mk64 100 0) (mk64 4000 0) ; dual_calls (fun _ => 0) d0 (map Sample (first_samples late2 722)).
(** after 722 samples the detector is tracking; from 870 samples on it reports 2205 Hz at every
    sample, for ever *)
Example C55_dual_report_example : exists d0, dual_make hyst55 100 4 10 44100 (mk64 100 0) (mk64 4000 0) = Some d0 /\
  forall j, (870 <= j)%nat -> exists d, dual_calls (fun _ => 0) d0 (map Sample (first_samples late2 j)) = Some d /\
    feq (dual_frequency d) (z32 2205) = true /\ dual_periodicity d = z32 1.
Proof.
  destruct (pit_make hyst55 100 4 10 44100) as [t0|] eqn:Et.
  2: { exfalso. assert (T : match pit_make hyst55 100 4 10 44100 with Some _ => true | None => false end = true) by (vm_compute; reflexivity).
       rewrite Et in T. discriminate. }
  assert (Wn : z_win (p_zc (t_pd t0)) = 128%N).
  { assert (T : match pit_make hyst55 100 4 10 44100 with Some q => (z_win (p_zc (t_pd q)) =? 128)%N | None => false end = true) by (vm_compute; reflexivity).
    rewrite Et in T. apply N.eqb_eq. exact T. }
  assert (T : match d722 with Some d => negb (d_first d) && is_finite (d_mean d) && feq (d_mean d) (fdiv (z32 44100) (z32 20)) | None => false end = true) by (vm_compute; reflexivity).
  unfold d722 in T. destruct (dual_make hyst55 100 4 10 44100 (mk64 100 0) (mk64 4000 0)) as [d0|] eqn:Ed; cbn [bind] in T; [|discriminate].
  destruct (dual_calls (fun _ => 0) d0 (map Sample (first_samples late2 722))) as [d|] eqn:E; [|discriminate].
  apply andb_true_iff in T. destruct T as [T T2]. apply andb_true_iff in T. destruct T as [_ T1].
  assert (O0 : ints (fun _ => 0)) by (intros y; lia).
  assert (E0 : pd_make hyst55 100 4 10 = Some (t_pd t0)).
  { unfold pit_make in Et. destruct (pd_make hyst55 100 4 10) as [p|]; [|discriminate Et]. cbn [bind] in Et. injection Et as <-. reflexivity. }
  assert (H1 : (100 <= 2 ^ 28)%N) by (vm_compute; discriminate).
  assert (H2 : (1 <= 44100 < 2 ^ 24)%N) by (change (2 ^ 24)%N with 16777216%N; lia).
  assert (H3 : 4 <= 20 < 2 ^ 24) by (change (2 ^ 24) with 16777216; lia).
  assert (H4 : 2 * 20 <= Z.of_N (z_win (p_zc (t_pd t0)))) by (rewrite Wn; lia).
  assert (H5 : 20 + 2 <= 2 * (Z.of_N (N.max (z_win (p_zc (t_pd t0)) / 64 / 2 - 1) 1) * 64)) by (rewrite Wn; vm_compute; discriminate).
  assert (H6 : is_finite (fsub (cond_of hyst55 late2 503) (cond_of hyst55 late2 (503 - 1))) = true) by (vm_compute; reflexivity).
  assert (H7 : is_finite (fsub (cond_of hyst55 late2' 510) (cond_of hyst55 late2' (510 - 1))) = true) by (vm_compute; reflexivity).
  assert (G : sane (d_mean d) /\ octave (d_mean d) (fdiv (z32 (Z.of_N 44100)) (z32 20))).
  { destruct (good_here (fun _ => 0) hyst55 100 4 10 late2 20 503 510 510 523 (t_pd t0) H1 E0 late2_pulse late2_pulse' H3 H4 H5 H6 H7 ltac:(lia) O0 ltac:(vm_compute; reflexivity) 44100 t0 H2 Et)
      as [[S1 S2] O]. unfold freq in *. change (Z.of_N 44100) with 44100 in *. apply feq_true in T2; [|exact T1|exact S1].
    unfold sane, octave. rewrite T2. auto. }
  exists d0. split; [reflexivity|]. intros j Hj.
  assert (Sp : exists l, first_samples late2 j = first_samples late2 722 ++ l).
  { exists (map (fun k => late2 (Z.of_nat k)) (seq 722 (j - 722))). unfold first_samples. rewrite <- map_app. f_equal.
    change (seq 722 (j - 722)) with (seq (0 + 722) (j - 722)). rewrite <- seq_app. f_equal. lia. }
  destruct Sp as (l & El).
  destruct (C55_dual_report (fun _ => 0) hyst55 100 4 10 44100 (mk64 100 0) (mk64 4000 0) late2 20 503 510 510 523 t0 d0 O0 H1 H2 Et Ed late2_pulse H6 late2_pulse' H7 H3 ltac:(lia) H4 H5
    (map Sample (first_samples late2 722)) 722%nat d (samples_of _) E) with (later := map Sample l) (j := j) as (d' & E' & V1 & V2).
  - rewrite Wn. change (Z.of_N 128 / 2) with 64. lia.
  - right. exact G.
  - rewrite <- map_app, <- El. apply samples_of.
  - rewrite Wn. lia.
  - rewrite El, map_app. exists d'. split; [exact E'|]. split; [|exact V2]. rewrite V1. vm_compute. reflexivity.
Qed.
