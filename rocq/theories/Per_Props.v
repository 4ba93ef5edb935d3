(** Property C55.  Theorems only. *)
From Coq Require Import Reals Lra.
From Flocq Require Import Core.Core IEEE754.BinarySingleNaN.
From Verif Require Import Common Float FloatFacts Bitset_Model Bitset_Spec Zc_Model Zc_Spec Zc_Proof PD_Model PD_Spec PD_Proof PD_Pred Pitch_Model Pitch_Spec Pitch_Proof Pitch_Props FloatRel Dual_Model Dual_Spec Dual_Proof Dual_Props Per_Spec Per_Zc Per_Ana Per_Proof Per_Pred Per_Dual.
Local Open Scope Z_scope.

(** C55.  A signal whose conditioned version (sample plus half the negative hysteresis) is silent (not
    above zero) until an onset at sample [a], as late as one likes, and from there on has one pulse per
    period of [P] samples ([one_pulse]; the pulse rises from [h (a-1)] to [h a], not infinitely
    steeply), fed from its beginning to a detector whose window holds at least two periods and whose
    minimum period is at most [P] ([P + 2] at most twice the number of bits the autocorrelation
    compares: implied by the window holding two periods unless the window is 256 or 320 samples):
    after ANY number of samples from one window and a half plus P past the onset on -- from window + P
    on, if the first pulse ends within the first period --, the fundamental is exactly P samples, with
    periodicity exactly 1. *)
Theorem C55_period_detected :
  forall oob hyst n min range x P a c p0, (n <= 2 ^ 28)%N -> pd_make hyst n min range = Some p0 ->
  one_pulse (cond_of hyst x) hyst P a c -> is_finite (fsub (cond_of hyst x a) (cond_of hyst x (a - 1))) = true ->
  4 <= P < 2 ^ 24 -> Z.of_N min <= P -> 2 * P <= Z.of_N (z_win (p_zc p0)) ->
  P + 2 <= 2 * (Z.of_N (N.max (z_win (p_zc p0) / 64 / 2 - 1) 1) * 64) ->
  forall k, (c <= P /\ Z.of_N (z_win (p_zc p0)) + P <= Z.of_nat k) \/
            a + Z.of_N (z_win (p_zc p0)) + Z.of_N (z_win (p_zc p0)) / 2 + P <= Z.of_nat k ->
  exists p, pd_run oob p0 (first_samples x k) = Some p /\
    is_finite (p_period p) = true /\ B2R (p_period p) = IZR P /\
    is_finite (p_periodicity p) = true /\ B2R (p_periodicity p) = 1%R.
Proof.
  intros oob hyst n min range x P a c p0 Hn E0 OP ST HP Mn HPW HM k Hk.
  exact (any_settled oob hyst n min range x P a c p0 Hn E0 OP HP HPW HM ST Mn k Hk).
Qed.
Print Assumptions C55_period_detected.

(** every analysis from one window past the first pulse on finds it -- every analysis at all, if the
    first pulse ends within the first period *)
Theorem C55_every_analysis :
  forall oob hyst n min range x P a c p0, (n <= 2 ^ 28)%N -> pd_make hyst n min range = Some p0 ->
  one_pulse (cond_of hyst x) hyst P a c -> is_finite (fsub (cond_of hyst x a) (cond_of hyst x (a - 1))) = true ->
  4 <= P < 2 ^ 24 -> Z.of_N min <= P -> 2 * P <= Z.of_N (z_win (p_zc p0)) ->
  P + 2 <= 2 * (Z.of_N (N.max (z_win (p_zc p0) / 64 / 2 - 1) 1) * 64) ->
  forall k p, pd_run oob p0 (first_samples x k) = Some p -> z_ready (p_zc p) = true ->
    c <= P \/ c + Z.of_N (z_win (p_zc p0)) <= Z.of_nat k ->
    B2R (p_period p) = IZR P /\ B2R (p_periodicity p) = 1%R.
Proof.
  intros oob hyst n min range x P a c p0 Hn E0 OP ST HP Mn HPW HM k p Er Rd Hk.
  destruct (any_ready oob hyst n min range x P a c p0 Hn E0 OP HP HPW HM ST Mn k p Er Rd) as (m & E & J & I & S).
  destruct (left_facts oob hyst n min range x P a c p0 Hn E0 OP HP HPW HM ST Mn) as (D0 & _ & _ & _ & _ & _ & _ & Dc).
  pose proof (pi_frame _ _ _ _ _ _ _ _ _ _ _ I) as Fr. rewrite Rd in Fr. destruct (pi_low _ _ _ _ _ _ _ _ _ _ _ I) as (Lo & _).
  destruct S as (_ & S1 & _ & S2); [|auto]. destruct Hk as [Hk|Hk]; [specialize (Dc Hk)|]; lia.
Qed.
Print Assumptions C55_every_analysis.

(** What the analysis works on: when is_ready() holds after [k] samples, the analysed window begins
    [o] samples into the signal, bits() is the pulse pattern of the signal over that window, and the
    collected edges are consecutive pulses, the leading edges exactly [P] apart. *)
Theorem C55_window_exact :
  forall oob hyst n min range x P a c p0, (n <= 2 ^ 28)%N -> pd_make hyst n min range = Some p0 ->
  one_pulse (cond_of hyst x) hyst P a c -> is_finite (fsub (cond_of hyst x a) (cond_of hyst x (a - 1))) = true ->
  4 <= P < 2 ^ 24 -> Z.of_N min <= P -> 2 * P <= Z.of_N (z_win (p_zc p0)) ->
  P + 2 <= 2 * (Z.of_N (N.max (z_win (p_zc p0) / 64 / 2 - 1) 1) * 64) ->
  forall k p, pd_run oob p0 (first_samples x k) = Some p -> z_ready (p_zc p) = true ->
  exists o m0, 0 <= o /\ o + Z.of_N (z_win (p_zc p0)) <= Z.of_nat k < o + Z.of_N (z_win (p_zc p0)) + P /\
    (forall j, (j < z_win (p_zc p0))%N -> bs_get 64 (p_bits p) j = Some (in_pulse P a c (o + Z.of_N j))) /\
    (2 <= z_num (p_zc p))%N /\ 0 <= m0 /\
    forall i, (i < z_num (p_zc p))%N -> exists e, zc_at (p_zc p) i = Some e /\
      o + zi_lead e = a + (m0 + Z.of_N i) * P /\ o + zi_trail e = c + (m0 + Z.of_N i) * P.
Proof.
  intros oob hyst n min range x P a c p0 Hn E0 OP ST HP Mn HPW HM k p Er Rd.
  destruct (any_ready oob hyst n min range x P a c p0 Hn E0 OP HP HPW HM ST Mn k p Er Rd) as (m & E & J & I & _).
  destruct (left_facts oob hyst n min range x P a c p0 Hn E0 OP HP HPW HM ST Mn) as (D0 & _ & _ & OP' & HA & _).
  set (D := left_out a p0) in *.
  destruct (pd_run_ok oob hyst n min range (first_samples x k) Hn) as (q0 & q & G1 & G2 & _ & _ & B & M & _ & _ & _ & _ & S).
  assert (q0 = p0) by congruence. subst q0. assert (q = p) by congruence. subst q. destruct (S Rd) as [Bs _].
  assert (HP4 : 4 <= P) by lia.
  destruct (ready_full _ B M _ hyst P (a - D) (c - D) HA _ _ _ _ _ I Rd) as [St F].
  set (o := Z.of_nat k - D - zc_now (p_zc p)) in *.
  exists (o + D), (m - zlen E + 1). pose proof (fu_o _ _ _ _ _ _ _ _ _ F) as O0. split; [lia|].
  split; [pose proof (pi_frame _ _ _ _ _ _ _ _ _ _ _ I) as Fr; rewrite Rd in Fr; unfold o; lia|].
  split; [intros j Hj; replace (o + D + Z.of_N j) with (o + Z.of_N j + D) by lia; rewrite <- in_pulse_shift;
    exact (win_bits _ B M _ hyst P (a - D) (c - D) OP' HP4 HPW HA _ _ _ _ F p eq_refl Bs j Hj)|].
  split; [exact (fu_two _ _ _ _ _ _ _ _ _ F)|]. split; [exact (fu_m0 _ _ _ _ _ _ _ _ _ F)|]. intros i Hi.
  destruct (fu_edge _ _ _ _ _ _ _ _ _ F i Hi) as (e & A & [E1 _ _ _ _] & E2). exists e. split; [exact A|]. lia.
Qed.
Print Assumptions C55_window_exact.

(** a signal of period 20 that is neither a square wave nor symmetric *)
Definition wave20 : list Z := [0; -3; 0; 2; 5; 7; 6; 6; 3; 1; -1; -4; -6; -7; -6; -3; -1; 0; 0; -1].
Definition wave (k : Z) : f32 := mk32 (nth (Z.to_nat (k mod 20)) wave20 0) 0.
Definition hyst55 : f32 := mk32 (-1) (-6).
Lemma all20 (f : Z -> bool) : forallb (fun q => f (Z.of_nat q)) (seq 0 20) = true -> forall k, 0 <= k < 20 -> f k = true.
Proof.
  intros T k Hk. rewrite forallb_forall in T. specialize (T (Z.to_nat k)). rewrite Z2Nat.id in T by lia. apply T. apply in_seq. lia.
Qed.
Lemma cond_wave k : 0 <= k -> cond_of hyst55 wave k = cond_of hyst55 wave (k mod 20).
Proof.
  intros Hk. pose proof (Z.mod_pos_bound k 20 ltac:(lia)) as M. unfold cond_of. destruct (Z.ltb_spec k 0) as [X|_]; [lia|].
  destruct (Z.ltb_spec (k mod 20) 0) as [X|_]; [lia|]. unfold wave. rewrite Zmod_mod. reflexivity.
Qed.
Lemma wave_pos k : 0 <= k -> flt fzero (cond_of hyst55 wave k) = ((3 <=? k mod 20) && (k mod 20 <? 10))%bool.
Proof.
  assert (T : forall k, 0 <= k < 20 -> Bool.eqb (flt fzero (cond_of hyst55 wave k)) ((3 <=? k) && (k <? 10))%bool = true) by (apply all20; vm_compute; reflexivity).
  intros Hk. rewrite cond_wave by exact Hk. apply Bool.eqb_prop, T. apply Z.mod_pos_bound. lia.
Qed.
Lemma wave_low k : 0 <= k -> flt (cond_of hyst55 wave k) hyst55 = ((k mod 20 =? 1) || ((10 <=? k mod 20) && (k mod 20 <? 17)) || (k mod 20 =? 19))%bool.
Proof.
  assert (T : forall k, 0 <= k < 20 -> Bool.eqb (flt (cond_of hyst55 wave k) hyst55) ((k =? 1) || ((10 <=? k) && (k <? 17)) || (k =? 19))%bool = true)
    by (apply all20; vm_compute; reflexivity).
  intros Hk. rewrite cond_wave by exact Hk. apply Bool.eqb_prop, T. apply Z.mod_pos_bound. lia.
Qed.
Lemma wave_pulse : one_pulse (cond_of hyst55 wave) hyst55 20 3 10.
Proof.
  constructor.
  - lia.
  - intros k Hk. rewrite (cond_wave (k + 20)), (cond_wave k) by lia. f_equal. replace (k + 20) with (k + 1 * 20) by lia. apply Z.mod_add. lia.
  - intros k Hk. rewrite wave_pos by lia. lia.
  - rewrite wave_pos by lia. reflexivity.
  - intros k Hk [C1 C2]. rewrite wave_pos in C1 by lia. lia.
  - split; [rewrite wave_pos by lia|rewrite wave_low by lia]; reflexivity.
  - intros k Hk. rewrite wave_pos by lia. lia.
Qed.
(** the same signal after 500 samples of silence *)
Definition late (k : Z) : f32 := if k <? 500 then fzero else wave k.
Lemma cond_late k : 500 <= k -> cond_of hyst55 late k = cond_of hyst55 wave k.
Proof.
  intros Hk. unfold cond_of, late. destruct (Z.ltb_spec k 0) as [X|_]; [lia|]. destruct (Z.ltb_spec k 500) as [X|_]; [lia|]. reflexivity.
Qed.
Lemma late_pulse : one_pulse (cond_of hyst55 late) hyst55 20 503 510.
Proof.
  constructor.
  - lia.
  - intros k Hk. rewrite !cond_late by lia. rewrite (cond_wave (k + 20)), (cond_wave k) by lia. f_equal.
    replace (k + 20) with (k + 1 * 20) by lia. apply Z.mod_add. lia.
  - intros k Hk. destruct (Z_lt_ge_dec k 500) as [L|L].
    + unfold cond_of, late. destruct (Z.ltb_spec k 0) as [X|_]; [lia|]. destruct (Z.ltb_spec k 500) as [_|X]; [|lia].
      assert (T : negb (flt fzero (fadd fzero (fdiv hyst55 (mk32 2 0)))) = true) by (vm_compute; reflexivity). apply negb_true_iff. exact T.
    + rewrite cond_late, wave_pos by lia. lia.
  - rewrite cond_late, wave_pos by lia. reflexivity.
  - intros k Hk [C1 C2]. rewrite cond_late, wave_pos in C1 by lia. lia.
  - split; [rewrite cond_late, wave_pos by lia|rewrite cond_late, wave_low by lia]; reflexivity.
  - intros k Hk. rewrite cond_late, wave_pos by lia. lia.
Qed.
(** a window of 100 samples (128 bits), minimum period 4: all hypotheses hold, and the fundamental is
    20 after any number of samples from 148 on *)
Theorem C55_witness : exists p0, pd_make hyst55 100 4 10 = Some p0 /\ z_win (p_zc p0) = 128%N /\
  forall k, (148 <= k)%nat -> exists p, pd_run (fun _ => 0) p0 (first_samples wave k) = Some p /\ B2R (p_period p) = 20%R.
Proof.
  destruct (pd_run_ok (fun _ => 0) hyst55 100 4 10 [] ltac:(vm_compute; discriminate)) as (p0 & _ & E0 & _).
  assert (Wn : z_win (p_zc p0) = 128%N).
  { assert (T : match pd_make hyst55 100 4 10 with Some q => (z_win (p_zc q) =? 128)%N | None => false end = true) by (vm_compute; reflexivity).
    rewrite E0 in T. apply N.eqb_eq. exact T. }
  exists p0. split; [exact E0|]. split; [exact Wn|]. intros k Hk.
  destruct (C55_period_detected (fun _ => 0) hyst55 100 4 10 wave 20 3 10 p0 ltac:(vm_compute; discriminate) E0 wave_pulse) with (k := k)
    as (p & Ep & _ & V & _); rewrite ?Wn.
  - vm_compute. reflexivity.
  - change (2 ^ 24) with 16777216. lia.
  - lia.
  - lia.
  - vm_compute. discriminate.
  - left. lia.
  - exists p. auto.
Qed.
Print Assumptions C55_witness.
(** after 500 samples of silence (the first window that sees the signal is not periodic): 20 from 715
    samples on *)
Example C55_late_onset : exists p0, pd_make hyst55 100 4 10 = Some p0 /\
  forall k, (715 <= k)%nat -> exists p, pd_run (fun _ => 0) p0 (first_samples late k) = Some p /\ B2R (p_period p) = 20%R.
Proof.
  destruct C55_witness as (p0 & E0 & Wn & _). exists p0. split; [exact E0|]. intros k Hk.
  destruct (C55_period_detected (fun _ => 0) hyst55 100 4 10 late 20 503 510 p0 ltac:(vm_compute; discriminate) E0 late_pulse) with (k := k)
    as (p & Ep & _ & V & _); rewrite ?Wn.
  - vm_compute. reflexivity.
  - change (2 ^ 24) with 16777216. lia.
  - lia.
  - lia.
  - vm_compute. discriminate.
  - right. change (Z.of_N 128 / 2) with 64. lia.
  - exists p. auto.
Qed.

(** The condition on the window is needed: with windows of 320 samples (five words, of which the
    autocorrelation compares one) a pulse train of period 160 can be taken for a false correlation
    (the comparison at half the period sees no pulse at all), and nothing is reported. *)
Definition short160 (k : Z) : f32 := if ((70 <=? k mod 160) && (k mod 160 <? 76))%bool then z32 1 else z32 (-1).
Lemma short_val k : cond_of hyst55 short160 k = (if k <? 0 then fzero else
  if ((70 <=? k mod 160) && (k mod 160 <? 76))%bool then fadd (z32 1) (fdiv hyst55 (mk32 2 0)) else fadd (z32 (-1)) (fdiv hyst55 (mk32 2 0))).
Proof. unfold cond_of, short160. destruct (k <? 0); [reflexivity|]. destruct (_ && _)%bool; reflexivity. Qed.
Lemma short_pulse : one_pulse (cond_of hyst55 short160) hyst55 160 70 76.
Proof.
  assert (U1 : flt fzero (fadd (z32 1) (fdiv hyst55 (mk32 2 0))) = true) by (vm_compute; reflexivity).
  assert (U2 : flt fzero (fadd (z32 (-1)) (fdiv hyst55 (mk32 2 0))) = false) by (vm_compute; reflexivity).
  assert (U3 : flt (fadd (z32 (-1)) (fdiv hyst55 (mk32 2 0))) hyst55 = true) by (vm_compute; reflexivity).
  assert (IN : forall k, 70 <= k < 76 -> cond_of hyst55 short160 k = fadd (z32 1) (fdiv hyst55 (mk32 2 0))).
  { intros k Hk. rewrite short_val, Z.mod_small by lia. destruct (Z.ltb_spec k 0); [lia|].
    destruct (Z.leb_spec 70 k); [|lia]. destruct (Z.ltb_spec k 76); [reflexivity|lia]. }
  assert (OUT : forall k, 0 <= k < 70 \/ 76 <= k < 160 -> cond_of hyst55 short160 k = fadd (z32 (-1)) (fdiv hyst55 (mk32 2 0))).
  { intros k Hk. rewrite short_val, Z.mod_small by lia. destruct (Z.ltb_spec k 0); [lia|].
    destruct (Z.leb_spec 70 k); destruct (Z.ltb_spec k 76); try reflexivity; lia. }
  assert (OUT2 : forall k, 160 <= k < 230 -> cond_of hyst55 short160 k = fadd (z32 (-1)) (fdiv hyst55 (mk32 2 0))).
  { intros k Hk. rewrite short_val. destruct (Z.ltb_spec k 0); [lia|]. replace (k mod 160) with (k - 160) by (apply (Z.mod_unique _ _ 1); lia).
    destruct (Z.leb_spec 70 (k - 160)); [lia|reflexivity]. }
  constructor.
  - lia.
  - intros k Hk. rewrite !short_val. destruct (Z.ltb_spec (k + 160) 0) as [X|_]; [lia|]. destruct (Z.ltb_spec k 0) as [X|_]; [lia|].
    replace (k + 160) with (k + 1 * 160) by lia. rewrite Z.mod_add by lia. reflexivity.
  - intros k Hk. rewrite OUT by lia. exact U2.
  - rewrite IN by lia. exact U1.
  - intros k Hk [C1 _]. rewrite IN in C1 by lia. congruence.
  - split; rewrite OUT by lia; assumption.
  - intros k Hk. destruct (Z_lt_ge_dec k 160); [rewrite OUT by lia|rewrite OUT2 by lia]; exact U2.
Qed.
Theorem C55_any_window_refuted :
  ~ (forall oob hyst n min range x P a c p0, (n <= 2 ^ 28)%N -> pd_make hyst n min range = Some p0 ->
     one_pulse (cond_of hyst x) hyst P a c -> c <= P -> is_finite (fsub (cond_of hyst x a) (cond_of hyst x (a - 1))) = true ->
     4 <= P < 2 ^ 24 -> Z.of_N min <= P -> 2 * P <= Z.of_N (z_win (p_zc p0)) ->
     forall k p, Z.of_N (z_win (p_zc p0)) + P <= Z.of_nat k -> pd_run oob p0 (first_samples x k) = Some p ->
     feq (p_period p) (z32 P) = true).
Proof.
  intros Q.
  destruct (pd_run_ok (fun _ => 0) hyst55 320 4 10 (first_samples short160 480) ltac:(vm_compute; discriminate)) as (p0 & p & E0 & E1 & _).
  assert (T : match pd_make hyst55 320 4 10 with
    | Some q => (z_win (p_zc q) =? 320)%N && match pd_run (fun _ => 0) q (first_samples short160 480) with
        | Some r => feq (p_period r) (z32 (-1)) && negb (feq (p_period r) (z32 160)) | None => false end
    | None => false end%bool = true) by (vm_compute; reflexivity).
  rewrite E0 in T. apply andb_true_iff in T. destruct T as [T1 T2]. rewrite E1 in T2. apply andb_true_iff in T2. destruct T2 as [_ T2].
  apply N.eqb_eq in T1.
  rewrite (Q (fun _ => 0) hyst55 320%N 4%N 10 short160 160 70 76 p0) with (k := 480%nat) in T2; try discriminate T2; auto; rewrite ?T1.
  - vm_compute. discriminate.
  - exact short_pulse.
  - lia.
  - change (2 ^ 24) with 16777216. lia.
  - lia.
  - lia.
  - lia.
Qed.
Print Assumptions C55_any_window_refuted.

(** The pitch detector on top of it: at [sps] samples per second, after any number of samples from
    one window and a half plus P past the onset on (window + P, if the first pulse ends within the first period), get_frequency() is the float quotient sps / P -- within half a unit in the last
    place of the frequency of the signal -- and get_periodicity() is exactly 1. *)
Theorem C55_pitch_detected :
  forall oob hyst n min range sps x P a c t0, (n <= 2 ^ 28)%N -> (1 <= sps < 2 ^ 24)%N -> pit_make hyst n min range sps = Some t0 ->
  one_pulse (cond_of hyst x) hyst P a c -> is_finite (fsub (cond_of hyst x a) (cond_of hyst x (a - 1))) = true ->
  4 <= P < 2 ^ 24 -> Z.of_N min <= P -> 2 * P <= Z.of_N (z_win (p_zc (t_pd t0))) ->
  P + 2 <= 2 * (Z.of_N (N.max (z_win (p_zc (t_pd t0)) / 64 / 2 - 1) 1) * 64) ->
  forall k, (c <= P /\ Z.of_N (z_win (p_zc (t_pd t0))) + P <= Z.of_nat k) \/
            a + Z.of_N (z_win (p_zc (t_pd t0))) + Z.of_N (z_win (p_zc (t_pd t0))) / 2 + P <= Z.of_nat k ->
  exists t, pit_calls oob t0 (map Sample (first_samples x k)) = Some t /\
    get_frequency t = fdiv (z32 (Z.of_N sps)) (z32 P) /\ get_periodicity t = z32 1 /\
    is_finite (get_frequency t) = true /\
    (Rabs (B2R (get_frequency t) - IZR (Z.of_N sps) / IZR P) <= / 16777216 * (IZR (Z.of_N sps) / IZR P))%R.
Proof.
  intros oob hyst n min range sps x P a c t0 Hn Hs Et OP ST HP Mn HPW HM k Hk.
  assert (E0 : pd_make hyst n min range = Some (t_pd t0)).
  { unfold pit_make in Et. destruct (pd_make hyst n min range) as [p|]; [|discriminate Et]. cbn [bind] in Et. injection Et as <-. reflexivity. }
  destruct (any_pitch oob hyst n min range x P a c (t_pd t0) Hn E0 OP HP HPW HM ST Mn sps t0 k Hs Et Hk) as (t & Er & C).
  exists t. split; [exact Er|]. unfold get_frequency, get_periodicity. rewrite C. cbn [i_freq i_pty].
  split; [reflexivity|]. split; [reflexivity|].
  destruct (any_freq oob hyst n min range x P a c (t_pd t0) Hn E0 OP HP HPW HM ST Mn sps Hs) as (F & V & L). split; [exact F|].
  rewrite V. set (r := (IZR (Z.of_N sps) / IZR P)%R).
  assert (R0 : (bpow radix2 (-126) <= r)%R).
  { change (2 ^ 24)%N with 16777216%N in Hs. change (2 ^ 24) with 16777216 in HP.
    assert (BP : (4 <= IZR P <= 16777216)%R) by (split; apply IZR_le; lia).
    assert (BS : (1 <= IZR (Z.of_N sps))%R) by (apply IZR_le; lia).
    apply Rle_trans with (bpow radix2 (-24)); [apply bpow_le; lia|]. change (bpow radix2 (-24)) with (/ 16777216)%R.
    unfold r, Rdiv. rewrite <- (Rmult_1_l (/ 16777216)). assert (/ 16777216 <= / IZR P)%R by (apply Rinv_le; lra).
    apply Rmult_le_compat; lra. }
  pose proof (rnd_rel32_pos r R0) as [Q1 Q2]. apply Rabs_le. lra.
Qed.
Print Assumptions C55_pitch_detected.

(** 44100 Hz and the signal above: 2205 Hz *)
Example C55_pitch_example : exists t0, pit_make hyst55 100 4 10 44100 = Some t0 /\
  forall k, (148 <= k)%nat -> exists t, pit_calls (fun _ => 0) t0 (map Sample (first_samples wave k)) = Some t /\ feq (get_frequency t) (z32 2205) = true.
Proof.
  destruct C55_witness as (p0 & E0 & Wn & _). exists (mkPit p0 info0 44100 0). split; [unfold pit_make; rewrite E0; reflexivity|].
  intros k Hk.
  destruct (C55_pitch_detected (fun _ => 0) hyst55 100 4 10 44100 wave 20 3 10 (mkPit p0 info0 44100 0)) with (k := k)
    as (t & Et & V & _); cbn [t_pd]; rewrite ?Wn.
  - vm_compute. discriminate.
  - change (2 ^ 24)%N with 16777216%N. lia.
  - unfold pit_make. rewrite E0. reflexivity.
  - exact wave_pulse.
  - vm_compute. reflexivity.
  - change (2 ^ 24) with 16777216. lia.
  - lia.
  - lia.
  - vm_compute. discriminate.
  - lia.
  - exists t. split; [exact Et|]. rewrite V. vm_compute. reflexivity.
Qed.

(** predict_period(), called anywhere in any history whose samples are those of the signal, at least
    as long as the signal's period is above the minimum: -1 (nothing to say) or exactly P *)
Theorem C55_prediction :
  forall oob hyst n min range x P a c p0, (n <= 2 ^ 28)%N -> pd_make hyst n min range = Some p0 ->
  one_pulse (cond_of hyst x) hyst P a c -> is_finite (fsub (cond_of hyst x a) (cond_of hyst x (a - 1))) = true ->
  4 <= P < 2 ^ 24 -> Z.of_N min < P -> 2 * P <= Z.of_N (z_win (p_zc p0)) ->
  P + 2 <= 2 * (Z.of_N (N.max (z_win (p_zc p0) / 64 / 2 - 1) 1) * 64) ->
  forall cs k, samples cs = first_samples x k ->
  exists p q v, pd_calls oob p0 cs = Some p /\ pd_predict p = Some (q, v) /\ (v = z32 (-1) \/ v = z32 P).
Proof.
  intros oob hyst n min range x P a c p0 Hn E0 OP ST HP Mn HPW HM cs k Es.
  destruct (calls_total oob hyst n min range p0 (cs ++ [Predict]) Hn E0) as (p2 & E2 & _).
  rewrite calls_app in E2. destruct (pd_calls oob p0 cs) as [p|] eqn:E1; cbn [bind pd_calls] in E2; [|discriminate].
  destruct (pd_predict p) as [[q v]|] eqn:Ev; cbn [bind fst] in E2; [|discriminate].
  exists p, q, v. split; [reflexivity|]. split; [exact Ev|].
  destruct (left_facts oob hyst n min range x P a c p0 Hn E0 OP HP HPW HM ST ltac:(lia)) as (D0 & D2 & Dq & OP' & HA & ST' & _). set (D := left_out a p0) in *.
  exact (proj1 (predict_cases oob hyst n min range x P (a - D) (c - D) D (fun k => cond_of hyst x (k + D)) p0 Hn E0 D0 D2 Dq (fun k => eq_refl) OP' HA HP HPW HM ST' Mn cs k p q v Es E1
    (calls_predicted oob hyst n min range x P (a - D) (c - D) D (fun k => cond_of hyst x (k + D)) p0 Hn E0 D0 D2 Dq (fun k => eq_refl) OP' HA HP HPW HM ST' Mn cs k p Es E1) Ev)).
Qed.
Print Assumptions C55_prediction.

(** ... and exactly P when it is called right after the sample that ends a pulse (from the second pulse
    on: sample c + m P, m >= 1), and at every later call until the next pulse has ended *)
Theorem C55_prediction_every_pulse :
  forall oob hyst n min range x P a c p0, (n <= 2 ^ 28)%N -> pd_make hyst n min range = Some p0 ->
  one_pulse (cond_of hyst x) hyst P a c -> is_finite (fsub (cond_of hyst x a) (cond_of hyst x (a - 1))) = true ->
  4 <= P < 2 ^ 24 -> Z.of_N min < P -> 2 * P <= Z.of_N (z_win (p_zc p0)) ->
  P + 2 <= 2 * (Z.of_N (N.max (z_win (p_zc p0) / 64 / 2 - 1) 1) * 64) ->
  forall cs m k, (N.of_nat (length cs) + 1 < 2 ^ 64)%N -> 1 <= m -> Z.of_nat k = c + m * P -> samples cs = first_samples x k ->
  (exists p q, pd_calls oob p0 (cs ++ [Sample (x (Z.of_nat k))]) = Some p /\ pd_predict p = Some (q, z32 P)) /\
  forall later j, samples (cs ++ Sample (x (Z.of_nat k)) :: Predict :: later) = first_samples x j -> Z.of_nat j <= c + (m + 1) * P ->
    exists p q, pd_calls oob p0 (cs ++ Sample (x (Z.of_nat k)) :: Predict :: later) = Some p /\ pd_predict p = Some (q, z32 P).
Proof.
  intros oob hyst n min range x P a c p0 Hn E0 OP ST HP Mn HPW HM cs m k Hl Hm Hk Es.
  destruct (left_facts oob hyst n min range x P a c p0 Hn E0 OP HP HPW HM ST ltac:(lia)) as (D0 & D2 & Dq & OP' & HA & ST' & _). set (D := left_out a p0) in *. split.
  - destruct (calls_total oob hyst n min range p0 ((cs ++ [Sample (x (Z.of_nat k))]) ++ [Predict]) Hn E0) as (p2 & E2 & _).
    rewrite calls_app in E2. destruct (pd_calls oob p0 (cs ++ [Sample (x (Z.of_nat k))])) as [p|] eqn:E1; cbn [bind pd_calls] in E2; [|discriminate].
    destruct (pd_predict p) as [[q v]|] eqn:Ev; cbn [bind fst] in E2; [|discriminate].
    exists p, q. split; [reflexivity|]. rewrite Ev. do 2 f_equal.
    exact (predict_at_end oob hyst n min range x P (a - D) (c - D) D (fun k => cond_of hyst x (k + D)) p0 Hn E0 D0 D2 Dq (fun k => eq_refl) OP' HA HP HPW HM ST' Mn cs m k p q v Hl Hm ltac:(lia) Es E1 Ev).
  - intros later j Ej Hj.
    destruct (calls_total oob hyst n min range p0 (cs ++ Sample (x (Z.of_nat k)) :: Predict :: later) Hn E0) as (p & E2 & _).
    exists p, p. split; [exact E2|].
    exact (predict_until oob hyst n min range x P (a - D) (c - D) D (fun k => cond_of hyst x (k + D)) p0 Hn E0 D0 D2 Dq (fun k => eq_refl) OP' HA HP HPW HM ST' Mn cs m k Hl Hm ltac:(lia) Es later j p Ej ltac:(lia) E2).
Qed.
Print Assumptions C55_prediction_every_pulse.

(** The minimum itself is accepted as the period of the signal, but not as a prediction: a signal of
    exactly the minimum period is measured right (20 samples) and predicted an octave low (40). *)
Definition at_minimum : bool :=
  match pd_make hyst55 100 20 10 with
  | Some p0 => match pd_run (fun _ => 0) p0 (first_samples wave 172) with
      | Some p => feq (p_period p) (z32 20) && match pd_predict p with Some (_, v) => feq v (z32 40) && negb (feq v (z32 (-1))) && negb (feq v (z32 20)) | None => false end
      | None => false end
  | None => false end%bool.
Theorem C55_prediction_at_minimum_refuted :
  ~ (forall oob hyst n min range x P a c p0, (n <= 2 ^ 28)%N -> pd_make hyst n min range = Some p0 ->
     one_pulse (cond_of hyst x) hyst P a c -> c <= P -> is_finite (fsub (cond_of hyst x a) (cond_of hyst x (a - 1))) = true ->
     4 <= P < 2 ^ 24 -> Z.of_N min <= P -> 2 * P <= Z.of_N (z_win (p_zc p0)) ->
     P + 2 <= 2 * (Z.of_N (N.max (z_win (p_zc p0) / 64 / 2 - 1) 1) * 64) ->
     forall k p q v, pd_run oob p0 (first_samples x k) = Some p -> pd_predict p = Some (q, v) -> v = z32 (-1) \/ v = z32 P).
Proof.
  intros Q. assert (T : at_minimum = true) by (vm_compute; reflexivity). unfold at_minimum in T.
  destruct (pd_make hyst55 100 20 10) as [p0|] eqn:E0; [|discriminate].
  destruct (pd_run (fun _ => 0) p0 (first_samples wave 172)) as [p|] eqn:E1; [|discriminate].
  apply andb_true_iff in T. destruct T as [_ T]. destruct (pd_predict p) as [[q v]|] eqn:E2; [|discriminate].
  apply andb_true_iff in T. destruct T as [T T3]. apply andb_true_iff in T. destruct T as [_ T2]. apply negb_true_iff in T2, T3.
  assert (Wn : z_win (p_zc p0) = 128%N).
  { assert (T : match pd_make hyst55 100 20 10 with Some q => (z_win (p_zc q) =? 128)%N | None => false end = true) by (vm_compute; reflexivity).
    rewrite E0 in T. apply N.eqb_eq. exact T. }
  destruct (Q (fun _ => 0) hyst55 100%N 20%N 10 wave 20 3 10 p0 ltac:(vm_compute; discriminate) E0 wave_pulse ltac:(lia)) with (k := 172%nat) (p := p) (q := q) (v := v) as [X|X];
    rewrite ?Wn.
  - vm_compute. reflexivity.
  - change (2 ^ 24) with 16777216. lia.
  - lia.
  - lia.
  - vm_compute. discriminate.
  - exact E1.
  - exact E2.
  - rewrite X in T2. vm_compute in T2. discriminate.
  - rewrite X in T3. vm_compute in T3. discriminate.
Qed.
Print Assumptions C55_prediction_at_minimum_refuted.

(** the pitch detector's prediction: 0 (nothing to say) or the sampling rate over P *)
Theorem C55_pitch_prediction :
  forall oob hyst n min range sps x P a c t0, (n <= 2 ^ 28)%N -> (1 <= sps < 2 ^ 24)%N -> pit_make hyst n min range sps = Some t0 ->
  one_pulse (cond_of hyst x) hyst P a c -> is_finite (fsub (cond_of hyst x a) (cond_of hyst x (a - 1))) = true ->
  4 <= P < 2 ^ 24 -> Z.of_N min < P -> 2 * P <= Z.of_N (z_win (p_zc (t_pd t0))) ->
  P + 2 <= 2 * (Z.of_N (N.max (z_win (p_zc (t_pd t0)) / 64 / 2 - 1) 1) * 64) ->
  forall cs k t, samples cs = first_samples x k -> pit_calls oob t0 cs = Some t ->
  exists t' f, predict_frequency t = Some (t', f) /\ (f = fzero \/ f = fdiv (z32 (Z.of_N sps)) (z32 P)).
Proof.
  intros oob hyst n min range sps x P a c t0 Hn Hs Et OP ST HP Mn HPW HM cs k t Es Ec.
  assert (E0 : pd_make hyst n min range = Some (t_pd t0) /\ t_sps t0 = sps).
  { unfold pit_make in Et. destruct (pd_make hyst n min range) as [p|]; [|discriminate Et]. cbn [bind] in Et. injection Et as <-. auto. }
  destruct E0 as [E0 Sp0]. destruct (pit_pd oob cs t0 t Ec) as [Ep Sp].
  destruct (C55_prediction oob hyst n min range x P a c (t_pd t0) Hn E0 OP ST HP Mn HPW HM cs k Es) as (p & q & v & E1 & E2 & V).
  assert (p = t_pd t) by congruence. subst p. unfold predict_frequency. rewrite E2. cbn [bind fst snd]. do 2 eexists. split; [reflexivity|].
  rewrite Sp, Sp0. destruct V as [->| ->]; [left; rewrite z32_m1_feq; reflexivity|right]. rewrite (z32_not_m1 P HP). reflexivity.
Qed.
Print Assumptions C55_pitch_prediction.

(** the signal above: 31 samples, then predict_period(), is 20 *)
Example C55_prediction_example : exists p0 p q, pd_make hyst55 100 4 10 = Some p0 /\
  pd_calls (fun _ => 0) p0 (map Sample (first_samples wave 30) ++ [Sample (wave 30)]) = Some p /\ pd_predict p = Some (q, z32 20).
Proof.
  destruct C55_witness as (p0 & E0 & Wn & _).
  destruct (C55_prediction_every_pulse (fun _ => 0) hyst55 100 4 10 wave 20 3 10 p0) with (cs := map Sample (first_samples wave 30)) (m := 1) (k := 30%nat) as [(p & q & A & B) _];
    rewrite ?Wn.
  - vm_compute. discriminate.
  - exact E0.
  - exact wave_pulse.
  - vm_compute. reflexivity.
  - change (2 ^ 24) with 16777216. lia.
  - lia.
  - lia.
  - vm_compute. discriminate.
  - rewrite map_length, first_len. change (2 ^ 64)%N with 18446744073709551616%N. lia.
  - lia.
  - lia.
  - induction (first_samples wave 30) as [|y l IH]; [reflexivity|]. cbn [map samples]. f_equal. exact IH.
  - exists p0, p, q. split; [exact E0|]. split; [exact A|exact B].
Qed.

(** ... and after 500 samples of silence: the second pulse is ended by sample 530 *)
Example C55_late_prediction : exists p0 p q, pd_make hyst55 100 4 10 = Some p0 /\
  pd_calls (fun _ => 0) p0 (map Sample (first_samples late 530) ++ [Sample (late 530)]) = Some p /\ pd_predict p = Some (q, z32 20).
Proof.
  destruct C55_witness as (p0 & E0 & Wn & _).
  destruct (C55_prediction_every_pulse (fun _ => 0) hyst55 100 4 10 late 20 503 510 p0) with (cs := map Sample (first_samples late 530)) (m := 1) (k := 530%nat) as [(p & q & A & B) _];
    rewrite ?Wn.
  - vm_compute. discriminate.
  - exact E0.
  - exact late_pulse.
  - vm_compute. reflexivity.
  - change (2 ^ 24) with 16777216. lia.
  - lia.
  - lia.
  - vm_compute. discriminate.
  - rewrite map_length, first_len. change (2 ^ 64)%N with 18446744073709551616%N. lia.
  - lia.
  - lia.
  - induction (first_samples late 530) as [|y l IH]; [reflexivity|]. cbn [map samples]. f_equal. exact IH.
  - exists p0, p, q. split; [exact E0|]. split; [exact A|exact B].
Qed.

(** the dual detector's prediction, anywhere in any history of samples and predictions: 0 or sps / P
    -- never a wrong frequency -- whatever the detector on the
    negated signal does *)
Theorem C55_dual_prediction :
  forall oob hyst n min range sps lo hi x P a c t0 d0, ints oob -> (n <= 2 ^ 28)%N -> (1 <= sps < 2 ^ 24)%N ->
  pit_make hyst n min range sps = Some t0 -> dual_make hyst n min range sps lo hi = Some d0 ->
  one_pulse (cond_of hyst x) hyst P a c -> is_finite (fsub (cond_of hyst x a) (cond_of hyst x (a - 1))) = true ->
  4 <= P < 2 ^ 24 -> Z.of_N min < P -> 2 * P <= Z.of_N (z_win (p_zc (t_pd t0))) ->
  P + 2 <= 2 * (Z.of_N (N.max (z_win (p_zc (t_pd t0)) / 64 / 2 - 1) 1) * 64) ->
  forall cs k, samples cs = first_samples x k ->
  exists d d' f, dual_calls oob d0 cs = Some d /\ dual_predict d = Some (d', f) /\
    (f = fzero \/ f = fdiv (z32 (Z.of_N sps)) (z32 P)).
Proof.
  intros oob hyst n min range sps lo hi x P a c t0 d0 Ho Hn Hs Et Ed OP ST HP Mn HPW HM.
  change (2 ^ 24) with 16777216 in HP.
  assert (Hm : (min < 2 ^ 64)%N) by (change (2 ^ 64)%N with 18446744073709551616%N; lia).
  assert (HP' : 4 <= P < 2 ^ 24) by (change (2 ^ 24) with 16777216; lia).
  set (ok := fun f : f32 => f = fzero \/ f = fdiv (z32 (Z.of_N sps)) (z32 P)).
  assert (CP : forall d k, dinv oob t0 d (first_samples x k) -> forall c', dual_compute d = Some c' -> ok (d_pred c')).
  { intros d k (A1 & _) c' Ec. destruct A1 as (cs & E & S).
    destruct (C55_pitch_prediction oob hyst n min range sps x P a c t0 Hn Hs Et OP ST HP' Mn HPW HM cs k (d_1 d) S E) as (t' & f & Ef & V).
    unfold dual_compute in Ec. rewrite Ef in Ec. cbn [bind fst snd] in Ec. destruct (fgt f fzero); [|injection Ec as <-; left; reflexivity].
    destruct (predict_frequency (d_2 d)) as [[t2 f2]|]; cbn [bind fst snd] in Ec; [|discriminate Ec]. injection Ec as <-. cbn [d_pred].
    destruct (_ && _)%bool; [exact V|left; reflexivity]. }
  destruct (make_inv oob _ _ _ _ _ _ _ _ Ed) as (t0' & Et' & I0). rewrite Et in Et'. injection Et' as <-.
  assert (P0 : ok (d_pred d0)).
  { unfold dual_make in Ed. rewrite Et in Ed. cbn [bind] in Ed. injection Ed as <-. left. reflexivity. }
  assert (X : forall cs k, samples cs = first_samples x k -> exists d, dual_calls oob d0 cs = Some d /\ dinv oob t0 d (first_samples x k) /\ ok (d_pred d)).
  { intros cs. induction cs as [|e cs IH] using rev_ind; intros k Es.
    - exists d0. split; [reflexivity|]. cbn [samples] in Es. rewrite <- Es. auto.
    - rewrite samples_app in Es. destruct e as [s|]; cbn [samples] in Es.
      + destruct k as [|k]; [symmetry in Es; apply app_cons_not_nil in Es; contradiction|]. rewrite first_snoc in Es.
        apply app_inj_tail in Es. destruct Es as [Es ->]. destruct (IH k Es) as (d & E & I & Pd).
        destruct (dstep_ok oob Ho hyst n min range sps Hn Hm t0 Et d _ (x (Z.of_nat k)) I) as (d' & b & Ed' & I').
        exists d'. split; [rewrite dual_app, E; cbn [bind dual_calls]; rewrite Ed'; reflexivity|]. rewrite <- first_snoc in I'. split; [exact I'|].
        destruct (step_pred oob Ho hyst n min range sps Hn Hm t0 Et d _ _ d' b I Ed') as [->|[->|(q & r & Iq & Er & ->)]];
          [left; reflexivity|exact Pd|]. rewrite <- first_snoc in Iq. exact (CP q (S k) Iq r Er).
      + rewrite app_nil_r in Es. destruct (IH k Es) as (d & E & I & Pd).
        destruct (dpredict_ok oob Ho hyst n min range sps Hn Hm t0 Et d _ I) as (d' & f & Ed' & I' & Vf).
        exists d'. split; [rewrite dual_app, E; cbn [bind dual_calls]; rewrite Ed'; reflexivity|]. split; [exact I'|].
        unfold dual_predict in Ed'. destruct (feq (d_pred d) fzero).
        * destruct (dual_compute d) as [q|] eqn:Eq; cbn [bind] in Ed'; [|discriminate Ed']. injection Ed' as <- _. exact (CP d k I q Eq).
        * cbn [bind] in Ed'. injection Ed' as <- _. exact Pd. }
  intros cs k Es. destruct (X cs k Es) as (d & E & I & Pd).
  destruct (dpredict_ok oob Ho hyst n min range sps Hn Hm t0 Et d _ I) as (d' & f & Ed' & I' & Vf).
  exists d, d', f. split; [exact E|]. split; [exact Ed'|].
  destruct (X (cs ++ [Predict]) k) as (q & Eq & _ & Pq).
  { rewrite samples_app. cbn [samples]. rewrite app_nil_r. exact Es. }
  rewrite dual_app, E in Eq. cbn [bind dual_calls] in Eq. rewrite Ed' in Eq. cbn [bind fst] in Eq. injection Eq as <-. rewrite Vf. exact Pq.
Qed.
Print Assumptions C55_dual_prediction.

(** the signal above, 40 samples into the dual detector, then predict_frequency(): 2205 Hz *)
Example C55_dual_prediction_example : exists d0 d d' f, dual_make hyst55 100 4 10 44100 (mk64 100 0) (mk64 4000 0) = Some d0 /\
  dual_calls (fun _ => 0) d0 (map Sample (first_samples wave 40)) = Some d /\ dual_predict d = Some (d', f) /\
  feq f (z32 2205) = true /\ f = fdiv (z32 44100) (z32 20).
Proof.
  destruct (pit_make hyst55 100 4 10 44100) as [t0|] eqn:Et.
  2: { exfalso. assert (T : match pit_make hyst55 100 4 10 44100 with Some _ => true | None => false end = true) by (vm_compute; reflexivity).
       rewrite Et in T. discriminate. }
  assert (Wn : z_win (p_zc (t_pd t0)) = 128%N).
  { assert (T : match pit_make hyst55 100 4 10 44100 with Some q => (z_win (p_zc (t_pd q)) =? 128)%N | None => false end = true) by (vm_compute; reflexivity).
    rewrite Et in T. apply N.eqb_eq. exact T. }
  destruct (dual_make hyst55 100 4 10 44100 (mk64 100 0) (mk64 4000 0)) as [d0|] eqn:Ed.
  2: { unfold dual_make in Ed. rewrite Et in Ed. discriminate. }
  assert (O0 : ints (fun _ => 0)) by (intros y; lia).
  destruct (C55_dual_prediction (fun _ => 0) hyst55 100 4 10 44100 (mk64 100 0) (mk64 4000 0) wave 20 3 10 t0 d0) with (cs := map Sample (first_samples wave 40)) (k := 40%nat)
    as (d & d' & f & E1 & E2 & V); rewrite ?Wn.
  - exact O0.
  - vm_compute. discriminate.
  - change (2 ^ 24)%N with 16777216%N. lia.
  - exact Et.
  - exact Ed.
  - exact wave_pulse.
  - vm_compute. reflexivity.
  - change (2 ^ 24) with 16777216. lia.
  - lia.
  - lia.
  - vm_compute. discriminate.
  - induction (first_samples wave 40) as [|y l IH]; [reflexivity|]. cbn [map samples]. f_equal. exact IH.
  - assert (T : match dual_make hyst55 100 4 10 44100 (mk64 100 0) (mk64 4000 0) with Some q0 =>
        match dual_calls (fun _ => 0) q0 (map Sample (first_samples wave 40)) with Some q =>
          match dual_predict q with Some (_, g) => feq g (z32 2205) && negb (feq g fzero) | None => false end | None => false end | None => false end%bool = true)
      by (vm_compute; reflexivity).
    rewrite Ed, E1, E2 in T. apply andb_true_iff in T. destruct T as [T1 T2].
    exists d0, d, d', f. split; [reflexivity|]. split; [exact E1|]. split; [exact E2|]. split; [exact T1|].
    destruct V as [-> |V]; [|exact V]. exfalso. vm_compute in T2. discriminate.
Qed.
