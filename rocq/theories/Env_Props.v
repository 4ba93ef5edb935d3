(** Properties C21 and C22.  Theorems only. *)
From Coq Require Import Reals Lra.
From Flocq Require Import Core.Core IEEE754.BinarySingleNaN.
From Verif Require Import Common Float FloatFacts FloatLerp DetectF_Proof Env_Model Env_Spec Env_Proof Coeff_Proof Expo EnvSet_Proof.
Local Open Scope R_scope.

(** C21, one call of envelope_follower, for coefficients in [0,1) and all finite samples of
    magnitude up to 2^126: in binary32 the new envelope is finite and lies BETWEEN the old
    envelope and the input (so it rises only on inputs above it and falls only on inputs
    below it, and a constant input is a fixed point), and it is the exponential step with
    the attack coefficient when rising and the release coefficient when falling, up to
    rounding. *)
Theorem C21_envelope_follower_step :
  forall attack release y s : f32, coefficient attack -> coefficient release -> bounded y -> bounded s ->
  let y' := ef_step attack release y s in
  bounded y' /\
  Rmin (B2R y) (B2R s) <= B2R y' <= Rmax (B2R y) (B2R s) /\
  (B2R s = B2R y -> B2R y' = B2R y) /\
  (B2R y < B2R s -> Rabs (B2R y' - (B2R s + B2R attack * (B2R y - B2R s))) <= bpow radix2 (-21) * Rmax (Rabs (B2R y)) (Rabs (B2R s)) + bpow radix2 (-147)) /\
  (B2R s <= B2R y -> Rabs (B2R y' - (B2R s + B2R release * (B2R y - B2R s))) <= bpow radix2 (-21) * Rmax (Rabs (B2R y)) (Rabs (B2R s)) + bpow radix2 (-147)).
Proof.
  intros a r y s Ha Hr By Bs y'. destruct (ef_between a r y s Ha Hr By Bs) as [B1 B2].
  split; [exact B1|]. split; [exact B2|]. split; [intros E; rewrite E in B2; rewrite Rmin_left, Rmax_left in B2 by lra; unfold y'; lra|].
  destruct By as [Fy Ry], Bs as [Fs Rs]. unfold y', ef_step. split; intros H.
  - replace (fgt s y) with true by (symmetry; apply (flt_true _ _ Fy Fs); exact H).
    apply lerp_err; try split; auto; [apply Ha|apply Ha|apply Rmax_r|apply Rmax_l].
  - replace (fgt s y) with false by (symmetry; apply (flt_false _ _ Fy Fs); exact H).
    apply lerp_err; try split; auto; [apply Hr|apply Hr|apply Rmax_r|apply Rmax_l].
Qed.
Print Assumptions C21_envelope_follower_step.

(** C21, whole runs: the envelope never leaves an interval that contains the initial value
    and all inputs. *)
Theorem C21_envelope_follower_range :
  forall (attack release y0 : f32) (xs : list f32) (lo hi : R), coefficient attack -> coefficient release ->
  bounded y0 -> lo <= B2R y0 <= hi -> (forall x, In x xs -> bounded x /\ lo <= B2R x <= hi) ->
  forall o, In o (env_run (ef_step attack release) y0 xs) -> bounded o /\ lo <= B2R o <= hi.
Proof. intros a r y0 xs lo hi Ha Hr. apply env_run_range. intros y s. apply ef_between; assumption. Qed.
Print Assumptions C21_envelope_follower_range.

(** C21, peak_envelope_follower: jumps to any input above the envelope, never below its
    input, and decays towards the input otherwise; same range property. *)
Theorem C21_peak_follower :
  forall release : f32, coefficient release ->
  (forall y s, bounded y -> bounded s ->
     bounded (pf_step release y s) /\ B2R s <= B2R (pf_step release y s) <= Rmax (B2R y) (B2R s) /\
     (B2R y < B2R s -> pf_step release y s = s) /\
     (B2R s <= B2R y -> Rabs (B2R (pf_step release y s) - (B2R s + B2R release * (B2R y - B2R s))) <=
        bpow radix2 (-21) * Rmax (Rabs (B2R y)) (Rabs (B2R s)) + bpow radix2 (-147))) /\
  (forall y0 xs lo hi, bounded y0 -> lo <= B2R y0 <= hi -> (forall x, In x xs -> bounded x /\ lo <= B2R x <= hi) ->
     forall o, In o (env_run (pf_step release) y0 xs) -> bounded o /\ lo <= B2R o <= hi).
Proof.
  intros r Hr. split.
  - intros y s By Bs. destruct (pf_between r y s Hr By Bs) as [B1 B2]. split; [exact B1|]. split; [exact B2|].
    destruct By as [Fy Ry], Bs as [Fs Rs]. unfold pf_step. split; intros H.
    + replace (fgt s y) with true by (symmetry; apply (flt_true _ _ Fy Fs); exact H). reflexivity.
    + replace (fgt s y) with false by (symmetry; apply (flt_false _ _ Fy Fs); exact H).
      apply lerp_err; try split; auto; [apply Hr|apply Hr|apply Rmax_r|apply Rmax_l].
  - intros y0 xs lo hi. apply env_run_range. apply pf_between'. exact Hr.
Qed.
Print Assumptions C21_peak_follower.

(** C21, the hypothesis is met: every attack or release time of at least two samples
    gives a coefficient in [0,1) ... *)
Theorem C21_coefficients :
  forall (sps : Z) (d : f64), (0 < sps < 2 ^ 32)%Z -> is_finite d = true -> B2R d <= bpow radix2 900 ->
  2 <= IZR sps * B2R d -> coefficient (env_coeff sps d).
Proof. exact env_coeff_ok. Qed.
Print Assumptions C21_coefficients.

(** ... and its value is the documented exp(-2/n), n the time in samples, up to the error
    of the third-order approximation (2/n)^4/24 and 2^-20 of rounding. *)
Theorem C21_coefficient_value :
  forall (sps : Z) (d : f64), (0 < sps < 2 ^ 32)%Z -> is_finite d = true -> B2R d <= bpow radix2 900 ->
  2 <= IZR sps * B2R d ->
  Rabs (B2R (env_coeff sps d) - exp (- (2 / (IZR sps * B2R d)))) <= (2 / (IZR sps * B2R d)) ^ 4 / 24 + bpow radix2 (-20).
Proof. exact env_coeff_exp. Qed.
Print Assumptions C21_coefficient_value.

(** ... and the setters that take the time as a float compute it to the same accuracy. *)
Theorem C21_setters :
  forall (sps : Z) (d : f32), (0 < sps < 2 ^ 24)%Z -> is_finite d = true -> B2R d <= bpow radix2 90 ->
  2 <= IZR sps * B2R d ->
  coefficient (env_coeff_f sps d) /\
  Rabs (B2R (env_coeff_f sps d) - exp (- (2 / (IZR sps * B2R d)))) <= (2 / (IZR sps * B2R d)) ^ 4 / 24 + bpow radix2 (-20).
Proof. exact env_coeff_f_exp. Qed.
Print Assumptions C21_setters.

(** ... but shorter ones do not: with a time of a quarter of a sample at 44.1 kHz
    fast_exp3 returns about -67, and one positive input drives the envelope far above
    every input and then far below zero. *)
Theorem C21_short_attack_refuted :
  ~ (forall sps d xs o, (0 < sps < 2 ^ 32)%Z -> is_finite d = true -> 0 < B2R d ->
     (forall x, In x xs -> bounded x /\ 0 <= B2R x <= 1) ->
     In o (env_run (ef_step (env_coeff sps d) (env_coeff sps d)) fzero xs) -> fle o (mk32 1 0) = true).
Proof.
  intros Q. set (d := fdiv (mk64 1 (-2)) (mk64 44100 0)). set (c := env_coeff 44100 d).
  assert (T : existsb (fun o => negb (fle o (mk32 1 0))) (env_run (ef_step c c) fzero [mk32 1 0]) = true) by (vm_compute; reflexivity).
  apply existsb_exists in T. destruct T as (o & Io & To).
  assert (F1 : is_finite (mk32 1 0) = true) by reflexivity.
  destruct (int32 1 ltac:(reflexivity)) as [V1 _].
  rewrite (Q 44100%Z d [mk32 1 0] o) in To; [discriminate|lia|vm_compute; reflexivity| | |exact Io].
  - assert (G : flt fzero d = true) by (vm_compute; reflexivity).
    assert (Fd : is_finite d = true) by (vm_compute; reflexivity).
    apply (flt_true fzero d eq_refl Fd) in G. exact G.
  - intros x [<-|[]]. split; [split; [exact F1|]|]; rewrite V1; [|lra].
    rewrite Rabs_R1. change 1 with (bpow radix2 0). apply bpow_le. lia.
Qed.
Print Assumptions C21_short_attack_refuted.

Example C21_example : coefficient (env_coeff 44100 (mk64 1 (-4))) /\
  existsb (fun o => fgt o (mk32 1 (-10))) (env_run (ef_step (env_coeff 44100 (mk64 1 (-4))) (env_coeff 44100 (mk64 1 (-1)))) fzero (repeat (mk32 1 0) 5)) = true.
Proof.
  split; [|vm_compute; reflexivity]. destruct (mk64_small 1 (-4) ltac:(reflexivity) ltac:(lia)) as [V F]. change (bpow radix2 (-4)) with (/ 16) in V.
  apply env_coeff_ok; [lia|exact F| |]; rewrite V; [|lra].
  apply Rle_trans with (bpow radix2 0); [change (bpow radix2 0) with 1; lra|apply bpow_le; lia].
Qed.

(** C22.  For every number of slots (div+1 between 2 and 65536), hold time and sequence of
    non-NaN samples: every call succeeds; with P = (hold mod 65536) + 1 samples per step and
    m completed steps, the peak is at least 0 and at least every input since step m-div
    (hence every one of the last div*P inputs); it is 0 or an input since step m-2*div-1;
    and as long as the 16-bit slot counter has not wrapped (m <= 65536), or when div+1
    divides 65536, it is exactly the maximum of 0 and the inputs since step m-div. *)
Theorem C22_fast_envelope_follower :
  forall (div : nat) (hold : N) (xs : list f32),
  (1 <= N.of_nat div <= 65535)%N -> (forall x, In x xs -> is_nan x = false) -> xs <> [] ->
  exists e, fe_run (fe_make (S div) hold) xs = Some e /\
    let P := S (N.to_nat (hold mod 65536)) in let m := (length xs / P)%nat in
    flt (fe_peak e) fzero = false /\
    (forall x, In x (skipn ((m - div) * P) xs) -> flt (fe_peak e) x = false) /\
    (forall x, In x (skipn (length xs - div * P) xs) -> flt (fe_peak e) x = false) /\
    In (fe_peak e) (fzero :: skipn ((m - (2 * div + 1)) * P) xs) /\
    ((N.of_nat m <= 65536)%N \/ (65536 mod N.of_nat (S div) = 0)%N ->
       is_max (fe_peak e) (fzero :: skipn ((m - div) * P) xs)).
Proof.
  intros div hold xs Hd Hn Ne. assert (HS : (2 <= N.of_nat (S div) <= 65536)%N) by lia.
  assert (Hx : Forall nn xs) by (apply Forall_forall; exact Hn).
  destruct (fe_run_ok (S div) hold xs HS Hx) as (e & E & I). exists e. split; [exact E|].
  destruct (fe_out (S div) HS (hold mod 65536) (N.mod_lt hold 65536 ltac:(discriminate)) xs e Hx Ne I) as (H1 & H2 & H3 & H4).
  unfold Env_Proof.P in *. cbn zeta. set (P := S (N.to_nat (hold mod 65536))) in *.
  replace (S div - 1)%nat with div in * by lia. replace (2 * S div - 1)%nat with (2 * div + 1)%nat in * by lia.
  split; [exact H1|]. split; [exact H2|]. split; [|split; [exact H3|exact H4]].
  intros x Hi. apply H2. apply (in_skipn_le _ _ (length xs - div * P)%nat); [|exact Hi].
  pose proof (Nat.mul_div_le (length xs) P ltac:(unfold P; lia)). set (m := (length xs / P)%nat) in *. rewrite Nat.mul_sub_distr_r. lia.
Qed.
Print Assumptions C22_fast_envelope_follower.

(** hold 3, div 2: 5 is held for the rest of its step and the next two *)
Example C22_example :
  let run n := fe_run (fe_make 3 3) (firstn n (map (fun k => mk32 k 0) [1; 5; 2; 0; 1; 1; 1; 1; 1; 1; 1; 1; 1]%Z)) in
  match run 2%nat, run 11%nat, run 12%nat with
  | Some a, Some b, Some c => feq (fe_peak a) (mk32 5 0) && feq (fe_peak b) (mk32 5 0) && feq (fe_peak c) (mk32 1 0)
  | _, _, _ => false end%bool = true.
Proof. vm_compute. reflexivity. Qed.

(** The exact maximum is not kept past the wrap of the 16-bit slot counter: with div = 2
    and hold 0, after 65537 samples the peak is an input that left the window. *)
Lemma fe_run_test e xs (t : fenv -> bool) : match fe_run e xs with Some r => t r | None => false end = true ->
  exists r, fe_run e xs = Some r /\ t r = true.
Proof. destruct (fe_run e xs) as [r|]; [|discriminate]. intros H. exists r. auto. Qed.
Theorem C22_counter_wrap_refuted :
  ~ (forall div hold xs e, (1 <= N.of_nat div <= 65535)%N -> (forall x, In x xs -> is_nan x = false) -> xs <> [] ->
     fe_run (fe_make (S div) hold) xs = Some e ->
     is_max (fe_peak e) (fzero :: skipn ((length xs / S (N.to_nat (hold mod 65536)) - div) * S (N.to_nat (hold mod 65536))) xs)).
Proof.
  intros Q. set (z := N.to_nat 65534).
  destruct (fe_run_test (fe_make 3 0) (repeat fzero z ++ [mk32 1 0; fzero; fzero]) (fun e => flt fzero (fe_peak e))) as (e & E & T).
  { vm_compute. reflexivity. }
  pose proof (Q 2%nat 0%N (repeat fzero z ++ [mk32 1 0; fzero; fzero]) e ltac:(vm_compute; split; discriminate)) as Q'. specialize (Q' (ltac:(intros x Hx; apply in_app_or in Hx; destruct Hx as [Hx|[<-|[<-|[<-|[]]]]]; [apply repeat_spec in Hx; subst|..]; reflexivity))).
  specialize (Q' (ltac:(destruct z; discriminate)) E). destruct Q' as [Q' _].
  change (S (N.to_nat (0 mod 65536))) with 1%nat in Q'. rewrite Nat.div_1_r, Nat.mul_1_r, app_length, repeat_length in Q'. cbn [length] in Q'.
  replace (z + 3 - 2)%nat with (S z) in Q' by lia.
  rewrite skipn_app, repeat_length, skipn_all2 in Q' by (rewrite repeat_length; lia).
  replace (S z - z)%nat with 1%nat in Q' by lia. cbn [skipn app] in Q'.
  assert (Z : fe_peak e = fzero) by (destruct Q' as [X|[X|[X|[]]]]; auto). rewrite Z in T. discriminate T.
Qed.
Print Assumptions C22_counter_wrap_refuted.

(** "holds for `hold` samples" is false for hold >= 65536, which is narrowed to 16 bits:
    a hold of 65536 samples holds for 3. *)
Theorem C22_hold_narrowed_refuted :
  ~ (forall hold xs e x, (forall x, In x xs -> is_nan x = false) -> xs <> [] -> (N.of_nat (length xs) <= hold)%N ->
     fe_run (fe_make 3 hold) xs = Some e -> In x xs -> flt (fe_peak e) x = false).
Proof.
  intros Q. destruct (fe_run_test (fe_make 3 65536) [mk32 1 0; fzero; fzero; fzero] (fun e => flt (fe_peak e) (mk32 1 0))) as (e & E & T); [vm_compute; reflexivity|].
  rewrite (Q 65536%N [mk32 1 0; fzero; fzero; fzero] e (mk32 1 0)) in T; [discriminate| |discriminate|vm_compute; discriminate|exact E|left; reflexivity].
  intros x [<-|[<-|[<-|[<-|[]]]]]; reflexivity.
Qed.
Print Assumptions C22_hold_narrowed_refuted.
