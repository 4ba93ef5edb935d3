(** C40: the pitch detector. *)
From Coq Require Import Reals Lra.
From Flocq Require Import Core.Core IEEE754.BinarySingleNaN.
From Verif Require Import Common CommonFacts Float FloatFacts Zc_Model PD_Model PD_Spec PD_Proof PD_Pred PD_Props Pitch_Model Pitch_Spec Pitch_Proof.

(** a conversion that C++ leaves undefined still yields some int *)
Definition ints (oob : f32 -> Z) : Prop := forall x, (- 2 ^ 31 <= oob x < 2 ^ 31)%Z.

(** For every hysteresis, window of up to 2^28 samples, minimum period, range and sampling rate, and
    EVERY history of samples (NaN and infinities included) and predictions: all calls succeed; the
    reported frequency is 0 or positive, never negative or NaN; the reported periodicity is in
    [0,1], and 0 when there is no frequency; the underlying period detector is where the samples
    alone lead it. *)
Theorem C40_every_history :
  forall oob hyst n min range sps (cs : list pd_call), ints oob -> (n <= 2 ^ 28)%N -> (min < 2 ^ 64)%N ->
  exists t0 t, pit_make hyst n min range sps = Some t0 /\ pit_calls oob t0 cs = Some t /\
    ((get_frequency t = fzero /\ get_periodicity t = fzero) \/ positive (get_frequency t)) /\
    in_unit (get_periodicity t) /\
    exists q, pd_run oob (t_pd t0) (samples cs) = Some q /\
      p_zc (t_pd t) = p_zc q /\ p_period (t_pd t) = p_period q /\ p_periodicity (t_pd t) = p_periodicity q.
Proof.
  intros oob hyst n min range sps cs Ho Hn Hm.
  destruct (pd_run_ok oob hyst n min range [] Hn) as (p0 & _ & E0 & _).
  assert (Et : pit_make hyst n min range sps = Some (mkPit p0 info0 sps 0)) by (unfold pit_make; rewrite E0; reflexivity).
  destruct (calls_ok oob Ho hyst n min range sps _ cs Hn Hm Et) as (t & E1 & (C1 & C2) & _ & r & v & e & E2 & E3 & _).
  exists (mkPit p0 info0 sps 0), t. split; [exact Et|]. split; [exact E1|]. split; [|split; [exact C2|]].
  - destruct C1 as [C1|C1]; [left|right; exact C1]. unfold get_frequency, get_periodicity. rewrite C1. auto.
  - exists r. rewrite E3. auto.
Qed.
Print Assumptions C40_every_history.

(** One call after any history: what happens to the pitch is one of the cases of [outcome]
    (Pitch_Spec), whatever the sample.  (The present frequency is at least 2^-100 Hz.) *)
Theorem C40_step :
  forall oob hyst n min range sps cs t0 t s, ints oob -> (n <= 2 ^ 28)%N -> (min < 2 ^ 64)%N ->
  pit_make hyst n min range sps = Some t0 -> pit_calls oob t0 cs = Some t ->
  (is_finite (get_frequency t) = true -> get_frequency t = fzero \/ bpow radix2 (-100) <= B2R (get_frequency t))%R ->
  exists t' ready, pit_step oob t s = Some (t', ready) /\ pd_step oob (t_pd t) s = Some (t_pd t') /\
    outcome (t_pd t') sps (if zc_is_reset (p_zc (t_pd t')) then info0 else t_cur t) (t_frames t)
      (t_cur t') (t_frames t') ready.
Proof.
  intros oob hyst n min range sps cs t0 t s Ho Hn Hm E0 E1 Hf.
  destruct (calls_ok oob Ho hyst n min range sps t0 cs Hn Hm E0) as (t1 & E1' & Ck & Sp & _). rewrite E1 in E1'. injection E1' as <-.
  destruct (calls_ok oob Ho hyst n min range sps t0 (cs ++ [Sample s]) Hn Hm E0) as (t2 & E2 & _ & _ & r & v & e & _ & Ep & Hy).
  assert (Sn : forall t cs c, pit_calls oob t (cs ++ [c]) = do q <- pit_calls oob t cs ; pit_calls oob q [c]).
  { clear. intros t cs. revert t. induction cs as [|[x|] cs IH]; intros t c; cbn [app pit_calls]; [destruct c; reflexivity| |].
    - destruct (pit_step oob t x); cbn [bind]; [apply IH|reflexivity].
    - destruct (predict_frequency t); cbn [bind]; [apply IH|reflexivity]. }
  rewrite Sn, E1 in E2. cbn [bind pit_calls] in E2. destruct (pit_step oob t s) as [[t' b]|] eqn:Es; cbn [bind fst] in E2; [|discriminate]. injection E2 as <-.
  assert (Hy' : z_ready (p_zc (t_pd t')) = true -> pty_ok (t_pd t')) by (rewrite Ep; exact Hy).
  destruct (step_outcome oob Ho t s t' b Ck Hf Es Hy') as (P1 & P2 & P3). rewrite Sp in P3.
  exists t', b. auto.
Qed.
Print Assumptions C40_step.

(** Stability: if the reported frequency moves by 1/32 or more from one frequency to another, then
    the new frequency is the measured one, its periodicity is at least 0.95 and the move is
    announced by is_note_shift(). *)
Theorem C40_jump_is_a_shift :
  forall p sps old n new n' ready, outcome p sps old n new n' ready ->
  positive (i_freq old) -> positive (i_freq new) -> i_freq new <> i_freq old -> ~ near (i_freq old) (i_freq new) ->
  measured p sps (i_freq new) /\ i_pty new = p_periodicity p /\ fge (i_pty new) onset_periodicity = true /\ n' = 0%N /\ ready = true.
Proof.
  assert (Z0 : forall f, f = fzero -> ~ positive f) by (intros f -> X; revert X; vm_compute; discriminate).
  intros p sps old n new n' ready O Po Pn D F. destruct O; cbn [i_freq i_pty] in *; try congruence.
  - exfalso. apply (Z0 _ eq_refl Pn).
  - exfalso. apply (Z0 (i_freq old)); assumption.
  - exfalso. match goal with H : harmonic_of _ _ _ |- _ => destruct H as (m & _ & H & _) end. contradiction.
  - auto.
Qed.
Print Assumptions C40_jump_is_a_shift.
(** Every reported frequency is 0, the previous one, the measured one or an integer multiple or
    fraction of the measured one that is close to the previous one. *)
Theorem C40_candidates :
  forall p sps old n new n' ready, outcome p sps old n new n' ready ->
  new = info0 \/ new = old \/
  (exists f, measured p sps f /\ i_pty new = p_periodicity p /\ (i_freq new = f \/ harmonic_of (i_freq old) f (i_freq new))).
Proof. intros p sps old n new n' ready O. destruct O; eauto 9. Qed.
Print Assumptions C40_candidates.

(** The two queries.  indeterminate() says that no pitch is reported (frequency and periodicity 0;
    otherwise the frequency is positive).  [old] is the pitch before the call (none, if the call
    resets the detector).  is_note_shift() holds right after the call that starts a note or moves
    it, and not after a call that finds the present note again (as long as the note lasts fewer
    than 2^64 calls). *)
Theorem C40_queries :
  forall oob hyst n min range sps cs t0 t, ints oob -> (n <= 2 ^ 28)%N -> (min < 2 ^ 64)%N ->
  pit_make hyst n min range sps = Some t0 -> pit_calls oob t0 cs = Some t ->
  (indeterminate t = true -> get_frequency t = fzero /\ get_periodicity t = fzero) /\
  (indeterminate t = false -> positive (get_frequency t)) /\
  forall s t' ready old,
  (is_finite (get_frequency t) = true -> get_frequency t = fzero \/ bpow radix2 (-100) <= B2R (get_frequency t))%R ->
  pit_step oob t s = Some (t', ready) -> old = (if zc_is_reset (p_zc (t_pd t')) then fzero else get_frequency t) ->
  (old = fzero -> positive (get_frequency t') -> is_note_shift t' = true) /\
  (positive old -> positive (get_frequency t') -> get_frequency t' <> old -> ~ near old (get_frequency t') -> is_note_shift t' = true) /\
  (forall f, z_ready (p_zc (t_pd t')) = true -> p_periodicity (t_pd t') <> z32 (-1) -> measured (t_pd t') sps f -> near old f -> positive old ->
     (t_frames t + 1 < 2 ^ 64)%N -> get_frequency t' = f /\ is_note_shift t' = false).
Proof.
  intros oob hyst n min range sps cs t0 t Ho Hn Hm E0 E1.
  assert (Z0 : forall f, f = fzero -> ~ positive f) by (intros f -> X; revert X; vm_compute; discriminate).
  assert (Cv : (get_frequency t = fzero /\ get_periodicity t = fzero) \/ positive (get_frequency t)).
  { destruct (C40_every_history oob hyst n min range sps cs Ho Hn Hm) as (u0 & u & F0 & F1 & C & _). congruence. }
  split; [|split].
  - intros I. destruct Cv as [C|C]; [exact C|]. exfalso. unfold indeterminate in I. unfold get_frequency, positive in C.
    unfold feq, flt in *. revert I C. destruct (i_freq (t_cur t)) as [[]|[]| |[]]; cbn; congruence.
  - intros I. destruct Cv as [[C _]|C]; [|exact C]. exfalso. unfold indeterminate in I. unfold get_frequency in C. rewrite C in I. vm_compute in I. discriminate.
  - intros s t' ready old Hf Es Eo.
    destruct (C40_step oob hyst n min range sps cs t0 t s Ho Hn Hm E0 E1 Hf) as (u & b & Es' & _ & O).
    rewrite Es in Es'. injection Es' as <- <-.
    assert (Eo' : i_freq (if zc_is_reset (p_zc (t_pd t')) then info0 else t_cur t) = old) by (rewrite Eo; destruct (zc_is_reset _); reflexivity).
    unfold is_note_shift, get_frequency in *. set (o := if zc_is_reset (p_zc (t_pd t')) then info0 else t_cur t) in *. clearbody o. clear Eo. subst old.
    split; [|split].
    + intros Oz P'. destruct O; cbn [i_freq] in *; try reflexivity; try (exfalso; eapply Z0; eassumption); exfalso; eapply Z0; [|eassumption]; reflexivity.
    + intros Po P' D F. destruct (C40_jump_is_a_shift _ _ _ _ _ _ _ O Po P' D F) as (_ & _ & _ & X & _). rewrite X. reflexivity.
    + intros f Rd Np (M1 & M2 & M3) Nr Po Hl.
      assert (U : forall g, measured (t_pd t') sps g -> g = f) by (intros g (_ & G & _); congruence).
      assert (Me : measured (t_pd t') sps f) by (split; [exact M1|split; assumption]).
      assert (Cn : forall y, (add64 (count y (t_frames t)) 1 =? 0)%N = false).
      { intros y. apply N.eqb_neq. unfold count. destruct (flt y min_periodicity); [vm_compute; discriminate|].
        unfold add64, wrap64. rewrite N.mod_small by exact Hl. lia. }
      destruct O as [X|_ X|_ X _|g _ X _ _|_ _ X|g _ _ X _|g h _ _ X Y _ _|g _ _ X Y _|g _ _ X Y _]; cbn [i_freq]; try congruence.
      * exfalso. eapply Z0; eassumption.
      * exfalso. eapply Z0; eassumption.
      * exfalso. exact (X f Me).
      * rewrite (U g X). split; [reflexivity|]. apply Cn.
      * exfalso. apply Y. rewrite (U g X). exact Nr.
      * exfalso. apply Y. rewrite (U g X). exact Nr.
      * exfalso. apply Y. rewrite (U g X). exact Nr.
Qed.
Print Assumptions C40_queries.

(** Octave errors: once the note has lasted (the frame counter exceeds 1 after this frame), a
    measured frequency that is the 2nd ... 15th harmonic or subharmonic of the current one (to 3
    percent) is folded back next to the current one and does not shift the note, however periodic
    it is. *)
Theorem C40_harmonics_do_not_shift :
  forall oob hyst n min range sps cs t0 t s t' ready f m, ints oob -> (n <= 2 ^ 28)%N -> (min < 2 ^ 64)%N ->
  pit_make hyst n min range sps = Some t0 -> pit_calls oob t0 cs = Some t -> pit_step oob t s = Some (t', ready) ->
  z_ready (p_zc (t_pd t')) = true -> zc_is_reset (p_zc (t_pd t')) = false -> p_periodicity (t_pd t') <> z32 (-1) ->
  measured (t_pd t') sps f -> sane (get_frequency t) -> sane f -> harmonic_ratio (get_frequency t) f m ->
  (1 < add64 (count (p_periodicity (t_pd t')) (t_frames t)) 1)%N ->
  near (get_frequency t) (get_frequency t') /\ get_periodicity t' = p_periodicity (t_pd t') /\ is_note_shift t' = false.
Proof.
  intros oob hyst n min range sps cs t0 t s t' ready f m Ho Hn Hm E0 E1 Es Rd Nr Np Me Sc Sf R Lf.
  destruct (calls_ok oob Ho hyst n min range sps t0 cs Hn Hm E0) as (t1 & E1' & _ & Sp & _). rewrite E1 in E1'. injection E1' as <-.
  destruct (calls_ok oob Ho hyst n min range sps t0 (cs ++ [Sample s]) Hn Hm E0) as (t2 & E2 & _ & _ & r & v & e & _ & Ep & Hy).
  assert (Sn : forall t cs c, pit_calls oob t (cs ++ [c]) = do q <- pit_calls oob t cs ; pit_calls oob q [c]).
  { clear. intros t cs. revert t. induction cs as [|[x|] cs IH]; intros t c; cbn [app pit_calls]; [destruct c; reflexivity| |].
    - destruct (pit_step oob t x); cbn [bind]; [apply IH|reflexivity].
    - destruct (predict_frequency t); cbn [bind]; [apply IH|reflexivity]. }
  rewrite Sn, E1 in E2. cbn [bind pit_calls] in E2. rewrite Es in E2. cbn [bind fst] in E2. injection E2 as <-.
  assert (Hy' : z_ready (p_zc (t_pd t')) = true -> pty_ok (t_pd t')) by (rewrite Ep; exact Hy).
  rewrite <- Sp in Me. exact (harmonic_step oob Ho t s t' ready f m Sc Es Hy' Rd Nr Np Me Sf R Lf).
Qed.
Print Assumptions C40_harmonics_do_not_shift.

(** predict_frequency(): 0 without a prediction, else the sampling rate over the predicted period; the
    reported pitch is not affected. *)
Theorem C40_predict_frequency :
  forall oob hyst n min range sps cs t0 t, ints oob -> (n <= 2 ^ 28)%N -> (min < 2 ^ 64)%N ->
  pit_make hyst n min range sps = Some t0 -> pit_calls oob t0 cs = Some t ->
  exists t' v p' f, predict_frequency t = Some (t', f) /\ pd_predict (t_pd t) = Some (p', v) /\ t_pd t' = p' /\
    t_cur t' = t_cur t /\ t_frames t' = t_frames t /\
    (if feq v (z32 (-1)) then f = fzero else f = fdiv (z32 (Z.of_N sps)) v).
Proof.
  intros oob hyst n min range sps cs t0 t Ho Hn Hm E0 E1.
  destruct (calls_ok oob Ho hyst n min range sps t0 (cs ++ [Predict]) Hn Hm E0) as (t2 & E2 & _).
  destruct (calls_ok oob Ho hyst n min range sps t0 cs Hn Hm E0) as (t1 & E1' & _ & Sp & _). rewrite E1 in E1'. injection E1' as <-.
  assert (Sn : forall t cs c, pit_calls oob t (cs ++ [c]) = do q <- pit_calls oob t cs ; pit_calls oob q [c]).
  { clear. intros t cs. revert t. induction cs as [|[x|] cs IH]; intros t c; cbn [app pit_calls]; [destruct c; reflexivity| |].
    - destruct (pit_step oob t x); cbn [bind]; [apply IH|reflexivity].
    - destruct (predict_frequency t); cbn [bind]; [apply IH|reflexivity]. }
  rewrite Sn, E1 in E2. cbn [bind pit_calls] in E2. unfold predict_frequency in *.
  destruct (pd_predict (t_pd t)) as [[p' v]|]; cbn [bind fst snd] in *; [|discriminate].
  eexists _, v, p', _. split; [reflexivity|]. rewrite Sp. repeat (split; [reflexivity|]). destruct (feq v (z32 (-1))); reflexivity.
Qed.
Print Assumptions C40_predict_frequency.

(** a square wave of period 20 at 44100 Hz is reported as 2205 Hz with periodicity 1: an onset, then
    the same note *)
Definition pit_ex (oob : f32 -> Z) (xs : list f32) : option pit :=
  do t <- pit_make hyst_ex 100 4 10 44100 ; pit_calls oob t (map Sample xs).
Example C40_witness :
  match pit_ex (fun _ => 0%Z) (square20 129), pit_ex (fun _ => 0%Z) (square20 400) with
  | Some t, Some u => feq (get_frequency t) (mk32 2205 0) && feq (get_periodicity t) (mk32 1 0) && is_note_shift t &&
                      feq (get_frequency u) (mk32 2205 0) && (t_frames u =? 4)%N && negb (is_note_shift u) && negb (indeterminate u)
  | _, _ => false end%bool = true.
Proof. vm_compute. reflexivity. Qed.

(** Found: "the reported frequency is a number".  A finite signal whose reported frequency is
    infinite, with periodicity 1 (the period detector reports period 0, C08). *)
Theorem C40_finite_frequency_refuted :
  ~ (forall oob hyst n min range sps xs t0 t, (n <= 2 ^ 28)%N -> (min < 2 ^ 64)%N -> (forall x, In x xs -> is_finite x = true) ->
     pit_make hyst n min range sps = Some t0 -> pit_calls oob t0 (map Sample xs) = Some t -> is_finite (get_frequency t) = true).
Proof.
  intros Q.
  assert (T : match pit_ex (fun _ => 1%Z) zero_signal with
    | Some t => negb (is_finite (get_frequency t)) && feq (get_periodicity t) (mk32 1 0) | None => false end%bool = true) by (vm_compute; reflexivity).
  unfold pit_ex in T. destruct (pit_make hyst_ex 100 4 10 44100) as [t0|] eqn:E0; cbv beta iota zeta delta [bind] in T; [|discriminate].
  destruct (pit_calls (fun _ => 1%Z) t0 (map Sample zero_signal)) as [t|] eqn:E1; [|discriminate].
  rewrite (Q (fun _ => 1%Z) hyst_ex 100%N 4%N 10%Z 44100%N zero_signal t0 t) in T; [discriminate|vm_compute; discriminate|vm_compute; reflexivity| |exact E0|exact E1].
  assert (F : forallb is_finite zero_signal = true) by (vm_compute; reflexivity).
  intros x Hx. rewrite forallb_forall in F. exact (F x Hx).
Qed.
Print Assumptions C40_finite_frequency_refuted.
