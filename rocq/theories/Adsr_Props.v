(** Property C20: the ADSR envelope generator.  Theorems only. *)
From Coq Require Import Reals Lra Psatz.
From Flocq Require Import Core.Core IEEE754.BinarySingleNaN.
From Verif Require Import Common Float FloatFacts FloatLerp Env_Model Env_Spec Env_Proof Coeff_Proof Expo Adsr_Model Adsr_Spec Adsr_Proof Adsr_Live Adsr_Hist Adsr_Param.
Local Open Scope R_scope.

(** C20, output range: after any history of calls with levels in [0,M] (M up to 2^126),
    sustain level in [0,1] and durations of at least two samples, current() and the next
    output are finite and within [0,M]. *)
Theorem C20_output_range :
  forall (M : R) sps ad dd sl sd rd cs e, 0 <= M <= bpow radix2 126 ->
  proper_rate sps ad -> proper_rate sps dd -> proper_rate sps sd -> proper_rate sps rd -> level_in 1 sl ->
  Forall (call_ok M) cs -> do_calls (adsr_make sps ad dd sl sd rd) cs = Some e ->
  level_in M (a_y e) /\ (forall e' out, sample e = Some (e', out) -> level_in M out).
Proof.
  intros M sps ad dd sl sd rd cs e [H0 HM] H1 H2 H3 H4 H5 Hc H.
  pose proof (calls_inv M cs HM _ e (make_inv M sps ad dd sl sd rd H0 H1 H2 H3 H4 H5) Hc H) as Hi.
  split; [apply (i_y _ _ Hi)|]. intros e' out S. exact (proj2 (sample_inv M e e' out HM Hi S)).
Qed.
Print Assumptions C20_output_range.

(** C20, definedness: unless some trigger asked for no decay (auto_decay = -1), no history
    reads an uninitialised member; and no history without legato() does. *)
Theorem C20_always_defined :
  forall sps ad dd sl sd rd cs,
  Forall (fun c => ~ no_decay_trigger c) cs \/ Forall (fun c => c <> CLegato) cs ->
  exists e, do_calls (adsr_make sps ad dd sl sd rd) cs = Some e.
Proof.
  intros sps ad dd sl sd rd cs [H|H].
  - apply calls_def; [exact I| |exact H]. intros [Q|[Q|Q]]; discriminate.
  - assert (D : def (adsr_make sps ad dd sl sd rd)) by exact I.
    revert H D. generalize (adsr_make sps ad dd sl sd rd). induction cs as [|c cs IH]; intros e H D; [exists e; reflexivity|].
    inversion H; subst. destruct (call_def_nolegato e c D H2) as (e' & E & D'). cbn [do_calls]. rewrite E. apply IH; assumption.
Qed.
Print Assumptions C20_always_defined.

(** C20, order of the phases: a call of operator() keeps the phase or moves to the next one
    (attack, decay / legato, sustain, release, off), except that the attack of a trigger with
    auto_decay = -1 goes straight to sustain.  Outside off it returns current(). *)
Theorem C20_phase_order :
  forall e e' out, sample e = Some (e', out) ->
  ((phase (a_state e) <= phase (a_state e') <= S (phase (a_state e)))%nat \/
   (a_state e = attack_state /\ a_state e' = sustain_state /\ a_auto e = (-1)%Z)) /\
  (a_state e = note_off_state -> e' = e /\ out = fzero) /\
  (a_state e <> note_off_state -> out = a_y e').
Proof.
  intros e e' out H. split; [exact (sample_phase e e' out H)|]. split.
  - intros St. unfold sample in H. rewrite St in H. injection H as <- <-. auto.
  - exact (sample_out e e' out H).
Qed.
Print Assumptions C20_phase_order.

(** C20, events: trigger(l) starts the attack towards l exactly when current() < l, and is
    ignored otherwise; release() enters the release state from every state but off; legato()
    acts only in sustain, below the level where sustain started; the setters and decay()
    change neither the state nor the output. *)
Theorem C20_events :
  forall e,
  (forall l a, flt (a_y e) l = true -> a_state (trigger e l a) = attack_state /\ a_level (trigger e l a) = Some l /\
     a_y (trigger e l a) = a_y e /\ a_auto (trigger e l a) = a) /\
  (forall l a, flt (a_y e) l = false -> trigger e l a = e) /\
  (a_state e <> note_off_state -> a_state (release e) = release_state) /\
  (a_state e = note_off_state -> release e = e) /\
  a_y (release e) = a_y e /\
  (a_state e <> sustain_state -> legato e = Some e) /\
  (forall e', legato e = Some e' -> a_y e' = a_y e /\
     (a_state e' = a_state e \/ (a_state e = sustain_state /\ a_state e' = legato_state /\
        a_auto e' = (-1)%Z /\ exists s, a_start e = Some s /\ a_legato e' = Some s /\ flt (a_y e) s = true))) /\
  a_auto (decay e) = 1%Z /\
  (forall c e', match c with CTrigger _ _ | CLegato | CDecay => False | _ => True end ->
     do_call e c = Some e' -> a_auto e' = a_auto e) /\
  (forall c e', match c with CSample | CTrigger _ _ | CLegato | CRelease => False | _ => True end ->
     do_call e c = Some e' -> a_state e' = a_state e /\ a_y e' = a_y e).
Proof.
  intros e. split; [intros l a H; unfold trigger; rewrite H; auto|].
  split; [intros l a H; unfold trigger; rewrite H; reflexivity|].
  split; [intros N; unfold release; destruct (a_state e); auto; contradiction|].
  split; [intros N; unfold release; rewrite N; reflexivity|].
  split; [unfold release; destruct (a_state e); reflexivity|].
  split; [intros N; unfold legato; destruct (a_state e); auto; contradiction|].
  split.
  - intros e' H. unfold legato in H. destruct (a_state e) eqn:St; try (injection H as <-; auto; fail).
    apply mul_some in H. destruct H as (s & Es & H). apply Some_inj in H. subst e'.
    destruct (flt (a_y e) s) eqn:G; [|auto]. split; [reflexivity|]. right. split; [reflexivity|]. split; [reflexivity|]. split; [reflexivity|]. exists s. auto.
  - split; [reflexivity|]. split; [intros c e' Hc H; exact (call_auto e c e' Hc H)|].
    intros c e' Hc H. destruct c; try contradiction; cbn [do_call] in H; injection H as <-; auto.
    + unfold note_off_level. destruct (flt _ _); auto.
    + unfold set_release_rate_f. destruct (flt _ _); auto.
Qed.
Print Assumptions C20_events.

(** C20, the auto-decay flag decides where an attack ends: with a flag other than 1 and -1 the
    attack holds for ever; after decay() the attack of a held note ends in decay and in nothing
    else; with -1 it ends in sustain. *)
Theorem C20_attack_exit :
  forall e n e1, a_state e = attack_state ->
  (a_auto e <> 1%Z -> a_auto e <> (-1)%Z -> samples e n = Some e1 -> a_state e1 = attack_state) /\
  (forall e2 o, samples (decay e) n = Some e1 -> a_state e1 = attack_state ->
     sample e1 = Some (e2, o) -> a_state e2 = attack_state \/ a_state e2 = decay_state) /\
  (forall e2 o, a_auto e = (-1)%Z -> samples e n = Some e1 -> a_state e1 = attack_state ->
     sample e1 = Some (e2, o) -> a_state e2 = attack_state \/ a_state e2 = sustain_state).
Proof.
  intros e n e1 St. split; [intros N1 N2 S; exact (attack_holds n e e1 St N1 N2 S)|]. split.
  - intros e2 o S St1 H. pose proof (samples_auto n (decay e) e1 S) as A. cbn [decay a_auto] in A.
    exact (attack_next e1 e2 o 1 St1 A H).
  - intros e2 o Ae S St1 H. pose proof (samples_auto n e e1 S) as A. rewrite Ae in A.
    exact (attack_next e1 e2 o (-1) St1 A H).
Qed.
Print Assumptions C20_attack_exit.

(** C20, off is silent: from the off state any calls that are not triggers leave it off, and
    operator() keeps returning exactly 0; a new envelope is off. *)
Theorem C20_off_is_silent :
  (forall sps ad dd sl sd rd, a_state (adsr_make sps ad dd sl sd rd) = note_off_state) /\
  forall e cs, a_state e = note_off_state -> Forall (fun c => ~ is_trigger c) cs ->
  exists e', do_calls e cs = Some e' /\ a_state e' = note_off_state /\ a_y e' = a_y e /\
             sample e' = Some (e', fzero).
Proof.
  split; [reflexivity|]. intros e cs St H. revert e St. induction cs as [|c cs IH]; intros e St; cbn [do_calls].
  - exists e. split; [reflexivity|]. split; [exact St|]. split; [reflexivity|]. unfold sample. rewrite St. reflexivity.
  - inversion H; subst. assert (E : exists f, do_call e c = Some f /\ a_state f = note_off_state /\ a_y f = a_y e).
    { destruct c; cbn [do_call].
      - exists e. unfold sample. rewrite St. auto.
      - exfalso. apply H2. exact I.
      - exists e. unfold legato. rewrite St. auto.
      - exists (decay e). auto.
      - exists e. unfold release. rewrite St. auto.
      - eexists. split; [reflexivity|]. unfold note_off_level. destruct (flt _ _); auto.
      - eexists. split; [reflexivity|]. auto.
      - eexists. split; [reflexivity|]. auto.
      - eexists. split; [reflexivity|]. auto.
      - eexists. split; [reflexivity|]. auto.
      - eexists. split; [reflexivity|]. auto.
      - eexists. split; [reflexivity|]. unfold set_release_rate_f. destruct (flt _ _); auto. }
    destruct E as (f & Ef & Sf & Yf). rewrite Ef. cbn [bind]. destruct (IH H3 f Sf) as (e' & A & B & C & D).
    exists e'. split; [exact A|]. split; [exact B|]. split; [congruence|exact D].
Qed.
Print Assumptions C20_off_is_silent.

(** C20, shape within a phase, for a reached state: the attack only rises, up to its level and
    exactly onto it; sustain only falls; decay and release move towards their target without
    crossing it, unless the target is above (or within 0.0001): then they go onto it. *)
Theorem C20_shape :
  forall sps ad dd sl sd rd cs e e' out,
  proper_rate sps ad -> proper_rate sps dd -> proper_rate sps sd -> proper_rate sps rd -> level_in 1 sl ->
  Forall (call_ok 1) cs -> do_calls (adsr_make sps ad dd sl sd rd) cs = Some e -> sample e = Some (e', out) ->
  (a_state e = attack_state -> exists l, a_level e = Some l /\ B2R (a_y e) <= B2R out <= B2R l /\
     (a_state e' <> attack_state -> out = l)) /\
  (a_state e = sustain_state -> B2R out <= B2R (a_y e)) /\
  (a_state e = decay_state -> exists l, a_level e = Some l /\
     let t := B2R (fmul l (a_sustain e)) in B2R out = t \/ t <= B2R out <= B2R (a_y e)) /\
  (a_state e = release_state -> B2R out = B2R (a_off e) \/ B2R (a_off e) <= B2R out <= B2R (a_y e)).
Proof.
  intros sps ad dd sl sd rd cs e e' out H1 H2 H3 H4 H5 Hc H S.
  assert (M1 : 1 <= bpow radix2 126) by (change 1 with (bpow radix2 0); apply bpow_le; lia).
  pose proof (make_inv 1 sps ad dd sl sd rd ltac:(lra) H1 H2 H3 H4 H5) as Hm.
  pose proof (calls_inv 1 cs M1 _ e Hm Hc H) as Hi.
  pose proof (calls_inv2 1 cs M1 _ e Hm (make_inv2 _ _ _ _ _ _) Hc H) as Hj.
  destruct hyst_b as [Hb Hf].
  split; [|split; [|split]]; intros St; unfold sample in S; rewrite St in S.
  - destruct (j_att _ Hj St) as (l & El & Ly). exists l. split; [exact El|].
    apply mul_some in S. destruct S as (f & U & S). injection S as <- <-. unfold update_attack in U. rewrite El in U. apply Some_inj in U. subst f.
    destruct (lerp_f32 attack_target (a_y e) (a_attack e) target_bounded (level_bounded _ _ M1 (i_y _ _ Hi)) (i_att _ _ Hi)) as [[F _] B].
    set (y := fadd attack_target (fmul (a_attack e) (fsub (a_y e) attack_target))) in *.
    pose proof (i_lev _ _ Hi) as Hl. rewrite El in Hl. destruct Hl as [Fl Bl]. destruct target_b as [Tb _]. destruct (i_y _ _ Hi) as [Fy By].
    rewrite Rmin_right in B by lra.
    destruct (fgt y l) eqn:G; cbn [a_y set_y a_state].
    + split; [lra|]. auto.
    + change (fgt y l) with (flt l y) in G. apply (flt_false _ _ Fl F) in G. split; [lra|]. rewrite St. contradiction.
  - injection S as <- <-. cbn [a_y update_sustain set_y]. destruct (level_mul 1 (a_y e) (a_srate e) M1 (i_y _ _ Hi) (coeff_level _ (i_sr _ _ Hi))) as [_ Q]. exact Q.
  - apply mul_some in S. destruct S as (f & U & S). injection S as <- <-. unfold update_decay in U.
    apply mul_some in U. destruct U as (l & El & U). exists l. split; [exact El|]. apply Some_inj in U. subst f. cbv zeta.
    pose proof (i_lev _ _ Hi) as Hl. rewrite El in Hl. destruct (level_mul 1 l (a_sustain e) M1 Hl (i_sus _ _ Hi)) as [Hlv _].
    pose proof (lerp_f32 _ (a_y e) (a_decay e) (lvl1_bounded _ Hlv) (lvl1_bounded _ (i_y _ _ Hi)) (i_dec _ _ Hi)) as [[F _] B].
    set (t := fmul l (a_sustain e)) in *. set (y := fadd t (fmul (a_decay e) (fsub (a_y e) t))) in *.
    destruct (flt y (fadd t hysteresis)) eqn:G; cbn [a_y set_y]; [left; reflexivity|].
    destruct (threshold t Hlv) as (Ft & Vt & Lt). apply (flt_false _ _ F Ft) in G.
    right. destruct (Rle_lt_dec (B2R t) (B2R (a_y e))) as [Q|Q]; [rewrite Rmin_left, Rmax_right in B by lra; exact B|].
    rewrite Rmax_left in B by lra. lra.
  - injection S as <- <-. unfold update_release.
    pose proof (lerp_f32 _ (a_y e) (a_release e) (lvl1_bounded _ (i_off _ _ Hi)) (lvl1_bounded _ (i_y _ _ Hi)) (i_rel _ _ Hi)) as [[F _] B].
    set (t := a_off e) in *. set (y := fadd t (fmul (a_release e) (fsub (a_y e) t))) in *.
    destruct (flt y (fadd t hysteresis)) eqn:G; cbn [a_y set_y]; [left; reflexivity|].
    destruct (threshold t (i_off _ _ Hi)) as (Ft & Vt & Lt). apply (flt_false _ _ F Ft) in G.
    right. destruct (Rle_lt_dec (B2R t) (B2R (a_y e))) as [Q|Q]; [rewrite Rmin_left, Rmax_right in B by lra; exact B|].
    rewrite Rmax_left in B by lra. lra.
Qed.
Print Assumptions C20_shape.

(** C20, each sample is one step of the documented exponential with the parameters of its
    phase: attack towards 1.6 with the attack rate, decay towards level * sustain_level with
    the decay rate, sustain multiplied by the sustain rate, release towards the note-off level
    with the release rate (up to float rounding), unless it lands on its target. *)
Theorem C20_step_values :
  forall sps ad dd sl sd rd cs e e' out,
  proper_rate sps ad -> proper_rate sps dd -> proper_rate sps sd -> proper_rate sps rd -> level_in 1 sl ->
  Forall (call_ok 1) cs -> do_calls (adsr_make sps ad dd sl sd rd) cs = Some e -> sample e = Some (e', out) ->
  let y := B2R (a_y e) in
  let close x := Rabs (B2R out - x) <= bpow radix2 (-19) in
  (a_state e = attack_state -> exists l, a_level e = Some l /\
     (out = l \/ close (1.6 + B2R (a_attack e) * (y - 1.6)))) /\
  (a_state e = decay_state -> exists l, a_level e = Some l /\
     let t := B2R l * B2R (a_sustain e) in close t \/ close (t + B2R (a_decay e) * (y - t))) /\
  (a_state e = sustain_state -> close (y * B2R (a_srate e))) /\
  (a_state e = release_state -> let t := B2R (a_off e) in out = a_off e \/ close (t + B2R (a_release e) * (y - t))).
Proof.
  intros sps ad dd sl sd rd cs e e' out H1 H2 H3 H4 H5 Hc H S y close.
  assert (M1 : 1 <= bpow radix2 126) by (change 1 with (bpow radix2 0); apply bpow_le; lia).
  pose proof (make_inv 1 sps ad dd sl sd rd ltac:(lra) H1 H2 H3 H4 H5) as Hm.
  pose proof (calls_inv 1 cs M1 _ e Hm Hc H) as Hi.
  pose proof (calls_inv2 1 cs M1 _ e Hm (make_inv2 _ _ _ _ _ _) Hc H) as Hj.
  exact (step_values e e' out Hi Hj S).
Qed.
Print Assumptions C20_step_values.

(** C20, parameters: after any history every rate is the one for the duration given by the
    LAST call of its own setter (or the constructor), the sustain level likewise; a release
    coefficient given directly is taken as it is, and only if below 1. *)
Theorem C20_parameters :
  forall sps ad dd sl sd rd cs e,
  proper_rate sps ad -> proper_rate sps dd -> proper_rate sps sd -> proper_rate sps rd -> level_in 1 sl ->
  Forall (call_ok 1) cs -> do_calls (adsr_make sps ad dd sl sd rd) cs = Some e ->
  rate_for (a_attack e) (last_of attack_arg (sps, ad) cs) /\
  rate_for (a_decay e) (last_of decay_arg (sps, dd) cs) /\
  rate_for (a_srate e) (last_of sustain_rate_arg (sps, sd) cs) /\
  a_sustain e = last_of sustain_arg sl cs /\
  match last_of release_arg (inl (sps, rd)) cs with inl p => rate_for (a_release e) p | inr r => a_release e = r end.
Proof. exact parameters. Qed.
Print Assumptions C20_parameters.

(** C20, note-off level: it becomes the release target when below the current output, and is
    ignored otherwise; no other call moves the release target. *)
Theorem C20_note_off_level :
  (forall sps ad dd sl sd rd, a_off (adsr_make sps ad dd sl sd rd) = fzero) /\
  forall e, (forall l, flt l (a_y e) = true -> a_off (note_off_level e l) = l) /\
  (forall l, flt l (a_y e) = false -> note_off_level e l = e) /\
  (forall c e', (forall l, c <> CNoteOffLevel l) -> do_call e c = Some e' -> a_off e' = a_off e).
Proof.
  split; [reflexivity|]. intros e. split; [intros l H; unfold note_off_level; rewrite H; reflexivity|].
  split; [intros l H; unfold note_off_level; rewrite H; reflexivity|]. exact (off_frame e).
Qed.
Print Assumptions C20_note_off_level.

(** C20, the attack ends: for a reached attack whose attack time is at most 262144 samples and
    with auto_decay 1 or -1, finitely many calls (at most 1048578) take the envelope exactly
    to the triggered level and into decay (sustain for -1), attacking until then. *)
Theorem C20_attack_completes :
  forall sps ad dd sl sd rd cs e asps a,
  proper_rate sps ad -> proper_rate sps dd -> proper_rate sps sd -> proper_rate sps rd -> level_in 1 sl ->
  Forall (call_ok 1) cs -> do_calls (adsr_make sps ad dd sl sd rd) cs = Some e ->
  a_state e = attack_state -> a_auto e = 1%Z \/ a_auto e = (-1)%Z ->
  proper_rate asps a -> a_attack e = env_coeff asps a -> IZR asps * B2R a <= 262144 ->
  exists n e' l, a_level e = Some l /\ samples e n = Some e' /\ INR n <= 1048578 /\
    a_y e' = l /\ a_state e' = (if (a_auto e =? 1)%Z then decay_state else sustain_state) /\
    forall i e'', (i < n)%nat -> samples e i = Some e'' -> a_state e'' = attack_state.
Proof.
  intros sps ad dd sl sd rd cs e asps a H1 H2 H3 H4 H5 Hc H St Ha Hp Ea Hn.
  assert (M1 : 1 <= bpow radix2 126) by (change 1 with (bpow radix2 0); apply bpow_le; lia).
  pose proof (make_inv 1 sps ad dd sl sd rd ltac:(lra) H1 H2 H3 H4 H5) as Hm.
  pose proof (calls_inv 1 cs M1 _ e Hm Hc H) as Hi.
  pose proof (calls_inv2 1 cs M1 _ e Hm (make_inv2 _ _ _ _ _ _) Hc H) as Hj.
  destruct (j_att _ Hj St) as (l & El & Ly). pose proof (i_lev _ _ Hi) as Hl. rewrite El in Hl.
  destruct (attack_ends l (a_auto e) e Ha) as (n & e' & S & (D1 & D2 & D3) & B & W).
  { unfold attacking. split; [exact St|]. split; [exact El|]. split; [reflexivity|]. split; [apply (i_y _ _ Hi)|]. split; [exact Hl|].
    split; [exact Ly|]. split; [apply (i_att _ _ Hi)|]. rewrite Ea. apply (coeff_far asps a 262144); try assumption. lra. }
  exists n, e', l. split; [exact El|]. split; [exact S|]. split; [exact B|]. split; [exact D1|]. split; [exact D3|].
  intros i e'' Hk Si. exact (proj1 (W i e'' Hk Si)).
Qed.
Print Assumptions C20_attack_completes.

(** C20, a decay of at most 4000 samples ends: exactly at the sustain level, in sustain. *)
Theorem C20_decay_completes :
  forall sps ad dd sl sd rd cs e asps a l,
  proper_rate sps ad -> proper_rate sps dd -> proper_rate sps sd -> proper_rate sps rd -> level_in 1 sl ->
  Forall (call_ok 1) cs -> do_calls (adsr_make sps ad dd sl sd rd) cs = Some e ->
  a_state e = decay_state -> a_level e = Some l ->
  proper_rate asps a -> a_decay e = env_coeff asps a -> IZR asps * B2R a <= 4000 ->
  exists n e', samples e n = Some e' /\ INR n <= 67108866 /\
    a_y e' = fmul l (a_sustain e) /\ a_state e' = sustain_state /\
    forall i e'', (i < n)%nat -> samples e i = Some e'' -> a_state e'' = decay_state.
Proof.
  intros sps ad dd sl sd rd cs e asps a l H1 H2 H3 H4 H5 Hc H St El Hp Ea Hn.
  assert (M1 : 1 <= bpow radix2 126) by (change 1 with (bpow radix2 0); apply bpow_le; lia).
  pose proof (make_inv 1 sps ad dd sl sd rd ltac:(lra) H1 H2 H3 H4 H5) as Hm.
  pose proof (calls_inv 1 cs M1 _ e Hm Hc H) as Hi.
  pose proof (i_lev _ _ Hi) as Hl. rewrite El in Hl. destruct (level_mul 1 l (a_sustain e) M1 Hl (i_sus _ _ Hi)) as [Hlv _].
  destruct (decay_ends_any (fmul l (a_sustain e)) l e St El eq_refl Hlv (i_y _ _ Hi) (i_dec _ _ Hi)) as (n & e' & S & (D1 & D2 & D3) & B & W).
  { rewrite Ea. apply (coeff_far asps a 4000); try assumption. lra. }
  exists n, e'. auto 10.
Qed.
Print Assumptions C20_decay_completes.

(** C20, release ends: if note_off_level was never called, a release time of at most 1000000
    samples takes the envelope to 0 and off in finitely many calls. *)
Theorem C20_release_completes :
  forall sps ad dd sl sd rd cs e asps a,
  proper_rate sps ad -> proper_rate sps dd -> proper_rate sps sd -> proper_rate sps rd -> level_in 1 sl ->
  Forall (call_ok 1) cs -> Forall (fun c => forall l, c <> CNoteOffLevel l) cs ->
  do_calls (adsr_make sps ad dd sl sd rd) cs = Some e ->
  a_state e = release_state ->
  proper_rate asps a -> a_release e = env_coeff asps a -> IZR asps * B2R a <= 1000000 ->
  exists n e', samples e n = Some e' /\ INR n <= bpow radix2 36 + 2 /\
    a_y e' = fzero /\ a_state e' = note_off_state.
Proof.
  intros sps ad dd sl sd rd cs e asps a H1 H2 H3 H4 H5 Hc Hn0 H St Hp Ea Hn.
  assert (M1 : 1 <= bpow radix2 126) by (change 1 with (bpow radix2 0); apply bpow_le; lia).
  pose proof (make_inv 1 sps ad dd sl sd rd ltac:(lra) H1 H2 H3 H4 H5) as Hm.
  pose proof (calls_inv 1 cs M1 _ e Hm Hc H) as Hi.
  destruct (calls_off cs _ e Hn0 H) as [Eo Ee]. cbn [a_off a_endoff adsr_make] in Eo, Ee.
  destruct (release_ends e) as (n & e' & S & (D1 & D2) & B & W).
  { unfold releasing. split; [left; exact St|]. split; [apply (i_y _ _ Hi)|]. split; [exact Eo|]. rewrite Ee. split; [reflexivity|]. split; [reflexivity|].
    split; [apply (i_rel _ _ Hi)|]. rewrite Ea. apply (coeff_far asps a 1000000); try assumption. lra. }
  exists n, e'. auto.
Qed.
Print Assumptions C20_release_completes.

(** C20, legato: in a reached sustain below the level where it started, legato() and one call
    of operator() return exactly that level, in sustain: the output jumps, whatever the attack
    rate (there is no glide). *)
Theorem C20_legato_jumps :
  forall sps ad dd sl sd rd cs e s,
  proper_rate sps ad -> proper_rate sps dd -> proper_rate sps sd -> proper_rate sps rd -> level_in 1 sl ->
  Forall (call_ok 1) cs -> do_calls (adsr_make sps ad dd sl sd rd) cs = Some e ->
  a_state e = sustain_state -> a_start e = Some s -> B2R (a_y e) < B2R s ->
  exists e1 e2, legato e = Some e1 /\ sample e1 = Some (e2, s) /\ a_state e2 = sustain_state /\ a_y e2 = s.
Proof.
  intros sps ad dd sl sd rd cs e s H1 H2 H3 H4 H5 Hc H St Es L.
  assert (M1 : 1 <= bpow radix2 126) by (change 1 with (bpow radix2 0); apply bpow_le; lia).
  pose proof (make_inv 1 sps ad dd sl sd rd ltac:(lra) H1 H2 H3 H4 H5) as Hm.
  pose proof (calls_inv 1 cs M1 _ e Hm Hc H) as Hi.
  pose proof (i_start _ _ Hi) as Hs. rewrite Es in Hs. cbn in Hs.
  unfold legato. rewrite St, Es. cbv beta iota zeta delta [bind].
  replace (flt (a_y e) s) with true by (symmetry; apply (flt_true _ _ (proj1 (i_y _ _ Hi)) (proj1 Hs)); exact L).
  eexists. 
  pose proof (lerp_f32 s (a_y e) (a_attack e) (lvl1_bounded _ Hs) (lvl1_bounded _ (i_y _ _ Hi)) (i_att _ _ Hi)) as [[F _] B].
  rewrite Rmax_left in B by lra. destruct (threshold s Hs) as (Ft & Vt & Lt). destruct hyst_b as [Hb Hf].
  unfold sample. cbn [a_state]. unfold update_legato. cbn [a_legato a_attack a_y]. cbv beta iota zeta delta [bind].
  eexists. split; [reflexivity|]. cbn [a_state a_legato a_attack a_y].
  replace (flt (fadd s (fmul (a_attack e) (fsub (a_y e) s))) (fadd s hysteresis)) with true by (symmetry; apply (flt_true _ _ F Ft); lra).
  auto.
Qed.
Print Assumptions C20_legato_jumps.

(** C20, the note-release state is dead: no history with non-negative levels enters it. *)
Theorem C20_note_release_unreachable :
  forall (M : R) sps ad dd sl sd rd cs e, 0 <= M <= bpow radix2 126 ->
  proper_rate sps ad -> proper_rate sps dd -> proper_rate sps sd -> proper_rate sps rd -> level_in 1 sl ->
  Forall (call_ok M) cs -> do_calls (adsr_make sps ad dd sl sd rd) cs = Some e -> a_state e <> note_release_state.
Proof.
  intros M sps ad dd sl sd rd cs e [H0 HM] H1 H2 H3 H4 H5 Hc H.
  exact (j_st _ (calls_inv2 M cs HM _ e (make_inv M sps ad dd sl sd rd H0 H1 H2 H3 H4 H5) (make_inv2 _ _ _ _ _ _) Hc H)).
Qed.
Print Assumptions C20_note_release_unreachable.

(** C20, finding: "the envelope progresses to sustain" fails for long decays.  For EVERY decay
    time of at least 8250 samples (43 ms at 192 kHz), sustain level in [1/2, 0.99] and attack of at
    most 262144 samples, trigger(1) never reaches sustain: from some call on the envelope is in
    decay for ever (the binary32 step rounds back to where it was, just above the threshold). *)
Theorem C20_long_decay_never_ends_refuted :
  forall sps ad dd sl sd rd,
  proper_rate sps ad -> proper_rate sps dd -> proper_rate sps sd -> proper_rate sps rd ->
  is_finite sl = true -> / 2 <= B2R sl <= 0.99 ->
  IZR sps * B2R ad <= 262144 -> 8250 <= IZR sps * B2R dd ->
  exists n0, forall n, exists e, samples (trigger (adsr_make sps ad dd sl sd rd) (mk32 1 0) 1) (n0 + n) = Some e /\ a_state e = decay_state.
Proof.
  intros sps ad dd sl sd rd H1 H2 H3 H4 Fs Bs Na Nd.
  assert (M1 : 1 <= bpow radix2 126) by (change 1 with (bpow radix2 0); apply bpow_le; lia).
  assert (Hs : level_in 1 sl) by (split; [exact Fs|lra]).
  destruct (int32 1 ltac:(reflexivity)) as [V1 F1].
  assert (Hl1 : level_in 1 (mk32 1 0)) by (split; [exact F1|rewrite V1; lra]).
  set (e0 := trigger (adsr_make sps ad dd sl sd rd) (mk32 1 0) 1).
  assert (E0 : e0 = mkAdsr attack_state fzero (env_coeff sps ad) (Some (mk32 1 0)) (env_coeff sps dd) None sl None
         (env_coeff sps sd) (env_coeff sps rd) fzero fzero 1).
  { unfold e0, trigger. cbn [a_y adsr_make]. replace (flt fzero (mk32 1 0)) with true by (vm_compute; reflexivity). reflexivity. }
  destruct (attack_ends (mk32 1 0) 1 e0 (or_introl eq_refl)) as (n0 & e1 & S1 & (D1 & D2 & D3) & _ & _).
  { rewrite E0. unfold attacking. cbn [a_state a_level a_auto a_y a_attack]. split; [reflexivity|]. split; [reflexivity|]. split; [reflexivity|].
    split; [split; [reflexivity|cbn; lra]|]. split; [exact Hl1|]. split; [rewrite V1; cbn; lra|].
    split; [apply proper_coeff; exact H1|]. apply (coeff_far sps ad 262144); try assumption. lra. }
  assert (K : a_decay e1 = env_coeff sps dd /\ a_sustain e1 = sl).
  { assert (G : forall n f f', samples f n = Some f' -> a_decay f' = a_decay f /\ a_sustain f' = a_sustain f).
    { induction n as [|n IH]; intros f f' S; [cbn in S; injection S as <-; auto|]. rewrite samples_S in S. apply mul_some in S. destruct S as ([g o] & Sg & S).
      destruct (sample_off _ _ _ Sg) as (_ & _ & _ & _ & A & B & _). destruct (IH _ _ S) as [A' B']. cbn [fst] in A', B'. split; congruence. }
    destruct (G _ _ _ S1) as [A B]. rewrite A, B, E0. auto. }
  destruct K as [K1 K2].
  destruct (level_mul 1 (mk32 1 0) sl M1 Hl1 Hs) as [Hlv _].
  assert (Vl : B2R (fmul (mk32 1 0) sl) = B2R sl).
  { destruct (fmul_exact (mk32 1 0) sl F1 Fs) as [V _]; rewrite ?V1, ?Rmult_1_l; [apply fmt_v|apply fin_lt_emax|]. rewrite V1, Rmult_1_l in V. exact V. }
  assert (Hd : decaying (fmul (mk32 1 0) sl) e1).
  { unfold decaying. split; [exact D3|]. split; [exists (mk32 1 0); rewrite K2; auto|]. split; [exact Hlv|]. rewrite D1. split; [exact Hl1|].
    split; [rewrite Vl, V1; lra|]. rewrite K1. apply proper_coeff. exact H2. }
  exists n0. intros n.
  destruct (decay_never _ e1 Hd) with (n := n) as (e2 & S2 & St2 & _).
  - rewrite Vl. exact Bs.
  - rewrite K1. apply (coeff_near sps dd 8250); try assumption; lra.
  - rewrite D1, V1. destruct (threshold _ Hlv) as (Ft & Vt & _). destruct hyst_b as [Hb _]. rewrite Vt. apply rnd_le_fmt; [apply (fmt_int 1); reflexivity|].
    rewrite Vl. lra.
  - exists e2. split; [|exact St2]. clear - S1 S2. revert S1. generalize e0. induction n0 as [|k IH]; intros f S1; [cbn in S1; injection S1 as ->; exact S2|].
    change (S k + n)%nat with (S (k + n)). rewrite samples_S in *. apply mul_some in S1. destruct S1 as ([g o] & Sg & S1). rewrite Sg. cbn [bind]. apply IH. exact S1.
Qed.
Print Assumptions C20_long_decay_never_ends_refuted.

(** ... for instance the default configuration at 192 kHz (attack 30 ms, decay 70 ms, sustain
    -6 dB = 0.501187, sustain rate 50 s, release 100 ms): all hypotheses hold. *)
Lemma dur_bounds (d : f64) lo hi k : is_finite d = true -> (Z.abs lo < 2 ^ 53)%Z -> (Z.abs hi < 2 ^ 53)%Z -> (-1074 <= k <= 971)%Z ->
  fle (mk64 lo k) d && fle d (mk64 hi k) = true -> IZR lo * bpow radix2 k <= B2R d <= IZR hi * bpow radix2 k.
Proof.
  intros F Hl Hh Hk T. apply andb_prop in T. destruct T as [T1 T2].
  destruct (mk64_small lo k Hl Hk) as [V1 F1]. destruct (mk64_small hi k Hh Hk) as [V2 F2].
  apply (fle_true _ _ F1 F) in T1. apply (fle_true _ _ F F2) in T2. lra.
Qed.
Corollary C20_default_at_192k_never_sustains_refuted :
  let ms n := fdiv (mk64 n 0) (mk64 1000 0) : f64 in
  let sl := fdiv (mk32 501187 0) (mk32 1000000 0) : f32 in
  exists n0, forall n, exists e,
    samples (trigger (adsr_make 192000 (ms 30%Z) (ms 70%Z) sl (ms 50000%Z) (ms 100%Z)) (mk32 1 0) 1) (n0 + n) = Some e /\ a_state e = decay_state.
Proof.
  cbv zeta.
  assert (B : forall n lo hi, is_finite (fdiv (mk64 n 0) (mk64 1000 0)) && (fle (mk64 lo (-20)) (fdiv (mk64 n 0) (mk64 1000 0)) && fle (fdiv (mk64 n 0) (mk64 1000 0)) (mk64 hi (-20))) = true ->
    (0 <= lo < 2 ^ 53)%Z -> (0 <= hi < 2 ^ 53)%Z -> is_finite (fdiv (mk64 n 0) (mk64 1000 0)) = true /\ IZR lo * / 1048576 <= B2R (fdiv (mk64 n 0) (mk64 1000 0)) <= IZR hi * / 1048576).
  { intros n lo hi T Hl Hh. apply andb_prop in T. destruct T as [T1 T2]. split; [exact T1|]. apply (dur_bounds _ lo hi (-20)); try assumption; lia. }
  destruct (B 30%Z 31457%Z 31458%Z ltac:(vm_compute; reflexivity) ltac:(lia) ltac:(lia)) as [Fa Ba].
  destruct (B 70%Z 73400%Z 73401%Z ltac:(vm_compute; reflexivity) ltac:(lia) ltac:(lia)) as [Fd Bd].
  destruct (B 50000%Z 52428800%Z 52428800%Z ltac:(vm_compute; reflexivity) ltac:(lia) ltac:(lia)) as [Fs Bs].
  destruct (B 100%Z 104857%Z 104858%Z ltac:(vm_compute; reflexivity) ltac:(lia) ltac:(lia)) as [Fr Br].
  assert (P : forall d : f64, is_finite d = true -> 0.001 <= B2R d <= 100 -> proper_rate 192000 d).
  { intros d F Hd. split; [lia|]. split; [exact F|]. split; [|lra]. apply Rle_trans with (bpow radix2 7); [change (bpow radix2 7) with 128; lra|apply bpow_le; lia]. }
  apply C20_long_decay_never_ends_refuted; try (apply P; [assumption|lra]).
  - vm_compute. reflexivity.
  - set (sl := fdiv (mk32 501187 0) (mk32 1000000 0)).
    assert (T : is_finite sl && (fle (mk32 1 (-1)) sl && fle sl (mk32 3 (-2))) = true) by (vm_compute; reflexivity).
    clearbody sl. apply andb_prop in T. destruct T as [T0 T]. apply andb_prop in T. destruct T as [T1 T2].
    destruct (mk32_small 1 (-1) ltac:(reflexivity) ltac:(lia)) as [V1 F1]. destruct (mk32_small 3 (-2) ltac:(reflexivity) ltac:(lia)) as [V2 F2].
    apply (fle_true _ _ F1 T0) in T1. apply (fle_true _ _ T0 F2) in T2. change (bpow radix2 (-1)) with (/ 2) in V1. change (bpow radix2 (-2)) with (/ 4) in V2. lra.
  - lra.
  - lra.
Qed.
Print Assumptions C20_default_at_192k_never_sustains_refuted.

(** C20, finding: a release towards a note-off level of 0.0001 or more never ends, so "release
    leads to off" fails after note_off_level(l) with such an l. *)
Theorem C20_release_never_off_refuted :
  forall sps ad dd sl sd rd cs e,
  proper_rate sps ad -> proper_rate sps dd -> proper_rate sps sd -> proper_rate sps rd -> level_in 1 sl ->
  Forall (call_ok 1) cs -> do_calls (adsr_make sps ad dd sl sd rd) cs = Some e ->
  a_state e = release_state -> B2R hysteresis <= B2R (a_off e) ->
  forall n, exists e', samples e n = Some e' /\ a_state e' = release_state.
Proof.
  intros sps ad dd sl sd rd cs e H1 H2 H3 H4 H5 Hc H St Ho.
  assert (M1 : 1 <= bpow radix2 126) by (change 1 with (bpow radix2 0); apply bpow_le; lia).
  pose proof (make_inv 1 sps ad dd sl sd rd ltac:(lra) H1 H2 H3 H4 H5) as Hm.
  pose proof (calls_inv 1 cs M1 _ e Hm Hc H) as Hi.
  pose proof (calls_inv2 1 cs M1 _ e Hm (make_inv2 _ _ _ _ _ _) Hc H) as Hj.
  apply release_never; try assumption; try apply Hi; try apply (j_end _ Hj).
Qed.
Print Assumptions C20_release_never_off_refuted.

(** concrete histories: sample rate 8 (four-sample attack), and the finding that legato() after
    the attack of trigger(0.5, -1) reads the uninitialised start-of-sustain level *)
Definition ex_env : adsr := adsr_make 8 (mk64 1 (-1)) (mk64 1 (-1)) (mk32 1 (-1)) (mk64 1 0) (mk64 1 (-1)).
Definition ex_state (cs : list call) : option state_enum := match do_calls ex_env cs with Some e => Some (a_state e) | None => None end.
Example C20_ex_phases :
  (ex_state [CTrigger (mk32 1 (-1)) 1] = Some attack_state) /\
  (ex_state [CTrigger (mk32 1 (-1)) 1; CSample; CSample] = Some decay_state) /\
  (ex_state ([CTrigger (mk32 1 (-1)) 1] ++ repeat CSample 20) = Some sustain_state) /\
  (ex_state ([CTrigger (mk32 1 (-1)) 1] ++ repeat CSample 20 ++ [CLegato]) = Some legato_state) /\
  (ex_state ([CTrigger (mk32 1 (-1)) 0] ++ repeat CSample 20) = Some attack_state) /\
  (ex_state ([CTrigger (mk32 1 (-1)) 0] ++ repeat CSample 20 ++ [CDecay; CSample]) = Some decay_state) /\
  (ex_state ([CTrigger (mk32 1 (-1)) 1; CSample; CNoteOffLevel (mk32 1 (-4)); CRelease] ++ repeat CSample 40) = Some release_state) /\
  (ex_state ([CTrigger (mk32 1 (-1)) 1; CSample; CRelease] ++ repeat CSample 40) = Some note_off_state).
Proof. repeat split; vm_compute; reflexivity. Qed.
Theorem C20_legato_reads_uninitialised_refuted :
  let history := [CTrigger (mk32 1 (-1)) (-1); CSample; CSample] in
  ex_state history = Some sustain_state /\ do_calls ex_env (history ++ [CLegato]) = None.
Proof.
  cbv zeta. split; [vm_compute; reflexivity|].
  assert (T : match do_calls ex_env ([CTrigger (mk32 1 (-1)) (-1); CSample; CSample] ++ [CLegato]) with None => true | Some _ => false end = true) by (vm_compute; reflexivity).
  destruct (do_calls ex_env ([CTrigger (mk32 1 (-1)) (-1); CSample; CSample] ++ [CLegato])) as [e|] eqn:E; [discriminate|reflexivity].
Qed.
Print Assumptions C20_legato_reads_uninitialised_refuted.
(** ... and a trigger at or below current() is ignored, so "from any state trigger(v) starts the
    attack" holds only for v above current() (C20_events). *)
Example C20_ex_trigger_ignored :
  ex_state ([CTrigger (mk32 1 (-1)) 1] ++ repeat CSample 3 ++ [CTrigger (mk32 1 (-3)) 1]) = Some decay_state.
Proof. vm_compute. reflexivity. Qed.
Example C20_ex_hypotheses : proper_rate 8 (mk64 1 (-1)) /\ proper_rate 8 (mk64 1 0) /\ level_in 1 (mk32 1 (-1)) /\
  Forall (call_ok 1) [CTrigger (mk32 1 (-1)) 1; CSample; CLegato; CNoteOffLevel (mk32 1 (-4)); CRelease].
Proof.
  destruct (mk64_small 1 (-1) ltac:(reflexivity) ltac:(lia)) as [V1 F1]. destruct (mk64_small 1 0 ltac:(reflexivity) ltac:(lia)) as [V2 F2].
  destruct (mk32_small 1 (-1) ltac:(reflexivity) ltac:(lia)) as [V3 F3]. destruct (mk32_small 1 (-4) ltac:(reflexivity) ltac:(lia)) as [V4 F4].
  change (bpow radix2 (-1)) with (/ 2) in V1, V3. change (bpow radix2 (-4)) with (/ 16) in V4. change (bpow radix2 0) with 1 in V2.
  assert (1 <= bpow radix2 900) by (change 1 with (bpow radix2 0); apply bpow_le; lia).
  split; [|split; [|split]].
  - split; [lia|]. split; [exact F1|]. split; lra.
  - split; [lia|]. split; [exact F2|]. split; lra.
  - split; [exact F3|lra].
  - repeat constructor; cbn [call_ok]; try exact I; try assumption; lra.
Qed.
