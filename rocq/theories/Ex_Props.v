(** C54: the example programs - the delay effects, the sine synthesizer and the MIDI synthesizer.  Theorems only. *)
From Coq Require Import Reals Lra.
From Flocq Require Import Core.Core IEEE754.BinarySingleNaN.
From Verif Require Import Common CommonFacts Ring_Model Ring_Spec Ring_Proof Float FloatFacts Phase_Model Osc_Model Osc_Spec Osc_Proof PhaseF_Proof Phase_Proof Sin_Proof
  Shape_Model Shape_Props Notes_Model Midi_Model Adsr_Model Adsr_Spec Adsr_Proof Reso_Model Bq_Model Val_Model Ex_Model Ex_Spec Ex_Proof.
Local Open Scope R_scope.

(** The delay effect, however the audio is cut into blocks: the left channel is the input, the right one the feedback
    echo with a delay of c samples, c being the least power of two that is at least the delay in samples. *)
Theorem C54_delay_effect :
  forall (d : f64) (sps : N) (fb : f32) (bs : list (list f32)),
  (sps < 2 ^ 32)%N -> is_finite d = true -> 0 <= B2R d -> B2R d * IZR (Z.of_N sps) <= bpow radix2 62 ->
  exists r0 n c outs y,
    Z.of_N n = Zceil (rnd 53 1024 (B2R d * IZR (Z.of_N sps))) /\ least_pow2_ge n c /\
    dp_make d sps = Some r0 /\ delay_blocks fb r0 bs = Some outs /\
    map (@length _) outs = map (@length _) bs /\
    echo fzero fadd fmul (N.to_nat c) fb (signal (concat bs)) y /\
    forall t, (t < length (concat bs))%nat -> nth_error (concat outs) t = Some (signal (concat bs) t, y t).
Proof.
  intros d sps fb bs Hs F H0 H1. destruct (delay_samples_R d sps Hs F H0 H1) as (n & En & Zn & Bn).
  assert (B63 : (n <= 2 ^ 63)%N) by (apply N.le_trans with (1 := Bn); apply N.pow_le_mono_r; discriminate).
  destruct (effect (fzero : f32) fadd fmul n fb bs B63) as (r0 & c & outs & Em & Lc & C0 & Eo & Lo & Q).
  destruct (echo_exists (fzero : f32) fadd fmul (N.to_nat c) fb (signal (concat bs)) C0) as [y Ey].
  exists r0, n, c, outs, y. split; [exact Zn|]. split; [exact Lc|]. split; [unfold dp_make; rewrite En; exact Em|].
  split; [exact Eo|]. split; [exact Lo|]. split; [exact Ey|]. exact (Q y Ey).
Qed.
Print Assumptions C54_delay_effect.

(** With a feedback of at most 7/8 (the examples use 0.85) and input in [-1,1], the echo is at most 8 for ever. *)
Theorem C54_delay_bounded :
  forall c (fb : f32) (s y : nat -> f32), (0 < c)%nat -> echo fzero fadd fmul c fb s y ->
  is_finite fb = true -> Rabs (B2R fb) <= 7 / 8 ->
  (forall t, is_finite (s t) = true /\ Rabs (B2R (s t)) <= 1) ->
  forall t, is_finite (y t) = true /\ Rabs (B2R (y t)) <= 8.
Proof.
  intros c fb s y Hc E F B Hs t.
  destruct (mk32_small 8 0 ltac:(reflexivity) ltac:(lia)) as [E8 F8]. destruct (mk32_small 7 0 ltac:(reflexivity) ltac:(lia)) as [E7 F7].
  change (bpow radix2 0) with 1 in *.
  destruct (echo_bounded c fb s y (mk32 8 0) (mk32 7 0) 1 E F F8 F7 Hs) with (t := t) as [A1 A2]; rewrite ?E8, ?E7 in *; try lra; try assumption.
  split; [exact A1|]. lra.
Qed.
Print Assumptions C54_delay_bounded.

(** The delay time is not the one asked for: 350 ms at 44100 samples per second (example/delay.cpp) is 15435 samples
    (the code computes 15436), but the echo of an impulse comes after 16384 (371.5 ms), for every feedback; 500 ms,
    22050 samples, becomes 32768 (743 ms). *)
Theorem C54_delay_time_refuted :
  forall fb : f32, is_finite fb = true ->
  let c := N.to_nat 16384 in
  let impulse := mk32 1 0 :: repeat (fzero : f32) c in
  exists r0 out, dp_make (lit_ms 350) 44100 = Some r0 /\ delay_blocks fb r0 [impulse] = Some [out] /\
    delay_samples (lit_ms 350) 44100 = Some 15436%N /\
    (forall t, (0 < t < c)%nat -> exists p, nth_error out t = Some p /\ B2R (snd p) = 0) /\
    (exists p, nth_error out c = Some p /\ B2R (snd p) = B2R fb) /\
  delay_samples (lit_ms 500) 44100 = Some 22050%N /\ least_pow2_ge 22050 32768.
Proof.
  intros fb F c impulse.
  assert (E1 : delay_samples (lit_ms 350) 44100 = Some 15436%N) by (vm_compute; reflexivity).
  assert (E2 : delay_samples (lit_ms 500) 44100 = Some 22050%N) by (vm_compute; reflexivity).
  destruct (effect (fzero : f32) fadd fmul 15436 fb [impulse] ltac:(discriminate)) as (r0 & c' & outs & Em & Lc & C0 & Eo & Lo & Q).
  assert (Ec : c' = 16384%N).
  { destruct Lc as (k & -> & Ge & Le). apply N.le_antisymm; [apply (Le 14%N); discriminate|].
    destruct (N.le_gt_cases 14 k) as [H|H]; [change 16384%N with (2 ^ 14)%N; apply N.pow_le_mono_r; [discriminate|exact H]|].
    assert (2 ^ k <= 2 ^ 13)%N by (apply N.pow_le_mono_r; [discriminate|lia]). change (2 ^ 13)%N with 8192%N in *. lia. }
  subst c'. fold c in C0, Q. assert (HC : (0 < c)%nat) by exact C0. clearbody c.
  destruct outs as [|out [|? ?]]; cbn [map] in Lo; try discriminate.
  cbn [concat] in Q. rewrite !app_nil_r in Q.
  assert (NZ : forall t, (0 < t)%nat -> nth t impulse fzero = fzero).
  { intros [|t] H; [lia|]. unfold impulse. cbn [nth]. destruct (Nat.lt_ge_cases t c) as [H'|H']; [|apply nth_overflow; rewrite repeat_length; exact H'].
    assert (I : In (nth t (repeat (fzero : f32) c) fzero) (repeat (fzero : f32) c)) by (apply nth_In; rewrite repeat_length; exact H').
    apply repeat_spec in I. exact I. }
  assert (Li : length impulse = S c) by (unfold impulse; cbn [length]; rewrite repeat_length; reflexivity).
  destruct (echo_exists (fzero : f32) fadd fmul c fb (fun t => nth t impulse fzero) C0) as [y Ey].
  specialize (Q y Ey).
  exists r0, out. split; [unfold dp_make; rewrite E1; exact Em|]. split; [exact Eo|]. split; [exact E1|].
  assert (Y0 : y 0%nat = mk32 1 0). { rewrite (Ey 0%nat). destruct (Nat.ltb_spec 0 c) as [_|H]; [reflexivity|lia]. }
  split; [|split; [|split; [exact E2|]]].
  - intros t Ht. exists (nth t impulse fzero, y t). split; [apply Q; rewrite Li; lia|]. cbn [snd]. rewrite (Ey t), NZ by lia.
    destruct (Nat.ltb_spec t c); [reflexivity|lia].
  - exists (nth c impulse fzero, y c). split; [apply Q; rewrite Li; lia|]. cbn [snd]. rewrite (Ey c), NZ by exact HC.
    rewrite Nat.ltb_irrefl, Nat.sub_diag, Y0. destruct one_R as [V1 F1].
    destruct (fmul_R (mk32 1 0) fb F1 F) as [Vm Fm]. { rewrite V1, Rmult_1_l, rnd_v. apply abs_B2R_lt_emax. }
    rewrite V1, Rmult_1_l, rnd_v in Vm.
    destruct (fadd_R fzero (fmul (mk32 1 0) fb) eq_refl Fm) as [Va _]. { rewrite Vm. change (B2R fzero) with 0. rewrite Rplus_0_l, rnd_v. apply abs_B2R_lt_emax. }
    rewrite Va, Vm. change (B2R fzero) with 0. rewrite Rplus_0_l. apply rnd_v.
  - exists 15%N. split; [reflexivity|]. split; [discriminate|]. intros k Hk.
    destruct (N.le_gt_cases 15 k) as [H|H]; [change 32768%N with (2 ^ 15)%N; apply N.pow_le_mono_r; [discriminate|exact H]|].
    assert (2 ^ k <= 2 ^ 14)%N by (apply N.pow_le_mono_r; [discriminate|lia]). change (2 ^ 14)%N with 16384%N in *. lia.
Qed.
Print Assumptions C54_delay_time_refuted.

(** The sine synthesizer: frame number t carries in both channels the sine at the phase t q / 2^32 of a turn (up to
    2^-16), q being the frequency as a fraction of the sample rate, whatever the sizes of the blocks. *)
Theorem C54_sine :
  forall (freq : f64) (sps : N) (ns : list nat),
  (1 <= sps < 2 ^ 32)%N -> is_finite freq = true -> 0 <= B2R freq -> B2R freq < IZR (Z.of_N sps) ->
  exists i q ls, sn_make freq sps = Some i /\ phase_of_freq freq sps = Some q /\
    sn_blocks i ns = Some ls /\ map (@length _) ls = ns /\
    forall t p, nth_error (concat ls) t = Some p ->
      exists v, p = (v, v) /\ is_finite v = true /\ -1 <= B2R v <= 1 /\
        Rabs (B2R v - ideal_sin (turn ((N.of_nat t * q) mod 2 ^ 32))) <= bpow radix2 (-16).
Proof.
  intros freq sps ns Hs F H0 H1. destruct (phase_of_freq_R freq sps Hs F (conj H0 H1)) as (q & Eq & Bq & _).
  assert (V : valid_it (mkPI 0 q)) by (split; [reflexivity|exact Bq]).
  destruct (sn_blocks_spec ns (mkPI 0 q) V) as (ls & El & Ll & Q).
  exists (mkPI 0 q), q, ls. split; [unfold sn_make; rewrite Eq; reflexivity|]. split; [exact Eq|]. split; [exact El|]. split; [exact Ll|].
  intros t p Hp. destruct (Q t p Hp) as (v & -> & Ev). exists v. split; [reflexivity|].
  rewrite phase_n in Ev by exact V. cbn [pi_phase pi_incr] in Ev. rewrite N.add_0_l in Ev.
  destruct (sin_synth_R ((N.of_nat t * q) mod 2 ^ 32) ltac:(apply N.mod_lt; discriminate)) as (w & Ew & Fw & Bw & Dw).
  unfold W32 in Ev. rewrite Ev in Ew. injection Ew as <-. auto.
Qed.
Print Assumptions C54_sine.

(** The MIDI synthesizer never fails: for every interleaving of MIDI messages and audio frames it produces one sample per
    frame; its envelope is the one that note ons trigger and the note off of the last key releases, at a level of at most
    127/128; its pitch is that of the last key; and every sample is a number in [-1,1] or not a number. *)
Theorem C54_synth :
  forall (sps : N) ad dd sl sd rd key evs,
  (13300 <= sps < 2 ^ 32)%N -> let z := Z.of_N sps in
  proper_rate z ad -> proper_rate z dd -> proper_rate z sd -> proper_rate z rd -> level_in 1 sl ->
  Forall proper_event evs ->
  exists out s, sy_run sps (sy_make sps ad dd sl sd rd key) evs = Some (out, s) /\
    length out = length (filter is_frame evs) /\
    do_calls (adsr_make z ad dd sl sd rd) (env_calls key evs) = Some (sy_env s) /\
    level_in (127 / 128) (a_y (sy_env s)) /\
    (match last_key None evs with
     | None => pi_incr (sy_phase s) = 0%N
     | Some k => sy_key s = k /\ exists f, note_frequency k = Some f /\ phase_of_freq f sps = Some (pi_incr (sy_phase s))
     end) /\
    Forall (fun y : f32 => is_nan y = true \/ (is_finite y = true /\ -1 <= B2R y <= 1)) out.
Proof.
  intros sps ad dd sl sd rd key evs Hs z H1 H2 H3 H4 H5 P.
  assert (K : sok (sy_make sps ad dd sl sd rd key)).
  { split; [apply make_inv; try assumption; unfold top; lra|]. split; [exact Logic.I|]. split; reflexivity. }
  destruct (run_spec sps evs Hs (sy_make sps ad dd sl sd rd key) None 0%N K P eq_refl) as (out & s & Er & Ks & Go & Lo & Co & Po).
  exists out, s. split; [exact Er|]. split; [exact Lo|]. split; [exact Co|]. split; [|split; [exact Po|exact Go]].
  destruct Ks as (I & _). exact (i_y _ _ I).
Qed.
Print Assumptions C54_synth.

(** In every state it reaches: a MIDI message leaves the phase of the oscillator where it is (no click) and the filter
    alone, a frame advances the phase by the step, and the sample is a number whenever the filter's output is finite. *)
Theorem C54_synth_step :
  forall (sps : N) ad dd sl sd rd key evs out s,
  (13300 <= sps < 2 ^ 32)%N -> let z := Z.of_N sps in
  proper_rate z ad -> proper_rate z dd -> proper_rate z sd -> proper_rate z rd -> level_in 1 sl ->
  Forall proper_event evs -> sy_run sps (sy_make sps ad dd sl sd rd key) evs = Some (out, s) ->
  (forall raw s', proper_event (Midi raw) -> sy_step sps s (Midi raw) = Some ([], s') ->
     pi_phase (sy_phase s') = pi_phase (sy_phase s) /\ sy_filter s' = sy_filter s) /\
  (forall o s', sy_step sps s Frame = Some (o, s') ->
     pi_phase (sy_phase s') = ((pi_phase (sy_phase s) + pi_incr (sy_phase s)) mod 2 ^ 32)%N /\
     pi_incr (sy_phase s') = pi_incr (sy_phase s) /\
     exists y, o = [y] /\ (is_finite (rs_y1 (sy_filter s')) = true -> is_finite y = true /\ -1 <= B2R y <= 1)).
Proof.
  intros sps ad dd sl sd rd key evs out s Hs z H1 H2 H3 H4 H5 P E.
  assert (K : sok (sy_make sps ad dd sl sd rd key)).
  { split; [apply make_inv; try assumption; unfold top; lra|]. split; [exact Logic.I|]. split; reflexivity. }
  destruct (run_spec sps evs Hs (sy_make sps ad dd sl sd rd key) None 0%N K P eq_refl) as (out' & s0 & Er & Ks & _).
  rewrite E in Er. injection Er as <- <-. split.
  - intros raw s' [Hr Hv] Em. cbn [sy_step] in Em. rewrite N.mod_small in Em by exact Hr. rewrite handle_raw in Em.
    destruct (on_of raw) as [[k v]|] eqn:On.
    + destruct (on_ok sps s k v Hs Ks (Hv k v eq_refl)) as (s1 & E1 & _ & _ & _ & _ & A & B). rewrite E1 in Em. injection Em as <-. auto.
    + destruct (off_of raw) as [k|]; cbn [bind] in Em; injection Em as <-; [|auto].
      unfold sy_note_off. destruct (_ =? _)%N; auto.
  - intros o s' Em. cbn [sy_step] in Em. destruct Ks as (I & D & V). destruct (sample_def _ D) as (e' & w & Es & _).
    unfold sy_frame in Em. rewrite Es in Em. cbn [bind fst snd] in Em. apply some_pair in Em. destruct Em as [Eo Ey].
    destruct (sample_inv top _ _ _ top_le I Es) as [_ [Fw _]].
    rewrite <- Ey. cbn [sy_phase sy_filter]. split; [reflexivity|]. split; [reflexivity|].
    eexists. split; [symmetry; exact Eo|]. intros Fy. apply C28_soft_clip_bounded.
    apply mul_not_nan; assumption.
Qed.
Print Assumptions C54_synth_step.

(** Silence: from the start, and whenever the envelope has come to its end with a filter that has not blown up, the output
    is zero until a note on with a positive velocity arrives. *)
Theorem C54_silence :
  forall (sps : N) ad dd sl sd rd key evs out s evs2,
  (13300 <= sps < 2 ^ 32)%N -> let z := Z.of_N sps in
  proper_rate z ad -> proper_rate z dd -> proper_rate z sd -> proper_rate z rd -> level_in 1 sl ->
  Forall proper_event evs -> sy_run sps (sy_make sps ad dd sl sd rd key) evs = Some (out, s) ->
  a_state (sy_env s) = note_off_state ->
  (forall y, y = rs_y0 (sy_filter s) \/ y = rs_y1 (sy_filter s) -> is_finite y = true /\ Rabs (B2R y) <= bpow radix2 100) ->
  Forall proper_event evs2 -> Forall no_onset evs2 ->
  exists out2 s2, sy_run sps s evs2 = Some (out2, s2) /\ length out2 = length (filter is_frame evs2) /\
    Forall (fun y => y = fzero) out2 /\ a_state (sy_env s2) = note_off_state.
Proof.
  intros sps ad dd sl sd rd key evs out s evs2 Hs z H1 H2 H3 H4 H5 P E St Hf P2 N2.
  assert (K : sok (sy_make sps ad dd sl sd rd key)).
  { split; [apply make_inv; try assumption; unfold top; lra|]. split; [exact Logic.I|]. split; reflexivity. }
  destruct (run_spec sps evs Hs (sy_make sps ad dd sl sd rd key) None 0%N K P eq_refl) as (out' & s0 & Er & Ks & _).
  rewrite E in Er. apply some_pair in Er. destruct Er as [_ <-].
  destruct (Hf _ (or_introl eq_refl)) as [F0 B0]. destruct (Hf _ (or_intror eq_refl)) as [F1 B1].
  assert (R : rs_reso (sy_filter s) = to32 (fdiv (mk64 8 0) (mk64 10 0))).
  { rewrite (run_reso sps evs _ _ _ E). reflexivity. }
  destruct reso_range as [Fr Br]. rewrite <- R in Fr, Br.
  assert (L : silent s) by (split; [exact Ks|split; [exact St|exact (conj F0 (conj F1 (conj B0 (conj B1 (conj Fr Br)))))]]).
  destruct (silent_run sps evs2 Hs s L P2 N2) as (o2 & s2 & E2 & (_ & S2 & _) & Z2).
  exists o2, s2. split; [exact E2|]. split; [|split; assumption].
  destruct (run_spec sps evs2 Hs s None (pi_incr (sy_phase s)) Ks P2 eq_refl) as (o3 & s3 & E3 & _ & _ & L3 & _).
  rewrite E2 in E3. apply some_pair in E3. destruct E3 as [<- _]. exact L3.
Qed.
Print Assumptions C54_silence.

(** MIDI keyboards release a key by a note on with velocity 0 (running status).  The synthesizer takes that for a new note:
    the envelope goes on as if nothing had happened, and it is this key whose note off counts from then on: the note off
    of another key that still sounds is ignored. *)
Theorem C54_velocity_zero_refuted :
  forall (sps : N) ad dd sl sd rd key evs out s k,
  (13300 <= sps < 2 ^ 32)%N -> let z := Z.of_N sps in
  proper_rate z ad -> proper_rate z dd -> proper_rate z sd -> proper_rate z rd -> level_in 1 sl ->
  Forall proper_event evs -> sy_run sps (sy_make sps ad dd sl sd rd key) evs = Some (out, s) -> (k < 128)%N ->
  exists s', sy_step sps s (Midi (0x90 + 256 * k)) = Some ([], s') /\ sy_env s' = sy_env s /\ sy_key s' = k /\
    forall k', (k' < 128)%N -> k' <> k -> sy_step sps s' (Midi (0x80 + 256 * k')) = Some ([], s').
Proof.
  intros sps ad dd sl sd rd key evs out s k Hs z H1 H2 H3 H4 H5 P E Hk.
  assert (K : sok (sy_make sps ad dd sl sd rd key)).
  { split; [apply make_inv; try assumption; unfold top; lra|]. split; [exact Logic.I|]. split; reflexivity. }
  destruct (run_spec sps evs Hs (sy_make sps ad dd sl sd rd key) None 0%N K P eq_refl) as (out' & s0 & Er & Ks & _).
  rewrite E in Er. apply some_pair in Er. destruct Er as [_ <-].
  assert (D : forall b j, (b < 256)%N -> (j < 128)%N -> ((b + 256 * j) mod 2 ^ 32 = b + 256 * j /\ (b + 256 * j) mod 256 = b /\ (b + 256 * j) / 256 mod 256 = j /\ (b + 256 * j) / 65536 mod 256 = 0)%N).
  { intros b j Hb Hj. split; [apply N.mod_small; change (2 ^ 32)%N with 4294967296%N; lia|].
    assert (E0 : ((b + 256 * j) / 256 = j)%N) by (rewrite N.mul_comm, N.div_add, N.div_small by lia; lia).
    split; [rewrite N.mul_comm, N.mod_add, N.mod_small by lia; lia|]. split; [rewrite E0; apply N.mod_small; lia|].
    change 65536%N with (256 * 256)%N. rewrite <- N.div_div by discriminate. rewrite E0. rewrite N.div_small by lia. reflexivity. }
  destruct (D 0x90%N k ltac:(lia) Hk) as (D1 & D2 & D3 & D4).
  assert (On : on_of (0x90 + 256 * k) = Some (k, 0%N)) by (unfold on_of; rewrite D2, D3, D4; reflexivity).
  destruct (on_ok sps s k 0 Hs Ks ltac:(lia)) as (s1 & E1 & K1 & Ec & Ek & _).
  exists s1. split; [cbn [sy_step]; rewrite D1, handle_raw, On, E1; reflexivity|]. split; [|split; [exact Ek|]].
  - cbn [do_call] in Ec. apply some_eq in Ec. rewrite <- Ec. unfold trigger. rewrite zero_level by apply Ks. reflexivity.
  - intros k' Hk' Hn. destruct (D 0x80%N k' ltac:(lia) Hk') as (G1 & G2 & G3 & G4).
    assert (On' : on_of (0x80 + 256 * k') = None) by (unfold on_of; rewrite G2; reflexivity).
    assert (Of' : off_of (0x80 + 256 * k') = Some k') by (unfold off_of; rewrite G2, G3; reflexivity).
    cbn [sy_step]. rewrite G1, handle_raw, On', Of'. cbn [bind]. unfold sy_note_off. rewrite Ek.
    destruct (N.eqb_spec k' k) as [C|_]; [contradiction|]. reflexivity.
Qed.
Print Assumptions C54_velocity_zero_refuted.

(** The hypotheses are met by the example's own settings (100 ms, 1 s, level 1/4, 5 s, 1 s at 44100) and a melody. *)
Example C54_example :
  let r n d := fdiv (mk64 n 0) (mk64 d 0) in
  proper_rate 44100 (r 1%Z 10%Z) /\ proper_rate 44100 (r 1%Z 1%Z) /\ proper_rate 44100 (r 5%Z 1%Z) /\ level_in 1 (mk32 1 (-2)) /\
  Forall proper_event [Frame; Midi 0x644590; Frame; Midi 0x004590; Frame; Midi 0x004580; Frame] /\
  on_of 0x644590 = Some (69, 100)%N /\ off_of 0x004580 = Some 69%N /\
  env_calls 0 [Frame; Midi 0x644590; Frame; Midi 0x004580; Frame] = [CSample; CTrigger (level_of 100) 1; CSample; CRelease; CSample].
Proof.
  intros r.
  assert (Q : forall x : f64, is_finite x = true -> / 20 <= B2R x <= 8 -> proper_rate 44100 x).
  { intros x F B. split; [lia|]. split; [exact F|]. split; [|lra].
    apply Rle_trans with (bpow radix2 3); [change (bpow radix2 3) with 8; lra|apply bpow_le; lia]. }
  assert (C : forall x : f64, is_finite x && fle (mk64 1 (-4)) x && fle x (mk64 1 3) = true -> is_finite x = true /\ / 20 <= B2R x <= 8).
  { intros x H. apply andb_prop in H. destruct H as [H H3]. apply andb_prop in H. destruct H as [H1 H2]. split; [exact H1|].
    destruct (mk64_small 1 (-4) ltac:(reflexivity) ltac:(lia)) as [V1 F1]. destruct (mk64_small 1 3 ltac:(reflexivity) ltac:(lia)) as [V2 F2].
    apply (fle_true _ _ F1 H1) in H2. apply (fle_true _ _ H1 F2) in H3. rewrite V1 in H2. rewrite V2 in H3.
    change (bpow radix2 (-4)) with (/ 16) in H2. change (bpow radix2 3) with 8 in H3. lra. }
  split; [destruct (C (r 1%Z 10%Z)) as [F B]; [vm_compute; reflexivity|apply Q; assumption]|].
  split; [destruct (C (r 1%Z 1%Z)) as [F B]; [vm_compute; reflexivity|apply Q; assumption]|].
  split; [destruct (C (r 5%Z 1%Z)) as [F B]; [vm_compute; reflexivity|apply Q; assumption]|].
  split. { destruct (mk32_small 1 (-2) ltac:(reflexivity) ltac:(lia)) as [V F]. split; [exact F|]. rewrite V. change (bpow radix2 (-2)) with (/ 4). lra. }
  split; [|split; [reflexivity|split; reflexivity]].
  repeat constructor; try (intros k v H; vm_compute in H; injection H as <- <-; reflexivity); intros k v H; vm_compute in H; discriminate.
Qed.
(** the hypotheses of C54_silence hold at the start *)
Example C54_silence_start :
  forall (sps : N) ad dd sl sd rd key, let s := sy_make sps ad dd sl sd rd key in
  sy_run sps s [] = Some ([], s) /\ a_state (sy_env s) = note_off_state /\
  (forall y, y = rs_y0 (sy_filter s) \/ y = rs_y1 (sy_filter s) -> is_finite y = true /\ Rabs (B2R y) <= bpow radix2 100).
Proof.
  intros. split; [reflexivity|]. split; [reflexivity|].
  assert (B : Rabs (B2R (fzero : f32)) <= bpow radix2 100) by (cbn [B2R fzero]; rewrite Rabs_R0; apply Rlt_le, bpow_gt_0).
  intros y [-> | ->]; exact (conj eq_refl B).
Qed.
