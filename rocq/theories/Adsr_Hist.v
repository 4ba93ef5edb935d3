(** Further facts about histories of the ADSR envelope. *)
From Coq Require Import Reals Lra Psatz.
From Flocq Require Import Core.Core IEEE754.BinarySingleNaN.
From Verif Require Import Common CommonFacts Float FloatFacts FloatLerp Env_Model Env_Spec Env_Proof Coeff_Proof Adsr_Model Adsr_Spec Adsr_Proof Adsr_Live.
Local Open Scope R_scope.
Local Notation rn := (rnd 24 128).

Lemma mul_some {A B} (o : option A) (f : A -> option B) b : bind o f = Some b -> exists a, o = Some a /\ f a = Some b.
Proof. destruct o as [a|]; [|discriminate]. intros H. exists a. auto. Qed.

(** level * 0.1 does not exceed a non-negative level *)
Lemma tenth_le M (l : f32) : M <= bpow radix2 126 -> level_in M l ->
  fin (to32 (fmul (to64 l) (fdiv (mk64 1 0) (mk64 10 0)))) /\ 0 <= B2R (to32 (fmul (to64 l) (fdiv (mk64 1 0) (mk64 10 0)))) <= B2R l.
Proof.
  intros HM [F B]. destruct (to64_R l F) as [V6 F6].
  set (t := fdiv (mk64 1 0) (mk64 10 0)).
  assert (T : fin t /\ 0 <= B2R t <= 1).
  { assert (K : is_finite t && fle fzero t && fle t (mk64 1 0) = true) by (vm_compute; reflexivity).
    apply andb_prop in K; destruct K as [K K3]. apply andb_prop in K; destruct K as [K1 K2].
    destruct (mk64_small 1 0 ltac:(reflexivity) ltac:(lia)) as [V1 F1]. change (bpow radix2 0) with 1 in V1.
    split; [exact K1|]. apply (fle_true (fzero : f64) t eq_refl K1) in K2. apply (fle_true t _ K1 F1) in K3. rewrite V1 in K3. cbn [B2R fzero] in K2. lra. }
  clearbody t. destruct T as [Ft Bt].
  assert (L : fmt 53 1024 (B2R l)) by (rewrite <- V6; apply fmt_v).
  assert (Q : 0 <= rnd 53 1024 (B2R (to64 l) * B2R t) <= B2R l).
  { rewrite V6. split; [apply rnd_ge_fmt; [apply fmt_0|nra]|apply rnd_le_fmt; [exact L|nra]]. }
  destruct (fmul_R (to64 l) t F6 Ft) as [Vm Fm].
  { rewrite Rabs_pos_eq by apply Q. apply Rle_lt_trans with (bpow radix2 126); [lra|apply bpow_lt; lia]. }
  rewrite <- Vm in Q.
  assert (Q2 : 0 <= rn (B2R (fmul (to64 l) t)) <= B2R l).
  { split; [apply rnd_ge_fmt; [apply fmt_0|lra]|apply rnd_le_fmt; [apply fmt_v|lra]]. }
  destruct (fconv_R (p':=24) (e':=128) (fmul (to64 l) t) Fm) as [Vc Fc].
  { rewrite Rabs_pos_eq by apply Q2. apply Rle_lt_trans with (bpow radix2 126); [lra|apply bpow_lt; lia]. }
  change (fconv (fmul (to64 l) t)) with (to32 (fmul (to64 l) t)) in *. split; [exact Fc|]. rewrite Vc. exact Q2.
Qed.

(** attack never above its level; the note-release state is not reached *)
Record inv2 (e : adsr) : Prop := mkInv2 {
  j_att : a_state e = attack_state -> exists l, a_level e = Some l /\ B2R (a_y e) <= B2R l;
  j_end : fin (a_endoff e) /\ 0 <= B2R (a_endoff e) <= B2R (a_off e);
  j_st : a_state e <> note_release_state }.
Lemma sample_inv2 M e e' o : M <= bpow radix2 126 -> inv M e -> inv2 e -> sample e = Some (e', o) -> inv2 e'.
Proof.
  intros HM Hi [Ja Je Js] H. unfold sample in H. destruct (a_state e) eqn:St.
  - injection H as <- _. constructor; [intros K; congruence|exact Je|congruence].
  - apply mul_some in H. destruct H as (f & U & H). injection H as <- _. unfold update_attack in U.
    apply mul_some in U. destruct U as (l & El & U). apply Some_inj in U. subst f.
    pose proof (i_lev _ _ Hi) as Hl. rewrite El in Hl. destruct Hl as [Fl Bl].
    destruct (lerp_f32 attack_target (a_y e) (a_attack e) target_bounded (level_bounded _ _ HM (i_y _ _ Hi)) (i_att _ _ Hi)) as [[F _] _].
    set (y := fadd attack_target (fmul (a_attack e) (fsub (a_y e) attack_target))) in *.
    destruct (fgt y l) eqn:G; constructor; cbn [a_state a_level a_y a_endoff a_off set_y]; try exact Je; try congruence.
    + intros _. exists l. split; [exact El|lra].
    + destruct (a_auto e =? 1)%Z; [discriminate|]. destruct (a_auto e =? -1)%Z; [discriminate|]. rewrite St. discriminate.
    + intros _. exists l. split; [exact El|]. change (fgt y l) with (flt l y) in G. apply (flt_false _ _ Fl F) in G. exact G.
  - apply mul_some in H. destruct H as (f & U & H). injection H as <- _. unfold update_legato in U.
    apply mul_some in U. destruct U as (l & El & U). apply Some_inj in U. subst f.
    destruct (flt _ _); constructor; cbn [a_state a_level a_y a_endoff a_off set_y]; try exact Je; congruence.
  - apply mul_some in H. destruct H as (f & U & H). injection H as <- _. unfold update_decay in U.
    apply mul_some in U. destruct U as (l & El & U). apply Some_inj in U. subst f.
    destruct (flt _ _); constructor; cbn [a_state a_level a_y a_endoff a_off set_y]; try exact Je; congruence.
  - injection H as <- _. constructor; cbn [a_state a_level a_y a_endoff a_off set_y update_sustain]; try exact Je; congruence.
  - injection H as <- _. unfold update_release.
    replace (flt (a_off e) (a_endoff e)) with false by (symmetry; apply (flt_false (a_off e) (a_endoff e)); [apply (i_off _ _ Hi)|apply Je|apply Je]).
    destruct (flt _ (fadd _ _)); constructor; cbn [a_state a_level a_y a_endoff a_off set_y]; try exact Je; try congruence.
    + destruct (flt _ _); congruence. + destruct (flt _ _); [discriminate|congruence].
  - congruence.
Qed.
Lemma call_inv2 M e c e' : M <= bpow radix2 126 -> inv M e -> inv2 e -> call_ok M c -> do_call e c = Some e' -> inv2 e'.
Proof.
  intros HM Hi Hj Hc H. destruct c; cbn [do_call call_ok] in *.
  - destruct (sample e) as [[f o]|] eqn:S; [|discriminate]. injection H as <-. exact (sample_inv2 _ _ _ _ HM Hi Hj S).
  - injection H as <-. unfold trigger. destruct (flt _ _) eqn:G; [|exact Hj]. destruct Hj as [Ja Je Js]. constructor; try assumption; [|discriminate].
    intros _. exists l. split; [reflexivity|]. cbn [a_y]. apply (flt_true (a_y e) l) in G; [lra|apply (i_y _ _ Hi)|apply Hc].
  - unfold legato in H. destruct (a_state e); try (injection H as <-; exact Hj).
    apply mul_some in H. destruct H as (s & Es & H). apply Some_inj in H. subst e'.
    destruct (flt _ _); [|exact Hj]. destruct Hj as [Ja Je Js]. constructor; try assumption; discriminate.
  - injection H as <-. destruct Hj as [Ja Je Js]. constructor; assumption.
  - injection H as <-. unfold release. destruct (a_state e) eqn:St; try exact Hj; destruct Hj as [Ja Je Js]; constructor; try assumption; discriminate.
  - injection H as <-. unfold note_off_level. destruct (flt _ _) eqn:G; [|exact Hj]. destruct Hj as [Ja Je Js]. constructor; try assumption.
    apply (tenth_le M); assumption.
  - injection H as <-. destruct Hj as [Ja Je Js]. constructor; assumption.
  - injection H as <-. destruct Hj as [Ja Je Js]. constructor; assumption.
  - injection H as <-. destruct Hj as [Ja Je Js]. constructor; assumption.
  - injection H as <-. destruct Hj as [Ja Je Js]. constructor; assumption.
  - injection H as <-. destruct Hj as [Ja Je Js]. constructor; assumption.
  - injection H as <-. unfold set_release_rate_f. destruct (flt r (mk32 1 0)) eqn:L; [|exact Hj].
    destruct Hj as [Ja Je Js]. constructor; assumption.
Qed.
Lemma calls_inv2 M cs : M <= bpow radix2 126 -> forall e e', inv M e -> inv2 e -> Forall (call_ok M) cs -> do_calls e cs = Some e' -> inv2 e'.
Proof.
  intros HM. induction cs as [|c cs IH]; intros e e' Hi Hj Hc H; cbn [do_calls] in H; [injection H as <-; exact Hj|].
  inversion Hc; subst. destruct (do_call e c) as [f|] eqn:D; [|discriminate].
  apply (IH f); auto. - exact (call_inv _ _ _ _ HM Hi H2 D). - exact (call_inv2 _ _ _ _ HM Hi Hj H2 D).
Qed.
Lemma make_inv2 sps ad dd sl sd rd : inv2 (adsr_make sps ad dd sl sd rd).
Proof. constructor; cbn; [discriminate| |discriminate]. split; [reflexivity|lra]. Qed.

(** note-off levels unchanged by calls other than note_off_level *)
Lemma sample_off e e' o : sample e = Some (e', o) -> a_off e' = a_off e /\ a_endoff e' = a_endoff e /\ a_release e' = a_release e /\ a_attack e' = a_attack e /\
  a_decay e' = a_decay e /\ a_sustain e' = a_sustain e /\ a_level e' = a_level e.
Proof.
  intros H. unfold sample in H. destruct (a_state e) eqn:St.
  - injection H as <- _. auto 10.
  - apply mul_some in H. destruct H as (f & U & H). injection H as <- _. unfold update_attack in U.
    apply mul_some in U. destruct U as (l & El & U). apply Some_inj in U. subst f. destruct (fgt _ _); auto 10.
  - apply mul_some in H. destruct H as (f & U & H). injection H as <- _. unfold update_legato in U.
    apply mul_some in U. destruct U as (l & El & U). apply Some_inj in U. subst f. destruct (flt _ _); auto 10.
  - apply mul_some in H. destruct H as (f & U & H). injection H as <- _. unfold update_decay in U.
    apply mul_some in U. destruct U as (l & El & U). apply Some_inj in U. subst f. destruct (flt _ _); auto 10.
  - injection H as <- _. auto 10.
  - injection H as <- _. unfold update_release. destruct (flt _ (fadd _ _)); auto 10.
  - injection H as <- _. unfold update_release. destruct (flt _ (fadd _ _)); auto 10.
Qed.
Lemma call_off e c e' : (forall l, c <> CNoteOffLevel l) -> do_call e c = Some e' -> a_off e' = a_off e /\ a_endoff e' = a_endoff e.
Proof.
  intros N H. destruct c; cbn [do_call] in H.
  - destruct (sample e) as [[f o]|] eqn:S; [|discriminate]. injection H as <-. cbn [fst]. destruct (sample_off _ _ _ S) as (A & B & _). auto.
  - injection H as <-. unfold trigger. destruct (flt _ _); auto.
  - unfold legato in H. destruct (a_state e); try (injection H as <-; auto; fail).
    apply mul_some in H. destruct H as (s & Es & H). apply Some_inj in H. subst e'. destruct (flt _ _); auto.
  - injection H as <-. auto.
  - injection H as <-. unfold release. destruct (a_state e); auto.
  - exfalso. exact (N l eq_refl).
  - injection H as <-. auto. - injection H as <-. auto. - injection H as <-. auto. - injection H as <-. auto. - injection H as <-. auto.
  - injection H as <-. unfold set_release_rate_f. destruct (flt _ _); auto.
Qed.
Lemma calls_off cs : forall e e', Forall (fun c => forall l, c <> CNoteOffLevel l) cs -> do_calls e cs = Some e' -> a_off e' = a_off e /\ a_endoff e' = a_endoff e.
Proof.
  induction cs as [|c cs IH]; intros e e' Hc H; cbn [do_calls] in H; [injection H as <-; auto|].
  inversion Hc; subst. destruct (do_call e c) as [f|] eqn:D; [|discriminate].
  destruct (call_off _ _ _ H2 D) as [A B]. destruct (IH f e' H3 H) as [C E]. split; congruence.
Qed.

(** sample and the phases *)
Lemma sample_phase e e' o : sample e = Some (e', o) ->
  (phase (a_state e) <= phase (a_state e') <= S (phase (a_state e)))%nat \/
  (a_state e = attack_state /\ a_state e' = sustain_state /\ a_auto e = (-1)%Z).
Proof.
  intros H. unfold sample in H. destruct (a_state e) eqn:St.
  - injection H as <- _. left. rewrite St. cbn. lia.
  - apply mul_some in H. destruct H as (f & U & H). injection H as <- _. unfold update_attack in U.
    apply mul_some in U. destruct U as (l & El & U). apply Some_inj in U. subst f. destruct (fgt _ _); cbn [a_state set_y].
    + destruct (a_auto e =? 1)%Z; [left; cbn; lia|]. destruct (Z.eqb_spec (a_auto e) (-1)); [right; auto|left; rewrite St; cbn; lia].
    + rewrite St. left. cbn. lia.
  - apply mul_some in H. destruct H as (f & U & H). injection H as <- _. unfold update_legato in U.
    apply mul_some in U. destruct U as (l & El & U). apply Some_inj in U. subst f. left. destruct (flt _ _); cbn [a_state set_y]; rewrite ?St; cbn; lia.
  - apply mul_some in H. destruct H as (f & U & H). injection H as <- _. unfold update_decay in U.
    apply mul_some in U. destruct U as (l & El & U). apply Some_inj in U. subst f. left. destruct (flt _ _); cbn [a_state set_y]; rewrite ?St; cbn; lia.
  - injection H as <- _. left. cbn [a_state update_sustain set_y]. rewrite St. cbn. lia.
  - injection H as <- _. left. unfold update_release. destruct (flt _ (fadd _ _)); cbn [a_state set_y]; [|rewrite St; cbn; lia].
    destruct (flt _ _); [cbn; lia|]. destruct (flt _ _); [cbn; lia|rewrite St; cbn; lia].
  - injection H as <- _. left. unfold update_release. destruct (flt _ (fadd _ _)); cbn [a_state set_y]; [|rewrite St; cbn; lia].
    destruct (flt _ _); [cbn; lia|]. destruct (flt _ _); [cbn; lia|rewrite St; cbn; lia].
Qed.
Lemma sample_out e e' o : sample e = Some (e', o) -> a_state e <> note_off_state -> o = a_y e'.
Proof.
  intros H N. unfold sample in H. destruct (a_state e); try contradiction;
    try (apply mul_some in H; destruct H as (f & U & H)); injection H as <- <-; reflexivity.
Qed.

(** decay from any point *)
Lemma decay_ends_any (l lv : f32) e : a_state e = decay_state -> a_level e = Some lv -> fmul lv (a_sustain e) = l ->
  level_in 1 l -> level_in 1 (a_y e) -> coefficient (a_decay e) -> B2R (a_decay e) <= 1 - / 2048 ->
  exists n e', samples e n = Some e' /\ decay_done l e' /\ INR n <= 67108866 /\
    forall i e'', (i < n)%nat -> samples e i = Some e'' -> a_state e'' = decay_state.
Proof.
  intros St El Em Hl Hy Hc L. destruct (Rle_lt_dec (B2R l) (B2R (a_y e))) as [G|G].
  - destruct (decay_ends l e) as (n & e' & H1 & H2 & H3 & H4).
    { unfold decaying. repeat (split; [first [assumption | exists lv; auto]|]). exact Hc. } { exact L. }
    exists n, e'. split; [exact H1|]. split; [exact H2|]. split; [exact H3|]. intros i e'' Hi Si. exact (proj1 (H4 i e'' Hi Si)).
  - pose proof (lerp_f32 l (a_y e) (a_decay e) (lvl1_bounded _ Hl) (lvl1_bounded _ Hy) Hc) as [[F _] Bt]. rewrite Rmax_left in Bt by lra.
    destruct (threshold l Hl) as (Ft & Vt & Lt). destruct hyst_b as [Hb Hf].
    assert (S1 : exists e', samples e 1 = Some e' /\ decay_done l e').
    { rewrite samples_S. unfold sample. rewrite St. unfold update_decay. rewrite El. cbv beta iota zeta delta [bind]. rewrite Em.
      replace (flt (fadd l (fmul (a_decay e) (fsub (a_y e) l))) (fadd l hysteresis)) with true by (symmetry; apply (flt_true _ _ F Ft); lra).
      eexists. split; [reflexivity|]. repeat split. }
    destruct S1 as (e' & S1 & D). exists 1%nat, e'. split; [exact S1|]. split; [exact D|]. split; [cbn; lra|].
    intros i e'' Hi Si. assert (i = 0%nat) by lia. subst i. cbn in Si. injection Si as <-. exact St.
Qed.

(** release to a note-off level at or above the hysteresis never ends *)
Lemma release_never e : a_state e = release_state -> level_in 1 (a_y e) -> level_in 1 (a_off e) -> fin (a_endoff e) -> B2R (a_endoff e) <= B2R (a_off e) ->
  B2R hysteresis <= B2R (a_off e) -> coefficient (a_release e) ->
  forall n, exists e', samples e n = Some e' /\ a_state e' = release_state.
Proof.
  intros St Hy Ho Fe He Hh Hc n. revert e St Hy Ho Fe He Hh Hc. induction n as [|n IH]; intros e St Hy Ho Fe He Hh Hc.
  { exists e. auto. }
  rewrite samples_S. unfold sample. rewrite St. cbv beta iota zeta delta [bind fst].
  assert (M1 : 1 <= bpow radix2 126) by (change 1 with (bpow radix2 0); apply bpow_le; lia).
  pose proof (level_lerp 1 (a_off e) (a_y e) (a_release e) M1 Ho Hy Hc) as Hy'.
  destruct hyst_b as [Hb Hf].
  unfold update_release.
  replace (flt (a_off e) (a_endoff e)) with false by (symmetry; apply (flt_false _ _ (proj1 Ho) Fe); exact He).
  replace (flt (a_off e) hysteresis) with false by (symmetry; apply (flt_false _ _ (proj1 Ho) Hf); exact Hh).
  destruct (flt _ (fadd _ _)); apply IH; try assumption.
Qed.
