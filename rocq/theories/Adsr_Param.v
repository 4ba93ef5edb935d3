(** The parameters in force and the step each phase performs. *)
From Coq Require Import Reals Lra List Psatz.
From Flocq Require Import Core.Core IEEE754.BinarySingleNaN.
From Verif Require Import Common Float FloatFacts FloatLerp Env_Model Env_Spec Env_Proof Coeff_Proof Expo Adsr_Model Adsr_Spec Adsr_Proof Adsr_Live Adsr_Hist.
Import ListNotations.
Local Open Scope R_scope.

Ltac inv_some := repeat match goal with
  | H : Some _ = Some _ |- _ => apply Some_inj in H; subst
  | H : None = Some _ |- _ => discriminate H
  | H : (do x <- ?a ; _) = Some _ |- _ => apply mul_some in H; destruct H as (? & ? & H)
  end.

Lemma off_frame e c e' : (forall l, c <> CNoteOffLevel l) -> do_call e c = Some e' -> a_off e' = a_off e.
Proof.
  intros N H. destruct c; cbn [do_call] in H; try (exfalso; apply (N l); reflexivity); unfold sample, trigger, legato, release, set_release_rate_f, update_legato, update_attack, update_decay, update_release in H;
    try destruct (a_state e); inv_some; cbn [fst]; repeat match goal with |- context [if ?b then _ else _] => destruct b end; try reflexivity.
Qed.

Record params (e : adsr) (at_ de su : Z * f64) (sl : f32) (re : Z * f64 + f32) : Prop := mkP {
  q_at : a_attack e = env_coeff (fst at_) (snd at_); q_de : a_decay e = env_coeff (fst de) (snd de);
  q_su : a_srate e = env_coeff (fst su) (snd su); q_sl : a_sustain e = sl;
  q_re : match re with inl p => a_release e = env_coeff (fst p) (snd p) | inr r => a_release e = r end }.
Definition upd {A} (f : call -> option A) (c : call) (cur : A) : A := match f c with Some a => a | None => cur end.
Lemma last_cons {A} (f : call -> option A) d c cs : last_of f d (c :: cs) = last_of f (upd f c d) cs.
Proof. reflexivity. Qed.
Lemma params_call e c e' at_ de su sl re : params e at_ de su sl re -> do_call e c = Some e' ->
  params e' (upd attack_arg c at_) (upd decay_arg c de) (upd sustain_rate_arg c su) (upd sustain_arg c sl) (upd release_arg c re).
Proof.
  intros [A B C D E] H. destruct c; cbn [do_call upd attack_arg decay_arg sustain_rate_arg sustain_arg release_arg] in *;
    unfold sample, trigger, legato, release, set_release_rate_f, update_legato, update_attack, update_decay, update_release, note_off_level in H.
  12: { unfold upd, release_arg. destruct (flt r (mk32 1 0)); inv_some; constructor; assumption || reflexivity. }
  all: try destruct (a_state e); inv_some; cbn [fst] in *; repeat match goal with |- context [if ?b then _ else _] => destruct b end;
    unfold upd; cbn [attack_arg decay_arg sustain_rate_arg sustain_arg release_arg]; constructor; cbn; auto.
Qed.
Lemma params_calls cs : forall e e' at_ de su sl re, params e at_ de su sl re -> do_calls e cs = Some e' ->
  params e' (last_of attack_arg at_ cs) (last_of decay_arg de cs) (last_of sustain_rate_arg su cs) (last_of sustain_arg sl cs) (last_of release_arg re cs).
Proof.
  induction cs as [|c cs IH]; intros e e' at_ de su sl re P H; cbn [do_calls] in H; [inv_some; exact P|].
  apply mul_some in H. destruct H as (f & E & H). rewrite !last_cons. eapply IH; [|exact H]. eapply params_call; eassumption.
Qed.
Definition proper (p : Z * f64) := proper_rate (fst p) (snd p).
Lemma last_proper (f : call -> option (Z * f64)) cs : (forall c p, call_ok 1 c -> f c = Some p -> proper p) ->
  forall p, proper p -> Forall (call_ok 1) cs -> proper (last_of f p cs).
Proof.
  intros Hf. induction cs as [|c cs IH]; intros p Hp Hc; [exact Hp|]. inversion Hc; subst. rewrite last_cons. apply IH; [|assumption].
  unfold upd. destruct (f c) eqn:E; [eapply Hf; eassumption|exact Hp].
Qed.
Lemma last_proper_rel cs : forall p, match p with inl q => proper q | inr _ => True end -> Forall (call_ok 1) cs ->
  match last_of release_arg p cs with inl q => proper q | inr _ => True end.
Proof.
  induction cs as [|c cs IH]; intros p Hp Hc; [exact Hp|]. inversion Hc; subst. rewrite last_cons. apply IH; [|assumption].
  unfold upd. destruct c; cbn [release_arg]; try exact Hp; [exact H1|]. destruct (flt r (mk32 1 0)); [exact I|exact Hp].
Qed.
Lemma proper_rate_for p : proper p -> rate_for (env_coeff (fst p) (snd p)) p.
Proof. intros (A & B & C & D). exact (env_coeff_exp _ _ A B C D). Qed.
Lemma parameters sps ad dd sl sd rd cs e :
  proper_rate sps ad -> proper_rate sps dd -> proper_rate sps sd -> proper_rate sps rd -> level_in 1 sl ->
  Forall (call_ok 1) cs -> do_calls (adsr_make sps ad dd sl sd rd) cs = Some e ->
  rate_for (a_attack e) (last_of attack_arg (sps, ad) cs) /\
  rate_for (a_decay e) (last_of decay_arg (sps, dd) cs) /\
  rate_for (a_srate e) (last_of sustain_rate_arg (sps, sd) cs) /\
  a_sustain e = last_of sustain_arg sl cs /\
  match last_of release_arg (inl (sps, rd)) cs with inl p => rate_for (a_release e) p | inr r => a_release e = r end.
Proof.
  intros H1 H2 H3 H4 H5 Hc H.
  assert (P0 : params (adsr_make sps ad dd sl sd rd) (sps, ad) (sps, dd) (sps, sd) sl (inl (sps, rd))) by (constructor; reflexivity).
  pose proof (params_calls cs _ e _ _ _ _ _ P0 H) as [A B C D E]. rewrite A, B, C.
  split; [|split; [|split; [|split]]].
  - apply proper_rate_for, last_proper; [|exact H1|exact Hc]. intros c p K L; destruct c; inversion L; subst; exact K.
  - apply proper_rate_for, last_proper; [|exact H2|exact Hc]. intros c p K L; destruct c; inversion L; subst; exact K.
  - apply proper_rate_for, last_proper; [|exact H3|exact Hc]. intros c p K L; destruct c; inversion L; subst; exact K.
  - exact D.
  - pose proof (last_proper_rel cs (inl (sps, rd)) H4 Hc) as K.
    destruct (last_of release_arg (inl (sps, rd)) cs) as [p|r]; [rewrite E; apply proper_rate_for; exact K|exact E].
Qed.

Lemma err_small x M : M <= 2 -> Rabs x <= bpow radix2 (-21) * M + bpow radix2 (-147) -> Rabs x <= bpow radix2 (-20) + bpow radix2 (-30).
Proof.
  intros HM H. assert (bpow radix2 (-147) <= bpow radix2 (-30)) by (apply bpow_le; lia).
  change (bpow radix2 (-21)) with (/ 2097152) in *. change (bpow radix2 (-20)) with (/ 1048576). lra.
Qed.
Lemma step_values e e' out : inv 1 e -> inv2 e -> sample e = Some (e', out) ->
  let y := B2R (a_y e) in
  let close x := Rabs (B2R out - x) <= bpow radix2 (-19) in
  (a_state e = attack_state -> exists l, a_level e = Some l /\
     (out = l \/ close (1.6 + B2R (a_attack e) * (y - 1.6)))) /\
  (a_state e = decay_state -> exists l, a_level e = Some l /\
     let t := B2R l * B2R (a_sustain e) in close t \/ close (t + B2R (a_decay e) * (y - t))) /\
  (a_state e = sustain_state -> close (y * B2R (a_srate e))) /\
  (a_state e = release_state -> let t := B2R (a_off e) in out = a_off e \/ close (t + B2R (a_release e) * (y - t))).
Proof.
  intros Hi Hj S y close.
  assert (M1 : 1 <= bpow radix2 126) by (change 1 with (bpow radix2 0); apply bpow_le; lia).
  assert (K : bpow radix2 (-20) + bpow radix2 (-30) <= bpow radix2 (-19)) by (change (bpow radix2 (-20)) with (/ 1048576); change (bpow radix2 (-30)) with (/ 1073741824); change (bpow radix2 (-19)) with (/ 524288); lra).
  pose proof (i_y _ _ Hi) as Hy. destruct Hy as [Fy By]. fold y in By.
  assert (Ya : Rabs y <= 2) by (apply Rabs_le; lra).
  split; [|split; [|split]]; intros St; unfold sample in S; rewrite St in S.
  - destruct (j_att _ Hj St) as (l & El & Ly). exists l. split; [exact El|].
    apply mul_some in S. destruct S as (f & U & S). injection S as <- <-. unfold update_attack in U. rewrite El in U. apply Some_inj in U. subst f.
    destruct target_b as [Tb Tf]. destruct target_R as [Vt _]. change (bpow radix2 (-23)) with (/ 8388608) in Vt.
    pose proof (lerp_err attack_target (a_y e) (a_attack e) 2 target_bounded (level_bounded _ _ M1 (i_y _ _ Hi)) (i_att _ _ Hi) ltac:(apply Rabs_le; lra) Ya) as E.
    apply (err_small _ 2 ltac:(lra)) in E.
    destruct (fgt _ l); cbn [a_y set_y]; [left; reflexivity|right]. unfold close.
    destruct (i_att _ _ Hi) as [_ Ca]. fold y in E. clearbody y. apply Rabs_le_inv in E. apply Rabs_le.
    change (bpow radix2 (-20)) with (/ 1048576) in *. change (bpow radix2 (-30)) with (/ 1073741824) in *. change (bpow radix2 (-19)) with (/ 524288) in *.
    set (T := B2R attack_target) in *. set (a := B2R (a_attack e)) in *. set (o := B2R _) in *. clearbody T a o.
    assert (P : -/ 4000000 <= (1 - a) * (T - 1.6) <= / 4000000).
    { split; [apply Rle_trans with 0; [lra|apply Rmult_le_pos; lra]|].
      apply Rle_trans with (1 * (T - 1.6)); [apply Rmult_le_compat_r; lra|lra]. }
    assert (Q : T + a * (y - T) = 1.6 + a * (y - 1.6) + (1 - a) * (T - 1.6)) by ring. lra.
  - apply mul_some in S. destruct S as (f & U & S). injection S as <- <-. unfold update_decay in U.
    apply mul_some in U. destruct U as (l & El & U). exists l. split; [exact El|]. apply Some_inj in U. subst f. cbv zeta.
    pose proof (i_lev _ _ Hi) as Hl. rewrite El in Hl. destruct (level_mul 1 l (a_sustain e) M1 Hl (i_sus _ _ Hi)) as [Hlv _].
    destruct Hl as [Fl Bl]. destruct (i_sus _ _ Hi) as [Fs Bs].
    assert (F1 : fmt 24 128 1) by (change 1 with (bpow radix2 0); apply fmt_bpow; unfold SpecFloat.emin; lia).
    assert (Pr : 0 <= B2R l * B2R (a_sustain e) <= 1) by (split; [apply Rmult_le_pos; lra|rewrite <- (Rmult_1_r 1); apply Rmult_le_compat; lra]).
    destruct (fmul_bnd l (a_sustain e) 1 Fl Fs F1) as (Vm & _ & _); [change 1 with (bpow radix2 0); apply bpow_lt; lia|apply Rabs_le; lra|].
    pose proof (err32 (B2R l * B2R (a_sustain e)) 0 ltac:(lia)) as E0. change (bpow radix2 0) with 1 in E0. specialize (E0 ltac:(apply Rabs_le; lra)).
    change (0 - 25)%Z with (-25)%Z in E0. rewrite <- Vm in E0.
    pose proof (lerp_err _ (a_y e) (a_decay e) 2 (lvl1_bounded _ Hlv) (lvl1_bounded _ (i_y _ _ Hi)) (i_dec _ _ Hi) ltac:(destruct Hlv; apply Rabs_le; lra) Ya) as E.
    apply (err_small _ 2 ltac:(lra)) in E. destruct (i_dec _ _ Hi) as [_ Ca]. fold y in E. clearbody y.
    change (bpow radix2 (-20)) with (/ 1048576) in *. change (bpow radix2 (-30)) with (/ 1073741824) in *. change (bpow radix2 (-25)) with (/ 33554432) in *.
    unfold close. change (bpow radix2 (-19)) with (/ 524288) in *.
    destruct (flt _ _); cbn [a_y set_y]; [left|right].
    + eapply Rle_trans; [exact E0|lra].
    + set (T := B2R (fmul l (a_sustain e))) in *. set (t := B2R l * B2R (a_sustain e)) in *. set (a := B2R (a_decay e)) in *. set (o := B2R (fadd _ _)) in *. clearbody T t a o.
      apply Rabs_le_inv in E, E0. apply Rabs_le.
      assert (P : -/ 33554432 <= (1 - a) * (T - t) <= / 33554432).
      { apply Rabs_le_inv. rewrite Rabs_mult. apply Rle_trans with (1 * / 33554432); [|lra].
        apply Rmult_le_compat; [apply Rabs_pos|apply Rabs_pos|apply Rabs_le; lra|apply Rabs_le; lra]. }
      assert (Q : T + a * (y - T) = t + a * (y - t) + (1 - a) * (T - t)) by ring. lra.
  - injection S as <- <-. cbn [a_y update_sustain set_y]. unfold close. destruct (i_sr _ _ Hi) as [Fs Cs].
    assert (F1 : fmt 24 128 1) by (change 1 with (bpow radix2 0); apply fmt_bpow; unfold SpecFloat.emin; lia).
    assert (Pr : 0 <= B2R (a_y e) * B2R (a_srate e) <= 1) by (split; [apply Rmult_le_pos; fold y; lra|rewrite <- (Rmult_1_r 1); apply Rmult_le_compat; fold y; lra]).
    destruct (fmul_bnd (a_y e) (a_srate e) 1 Fy Fs F1) as (Vm & _ & _); [change 1 with (bpow radix2 0); apply bpow_lt; lia|apply Rabs_le; lra|].
    pose proof (err32 (B2R (a_y e) * B2R (a_srate e)) 0 ltac:(lia)) as E0. change (bpow radix2 0) with 1 in E0. specialize (E0 ltac:(apply Rabs_le; lra)).
    change (0 - 25)%Z with (-25)%Z in E0. rewrite <- Vm in E0. eapply Rle_trans; [exact E0|apply bpow_le; lia].
  - injection S as <- <-. unfold close, update_release. cbv zeta.
    pose proof (lerp_err (a_off e) (a_y e) (a_release e) 2 (lvl1_bounded _ (i_off _ _ Hi)) (lvl1_bounded _ (i_y _ _ Hi)) (i_rel _ _ Hi) ltac:(destruct (i_off _ _ Hi); apply Rabs_le; lra) Ya) as E.
    apply (err_small _ 2 ltac:(lra)) in E.
    destruct (flt _ _); cbn [a_y set_y]; [left; reflexivity|right]. eapply Rle_trans; [exact E|exact K].
Qed.

(** the auto-decay flag *)
Lemma sample_auto e e' o : sample e = Some (e', o) -> a_auto e' = a_auto e.
Proof.
  intros H. unfold sample in H. destruct (a_state e) eqn:St.
  - apply Some_inj in H. apply (f_equal fst) in H. cbn [fst] in H. subst. reflexivity.
  - apply mul_some in H. destruct H as (x & U & H). apply Some_inj in H. apply (f_equal fst) in H. cbn [fst] in H. subst x.
    unfold update_attack in U. apply mul_some in U. destruct U as (l & _ & U). apply Some_inj in U. subst e'. destruct (fgt _ _); reflexivity.
  - apply mul_some in H. destruct H as (x & U & H). apply Some_inj in H. apply (f_equal fst) in H. cbn [fst] in H. subst x.
    unfold update_legato in U. apply mul_some in U. destruct U as (l & _ & U). cbv zeta in U. apply Some_inj in U. subst e'. destruct (flt _ _); reflexivity.
  - apply mul_some in H. destruct H as (x & U & H). apply Some_inj in H. apply (f_equal fst) in H. cbn [fst] in H. subst x.
    unfold update_decay in U. apply mul_some in U. destruct U as (l & _ & U). cbv zeta in U. apply Some_inj in U. subst e'. destruct (flt _ _); reflexivity.
  - cbv zeta in H. apply Some_inj in H. apply (f_equal fst) in H. cbn [fst] in H. subst e'. reflexivity.
  - cbv zeta in H. apply Some_inj in H. apply (f_equal fst) in H. cbn [fst] in H. subst e'. unfold update_release. cbv zeta. destruct (flt _ _); reflexivity.
  - cbv zeta in H. apply Some_inj in H. apply (f_equal fst) in H. cbn [fst] in H. subst e'. unfold update_release. cbv zeta. destruct (flt _ _); reflexivity.
Qed.
Lemma call_auto e c e' : match c with CTrigger _ _ | CLegato | CDecay => False | _ => True end ->
  do_call e c = Some e' -> a_auto e' = a_auto e.
Proof.
  intros Hc H. destruct c; try contradiction; cbn [do_call] in H.
  - apply mul_some in H. destruct H as ([x o] & U & H). apply Some_inj in H. cbn [fst] in H. subst x. exact (sample_auto e e' o U).
  - apply Some_inj in H. subst e'. unfold release. destruct (a_state e); reflexivity.
  - apply Some_inj in H. subst e'. unfold note_off_level. destruct (flt _ _); reflexivity.
  - apply Some_inj in H. subst e'. reflexivity.
  - apply Some_inj in H. subst e'. reflexivity.
  - apply Some_inj in H. subst e'. reflexivity.
  - apply Some_inj in H. subst e'. reflexivity.
  - apply Some_inj in H. subst e'. reflexivity.
  - apply Some_inj in H. subst e'. unfold set_release_rate_f. destruct (flt _ _); reflexivity.
Qed.
Lemma samples_auto n : forall e e', samples e n = Some e' -> a_auto e' = a_auto e.
Proof.
  induction n as [|n IH]; intros e e' H.
  - apply Some_inj in H. subst. reflexivity.
  - rewrite samples_S in H. apply mul_some in H. destruct H as ([x o] & U & H). cbn [fst] in H.
    rewrite (IH _ _ H). exact (sample_auto e x o U).
Qed.
Lemma attack_next e e' o a : a_state e = attack_state -> a_auto e = a -> sample e = Some (e', o) ->
  a_state e' = attack_state \/
  a_state e' = (if (a =? 1)%Z then decay_state else if (a =? -1)%Z then sustain_state else attack_state).
Proof.
  intros St A H. unfold sample in H. rewrite St in H.
  apply mul_some in H. destruct H as (x & U & H). apply Some_inj in H. apply (f_equal fst) in H. cbn [fst] in H. subst x.
  unfold update_attack in U. apply mul_some in U. destruct U as (l & _ & U). apply Some_inj in U. subst e'. destruct (fgt _ _).
  - right. cbn [set_y a_state]. rewrite A, St. reflexivity.
  - left. exact St.
Qed.
Lemma attack_holds n : forall e e', a_state e = attack_state -> a_auto e <> 1%Z -> a_auto e <> (-1)%Z ->
  samples e n = Some e' -> a_state e' = attack_state.
Proof.
  induction n as [|n IH]; intros e e' St N1 N2 H.
  - apply Some_inj in H. subst. exact St.
  - rewrite samples_S in H. apply mul_some in H. destruct H as ([x o] & U & H). cbn [fst] in H.
    apply (IH x e'); [|rewrite (sample_auto e x o U); exact N1|rewrite (sample_auto e x o U); exact N2|exact H].
    destruct (attack_next e x o (a_auto e) St eq_refl U) as [Q|Q]; [exact Q|].
    apply Z.eqb_neq in N1. apply Z.eqb_neq in N2. rewrite N1, N2 in Q. exact Q.
Qed.
