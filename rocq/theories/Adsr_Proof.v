From Coq Require Import Reals Lra Psatz.
From Flocq Require Import Core.Core IEEE754.BinarySingleNaN.
From Verif Require Import Common CommonFacts Float FloatFacts FloatLerp Env_Model Env_Spec Env_Proof Adsr_Model Adsr_Spec.
Local Open Scope R_scope.
Local Notation rn := (rnd 24 128).
Local Notation ft := (fmt 24 128).

Lemma Some_inj {A} (a b : A) : Some a = Some b -> a = b.
Proof. congruence. Qed.
(** ** constants *)
Lemma hysteresis_R : B2R hysteresis = 13743895 * bpow radix2 (-37) /\ fin hysteresis.
Proof.
  assert (E : feq hysteresis (mk32 13743895 (-37)) = true) by (vm_compute; reflexivity).
  assert (F : fin hysteresis) by (vm_compute; reflexivity).
  destruct (mk32_small 13743895 (-37) ltac:(reflexivity) ltac:(lia)) as [V F'].
  apply (feq_true _ _ F F') in E. rewrite E, V. auto.
Qed.
Lemma hyst_b : 0.00009999 <= B2R hysteresis <= 0.000100001 /\ fin hysteresis.
Proof. destruct hysteresis_R as [V F]. change (bpow radix2 (-37)) with (/ 137438953472) in V. split; [lra|exact F]. Qed.
Lemma target_R : B2R attack_target = 13421773 * bpow radix2 (-23) /\ fin attack_target.
Proof.
  assert (E : feq attack_target (mk32 13421773 (-23)) = true) by (vm_compute; reflexivity).
  assert (F : fin attack_target) by (vm_compute; reflexivity).
  destruct (mk32_small 13421773 (-23) ltac:(reflexivity) ltac:(lia)) as [V F'].
  apply (feq_true _ _ F F') in E. rewrite E, V. auto.
Qed.
Lemma target_b : 1.6 <= B2R attack_target <= 1.600001 /\ fin attack_target.
Proof. destruct target_R as [V F]. change (bpow radix2 (-23)) with (/ 8388608) in V. split; [lra|exact F]. Qed.
Lemma two_126 : 2 <= bpow radix2 126.
Proof. change 2 with (bpow radix2 1). apply bpow_le. lia. Qed.
Lemma target_bounded : bounded attack_target.
Proof. destruct target_b as [V F]. split; [exact F|]. pose proof two_126. rewrite Rabs_pos_eq; lra. Qed.
Lemma level_bounded M l : M <= bpow radix2 126 -> level_in M l -> bounded l.
Proof. intros HM [F B]. split; [exact F|]. rewrite Rabs_pos_eq; lra. Qed.
Lemma level_mul M (l s : f32) : M <= bpow radix2 126 -> level_in M l -> level_in 1 s -> level_in M (fmul l s) /\ B2R (fmul l s) <= B2R l.
Proof.
  intros HM [Fl Bl] [Fs Bs].
  assert (Q : rn (B2R l * B2R s) <= B2R l) by (apply rnd_le_fmt; [apply fmt_v|nra]).
  assert (Q0 : 0 <= rn (B2R l * B2R s)) by (apply rnd_ge_fmt; [apply fmt_0|nra]).
  destruct (fmul_R l s Fl Fs) as [V F].
  { rewrite Rabs_pos_eq by exact Q0. apply Rle_lt_trans with (bpow radix2 126); [lra|apply bpow_lt; lia]. }
  rewrite V. unfold level_in. rewrite V. repeat split; try assumption; lra.
Qed.
Lemma level_lerp M (b t c : f32) : M <= bpow radix2 126 -> level_in M b -> level_in M t -> coefficient c ->
  level_in M (fadd b (fmul c (fsub t b))).
Proof.
  intros HM Hb Ht Hc. destruct (lerp_f32 b t c (level_bounded _ _ HM Hb) (level_bounded _ _ HM Ht) Hc) as [[F _] B].
  destruct Hb as [_ Bb], Ht as [_ Bt]. split; [exact F|].
  assert (0 <= Rmin (B2R b) (B2R t)) by (apply Rmin_glb; lra).
  assert (Rmax (B2R b) (B2R t) <= M) by (apply Rmax_lub; lra). lra.
Qed.
Lemma coeff_level c : coefficient c -> level_in 1 c.
Proof. intros [F B]. split; [exact F|lra]. Qed.
Lemma proper_coeff sps d : proper_rate sps d -> coefficient (env_coeff sps d).
Proof. intros (H1 & H2 & H3 & H4). apply env_coeff_ok; auto. Qed.

(** ** the value invariant *)
Definition opt_level (M : R) (o : option f32) : Prop := match o with Some l => level_in M l | None => True end.
Record inv (M : R) (e : adsr) : Prop := mkInv {
  i_att : coefficient (a_attack e); i_dec : coefficient (a_decay e); i_sr : coefficient (a_srate e); i_rel : coefficient (a_release e);
  i_y : level_in M (a_y e); i_sus : level_in 1 (a_sustain e); i_off : level_in M (a_off e);
  i_lev : opt_level M (a_level e); i_leg : opt_level M (a_legato e); i_start : opt_level M (a_start e) }.

Lemma sample_inv M e e' o : M <= bpow radix2 126 -> inv M e -> sample e = Some (e', o) -> inv M e' /\ level_in M o.
Proof.
  intros HM [Ha Hd Hs Hr Hy Hsl Ho Hl Hg Ht] H. unfold sample in H.
  assert (M0 : 0 <= M) by (destruct Hy as [_ Hy]; lra).
  destruct (a_state e) eqn:St.
  - injection H as <- <-. split; [constructor; assumption|]. split; [reflexivity|]. cbn. lra.
  - destruct (update_attack e) as [f|] eqn:U; [|discriminate]. injection H as <- <-.
    unfold update_attack in U. destruct (a_level e) as [l|] eqn:EL; [|discriminate]. apply Some_inj in U. subst f. cbn in Hl.
    set (y := fadd attack_target (fmul (a_attack e) (fsub (a_y e) attack_target))) in *.
    assert (Q : level_in M (a_y (if fgt y l then set_y e l (if (a_auto e =? 1)%Z then decay_state else if (a_auto e =? -1)%Z then sustain_state else a_state e)
                else set_y e y (a_state e)))).
    { destruct (fgt y l) eqn:G; [exact Hl|]. cbn [a_y set_y]. 
      destruct (lerp_f32 attack_target (a_y e) (a_attack e) target_bounded (level_bounded _ _ HM Hy) Ha) as [[F _] B]. fold y in F, B.
      destruct Hl as [Fl Bl], Hy as [Fy By]. change (fgt y l) with (flt l y) in G. apply (flt_false _ _ Fl F) in G.
      destruct target_b as [Tb _]. assert (0 <= Rmin (B2R attack_target) (B2R (a_y e))) by (apply Rmin_glb; lra).
      split; [exact F|lra]. }
    split; [|exact Q]. revert Q. destruct (fgt y l); intros Q; constructor; cbn [a_attack a_decay a_srate a_release a_y a_sustain a_off a_level a_legato a_start set_y] in *; rewrite ?EL; assumption.
  - destruct (update_legato e) as [f|] eqn:U; [|discriminate]. injection H as <- <-.
    unfold update_legato in U. destruct (a_legato e) as [l|] eqn:EL; [|discriminate]. apply Some_inj in U. subst f. cbn in Hg.
    pose proof (level_lerp M l (a_y e) (a_attack e) HM Hg Hy Ha) as Q.
    destruct (flt _ _).
    + split; [constructor; cbn; rewrite ?EL; assumption|exact Hg].
    + split; [constructor; cbn; rewrite ?EL; assumption|exact Q].
  - destruct (update_decay e) as [f|] eqn:U; [|discriminate]. injection H as <- <-.
    unfold update_decay in U. destruct (a_level e) as [l|] eqn:EL; [|discriminate]. apply Some_inj in U. subst f. cbn in Hl.
    destruct (level_mul M l (a_sustain e) HM Hl Hsl) as [Q1 _].
    pose proof (level_lerp M _ (a_y e) (a_decay e) HM Q1 Hy Hd) as Q.
    destruct (flt _ _).
    + split; [constructor; cbn; rewrite ?EL; assumption|exact Q1].
    + split; [constructor; cbn; rewrite ?EL; assumption|exact Q].
  - injection H as <- <-. destruct (level_mul M (a_y e) (a_srate e) HM Hy (coeff_level _ Hs)) as [Q _].
    split; [constructor; assumption|exact Q].
  - injection H as <- <-. pose proof (level_lerp M (a_off e) (a_y e) (a_release e) HM Ho Hy Hr) as Q.
    unfold update_release. destruct (flt _ (fadd _ _)); (split; [constructor; assumption|assumption]).
  - injection H as <- <-. pose proof (level_lerp M (a_off e) (a_y e) (a_release e) HM Ho Hy Hr) as Q.
    unfold update_release. destruct (flt _ (fadd _ _)); (split; [constructor; assumption|assumption]).
Qed.
Lemma call_inv M e c e' : M <= bpow radix2 126 -> inv M e -> call_ok M c -> do_call e c = Some e' -> inv M e'.
Proof.
  intros HM Hi Hc H. destruct c; cbn [do_call call_ok] in *.
  - destruct (sample e) as [[f o]|] eqn:S; [|discriminate]. injection H as <-. cbn [fst]. exact (proj1 (sample_inv _ _ _ _ HM Hi S)).
  - injection H as <-. unfold trigger. destruct (flt _ _); [|exact Hi]. destruct Hi. constructor; assumption.
  - unfold legato in H. destruct (a_state e); try (injection H as <-; exact Hi).
    destruct (a_start e) as [s|] eqn:E; [|discriminate]. injection H as <-.
    destruct (flt _ _); [|exact Hi]. destruct Hi. rewrite E in *. constructor; cbn in *; assumption.
  - injection H as <-. destruct Hi; constructor; assumption.
  - injection H as <-. unfold release. destruct (a_state e); try exact Hi; destruct Hi; constructor; assumption.
  - injection H as <-. unfold note_off_level. destruct (flt _ _); [|exact Hi]. destruct Hi; constructor; assumption.
  - injection H as <-. destruct Hi; constructor; cbn; auto using proper_coeff.
  - injection H as <-. destruct Hi; constructor; cbn; auto using proper_coeff.
  - injection H as <-. destruct Hi; constructor; assumption.
  - injection H as <-. destruct Hi; constructor; cbn; auto using proper_coeff.
  - injection H as <-. destruct Hi; constructor; cbn; auto using proper_coeff.
  - injection H as <-. unfold set_release_rate_f. destruct (flt r (mk32 1 0)) eqn:L; [|exact Hi].
    destruct Hc as [Fr Pr]. destruct (int32 1 ltac:(reflexivity)) as [V1 F1]. apply (flt_true _ _ Fr F1) in L. rewrite V1 in L.
    destruct Hi; constructor; try assumption. split; [exact Fr|]. cbn. lra.
Qed.
Lemma calls_inv M cs : M <= bpow radix2 126 -> forall e e', inv M e -> Forall (call_ok M) cs -> do_calls e cs = Some e' -> inv M e'.
Proof.
  intros HM. induction cs as [|c cs IH]; intros e e' Hi Hc H; cbn [do_calls] in H; [injection H as <-; exact Hi|].
  inversion Hc; subst. destruct (do_call e c) as [f|] eqn:D; [|discriminate]. apply (IH f); auto. exact (call_inv _ _ _ _ HM Hi H2 D).
Qed.
Lemma make_inv M sps ad dd sl sd rd : 0 <= M -> proper_rate sps ad -> proper_rate sps dd -> proper_rate sps sd -> proper_rate sps rd ->
  level_in 1 sl -> inv M (adsr_make sps ad dd sl sd rd).
Proof.
  intros HM H1 H2 H3 H4 Hs. assert (Z : level_in M fzero) by (split; [reflexivity|cbn; lra]).
  constructor; cbn; auto using proper_coeff.
Qed.

(** ** definedness *)
Definition def (e : adsr) : Prop :=
  match a_state e with
  | attack_state | decay_state => a_level e <> None
  | legato_state => a_legato e <> None
  | _ => True
  end.
Definition def_start (e : adsr) : Prop :=
  (a_state e = sustain_state \/ a_state e = legato_state \/ a_auto e = (-1)%Z -> a_start e <> None).
Lemma sample_def e : def e -> exists e' o, sample e = Some (e', o) /\ def e' /\ (def_start e -> def_start e').
Proof.
  intros D. unfold def in D. unfold sample. destruct (a_state e) eqn:St.
  - exists e, fzero. split; [reflexivity|]. split; [unfold def; rewrite St; exact D|auto].
  - unfold update_attack. destruct (a_level e) as [l|] eqn:EL; [|congruence]. eexists _, _. split; [reflexivity|].
    unfold def_start. destruct (fgt _ l); cbn.
    + destruct (Z.eqb_spec (a_auto e) 1) as [E1|E1]; [|destruct (Z.eqb_spec (a_auto e) (-1)) as [E2|E2]].
      * split; [unfold def; cbn; rewrite EL; discriminate|]. rewrite E1. intros _ [Q|[Q|Q]]; discriminate.
      * split; [exact I|]. intros K _. apply K. auto.
      * rewrite St. split; [unfold def; cbn; rewrite ?EL, ?St; try discriminate; trivial|]. intros K [Q|[Q|Q]]; try discriminate. apply K. auto.
    + rewrite St. split; [unfold def; cbn; rewrite ?EL, ?St; try discriminate; trivial|]. intros K [Q|[Q|Q]]; try discriminate. apply K. auto.
  - unfold update_legato. destruct (a_legato e) as [l|] eqn:EL; [|congruence]. eexists _, _. split; [reflexivity|].
    unfold def_start. destruct (flt _ _); cbn.
    + split; [exact I|]. rewrite St. intros K _. apply K. auto.
    + rewrite St. split; [unfold def; cbn; rewrite ?EL, ?St; try discriminate; trivial|]. auto.
  - unfold update_decay. destruct (a_level e) as [l|] eqn:EL; [|congruence]. eexists _, _. split; [reflexivity|].
    unfold def_start. destruct (flt _ _); cbn.
    + split; [exact I|]. discriminate.
    + rewrite St. split; [unfold def; cbn; rewrite ?EL, ?St; try discriminate; trivial|]. auto.
  - eexists _, _. split; [reflexivity|]. unfold def_start; cbn. unfold def; cbn. rewrite St. auto.
  - eexists _, _. split; [reflexivity|]. unfold def_start, update_release, def. destruct (flt _ (fadd _ _)); cbn; [|rewrite St; auto].
    destruct (flt _ _); [|destruct (flt _ _); [|rewrite St; auto]]; (split; [exact I|]; intros K [Q|[Q|Q]]; try discriminate; apply K; auto).
  - eexists _, _. split; [reflexivity|]. unfold def_start, update_release, def. destruct (flt _ (fadd _ _)); cbn; [|rewrite St; auto].
    destruct (flt _ _); [|destruct (flt _ _); [|rewrite St; auto]]; (split; [exact I|]; intros K [Q|[Q|Q]]; try discriminate; apply K; auto).
Qed.
Lemma call_def e c : def e -> def_start e -> ~ no_decay_trigger c -> exists e', do_call e c = Some e' /\ def e' /\ def_start e'.
Proof.
  intros D S N. destruct c; cbn [do_call].
  - destruct (sample_def e D) as (e' & o & H & D' & S'). exists e'. rewrite H. auto.
  - eexists. split; [reflexivity|]. unfold trigger. destruct (flt _ _); [|auto]. split; [discriminate|].
    cbn in N. intros [Q|[Q|Q]]; try discriminate. cbn in Q. contradiction.
  - unfold legato, def, def_start in *. destruct (a_state e) eqn:St; try (exists e; rewrite St; auto; fail).
    destruct (a_start e) as [s|] eqn:E; [|exfalso; apply S; auto]. eexists. split; [reflexivity|].
    destruct (flt _ _); cbn; [split; [discriminate|discriminate]|]. rewrite St, E. auto.
  - eexists. split; [reflexivity|]. split; [exact D|]. intros [Q|[Q|Q]]; [apply S; auto|apply S; auto|discriminate].
  - eexists. split; [reflexivity|]. unfold release, def, def_start in *. destruct (a_state e) eqn:St; cbn; rewrite ?St; auto;
      (split; [exact I|]; intros [Q|[Q|Q]]; try discriminate; apply S; auto).
  - eexists. split; [reflexivity|]. unfold note_off_level. destruct (flt _ _); auto.
  - eexists. split; [reflexivity|]. auto.
  - eexists. split; [reflexivity|]. auto.
  - eexists. split; [reflexivity|]. auto.
  - eexists. split; [reflexivity|]. auto.
  - eexists. split; [reflexivity|]. auto.
  - eexists. split; [reflexivity|]. unfold set_release_rate_f. destruct (flt _ _); auto.
Qed.
Lemma calls_def cs : forall e, def e -> def_start e -> Forall (fun c => ~ no_decay_trigger c) cs -> exists e', do_calls e cs = Some e'.
Proof.
  induction cs as [|c cs IH]; intros e D S H; cbn [do_calls]; [eexists; reflexivity|]. inversion H; subst.
  destruct (call_def e c D S H2) as (e' & E & D' & S'). rewrite E. apply IH; assumption.
Qed.
(** definedness of everything but legato *)
Lemma call_def_nolegato e c : def e -> c <> CLegato -> exists e', do_call e c = Some e' /\ def e'.
Proof.
  intros D N. destruct c; cbn [do_call]; try congruence; try (eexists; split; [reflexivity|exact D]).
  - destruct (sample_def e D) as (e' & o & H & D' & S'). exists e'. rewrite H. auto.
  - eexists. split; [reflexivity|]. unfold trigger. destruct (flt _ _); [discriminate|auto].
  - eexists. split; [reflexivity|]. unfold release, def in *. destruct (a_state e) eqn:St; cbn; rewrite ?St; auto.
  - eexists. split; [reflexivity|]. unfold note_off_level. destruct (flt _ _); auto.
  - eexists. split; [reflexivity|]. unfold set_release_rate_f. destruct (flt _ _); auto.
Qed.
