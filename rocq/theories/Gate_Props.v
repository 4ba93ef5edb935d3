(** C24, noise gate with and without attack window, in binary32, with its constructors and setters.
    Theorems only. *)
From Coq Require Import Reals Lra Lia.
From Flocq Require Import Core.Core IEEE754.BinarySingleNaN.
From Verif Require Import Common Float FloatFacts MovSum_Model MovSumF_Model MovSumF_Spec Drift_Proof Dyn_Model Db_Model Db_Props CondDb_Props Cond_Model
  Gate_Model Gate_Spec Gate_Proof.
Local Open Scope R_scope.

(** C24, gate with an attack window of W samples, for every envelope of 24-bit values in [0, 1], every
    history of setter calls and every length: an open gate closes at a sample exactly when it is below
    the release threshold; a closed gate opens exactly when the rise over the last W samples -- of those
    that arrived while it was closed -- exceeds the onset threshold. *)
Theorem C24_windowed_gate :
  forall (W : N) (onset release : db) (cs : list ng_call),
  (1 <= W <= 2 ^ 29)%N ->
  Forall (env_all (fun x => pcm24 x /\ 0 <= B2R x) (fun t => is_finite t = true)) cs ->
  exists g os, ng_make W onset release = Some g /\ ng_run g cs = Some os /\
    let l := in_force (ng_on g) (ng_off g) cs in
    length os = length l /\
    forall t e on off, nth_error l t = Some (e, on, off) ->
      (nth_error os t = Some true <->
       if open_before os t then B2R off <= B2R e
       else B2R on < rise (heard os (samples l) t) W).
Proof.
  intros W onset release cs HW Hcs.
  assert (W63 : (W <= 2 ^ 63)%N) by (change (2 ^ 63)%N with 9223372036854775808%N; change (2 ^ 29)%N with 536870912%N in HW; lia).
  destruct (ng_make_defined W onset release W63) as [g Eg]. exists g.
  destruct (ng_make_ok W onset release g ltac:(lia) Eg) as (m & Em & Hb & Hs & Hon & Hoff).
  destruct (pinv_make W HW) as (m0 & E0 & I0). rewrite Em in E0. injection E0 as <-.
  assert (Qdb : forall d x, float_of_db d = Some x -> fin x).
  { intros d x H. destruct (float_of_db_ok d) as (y & Ey & F & _). congruence. }
  destruct (gate_run W pcm_env (fun t => fin t) (pinv W) (length cs) ltac:(lia) (conj pcm_zero (Rle_refl 0)) Qdb) with (cs := cs) (g := g) (h := @nil f32) (m := m)
    as (os & Eo & Lo & _ & Ho); auto.
  { intros n m' h e I Hh He _. apply pinv_step; assumption. }
  { apply Qdb with onset; exact Hon. } { apply Qdb with release; exact Hoff. }
  exists os. split; [exact Eg|]. split; [exact Eo|]. cbn zeta. split; [exact Lo|].
  intros t e on off Hn. destruct (Ho t e on off Hn) as ([[Fe _] _] & Fon & Foff & R). cbn zeta in R. rewrite Hs, app_nil_r, heard_eq in R.
  change (ob false os t) with (open_before os t) in R. destruct (open_before os t).
  - rewrite (nth_error_bool _ _ _ R). apply nflt_iff; assumption.
  - destruct R as (PH & H0 & k & Hk & m' & I & R). rewrite (nth_error_bool _ _ _ R).
    destruct (pinv_out W k m' _ ltac:(lia) I PH) as [F V]. rewrite flt_iff by assumption. rewrite V. reflexivity.
Qed.
Print Assumptions C24_windowed_gate.

(** C24, the same for arbitrary float envelopes in [0, 1]: the closing rule is exact; the opening rule
    holds up to a margin of W 2^-24 + (t+1) (W+1) 2^-50 + 2^-23 (rounding of the differences and of the
    moving sum), for histories of up to 2^48 calls. *)
Theorem C24_windowed_gate_floats :
  forall (W : N) (onset release : db) (cs : list ng_call),
  (1 <= W <= 2 ^ 29)%N -> (Z.of_nat (length cs) <= 2 ^ 48)%Z ->
  Forall (env_all (fun x => is_finite x = true /\ 0 <= B2R x <= 1) (fun t => is_finite t = true)) cs ->
  exists g os, ng_make W onset release = Some g /\ ng_run g cs = Some os /\
    let l := in_force (ng_on g) (ng_off g) cs in
    length os = length l /\
    forall t e on off, nth_error l t = Some (e, on, off) ->
      let mg := INR (N.to_nat W) * bpow radix2 (-24) + INR (S t) * (INR (N.to_nat W) + 1) * bpow radix2 (-50) + bpow radix2 (-23) in
      let up := rise (heard os (samples l) t) W in
      if open_before os t then nth_error os t = Some true <-> B2R off <= B2R e
      else (B2R on + mg < up -> nth_error os t = Some true) /\
           (nth_error os t = Some true -> B2R on - mg < up).
Proof.
  intros W onset release cs HW HL Hcs.
  assert (W63 : (W <= 2 ^ 63)%N) by (change (2 ^ 63)%N with 9223372036854775808%N; change (2 ^ 29)%N with 536870912%N in HW; lia).
  destruct (ng_make_defined W onset release W63) as [g Eg]. exists g.
  destruct (ng_make_ok W onset release g ltac:(lia) Eg) as (m & Em & Hb & Hs & Hon & Hoff).
  destruct (dinv_make W 1 ltac:(lia) ltac:(lra)) as (m0 & E0 & I0). rewrite Em in E0. injection E0 as <-. rewrite <- win_nil in I0.
  assert (Qdb : forall d x, float_of_db d = Some x -> fin x).
  { intros d x H. destruct (float_of_db_ok d) as (y & Ey & F & _). congruence. }
  destruct (gate_run W unit_env (fun t => fin t) (dinv W 1) (length cs) ltac:(lia) unit_zero Qdb) with (cs := cs) (g := g) (h := @nil f32) (m := m)
    as (os & Eo & Lo & Lc & Ho); auto.
  { intros n m' h e I Hh He Hn. apply dinv_gate_step; try assumption. lia. }
  { apply Qdb with onset; exact Hon. } { apply Qdb with release; exact Hoff. }
  exists os. split; [exact Eg|]. split; [exact Eo|]. cbn zeta. split; [exact Lo|].
  intros t e on off Hn. destruct (Ho t e on off Hn) as ([Fe _] & Fon & Foff & R). cbn zeta in R. rewrite Hs, app_nil_r, heard_eq in R.
  change (ob false os t) with (open_before os t) in R. destruct (open_before os t).
  - rewrite (nth_error_bool _ _ _ R). apply nflt_iff; assumption.
  - destruct R as (PH & H0 & k & Hk & m' & I & R). cbn [length Nat.add] in Hk.
    assert (Ht : (t < length (in_force (ng_on g) (ng_off g) cs))%nat) by (apply nth_error_Some; congruence).
    assert (Hk48 : (Z.of_nat k <= 2 ^ 48)%Z) by (cbn zeta in Lc; change (2 ^ 48)%Z with 281474976710656%Z in *; lia).
    destruct (dinv_out W k m' _ HW Hk48 I PH) as [F V]. rewrite (nth_error_bool _ _ _ R), flt_iff by assumption.
    change (Rabs (B2R (to32 (ms_sum m')) - rise (heard os (samples (in_force (ng_on g) (ng_off g) cs)) t) W) <= margin W k) in V.
    assert (Mk : margin W k <= margin W (S t)).
    { unfold margin. assert (INR k <= INR (S t)) by (apply le_INR; exact Hk). pose proof (pos_INR (N.to_nat W)).
      assert (INR k * (INR (N.to_nat W) + 1) * bpow radix2 (-50) <= INR (S t) * (INR (N.to_nat W) + 1) * bpow radix2 (-50)); [|lra].
      apply Rmult_le_compat_r; [apply bpow_ge_0|]. apply Rmult_le_compat_r; lra. }
    change (INR (N.to_nat W) * bpow radix2 (-24) + INR (S t) * (INR (N.to_nat W) + 1) * bpow radix2 (-50) + bpow radix2 (-23)) with (margin W (S t)).
    apply Rabs_le_inv in V. split; intros H; lra.
Qed.
Print Assumptions C24_windowed_gate_floats.

(** C24, gate without attack window: the same with the envelope itself in place of the rise, for every
    finite envelope and every history of setter calls. *)
Theorem C24_plain_gate_history :
  forall (onset release : db) (cs : list ng_call),
  Forall (env_all (fun x => is_finite x = true) (fun t => is_finite t = true)) cs ->
  exists g os, ng_make 0 onset release = Some g /\ ng_run g cs = Some os /\
    let l := in_force (ng_on g) (ng_off g) cs in
    length os = length l /\
    forall t e on off, nth_error l t = Some (e, on, off) ->
      (nth_error os t = Some true <-> if open_before os t then B2R off <= B2R e else B2R on < B2R e).
Proof.
  intros onset release cs Hcs. destruct (ng_make_defined 0 onset release ltac:(lia)) as [g Eg]. exists g.
  assert (Qdb : forall d x, float_of_db d = Some x -> fin x).
  { intros d x H. destruct (float_of_db_ok d) as (y & Ey & F & _). congruence. }
  assert (K : forall g, ng_base g = None -> fin (ng_on g) -> fin (ng_off g) ->
    exists os, ng_run g cs = Some os /\ let l := in_force (ng_on g) (ng_off g) cs in length os = length l /\
    forall t e on off, nth_error l t = Some (e, on, off) ->
      (nth_error os t = Some true <-> if ob (ng_state g) os t then B2R off <= B2R e else B2R on < B2R e)).
  { clear g Eg. induction cs as [|c cs IH]; intros g Hb Fon Foff.
    - exists []. cbn. split; [reflexivity|]. split; [reflexivity|]. intros [|t] ? ? ? H; discriminate.
    - inversion Hcs as [|? ? H1 H2]; subst. specialize (IH H2). destruct c as [e|x|x|d|d]; cbn [env_all] in H1.
      + cbn [ng_run]. unfold ng_step. rewrite Hb. cbn [bind].
        match goal with |- context [mkNG ?a ?b ?c ?d] => set (st := a); destruct (IH (mkNG a b c d) eq_refl Fon Foff) as (os & Eo & Lo & Ho) end.
        fold st in Eo, Lo, Ho. cbn [ng_on ng_off ng_state] in Lo, Ho. rewrite Eo. cbn [bind ng_state in_force length]. exists (st :: os).
        split; [reflexivity|]. split; [cbn; f_equal; exact Lo|]. intros [|t] e' on off Hn; cbn [nth_error] in *.
        * injection Hn as <- <- <-. cbn [ob]. rewrite (nth_error_bool [st] 0 st eq_refl : Some st = Some true <-> st = true).
          unfold st. destruct (ng_state g); cbn [negb andb].
          -- rewrite <- (nflt_iff e (ng_off g)) by assumption. destruct (flt e (ng_off g)); reflexivity.
          -- rewrite <- (flt_iff (ng_on g) e) by assumption. destruct (flt (ng_on g) e); reflexivity.
        * rewrite (Ho t e' on off Hn). replace (ob (ng_state g) (st :: os) (S t)) with (ob st os t) by (destruct t; reflexivity). reflexivity.
      + exact (IH (ng_set_onset g x) Hb H1 Foff).
      + exact (IH (ng_set_release g x) Hb Fon H1).
      + cbn [ng_run in_force]. unfold ng_set_onset_db. destruct (float_of_db d) as [x|] eqn:Ex; [|destruct (float_of_db_ok d) as (y & Ey & _); congruence].
        exact (IH (ng_set_onset g x) Hb (Qdb d x Ex) Foff).
      + cbn [ng_run in_force]. unfold ng_set_release_db. destruct (float_of_db d) as [x|] eqn:Ex; [|destruct (float_of_db_ok d) as (y & Ey & _); congruence].
        exact (IH (ng_set_release g x) Hb Fon (Qdb d x Ex)). }
  unfold ng_make, ng_base_make in Eg. cbn [N.eqb bind] in Eg.
  destruct (float_of_db release) as [x|] eqn:Ex; [|discriminate]. cbn [bind] in Eg.
  destruct (float_of_db onset) as [y|] eqn:Ey; [|discriminate]. cbn [bind] in Eg. injection Eg as <-.
  destruct (K (mkNG false y x None) eq_refl (Qdb _ _ Ey) (Qdb _ _ Ex)) as (os & H). exists os. split; [|exact H].
  unfold ng_make, ng_base_make. cbn [N.eqb bind]. rewrite Ex, Ey. reflexivity.
Qed.
Print Assumptions C24_plain_gate_history.

(** C24, the one-argument constructor: the onset threshold is 12 dB above the release threshold, and
    both are the given levels, to 0.0003 dB *)
Theorem C24_default_onset :
  forall (W : N) (release : db), (W <= 2 ^ 63)%N -> is_finite release = true -> -119 <= B2R release <= 106 ->
  exists g, ng_make1 W release = Some g /\ ng_state g = false /\ 0 < B2R (ng_off g) < B2R (ng_on g) /\
    Rabs (20 * ln (B2R (ng_off g)) / ln 10 - B2R release) <= 0.0003 /\
    Rabs (20 * ln (B2R (ng_on g)) / ln 10 - (B2R release + 12)) <= 0.0003.
Proof.
  intros W r HW F B. unfold ng_make1. destruct (ng_make_defined W (fadd r (mk64 12 0)) r HW) as [g Eg]. exists g. split; [exact Eg|].
  destruct (mk64_small 12 0 ltac:(reflexivity) ltac:(lia)) as [V12 F12]. change (bpow radix2 0) with 1 in V12. rewrite Rmult_1_r in V12.
  assert (A : Rabs (B2R r + 12) <= 120) by (apply Rabs_le; lra).
  pose proof (rd_err_all (B2R r + 12)) as Er.
  assert (T : bpow radix2 (-1075) <= 0.0000001). { apply Rle_trans with (bpow radix2 (-30)); [apply bpow_le; lia|]. change (bpow radix2 (-30)) with (/ 1073741824). lra. }
  assert (T2 : bpow radix2 (-53) <= 0.000000001). { change (bpow radix2 (-53)) with (/ 9007199254740992). lra. }
  assert (T3 : bpow radix2 (-53) * Rabs (B2R r + 12) <= 0.000000001 * 120). { apply Rmult_le_compat; [apply bpow_ge_0|apply Rabs_pos|exact T2|exact A]. }
  assert (Er' : Rabs (rnd 53 1024 (B2R r + 12) - (B2R r + 12)) <= 0.000001) by lra. apply Rabs_le_inv in Er'.
  destruct (fadd_R r (mk64 12 0) F F12) as [Vs Fs].
  { rewrite V12. apply Rlt_trans with (bpow radix2 10); [|apply bpow_lt; lia]. change (bpow radix2 10) with 1024. apply Rabs_lt. lra. }
  rewrite V12 in Vs. set (on := fadd r (mk64 12 0)) in *.
  assert (Eon : float_of_db on = Some (ng_on g) /\ float_of_db r = Some (ng_off g) /\ ng_state g = false).
  { clear - Eg. unfold ng_make in Eg. destruct (ng_base_make W); [|discriminate]. cbn [bind] in Eg.
    destruct (float_of_db r) as [x|]; [|discriminate]. cbn [bind] in Eg. destruct (float_of_db on) as [y|]; [|discriminate]. cbn [bind] in Eg.
    injection Eg as <-. auto. }
  destruct Eon as (E1 & E2 & E3). split; [exact E3|].
  destruct (gain_acc r (ng_off g) F ltac:(lra) E2) as [P1 A1]. destruct (gain_acc on (ng_on g) Fs ltac:(rewrite Vs; lra) E1) as [P2 A2].
  rewrite Vs in A2. apply Rabs_le_inv in A1, A2.
  split; [split; [exact P1|]|split; apply Rabs_le; lra].
  apply ln_lt_inv; [exact P1|exact P2|]. assert (L : 0 < ln 10) by (rewrite <- ln_1; apply ln_increasing; lra).
  apply Rmult_lt_reg_l with (20 / ln 10); [apply Rdiv_lt_0_compat; lra|]. unfold Rdiv in *. lra.
Qed.
Print Assumptions C24_default_onset.

(** C24, found: "the gate opens whenever the envelope has risen by more than the onset threshold over the last W
    samples" is false: what arrived while the gate was open is not part of the window.  With onset -6 dB (0.5),
    release -20 dB and W = 2, the envelope 0, 1, 0, 0, 1 opens the gate at the first 1 only, although the last
    sample is 1 above the one two samples earlier. *)
Theorem C24_reopening_refuted :
  exists (W : N) (onset release : db) (es : list f32) g os,
    (1 <= W)%N /\ Forall (fun x => pcm24 x /\ 0 <= B2R x) es /\
    ng_make W onset release = Some g /\ ng_run g (map GEnv es) = Some os /\
    exists t e, nth_error es t = Some e /\ open_before os t = false /\ nth_error os t = Some false /\
      B2R (ng_on g) < B2R e - B2R (nth (t - N.to_nat W) es fzero).
Proof.
  exists 2%N, (mk64 (-6) 0), (mk64 (-20) 0), [fzero; mk32 1 0; fzero; fzero; mk32 1 0].
  destruct (ng_make_defined 2 (mk64 (-6) 0) (mk64 (-20) 0) ltac:(lia)) as [g Eg].
  assert (P1 : pcm24 (mk32 1 0) /\ 0 <= B2R (mk32 1 0)).
  { destruct (mk32_small 1 0 ltac:(reflexivity) ltac:(lia)) as [V F]. change (bpow radix2 0) with 1 in V. split; [|lra].
    split; [exact F|]. exists 8388608%Z. split; [vm_compute; discriminate|]. rewrite V. lra. }
  assert (P0 : pcm24 fzero /\ 0 <= B2R (fzero : f32)) by (split; [exact pcm_zero|cbn; lra]).
  assert (T : match ng_make 2 (mk64 (-6) 0) (mk64 (-20) 0) with
    | Some g => match ng_run g (map GEnv [fzero; mk32 1 0; fzero; fzero; mk32 1 0]) with
      | Some os => flt (ng_on g) (mk32 1 0) && match os with [false; true; false; false; false] => true | _ => false end
      | None => false end
    | None => false end = true) by (vm_compute; reflexivity).
  rewrite Eg in T. destruct (ng_run g _) as [os|] eqn:Er; [|discriminate]. apply andb_prop in T. destruct T as [T1 T2].
  exists g, os. split; [lia|]. split; [apply Forall_forall; intros x [<- | [<- | [<- | [<- | [<- | []]]]]]; assumption|].
  split; [exact Eg|]. split; [exact Er|]. exists 4%nat, (mk32 1 0).
  destruct os as [|[|] [|[|] [|[|] [|[|] [|[|] [|? ?]]]]]]; try discriminate T2.
  split; [reflexivity|]. split; [reflexivity|]. split; [reflexivity|].
  destruct (ng_make_ok 2 _ _ g ltac:(lia) Eg) as (m & _ & _ & _ & Eon & _). destruct (float_of_db_ok (mk64 (-6) 0)) as (y & Ey & Fy & _). assert (y = ng_on g) by congruence. subst y.
  destruct (mk32_small 1 0 ltac:(reflexivity) ltac:(lia)) as [V F].
  apply (flt_true _ _ Fy F) in T1. change (nth (4 - N.to_nat 2) [fzero; mk32 1 0; fzero; fzero; mk32 1 0] fzero) with (fzero : f32). change (B2R (fzero : f32)) with 0. lra.
Qed.
Print Assumptions C24_reopening_refuted.

(** a gate over two samples, release -40 dB, onset -12 dB: the envelope 0, 1/4, 1/2 rises by more than
    0.25 over two samples and opens it; 1/128 is below -40 dB and closes it.  Nothing was heard while
    it was open, so at the next sample the rise is counted from 1/4, two heard samples back, and 3/8
    does not open it *)
Example C24_windowed_example :
  let cs := [GEnv fzero; GEnv (mk32 1 (-2)); GEnv (mk32 1 (-1)); GEnv (mk32 1 (-2)); GEnv (mk32 1 (-7)); GEnv (mk32 3 (-3)); GEnv (mk32 1 (-1))] in
  match ng_make 2 (mk64 (-12) 0) (mk64 (-40) 0) with
  | Some g => ng_run g cs = Some [false; false; true; true; false; false; false]
  | None => False
  end.
Proof. vm_compute. reflexivity. Qed.
