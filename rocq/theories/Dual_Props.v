(** C43: the dual pitch detector. *)
From Coq Require Import Reals Lra.
From Flocq Require Import Core.Core IEEE754.BinarySingleNaN.
From Verif Require Import Common CommonFacts Float FloatFacts Zc_Model PD_Model PD_Spec PD_Proof PD_Pred PD_Props Pitch_Model Pitch_Spec Pitch_Proof Pitch_Props Filt_Model Dual_Model Dual_Spec Dual_Proof.
Local Open Scope R_scope.

(** one of the two pitch detectors, built with the same parameters, after exactly the samples [xs] *)
Definition detector_after oob hyst n min range sps (xs : list f32) (t : pit) : Prop :=
  exists t0 cs, pit_make hyst n min range sps = Some t0 /\ pit_calls oob t0 cs = Some t /\ samples cs = xs.

Lemma make_inv oob hyst n min range sps lo hi d0 : dual_make hyst n min range sps lo hi = Some d0 ->
  exists t0, pit_make hyst n min range sps = Some t0 /\ dinv oob t0 d0 [].
Proof.
  intros E. unfold dual_make in E. destruct (pit_make hyst n min range sps) as [t0|] eqn:E0; cbv beta iota zeta delta [bind] in E; [|discriminate].
  exists t0. split; [reflexivity|]. unfold dinv.
  assert (D : d_1 d0 = t0 /\ d_2 d0 = t0 /\ d_cur d0 = info0 /\ d_pred d0 = fzero) by (injection E as <-; repeat split).
  destruct D as (-> & -> & -> & ->). split; [exists []; split; reflexivity|]. split; [exists []; split; reflexivity|]. split; [apply cur_ok0|left; reflexivity].
Qed.
Lemma inv_after oob hyst n min range sps t0 t xs : pit_make hyst n min range sps = Some t0 -> after oob t0 t xs -> detector_after oob hyst n min range sps xs t.
Proof. intros E (cs & A & B). exists t0, cs. auto. Qed.

(** For every parameter set and EVERY history of samples (NaN and infinities included) and
    predictions all calls succeed; one detector has seen exactly the samples, the other exactly
    their negations; the reported frequency is 0 or positive, the periodicity in [0,1]. *)
Theorem C43_every_history :
  forall oob hyst n min range sps lo hi (cs : list pd_call), ints oob -> (n <= 2 ^ 28)%N -> (min < 2 ^ 64)%N ->
  exists d0 d, dual_make hyst n min range sps lo hi = Some d0 /\ dual_calls oob d0 cs = Some d /\
    detector_after oob hyst n min range sps (samples cs) (d_1 d) /\
    detector_after oob hyst n min range sps (map fneg (samples cs)) (d_2 d) /\
    ((dual_frequency d = fzero /\ dual_periodicity d = fzero) \/ positive (dual_frequency d)) /\
    in_unit (dual_periodicity d).
Proof.
  intros oob hyst n min range sps lo hi cs Ho Hn Hm.
  destruct (C40_every_history oob hyst n min range sps [] Ho Hn Hm) as (t0 & _ & E0 & _).
  assert (Ed : exists d0, dual_make hyst n min range sps lo hi = Some d0) by (unfold dual_make; rewrite E0; eexists; reflexivity).
  destruct Ed as (d0 & Ed). destruct (make_inv oob _ _ _ _ _ _ _ _ Ed) as (t0' & E0' & I). rewrite E0 in E0'. injection E0' as <-.
  destruct (dcalls_ok oob Ho hyst n min range sps Hn Hm t0 E0 cs d0 [] I) as (d & E & (A1 & A2 & (C1 & C2) & _)).
  exists d0, d. split; [exact Ed|]. split; [exact E|].
  split; [exact (inv_after _ _ _ _ _ _ _ _ _ E0 A1)|]. split; [exact (inv_after _ _ _ _ _ _ _ _ _ E0 A2)|]. split; [|exact C2].
  destruct C1 as [C1|C1]; [left|right; exact C1]. unfold dual_frequency, dual_periodicity. rewrite C1. auto.
Qed.
Print Assumptions C43_every_history.

(** One sample after any history, readings and running mean being 0 or between 2^-100 and 2^100:
    what happens is one of the cases of [dual_outcome] (Dual_Spec). *)
Definition reading (i : info) : Prop := is_finite (i_freq i) = true /\ 0 <= B2R (i_freq i) <= bpow radix2 100.
Theorem C43_step :
  forall oob hyst n min range sps lo hi cs d0 d s, ints oob -> (n <= 2 ^ 28)%N -> (min < 2 ^ 64)%N ->
  dual_make hyst n min range sps lo hi = Some d0 -> dual_calls oob d0 cs = Some d -> sane (d_mean d) ->
  exists d' ready, dual_step oob d s = Some (d', ready) /\
    (reading (t_cur (d_1 d')) -> reading (t_cur (d_2 d')) ->
     dual_outcome (t_cur (d_1 d')) (t_cur (d_2 d')) (d_cur d) (d_mean d) ready (d_first d) (d_cur d') (d_mean d') (d_first d')).
Proof.
  intros oob hyst n min range sps lo hi cs d0 d s Ho Hn Hm Ed E Sm.
  destruct (make_inv oob _ _ _ _ _ _ _ _ Ed) as (t0 & E0 & I).
  destruct (dcalls_ok oob Ho hyst n min range sps Hn Hm t0 E0 cs d0 [] I) as (d1 & E1 & I1). rewrite E in E1. injection E1 as <-.
  destruct (dstep_ok oob Ho hyst n min range sps Hn Hm t0 E0 d _ s I1) as (d' & b & Es & _). exists d', b. split; [exact Es|].
  intros R1 R2. exact (dstep_outcome oob Ho hyst n min range sps Hn Hm t0 E0 d _ s d' b I1 Es Sm R1 R2).
Qed.
Print Assumptions C43_step.

(** Robustness: from one report to the next the frequency stays, becomes 0, or moves to a reading
    of one of the two detectors which, except for the very first report, is less than an octave
    from the running mean. *)
Theorem C43_reports :
  forall a b old mean ready first new mean' first', dual_outcome a b old mean ready first new mean' first' ->
  new = old \/ new = info0 \/
  ((new = a \/ new = b) /\ ~ no_pitch a /\ ~ no_pitch b /\ first' = false /\ (first = true \/ octave mean (i_freq new))).
Proof.
  intros a b old mean ready first new mean' first' O.
  destruct O as [|? |? |i Na Nb Nr|i ? Na Nb Nr Oc ?|]; auto; right; right; (split; [destruct Nr as [[-> _]|[-> _]]; auto|]); auto.
Qed.
Print Assumptions C43_reports.

(** The octave lock: once a pitch has been reported, a note whose readings stay an octave or more
    away from the running mean is NEVER reported, however long it lasts: the report stays what it
    was, or becomes "no pitch". *)
Definition out_of_octave (mean : f32) (i : info) : Prop := reading i /\ ~ octave mean (i_freq i).
Theorem C43_octave_lock :
  forall oob hyst n min range sps lo hi cs d0 d cs' d', ints oob -> (n <= 2 ^ 28)%N -> (min < 2 ^ 64)%N ->
  dual_make hyst n min range sps lo hi = Some d0 -> dual_calls oob d0 cs = Some d -> sane (d_mean d) -> d_first d = false ->
  dual_calls oob d cs' = Some d' ->
  (forall pre post p, cs' = pre ++ post -> dual_calls oob d pre = Some p ->
     out_of_octave (d_mean d) (t_cur (d_1 p)) /\ out_of_octave (d_mean d) (t_cur (d_2 p))) ->
  (d_cur d' = d_cur d \/ d_cur d' = info0) /\ d_mean d' = d_mean d /\ d_first d' = false.
Proof.
  intros oob hyst n min range sps lo hi cs d0 d cs' d' Ho Hn Hm Ed E Sm Fi.
  destruct (make_inv oob _ _ _ _ _ _ _ _ Ed) as (t0 & E0 & I).
  destruct (dcalls_ok oob Ho hyst n min range sps Hn Hm t0 E0 cs d0 [] I) as (d1 & E1 & I1). rewrite E in E1. injection E1 as <-.
  assert (G : forall cs' q d', (d_cur q = d_cur d \/ d_cur q = info0) -> d_mean q = d_mean d -> d_first q = false -> (exists xs, dinv oob t0 q xs) ->
    dual_calls oob q cs' = Some d' ->
    (forall pre post p, cs' = pre ++ post -> dual_calls oob q pre = Some p ->
       out_of_octave (d_mean d) (t_cur (d_1 p)) /\ out_of_octave (d_mean d) (t_cur (d_2 p))) ->
    (d_cur d' = d_cur d \/ d_cur d' = info0) /\ d_mean d' = d_mean d /\ d_first d' = false).
  { clear cs' d'. induction cs' as [|[s|] cs' IH]; intros q d' Q1 Q2 Q3 (xs & Q4) Ec Hall; cbn [dual_calls] in Ec.
    - injection Ec as <-. auto.
    - destruct (dstep_ok oob Ho hyst n min range sps Hn Hm t0 E0 q xs s Q4) as (q' & b & Es & I'). rewrite Es in Ec. cbn [bind fst] in Ec.
      assert (R : out_of_octave (d_mean d) (t_cur (d_1 q')) /\ out_of_octave (d_mean d) (t_cur (d_2 q'))).
      { apply (Hall [Sample s] cs' q'); [reflexivity|]. cbn [dual_calls]. rewrite Es. reflexivity. }
      destruct R as [[R1 O1] [R2 O2]]. rewrite <- Q2 in Sm.
      pose proof (dstep_outcome oob Ho hyst n min range sps Hn Hm t0 E0 q xs s q' b Q4 Es Sm R1 R2) as O. rewrite Q2 in O.
      assert (Z : (d_cur q' = d_cur q \/ d_cur q' = info0) /\ d_mean q' = d_mean d /\ d_first q' = false).
      { rewrite Q3 in O. inversion O as [|? |? |i Na Nb Nr|i ? Na Nb Nr Oc ?|]; subst; auto.
        exfalso. destruct Nr as [[Ei _]|[Ei _]]; rewrite Ei in Oc; [apply O1|apply O2]; exact Oc. }
      destruct Z as (Z1 & Z2 & Z3).
      apply (IH q' d'); [destruct Z1 as [-> | ->]; auto|exact Z2|exact Z3|eexists; exact I'|exact Ec|].
      intros pre post p Ep Er. apply (Hall (Sample s :: pre) post p); [rewrite Ep; reflexivity|]. cbn [dual_calls]. rewrite Es. exact Er.
    - destruct (dpredict_ok oob Ho hyst n min range sps Hn Hm t0 E0 q xs Q4) as (q' & f & Ep & I' & Ef). rewrite Ep in Ec. cbn [bind fst] in Ec.
      assert (Z : d_cur q' = d_cur q /\ d_mean q' = d_mean q /\ d_first q' = d_first q).
      { unfold dual_predict in Ep. destruct (feq (d_pred q) fzero); [|cbn [bind] in Ep; injection Ep as <- _; auto].
        destruct (compute_ok oob Ho hyst n min range sps Hn Hm t0 E0 q xs Q4) as (c & Ec' & _ & K1 & K2 & K3 & _). rewrite Ec' in Ep. cbn [bind] in Ep. injection Ep as <- _. auto. }
      destruct Z as (Z1 & Z2 & Z3).
      apply (IH q' d'); [rewrite Z1; exact Q1|rewrite Z2; exact Q2|rewrite Z3; exact Q3|eexists; exact I'|exact Ec|].
      intros pre post p Eq Er. apply (Hall (Predict :: pre) post p); [rewrite Eq; reflexivity|]. cbn [dual_calls]. rewrite Ep. exact Er. }
  intros Ec Hall. apply (G cs' d d'); auto. eexists. exact I1.
Qed.
Print Assumptions C43_octave_lock.

Lemma some_pair {A B} (a c : A) (b d : B) : Some (a, b) = Some (c, d) -> c = a /\ d = b.
Proof. intros H. injection H as -> ->. auto. Qed.

(** predict_frequency() after any history: a prediction already made is returned again; otherwise
    the result is 0 or a frequency that both detectors predict to within 10 percent and that,
    unless nothing has been reported yet, is less than an octave from the running mean. *)
Theorem C43_prediction :
  forall oob hyst n min range sps lo hi cs d0 d, ints oob -> (n <= 2 ^ 28)%N -> (min < 2 ^ 64)%N ->
  dual_make hyst n min range sps lo hi = Some d0 -> dual_calls oob d0 cs = Some d -> sane (d_mean d) ->
  exists d' f, dual_predict d = Some (d', f) /\ d_cur d' = d_cur d /\
    (f = fzero \/ positive f) /\
    (d_pred d <> fzero -> f = d_pred d /\ d' = d) /\
    (d_pred d = fzero -> f <> fzero ->
       exists t1 t2 f2, predict_frequency (d_1 d) = Some (t1, f) /\ predict_frequency (d_2 d) = Some (t2, f2) /\ positive f2 /\
         (sane f -> sane f2 -> Rabs (B2R f - B2R f2) < B2R f / 10 /\ (d_first d = true \/ octave (d_mean d) f))).
Proof.
  intros oob hyst n min range sps lo hi cs d0 d Ho Hn Hm Ed E Sm.
  destruct (make_inv oob _ _ _ _ _ _ _ _ Ed) as (t0 & E0 & I).
  destruct (dcalls_ok oob Ho hyst n min range sps Hn Hm t0 E0 cs d0 [] I) as (d1 & E1 & I1). rewrite E in E1. injection E1 as <-.
  destruct (dpredict_ok oob Ho hyst n min range sps Hn Hm t0 E0 d _ I1) as (d' & f & Ep & (_ & _ & _ & Ip) & Ef).
  destruct I1 as (A1 & A2 & A3 & A4).
  assert (Z0 : forall x : f32, feq x fzero = true -> x = fzero \/ positive x -> x = fzero).
  { intros x Hx [->|P]; [reflexivity|]. exfalso. destruct (pos_cases _ P) as [->|[F P']]; [discriminate Hx|].
    apply feq_true in Hx; [|exact F|reflexivity]. change (B2R (fzero : f32)) with 0 in Hx. lra. }
  exists d', f. split; [exact Ep|]. unfold dual_predict in Ep.
  destruct (feq (d_pred d) fzero) eqn:Q.
  - assert (Zd : d_pred d = fzero) by (apply Z0; [exact Q|exact A4]).
    unfold dual_compute in Ep. destruct (after_predict oob Ho hyst n min range sps Hn Hm t0 E0 _ _ A1) as (t1 & f1 & P1 & _). rewrite P1 in Ep. cbn [bind fst snd] in Ep.
    destruct (fgt f1 fzero) eqn:G1.
    + destruct (after_predict oob Ho hyst n min range sps Hn Hm t0 E0 _ _ A2) as (t2 & f2 & P2 & _). rewrite P2 in Ep. cbn [bind fst snd] in Ep.
      apply some_pair in Ep; destruct Ep as [-> ->]. split; [reflexivity|]. split; [exact Ip|]. split; [intros N; contradiction|]. intros _. cbn [d_pred].
      clear Ip Ef. destruct (fgt f2 fzero) eqn:G2; cbn [andb]; [|intros N; exfalso; apply N; reflexivity].
      destruct (flt (fabs (fsub f1 f2)) (fdiv f1 (z32 10))) eqn:G3; cbn [andb]; [|intros N; exfalso; apply N; reflexivity].
      destruct (d_first d || within_octave (d_mean d) f1)%bool eqn:G4; [|intros N; exfalso; apply N; reflexivity].
      intros _. exists t1, t2, f2. split; [exact P1|]. split; [exact P2|]. split; [exact G2|]. intros [F1 [L1 U1]] [F2 [L2 U2]].
      pose proof (bpow_gt_0 radix2 (-100)) as P. pose proof b102 as B.
      destruct (fsub_R f1 f2 F1 F2) as [Es Fs]; [apply big; apply Rabs_le; lra|]. destruct z32_10 as [E10 F10].
      destruct (fdiv_R f1 (z32 10) F1) as [Ev Fv]; [lra|rewrite E10; apply big; apply Rabs_le; lra|]. rewrite E10 in Ev.
      destruct (fabs_R (fsub f1 f2)) as [Ea Fa]. rewrite Fs in Fa.
      apply (flt_true _ _ Fa Fv) in G3. rewrite Ea, Es, Ev in G3. split.
      * destruct (Rle_or_lt (B2R f1 / 10) (Rabs (B2R f1 - B2R f2))) as [L|L]; [|exact L]. exfalso.
        assert (RA : Rabs (rnd 24 128 (B2R f1 - B2R f2)) = rnd 24 128 (Rabs (B2R f1 - B2R f2))).
        { unfold Rabs at 2. destruct (Rcase_abs (B2R f1 - B2R f2)) as [N|N].
          - rewrite rnd_opp. apply Rabs_left1. apply rnd_le_fmt; [apply fmt_0|lra].
          - apply Rabs_pos_eq. apply rnd_ge_fmt; [apply fmt_0|lra]. }
        rewrite RA in G3. apply (rnd_le (prec:=24) (emax:=128)) in L. lra.
      * destruct (d_first d); [left; reflexivity|right]. apply octave_iff; [exact Sm|exact F1|exact G4].
    + apply some_pair in Ep; destruct Ep as [-> ->]. split; [reflexivity|]. split; [left; reflexivity|]. split; [intros N; contradiction|]. intros _ N. exfalso. apply N. reflexivity.
  - cbn [bind] in Ep. apply some_pair in Ep; destruct Ep as [-> ->]. split; [reflexivity|]. split; [exact Ip|]. split; [intros _; auto|].
    intros N. rewrite N in Q. discriminate Q.
Qed.
Print Assumptions C43_prediction.

(** A new report always discards the prediction made before it. *)
Theorem C43_report_clears_prediction :
  forall oob hyst n min range sps lo hi cs d0 d s d' ready, ints oob -> (n <= 2 ^ 28)%N -> (min < 2 ^ 64)%N ->
  dual_make hyst n min range sps lo hi = Some d0 -> dual_calls oob d0 cs = Some d -> dual_step oob d s = Some (d', ready) ->
  d_cur d' <> d_cur d -> d_cur d' <> info0 -> d_pred d' = fzero.
Proof.
  intros oob hyst n min range sps lo hi cs d0 d s d' ready Ho Hn Hm Ed E Es N1 N2.
  destruct (make_inv oob _ _ _ _ _ _ _ _ Ed) as (t0 & E0 & I).
  destruct (dcalls_ok oob Ho hyst n min range sps Hn Hm t0 E0 cs d0 [] I) as (d1 & E1 & I1). rewrite E in E1. injection E1 as <-.
  unfold dual_step in Es. destruct (pit_step oob (d_1 d) s) as [[t1 b1]|]; cbn [bind] in Es; [|discriminate].
  destruct (pit_step oob (d_2 d) (fneg s)) as [[t2 b2]|]; cbn [bind fst snd] in Es; [|discriminate].
  destruct (b1 || b2)%bool; [|injection Es as <- <-; exfalso; apply N1; reflexivity].
  destruct (indeterminate t1 && indeterminate t2)%bool.
  - destruct (dual_compute _) as [c|]; cbn [bind] in Es; [|discriminate]. injection Es as <- <-. exfalso. apply N2. reflexivity.
  - injection Es as <- <-. destruct (negb (indeterminate t1) && negb (indeterminate t2))%bool; [|exfalso; apply N1; reflexivity].
    destruct (d_first d); [reflexivity|]. destruct (within_octave _ _); [reflexivity|exfalso; apply N1; reflexivity].
Qed.
Print Assumptions C43_report_clears_prediction.

(** the first [n] samples of a square wave of even period [p] *)
Definition square_wave (p n : nat) : list f32 :=
  map (fun i => if Nat.ltb (Nat.modulo i p) (Nat.div p 2) then mk32 1 0 else mk32 (-1) 0) (seq 0 n).
Definition dual_ex (xs : list f32) : option dual :=
  do d <- dual_make hyst_ex 100 4 10 44100 (mk64 1000 0) (mk64 8000 0) ; dual_calls (fun _ => 0%Z) d (map Sample xs).
Definition exactly (f : f32) (m e : Z) : bool := feq f (mk32 m e).
(** A square wave of period 20 at 44100 Hz is reported as 2205 Hz; one of period 8 as 5512.5 Hz. *)
Example C43_witness :
  match dual_ex (square_wave 20 400), dual_ex (square_wave 8 400) with
  | Some d, Some e => exactly (dual_frequency d) 2205 0 && exactly (d_mean d) 2205 0 && negb (d_first d) && exactly (dual_frequency e) 11025 (-1)
  | _, _ => false end%bool = true.
Proof. vm_compute. reflexivity. Qed.

Definition agreeing_but_reported_as (m e : Z) (o : option dual) : bool :=
  match o with
  | Some d => feq (get_frequency (d_1 d)) (get_frequency (d_2 d)) && exactly (get_periodicity (d_1 d)) 1 0 && exactly (get_periodicity (d_2 d)) 1 0 &&
              exactly (dual_frequency d) m e && negb (feq (dual_frequency d) (get_frequency (d_1 d)))
  | None => false end%bool.
Definition agreement : Prop :=
  forall oob hyst n min range sps lo hi xs d0 d, ints oob -> (n <= 2 ^ 28)%N -> (min < 2 ^ 64)%N -> (forall x, In x xs -> is_finite x = true) ->
     dual_make hyst n min range sps lo hi = Some d0 -> dual_calls oob d0 (map Sample xs) = Some d ->
     feq (get_frequency (d_1 d)) (get_frequency (d_2 d)) = true -> feq (get_periodicity (d_1 d)) (mk32 1 0) = true -> feq (get_periodicity (d_2 d)) (mk32 1 0) = true ->
     feq (dual_frequency d) (get_frequency (d_1 d)) = true.
Lemma agreement_fails hyst n min range sps lo hi xs m e : (n <=? 2 ^ 28)%N = true -> (min <? 2 ^ 64)%N = true -> forallb is_finite xs = true ->
  agreeing_but_reported_as m e (do d <- dual_make hyst n min range sps lo hi ; dual_calls (fun _ => 0%Z) d (map Sample xs)) = true -> ~ agreement.
Proof.
  intros Hn Hm F T Q. apply N.leb_le in Hn. apply N.ltb_lt in Hm.
  destruct (dual_make hyst n min range sps lo hi) as [d0|] eqn:E0; cbn [bind] in T; [|discriminate].
  destruct (dual_calls (fun _ => 0%Z) d0 (map Sample xs)) as [d|] eqn:E1; [|discriminate]. unfold agreeing_but_reported_as in T.
  assert (O : ints (fun _ => 0%Z)) by (intros x; split; [apply Z.opp_nonpos_nonneg; apply Z.pow_nonneg; discriminate|reflexivity]).
  assert (Fx : forall x, In x xs -> is_finite x = true) by (intros x Hx; rewrite forallb_forall in F; exact (F x Hx)).
  pose proof (Q (fun _ => 0%Z) hyst n min range sps lo hi xs d0 d O Hn Hm Fx E0 E1) as R. clear Q E0 E1 F Fx.
  apply andb_true_iff in T. destruct T as [T T5]. apply andb_true_iff in T. destruct T as [T T4]. apply andb_true_iff in T. destruct T as [T T3].
  apply andb_true_iff in T. destruct T as [T1 T2]. rewrite (R T1 T2 T3) in T5. discriminate T5.
Qed.

(** Found: "when both detectors agree on a pitch, that is what is reported".  After a note of
    2205 Hz and 300 samples of silence, a note of 5512.5 Hz is read by both detectors, but the
    dual detector still reports 2205 Hz (and by the octave lock always will). *)
Theorem C43_agreement_refuted : ~ agreement.
Proof.
  apply (agreement_fails hyst_ex 100 4 10 44100 (mk64 1000 0) (mk64 8000 0) (square_wave 20 400 ++ repeat fzero 300 ++ square_wave 8 400) 2205 0);
    vm_compute; reflexivity.
Qed.
Print Assumptions C43_agreement_refuted.
