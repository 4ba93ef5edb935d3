(** Property C08.  Theorems only. *)
From Coq Require Import Reals Lra.
From Flocq Require Import Core.Core IEEE754.BinarySingleNaN.
From Verif Require Import Common Float FloatFacts Ring_Model Bitset_Model Bitset_Spec Zc_Model PD_Model PD_Spec PD_Proof PD_Pred.

(** C08.  For every hysteresis, window of up to 2^28 samples, minimum period, range, EVERY
    sequence of float samples and every behaviour [oob] of the float to int conversion
    where C++ leaves it undefined: construction and all calls of operator() succeed (no
    assertion fires, no bit is written and no lag is correlated outside the bit store);
    whenever is_ready() holds, bits(), the pulse count and the half-empty flag are what
    [bits_spec] says, the fundamental is what [fund_spec] says, and a periodicity is -1
    ("not enough pulses") or between 0 and 1; at any time harmonic() and predict_period()
    succeed, the former with a value that is 0, the fundamental's or in [0,1]. *)
Theorem C08_period_detector :
  forall (oob : f32 -> Z) (hyst : f32) (n min : N) (range : Z) (xs : list f32),
  (n <= 2 ^ 28)%N -> (min < 2 ^ 64)%N ->
  exists p0 p, pd_make hyst n min range = Some p0 /\ pd_run oob p0 xs = Some p /\
    let W := z_win (p_zc p) in
    (n <= W)%N /\ bs_size 64 (p_bits p) = W /\ p_min p = min /\ p_range p = range /\
    (z_ready (p_zc p) = true ->
       bits_spec W p /\ fund_spec W oob p /\
       (p_periodicity p = z32 (-1) \/ (is_finite (p_periodicity p) = true /\ (0 <= B2R (p_periodicity p) <= 1)%R))) /\
    (forall index, exists r, pd_harmonic p index = Some r /\
       (r = fzero \/ r = p_periodicity p \/ (is_finite r = true /\ (0 <= B2R r <= 1)%R))) /\
    (exists p' v, pd_predict p = Some (p', v) /\ p_zc p' = p_zc p /\ (pred_spec p v \/ v = p_predicted p)).
Proof. exact pd_final. Qed.
Print Assumptions C08_period_detector.

(** ... in particular the bit stream is exact when no reported edge is stale *)
Theorem C08_bits_exact :
  forall oob hyst n min range xs p0 p, (n <= 2 ^ 28)%N -> (min < 2 ^ 64)%N ->
  pd_make hyst n min range = Some p0 -> pd_run oob p0 xs = Some p -> z_ready (p_zc p) = true ->
  (forall i e, (i < z_num (p_zc p))%N -> zc_at (p_zc p) i = Some e -> (0 <= zi_trail e)%Z) ->
  forall j, (j < z_win (p_zc p))%N ->
    bs_get 64 (p_bits p) j = Some true <->
    exists i e, (i < z_num (p_zc p))%N /\ zc_at (p_zc p) i = Some e /\ fge (zi_peak e) (pd_threshold p) = true /\
      (zi_lead e <= Z.of_N j < zi_trail e)%Z.
Proof.
  intros oob hyst n min range xs p0 p Hn Hm E0 E1 Rd Tr j Hj.
  destruct (pd_final oob hyst n min range xs Hn Hm) as (q0 & q & F0 & F1 & _ & _ & _ & _ & S & _).
  rewrite E0 in F0. injection F0 as <-. rewrite E1 in F1. injection F1 as <-.
  destruct (S Rd) as ((B & _) & _). rewrite (B j Hj). unfold some_edge, qualifies, covers. split.
  - intros Q. injection Q as Q. apply existsb_exists in Q. destruct Q as (k & Hk & Q). apply in_seq in Hk.
    destruct (zc_at (p_zc p) (N.of_nat k)) as [e|] eqn:Ae; [|discriminate]. apply andb_true_iff in Q. destruct Q as [Q1 Q2].
    pose proof (Tr (N.of_nat k) e ltac:(lia) Ae). exists (N.of_nat k), e. split; [lia|]. split; [exact Ae|]. split; [exact Q1|]. lia.
  - intros (i & e & Hi & Ae & Q1 & Q2). f_equal. apply existsb_exists. exists (N.to_nat i). split; [apply in_seq; lia|].
    rewrite N2Nat.id, Ae, Q1. cbn [andb]. lia.
Qed.
Print Assumptions C08_bits_exact.

Definition hyst_ex : f32 := mk32 (-1) (-6).
Definition pd_ex (oob : f32 -> Z) (xs : list f32) : option pd := do p <- pd_make hyst_ex 100 4 10 ; pd_run oob p xs.
Lemma pd_ex_inv oob xs p : pd_ex oob xs = Some p -> exists p0, pd_make hyst_ex 100 4 10 = Some p0 /\ pd_run oob p0 xs = Some p.
Proof. unfold pd_ex. destruct (pd_make hyst_ex 100 4 10) as [p0|]; [|discriminate]. intros E. exists p0. auto. Qed.

(** a square wave of period 20: ready after 128 samples, fundamental exactly 20 with
    periodicity 1, bits 0000000000111... *)
Definition square20 (n : nat) : list f32 :=
  map (fun k => if (Nat.modulo k 20 <? 10)%nat then mk32 (-1) 0 else mk32 1 0) (seq 0 n).
Example C08_example :
  match pd_ex (fun _ => 0%Z) (square20 128) with
  | Some p => (z_ready (p_zc p) && feq (p_period p) (mk32 20 0) && feq (p_periodicity p) (mk32 1 0) && (p_pulses p =? 6)%N &&
               negb (p_half_empty p) && (z_win (p_zc p) =? 128)%N &&
               match bs_get 64 (p_bits p) 9, bs_get 64 (p_bits p) 10 with Some false, Some true => true | _, _ => false end)%bool
  | None => false end = true.
Proof. vm_compute. reflexivity. Qed.

(** Claims that fail. *)
(** (1) "a bit is set only where the signal is positive": one stale edge (C07) fills the
    whole bit store. *)
Definition early : list f32 :=
  repeat (mk32 (-1) 0) 5 ++ repeat (mk32 1 0) 5 ++ repeat (mk32 (-1) 0) 5 ++ repeat (mk32 1 0) 5 ++
  repeat (mk32 (-1) 0) 130 ++ repeat (mk32 1 0) 5 ++ repeat (mk32 (-1) 0) 37.
Theorem C08_stale_edge_fills_bits_refuted :
  ~ (forall oob hyst n min range xs p0 p j, (n <= 2 ^ 28)%N -> (min < 2 ^ 64)%N ->
     pd_make hyst n min range = Some p0 -> pd_run oob p0 xs = Some p -> z_ready (p_zc p) = true -> (j < z_win (p_zc p))%N ->
     bs_get 64 (p_bits p) j = Some true ->
     exists i e, (i < z_num (p_zc p))%N /\ zc_at (p_zc p) i = Some e /\ (zi_lead e <= Z.of_N j < zi_trail e)%Z).
Proof.
  intros Q.
  assert (T : match pd_ex (fun _ => 0%Z) early with
    | Some p => z_ready (p_zc p) && (60 <? z_win (p_zc p))%N && match bs_get 64 (p_bits p) 60 with Some true => true | _ => false end &&
        forallb (fun k => match zc_at (p_zc p) (N.of_nat k) with Some e => negb ((zi_lead e <=? 60) && (60 <? zi_trail e))%Z | None => true end)
           (seq 0 (N.to_nat (z_num (p_zc p))))
    | None => false end%bool = true) by (vm_compute; reflexivity).
  destruct (pd_ex (fun _ => 0%Z) early) as [p|] eqn:E; [|discriminate]. destruct (pd_ex_inv _ _ _ E) as (p0 & E0 & E1).
  apply andb_true_iff in T. destruct T as [T T4]. apply andb_true_iff in T. destruct T as [T T3]. apply andb_true_iff in T. destruct T as [T1 T2].
  apply N.ltb_lt in T2. destruct (bs_get 64 (p_bits p) 60) as [[|]|] eqn:G; try discriminate T3.
  destruct (Q (fun _ => 0%Z) hyst_ex 100%N 4%N 10%Z early p0 p 60%N ltac:(vm_compute; discriminate) ltac:(vm_compute; reflexivity) E0 E1 T1 T2 G)
    as (i & e & Hi & Ae & L).
  rewrite forallb_forall in T4. specialize (T4 (N.to_nat i) ltac:(apply in_seq; lia)). cbn beta in T4. rewrite N2Nat.id, Ae in T4.
  change (Z.of_N 60) with 60%Z in L. lia.
Qed.
Print Assumptions C08_stale_edge_fills_bits_refuted.

(** (2) "the fundamental is determined by the C++ standard": after a restart inside a
    positive stretch the fractional period is infinite or NaN, and its conversion to int
    (period_detector.hpp:204) is undefined; the reported period depends on it.  All
    samples are finite. *)
Definition cv (k : Z) : f32 := mk32 (128 * k + 1) (-7).
Definition pul (on off : nat) : list f32 := repeat (cv 9) on ++ repeat (cv (-1)) off ++ [cv 0].
Definition ub_signal : list f32 :=
  firstn 388 (repeat (cv 10) 258 ++ concat (repeat (pul 4 5 ++ pul 6 8) 7)).
Theorem C08_undefined_conversion_refuted :
  ~ (forall oob oob' hyst n min range xs p0 p p', (n <= 2 ^ 28)%N -> (min < 2 ^ 64)%N -> (forall x, In x xs -> is_finite x = true) ->
     pd_make hyst n min range = Some p0 -> pd_run oob p0 xs = Some p -> pd_run oob' p0 xs = Some p' ->
     z_ready (p_zc p) = true -> feq (p_period p) (p_period p') = true).
Proof.
  intros Q.
  assert (T : match pd_ex (fun _ => 1%Z) ub_signal, pd_ex (fun _ => 1000%Z) ub_signal with
    | Some p, Some p' => z_ready (p_zc p) && feq (p_period p) (mk32 15 0) && feq (p_period p') (mk32 3 (-1)) && negb (feq (p_period p) (p_period p'))
    | _, _ => false end%bool = true) by (vm_compute; reflexivity).
  destruct (pd_ex (fun _ => 1%Z) ub_signal) as [p|] eqn:E; [|discriminate].
  destruct (pd_ex (fun _ => 1000%Z) ub_signal) as [p'|] eqn:E'; [|discriminate].
  destruct (pd_ex_inv _ _ _ E) as (p0 & E0 & E1). destruct (pd_ex_inv _ _ _ E') as (p0' & E0' & E1').
  rewrite E0 in E0'. injection E0' as <-.
  apply andb_true_iff in T. destruct T as [T T4]. apply andb_true_iff in T. destruct T as [T _]. apply andb_true_iff in T. destruct T as [T1 _].
  rewrite (Q (fun _ => 1%Z) (fun _ => 1000%Z) hyst_ex 100%N 4%N 10%Z ub_signal p0 p p') in T4; auto; [discriminate|vm_compute; discriminate|vm_compute; reflexivity|].
  assert (F : forallb is_finite ub_signal = true) by (vm_compute; reflexivity).
  intros x Hx. rewrite forallb_forall in F. exact (F x Hx).
Qed.
Print Assumptions C08_undefined_conversion_refuted.

(** (3) "a reported fundamental period is at least the minimum period": a finite signal
    for which is_ready() reports period 0 with periodicity above 1/2. *)
Definition zero_signal : list f32 := firstn 385 (repeat (cv 10) 258 ++ concat (repeat (pul 4 5) 13)).
Theorem C08_period_at_least_min_refuted :
  ~ (forall oob hyst n min range xs p0 p, (n <= 2 ^ 28)%N -> (min < 2 ^ 64)%N -> (forall x, In x xs -> is_finite x = true) ->
     pd_make hyst n min range = Some p0 -> pd_run oob p0 xs = Some p -> z_ready (p_zc p) = true ->
     fgt (p_periodicity p) (mk32 1 (-1)) = true -> fgt (p_period p) fzero = true).
Proof.
  intros Q.
  assert (T : match pd_ex (fun _ => 1%Z) zero_signal with
    | Some p => z_ready (p_zc p) && fgt (p_periodicity p) (mk32 1 (-1)) && negb (fgt (p_period p) fzero)
    | _ => false end%bool = true) by (vm_compute; reflexivity).
  destruct (pd_ex (fun _ => 1%Z) zero_signal) as [p|] eqn:E; [|discriminate].
  destruct (pd_ex_inv _ _ _ E) as (p0 & E0 & E1).
  apply andb_true_iff in T. destruct T as [T T3]. apply andb_true_iff in T. destruct T as [T1 T2].
  rewrite (Q (fun _ => 1%Z) hyst_ex 100%N 4%N 10%Z zero_signal p0 p) in T3; auto; [discriminate|vm_compute; discriminate|vm_compute; reflexivity|].
  assert (F : forallb is_finite zero_signal = true) by (vm_compute; reflexivity).
  intros x Hx. rewrite forallb_forall in F. exact (F x Hx).
Qed.
Print Assumptions C08_period_at_least_min_refuted.

(** ---- predict_period() and the fundamental between analyses ---- *)

(** Any history of samples and predictions succeeds, and the predictions do not disturb the
    detection: everything else is what the samples alone lead to. *)
Theorem C08_prediction_harmless :
  forall oob hyst n min range p0 (cs : list pd_call), (n <= 2 ^ 28)%N -> pd_make hyst n min range = Some p0 ->
  exists p q, pd_calls oob p0 cs = Some p /\ pd_run oob p0 (samples cs) = Some q /\
    p_zc p = p_zc q /\ p_period p = p_period q /\ p_periodicity p = p_periodicity q /\ p_bits p = p_bits q.
Proof.
  intros oob hyst n min range p0 cs Hn E0. destruct (calls_total oob hyst n min range p0 cs Hn E0) as (p & Ep & _).
  destruct (calls_run oob cs p0 p Ep) as (q & v & e & Eq & ->). exists (with_pred q v e), q. repeat split; assumption.
Qed.
Print Assumptions C08_prediction_harmless.

(** After a sample that ended a pulse, and any further samples, the prediction is what the present
    edges predict ([predicts]) ... *)
Theorem C08_prediction_fresh :
  forall oob hyst n min range p0 cs p1 s p2 xs p3 q v,
  (N.of_nat (length cs) + N.of_nat (length xs) + 1 < 2 ^ 64)%N ->
  pd_make hyst n min range = Some p0 -> pd_calls oob p0 cs = Some p1 ->
  pd_step oob p1 s = Some p2 -> z_state (p_zc p1) = true -> z_state (p_zc p2) = false ->
  pd_run oob p2 xs = Some p3 -> pd_predict p3 = Some (q, v) -> predicts p3 v.
Proof.
  intros oob hyst n min range p0 cs p1 s p2 xs p3 q v L E0 E1 E2 S1 S2 E3 E4.
  apply (predict_after_edge oob hyst n min range p0 cs p1 s p2 xs p3 q v L E0 E1 E2); [|exact E3|exact E4].
  unfold fell. rewrite S1, S2. reflexivity.
Qed.
Print Assumptions C08_prediction_fresh.
(** ... and it is repeated until another pulse ends. *)
Theorem C08_prediction_repeated :
  forall oob p q v, pd_predict p = Some (q, v) ->
  pd_predict q = Some (q, v) /\
  forall s r, pd_step oob q s = Some r -> (z_state (p_zc q) = false \/ z_state (p_zc r) = true) -> pd_predict r = Some (r, v).
Proof.
  intros oob p q v P. split; [exact (predict_again p q v P)|]. intros s r S F. apply (predict_kept oob p q v s r P S).
  unfold fell. destruct F as [-> | ->]; [reflexivity|apply andb_false_r].
Qed.
Print Assumptions C08_prediction_repeated.
(** The fundamental changes only when a window has been analysed; a restart of the edge collector
    clears it. *)
Theorem C08_fundamental_kept :
  forall oob p s q, pd_step oob p s = Some q -> z_ready (p_zc q) = false ->
  if zc_is_reset (p_zc q) then p_period q = z32 (-1) /\ p_periodicity q = fzero
  else p_period q = p_period p /\ p_periodicity q = p_periodicity p.
Proof. intros oob p s q S R. destruct (step_mutable oob p s q S) as (_ & _ & _ & H). exact (H R). Qed.
Print Assumptions C08_fundamental_kept.

(** a square wave of period 20: after 100 samples the prediction is 20, and the step at sample 40
    ended a pulse *)
Example C08_prediction_witness :
  match pd_ex (fun _ => 0%Z) (square20 40), pd_ex (fun _ => 0%Z) (square20 41), pd_ex (fun _ => 0%Z) (square20 100) with
  | Some p1, Some p2, Some p3 => z_state (p_zc p1) && negb (z_state (p_zc p2)) &&
      match pd_predict p3 with Some (_, v) => feq v (mk32 20 0) | None => false end
  | _, _, _ => false end%bool = true.
Proof. vm_compute. reflexivity. Qed.
