(** Specification vocabulary for the period detector.  [W] is the window size. *)
From Flocq Require Import Core.Core IEEE754.BinarySingleNaN.
From Verif Require Import Common Float Bitset_Model Bitset_Spec Zc_Model PD_Model.

Section Spec.
Variable W : N.
(** mismatches counted at a lag *)
Definition cnt (b : list N) (lag : N) : N := countN (mismatch 64 b lag) (N.to_nat (N.max (W / 64 / 2 - 1) 1 * 64)).
(** the lag that is finally used *)
Definition lag_ok (b : list N) (dist count lag : N) : Prop :=
  (2 * lag <= W)%N /\ count = cnt b lag /\ (count <= cnt b dist)%N /\ ((32 <= dist)%N -> lag = dist).
(** the edges that take part in the analysis *)
Definition qualifies (p : pd) (i : N) (P : zinfo -> bool) : bool :=
  match zc_at (p_zc p) i with Some e => fge (zi_peak e) (pd_threshold p) && P e | None => false end.
Definition some_edge (p : pd) (P : zinfo -> bool) : bool :=
  existsb (fun q => qualifies p (N.of_nat q) P) (seq 0 (N.to_nat (z_num (p_zc p)))).
(** bits(): bit j is set exactly when a qualifying pulse covers it -- or one has
    already left the window *)
Definition covers (j : N) (e : zinfo) : bool :=
  ((zi_trail e <? 0) || ((zi_lead e <=? Z.of_N j) && (Z.of_N j <? zi_trail e)))%Z.
Definition bits_spec (p : pd) : Prop :=
  (forall j, (j < W)%N -> bs_get 64 (p_bits p) j = Some (some_edge p (covers j))) /\
  p_pulses p = N.of_nat (length (filter (fun q => qualifies p (N.of_nat q) (fun _ => true)) (seq 0 (N.to_nat (z_num (p_zc p)))))) /\
  p_half_empty p = (negb (some_edge p (fun e => (0 <=? zi_lead e) && (zi_lead e <=? Z.of_N (W / 2)))%Z) ||
                    negb (some_edge p (fun e => negb ((0 <=? zi_trail e) && (zi_trail e <? Z.of_N (W / 2)))%Z)))%bool.

(** a pair of edges that is examined, at distance [dist] *)
Definition candidate (p : pd) (i j : N) (e f : zinfo) (dist : N) : Prop :=
  (i < j < z_num (p_zc p))%N /\ zc_at (p_zc p) i = Some e /\ zc_at (p_zc p) j = Some f /\
  fge (zi_peak e) (pd_threshold p) = true /\ fge (zi_peak f) (pd_threshold p) = true /\
  Z.of_N dist = (zi_lead f - zi_lead e)%Z /\ (p_min p <= dist)%N /\ (2 * dist <= W)%N.
(** what fundamental() can be after an analysis *)
Definition fund_spec (oob : f32 -> Z) (p : pd) : Prop :=
  (* too few pulses *)
  (p_periodicity p = z32 (-1) /\ (p_half_empty p = true \/ (p_pulses p < 2)%N)) \/
  (* no candidate pair, or the first one is a false correlation *)
  (p_period p = z32 (-1) /\ p_periodicity p = fzero /\
   ((forall i j e f dist, ~ candidate p i j e f dist) \/
    exists i j e f dist, candidate p i j e f dist /\ cnt (p_bits p) dist = 0%N /\ cnt (p_bits p) (dist / 2) = 0%N)) \/
  (* a candidate pair: its distance divided by a harmonic number, and its periodicity *)
  exists i j e f dist count lag hm per,
    candidate p i j e f dist /\ lag_ok (p_bits p) dist count lag /\
    zi_frac_period e f = Some per /\ p_period p = fdiv per (z32 (Z.of_N hm)) /\
    ((1 <= p_range p < 2 ^ 31)%Z -> (forall x, (1 <= oob x)%Z) -> (1 <= Z.of_N hm <= p_range p)%Z) /\
    p_periodicity p = fsub (z32 1) (fmul (z32 (Z.of_N count)) (p_weight p)).
(** predict_period(): -1, or the distance of two edges *)
Definition pred_spec (p : pd) (v : f32) : Prop :=
  v = z32 (-1) \/ exists i j e f, (i < j < z_num (p_zc p))%N /\ zc_at (p_zc p) i = Some e /\ zc_at (p_zc p) j = Some f /\
    zi_frac_period e f = Some v /\ fgt v (z32 (Z.of_N (p_min p))) = true.
End Spec.

(** the samples of a history of calls *)
Fixpoint samples (cs : list pd_call) : list f32 :=
  match cs with [] => [] | Sample s :: t => s :: samples t | Predict :: t => samples t end.
(** edge [i] is at least as high as the pulse threshold *)
Definition strong (p : pd) (i : N) (e : zinfo) : Prop :=
  (i < z_num (p_zc p))%N /\ zc_at (p_zc p) i = Some e /\ fge (zi_peak e) (pd_threshold p) = true.
(** [v] is what the present edges predict: the distance between the latest strong edge and the
    latest strong edge before it that is more than the minimum period away; -1 if there is none *)
Definition long_before (p : pd) (f : zinfo) (j : N) (v : f32) : Prop :=
  exists e, strong p j e /\ zi_frac_period e f = Some v /\ fgt v (z32 (Z.of_N (p_min p))) = true.
Definition predicts (p : pd) (v : f32) : Prop :=
  (exists i f, (1 <= i)%N /\ strong p i f /\ (forall k g, (i < k)%N -> ~ strong p k g) /\
     ((exists j, (j < i)%N /\ long_before p f j v /\ forall k w, (j < k < i)%N -> ~ long_before p f k w) \/
      (v = z32 (-1) /\ forall k w, (k < i)%N -> ~ long_before p f k w))) \/
  (v = z32 (-1) /\ forall k g, (1 <= k)%N -> ~ strong p k g).
