From Verif Require Import Common CommonFacts Ring_Model Ring_Spec Ring_Proof MovSum_Model MovSum_Spec MovSum_Proof Detect_Model Detect_Spec.

Section Latch.
Context {E : Type} (up down : E -> bool).
Variable step : bool -> E -> bool * bool.
(** what all the two-threshold machines have in common on inputs that are not both
    "up" and "down" *)
Hypothesis step_spec : forall y e, up e && down e = false ->
  step y e = ((if up e then true else if down e then false else y),
              (if up e then true else if down e then false else y)).

Lemma latch_run evs : forall init, (forall e, In e evs -> up e && down e = false) ->
  forall t y, nth_error (run step init evs) t = Some y -> (y = true <-> latch_on up down init evs t).
Proof.
  induction evs as [|e evs IH]; intros init Hex t y Hy; [destruct t; discriminate|].
  cbn [run] in Hy. rewrite step_spec in Hy by (apply Hex; left; reflexivity).
  pose proof (Hex e (or_introl eq_refl)) as He.
  set (y0 := if up e then true else if down e then false else init) in *.
  assert (H0 : y0 = true <-> up e = true \/ (init = true /\ down e = false)).
  { subst y0. destruct (up e), (down e), init; cbn in *; intuition congruence. }
  destruct t as [|t]; cbn [nth_error] in Hy.
  - injection Hy as <-. rewrite H0. split.
    + intros [Hu|[Hi Hd]].
      * left. exists 0, e. repeat split; auto. intros r e' Hr. lia.
      * right. split; auto. intros r e' Hr Hn. assert (r = 0) by lia. subst r. cbn in Hn. congruence.
    + intros [(s & e1 & Hs & Hle & Hu & _)|[Hi Hd]].
      * assert (s = 0) by lia. subst s. cbn in Hs. left. congruence.
      * right. split; auto. apply (Hd 0 e); auto.
  - specialize (IH y0 (fun e' H => Hex e' (or_intror H)) t y Hy). rewrite IH. split.
    + intros [(s & e1 & Hs & Hle & Hu & Hd)|[Hi Hd]].
      * left. exists (S s), e1. repeat split; auto; [lia|]. intros [|r] e' Hr Hn; [lia|].
        apply (Hd r e'); [lia|exact Hn].
      * apply H0 in Hi. destruct Hi as [Hu|[Hi Hd0]].
        -- left. exists 0, e. repeat split; auto; [lia|]. intros [|r] e' Hr Hn; [lia|]. apply (Hd r e'); [lia|exact Hn].
        -- right. split; auto. intros [|r] e' Hr Hn; [cbn in Hn; congruence|]. apply (Hd r e'); [lia|exact Hn].
    + intros [(s & e1 & Hs & Hle & Hu & Hd)|[Hi Hd]].
      * destruct s as [|s].
        -- cbn in Hs. injection Hs as ->. right. split; [apply H0; auto|].
           intros r e' Hr Hn. apply (Hd (S r) e'); [lia|exact Hn].
        -- left. exists s, e1. repeat split; auto; [lia|]. intros r e' Hr Hn. apply (Hd (S r) e'); [lia|exact Hn].
      * right. split.
        -- apply H0. right. split; auto. apply (Hd 0 e); [lia|reflexivity].
        -- intros r e' Hr Hn. apply (Hd (S r) e'); [lia|exact Hn].
Qed.
End Latch.

Section Det.
Context {F : Type} (lt : F -> F -> bool) (add sub mul : F -> F -> F) (zero : F).

Lemma schmitt_latch (h : F) evs :
  let up (e : F * F) := lt (add (snd e) h) (fst e) in
  let down (e : F * F) := lt (fst e) (sub (snd e) h) in
  (forall e, In e evs -> up e && down e = false) ->
  forall t y, nth_error (run (schmitt_step lt add sub h) false evs) t = Some y ->
    (y = true <-> latch_on up down false evs t).
Proof.
  intros up down Hex. apply latch_run; auto.
  intros y [p n] H. unfold schmitt_step, gt. unfold up, down in *. cbn [fst snd] in *.
  destruct (lt (add n h) p), (lt p (sub n h)), y; cbn in *; congruence.
Qed.

Lemma window_latch low high init evs :
  let up s := lt high s in
  let down s := lt s low in
  (forall e, In e evs -> up e && down e = false) ->
  forall t y, nth_error (run (window_step lt low high) init evs) t = Some y ->
    (y = true <-> latch_on up down init evs t).
Proof.
  intros up down Hex. apply latch_run; auto.
  intros y s H. unfold window_step, gt. unfold up, down in *.
  destruct (lt s low), (lt high s), y; cbn in *; congruence.
Qed.

Lemma gate_latch onset release evs :
  let up s := lt onset s in
  let down s := lt s release in
  (forall e, In e evs -> up e && down e = false) ->
  forall t y, nth_error (run (gate_step lt onset release) false evs) t = Some y ->
    (y = true <-> latch_on up down false evs t).
Proof.
  intros up down Hex. apply latch_run; auto.
  intros y s H. unfold gate_step, gt. unfold up, down in *.
  destruct (lt s release), (lt onset s), y; cbn in *; congruence.
Qed.

Lemma zero_cross_latch h evs :
  let up s := lt (add zero h) s in
  let down s := lt s (sub zero h) in
  (forall e, In e evs -> up e && down e = false) ->
  forall t y, nth_error (run (zero_cross_step lt add sub zero h) false evs) t = Some y ->
    (y = true <-> latch_on up down false evs t).
Proof.
  intros up down Hex. apply latch_run; auto.
  intros y s H. unfold zero_cross_step, schmitt_step, gt. unfold up, down in *.
  destruct (lt (add zero h) s), (lt s (sub zero h)), y; cbn in *; congruence.
Qed.

Lemma peak_latch sens h evs :
  let up (e : F * F) := lt (add (mul (snd e) sens) h) (fst e) in
  let down (e : F * F) := lt (fst e) (sub (mul (snd e) sens) h) in
  (forall e, In e evs -> up e && down e = false) ->
  forall t y, nth_error (run (peak_step lt add sub mul sens h) false evs) t = Some y ->
    (y = true <-> latch_on up down false evs t).
Proof.
  intros up down Hex. apply latch_run; auto.
  intros y [s e] H. unfold peak_step, schmitt_step, gt. unfold up, down in *. cbn [fst snd] in *.
  destruct (lt (add (mul e sens) h) s), (lt s (sub (mul e sens) h)), y; cbn in *; congruence.
Qed.
End Det.

(** ---- monostable ---- *)
Lemma mono_ticks n xs : forall k, run (mono_step n) k xs =
  if (k =? 0)%N then run (mono_step n) 0%N xs
  else match xs with [] => [] | _ :: t => negb (k - 1 =? 0)%N :: run (mono_step n) (k - 1)%N t end.
Proof.
  intros k. destruct (N.eqb_spec k 0) as [->|Hk]; [reflexivity|].
  destruct xs as [|x xs]; [reflexivity|]. cbn [run]. unfold mono_step at 1.
  destruct (N.eqb_spec k 0); [lia|]. reflexivity.
Qed.

(** from k ticks (k>=1): k-1 trues, one false, then idle *)
Lemma mono_tail n k : forall xs, (1 <= k)%N ->
  run (mono_step n) k xs =
  if length xs <? N.to_nat k then repeat true (length xs)
  else repeat true (N.to_nat k - 1) ++ false :: run (mono_step n) 0%N (skipn (N.to_nat k) xs).
Proof.
  induction k as [|k IH] using N.peano_ind; intros xs Hk; [lia|].
  rewrite mono_ticks. destruct (N.eqb_spec (N.succ k) 0); [lia|].
  destruct xs as [|x xs].
  - cbn [length]. destruct (Nat.ltb_spec 0 (N.to_nat (N.succ k))); [reflexivity|lia].
  - replace (N.succ k - 1)%N with k by lia. cbn [length].
    replace (N.to_nat (N.succ k)) with (S (N.to_nat k)) by lia.
    destruct (N.eq_dec k 0) as [->|Hk0].
    + change (N.to_nat 0) with 0. cbn [skipn].
      destruct (Nat.ltb_spec (S (length xs)) 1); [lia|]. reflexivity.
    + rewrite IH by lia. cbn [skipn].
      destruct (N.eqb_spec k 0); [lia|]. cbn [negb].
      destruct (Nat.ltb_spec (length xs) (N.to_nat k)), (Nat.ltb_spec (S (length xs)) (S (N.to_nat k))); try lia.
      * reflexivity.
      * replace (S (N.to_nat k) - 1) with (S (N.to_nat k - 1)) by lia. reflexivity.
Qed.

Lemma mono_pulses n : (1 <= n)%N -> forall m xs, length xs <= m ->
  pulses (N.to_nat n) xs (run (mono_step n) 0%N xs).
Proof.
  intros Hn m. induction m as [|m IH]; intros xs Hl.
  - destruct xs; [constructor|cbn in Hl; lia].
  - destruct xs as [|[|] xs]; [constructor| |].
    + cbn [run]. unfold mono_step at 1. cbn [N.eqb].
      change (0 =? 0)%N with true. cbv iota. destruct (N.eqb_spec n 0); [lia|]. cbn [negb].
      rewrite mono_tail by auto.
      destruct (Nat.ltb_spec (length xs) (N.to_nat n)) as [Hc|Hc].
      * change (true :: repeat true (length xs)) with (repeat true (S (length xs))).
        apply pulses_cut. exact Hc.
      * replace (true :: repeat true (N.to_nat n - 1) ++ false :: run (mono_step n) 0%N (skipn (N.to_nat n) xs))
          with (repeat true (N.to_nat n) ++ false :: run (mono_step n) 0%N (skipn (N.to_nat n) xs)).
        -- rewrite <- (firstn_skipn (N.to_nat n) xs) at 1. apply pulses_full.
           ++ rewrite firstn_length. lia.
           ++ apply IH. rewrite skipn_length. cbn [length] in Hl. lia.
        -- destruct (N.to_nat n) as [|q] eqn:Eq; [lia|]. cbn [repeat app]. do 3 f_equal. lia.
    + cbn [run]. unfold mono_step at 1. change (0 =? 0)%N with true. cbv iota.
      constructor. apply IH. cbn [length] in Hl. lia.
Qed.

Lemma mono_zero xs : run (mono_step 0) 0%N xs = repeat false (length xs).
Proof.
  induction xs as [|x xs IH]; [reflexivity|]. cbn [run]. unfold mono_step at 1.
  change (0 =? 0)%N with true. cbv iota. replace (if x then 0%N else 0%N) with 0%N by (destruct x; reflexivity).
  rewrite IH. reflexivity.
Qed.

Lemma edge_spec xs : forall st t v, nth_error xs t = Some v ->
  nth_error (run edge_step st xs) t = Some (v && negb (nth t (st :: xs) false)).
Proof.
  induction xs as [|x xs IH]; intros st t v H; [destruct t; discriminate|].
  cbn [run]. unfold edge_step at 1. destruct t as [|t]; cbn [nth_error nth] in *.
  - injection H as ->. destruct v, st; reflexivity.
  - rewrite (IH x t v H). reflexivity.
Qed.

(** ---- median ---- *)
Section Med.
Context {F : Type} (lt : F -> F -> bool).
Hypothesis total : forall x y, lt y x = false \/ lt x y = false.
Hypothesis trans : forall x y z, lt y x = false -> lt z y = false -> lt z x = false.

Lemma median3f_spec a b c : is_median lt (median3f lt a b c) a b c.
Proof.
  unfold is_median, median3f, fmax, fmin. cbn [filter length].
  pose proof (total a a) as Ta; pose proof (total b b) as Tb; pose proof (total c c) as Tc.
  assert (Iab := total a b). assert (Ibc := total b c). assert (Iac := total a c).
  pose proof (trans a b c) as T1; pose proof (trans a c b) as T2; pose proof (trans b a c) as T3;
  pose proof (trans b c a) as T4; pose proof (trans c a b) as T5; pose proof (trans c b a) as T6.
  assert (Ra : lt a a = false) by (destruct Ta; auto).
  assert (Rb : lt b b = false) by (destruct Tb; auto).
  assert (Rc : lt c c = false) by (destruct Tc; auto).
  clear Ta Tb Tc.
  destruct (lt a b) eqn:E1, (lt b a) eqn:E2;
    [exfalso; destruct Iab; discriminate| | |];
  (destruct (lt a c) eqn:E3, (lt c a) eqn:E4; [exfalso; destruct Iac; discriminate| | |]);
  (destruct (lt b c) eqn:E5, (lt c b) eqn:E6; [exfalso; destruct Ibc; discriminate| | |]);
  try (exfalso; discriminate (T1 eq_refl eq_refl)); try (exfalso; discriminate (T2 eq_refl eq_refl));
  try (exfalso; discriminate (T3 eq_refl eq_refl)); try (exfalso; discriminate (T4 eq_refl eq_refl));
  try (exfalso; discriminate (T5 eq_refl eq_refl)); try (exfalso; discriminate (T6 eq_refl eq_refl));
  clear - Ra Rb Rc E1 E2 E3 E4 E5 E6;
  repeat first [rewrite E1 | rewrite E2 | rewrite E3 | rewrite E4 | rewrite E5 | rewrite E6
                 | rewrite Ra | rewrite Rb | rewrite Rc]; cbn [negb length];
    (split; [auto|split; repeat constructor]).
Qed.

Lemma median_run_spec xs : forall b c t a,
  nth_error xs t = Some a ->
  exists m, nth_error (run (median_step lt) (b, c) xs) t = Some m /\
    is_median lt m a (nth t (b :: xs) b) (nth t (c :: b :: xs) c).
Proof.
  induction xs as [|x xs IH]; intros b c t a H; [destruct t; discriminate|].
  cbn [run median_step]. destruct t as [|t].
  - cbn in H. injection H as ->. cbn [nth_error nth]. eexists; split; [reflexivity|]. apply median3f_spec.
  - cbn [nth_error] in H |- *. destruct (IH x b t a H) as (m & E & Hm). exists m. split; [exact E|].
    assert (Ht : t < length xs) by (apply nth_error_Some; congruence).
    change (nth (S t) (b :: x :: xs) b) with (nth t (x :: xs) b).
    change (nth (S t) (c :: b :: x :: xs) c) with (nth t (b :: x :: xs) c).
    rewrite (nth_indep (x :: xs) b x) by (cbn [length]; lia).
    rewrite (nth_indep (b :: x :: xs) c b) by (cbn [length]; lia). exact Hm.
Qed.
End Med.

(** ---- differences ---- *)
Section LinP.
Context {F : Type} (add sub mul : F -> F -> F) (half quarter : F -> F).
Lemma diff_run_spec xs : forall z t s, nth_error xs t = Some s ->
  nth_error (run (diff_step sub) z xs) t = Some (sub s (past z xs t 1)).
Proof.
  induction xs as [|x xs IH]; intros z t s H; [destruct t; discriminate|].
  cbn [run]. unfold diff_step at 1. destruct t as [|t]; cbn [nth_error] in *.
  - injection H as ->. reflexivity.
  - rewrite (IH x t s H). f_equal. f_equal. unfold past.
    assert (Ht : t < length xs) by (apply nth_error_Some; congruence).
    destruct t as [|t]; [reflexivity|]. cbn [Nat.leb Nat.sub]. rewrite Nat.sub_0_r.
    cbn [nth]. apply nth_indep. lia.
Qed.
Lemma cdiff_run_spec xs : forall z1 z2 t s, nth_error xs t = Some s ->
  nth_error (run (cdiff_step sub half) (z1, z2) xs) t =
  Some (half (sub s (if t <? 2 then (if t =? 0 then z2 else z1) else nth (t - 2) xs z1))).
Proof.
  induction xs as [|x xs IH]; intros z1 z2 t s H; [destruct t; discriminate|].
  cbn [run]. unfold cdiff_step at 1. destruct t as [|t]; cbn [nth_error fst snd] in *.
  - injection H as ->. reflexivity.
  - rewrite (IH x z1 t s H). f_equal. f_equal. f_equal.
    assert (Ht : t < length xs) by (apply nth_error_Some; congruence).
    destruct t as [|[|t]]; [reflexivity|reflexivity|].
    change (S (S t) <? 2) with false. change (S (S (S t)) <? 2) with false. cbv iota.
    replace (S (S t) - 2) with t by lia. replace (S (S (S t)) - 2) with (S t) by lia.
    cbn [nth]. apply nth_indep. lia.
Qed.
Lemma downsample_run_spec xs : forall z t s1 s2, nth_error xs t = Some (s1, s2) ->
  nth_error (run (downsample_step add half quarter) z xs) t =
  Some (add (add (if t =? 0 then z else quarter (snd (nth (t - 1) xs (s1, s2)))) (half s1)) (quarter s2)).
Proof.
  induction xs as [|x xs IH]; intros z t s1 s2 H; [destruct t; discriminate|].
  cbn [run]. unfold downsample_step at 1. destruct t as [|t]; cbn [nth_error fst snd] in *.
  - injection H as ->. reflexivity.
  - rewrite (IH _ t s1 s2 H). f_equal. f_equal. f_equal. cbn [Nat.eqb].
    destruct t as [|t]; [reflexivity|]. cbn [Nat.eqb]. replace (S t - 1) with t by lia.
    replace (S (S t) - 1) with (S t) by lia. reflexivity.
Qed.
Lemma integ_run_spec gain xs : forall y t, t < length xs ->
  nth_error (run (integ_step add mul gain) y xs) t =
  Some (fold_left (fun a s => add a (mul gain s)) (firstn (S t) xs) y).
Proof.
  induction xs as [|x xs IH]; intros y t H; [cbn in H; lia|].
  cbn [run]. unfold integ_step at 1. destruct t as [|t]; [reflexivity|].
  cbn [nth_error]. rewrite IH by (cbn in H; lia). reflexivity.
Qed.
End LinP.
