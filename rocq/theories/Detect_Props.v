(** Properties C13, C24, C25, C26, C27, C39.  Theorems only. *)
From Verif Require Import Common Ring_Model MovSum_Model Detect_Model Detect_Spec Detect_Proof.

(** C13: every output of the median filter is a median of the last three inputs (the
    initial value standing in for the missing ones), for any totally preordered
    sample type (floats without NaN). *)
Theorem C13_median3 :
  forall (F : Type) (lt : F -> F -> bool),
  (forall x y, lt y x = false \/ lt x y = false) ->
  (forall x y z, lt y x = false -> lt z y = false -> lt z x = false) ->
  forall (xs : list F) (init : F) (t : nat) (a : F),
  nth_error xs t = Some a ->
  exists m, nth_error (run (median_step lt) (init, init) xs) t = Some m /\
    is_median lt m a (nth t (init :: xs) init) (nth t (init :: init :: xs) init).
Proof. exact (fun F lt H1 H2 xs i => median_run_spec lt H1 H2 xs i i). Qed.
Print Assumptions C13_median3.

Example C13_example :
  (forall x y, Z.ltb y x = false \/ Z.ltb x y = false) /\
  (forall x y z, Z.ltb y x = false -> Z.ltb z y = false -> Z.ltb z x = false) /\
  run (median_step Z.ltb) (0, 0)%Z [5; 3; 9; -2; 4; 4]%Z = [0; 3; 5; 3; 4; 4]%Z /\
  is_median Z.ltb 3%Z 9%Z 3%Z (-2)%Z.
Proof.
  split; [intros; lia|]. split; [intros; lia|]. split; [vm_compute; reflexivity|].
  vm_compute. repeat split; auto.
Qed.

(** C24 (gate without attack window): open at t iff some earlier sample exceeded the
    onset threshold and none since fell below the release threshold. *)
Theorem C24_noise_gate :
  forall (F : Type) (lt : F -> F -> bool) (onset release : F) (envs : list F),
  (forall e, In e envs -> lt onset e && lt e release = false) ->
  forall t y, nth_error (run (gate_step lt onset release) false envs) t = Some y ->
    (y = true <-> latch_on (fun e => lt onset e) (fun e => lt e release) false envs t).
Proof. exact @gate_latch. Qed.
Print Assumptions C24_noise_gate.

Example C24_example :
  run (gate_step Z.ltb 10%Z 5%Z) false [0; 7; 11; 7; 5; 4; 7; 12]%Z =
  [false; false; true; true; true; false; false; true] /\
  (forall e, In e [0; 7; 11; 7; 5; 4; 7; 12]%Z -> Z.ltb 10%Z e && Z.ltb e 5%Z = false).
Proof. split; [reflexivity|]. intros e He. lia. Qed.

(** C25: comparator outputs are exactly the latch "last decisive input": on iff some
    earlier input was decisively up and none since decisively down. *)
Theorem C25_schmitt_trigger :
  forall (F : Type) (lt : F -> F -> bool) (add sub : F -> F -> F) (h : F) (evs : list (F * F)),
  let up (e : F * F) := lt (add (snd e) h) (fst e) in
  let down (e : F * F) := lt (fst e) (sub (snd e) h) in
  (forall e, In e evs -> up e && down e = false) ->
  forall t y, nth_error (run (schmitt_step lt add sub h) false evs) t = Some y ->
    (y = true <-> latch_on up down false evs t).
Proof. exact @schmitt_latch. Qed.
Print Assumptions C25_schmitt_trigger.

Theorem C25_window_comparator :
  forall (F : Type) (lt : F -> F -> bool) (low high : F) (init : bool) (evs : list F),
  let up s := lt high s in
  let down s := lt s low in
  (forall e, In e evs -> up e && down e = false) ->
  forall t y, nth_error (run (window_step lt low high) init evs) t = Some y ->
    (y = true <-> latch_on up down init evs t).
Proof. exact @window_latch. Qed.
Print Assumptions C25_window_comparator.

Example C25_example :
  run (schmitt_step Z.ltb Z.add Z.sub 2%Z) false [(1,0); (3,0); (0,0); (-2,0); (-3,0); (2,0)]%Z =
  [false; true; true; true; false; false] /\
  (forall e, In e [(1,0); (3,0); (0,0); (-2,0); (-3,0); (2,0)]%Z ->
     Z.ltb (snd e + 2)%Z (fst e) && Z.ltb (fst e) (snd e - 2)%Z = false) /\
  run (window_step Z.ltb (-5)%Z 5%Z) true [0; -6; 0; 6; 5; -5; -7]%Z =
  [true; false; false; true; true; true; false].
Proof.
  split; [reflexivity|]. split; [|reflexivity]. intros e He. cbn in He.
  destruct He as [<-|[<-|[<-|[<-|[<-|[<-|[]]]]]]]; reflexivity.
Qed.

(** C39: zero_cross and peak are the same latch on their own thresholds. *)
Theorem C39_zero_cross :
  forall (F : Type) (lt : F -> F -> bool) (add sub : F -> F -> F) (zero h : F) (evs : list F),
  let up s := lt (add zero h) s in
  let down s := lt s (sub zero h) in
  (forall e, In e evs -> up e && down e = false) ->
  forall t y, nth_error (run (zero_cross_step lt add sub zero h) false evs) t = Some y ->
    (y = true <-> latch_on up down false evs t).
Proof. exact @zero_cross_latch. Qed.
Print Assumptions C39_zero_cross.

Theorem C39_peak :
  forall (F : Type) (lt : F -> F -> bool) (add sub mul : F -> F -> F) (sens h : F) (evs : list (F * F)),
  let up (e : F * F) := lt (add (mul (snd e) sens) h) (fst e) in
  let down (e : F * F) := lt (fst e) (sub (mul (snd e) sens) h) in
  (forall e, In e evs -> up e && down e = false) ->
  forall t y, nth_error (run (peak_step lt add sub mul sens h) false evs) t = Some y ->
    (y = true <-> latch_on up down false evs t).
Proof. exact @peak_latch. Qed.
Print Assumptions C39_peak.

Example C39_example :
  run (zero_cross_step Z.ltb Z.add Z.sub 0%Z 2%Z) false [1; 3; -1; -3; 5]%Z = [false; true; true; false; true] /\
  run (peak_step Z.ltb Z.add Z.sub Z.mul 2%Z 1%Z) false [(5, 2); (4, 2); (2, 2); (9, 4)]%Z = [false; false; false; false] /\
  run (peak_step Z.ltb Z.add Z.sub Z.mul 1%Z 1%Z) false [(5, 2); (4, 4); (2, 4); (9, 4)]%Z = [true; true; false; true].
Proof. repeat split. Qed.

(** C26: for every pulse length n >= 1 and every input the monostable produces pulses
    of exactly n samples; n = 0 never fires. *)
Theorem C26_monostable :
  forall (n : N) (xs : list bool), (1 <= n)%N -> pulses (N.to_nat n) xs (run (mono_step n) 0%N xs).
Proof. exact (fun n xs H => mono_pulses n H (length xs) xs (le_n _)). Qed.
Print Assumptions C26_monostable.

Theorem C26_monostable_zero :
  forall xs : list bool, run (mono_step 0) 0%N xs = repeat false (length xs).
Proof. exact mono_zero. Qed.
Print Assumptions C26_monostable_zero.

Theorem C26_rising_edge :
  forall (xs : list bool) (st : bool) (t : nat) (v : bool), nth_error xs t = Some v ->
    nth_error (run edge_step st xs) t = Some (v && negb (nth t (st :: xs) false)).
Proof. exact edge_spec. Qed.
Print Assumptions C26_rising_edge.

Example C26_example :
  run (mono_step 3) 0%N [false; true; false; true; true; true; false; true] =
  [false; true; true; true; false; true; true; true] /\
  run edge_step false [true; true; false; true] = [true; false; false; true].
Proof. split; reflexivity. Qed.

(** C27: differences and sums, for every interpretation of the arithmetic (so with the
    code's float rounding). *)
Theorem C27_differentiator :
  forall (F : Type) (sub : F -> F -> F) (xs : list F) (z : F) (t : nat) (s : F),
  nth_error xs t = Some s ->
  nth_error (run (diff_step sub) z xs) t = Some (sub s (past z xs t 1)).
Proof. exact (fun F sub => @diff_run_spec F sub sub sub (fun x => x) (fun x => x)). Qed.
Print Assumptions C27_differentiator.

Theorem C27_central_difference :
  forall (F : Type) (sub : F -> F -> F) (half : F -> F) (xs : list F) (z1 z2 : F) (t : nat) (s : F),
  nth_error xs t = Some s ->
  nth_error (run (cdiff_step sub half) (z1, z2) xs) t =
  Some (half (sub s (if t <? 2 then (if t =? 0 then z2 else z1) else nth (t - 2) xs z1))).
Proof. exact (fun F sub half => @cdiff_run_spec F sub sub sub half half). Qed.
Print Assumptions C27_central_difference.

Theorem C27_fast_downsample :
  forall (F : Type) (add : F -> F -> F) (half quarter : F -> F) (xs : list (F * F)) (z : F) (t : nat) (s1 s2 : F),
  nth_error xs t = Some (s1, s2) ->
  nth_error (run (downsample_step add half quarter) z xs) t =
  Some (add (add (if t =? 0 then z else quarter (snd (nth (t - 1) xs (s1, s2)))) (half s1)) (quarter s2)).
Proof. exact (fun F add half quarter => @downsample_run_spec F add add add half quarter). Qed.
Print Assumptions C27_fast_downsample.

Theorem C27_integrator :
  forall (F : Type) (add mul : F -> F -> F) (gain : F) (xs : list F) (y : F) (t : nat), t < length xs ->
  nth_error (run (integ_step add mul gain) y xs) t =
  Some (fold_left (fun a s => add a (mul gain s)) (firstn (S t) xs) y).
Proof. exact (fun F add mul => @integ_run_spec F add add mul (fun x => x) (fun x => x)). Qed.
Print Assumptions C27_integrator.

Example C27_example :
  run (diff_step Z.sub) 0%Z [3; 5; 1]%Z = [3; 2; -4]%Z /\
  run (cdiff_step Z.sub (fun x => x / 2)%Z) (0, 0)%Z [2; 4; 10]%Z = [1; 2; 4]%Z /\
  run (integ_step Z.add Z.mul 2%Z) 0%Z [3; 2; -4]%Z = [6; 10; 2]%Z /\
  run (downsample_step Z.add (fun x => x / 2) (fun x => x / 4))%Z 0%Z [(8, 4); (16, 8)]%Z = [5; 11]%Z.
Proof. repeat split. Qed.
