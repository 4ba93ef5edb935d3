(** Property C03 (fractional delay in binary32).  Theorems only. *)
From Coq Require Import Reals Lra.
From Flocq Require Import Core.Core IEEE754.BinarySingleNaN.
From Verif Require Import Common Ring_Model Ring_Spec Ring_Proof Float FloatFacts Frac_Model Frac_Spec Frac_Proof.

(** C03: a fractional delay asked for index i with floor(i) + 1 < capacity c returns the
    linear interpolation of the two neighbouring past samples, with the fractional part
    exact and one rounding per operation; the result lies between the two samples, and
    is the stored sample when i is integral. *)
Theorem C03_fractional_delay :
  forall (n : N) (calls : list (f32 * f32)), (n <= 2 ^ 63)%N ->
  Forall (fun e => is_finite (snd e) = true /\ (0 <= B2R (snd e) < bpow radix2 63)%R) calls ->
  exists r0 c ys, delay_make n = Some r0 /\ least_pow2_ge n c /\
    delay_run r0 calls = Some ys /\ length ys = length calls /\
    forall t x i, nth_error calls t = Some (x, i) ->
      let k := Zfloor (B2R i) in
      let y1 := tap fzero (map fst calls) t (Z.to_nat k) in
      let y2 := tap fzero (map fst calls) t (Z.to_nat k + 1) in
      (k + 1 < Z.of_N c)%Z ->
      is_finite y1 = true -> is_finite y2 = true ->
      (Rabs (B2R y1) <= bpow radix2 126)%R -> (Rabs (B2R y2) <= bpow radix2 126)%R ->
      exists y, nth_error ys t = Some y /\ is_finite y = true /\
        B2R y = rnd 24 128 (B2R y1 + rnd 24 128 ((B2R i - IZR k) * rnd 24 128 (B2R y2 - B2R y1))) /\
        (Rmin (B2R y1) (B2R y2) <= B2R y <= Rmax (B2R y1) (B2R y2))%R /\
        (B2R i = IZR k -> B2R y = B2R y1).
Proof.
  intros n calls Hn HF.
  destruct (gdelay_spec fzero to_size lerp (fun i => Z.to_N (Zfloor (B2R i))) n calls Hn) as (r0 & c & ys & E & L & Er & Ly & Hy).
  { eapply Forall_impl; [|exact HF]. intros a H. apply delay_idx. exact H. }
  exists r0, c, ys. split; [exact E|]. split; [exact L|]. split; [exact Er|]. split; [exact Ly|].
  intros t x i H k y1 y2 Hk F1 F2 B1 B2.
  assert (Hi : is_finite i = true /\ (0 <= B2R i < bpow radix2 63)%R).
  { apply (proj1 (Forall_forall _ _) HF (x, i)). eapply nth_error_In. exact H. }
  destruct Hi as (Fi & Hi0 & Hi1).
  assert (K0 : (0 <= k)%Z) by (apply Zfloor_lub; exact Hi0).
  specialize (Hy t x i H). fold k in Hy. rewrite !N.mod_small in Hy by lia.
  replace (N.to_nat (Z.to_N k)) with (Z.to_nat k) in Hy by lia.
  replace (N.to_nat (Z.to_N k + 1)) with (Z.to_nat k + 1) in Hy by lia.
  fold y1 in Hy. fold y2 in Hy. destruct (frac_mu_exact i Fi Hi0) as [Fm Em]. pose proof (frac_mu_range i Fi Hi0) as Rm.
  destruct (interp_between y1 y2 (frac_mu i) F1 F2 Fm B1 B2 Rm) as (Fy & Ey & By).
  eexists. split; [exact Hy|]. split; [exact Fy|]. split; [|split].
  - rewrite Em in Ey. exact Ey.
  - exact By.
  - intros Z. apply interp_zero; auto. rewrite Em. fold k. lra.
Qed.
Print Assumptions C03_fractional_delay.

(** C03, read without a hypothesis on the index: the two taps are taken modulo the
    capacity ... *)
Theorem C03_fractional_delay_wraps :
  forall (n : N) (calls : list (f32 * f32)), (n <= 2 ^ 63)%N ->
  Forall (fun e => is_finite (snd e) = true /\ (0 <= B2R (snd e) < bpow radix2 63)%R) calls ->
  exists r0 c ys, delay_make n = Some r0 /\ least_pow2_ge n c /\
    delay_run r0 calls = Some ys /\ length ys = length calls /\
    forall t x i, nth_error calls t = Some (x, i) ->
      let k := Z.to_N (Zfloor (B2R i)) in
      nth_error ys t = Some
        (linear_interpolate (tap fzero (map fst calls) t (N.to_nat (k mod c)))
                            (tap fzero (map fst calls) t (N.to_nat ((k + 1) mod c))) (frac_mu i)).
Proof.
  intros n calls Hn HF.
  apply (gdelay_spec fzero to_size lerp (fun i => Z.to_N (Zfloor (B2R i))) n calls Hn).
  eapply Forall_impl; [|exact HF]. intros a H. apply delay_idx. exact H.
Qed.
Print Assumptions C03_fractional_delay_wraps.

(** C03: without interpolation (sample_interpolation::none) the read at index i is the stored sample at floor(i). *)
Theorem C03_no_interpolation :
  forall (n : N) (xs : list f32) (i : f32), (n <= 2 ^ 63)%N -> is_finite i = true -> (0 <= B2R i < bpow radix2 63)%R ->
  exists r0 r c, delay_make n = Some r0 /\ rb_run fzero r0 (map OpPush xs) = Some r /\ least_pow2_ge n c /\
    gfrac_get_none to_size r i = Some (nth (N.to_nat (Z.to_N (Zfloor (B2R i)) mod c)) (rev xs) fzero).
Proof.
  intros n xs i Hn F B. destruct (delay_idx i (conj F B)) as [Es _].
  destruct (ring_buffer_history (fzero : f32) n xs Hn) as (r0 & r & c & E0 & Er & L & S & G).
  destruct (ring_buffer_refines (fzero : f32) n (map OpPush xs) Hn) as (r0' & r' & c' & E0' & Er' & L' & S' & Q).
  rewrite E0 in E0'. injection E0' as <-. rewrite Er in Er'. injection Er' as <-.
  assert (c' = c) by congruence. subst c'. cbn zeta in Q. destruct Q as (_ & Gl & _).
  assert (C0 : (0 < c)%N). { destruct L as (j & -> & _). apply N.neq_0_lt_0, N.pow_nonzero. discriminate. }
  exists r0, r, c. split; [exact E0|]. split; [exact Er|]. split; [exact L|].
  unfold gfrac_get_none. rewrite Es. cbn [bind].
  assert (M : (Z.to_N (Zfloor (B2R i)) mod c < c)%N) by (apply N.mod_lt; lia).
  rewrite <- (G _ M), !Gl, S, N.mod_mod by lia. reflexivity.
Qed.
Print Assumptions C03_no_interpolation.

(** ... so an index between the last slot and the capacity mixes the oldest sample with
    the newest: built for 4 samples, asked for 3.5 after 0,0,0,0,1, the answer is 0.5
    although samples 3 and 4 steps back are both 0. *)
Theorem C03_last_slot_refuted :
  exists (n : N) calls r0 ys y, delay_make n = Some r0 /\ delay_run r0 calls = Some ys /\
    nth_error (map snd calls) 5 = Some (mk32 7 (-1)) /\ n = 4%N /\
    tap fzero (map fst calls) 5 3 = fzero /\ tap fzero (map fst calls) 5 4 = fzero /\
    nth_error ys 5 = Some y /\ feq y (mk32 1 (-1)) = true.
Proof.
  set (z := fzero : f32).
  set (calls := [(z, z); (z, z); (z, z); (z, z); (mk32 1 0, z); (z, mk32 7 (-1))]).
  destruct (delay_run_test 4 calls (fun ys => match nth_error ys 5 with Some y => feq y (mk32 1 (-1)) | None => false end)) as (r0 & ys & E & Er & H).
  { vm_compute. reflexivity. }
  destruct (nth_error ys 5) as [y|] eqn:Ey; [|discriminate H].
  exists 4%N, calls, r0, ys, y. repeat (split; [first [exact E|exact Er|reflexivity|assumption]|]). exact H.
Qed.
Print Assumptions C03_last_slot_refuted.

Example C03_example :
  exists r0 ys, delay_make 4 = Some r0 /\
    delay_run r0 [(mk32 1 0, fzero); (mk32 2 0, fzero); (mk32 4 0, fzero); (fzero, mk32 3 (-1))] = Some ys /\
    match nth_error ys 3 with Some y => feq y (mk32 3 (-1)) | None => false end = true.
Proof. refine (delay_run_test 4 _ (fun ys => match nth_error ys 3 with Some y => feq y (mk32 3 (-1)) | None => false end) _). vm_compute; reflexivity. Qed.
