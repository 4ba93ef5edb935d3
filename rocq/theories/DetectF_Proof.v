(** Binary32 instances of the order hypotheses used by the comparators, the median and
    the moving maximum. *)
From Coq Require Import Reals Lra Psatz.
From Flocq Require Import Core.Core IEEE754.BinarySingleNaN.
From Verif Require Import Common CommonFacts Float FloatFacts Detect_Model Detect_Proof Detect_Spec MovMax_Model MovMax_Proof.
Local Open Scope R_scope.

Lemma flt_nan_l (x : f32) : flt B754_nan x = false. Proof. destruct x; reflexivity. Qed.
Lemma flt_nan_r (x : f32) : flt x B754_nan = false. Proof. destruct x as [[]|[]| |[] ? ? ?]; reflexivity. Qed.
Lemma flt_pinf_l (x : f32) : flt (B754_infinity false) x = false.
Proof. destruct x as [[]|[]| |[] ? ? ?]; reflexivity. Qed.
Lemma flt_ninf_r (x : f32) : flt x (B754_infinity true) = false.
Proof. destruct x as [[]|[]| |[] ? ? ?]; reflexivity. Qed.
Lemma flt_ninf_l (x : f32) : fin x -> flt (B754_infinity true) x = true.
Proof. destruct x as [[]|[]| |[] ? ? ?]; try discriminate; reflexivity. Qed.
Lemma flt_pinf_r (x : f32) : fin x -> flt x (B754_infinity false) = true.
Proof. destruct x as [[]|[]| |[] ? ? ?]; try discriminate; reflexivity. Qed.

(** [a + h < s] and [s < a - h] exclude each other for every a, s (NaN and infinities
    included) and every finite h >= 0 *)
Lemma hyst_excl (a h s : f32) : fin h -> 0 <= B2R h ->
  flt (fadd a h) s && flt s (fsub a h) = false.
Proof.
  intros Fh Hh. apply not_true_is_false. intros H. apply andb_prop in H. destruct H as [U D].
  assert (Fs : fin s).
  { destruct s as [b|[|]| |b m e W]; try reflexivity.
    - rewrite flt_ninf_r in U. discriminate.
    - rewrite flt_pinf_l in D. discriminate.
    - rewrite flt_nan_r in U. discriminate. }
  assert (Fa : fin a).
  { destruct a as [b|[|]| |b m e W]; try reflexivity.
    - assert (E : fsub (B754_infinity true) h = B754_infinity true) by (destruct h; try discriminate; reflexivity).
      rewrite E, flt_ninf_r in D. discriminate.
    - assert (E : fadd (B754_infinity false) h = B754_infinity false) by (destruct h; try discriminate; reflexivity).
      rewrite E, flt_pinf_l in U. discriminate.
    - assert (E : fadd B754_nan h = B754_nan) by (destruct h; reflexivity).
      rewrite E, flt_nan_l in U. discriminate. }
  pose proof (rnd_le (prec:=24) (emax:=128) (B2R a - B2R h) (B2R a + B2R h) ltac:(lra)) as M.
  pose proof (rnd_le (prec:=24) (emax:=128) (B2R a) (B2R a + B2R h) ltac:(lra)) as M1. rewrite rnd_v in M1.
  pose proof (rnd_le (prec:=24) (emax:=128) (B2R a - B2R h) (B2R a) ltac:(lra)) as M2. rewrite rnd_v in M2.
  pose proof (fin_lt_emax a) as La. apply Rabs_lt_inv in La.
  pose proof (Bplus_correct 24 128 _ _ mode_NE a h Fa Fh) as P.
  pose proof (Bminus_correct 24 128 _ _ mode_NE a h Fa Fh) as Q.
  cbn [round_mode] in P, Q.
  change (round radix2 (SpecFloat.fexp 24 128) ZnearestE) with (rnd 24 128) in P, Q.
  (* upper side: either finite with value rnd (a+h), or overflow to +inf *)
  destruct (Rlt_bool_spec (Rabs (rnd 24 128 (B2R a + B2R h))) (bpow radix2 128)) as [B|B].
  - destruct P as (P1 & P2 & _). 
    assert (U' : rnd 24 128 (B2R a + B2R h) < B2R s).
    { rewrite <- P1. apply (flt_true (fadd a h) s); [exact P2|exact Fs|exact U]. }
    destruct (Rlt_bool_spec (Rabs (rnd 24 128 (B2R a - B2R h))) (bpow radix2 128)) as [C|C].
    + destruct Q as (Q1 & Q2 & _).
      assert (D' : B2R s < rnd 24 128 (B2R a - B2R h)).
      { rewrite <- Q1. apply (flt_true s (fsub a h)); [exact Fs|exact Q2|exact D]. }
      lra.
    + destruct Q as [Q1 Q2].
      assert (Ng : rnd 24 128 (B2R a - B2R h) < 0).
      { apply Rnot_le_lt. intros Z. rewrite Rabs_pos_eq in C by exact Z. lra. }
      assert (Neg : Bsign a = true).
      { destruct a as [b|b| |b m e W]; try discriminate Fa.
        - cbn [B2R] in *. replace (0 - B2R h) with (- B2R h) in C by ring. rewrite rnd_opp, rnd_v, Rabs_Ropp in C.
          pose proof (fin_lt_emax h). lra.
        - destruct b; [reflexivity|]. exfalso.
          assert (0 <= B2R (B754_finite false m e W)) by (apply F2R_ge_0; cbn; lia).
          assert (- B2R h <= rnd 24 128 (B2R (B754_finite false m e W : f32) - B2R h)).
          { apply rnd_ge_fmt; [apply fmt_opp, fmt_v|lra]. }
          pose proof (fin_lt_emax h) as Lh. apply Rabs_lt_inv in Lh. rewrite Rabs_left in C by exact Ng. lra. }
      rewrite Neg in Q1. change (Bminus mode_NE a h) with (fsub a h) in Q1.
      destruct (fsub a h) as [?|[|]| |? ? ? ?]; try discriminate Q1. rewrite flt_ninf_r in D. discriminate.
  - destruct P as [P1 P2].
    assert (Pos : 0 <= rnd 24 128 (B2R a + B2R h)).
    { apply Rnot_lt_le. intros Z. rewrite Rabs_left in B by exact Z. lra. }
    assert (Sg : Bsign a = false).
    { destruct a as [b|b| |b m e W]; try discriminate Fa.
      - cbn [B2R] in *. rewrite Rplus_0_l, rnd_v in B. pose proof (fin_lt_emax h). lra.
      - destruct b; [|reflexivity]. exfalso.
        assert (B2R (B754_finite true m e W) <= 0) by (apply F2R_le_0; cbn; lia).
        assert (rnd 24 128 (B2R (B754_finite true m e W : f32) + B2R h) <= B2R h).
        { apply rnd_le_fmt; [apply fmt_v|lra]. }
        pose proof (fin_lt_emax h) as Lh. apply Rabs_lt_inv in Lh. rewrite Rabs_pos_eq in B by exact Pos. lra. }
    rewrite Sg in P1. change (Bplus mode_NE a h) with (fadd a h) in P1.
    destruct (fadd a h) as [?|[|]| |? ? ? ?]; try discriminate P1. rewrite flt_pinf_l in U. discriminate.
Qed.

(** [<] on floats other than NaN is the strict part of a total preorder *)
Lemma flt_asym (x y : f32) : flt y x = false \/ flt x y = false.
Proof.
  destruct x as [sx|[|]| |sx mx ex Wx]; destruct y as [sy|[|]| |sy my ey Wy];
    try (left; apply flt_ninf_r); try (right; apply flt_ninf_r);
    try (left; apply flt_pinf_l); try (right; apply flt_pinf_l); try (left; apply flt_nan_l); try (left; apply flt_nan_r).
  all: destruct (flt _ _) eqn:E at 1; [right|left; reflexivity].
  all: apply flt_true in E; [|reflexivity|reflexivity]; apply flt_false; [reflexivity|reflexivity|lra].
Qed.
Lemma flt_neg_trans (x y z : f32) : is_nan x = false -> is_nan y = false -> is_nan z = false ->
  flt y x = false -> flt z y = false -> flt z x = false.
Proof.
  intros Nx Ny Nz H1 H2.
  destruct x as [sx|[|]| |sx mx ex Wx]; try discriminate Nx.
  2:{ apply flt_ninf_r. }
  2:{ destruct z as [sz|[|]| |sz mz ez Wz]; try discriminate Nz; try apply flt_pinf_l;
      destruct y as [sy|[|]| |sy my ey Wy]; try discriminate Ny;
      try (rewrite flt_pinf_r in H1 by reflexivity; discriminate H1); try discriminate H1;
      try (rewrite flt_pinf_r in H2 by reflexivity; discriminate H2); try discriminate H2. }
  all: destruct z as [sz|[|]| |sz mz ez Wz]; try discriminate Nz; try apply flt_pinf_l;
       destruct y as [sy|[|]| |sy my ey Wy]; try discriminate Ny;
       try (rewrite flt_ninf_l in H1 by reflexivity; discriminate H1); try discriminate H1;
       try (rewrite flt_pinf_r in H2 by reflexivity; discriminate H2); try discriminate H2;
       try (rewrite flt_ninf_l in H2 by reflexivity; discriminate H2).
  all: apply flt_false; [reflexivity|reflexivity|];
       apply flt_false in H1; [|reflexivity|reflexivity]; apply flt_false in H2; [|reflexivity|reflexivity]; lra.
Qed.

(** the floats other than NaN as a type *)
Definition nf : Type := { x : f32 | is_nan x = false }.
Definition pj (x : nf) : f32 := proj1_sig x.
Definition nlt (x y : nf) : bool := flt (pj x) (pj y).
Lemma nlt_asym x y : nlt y x = false \/ nlt x y = false. Proof. apply flt_asym. Qed.
Lemma nlt_trans x y z : nlt y x = false -> nlt z y = false -> nlt z x = false.
Proof. destruct x as [x Hx], y as [y Hy], z as [z Hz]. unfold nlt, pj. cbn [proj1_sig]. apply flt_neg_trans; assumption. Qed.
Lemma nf_lift (xs : list f32) : Forall (fun x => is_nan x = false) xs -> exists ns : list nf, map pj ns = xs.
Proof.
  induction 1 as [|x xs H _ [ns IH]]; [exists []; reflexivity|].
  exists (exist _ x H :: ns). cbn. rewrite IH. reflexivity.
Qed.

(** median and moving maximum commute with order embeddings *)
Section Hom.
Context {A B : Type} (f : A -> B) (lta : A -> A -> bool) (ltb : B -> B -> bool).
Hypothesis Hf : forall x y, ltb (f x) (f y) = lta x y.
Lemma median3f_hom a b c : median3f ltb (f a) (f b) (f c) = f (median3f lta a b c).
Proof.
  assert (M : forall x y, Detect_Model.fmax ltb (f x) (f y) = f (Detect_Model.fmax lta x y)).
  { intros x y. unfold Detect_Model.fmax. rewrite Hf. destruct (lta x y); reflexivity. }
  assert (N : forall x y, Detect_Model.fmin ltb (f x) (f y) = f (Detect_Model.fmin lta x y)).
  { intros x y. unfold Detect_Model.fmin. rewrite Hf. destruct (lta y x); reflexivity. }
  unfold median3f. rewrite N, M, N, M. reflexivity.
Qed.
Lemma median_hom xs : forall b c, run (median_step ltb) (f b, f c) (map f xs) = map f (run (median_step lta) (b, c) xs).
Proof.
  induction xs as [|x xs IH]; intros b c; [reflexivity|].
  cbn [run map median_step]. rewrite median3f_hom, IH. reflexivity.
Qed.
Lemma is_median_hom m a b c : is_median lta m a b c -> is_median ltb (f m) (f a) (f b) (f c).
Proof.
  intros (H1 & H2 & H3). split; [destruct H1 as [->|[->| ->]]; auto|].
  cbn [filter] in *. rewrite !Hf. split.
  - clear H1 H3. destruct (negb (lta m a)), (negb (lta m b)), (negb (lta m c)); cbn [length] in *; exact H2.
  - clear H1 H2. destruct (negb (lta a m)), (negb (lta b m)), (negb (lta c m)); cbn [length] in *; exact H3.
Qed.

Lemma lset_map d : forall i v, lset (map f d) i (f v) = map f (lset d i v).
Proof. induction d as [|x d IH]; intros [|i] v; cbn; try reflexivity. rewrite IH. reflexivity. Qed.
Lemma mm_loop_hom fuel : forall d i v,
  mm_loop ltb fuel (map f d) i (f v) = option_map (fun r => (map f (fst r), f (snd r))) (mm_loop lta fuel d i v).
Proof.
  induction fuel as [|n IH]; intros d i v; cbn [mm_loop]; destruct (1 <? i)%N; try reflexivity.
  unfold vset. rewrite map_length. destruct (i <? N.of_nat (length d))%N; [|reflexivity]. cbn [bind].
  rewrite lset_map. unfold vget. rewrite nth_error_map.
  destruct (nth_error (lset d (N.to_nat i) v) (N.to_nat (N.lxor i 1))) as [s|]; [|reflexivity]. cbn [bind option_map].
  rewrite Hf, <- IH. f_equal. destruct (lta v s); reflexivity.
Qed.
Definition mm_map (m : movmax A) : movmax B := mkMM (mm_size m) (mm_index m) (map f (mm_data m)).
Lemma mm_run_hom xs : forall m, mm_run ltb (mm_map m) (map f xs) = option_map (map f) (mm_run lta m xs).
Proof.
  induction xs as [|x xs IH]; intros m; [reflexivity|].
  cbn [mm_run map]. unfold mm_step at 1. unfold mm_map at 1 2 3. cbn [mm_data mm_index mm_size]. rewrite map_length, mm_loop_hom.
  unfold mm_step. destruct (mm_loop lta 64 (mm_data m) _ x) as [[d v]|]; [|reflexivity].
  cbn [option_map bind fst snd].
  set (m' := mkMM (mm_size m) (if (mm_size m <=? add64 (mm_index m) 1)%N then 0%N else add64 (mm_index m) 1) d).
  specialize (IH m'). unfold m', mm_map in IH. cbn [mm_data mm_index mm_size] in IH. 
  change (mm_size (mm_map m)) with (mm_size m). change (mm_index (mm_map m)) with (mm_index m). rewrite IH.
  fold m'. destruct (mm_run lta m' xs); reflexivity.
Qed.
Lemma mm_make_hom fl n : mm_make (f fl) n = option_map mm_map (mm_make fl n).
Proof.
  unfold mm_make. destruct (smallest_pow2 n) as [n0|]; [|reflexivity]. cbn [bind option_map]. unfold mm_map. cbn [mm_data mm_size mm_index].
  f_equal. f_equal. generalize (N.to_nat (wrap64 (n0 * 2))). intros k. induction k as [|k IHk]; cbn; [reflexivity|rewrite IHk; reflexivity].
Qed.
End Hom.

Lemma level_excl (lo hi s : f32) : fin lo -> fin hi -> B2R lo <= B2R hi -> flt hi s && flt s lo = false.
Proof.
  intros Fl Fh H. apply not_true_is_false. intros K. apply andb_prop in K. destruct K as [U D].
  assert (Fs : fin s).
  { destruct s as [b|[|]| |b m e W]; try reflexivity.
    - rewrite flt_ninf_r in U. discriminate.
    - rewrite flt_pinf_l in D. discriminate.
    - rewrite flt_nan_r in U. discriminate. }
  apply flt_true in U; auto. apply flt_true in D; auto. lra.
Qed.

Lemma level_excl' (onset release e : f32) : fin onset -> fin release -> B2R release <= B2R onset ->
  flt onset e && flt e release = false.
Proof. intros. apply level_excl; assumption. Qed.

Lemma median_float (xs : list f32) (init : f32) : Forall (fun x => is_nan x = false) (init :: xs) ->
  forall (t : nat) (a : f32), nth_error xs t = Some a ->
  exists m, nth_error (run (median_step flt) (init, init) xs) t = Some m /\
    is_median flt m a (nth t (init :: xs) init) (nth t (init :: init :: xs) init).
Proof.
  intros HF t a Ha. inversion HF as [|? ? Hi Hx]; subst. destruct (nf_lift xs Hx) as [ns <-].
  assert (Hj : exists i : nf, pj i = init) by (exists (exist _ init Hi); reflexivity).
  destruct Hj as [i <-]. clear HF Hi Hx.
  rewrite (median_hom pj nlt flt (fun x y => eq_refl)).
  rewrite nth_error_map in Ha. destruct (nth_error ns t) as [a'|] eqn:Ea; [|discriminate]. injection Ha as <-.
  destruct (median_run_spec nlt nlt_asym nlt_trans ns i i t a' Ea) as (m & Em & Hm).
  exists (pj m). rewrite nth_error_map, Em. split; [reflexivity|].
  change (pj i :: map pj ns) with (map pj (i :: ns)). change (pj i :: map pj (i :: ns)) with (map pj (i :: i :: ns)).
  rewrite !map_nth. apply (is_median_hom pj nlt flt (fun x y => eq_refl)). exact Hm.
Qed.

Lemma movmax_float (size : N) (xs : list f32) : (1 <= size <= 2 ^ 62)%N ->
  Forall (fun x => is_nan x = false) xs ->
  let floor := mk32 (-34 * 10 ^ 37) 0 in
  exists m ys, mm_make floor size = Some m /\ mm_run flt m xs = Some ys /\ length ys = length xs /\
    forall t v, nth_error ys t = Some v ->
      let win := firstn (N.to_nat size) (rev (firstn (S t) xs)) in
      In v (floor :: win) /\ (forall y, In y win -> flt v y = false) /\
      ((forall y, In y xs -> flt floor y = true) -> In v win).
Proof.
  intros Hs Hx floor. destruct (nf_lift xs Hx) as [ns <-].
  assert (Hn : is_nan floor = false) by (vm_compute; reflexivity).
  assert (Hj : exists i : nf, pj i = floor) by (exists (exist _ floor Hn); reflexivity).
  destruct Hj as [fl Efl]. rewrite <- Efl. clear Hn Efl.
  destruct (moving_maximum_spec nlt fl nlt_asym nlt_trans size ns Hs) as (m & ys & E1 & E2 & L & S).
  exists (mm_map pj m), (map pj ys).
  rewrite (mm_make_hom pj), E1. split; [reflexivity|].
  rewrite (mm_run_hom pj nlt flt (fun x y => eq_refl)), E2. split; [reflexivity|].
  rewrite !map_length. split; [exact L|].
  intros t v Hv. rewrite nth_error_map in Hv. destruct (nth_error ys t) as [v'|] eqn:Ev; [|discriminate]. injection Hv as <-.
  destruct (S t v' Ev) as (S1 & S2 & S3). cbn zeta.
  rewrite firstn_map, <- map_rev, firstn_map. change (pj fl :: map pj ?l) with (map pj (fl :: l)).
  split; [apply in_map; exact S1|]. split.
  - intros y Hy. apply in_map_iff in Hy. destruct Hy as (y' & <- & Hy). exact (S2 y' Hy).
  - intros H. apply in_map, S3. intros y Hy. exact (H (pj y) (in_map pj ns y Hy)).
Qed.
