From Coq Require Import Reals Lra Lia.
From Flocq Require Import Core.Core IEEE754.BinarySingleNaN.
From Verif Require Import Common CommonFacts Float FloatFacts FloatRel FloatLerp Ring_Model Ring_Spec Ring_Proof
  MovSum_Model MovSum_Spec MovSum_Proof MovSumF_Model MovSumF_Spec MovSumF_Proof Drift_Proof Dyn_Model Db_Model Db_Props Cond_Model
  Gate_Model Gate_Spec.
Local Open Scope R_scope.
Local Notation rn := (rnd 24 128).

Lemma float_of_db_ok d : exists x, float_of_db d = Some x /\ fin x /\ 0 < B2R x.
Proof. destruct (C34_db2a_total (to32 d)) as (y & E & F & B). exists y. split; [exact E|]. split; [exact F|lra]. Qed.

(** heard, newest first, from any starting state *)
Definition ob (b : bool) (os : list bool) (t : nat) : bool := match t with O => b | S r => nth r os false end.
Definition heard_r (b : bool) (os : list bool) (es : list f32) (t : nat) : list f32 :=
  rev (map (fun r => nth r es fzero) (filter (fun r => negb (ob b os r)) (seq 0 (S t)))).
Lemma heard_cons b o os e es t :
  heard_r b (o :: os) (e :: es) (S t) = heard_r o os es t ++ (if b then [] else [e]).
Proof.
  unfold heard_r. change (seq 0 (S (S t))) with (0%nat :: seq 1 (S t)). rewrite <- seq_shift.
  cbn [filter ob]. 
  assert (E : filter (fun r => negb (ob b (o :: os) r)) (map S (seq 0 (S t))) = map S (filter (fun r => negb (ob o os r)) (seq 0 (S t)))).
  { generalize (seq 0 (S t)). intros l. induction l as [|x l IH]; [reflexivity|]. cbn [map filter].
    replace (ob b (o :: os) (S x)) with (ob o os x) by (destruct x; reflexivity).
    destruct (negb (ob o os x)); cbn [map]; rewrite IH; reflexivity. }
  rewrite E. destruct b; cbn [negb].
  - rewrite app_nil_r, map_map. reflexivity.
  - cbn [map rev nth]. rewrite map_map. reflexivity.
Qed.
Lemma heard_0 b os e es : heard_r b os (e :: es) 0 = if b then [] else [e].
Proof. unfold heard_r. cbn. destruct b; reflexivity. Qed.
Lemma heard_eq os es t : heard_r false os es t = rev (heard os es t).
Proof. reflexivity. Qed.

(** the differences stored in the window *)
Definition fd (h : list f32) (i : nat) : f32 := fsub (nth i h fzero) (nth (S i) h fzero).
Definition win (h : list f32) (W : N) : list f32 := map (fd h) (seq 0 (N.to_nat W)).
Lemma win_push h e W : (1 <= W)%N -> firstn (N.to_nat W) (fsub e (nth 0 h fzero) :: win h W) = win (e :: h) W.
Proof.
  intros HW. unfold win. destruct (N.to_nat W) as [|k] eqn:Ek; [lia|]. cbn [firstn].
  change (seq 0 (S k)) with (0%nat :: seq 1 k) at 2. cbn [map]. f_equal.
  rewrite seq_S, map_app, firstn_app, map_length, seq_length, Nat.sub_diag. cbn [firstn].
  rewrite app_nil_r, firstn_all2 by (rewrite map_length, seq_length; lia).
  rewrite <- seq_shift, map_map. apply map_ext. intros i. reflexivity.
Qed.
Lemma fsub00 : fsub (fzero : f32) fzero = fzero. Proof. reflexivity. Qed.
Lemma win_nil W : win [] W = repeat fzero (N.to_nat W).
Proof.
  unfold win. generalize 0%nat. induction (N.to_nat W) as [|k IH]; intros j; [reflexivity|].
  cbn [seq map repeat]. rewrite IH. f_equal. unfold fd. destruct j; apply fsub00.
Qed.

Section Run.
Variable (W : N) (P Q : f32 -> Prop) (Inv : nat -> movsum f32 f64 -> list f32 -> Prop) (limit : nat).
Hypothesis HW : (1 <= W)%N.
Hypothesis P0 : P fzero.
Hypothesis Qdb : forall d x, float_of_db d = Some x -> Q x.
Hypothesis Istep : forall n m h e, Inv n m (win h W) -> Forall P h -> P e -> (n < limit)%nat ->
  exists m', sum_step m (fsub e (nth 0 h fzero)) = Some (to32 (ms_sum m'), m') /\ Inv (S n) m' (win (e :: h) W).

Lemma gate_run cs : Forall (env_all P Q) cs -> forall g h m,
  ng_base g = Some (nth 0 h fzero, m) -> Inv (length h) m (win h W) -> Forall P h -> Q (ng_on g) -> Q (ng_off g) ->
  (length h + length cs <= limit)%nat ->
  exists os, ng_run g cs = Some os /\
    let l := in_force (ng_on g) (ng_off g) cs in length os = length l /\ (length l <= length cs)%nat /\
    forall t e on off, nth_error l t = Some (e, on, off) ->
      P e /\ Q on /\ Q off /\
      let H := heard_r (ng_state g) os (samples l) t ++ h in
      if ob (ng_state g) os t then nth_error os t = Some (negb (flt e off))
      else Forall P H /\ nth 0 H fzero = e /\ exists k, (k <= length h + S t)%nat /\ exists m', Inv k m' (win H W) /\ nth_error os t = Some (flt on (to32 (ms_sum m'))).
Proof using HW P0 Qdb Istep.
  induction cs as [|c cs IH]; intros Hc g h m Hb HI Hh Qon Qoff HL.
  - exists []. cbn. split; [reflexivity|]. split; [reflexivity|]. split; [lia|]. intros [|t] ? ? ? Hn; discriminate.
  - inversion Hc as [|? ? Hc1 Hc2]; subst. cbn [length] in HL.
    destruct c as [e|t|t|d|d]; cbn [env_all] in Hc1.
    + cbn [ng_run]. unfold ng_step. rewrite Hb. destruct (ng_state g) eqn:Es.
      * cbn [bind]. set (b := if flt e (ng_off g) then false else true).
        destruct (IH Hc2 (mkNG b (ng_on g) (ng_off g) (Some (nth 0 h fzero, m))) h m eq_refl HI Hh Qon Qoff ltac:(lia)) as (os & Eo & Lo & Lc & Ho).
        cbn [ng_on ng_off ng_state] in Lo, Lc, Ho. rewrite Eo. cbn [bind ng_state]. exists (b :: os). split; [reflexivity|].
        cbn [in_force length samples map fst]. split; [rewrite Lo; reflexivity|]. split; [lia|]. intros [|t] e' on off Hn.
        -- injection Hn as <- <- <-. split; [exact Hc1|]. split; [exact Qon|]. split; [exact Qoff|]. cbn [ob nth_error]. unfold b. destruct (flt e (ng_off g)); reflexivity.
        -- cbn [nth_error] in Hn. destruct (Ho t e' on off Hn) as (Pe & Q1 & Q2 & R). split; [exact Pe|]. split; [exact Q1|]. split; [exact Q2|].
           rewrite (heard_cons true b os e (map (fun x => fst (fst x)) (in_force (ng_on g) (ng_off g) cs)) t), app_nil_r.
           replace (ob true (b :: os) (S t)) with (ob b os t) by (destruct t; reflexivity).
           cbn zeta in R. unfold samples in R. destruct (ob b os t); cbn [nth_error]; [exact R|].
           destruct R as (R0 & R1 & k & Hk & R2). split; [exact R0|]. split; [exact R1|]. exists k. split; [lia|exact R2].
      * destruct (Istep _ m h e HI Hh Hc1 ltac:(lia)) as (m' & E & HI'). cbn [bind]. match goal with |- context [sum_step m ?d] => replace (sum_step m d) with (Some (to32 (ms_sum m'), m')) by (symmetry; exact E) end. cbn [bind fst snd]. set (b := flt (ng_on g) (to32 (ms_sum m'))).
        destruct (IH Hc2 (mkNG b (ng_on g) (ng_off g) (Some (e, m'))) (e :: h) m' eq_refl HI' ltac:(constructor; assumption) Qon Qoff ltac:(cbn [length]; lia)) as (os & Eo & Lo & Lc & Ho).
        cbn [ng_on ng_off ng_state] in Lo, Lc, Ho. rewrite Eo. cbn [bind ng_state]. exists (b :: os). split; [reflexivity|].
        cbn [in_force length samples map fst]. split; [rewrite Lo; reflexivity|]. split; [lia|]. intros [|t] e' on off Hn.
        -- injection Hn as <- <- <-. split; [exact Hc1|]. split; [exact Qon|]. split; [exact Qoff|]. cbn [ob nth_error]. rewrite heard_0. cbn [app nth].
           split; [constructor; assumption|]. split; [reflexivity|]. exists (S (length h)). split; [lia|]. exists m'. split; [exact HI'|reflexivity].
        -- cbn [nth_error] in Hn. destruct (Ho t e' on off Hn) as (Pe & Q1 & Q2 & R). split; [exact Pe|]. split; [exact Q1|]. split; [exact Q2|].
           rewrite (heard_cons false b os e (map (fun x => fst (fst x)) (in_force (ng_on g) (ng_off g) cs)) t), <- app_assoc. cbn [app].
           replace (ob false (b :: os) (S t)) with (ob b os t) by (destruct t; reflexivity).
           cbn zeta in R. unfold samples in R. destruct (ob b os t); cbn [nth_error]; [exact R|].
           destruct R as (R0 & R1 & k & Hk & R2). split; [exact R0|]. split; [exact R1|]. exists k. cbn [length] in Hk. split; [lia|exact R2].
    + destruct (IH Hc2 (ng_set_onset g t) h m Hb HI Hh Hc1 Qoff ltac:(lia)) as (os & Eo & Lo & Lc & Ho). exists os. split; [exact Eo|].
      cbn [in_force length]. split; [exact Lo|]. split; [cbn in Lc |- *; lia|exact Ho].
    + destruct (IH Hc2 (ng_set_release g t) h m Hb HI Hh Qon Hc1 ltac:(lia)) as (os & Eo & Lo & Lc & Ho). exists os. split; [exact Eo|].
      cbn [in_force length]. split; [exact Lo|]. split; [cbn in Lc |- *; lia|exact Ho].
    + destruct (float_of_db_ok d) as (x & Ex & _). cbn [ng_run in_force length]. unfold ng_set_onset_db. rewrite Ex. cbn [bind].
      destruct (IH Hc2 (ng_set_onset g x) h m Hb HI Hh (Qdb d x Ex) Qoff ltac:(lia)) as (os & Eo & Lo & Lc & Ho). exists os. split; [exact Eo|].
      split; [exact Lo|]. split; [cbn in Lc |- *; lia|exact Ho].
    + destruct (float_of_db_ok d) as (x & Ex & _). cbn [ng_run in_force length]. unfold ng_set_release_db. rewrite Ex. cbn [bind].
      destruct (IH Hc2 (ng_set_release g x) h m Hb HI Hh Qon (Qdb d x Ex) ltac:(lia)) as (os & Eo & Lo & Lc & Ho). exists os. split; [exact Eo|].
      split; [exact Lo|]. split; [cbn in Lc |- *; lia|exact Ho].
Qed.
End Run.

(** ---- 24-bit envelopes in [0, 1]: everything is exact ---- *)
Definition pcm_env (x : f32) : Prop := pcm24 x /\ 0 <= B2R x.
Lemma pcm_zero : pcm24 fzero.
Proof. split; [reflexivity|]. exists 0%Z. split; [lia|]. cbn. lra. Qed.
Lemma kval_zero : kval fzero = 0%Z.
Proof. unfold kval, fzero. cbn [B2R]. rewrite Rmult_0_l. apply (Ztrunc_IZR 0). Qed.
Lemma fmt32_k k : (Z.abs k <= 2 ^ 23)%Z -> fmt 24 128 (IZR k / 8388608).
Proof. intros H. rewrite div_bpow. apply fmt_F2R; [change (2 ^ 24)%Z with 16777216%Z; change (2 ^ 23)%Z with 8388608%Z in H; lia|]. unfold SpecFloat.emin. lia. Qed.
Lemma abs_k1 k : (Z.abs k <= 2 ^ 23)%Z -> Rabs (IZR k / 8388608) <= 1.
Proof. intros H. change (2 ^ 23)%Z with 8388608%Z in H. assert (A : (- 8388608 <= k <= 8388608)%Z) by lia. destruct A as [A B]. apply IZR_le in A, B. apply Rabs_le. lra. Qed.
Lemma one_lt e : (1 <= e)%Z -> 1 < bpow radix2 e.
Proof. intros H. change 1 with (bpow radix2 0). apply bpow_lt. lia. Qed.
Lemma env_diff a b : pcm_env a -> pcm_env b -> pcm24 (fsub a b) /\ kval (fsub a b) = (kval a - kval b)%Z.
Proof.
  intros [Ha Na] [Hb Nb]. destruct (pcm_kval a Ha) as (Fa & Ba & Ea). destruct (pcm_kval b Hb) as (Fb & Bb & Eb).
  assert (K : (Z.abs (kval a - kval b) <= 2 ^ 23)%Z).
  { rewrite Ea in Na. rewrite Eb in Nb. assert (0 <= kval a)%Z by (apply le_IZR; lra). assert (0 <= kval b)%Z by (apply le_IZR; lra). lia. }
  assert (S : B2R a - B2R b = IZR (kval a - kval b) / 8388608) by (rewrite Ea, Eb, minus_IZR; lra).
  destruct (fsub_exact a b Fa Fb) as [E F].
  { rewrite S. apply fmt32_k. exact K. } { rewrite S. eapply Rle_lt_trans; [apply abs_k1; exact K|apply one_lt; lia]. }
  rewrite S in E. split; [split; [exact F|]; exists (kval a - kval b)%Z; split; [exact K|exact E]|].
  unfold kval at 1. rewrite E. replace (IZR (kval a - kval b) / 8388608 * 8388608) with (IZR (kval a - kval b)) by lra. apply Ztrunc_IZR.
Qed.
Definition pinv (W : N) (n : nat) (m : movsum f32 f64) (w : list f32) : Prop :=
  winv W m w /\ length w = N.to_nat W /\ Forall pcm24 w /\ krep (ms_sum m) (zsum (map kval w)).
Lemma zsum_pcm l : Forall pcm24 l -> (Z.abs (zsum (map kval l)) <= 8388608 * Z.of_nat (length l))%Z.
Proof.
  induction 1 as [|x l Hx Hl IH]; [cbn; lia|]. destruct (pcm_kval x Hx) as (_ & B & _). change (2 ^ 23)%Z with 8388608%Z in B.
  change (zsum (map kval (x :: l))) with (kval x + zsum (map kval l))%Z. cbn [length]. lia.
Qed.
Lemma nth_P (P : f32 -> Prop) h i : P fzero -> Forall P h -> P (nth i h fzero).
Proof.
  intros P0 H. revert i. induction H as [|x h Hx Hh IH]; intros [|i]; cbn; auto.
Qed.
Lemma pinv_step W n m h e : (1 <= W <= 2 ^ 29)%N -> pinv W n m (win h W) -> Forall pcm_env h -> pcm_env e ->
  exists m', sum_step m (fsub e (nth 0 h fzero)) = Some (to32 (ms_sum m'), m') /\ pinv W (S n) m' (win (e :: h) W).
Proof.
  intros HW (I & Lw & Hp & K) Hh He.
  assert (W63 : (1 <= W <= 2 ^ 63)%N) by (change (2 ^ 63)%N with 9223372036854775808%N; change (2 ^ 29)%N with 536870912%N in HW; lia).
  assert (H0 : pcm_env (nth 0 h fzero)). { apply nth_P; [split; [exact pcm_zero|cbn; lra]|exact Hh]. }
  destruct (env_diff e _ He H0) as [Pd Kd]. set (d := fsub e (nth 0 h fzero)) in *.
  destruct (winv_step W m _ d W63 I) as (w0 & old & m' & Ew & E & Es & I' & Ef). exists m'. split; [exact E|].
  assert (Ef' : d :: w0 = win (e :: h) W) by (etransitivity; [exact Ef|apply win_push; lia]). rewrite <- Ef'. split; [exact I'|].
  pose proof Lw as Lw'. rewrite Ew, app_length in Lw'. cbn [length] in Lw'. split; [cbn [length]; lia|].
  rewrite Ew in Hp. apply Forall_app in Hp. destruct Hp as [Hp0 Hold]. inversion Hold as [|? ? Po _]; subst.
  split; [constructor; [exact Pd|exact Hp0]|].
  destruct (pcm_kval d Pd) as (_ & Bd & _). destruct (pcm_kval old Po) as (_ & Bo & _). change (2 ^ 23)%Z with 8388608%Z in Bd, Bo.
  pose proof (zsum_pcm w0 Hp0) as Z0. change (2 ^ 29)%N with 536870912%N in HW.
  assert (Zw : zsum (map kval (win h W)) = (zsum (map kval w0) + kval old)%Z).
  { rewrite Ew, map_app, zsum_app. cbn. unfold zsum. lia. }
  rewrite Zw in K. rewrite Es.
  replace (zsum (map kval (d :: w0))) with (zsum (map kval w0) + kval old + kval d - kval old)%Z by (change (zsum (map kval (d :: w0))) with (kval d + zsum (map kval w0))%Z; lia).
  apply ksub; [|exact Po|change (2 ^ 53)%Z with 9007199254740992%Z; lia]. apply kadd; [exact K|exact Pd|change (2 ^ 53)%Z with 9007199254740992%Z; lia].
Qed.
Lemma kval_win h W : Forall pcm_env h -> zsum (map kval (win h W)) = (kval (nth 0 h fzero) - kval (nth (N.to_nat W) h fzero))%Z.
Proof.
  intros Hh. unfold win. assert (N : forall i, pcm_env (nth i h fzero)) by (intros i; apply nth_P; [split; [exact pcm_zero|cbn; lra]|exact Hh]).
  induction (N.to_nat W) as [|k IH]; [cbn; lia|]. rewrite seq_S, !map_app, zsum_app, IH. cbn [plus map].
  destruct (env_diff _ _ (N k) (N (S k))) as [_ E]. unfold fd. rewrite Z.add_comm. cbn [zsum fold_right]. rewrite E. lia.
Qed.
(** the sum the gate compares is the rise, exactly *)
Lemma pinv_out W n m h : (1 <= W)%N -> pinv W n m (win h W) -> Forall pcm_env h ->
  fin (to32 (ms_sum m)) /\ B2R (to32 (ms_sum m)) = B2R (nth 0 h fzero) - B2R (nth (N.to_nat W) h fzero).
Proof.
  intros HW (_ & _ & _ & F & E) Hh. rewrite kval_win in E by exact Hh.
  assert (N : forall i, pcm_env (nth i h fzero)) by (intros i; apply nth_P; [split; [exact pcm_zero|cbn; lra]|exact Hh]).
  set (a := nth 0 h fzero) in *. set (b := nth (N.to_nat W) h fzero) in *.
  destruct (N 0%nat) as [Ha Na]. destruct (N (N.to_nat W)) as [Hb Nb]. fold a in Ha, Na. fold b in Hb, Nb.
  destruct (pcm_kval a Ha) as (Fa & Ba & Ea). destruct (pcm_kval b Hb) as (Fb & Bb & Eb).
  assert (K : (Z.abs (kval a - kval b) <= 2 ^ 23)%Z).
  { rewrite Ea in Na. rewrite Eb in Nb. assert (0 <= kval a)%Z by (apply le_IZR; lra). assert (0 <= kval b)%Z by (apply le_IZR; lra). lia. }
  assert (R : rn (B2R (ms_sum m)) = IZR (kval a - kval b) / 8388608). { rewrite E. apply round_generic; [apply valid_rnd_N|]. apply fmt32_k. exact K. }
  destruct (fconv_R (p':=24) (e':=128) (ms_sum m) F) as [V F32].
  { rewrite R. eapply Rle_lt_trans; [apply abs_k1; exact K|apply one_lt; lia]. }
  fold (to32 (ms_sum m)) in V, F32. split; [exact F32|]. rewrite V, R, Ea, Eb, minus_IZR. lra.
Qed.
Lemma pinv_make W : (1 <= W <= 2 ^ 29)%N -> exists m, fs_make W = Some m /\ pinv W 0 m (win [] W).
Proof.
  intros HW.
  assert (W63 : (1 <= W <= 2 ^ 63)%N) by (change (2 ^ 63)%N with 9223372036854775808%N; change (2 ^ 29)%N with 536870912%N in HW; lia).
  destruct (winv_make W W63) as (m & E & I & S). exists m. split; [exact E|]. rewrite win_nil. split; [exact I|].
  split; [apply repeat_length|]. split. { apply Forall_forall. intros x Hx. apply repeat_spec in Hx. subst x. exact pcm_zero. }
  rewrite S. split; [reflexivity|]. cbn [B2R fzero].
  assert (Z : forall n, zsum (map kval (repeat fzero n)) = 0%Z).
  { induction n as [|n IH]; [reflexivity|]. cbn [repeat map]. change (zsum (kval fzero :: map kval (repeat fzero n))) with (kval fzero + zsum (map kval (repeat fzero n)))%Z. rewrite IH, kval_zero. reflexivity. }
  rewrite Z. lra.
Qed.

Lemma ng_make_ok W on off g : (1 <= W)%N -> ng_make W on off = Some g ->
  exists m, fs_make W = Some m /\ ng_base g = Some (fzero, m) /\ ng_state g = false /\ float_of_db on = Some (ng_on g) /\ float_of_db off = Some (ng_off g).
Proof.
  intros HW H. unfold ng_make, ng_base_make in H. destruct (N.eqb_spec W 0) as [|]; [lia|].
  destruct (fs_make W) as [m|]; [|discriminate]. cbn [bind] in H.
  destruct (float_of_db off) as [x|] eqn:Ex; [|discriminate]. cbn [bind] in H.
  destruct (float_of_db on) as [y|] eqn:Ey; [|discriminate]. injection H as <-. exists m. cbn. auto.
Qed.
Lemma ng_make_defined W on off : (W <= 2 ^ 63)%N -> exists g, ng_make W on off = Some g.
Proof.
  intros HW. unfold ng_make, ng_base_make. destruct (float_of_db_ok on) as (x & Ex & _). destruct (float_of_db_ok off) as (y & Ey & _). rewrite Ex, Ey.
  destruct (N.eqb_spec W 0) as [->|N]; [eexists; reflexivity|].
  destruct (winv_make W ltac:(lia)) as (m & E & _). rewrite E. eexists; reflexivity.
Qed.

Lemma nth_error_bool (os : list bool) t (b : bool) : nth_error os t = Some b -> (nth_error os t = Some true <-> b = true).
Proof. intros ->. split; [intros [= ->]; reflexivity|intros ->; reflexivity]. Qed.
Lemma flt_iff (x y : f32) : fin x -> fin y -> flt x y = true <-> B2R x < B2R y.
Proof. intros Fx Fy. split; [apply flt_true; assumption|]. intros H. destruct (flt x y) eqn:E; [reflexivity|]. apply flt_false in E; [lra|assumption|assumption]. Qed.
Lemma nflt_iff (x y : f32) : fin x -> fin y -> negb (flt x y) = true <-> B2R y <= B2R x.
Proof.
  intros Fx Fy. destruct (flt x y) eqn:E; cbn.
  - apply flt_true in E; [|assumption|assumption]. split; [discriminate|lra].
  - apply flt_false in E; [|assumption|assumption]. split; [intros _; exact E|reflexivity].
Qed.

(** ---- arbitrary floats in [0, 1]: within a margin ---- *)
Definition unit_env (x : f32) : Prop := is_finite x = true /\ 0 <= B2R x <= 1.
Lemma unit_zero : unit_env fzero. Proof. split; [reflexivity|]. cbn. lra. Qed.
Lemma unit_diff a b : unit_env a -> unit_env b ->
  small 1 (fsub a b) /\ Rabs (B2R (fsub a b) - (B2R a - B2R b)) <= bpow radix2 (-25).
Proof.
  intros [Fa Ba] [Fb Bb]. assert (A : Rabs (B2R a - B2R b) <= 1) by (apply Rabs_le; lra).
  assert (R : Rabs (rn (B2R a - B2R b)) <= 1). { apply rnd_abs_le; [apply (fmt_bpow (prec:=24) (emax:=128) 0); unfold SpecFloat.emin; lia|exact A]. }
  destruct (fsub_R a b Fa Fb) as [E F]. { eapply Rle_lt_trans; [exact R|apply one_lt; lia]. }
  split; [split; [exact F|]; rewrite E; exact R|]. rewrite E.
  apply (rnd_err (prec:=24) (emax:=128) _ 0); [unfold SpecFloat.emin; lia|]. exact A.
Qed.
Lemma rsum_win h W : Forall unit_env h ->
  Rabs (rsum (win h W) - (B2R (nth 0 h fzero) - B2R (nth (N.to_nat W) h fzero))) <= INR (N.to_nat W) * bpow radix2 (-25).
Proof.
  intros Hh. unfold win. assert (N : forall i, unit_env (nth i h fzero)) by (intros i; apply nth_P; [exact unit_zero|exact Hh]).
  induction (N.to_nat W) as [|k IH].
  - cbn [seq map rsum fold_right INR]. rewrite Rmult_0_l. replace (0 - _) with 0 by ring. rewrite Rabs_R0. lra.
  - rewrite seq_S, map_app, rsum_app, S_INR. cbn [plus map rsum fold_right]. rewrite Rplus_0_r.
    destruct (unit_diff _ _ (N k) (N (S k))) as [_ E]. unfold fd at 2.
    apply Rabs_le_inv in E, IH. apply Rabs_le. lra.
Qed.
Definition margin (W : N) (n : nat) : R :=
  INR (N.to_nat W) * bpow radix2 (-24) + INR n * (INR (N.to_nat W) + 1) * bpow radix2 (-50) + bpow radix2 (-23).
Lemma dinv_gate_step W n m h e : (1 <= W <= 2 ^ 29)%N -> (Z.of_nat n < 2 ^ 48)%Z -> dinv W 1 n m (win h W) -> Forall unit_env h -> unit_env e ->
  exists m', sum_step m (fsub e (nth 0 h fzero)) = Some (to32 (ms_sum m'), m') /\ dinv W 1 (S n) m' (win (e :: h) W).
Proof.
  intros HW Hn I Hh He.
  assert (H0 : unit_env (nth 0 h fzero)) by (apply nth_P; [exact unit_zero|exact Hh]).
  destruct (unit_diff e _ He H0) as [Sd _].
  destruct (dinv_step W 1 n m (win h W) (fsub e (nth 0 h fzero)) HW) as (m' & E & I'); [|lia|exact I|exact Sd|].
  { change 1 with (bpow radix2 0). split; apply bpow_le; lia. }
  exists m'. split; [exact E|]. rewrite <- win_push by lia. exact I'.
Qed.
Lemma dinv_out W n m h : (1 <= W <= 2 ^ 29)%N -> (Z.of_nat n <= 2 ^ 48)%Z -> dinv W 1 n m (win h W) -> Forall unit_env h ->
  fin (to32 (ms_sum m)) /\ Rabs (B2R (to32 (ms_sum m)) - (B2R (nth 0 h fzero) - B2R (nth (N.to_nat W) h fzero))) <= margin W n.
Proof.
  intros HW Hn (_ & Lw & Hw & F & D) Hh. pose proof (rsum_win h W Hh) as R.
  assert (N : forall i, unit_env (nth i h fzero)) by (intros i; apply nth_P; [exact unit_zero|exact Hh]).
  destruct (N 0%nat) as [_ Ba]. destruct (N (N.to_nat W)) as [_ Bb].
  set (a := B2R (nth 0 h fzero)) in *. set (b := B2R (nth (N.to_nat W) h fzero)) in *. set (k := INR (N.to_nat W)) in *. set (s := B2R (ms_sum m)) in *.
  assert (K : 0 <= k) by apply pos_INR. pose proof (pos_INR n) as Nn.
  set (q := INR n * (k + 1)). assert (Q : 0 <= q) by (apply Rmult_le_pos; lra).
  replace (INR n * ((k + 1) * 1 * bpow radix2 (-51))) with (q * bpow radix2 (-51)) in D by (unfold q; ring).
  unfold margin. fold k q. change (bpow radix2 (-51)) with (/ 2251799813685248) in D. change (bpow radix2 (-50)) with (/ 1125899906842624).
  change (bpow radix2 (-25)) with (/ 33554432) in R. change (bpow radix2 (-24)) with (/ 16777216). change (bpow radix2 (-23)) with (/ 8388608).
  apply Rabs_le_inv in D, R.
  assert (Sa : Rabs s <= 1 + k * / 33554432 + q * / 2251799813685248) by (apply Rabs_le; lra).
  pose proof (rnd_err_all s) as E. change (bpow radix2 (-24)) with (/ 16777216) in E.
  assert (T : bpow radix2 (-150) <= / 1000000000).
  { apply Rle_trans with (bpow radix2 (-30)); [apply bpow_le; lia|]. change (bpow radix2 (-30)) with (/ 1073741824). lra. }
  apply Rabs_le_inv in E.
  assert (HQ : q <= 562949953421312 * k).
  { unfold q. assert (K1 : 1 <= k) by (unfold k; change 1 with (INR 1); apply le_INR; lia).
    assert (INR n <= 281474976710656). { rewrite INR_IZR_INZ. apply IZR_le. change (2 ^ 48)%Z with 281474976710656%Z in Hn. exact Hn. }
    apply Rle_trans with (281474976710656 * (k + 1)); [apply Rmult_le_compat_r; lra|]. lra. }
  assert (KW : k <= 536870912). { unfold k. rewrite INR_IZR_INZ. apply IZR_le. change (2 ^ 29)%N with 536870912%N in HW. lia. }
  destruct (fconv_R (p':=24) (e':=128) (ms_sum m) F) as [V F32].
  { fold s. apply Rlt_trans with (bpow radix2 40); [|apply bpow_lt; lia]. change (bpow radix2 40) with 1099511627776. apply Rabs_lt. lra. }
  fold (to32 (ms_sum m)) in V, F32. fold s in V. split; [exact F32|]. rewrite V. apply Rabs_le. lra.
Qed.
