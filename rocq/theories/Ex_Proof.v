From Coq Require Import Reals Lra.
From Flocq Require Import Core.Core IEEE754.BinarySingleNaN.
From Verif Require Import Common CommonFacts Ring_Model Ring_Spec Ring_Proof Float FloatFacts Phase_Model Osc_Model Osc_Spec Osc_Proof PhaseF_Proof Phase_Proof Sin_Proof Shape_Model Shape_Proof Shape_Props Notes_Model
  Notes_Spec Notes_Proof Notes_Props Midi_Model Midi_Spec Midi_Proof Adsr_Model Adsr_Spec Adsr_Proof Reso_Model Bq_Model Ex_Model Ex_Spec.

Local Open Scope nat_scope.

(** ** The delay effect *)
Section Delay.
Context {T : Type} (zero : T) (add mul : T -> T -> T).
Notation dp_frame := (dp_frame add mul).
Notation dp_block := (dp_block add mul).
Notation dp_blocks := (dp_blocks add mul).
Notation echo := (echo zero add mul).

Lemma frame_spec fb (r : ring T) l s : ring_rel r l -> l <> [] ->
  exists y r', y = add s (last l zero) /\ dp_frame fb r s = Some ((s, y), r') /\
    ring_rel r' (mul y fb :: removelast l).
Proof.
  intros H N.
  assert (Eb : rb_back r = Some (last l zero)).
  { unfold rb_back. rewrite (ring_rel_get r l) by exact H.
    destruct H as (k & Hk & Hm & Hp & Hd & Hl & _). pose proof (pow2_pos k) as P.
    assert (K : (2 ^ k <= 2 ^ 63)%N) by (apply N.pow_le_mono_r; lia). change (2 ^ 63)%N with 9223372036854775808%N in K.
    unfold rb_size. rewrite <- Hl.
    assert (E : sub64 (N.of_nat (length l)) 1 = N.of_nat (length l - 1)).
    { unfold sub64, wrap64, W64. change (2 ^ 64)%N with 18446744073709551616%N. rewrite (N.mod_small 1) by lia.
      assert (length l <> 0) by (destruct l; [contradiction|discriminate]).
      replace (N.of_nat (length l) + (18446744073709551616 - 1))%N with (N.of_nat (length l - 1) + 1 * 18446744073709551616)%N by lia.
      rewrite N.mod_add by discriminate. apply N.mod_small. lia. }
    rewrite E. rewrite N.mod_small by (destruct l; [contradiction|cbn [length]; lia]).
    unfold vget. rewrite Nat2N.id. destruct (exists_last N) as (l' & x & ->).
    rewrite last_last, app_length. cbn [length]. replace (length l' + 1 - 1) with (length l') by lia.
    rewrite nth_error_app2, Nat.sub_diag by lia. reflexivity. }
  unfold dp_frame. rewrite Eb. cbn [bind].
  destruct (ring_rel_step zero r l (OpPush (mul (add s (last l zero)) fb)) H) as (r' & E & R').
  cbn [rb_step] in E. rewrite E. cbn [bind]. eexists _, r'. split; [reflexivity|]. split; [reflexivity|].
  cbn [spec_step] in R'. replace (mul (add s (last l zero)) fb :: removelast l)
    with (firstn (length l) (mul (add s (last l zero)) fb :: l)); [exact R'|].
  clear - N. destruct (exists_last N) as (l' & x & ->). rewrite removelast_last, app_length. cbn [length].
  replace (length l' + 1) with (S (length l')) by lia. cbn [firstn]. rewrite firstn_app, firstn_all, Nat.sub_diag. cbn. now rewrite app_nil_r.
Qed.

(** the line seen as a function: the list holds the products of the last c outputs *)
Lemma block_spec fb ss : forall (r : ring T) l, ring_rel r l -> l <> [] ->
  exists out r', dp_block fb r ss = Some (out, r') /\ map fst out = ss /\
  exists l', ring_rel r' l' /\ length l' = length l /\ l' = firstn (length l) (rev (map (fun p => mul (snd p) fb) out) ++ l) /\
  forall t p, nth_error out t = Some p -> exists x, nth_error ss t = Some x /\ fst p = x /\
    snd p = add x (nth t (rev l) (mul (nth (t - length l) (map snd out) zero) fb)).
Proof.
  induction ss as [|s ss IH]; intros r l H N; cbn [dp_block].
  - exists [], r. split; [reflexivity|]. split; [reflexivity|]. exists l. split; [exact H|]. split; [reflexivity|].
    split; [cbn; now rewrite firstn_all|]. intros [|t] p Q; discriminate.
  - destruct (frame_spec fb r l s H N) as (y & r1 & Ey & E1 & H1). rewrite E1. cbn [bind fst snd].
    assert (L1 : length (mul y fb :: removelast l) = length l).
    { destruct (exists_last N) as (l' & x & El). rewrite El, removelast_last, app_length. cbn [length]. symmetry; apply Nat.add_1_r. }
    remember (mul y fb :: removelast l) as l1 eqn:El1. assert (N1 : l1 <> []) by (rewrite El1; discriminate).
    destruct (IH r1 l1 H1 N1) as (out & r' & E & Ei & l' & H' & Ll & El & Q).
    rewrite E. cbn [bind fst snd]. exists ((s, y) :: out), r'. split; [reflexivity|]. split; [cbn; now rewrite Ei|].
    exists l'. split; [exact H'|]. split; [rewrite Ll; exact L1|]. rewrite L1 in El, Q. subst l1. split.
    { rewrite El. cbn [map snd rev]. rewrite <- !app_assoc. cbn [app]. set (a := rev _).
      destruct (exists_last N) as (k & x & Ek).
      assert (Er : removelast l = k) by (rewrite Ek; apply removelast_last). rewrite Er.
      assert (El2 : a ++ mul y fb :: l = (a ++ mul y fb :: k) ++ [x]) by (rewrite Ek, <- app_assoc; reflexivity).
      rewrite El2, (firstn_app (length l) (a ++ mul y fb :: k) [x]).
      assert (Z : length l - length (a ++ mul y fb :: k) = 0).
      { rewrite app_length. cbn [length]. rewrite Ek, app_length. cbn [length]. lia. }
      rewrite Z. cbn [firstn]. now rewrite app_nil_r. }
    intros [|t] p Qp; cbn [nth_error] in Qp.
    + injection Qp as <-. exists s. split; [reflexivity|]. split; [reflexivity|]. cbn [snd]. rewrite Ey. f_equal.
      destruct (exists_last N) as (k & x & ->). rewrite last_last, rev_app_distr. reflexivity.
    + destruct (Q t p Qp) as (x & Qx & Qf & Qs). exists x. split; [exact Qx|]. split; [exact Qf|]. rewrite Qs. f_equal.
      cbn [map snd]. destruct (exists_last N) as (k & z & Ek).
      assert (Er : rev l = z :: rev k) by (rewrite Ek, rev_app_distr; reflexivity).
      assert (Er1 : rev (mul y fb :: removelast l) = rev k ++ [mul y fb]) by (rewrite Ek, removelast_last; reflexivity).
      assert (Lk : length l = S (length k)) by (rewrite Ek, app_length; cbn; lia).
      rewrite Er, Er1, Lk. cbn [nth].
      destruct (Nat.lt_ge_cases t (length k)) as [Ht|Ht].
      * rewrite app_nth1 by (now rewrite rev_length). apply nth_indep. now rewrite rev_length.
      * rewrite app_nth2 by (now rewrite rev_length). rewrite rev_length.
        rewrite (nth_overflow (rev k)) by (now rewrite rev_length).
        destruct (Nat.eq_dec t (length k)) as [->|Ht'].
        -- rewrite Nat.sub_diag. cbn [nth]. rewrite Nat.sub_diag. cbn [nth]. reflexivity.
        -- rewrite (nth_overflow [_]) by (cbn; lia).
           replace (S t - S (length k)) with (S (t - S (length k))) by lia. cbn [nth]. reflexivity.
Qed.

Lemma block_app fb a : forall b (r : ring T), dp_block fb r (a ++ b) =
  do x <- dp_block fb r a ; do y <- dp_block fb (snd x) b ; Some (fst x ++ fst y, snd y).
Proof.
  induction a as [|s a IH]; intros b r; cbn [dp_block app].
  - cbn [bind fst snd app]. destruct (dp_block fb r b) as [[? ?]|]; reflexivity.
  - destruct (dp_frame fb r s) as [[p r1]|]; [|reflexivity]. cbn [bind snd fst]. rewrite IH.
    destruct (dp_block fb r1 a) as [[x r2]|]; [|reflexivity]. cbn [bind fst snd].
    destruct (dp_block fb r2 b) as [[y r3]|]; reflexivity.
Qed.
Lemma block_length fb ss : forall (r : ring T) out r', dp_block fb r ss = Some (out, r') -> length out = length ss.
Proof.
  induction ss as [|s ss IH]; intros r out r' H; cbn [dp_block] in H; [injection H as <- <-; reflexivity|].
  destruct (dp_frame fb r s) as [[p r1]|]; [|discriminate]. cbn [bind snd fst] in H.
  destruct (dp_block fb r1 ss) as [[x r2]|] eqn:E; [|discriminate]. injection H as <- <-. cbn. f_equal. eauto.
Qed.
(** blocks are only a partition *)
Lemma blocks_concat fb bs : forall (r : ring T) out r',
  dp_block fb r (concat bs) = Some (out, r') ->
  exists outs, dp_blocks fb r bs = Some outs /\ concat outs = out /\ map (@length _) outs = map (@length _) bs.
Proof.
  induction bs as [|b bs IH]; intros r out r' H; cbn [concat dp_blocks] in *.
  - injection H as <- <-. exists []. auto.
  - rewrite block_app in H. destruct (dp_block fb r b) as [[x r1]|] eqn:Eb; [|discriminate]. cbn [bind fst snd] in *.
    destruct (dp_block fb r1 (concat bs)) as [[y r2]|] eqn:E; [|discriminate]. cbn [bind fst snd] in H. injection H as <- <-.
    destruct (IH r1 y r2 E) as (outs & Eo & Ec & El). rewrite Eo. cbn [bind]. exists (x :: outs).
    split; [reflexivity|]. cbn [concat map]. split; [now rewrite Ec|]. f_equal; [exact (block_length _ _ _ _ _ Eb)|exact El].
Qed.

(** the recurrence determines the output *)
Fixpoint echo_list (c : nat) (fb : T) (ss : list T) (past : list T) : list T :=
  match ss with
  | [] => past
  | s :: t => echo_list c fb t (past ++ [add s (if length past <? c then zero else mul (nth (length past - c) past zero) fb)])
  end.
Definition echo_fun (c : nat) (fb : T) (s : nat -> T) (t : nat) : T :=
  nth t (echo_list c fb (map s (seq 0 (S t))) []) zero.
Lemma echo_list_prefix c fb ss : forall past, exists more, echo_list c fb ss past = past ++ more /\ length more = length ss.
Proof.
  induction ss as [|s ss IH]; intros past; cbn [echo_list].
  - exists []. now rewrite app_nil_r.
  - destruct (IH (past ++ [add s (if length past <? c then zero else mul (nth (length past - c) past zero) fb)])) as (m & E & L).
    rewrite E, <- app_assoc. eexists. split; [reflexivity|]. cbn. lia.
Qed.
Lemma echo_list_app c fb a : forall b past, echo_list c fb (a ++ b) past = echo_list c fb b (echo_list c fb a past).
Proof. induction a as [|s a IH]; intros b past; [reflexivity|]. cbn [app echo_list]. apply IH. Qed.
Lemma echo_exists c fb s : (0 < c)%nat -> exists y, echo c fb s y.
Proof.
  intros Hc. exists (echo_fun c fb s).
  assert (P : forall t, exists l, echo_list c fb (map s (seq 0 (S t))) [] = l ++ [add (s t) (if t <? c then zero else mul (nth (t - c) l zero) fb)] /\ length l = t /\ l = echo_list c fb (map s (seq 0 t)) []).
  { intros t. rewrite seq_S, map_app, echo_list_app. cbn [map echo_list Nat.add].
    set (l := echo_list c fb (map s (seq 0 t)) []). exists l.
    assert (L : length l = t). { unfold l. destruct (echo_list_prefix c fb (map s (seq 0 t)) []) as (m & E & L). rewrite E. cbn. rewrite L, map_length, seq_length. reflexivity. }
    rewrite L. auto. }
  assert (Q : forall t u, (u <= t)%nat -> nth u (echo_list c fb (map s (seq 0 (S t))) []) zero = echo_fun c fb s u).
  { induction t as [|t IH]; intros u Hu.
    - replace u with 0 by lia. reflexivity.
    - destruct (Nat.eq_dec u (S t)) as [->|Hn]; [reflexivity|]. rewrite <- (IH u) by lia.
      destruct (P (S t)) as (l & E & L & El). rewrite E, app_nth1 by lia. rewrite El. reflexivity. }
  intros t. unfold echo_fun at 1. destruct (P t) as (l & E & L & El). rewrite E, app_nth2 by lia. rewrite L, Nat.sub_diag. cbn [nth].
  f_equal. destruct (Nat.ltb_spec t c) as [H|H]; [reflexivity|]. f_equal.
  destruct t as [|t]; [lia|]. rewrite El. apply Q. lia.
Qed.

Lemma nth_rev_repeat (c t : nat) (d : T) : nth t (rev (repeat zero c)) d = if t <? c then zero else d.
Proof.
  destruct (Nat.ltb_spec t c) as [H|H].
  - assert (I : In (nth t (rev (repeat zero c)) d) (rev (repeat zero c))) by (apply nth_In; now rewrite rev_length, repeat_length).
    apply in_rev, repeat_spec in I. exact I.
  - apply nth_overflow. now rewrite rev_length, repeat_length.
Qed.
Lemma effect (n : N) fb (bs : list (list T)) : (n <= 2 ^ 63)%N ->
  exists r0 c outs, rb_make zero n = Some r0 /\ least_pow2_ge n c /\ (0 < N.to_nat c) /\
    dp_blocks fb r0 bs = Some outs /\ map (@length _) outs = map (@length _) bs /\
    forall y, echo (N.to_nat c) fb (fun t => nth t (concat bs) zero) y ->
      forall t, t < length (concat bs) -> nth_error (concat outs) t = Some (nth t (concat bs) zero, y t).
Proof.
  intros Hn. destruct (ring_rel_make zero n Hn) as (r0 & c & Em & R & Lc & Es & Hc).
  assert (C0 : 0 < N.to_nat c). { destruct Lc as (j & -> & _). pose proof (pow2_pos j). lia. }
  assert (N0 : repeat zero (N.to_nat c) <> []) by (destruct (N.to_nat c); [lia|discriminate]).
  destruct (block_spec fb (concat bs) r0 _ R N0) as (out & r' & Eb & Ei & l' & _ & _ & _ & Q).
  destruct (blocks_concat fb bs r0 out r' Eb) as (outs & Eo & Ec & El).
  exists r0, c, outs. repeat (split; [assumption|]). intros y Hy. rewrite Ec.
  pose proof (block_length _ _ _ _ _ Eb) as Lo. rewrite repeat_length in Q.
  intros t. induction t as [t IH] using lt_wf_ind. intros Ht.
  destruct (nth_error out t) as [[a b]|] eqn:E; [|apply nth_error_None in E; lia].
  destruct (Q t _ E) as (x & Ex & Qf & Qs). cbn [fst snd] in Qf, Qs. subst a.
  rewrite (nth_error_nth _ _ zero Ex). f_equal. f_equal. rewrite Qs, Hy, nth_rev_repeat, (nth_error_nth _ _ zero Ex).
  f_equal. destruct (Nat.ltb_spec t (N.to_nat c)); [reflexivity|]. f_equal.
  specialize (IH (t - N.to_nat c) ltac:(lia) ltac:(lia)).
  rewrite (nth_error_nth (map snd out) _ zero (map_nth_error snd _ _ IH)). reflexivity.
Qed.
End Delay.

(** ** in binary32 *)
Local Open Scope R_scope.
Lemma echo_bounded c (fb : f32) (s y : nat -> f32) (l m : f32) (B : R) :
  echo (fzero : f32) fadd fmul c fb s y -> is_finite fb = true -> is_finite l = true -> is_finite m = true ->
  (forall t, is_finite (s t) = true /\ Rabs (B2R (s t)) <= B) ->
  Rabs (B2R fb) * B2R l <= B2R m -> B + B2R m <= B2R l -> 0 <= B2R m ->
  (0 < c)%nat -> forall t, is_finite (y t) = true /\ Rabs (B2R (y t)) <= B2R l.
Proof.
  intros E Ff Fl Fm Hs H1 H2 M0 Hc. assert (B0 : 0 <= B) by (destruct (Hs 0%nat) as [_ H]; pose proof (Rabs_pos (B2R (s 0%nat))); lra).
  assert (M : B2R l < bpow radix2 128 /\ B2R m < bpow radix2 128).
  { pose proof (abs_B2R_lt_emax 24 128 l). pose proof (Rle_abs (B2R l)). pose proof (abs_B2R_lt_emax 24 128 m).
    pose proof (Rle_abs (B2R m)). lra. }
  intros t. induction t as [t IH] using lt_wf_ind. rewrite E. destruct (Hs t) as [Fs Bs].
  assert (G : exists d : f32, (if (t <? c)%nat then fzero else fmul (y (t - c)%nat) fb) = d /\ is_finite d = true /\ Rabs (B2R d) <= B2R m).
  { destruct (Nat.ltb_spec t c) as [H|H].
    - exists fzero. split; [reflexivity|]. split; [reflexivity|]. cbn. rewrite Rabs_R0. exact M0.
    - destruct (IH (t - c)%nat ltac:(lia)) as [Fy By].
      destruct (fmul_bnd (y (t - c)%nat) fb (B2R m)) as (_ & F & K); try assumption.
      + apply generic_format_B2R.
      + apply M.
      + rewrite Rabs_mult, Rmult_comm. apply Rle_trans with (2 := H1). apply Rmult_le_compat_l; [apply Rabs_pos|exact By].
      + exists (fmul (y (t - c)%nat) fb). auto. }
  destruct G as (d & Ed & Fd & Bd).
  match goal with |- context [fadd (s t) ?e] => replace e with d by (symmetry; exact Ed) end.
  destruct (fadd_bnd (s t) d (B2R l)) as (_ & F & K); try assumption.
  - apply generic_format_B2R.
  - apply M.
  - apply Rle_trans with (1 := Rabs_triang _ _). lra.
  - auto.
Qed.

(** ** the number of samples asked for *)
Lemma delay_samples_R (d : f64) (sps : N) : (sps < 2 ^ 32)%N -> is_finite d = true -> 0 <= B2R d -> B2R d * IZR (Z.of_N sps) <= bpow radix2 62 ->
  exists n, delay_samples d sps = Some n /\ Z.of_N n = Zceil (rnd 53 1024 (B2R d * IZR (Z.of_N sps))) /\ (n <= 2 ^ 62)%N.
Proof.
  intros Hs F H0 H1. change (2 ^ 32)%N with 4294967296%N in Hs.
  destruct (mk64_small (Z.of_N sps) 0) as [En Fn]; [change (2 ^ 53)%Z with 9007199254740992%Z; lia|lia|].
  change (bpow radix2 0) with 1 in En. rewrite Rmult_1_r in En.
  assert (S0 : 0 <= IZR (Z.of_N sps)) by (apply IZR_le; lia).
  assert (P0 : 0 <= B2R d * IZR (Z.of_N sps)) by (apply Rmult_le_pos; assumption).
  destruct (fmul_bnd d (mk64 (Z.of_N sps) 0) (bpow radix2 62)) as (E & Fm & B); try assumption.
  { apply fmt_bpow. unfold SpecFloat.emin. lia. } { apply bpow_lt. lia. }
  { rewrite En, Rabs_pos_eq by exact P0. exact H1. }
  rewrite En in E. set (p := fmul d _) in *.
  assert (Q0 : 0 <= B2R p) by (rewrite E; apply rnd_ge_fmt; [apply fmt_0|exact P0]).
  rewrite Rabs_pos_eq in B by exact Q0.
  destruct (Bnearbyint_correct 53 1024 _ mode_UP p) as (Eu & Gu & _). cbn [round_mode] in Eu.
  assert (Vu : B2R (Bnearbyint mode_UP p) = IZR (Zceil (B2R p))).
  { rewrite Eu. unfold round, scaled_mantissa, cexp, FIX_exp, F2R. cbn [Fnum Fexp bpow Z.opp]. rewrite !Rmult_1_r. reflexivity. }
  unfold delay_samples. fold p. unfold ftrunc. rewrite Gu, Fm.
  assert (Et : Btrunc (Bnearbyint mode_UP p) = Zceil (B2R p)).
  { apply eq_IZR. rewrite (Btrunc_correct 53 1024 _). unfold round, scaled_mantissa, cexp, FIX_exp, F2R.
    cbn [Fnum Fexp bpow Z.opp]. rewrite !Rmult_1_r, Vu, Ztrunc_IZR. reflexivity. }
  rewrite Et. assert (Z0 : (0 <= Zceil (B2R p))%Z).
  { apply le_IZR. apply Rle_trans with (1 := Q0). apply Zceil_ub. }
  assert (Z1 : (Zceil (B2R p) <= 2 ^ 62)%Z) by (apply Zceil_glb; exact B).
  change (2 ^ 62)%Z with 4611686018427387904%Z in Z1. change (2 ^ 64)%Z with 18446744073709551616%Z.
  destruct (Z.leb_spec 0 (Zceil (B2R p))); [|lia]. destruct (Z.ltb_spec (Zceil (B2R p)) 18446744073709551616); [|lia]. cbn [andb].
  eexists. split; [reflexivity|]. split; [rewrite Z2N.id by exact Z0; now rewrite E|]. change (2 ^ 62)%N with 4611686018427387904%N. lia.
Qed.

(** ** the sine *)
Lemma iter_r {A} (f : A -> A) n x : Nat.iter n f (f x) = Nat.iter (S n) f x.
Proof. induction n as [|n IH]; [reflexivity|]. cbn [Nat.iter nat_rect] in *. f_equal. exact IH. Qed.
Lemma sn_block_spec n : forall i, valid_it i -> exists l i', sn_block i n = Some (l, i') /\ i' = Nat.iter n pi_inc i /\ length l = n /\
  forall t p, nth_error l t = Some p -> exists v, p = (v, v) /\ sin_synth (pi_phase (Nat.iter t pi_inc i)) = Some v.
Proof.
  induction n as [|n IH]; intros i V; cbn [sn_block].
  - exists [], i. repeat split. intros [|t] p; discriminate.
  - destruct (sin_synth_R (pi_phase i) (proj1 V)) as (v & E & _). rewrite E. cbn [bind].
    assert (V' : valid_it (pi_inc i)). { split; [apply N.mod_lt; discriminate|apply V]. }
    destruct (IH _ V') as (l & i' & El & Ei & Ll & Q). rewrite El. cbn [bind fst snd].
    exists ((v, v) :: l), i'. split; [reflexivity|]. split; [rewrite Ei; apply iter_r|]. split; [cbn; now rewrite Ll|].
    intros [|t] p H; cbn [nth_error] in H.
    + injection H as <-. exists v. split; [reflexivity|exact E].
    + destruct (Q t p H) as (w & -> & Ew). exists w. split; [reflexivity|]. rewrite <- iter_r. exact Ew.
Qed.
Lemma sn_blocks_spec ns : forall i, valid_it i -> exists ls, sn_blocks i ns = Some ls /\ map (@length _) ls = ns /\
  forall t p, nth_error (concat ls) t = Some p -> exists v, p = (v, v) /\ sin_synth (pi_phase (Nat.iter t pi_inc i)) = Some v.
Proof.
  induction ns as [|n ns IH]; intros i V; cbn [sn_blocks].
  - exists []. repeat split. intros [|t] p; discriminate.
  - destruct (sn_block_spec n i V) as (l & i' & El & Ei & Ll & Q). rewrite El. cbn [bind fst snd].
    assert (V' : valid_it i').
    { rewrite Ei. clear - V. induction n as [|n IHn]; [exact V|]. cbn [Nat.iter nat_rect]. split; [apply N.mod_lt; discriminate|apply IHn]. }
    destruct (IH i' V') as (ls & E & L & Q2). rewrite E. cbn [bind]. exists (l :: ls). split; [reflexivity|].
    split; [cbn; now rewrite Ll, L|]. intros t p H. cbn [concat] in H.
    destruct (Nat.lt_ge_cases t n) as [T|T].
    + rewrite nth_error_app1 in H by (now rewrite Ll). exact (Q t p H).
    + rewrite nth_error_app2 in H by (now rewrite Ll). rewrite Ll in H. destruct (Q2 _ p H) as (v & Ep & Ev). exists v. split; [exact Ep|].
      rewrite Ei in Ev. replace t with (t - n + n)%nat by lia.
      rewrite <- Ev. f_equal. f_equal. clear. induction (t - n)%nat as [|k IHk]; [reflexivity|]. cbn [Nat.add Nat.iter nat_rect]. f_equal. exact IHk.
Qed.

(** ** MIDI *)
Lemma handle_raw sps s raw :
  sy_handle_all sps s (dispatch raw 0) =
  match on_of raw with
  | Some (k, v) => sy_note_on sps s k v
  | None => match off_of raw with Some k => Some (sy_note_off s k) | None => Some s end
  end.
Proof.
  assert (B : (raw mod 256 < 256)%N) by (apply N.mod_lt; discriminate).
  assert (S1 : forall o : option synth, (do s' <- o ; Some s') = o) by (intros [?|]; reflexivity).
  unfold on_of, off_of.
  destruct (N.ltb_spec (raw mod 256) 128) as [L|L].
  { rewrite dispatch_other by (left; exact L).
    assert (raw mod 256 / 16 < 8)%N by (apply N.div_lt_upper_bound; lia).
    destruct (N.eqb_spec (raw mod 256 / 16) 9); [lia|]. destruct (N.eqb_spec (raw mod 256 / 16) 8); [lia|]. reflexivity. }
  destruct (N.leb_spec 240 (raw mod 256)) as [U|U].
  { rewrite dispatch_other by (right; exact U).
    assert (15 <= raw mod 256 / 16)%N by (apply N.div_le_lower_bound; lia).
    destruct (N.eqb_spec (raw mod 256 / 16) 9); [lia|]. destruct (N.eqb_spec (raw mod 256 / 16) 8); [lia|]. reflexivity. }
  destruct (dispatch_any raw 0 (conj L U)) as (k & Ek & Ed). rewrite Ed. cbn [sy_handle_all].
  assert (L8 : (8 <= raw mod 256 / 16)%N) by (apply N.div_le_lower_bound; lia).
  assert (U15 : (raw mod 256 / 16 < 15)%N) by (apply N.div_lt_upper_bound; lia).
  set (h := (raw mod 256 / 16)%N) in *.
  assert (C : (h = 8 \/ h = 9 \/ h = 10 \/ h = 11 \/ h = 12 \/ h = 13 \/ h = 14)%N) by lia.
  destruct C as [C|[C|[C|[C|[C|[C|C]]]]]]; rewrite C in Ek |- *; cbn in Ek; injection Ek as <-;
    rewrite S1; unfold sy_handle, byte; cbn [m_kind m_data msize firstn nth N.eqb Pos.eqb]; reflexivity.
Qed.
Lemma byte_bound raw : forall k v, on_of raw = Some (k, v) -> (k < 256 /\ v < 256)%N.
Proof.
  intros k v H. unfold on_of in H. destruct (_ =? _)%N; [|discriminate]. injection H as <- <-.
  split; apply N.mod_lt; discriminate.
Qed.

Lemma top_note : exists f, note_frequency 119 = Some f /\ B2R f < 13300.
Proof.
  assert (E : nf_test 119 (fun f => is_finite f && flt f (mk64 13300 0)) = true) by (vm_compute; reflexivity).
  destruct (nf_test_ok _ _ E) as (f & Ef & T). apply andb_prop in T. destruct T as [F L]. exists f. split; [exact Ef|].
  destruct (mk64_small 13300 0 ltac:(reflexivity) ltac:(lia)) as [V G]. apply (flt_true f _ F G) in L. rewrite V in L.
  change (bpow radix2 0) with 1 in L. lra.
Qed.
Lemma note_range k : exists f, note_frequency k = Some f /\ is_finite f = true /\ 0 <= B2R f < 13300.
Proof.
  destruct (N.ltb_spec k 9) as [L|L]; [|destruct (N.ltb_spec 119 k) as [U|U]].
  - exists fzero. split; [|split; [reflexivity|cbn; lra]]. unfold note_frequency. destruct (N.ltb_spec k 9); [reflexivity|lia].
  - exists fzero. split; [|split; [reflexivity|cbn; lra]]. unfold note_frequency. destruct (N.ltb_spec k 9); [lia|].
    destruct (N.ltb_spec 119 k); [reflexivity|lia].
  - destruct (C38_equal_temperament k (conj L U)) as (f & E & F & P & _). exists f. split; [exact E|]. split; [exact F|].
    split; [lra|]. destruct top_note as (g & Eg & Bg).
    destruct (N.eq_dec k 119) as [->|Hn].
    + rewrite Eg in E. injection E as <-. exact Bg.
    + destruct (C38_strictly_increasing k 119 L ltac:(lia) ltac:(lia)) as (f' & g' & E' & G' & I).
      rewrite E' in E. rewrite G' in Eg. injection E as <-. injection Eg as <-. lra.
Qed.
Lemma step_range k sps : (13300 <= sps < 2 ^ 32)%N -> exists f q, note_frequency k = Some f /\ phase_of_freq f sps = Some q /\ (q < 2 ^ 32)%N.
Proof.
  intros H. destruct (note_range k) as (f & E & F & B). exists f.
  assert (P : 13300 <= IZR (Z.of_N sps)) by (apply IZR_le; lia).
  destruct (phase_of_freq_R f sps ltac:(lia) F ltac:(lra)) as (q & Eq & Bq & _). eauto.
Qed.
Lemma level_of_R v : (v < 256)%N -> is_finite (level_of v) = true /\ B2R (level_of v) = IZR (Z.of_N v) / 128.
Proof.
  intros H. unfold level_of.
  destruct (mk32_small (Z.of_N v) 0) as [E F]; [change (2 ^ 24)%Z with 16777216%Z; lia|lia|].
  destruct (mk32_small 128 0) as [E2 F2]; [reflexivity|lia|]. change (bpow radix2 0) with 1 in *. rewrite Rmult_1_r in E, E2.
  assert (V0 : 0 <= IZR (Z.of_N v) <= 256) by (split; apply IZR_le; lia).
  assert (FM : fmt 24 128 (IZR (Z.of_N v) / 128)).
  { replace (IZR (Z.of_N v) / 128) with (IZR (Z.of_N v) * bpow radix2 (-7)) by (change (bpow radix2 (-7)) with (/ 128); lra).
    apply (fmt_F2R (prec:=24) (emax:=128)); [change (2 ^ 24)%Z with 16777216%Z; lia|unfold SpecFloat.emin; lia]. }
  destruct (fdiv_R (mk32 (Z.of_N v) 0) (mk32 128 0) F) as [Ed Fd].
  { rewrite E2. lra. }
  { rewrite E, E2, rnd_fmt by exact FM. rewrite Rabs_pos_eq by lra. apply Rle_lt_trans with (bpow radix2 7); [change (bpow radix2 7) with 128; lra|apply bpow_lt; lia]. }
  split; [exact Fd|]. rewrite Ed, E, E2, rnd_fmt by exact FM. reflexivity.
Qed.

Definition good (y : f32) : Prop := is_nan y = true \/ (is_finite y = true /\ -1 <= B2R y <= 1).
Lemma clip_good x : good (soft_clip x).
Proof.
  unfold good. destruct (is_nan x) eqn:Nx.
  - left. destruct x; try discriminate. rewrite soft_clip_nan. reflexivity.
  - right. exact (C28_soft_clip_bounded x Nx).
Qed.

Definition top : R := 127 / 128.
Lemma top_le : top <= bpow radix2 126.
Proof. unfold top. apply Rle_trans with (bpow radix2 0); [cbn; lra|apply bpow_le; lia]. Qed.
Definition sok (s : synth) : Prop := inv top (sy_env s) /\ def (sy_env s) /\ valid_it (sy_phase s).

Lemma frame_ok s : sok s -> exists y s', sy_frame s = Some (y, s') /\ sok s' /\ good y /\
  do_call (sy_env s) CSample = Some (sy_env s') /\ pi_incr (sy_phase s') = pi_incr (sy_phase s) /\ sy_key s' = sy_key s /\
  pi_phase (sy_phase s') = pi_phase (pi_inc (sy_phase s)).
Proof.
  intros (I & D & V). destruct (sample_def _ D) as (e' & o & E & D' & _). unfold sy_frame. rewrite E. cbn [bind fst snd].
  eexists _, _. split; [reflexivity|]. cbn [sy_env sy_phase sy_key].
  split; [|split; [apply clip_good|split; [cbn [do_call]; rewrite E; reflexivity|auto]]].
  split; [apply (sample_inv top _ _ _ top_le I E)|]. split; [exact D'|]. split; [apply N.mod_lt; discriminate|apply V].
Qed.
Lemma on_ok sps s k v : (13300 <= sps < 2 ^ 32)%N -> sok s -> (v < 128)%N -> exists s', sy_note_on sps s k v = Some s' /\ sok s' /\
  do_call (sy_env s) (CTrigger (level_of v) 1) = Some (sy_env s') /\ sy_key s' = k /\
  (exists f, note_frequency k = Some f /\ phase_of_freq f sps = Some (pi_incr (sy_phase s'))) /\ pi_phase (sy_phase s') = pi_phase (sy_phase s) /\
  sy_filter s' = sy_filter s.
Proof.
  intros Hs (I & D & V) Hv. destruct (step_range k sps Hs) as (f & q & Ef & Eq & Bq).
  unfold sy_note_on. rewrite Ef. cbn [bind]. rewrite Eq. cbn [bind]. eexists. split; [reflexivity|]. cbn [sy_env sy_key sy_phase sy_filter pi_incr pi_phase].
  assert (LV : level_in top (level_of v)).
  { destruct (level_of_R v ltac:(lia)) as [F E]. split; [exact F|]. rewrite E. unfold top.
    assert (0 <= IZR (Z.of_N v) <= 127) by (split; apply IZR_le; lia). lra. }
  split; [|split; [reflexivity|split; [reflexivity|split; [eauto|auto]]]].
  assert (Ec : do_call (sy_env s) (CTrigger (level_of v) 1) = Some (trigger (sy_env s) (level_of v) 1)) by reflexivity.
  split; [exact (call_inv top _ (CTrigger (level_of v) 1) _ top_le I LV Ec)|]. split; [|split; [apply V|exact Bq]].
  destruct (call_def_nolegato (sy_env s) (CTrigger (level_of v) 1) D ltac:(discriminate)) as (e' & E' & D'). rewrite Ec in E'. injection E' as <-. exact D'.
Qed.
Lemma off_ok s k : sok s -> sok (sy_note_off s k) /\ pi_incr (sy_phase (sy_note_off s k)) = pi_incr (sy_phase s) /\
  sy_key (sy_note_off s k) = sy_key s /\ sy_filter (sy_note_off s k) = sy_filter s /\
  do_calls (sy_env s) (if (k =? sy_key s)%N then [CRelease] else []) = Some (sy_env (sy_note_off s k)).
Proof.
  intros (I & D & V). unfold sy_note_off. destruct (N.eqb_spec k (sy_key s)) as [->|Hn]; [|split; [exact (conj I (conj D V))|]; repeat split; reflexivity].
  cbn [sy_env sy_phase sy_key sy_filter]. split; [|repeat split; reflexivity].
  assert (Ec : do_call (sy_env s) CRelease = Some (release (sy_env s))) by reflexivity.
  split; [exact (call_inv top _ CRelease _ top_le I Logic.I Ec)|]. split; [|exact V].
  destruct (call_def_nolegato (sy_env s) CRelease D ltac:(discriminate)) as (e' & E' & D'). rewrite Ec in E'. injection E' as <-. exact D'.
Qed.

Lemma last_key_mono evs : forall k, exists k', last_key (Some k) evs = Some k'.
Proof.
  induction evs as [|[|raw] t IH]; intros k; cbn; [eauto|apply IH|].
  destruct (on_of raw) as [[? ?]|]; apply IH.
Qed.
Definition pitch_ok sps (ko : option N) (s : synth) (q0 : N) : Prop :=
  match ko with
  | None => pi_incr (sy_phase s) = q0
  | Some k => sy_key s = k /\ exists f, note_frequency k = Some f /\ phase_of_freq f sps = Some (pi_incr (sy_phase s))
  end.
Lemma run_spec sps evs : (13300 <= sps < 2 ^ 32)%N -> forall s k0 q0, sok s -> Forall proper_event evs -> pitch_ok sps k0 s q0 ->
  exists out s', sy_run sps s evs = Some (out, s') /\ sok s' /\ Forall good out /\
    length out = length (filter is_frame evs) /\
    do_calls (sy_env s) (env_calls (sy_key s) evs) = Some (sy_env s') /\
    pitch_ok sps (last_key k0 evs) s' q0.
Proof.
  intros Hs. induction evs as [|[|raw] t IH]; intros s k0 q0 K P Q.
  - exists [], s. cbn. repeat split; auto; apply K.
  - destruct (frame_ok s K) as (y & s1 & E & K1 & G & C & Ei & Ek & _). inversion P; subst.
    assert (Q1 : pitch_ok sps k0 s1 q0) by (destruct k0; cbn in *; rewrite ?Ei, ?Ek; exact Q).
    destruct (IH s1 k0 q0 K1 H2 Q1) as (out & s' & Er & Ks & Go & Lo & Co & Po).
    exists (y :: out), s'. cbn [sy_run sy_step]. rewrite E. cbn [bind fst snd]. rewrite Er. cbn [bind fst snd app].
    split; [reflexivity|]. split; [exact Ks|]. split; [constructor; assumption|]. split; [cbn; rewrite Lo; reflexivity|].
    split; [|exact Po]. cbn [env_calls do_calls]. rewrite C. cbn [bind]. rewrite <- Ek. exact Co.
  - inversion P as [|? ? PH Pt]; subst. destruct PH as [Hr Hv]. cbn [sy_run sy_step env_calls last_key filter is_frame].
    rewrite N.mod_small by exact Hr. rewrite handle_raw.
    destruct (on_of raw) as [[k v]|] eqn:On.
    + destruct (on_ok sps s k v Hs K (Hv k v eq_refl)) as (s1 & E & K1 & C & Ek & Ef & _). rewrite E. cbn [bind fst snd].
      destruct (IH s1 (Some k) q0 K1 Pt (conj Ek Ef)) as (out & s' & Er & Ks & Go & Lo & Co & Po).
      exists out, s'. rewrite Er. cbn [bind fst snd app]. split; [reflexivity|]. split; [exact Ks|]. split; [exact Go|]. split; [exact Lo|].
      split; [|exact Po]. cbn [do_calls]. rewrite C. cbn [bind]. rewrite Ek in Co. exact Co.
    + destruct (off_of raw) as [k|] eqn:Of; cbn [bind fst snd].
      * destruct (off_ok s k K) as (K1 & Ei & Ek & _ & C).
        assert (Q1 : pitch_ok sps k0 (sy_note_off s k) q0) by (destruct k0; cbn in *; rewrite ?Ei, ?Ek; exact Q).
        destruct (IH _ k0 q0 K1 Pt Q1) as (out & s' & Er & Ks & Go & Lo & Co & Po).
        exists out, s'. rewrite Er. cbn [bind fst snd app]. split; [reflexivity|]. split; [exact Ks|]. split; [exact Go|]. split; [exact Lo|].
        split; [|exact Po]. rewrite Ek in Co. destruct (k =? sy_key s)%N.
        -- cbn [do_calls] in C |- *. destruct (do_call (sy_env s) CRelease) as [e|]; [|discriminate]. cbn [bind] in C |- *.
           injection C as ->. exact Co.
        -- cbn [do_calls] in C. injection C as ->. exact Co.
      * destruct (IH s k0 q0 K Pt Q) as (out & s' & Er & Ks & Go & Lo & Co & Po).
        exists out, s'. rewrite Er. cbn [bind fst snd app]. split; [reflexivity|]. split; [exact Ks|]. split; [exact Go|]. split; [exact Lo|]. split; [exact Co|exact Po].
Qed.

(** ** Silence *)
Lemma square_any p dt : (p < 2 ^ 32)%N -> (dt < 2 ^ 32)%N -> is_finite (square p dt) = true /\ Rabs (B2R (square p dt)) <= 4.
Proof.
  intros Hp Hd. unfold square.
  assert (Hq : (add32 p ph_middle < 2 ^ 32)%N) by (apply N.mod_lt; discriminate).
  destruct (poly_blep_R p dt Hp Hd) as (F1 & B1 & _). destruct (poly_blep_R _ dt Hq Hd) as (F2 & B2 & _).
  assert (S : is_finite (basic_square p) = true /\ -1 <= B2R (basic_square p) <= 1).
  { destruct one_R as [A1 A2], mone_R as [C1 C2]. unfold basic_square. destruct (_ <? _)%N; [rewrite A1|rewrite C1]; (split; [assumption|lra]). }
  destruct S as [FS BS].
  assert (B4 : 4 < bpow radix2 128) by (apply lt128; lra). assert (F4 : fmt 24 128 4) by (change 4 with (bpow radix2 2); apply (fmt_bpow (prec:=24) (emax:=128)); unfold SpecFloat.emin; lia).
  assert (F2' : fmt 24 128 2) by (change 2 with (bpow radix2 1); apply (fmt_bpow (prec:=24) (emax:=128)); unfold SpecFloat.emin; lia).
  destruct (fadd_bnd _ _ 2 FS F1 F2' ltac:(apply lt128; lra)) as (_ & FA & BA); [apply Rabs_le; lra|]. apply Rabs_le_inv in BA.
  destruct (fsub_bnd _ _ 4 FA F2 F4 B4) as (_ & FC & BC); [apply Rabs_le; lra|]. split; assumption.
Qed.
Definition calm (m : reso f32) : Prop :=
  is_finite (rs_y0 m) = true /\ is_finite (rs_y1 m) = true /\ Rabs (B2R (rs_y0 m)) <= bpow radix2 100 /\ Rabs (B2R (rs_y1 m)) <= bpow radix2 100 /\
  is_finite (rs_reso m) = true /\ 0 <= B2R (rs_reso m) <= 1.
Lemma zero_mul (x : f32) : is_finite x = true -> exists b, fmul fzero x = B754_zero b.
Proof. destruct x as [b|b| |b m e H]; try discriminate; intros _; eexists; reflexivity. Qed.
Lemma mul_zero (x : f32) : is_finite x = true -> exists b, fmul x fzero = B754_zero b.
Proof. destruct x as [b|b| |b m e H]; try discriminate; intros _; eexists; reflexivity. Qed.
Lemma plus_zero (y : f32) b : is_finite y = true -> is_finite (fadd y (B754_zero b)) = true /\ B2R (fadd y (B754_zero b)) = B2R y.
Proof. destruct y as [c|c| |c m e H]; try discriminate; intros _; [destruct b, c; split; reflexivity|split; reflexivity]. Qed.

Lemma calm_step (m : reso f32) (s : f32) : calm m -> is_finite s = true -> Rabs (B2R s) <= 4 ->
  let m' := rs_step ops32 (rs_cutoff ops32 m fzero) s in
  calm m' /\ B2R (rs_y0 m') = B2R (rs_y0 m) /\ B2R (rs_y1 m') = B2R (rs_y1 m).
Proof.
  intros (F0 & F1 & B0 & B1 & Fr & Br) Fs Bs. cbn zeta.
  assert (bp : forall e, (-149 <= e < 128)%Z -> fmt 24 128 (bpow radix2 e) /\ bpow radix2 e < bpow radix2 128).
  { intros e He. split; [apply (fmt_bpow (prec:=24) (emax:=128)); unfold SpecFloat.emin; lia|apply bpow_lt; lia]. }
  assert (P100 : 4 <= bpow radix2 100) by (change 4 with (bpow radix2 2); apply bpow_le; lia).
  assert (E101 : bpow radix2 101 = 2 * bpow radix2 100) by (change 101%Z with (1 + 100)%Z; rewrite bpow_plus; reflexivity).
  assert (E103 : bpow radix2 103 = 8 * bpow radix2 100) by (change 103%Z with (3 + 100)%Z; rewrite bpow_plus; reflexivity).
  assert (E104 : bpow radix2 104 = 16 * bpow radix2 100) by (change 104%Z with (4 + 100)%Z; rewrite bpow_plus; reflexivity).
  (* the feedback *)
  destruct one_R as [E1 G1].
  assert (Es : fsub (mk32 1 0) fzero = mk32 1 0) by reflexivity.
  assert (FB : is_finite (rs_feedback ops32 fzero (rs_reso m)) = true /\ Rabs (B2R (rs_feedback ops32 fzero (rs_reso m))) <= 2).
  { unfold rs_feedback. change (sub ops32 (one ops32) fzero) with (fsub (mk32 1 0) (fzero : f32)). rewrite Es.
    change (add ops32 (rs_reso m) (quo ops32 (rs_reso m) (mk32 1 0))) with (fadd (rs_reso m) (fdiv (rs_reso m) (mk32 1 0))).
    assert (Q : B2R (rs_reso m) / B2R (mk32 1 0) = B2R (rs_reso m)) by (rewrite E1; field).
    destruct (fdiv_R (rs_reso m) (mk32 1 0) Fr) as [Ed Fd]; [rewrite E1; lra| |].
    { rewrite Q, rnd_v. apply Rle_lt_trans with 1; [apply Rabs_le; lra|apply lt128; lra]. }
    rewrite Q, rnd_v in Ed.
    destruct (fadd_bnd (rs_reso m) (fdiv (rs_reso m) (mk32 1 0)) 2 Fr Fd) as (_ & Fa & Ba); [|apply lt128; lra|rewrite Ed; apply Rabs_le; lra|split; assumption].
    change 2 with (bpow radix2 1). apply bp. lia. }
  destruct FB as [Ff Bf].
  unfold calm. cbv delta [rs_step rs_cutoff] beta zeta. cbn [rs_y0 rs_y1 rs_f rs_fb rs_reso].
  change (add ops32) with (fadd (prec:=24) (emax:=128)). change (mul ops32) with (fmul (prec:=24) (emax:=128)). change (sub ops32) with (fsub (prec:=24) (emax:=128)).
  set (fb := rs_feedback ops32 fzero (rs_reso m)) in *.
  assert (A0 := Rabs_le_inv _ _ B0). assert (A1 := Rabs_le_inv _ _ B1). assert (As := Rabs_le_inv _ _ Bs).
  destruct (fsub_bnd s (rs_y0 m) (bpow radix2 101) Fs F0 (proj1 (bp 101%Z ltac:(lia))) (proj2 (bp 101%Z ltac:(lia)))) as (_ & X1 & C1); [apply Rabs_le; lra|].
  destruct (fsub_bnd (rs_y0 m) (rs_y1 m) (bpow radix2 101) F0 F1 (proj1 (bp 101%Z ltac:(lia))) (proj2 (bp 101%Z ltac:(lia)))) as (_ & X2 & C2); [apply Rabs_le; lra|].
  destruct (fmul_bnd fb (fsub (rs_y0 m) (rs_y1 m)) (bpow radix2 103) Ff X2 (proj1 (bp 103%Z ltac:(lia))) (proj2 (bp 103%Z ltac:(lia)))) as (_ & X3 & C3).
  { rewrite Rabs_mult. apply Rle_trans with (2 * bpow radix2 101); [apply Rmult_le_compat; try apply Rabs_pos; assumption|lra]. }
  apply Rabs_le_inv in C1. apply Rabs_le_inv in C3.
  destruct (fadd_bnd (fsub s (rs_y0 m)) (fmul fb (fsub (rs_y0 m) (rs_y1 m))) (bpow radix2 104) X1 X3 (proj1 (bp 104%Z ltac:(lia))) (proj2 (bp 104%Z ltac:(lia)))) as (_ & X4 & _); [apply Rabs_le; lra|].
  destruct (zero_mul _ X4) as [b Eb]. rewrite Eb. destruct (plus_zero (rs_y0 m) b F0) as [G0 V0].
  set (y0 := fadd (rs_y0 m) (B754_zero b)) in *.
  destruct (fsub_bnd y0 (rs_y1 m) (bpow radix2 101) G0 F1 (proj1 (bp 101%Z ltac:(lia))) (proj2 (bp 101%Z ltac:(lia)))) as (_ & X5 & _); [rewrite V0; apply Rabs_le; lra|].
  destruct (zero_mul _ X5) as [c Ec]. rewrite Ec. destruct (plus_zero (rs_y1 m) c F1) as [H1 V1].
  rewrite V0, V1. split; [|split; reflexivity]. exact (conj G0 (conj H1 (conj B0 (conj B1 (conj Fr Br))))).
Qed.

Lemma soft_clip_zero b : soft_clip (B754_zero b) = B754_zero false.
Proof. destruct b; vm_compute; reflexivity. Qed.

Definition silent (s : synth) : Prop := sok s /\ a_state (sy_env s) = note_off_state /\ calm (sy_filter s).
Lemma silent_run sps evs : (13300 <= sps < 2 ^ 32)%N -> forall s, silent s -> Forall proper_event evs -> Forall no_onset evs ->
  exists out s', sy_run sps s evs = Some (out, s') /\ silent s' /\ Forall (fun y : f32 => y = fzero) out.
Proof.
  intros Hs. induction evs as [|ev t IH]; intros s L P Q.
  - exists [], s. cbn. auto.
  - inversion P as [|? ? Pe Pt]; subst. inversion Q as [|? ? Qe Qt]; subst.
    assert (ST : exists o s1, sy_step sps s ev = Some (o, s1) /\ silent s1 /\ Forall (fun y : f32 => y = fzero) o).
    { destruct L as (K & St & C). destruct ev as [|raw]; cbn [sy_step].
      - destruct (frame_ok s K) as (y & s1 & E & K1 & _). rewrite E. cbn [bind fst snd]. exists [y], s1. split; [reflexivity|].
        assert (Se : sample (sy_env s) = Some (sy_env s, fzero)) by (unfold sample; rewrite St; reflexivity).
        unfold sy_frame in E. rewrite Se in E. cbn [bind fst snd] in E. injection E as Ey Es.
        destruct K as (I & D & V). destruct (square_any (pi_phase (sy_phase s)) (pi_incr (sy_phase s)) (proj1 V) (proj2 V)) as [F B].
        destruct (calm_step (sy_filter s) _ C F B) as (C' & _). cbn zeta in C'.
        split.
        + split; [exact K1|]. rewrite <- Es. cbn [sy_env sy_filter]. split; [exact St|exact C'].
        + constructor; [|constructor]. destruct C' as (_ & F1' & _). destruct (mul_zero _ F1') as [b Eb].
          rewrite <- Ey. exact (eq_trans (f_equal soft_clip Eb) (soft_clip_zero b)).
      - destruct Pe as [Hr Hv]. rewrite N.mod_small by exact Hr. rewrite handle_raw. cbn in Qe.
        destruct (on_of raw) as [[k v]|] eqn:On.
        + pose proof (Qe k v eq_refl). subst v.
          destruct (on_ok sps s k 0 Hs K ltac:(lia)) as (s1 & E & K1 & Ec & _ & _ & _ & Ef). rewrite E. cbn [bind fst snd].
          exists [], s1. split; [reflexivity|]. split; [|constructor]. split; [exact K1|]. rewrite Ef. split; [|exact C].
          cbn [do_call] in Ec. injection Ec as <-. unfold trigger.
          assert (Z : flt (a_y (sy_env s)) (level_of 0) = false).
          { destruct (flt (a_y (sy_env s)) (level_of 0)) eqn:T; [|reflexivity]. exfalso.
            destruct K as (I & _). destruct (i_y _ _ I) as [Fy [Ly _]]. destruct (level_of_R 0 ltac:(lia)) as [Fl El].
            apply (flt_true _ _ Fy Fl) in T. rewrite El in T. change (IZR (Z.of_N 0)) with 0 in T. lra. }
          rewrite Z. exact St.
        + destruct (off_of raw) as [k|] eqn:Of; cbn [bind fst snd].
          * destruct (off_ok s k K) as (K1 & _ & _ & Ef & _). exists [], (sy_note_off s k). split; [reflexivity|]. split; [|constructor].
            split; [exact K1|]. rewrite Ef. split; [|exact C]. unfold sy_note_off. destruct (_ =? _)%N; [|exact St].
            cbn [sy_env]. unfold release. rewrite St. exact St.
          * exists [], s. split; [reflexivity|]. split; [|constructor]. split; [exact K|split; assumption]. }
    destruct ST as (o & s1 & E & L1 & Z1). destruct (IH s1 L1 Pt Qt) as (out & s' & Er & L' & Z').
    exists (o ++ out), s'. cbn [sy_run]. rewrite E. cbn [bind fst snd]. rewrite Er. cbn [bind fst snd]. split; [reflexivity|]. split; [exact L'|].
    apply Forall_app. split; assumption.
Qed.

Lemma some_pair {A B} (a c : A) (b d : B) : Some (a, b) = Some (c, d) -> a = c /\ b = d.
Proof. intros H. injection H as -> ->. auto. Qed.
Lemma mul_not_nan (a b : f32) : is_finite a = true -> is_finite b = true -> is_nan (fmul a b) = false.
Proof.
  intros Fa Fb. pose proof (Bmult_correct 24 128 prec32_gt_0 prec32_lt mode_NE a b) as H. unfold fmul.
  destruct (Rlt_bool _ _).
  - destruct H as (_ & F & _). rewrite Fa, Fb in F. destruct (Bmult mode_NE a b); try discriminate; reflexivity.
  - destruct (Bmult mode_NE a b); try reflexivity. discriminate.
Qed.
Lemma some_eq {A} (a c : A) : Some a = Some c -> a = c.
Proof. intros H. injection H as ->. auto. Qed.
Lemma zero_level e : inv top e -> flt (a_y e) (level_of 0) = false.
Proof.
  intros I. destruct (flt (a_y e) (level_of 0)) eqn:T; [|reflexivity]. exfalso.
  destruct (i_y _ _ I) as [Fy [Ly _]]. destruct (level_of_R 0 ltac:(lia)) as [Fl El].
  apply (flt_true _ _ Fy Fl) in T. rewrite El in T. change (IZR (Z.of_N 0)) with 0 in T. lra.
Qed.
Lemma handle_reso sps l : forall s s', sy_handle_all sps s l = Some s' -> rs_reso (sy_filter s') = rs_reso (sy_filter s).
Proof.
  induction l as [|[m tm] l IH]; intros s s' H; cbn [sy_handle_all] in H; [apply some_eq in H; subst; reflexivity|].
  destruct (sy_handle sps s m) as [s1|] eqn:E; [|discriminate]. cbn [bind] in H. rewrite (IH _ _ H).
  unfold sy_handle in E. destruct (m_kind m); try (apply some_eq in E; subst; reflexivity).
  - apply some_eq in E. subst. unfold sy_note_off. destruct (_ =? _)%N; reflexivity.
  - unfold sy_note_on in E. destruct (note_frequency _) as [f|]; [|discriminate]. cbn [bind] in E.
    destruct (phase_of_freq f sps) as [q|]; [|discriminate]. cbn [bind] in E. apply some_eq in E. subst. reflexivity.
Qed.
Lemma run_reso sps evs : forall s out s', sy_run sps s evs = Some (out, s') -> rs_reso (sy_filter s') = rs_reso (sy_filter s).
Proof.
  induction evs as [|ev t IH]; intros s out s' H; cbn [sy_run] in H; [apply some_pair in H; destruct H; subst; reflexivity|].
  destruct (sy_step sps s ev) as [[o s1]|] eqn:E; [|discriminate]. cbn [bind fst snd] in H.
  destruct (sy_run sps s1 t) as [[o2 s2]|] eqn:E2; [|discriminate]. cbn [bind fst snd] in H. apply some_pair in H. destruct H as [_ <-].
  rewrite (IH _ _ _ E2). destruct ev as [|raw]; cbn [sy_step] in E.
  - unfold sy_frame in E. destruct (sample (sy_env s)) as [[e w]|]; [|discriminate]. cbn [bind fst snd] in E. apply some_pair in E. destruct E as [_ <-]. reflexivity.
  - destruct (sy_handle_all _ _ _) as [s3|] eqn:E3; [|discriminate]. cbn [bind] in E. apply some_pair in E. destruct E as [_ <-]. exact (handle_reso _ _ _ _ E3).
Qed.
Lemma reso_range : is_finite (to32 (fdiv (mk64 8 0) (mk64 10 0))) = true /\ 0 <= B2R (to32 (fdiv (mk64 8 0) (mk64 10 0))) <= 1.
Proof.
  assert (T : (fun x : f32 => is_finite x && fle fzero x && fle x (mk32 1 0)) (to32 (fdiv (mk64 8 0) (mk64 10 0))) = true) by (vm_compute; reflexivity).
  cbv beta in T. apply andb_prop in T. destruct T as [T H3]. apply andb_prop in T. destruct T as [H1 H2]. split; [exact H1|].
  destruct one_R as [V F]. apply (fle_true _ _ (eq_refl : is_finite (fzero : f32) = true) H1) in H2. apply (fle_true _ _ H1 F) in H3. rewrite V in H3.
  change (B2R (fzero : f32)) with 0 in H2. lra.
Qed.
