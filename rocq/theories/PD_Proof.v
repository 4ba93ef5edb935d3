From Coq Require Import Reals Lra.
From Flocq Require Import Core.Core IEEE754.BinarySingleNaN.
From Verif Require Import Common CommonFacts Float FloatFacts Ring_Model Ring_Proof Bitset_Model Bitset_Spec Bitset_Proof
  Zc_Model Zc_Spec Zc_Proof PhaseF_Proof FloatRel PD_Model PD_Spec.

(** what the detector uses of the collector *)
Record zfacts (W : N) (z : zc) : Prop := mkZf
  { zf_win : z_win z = W;
    zf_at : forall i, (i < z_num z)%N -> exists e, zc_at z i = Some e /\ (- 2 ^ 30 <= zi_lead e <= 2 ^ 30)%Z /\
              (z_state z = false -> (zi_lead e < zi_trail e <= 2 ^ 30)%Z);
    zf_ord : forall i j e f, (i < j < z_num z)%N -> zc_at z i = Some e -> zc_at z j = Some f -> (zi_lead e < zi_lead f)%Z;
    zf_ready : z_ready z = true -> z_state z = false /\ (2 <= z_num z)%N;
    zf_num : (z_num z < 2 ^ 64)%N }.

Lemma run_facts hyst n xs : (n <= 2 ^ 28)%N ->
  exists z0 z, zc_make hyst n = Some z0 /\ zc_run z0 xs = Some z /\ (128 <= z_win z0 <= 2 ^ 28)%N /\ (z_win z0 mod 64 = 0)%N /\
    zfacts (z_win z0) z.
Proof.
  intros Hn. destruct (zc_run_chain hyst n xs Hn) as (z0 & z & E & J & E0 & Er & L & B & C & Ew & I).
  exists z0, z. split; [exact E0|]. split; [exact Er|]. split; [exact B|].
  assert (M : (z_win z0 mod 64 = 0)%N).
  { unfold zc_make in E0. destruct (zwin n Hn) as (w & Ew' & _). rewrite Ew' in E0.
    destruct (rb_make zinfo0 (w / 2)); [|discriminate]. cbn [bind] in E0. injection E0 as <-. cbn [z_win]. rewrite <- Ew'.
    unfold wrap64, W64, bs_w. change (2 ^ 64)%N with 18446744073709551616%N. lia. }
  split; [exact M|].
  change (2 ^ 28)%N with 268435456%N in B. change (2 ^ 30)%Z with 1073741824%Z.
  pose proof I as [R Nm Hw Hy Hp P].
  assert (CH : exists o now, chain (Z.of_N (z_win z)) (conditioned hyst xs) hyst (z_state z) o now E /\ (now <= 2 * Z.of_N (z_win z) + 1)%Z /\
     (z_ready z = true -> z_state z = false /\ (2 <= length E)%nat)).
  { destruct (z_ready z).
    - destruct P as (S1 & S2 & S3 & S4 & S5 & S6 & S7). eexists _, _. split; [|split; [exact S7|auto]]. rewrite S1. unfold chain. split; [exact S4|].
      destruct E as [|e [|f E]]; auto.
    - destruct P as [P1 P2]. eexists _, _. split; [exact P1|]. split; [exact P2|]. intros; discriminate. }
  destruct CH as (o & now & CH & NB & Rd).
  assert (LO : forall i e, nth_error E i = Some e -> (- (3 * Z.of_N (z_win z) + 1) <= zi_lead e)%Z).
  { intros i e Q. destruct (nth_error_split _ _ Q) as (l1 & l2 & El & Ll).
    unfold chain in CH. destruct (z_state z).
    - destruct E as [|g t]; [destruct CH|]. destruct CH as (C1 & C2 & C3). destruct i as [|i]; cbn [nth_error] in Q.
      + injection Q as <-. lia.
      + pose proof (closed_lo _ _ _ _ _ _ e C3 (nth_error_In _ _ Q)). lia.
    - destruct CH as [C1 _]. pose proof (closed_lo _ _ _ _ _ _ e C1 (nth_error_In _ _ Q)). lia. }
  constructor; [exact Ew| | | |].
  - intros i Hi. destruct (ring_at z E J i R Nm Hi) as (e & Ae & Qe). exists e. split; [exact Ae|].
    pose proof (LO _ _ Qe) as L1. pose proof (chain_nth _ _ _ _ _ _ _ _ _ CH Qe) as X.
    destruct (z_state z && _)%bool eqn:T.
    + pose proof (pu_len _ _ _ _ _ X). split; [lia|]. intros St. rewrite St in T. discriminate.
    + destruct X as [[X _] X2]. pose proof (pu_len _ _ _ _ _ X). lia.
  - intros i j e f Hij Ai Aj. destruct (ring_at z E J i R Nm ltac:(lia)) as (e' & Ae & Qe). destruct (ring_at z E J j R Nm ltac:(lia)) as (f' & Af & Qf).
    rewrite Ai in Ae. injection Ae as <-. rewrite Aj in Af. injection Af as <-.
    destruct (chain_two _ _ _ _ _ _ _ _ _ _ _ CH (ltac:(lia) : (length E - 1 - N.to_nat j < length E - 1 - N.to_nat i)%nat) Qf Qe) as [D1 _].
    pose proof (chain_nth _ _ _ _ _ _ _ _ _ CH Qe) as X. replace (Nat.eqb (length E - 1 - N.to_nat i) 0) with false in X by lia.
    rewrite andb_false_r in X. destruct X as [[X _] _]. pose proof (pu_len _ _ _ _ _ X). lia.
  - intros Q. destruct (Rd Q) as [R1 R2]. split; [exact R1|lia].
  - pose proof (ring_rel_len _ _ R) as BL. rewrite app_length in BL. change (2 ^ 63)%N with 9223372036854775808%N in BL.
    change (2 ^ 64)%N with 18446744073709551616%N. lia.
Qed.

Lemma f2int_one oob : f2int oob (z32 1) = 1%Z.
Proof. reflexivity. Qed.
Lemma f2int_ge1 oob (y : f32) : (forall x, (1 <= oob x)%Z) -> (1 <= f2int oob (fmax (z32 1) y))%Z.
Proof.
  intros Ho. unfold fmax. destruct (flt (z32 1) y) eqn:L; [|rewrite f2int_one; lia].
  unfold f2int. destruct (is_finite y) eqn:F.
  - rewrite ftrunc_gen by exact F. destruct (_ && _)%bool; [|apply Ho].
    destruct (mk32_small 1 0 ltac:(reflexivity) ltac:(lia)) as [V1 F1]. change (mk32 1 0) with (z32 1) in *.
    apply (flt_true _ _ F1 F) in L. rewrite V1 in L. change (bpow radix2 0) with 1%R in L.
    rewrite Rmult_1_r in L. rewrite <- (Ztrunc_IZR 1). apply Ztrunc_le. apply Rlt_le. exact L.
  - unfold ftrunc. rewrite F. apply Ho.
Qed.
Section PD.
Variable W : N.
Hypothesis HW : (128 <= W <= 2 ^ 28)%N.
Hypothesis HW64 : (W mod 64 = 0)%N.

Notation cnt := (PD_Spec.cnt W).
Notation lag_ok := (PD_Spec.lag_ok W).
Notation fund_spec := (PD_Spec.fund_spec W).
Notation bits_spec := (PD_Spec.bits_spec W).
Definition bits_ok (b : list N) : Prop := bs_wf 64 b /\ bs_size 64 b = W.
Lemma w64 : word_width 64. Proof. unfold word_width. auto. Qed.

Lemma to_size_small z : (0 <= z < 2 ^ 63)%Z -> to_size z = Z.to_N z.
Proof. intros L. unfold to_size. rewrite Z.mod_small; [reflexivity|]. change (2 ^ 64)%Z with 18446744073709551616%Z. change (2 ^ 63)%Z with 9223372036854775808%Z in L. lia. Qed.
Lemma to_size_lt z : (to_size z < 2 ^ 64)%N.
Proof. unfold to_size. pose proof (Z.mod_pos_bound z (2 ^ 64) ltac:(reflexivity)). change (2 ^ 64)%N with (Z.to_N (2 ^ 64)). lia. Qed.

Lemma existsb_ext {A} (f g : A -> bool) l : (forall x, f x = g x) -> existsb f l = existsb g l.
Proof. intros E. induction l as [|x l IH]; cbn [existsb]; [reflexivity|]. rewrite E, IH. reflexivity. Qed.
(** one edge of set_bitstream: always in range *)
Lemma set_edge_ok thr e st : bits_ok (fst (fst (fst st))) -> (- 2 ^ 30 <= zi_lead e <= 2 ^ 30)%Z -> (zi_lead e < zi_trail e <= 2 ^ 30)%Z ->
  exists st', set_bits_edge thr e st = Some st' /\ bits_ok (fst (fst (fst st'))) /\
    (fge (zi_peak e) thr = false -> st' = st) /\
    (fge (zi_peak e) thr = true -> forall j, (j < W)%N ->
      bs_get 64 (fst (fst (fst st'))) j =
        if covers j e then Some true
        else bs_get 64 (fst (fst (fst st))) j) /\
    (fge (zi_peak e) thr = true -> 
      (W / 2 <? snd (fst (fst st')))%N = (W / 2 <? snd (fst (fst st)))%N && negb ((0 <=? zi_lead e) && (zi_lead e <=? Z.of_N (W / 2)))%Z /\
      (snd (fst st') <? W / 2)%N = (snd (fst st) <? W / 2)%N && (((0 <=? zi_trail e) && (zi_trail e <? Z.of_N (W / 2)))%Z) /\
      snd st' = add64 (snd st) 1)%bool.
Proof.
  destruct st as [[[b lead] trail] np]. cbn [fst]. intros [Wf Sz] L1 L2. unfold set_bits_edge.
  change (2 ^ 30)%Z with 1073741824%Z in *. change (2 ^ 28)%N with 268435456%N in HW.
  destruct (fge (zi_peak e) thr) eqn:G; [|eexists; split; [reflexivity|]; cbn [fst snd]; split; [split; assumption|]; split; [auto|]; split; discriminate].
  assert (Q1 : to_size (Z.max (zi_lead e) 0) = Z.to_N (Z.max (zi_lead e) 0)) by (apply to_size_small; change (2 ^ 63)%Z with 9223372036854775808%Z; lia).
  assert (Q2 : wrap_int (zi_trail e - Z.max (zi_lead e) 0) = (zi_trail e - Z.max (zi_lead e) 0)%Z).
  { unfold wrap_int. change (2 ^ 31)%Z with 2147483648%Z. change (2 ^ 32)%Z with 4294967296%Z. rewrite Z.mod_small by lia. lia. }
  rewrite Q1, Q2. set (n := to_size (zi_trail e - Z.max (zi_lead e) 0)).
  assert (Hn : (n = Z.to_N (zi_trail e - Z.max (zi_lead e) 0) /\ (0 <= zi_trail e)%Z) \/ ((zi_lead e < 0)%Z /\ (zi_trail e < 0)%Z /\ (2 ^ 63 <= n)%N /\ (n < 2 ^ 64)%N)).
  { destruct (Z.ltb_spec (zi_trail e) 0) as [T|T].
    - right. split; [lia|]. split; [exact T|]. split; [|apply to_size_lt]. unfold n, to_size.
      change (2 ^ 64)%Z with 18446744073709551616%Z. change (2 ^ 63)%N with 9223372036854775808%N. lia.
    - left. split; [|exact T]. apply to_size_small. change (2 ^ 63)%Z with 9223372036854775808%Z. lia. }
  destruct (set_get 64 w64 b (Z.to_N (Z.max (zi_lead e) 0)) n true Wf) as (b' & Eb & Wf' & Sz' & G').
  { change (2 ^ 64)%N with 18446744073709551616%N in *. change (2 ^ 63)%N with 9223372036854775808%N in *. lia. }
  rewrite Eb. cbn [bind]. eexists. split; [reflexivity|]. cbn [fst snd]. split; [split; [exact Wf'|congruence]|]. split; [discriminate|].
  split; [|intros _; split; [|split; [|reflexivity]]].
  2:{ assert (T : to_size (zi_lead e) = if (0 <=? zi_lead e)%Z then Z.to_N (zi_lead e) else (Z.to_N (zi_lead e + 18446744073709551616))%N)
        by (unfold to_size; change (2 ^ 64)%Z with 18446744073709551616%Z; destruct (Z.leb_spec 0 (zi_lead e)); f_equal;
            [apply Z.mod_small; lia|symmetry; apply (Z.mod_unique _ _ (-1)); lia]).
      rewrite T. clear - L1 HW. destruct (Z.leb_spec 0 (zi_lead e)); cbn [andb negb].
      - destruct (N.ltb_spec (Z.to_N (zi_lead e)) lead); lia.
      - destruct (N.ltb_spec (Z.to_N (zi_lead e + 18446744073709551616)) lead); lia. }
  2:{ assert (T : to_size (zi_trail e) = if (0 <=? zi_trail e)%Z then Z.to_N (zi_trail e) else (Z.to_N (zi_trail e + 18446744073709551616))%N)
        by (unfold to_size; change (2 ^ 64)%Z with 18446744073709551616%Z; destruct (Z.leb_spec 0 (zi_trail e)); f_equal;
            [apply Z.mod_small; lia|symmetry; apply (Z.mod_unique _ _ (-1)); lia]).
      rewrite T. clear - L1 L2 HW. destruct (Z.leb_spec 0 (zi_trail e)); cbn [andb negb].
      - destruct (N.ltb_spec trail (Z.to_N (zi_trail e))); lia.
      - destruct (N.ltb_spec trail (Z.to_N (zi_trail e + 18446744073709551616))); lia. }
  intros _ j Hj. unfold covers. rewrite G' by (rewrite Sz; exact Hj).
  change (2 ^ 63)%N with 9223372036854775808%N in *.
  replace ((Z.to_N (Z.max (zi_lead e) 0) <=? j)%N && (j <? Z.to_N (Z.max (zi_lead e) 0) + n)%N)%bool with
   ((zi_trail e <? 0)%Z || ((zi_lead e <=? Z.of_N j) && (Z.of_N j <? zi_trail e))%Z)%bool by lia.
  reflexivity.
Qed.

Definition qual (z : zc) (thr : f32) (i : N) (P : zinfo -> bool) : bool :=
  match zc_at z i with Some e => fge (zi_peak e) thr && P e | None => false end.
Definition someq (z : zc) (thr : f32) (i : N) (k : nat) (P : zinfo -> bool) : bool :=
  existsb (fun q => qual z thr (i + N.of_nat q) P) (seq 0 k).
Lemma someq_S z thr i k P : someq z thr i (S k) P = (qual z thr i P || someq z thr (i + 1) k P)%bool.
Proof.
  unfold someq. cbn [seq existsb]. rewrite N.add_0_r, <- seq_shift. f_equal.
  assert (EX : forall f l, existsb f (map S l) = existsb (fun q => f (S q)) l).
  { intros f l. induction l as [|x l IHl]; cbn [map existsb]; [reflexivity|]. rewrite IHl. reflexivity. }
  rewrite EX. apply existsb_ext. intros q. f_equal. lia.
Qed.
Lemma filter_S {A} (f : nat -> A) (g : A -> bool) k : filter (fun q => g (f q)) (seq 0 (S k)) =
  (if g (f O) then [O] else []) ++ map S (filter (fun q => g (f (S q))) (seq 0 k)).
Proof.
  cbn [seq filter]. rewrite <- seq_shift.
  assert (EX : forall l, filter (fun q => g (f q)) (map S l) = map S (filter (fun q => g (f (S q))) l)).
  { intros l. induction l as [|x l IHl]; cbn [map filter]; [reflexivity|]. rewrite IHl. destruct (g (f (S x))); reflexivity. }
  rewrite EX. destruct (g (f O)); reflexivity.
Qed.
Lemma set_loop_ok z thr : zfacts W z -> z_state z = false -> forall k i st, bits_ok (fst (fst (fst st))) -> (i + N.of_nat k = z_num z)%N ->
  (snd st + N.of_nat k < 2 ^ 64)%N ->
  exists st', set_bits_loop z thr k i st = Some st' /\ bits_ok (fst (fst (fst st'))) /\
    (forall j, (j < W)%N -> bs_get 64 (fst (fst (fst st'))) j =
      if someq z thr i k (covers j) then Some true else bs_get 64 (fst (fst (fst st))) j) /\
    ((W / 2 <? snd (fst (fst st')))%N = (W / 2 <? snd (fst (fst st)))%N &&
       negb (someq z thr i k (fun e => (0 <=? zi_lead e) && (zi_lead e <=? Z.of_N (W / 2)))%Z))%bool /\
    ((snd (fst st') <? W / 2)%N = (snd (fst st) <? W / 2)%N &&
       negb (someq z thr i k (fun e => negb ((0 <=? zi_trail e) && (zi_trail e <? Z.of_N (W / 2)))%Z)))%bool /\
    snd st' = (snd st + N.of_nat (length (filter (fun q => qual z thr (i + N.of_nat q) (fun _ => true)) (seq 0 k))))%N.
Proof.
  intros Zf St. induction k as [|k IH]; intros i st B Q Hs.
  { exists st. cbn [set_bits_loop]. unfold someq. cbn [seq existsb filter length negb]. rewrite !andb_true_r, N.add_0_r.
    split; [reflexivity|]. split; [exact B|]. repeat (split; [reflexivity|]). reflexivity. }
  cbn [set_bits_loop]. destruct (zf_at _ _ Zf i ltac:(lia)) as (e & Ae & L1 & L2). rewrite Ae. cbn [bind].
  destruct (set_edge_ok thr e st B L1 (L2 St)) as (st1 & E1 & B1 & G0 & G1 & G2). rewrite E1. cbn [bind].
  change (2 ^ 64)%N with 18446744073709551616%N in *.
  assert (Np : snd st1 = (snd st + if fge (zi_peak e) thr then 1 else 0)%N).
  { destruct (fge (zi_peak e) thr); [destruct (G2 eq_refl) as (_ & _ & ->)|rewrite (G0 eq_refl); lia].
    unfold add64, wrap64, W64. change (2 ^ 64)%N with 18446744073709551616%N. lia. }
  destruct (IH (i + 1)%N st1 B1 ltac:(lia)) as (st' & E' & B' & G' & D1 & D2 & D3).
  { destruct (fge (zi_peak e) thr); lia. }
  exists st'. split; [exact E'|]. split; [exact B'|].
  assert (QU : forall P, qual z thr i P = (fge (zi_peak e) thr && P e)%bool) by (intros P; unfold qual; rewrite Ae; reflexivity).
  assert (F : length (filter (fun q => qual z thr (i + N.of_nat q) (fun _ => true)) (seq 0 (S k))) =
     ((if fge (zi_peak e) thr then 1 else 0) + length (filter (fun q => qual z thr (i + 1 + N.of_nat q) (fun _ => true)) (seq 0 k)))%nat).
  { rewrite (filter_S (fun q => (i + N.of_nat q)%N) (fun x => qual z thr x (fun _ => true))), app_length, map_length. f_equal.
    - rewrite N.add_0_r. unfold qual. rewrite Ae, andb_true_r. destruct (fge (zi_peak e) thr); reflexivity.
    - f_equal. apply filter_ext. intros q. f_equal. lia. }
  rewrite F, D3, Np, D1, D2, !someq_S, !QU. clear F D3 Np D1 D2 IH.
  destruct (fge (zi_peak e) thr) eqn:Ge; cbn [andb orb].
  - destruct (G2 eq_refl) as (H1 & H2 & H3). rewrite H1, H2. split; [|split; [|split; [|lia]]].
    + intros j Hj. rewrite (G' j Hj), someq_S, QU. cbn [andb].
      destruct (someq z thr (i + 1) k (covers j)); [rewrite orb_true_r; reflexivity|]. rewrite orb_false_r. apply G1; auto.
    + rewrite negb_orb, andb_assoc. reflexivity.
    + rewrite negb_orb, negb_involutive, !andb_assoc. reflexivity.
  - rewrite (G0 eq_refl) in *. split; [|split; [reflexivity|split; [reflexivity|lia]]].
    intros j Hj. rewrite (G' j Hj), someq_S, QU. reflexivity.
Qed.
Lemma acf_cnt b lag : bits_ok b -> (2 * lag <= W)%N -> acf 64 b lag = Some (cnt b lag).
Proof. intros [Wf Sz] L. rewrite (acf_half 64 w64 b lag Wf); rewrite ?Sz; try lia. reflexivity. Qed.
Lemma mid_le b : bits_ok b -> (2 * (acf_mid 64 b * 64) <= W)%N /\ (acf_mid 64 b * 64 = N.max (W / 64 / 2 - 1) 1 * 64)%N.
Proof.
  intros [Wf Sz]. rewrite (acf_mid_val 64 w64 b) by (auto; lia).
  assert (L : N.of_nat (length b) = (W / 64)%N) by (rewrite <- Sz; unfold bs_size; rewrite N.div_mul by lia; reflexivity).
  rewrite L. lia.
Qed.
Lemma countN_le f n : (countN f n <= N.of_nat n)%N.
Proof. induction n as [|n IH]; cbn [countN]; [lia|]. destruct (f (N.of_nat n)); lia. Qed.
Lemma cnt_le b lag : (cnt b lag <= N.max (W / 64 / 2 - 1) 1 * 64)%N.
Proof. unfold cnt. pose proof (countN_le (mismatch 64 b lag) (N.to_nat (N.max (W / 64 / 2 - 1) 1 * 64))). lia. Qed.

Lemma up_ok b mid : bits_ok b -> (2 * mid <= W)%N -> forall fuel p count per,
  (mid < p + N.of_nat fuel)%N -> (0 < fuel)%nat -> (2 * per <= W)%N -> count = cnt b per ->
  exists q, search_up b fuel p mid count per = Some q /\ (2 * snd q <= W)%N /\ fst q = cnt b (snd q) /\ (fst q <= count)%N.
Proof.
  intros B M. induction fuel as [|f IH]; intros p count per F F0 L C; [lia|].
  cbn [search_up]. destruct (N.ltb_spec p mid) as [P|P]; [|exists (count, per); cbn [fst snd]; auto using N.le_refl].
  rewrite (acf_cnt b p B) by lia. cbn [bind]. destruct (N.ltb_spec count (cnt b p)) as [X|X]; [exists (count, per); cbn [fst snd]; auto using N.le_refl|].
  destruct (IH (p + 1)%N (cnt b p) p ltac:(lia) ltac:(lia) ltac:(lia) eq_refl) as (q & E & Q1 & Q2 & Q3). exists q. repeat split; auto. lia.
Qed.
Lemma down_ok b min : bits_ok b -> forall fuel p count per,
  (p < N.of_nat fuel)%N -> (2 * p <= W)%N -> (2 * per <= W)%N -> count = cnt b per ->
  exists q, search_down b fuel p min count per = Some q /\ (2 * snd q <= W)%N /\ fst q = cnt b (snd q) /\ (fst q <= count)%N.
Proof.
  intros B. induction fuel as [|f IH]; intros p count per F P2 L C; [lia|].
  cbn [search_down]. destruct (N.ltb_spec min p) as [P|P]; [|exists (count, per); cbn [fst snd]; auto using N.le_refl].
  rewrite (acf_cnt b p B) by lia. cbn [bind]. destruct (N.ltb_spec count (cnt b p)) as [X|X]; [exists (count, per); cbn [fst snd]; auto using N.le_refl|].
  assert (S : sub64 p 1 = (p - 1)%N).
  { unfold sub64, wrap64, W64. change (2 ^ 64)%N with 18446744073709551616%N. change (2 ^ 28)%N with 268435456%N in HW. lia. }
  rewrite S. destruct (IH (p - 1)%N (cnt b p) p ltac:(lia) ltac:(lia) ltac:(lia) eq_refl) as (q & E & Q1 & Q2 & Q3). exists q. repeat split; auto. lia.
Qed.
Lemma autocorr1_ok b min per first : bits_ok b -> (0 < per)%N -> (2 * per <= W)%N ->
  exists r, autocorr1 b min per first = Some r /\
    match r with
    | inl _ => first = true /\ cnt b per = 0%N /\ cnt b (per / 2) = 0%N
    | inr (count, lag) => lag_ok b per count lag
    end.
Proof.
  intros B P L. unfold autocorr1. rewrite (acf_cnt b per B L). cbn [bind]. change (2 ^ 28)%N with 268435456%N in HW.
  destruct (first && (cnt b per =? 0)%N)%bool eqn:F.
  - apply andb_true_iff in F. destruct F as [F1 F2]. apply N.eqb_eq in F2.
    rewrite (acf_cnt b (per / 2) B) by lia. cbn [bind]. destruct (N.eqb_spec (cnt b (per / 2)) 0) as [Q|Q].
    + exists (inl tt). auto.
    + exists (inr (cnt b per, per)). split; [reflexivity|]. repeat split; auto. lia.
  - destruct (N.ltb_spec per 32) as [S|S].
    + destruct (mid_le b B) as [M _].
      assert (A : add64 per 1 = (per + 1)%N) by (unfold add64, wrap64, W64; change (2 ^ 64)%N with 18446744073709551616%N; lia).
      assert (D : sub64 per 1 = (per - 1)%N) by (unfold sub64, wrap64, W64; change (2 ^ 64)%N with 18446744073709551616%N; lia).
      rewrite A, D.
      destruct (up_ok b _ B M (Datatypes.S (N.to_nat (acf_mid 64 b * 64))) (per + 1)%N (cnt b per) per ltac:(lia) ltac:(lia) L eq_refl) as (u & Eu & U1 & U2 & U3).
      rewrite Eu. cbn [bind].
      destruct (down_ok b min B (Datatypes.S (N.to_nat per)) (per - 1)%N (fst u) (snd u) ltac:(lia) ltac:(lia) U1 U2) as (d & Ed & D1 & D2 & D3).
      rewrite Ed. cbn [bind]. exists (inr d). split; [reflexivity|]. destruct d as [c l]. cbn [fst snd] in *.
      repeat split; auto; lia.
    + exists (inr (cnt b per, per)). split; [reflexivity|]. repeat split; auto. lia.
Qed.

(** the collector *)
Section Coll.
Variables (oob : f32 -> Z) (range : Z) (z : zc) (b : list N) (weight thr : f32) (min : N).
Hypothesis Zf : zfacts W z.

Definition harm_ok (n : N) : Prop := (1 <= range < 2 ^ 31)%Z -> (forall x, (1 <= oob x)%Z) -> (1 <= Z.of_N n <= range)%Z.
Definition good (x : cinfo) : Prop :=
  exists e f dist count lag, (c_i1 x < c_i2 x < z_num z)%N /\ zc_at z (c_i1 x) = Some e /\ zc_at z (c_i2 x) = Some f /\
    fge (zi_peak e) thr = true /\ fge (zi_peak f) thr = true /\
    Z.of_N dist = (zi_lead f - zi_lead e)%Z /\ (min <= dist)%N /\ (2 * dist <= W)%N /\ lag_ok b dist count lag /\
    c_pty x = fsub (z32 1) (fmul (z32 (Z.of_N count)) weight).
Definition good_coll (c : coll) : Prop :=
  c = coll0 \/ ((0 <= c_per (c_fund c))%Z /\ good (c_fund c) /\ harm_ok (c_harm (c_fund c))).

Lemma period_of_ok x : good x -> exists f, period_of z x = Some f.
Proof.
  intros (e & f & dist & count & lag & L & A1 & A2 & _). unfold period_of. rewrite A1, A2. cbn [bind].
  pose proof (zf_ord _ _ Zf _ _ _ _ L A1 A2) as O. unfold zi_frac_period. destruct (Z.leb_spec (zi_lead e) (zi_lead f)) as [_|X]; [|lia].
  eexists. reflexivity.
Qed.
Lemma good_same x y : c_i1 x = c_i1 y -> c_i2 x = c_i2 y -> c_pty x = c_pty y -> good y -> good x.
Proof. intros E1 E2 E3. unfold good. rewrite E1, E2, E3. auto. Qed.
Lemma save_ok x : good x -> (0 <= c_per x)%Z -> exists c, coll_save z x = Some c /\ good_coll c /\ (0 <= c_per (c_fund c))%Z.
Proof.
  intros G P. unfold coll_save. set (x1 := mkCi (c_i1 x) (c_i2 x) (c_per x) (c_pty x) 1).
  assert (G1 : good x1) by (apply (good_same x1 x); auto). destruct (period_of_ok x1 G1) as [f Ef]. rewrite Ef. cbn [bind].
  eexists. split; [reflexivity|]. cbn [c_fund]. split; [|exact P]. right. split; [exact P|]. split; [exact G1|].
  intros [R _] _. change (1 <= Z.of_N 1 <= range)%Z. lia.
Qed.
Lemma collect_ok c diff hthr x : good_coll c -> good x -> (0 <= c_per x)%Z ->
  exists c', collect oob z c diff hthr range x = Some c' /\ good_coll c' /\ (0 <= c_per (c_fund c'))%Z.
Proof.
  intros Gc G P. unfold collect. destruct (Z.eqb_spec (c_per (c_fund c)) (-1)) as [E|E]; [apply save_ok; assumption|].
  destruct Gc as [->|(P0 & G0 & H0)]; [exfalso; apply E; reflexivity|].
  assert (X : exists c' r, process_harmonics oob z c diff hthr range x = Some (c', r) /\ good_coll c' /\ (0 <= c_per (c_fund c'))%Z).
  { assert (Gc : good_coll c) by (right; auto).
    unfold process_harmonics. destruct (flt _ _); [exists c, false; auto|].
    destruct (period_of_ok x G) as [ip Ei]. rewrite Ei. cbn [bind]. unfold try_sub_harmonic.
    destruct (flt _ _); [|exists c, false; auto]. destruct (_ && _)%bool; [|exists c, true; auto].
    destruct (fle _ _).
    - eexists _, true. split; [reflexivity|]. cbn [c_fund c_per]. split; [|exact P0]. right. cbn [c_fund c_per c_harm]. split; [exact P0|].
      split; [apply (good_same _ x); auto|]. intros R Ho.
      pose proof (f2int_ge1 oob (fround (fdiv ip (c_first c))) Ho) as M.
      set (m := f2int oob (fmax (z32 1) (fround (fdiv ip (c_first c))))) in *. clearbody m.
      change (2 ^ 31)%Z with 2147483648%Z in R. rewrite to_size_small by (change (2 ^ 63)%Z with 9223372036854775808%Z; lia). lia.
    - destruct (save_ok x G P) as (c' & Ec & Gc' & P'). rewrite Ec. cbn [bind]. exists c', true. auto. }
  destruct X as (c1 & r & E1 & G1 & P1). rewrite E1. cbn [bind fst snd]. destruct r; [exists c1; auto|].
  destruct (fgt _ _); [apply save_ok; assumption|]. exists c1. auto.
Qed.
Lemma good_coll_empty c : good_coll c -> coll_empty c = false -> (0 <= c_per (c_fund c))%Z /\ good (c_fund c) /\ harm_ok (c_harm (c_fund c)).
Proof. intros [->|G] E; [discriminate E|exact G]. Qed.
End Coll.

(** the detector's own invariant *)
Record pinv (p : pd) : Prop := mkPinv
  { pi_zc : zfacts W (p_zc p); pi_bits : bits_ok (p_bits p); pi_mid : p_mid p = (W / 2)%N }.

(** an empty collector means that no pair was good enough, or that the search was cut short
    by a false correlation *)
Notation candidate := (PD_Spec.candidate W).
Definition false_corr (p : pd) : Prop :=
  exists i j (e f : zinfo) dist, candidate p i j e f dist /\ cnt (p_bits p) dist = 0%N /\ cnt (p_bits p) (dist / 2) = 0%N.
Lemma inner_ok oob p diff hthr e i : pinv p ->
  zc_at (p_zc p) i = Some e -> fge (zi_peak e) (pd_threshold p) = true ->
  forall k j c, (j + N.of_nat k = z_num (p_zc p))%N -> (i < j)%N ->
  good_coll oob (p_range p) (p_zc p) (p_bits p) (p_weight p) (pd_threshold p) (p_min p) c ->
  exists c' r, inner_loop oob p diff hthr e i k j c = Some (c', r) /\
    good_coll oob (p_range p) (p_zc p) (p_bits p) (p_weight p) (pd_threshold p) (p_min p) c' /\
    (coll_empty c' = true -> coll_empty c = true /\
      if r then false_corr p else forall j' f dist, (j <= j')%N -> ~ candidate p i j' e f dist).
Proof.
  intros [Zf B M] Ai Ge. induction k as [|k IH]; intros j c K Hij Gc.
  { exists c, false. split; [reflexivity|]. split; [exact Gc|]. intros Em. split; [exact Em|]. intros j' f dist L (D1 & _). lia. }
  cbn [inner_loop]. destruct (zf_at _ _ Zf j ltac:(lia)) as (f & Af & L1 & _). rewrite Af. cbn [bind].
  assert (SKIP : (forall dist, ~ candidate p i j e f dist) -> forall (c0 : coll) (r : bool),
     (coll_empty c0 = true -> coll_empty c = true /\ if r then false_corr p else forall j' f dist, (j + 1 <= j')%N -> ~ candidate p i j' e f dist) ->
     (coll_empty c0 = true -> coll_empty c = true /\ if r then false_corr p else forall j' f dist, (j <= j')%N -> ~ candidate p i j' e f dist)).
  { intros Nc c0 r H Em. destruct (H Em) as [H1 H2]. split; [exact H1|]. destruct r; [exact H2|]. intros j' g dist L.
    destruct (N.eq_dec j' j) as [->|Nj]; [|apply H2; lia]. intros D. pose proof D as (_ & _ & Ag & _). rewrite Af in Ag. injection Ag as <-. exact (Nc dist D). }
  destruct (fge (zi_peak f) (pd_threshold p)) eqn:Gf.
  2:{ destruct (IH (j + 1)%N c ltac:(lia) ltac:(lia) Gc) as (c' & r & E & G & S). exists c', r. split; [exact E|]. split; [exact G|].
      apply SKIP; [|exact S]. intros dist (_ & _ & _ & _ & D & _). congruence. }
  pose proof (zf_ord _ _ Zf i j e f ltac:(lia) Ai Af) as O.
  destruct (zf_at _ _ Zf i ltac:(lia)) as (e' & Ae & L2 & _). rewrite Ai in Ae. injection Ae as <-.
  change (2 ^ 30)%Z with 1073741824%Z in *. change (2 ^ 28)%N with 268435456%N in HW.
  unfold zi_period. destruct (Z.leb_spec (zi_lead e) (zi_lead f)) as [_|X]; [|lia]. cbn [bind].
  rewrite Z.mod_small by (change (2 ^ 64)%Z with 18446744073709551616%Z; lia).
  set (dist := Z.to_N (zi_lead f - zi_lead e)). rewrite M.
  destruct (N.ltb_spec (W / 2) dist) as [X|X].
  { exists c, false. split; [reflexivity|]. split; [exact Gc|]. intros Em. split; [exact Em|].
    intros j' g d Lj (D1 & D2 & D3 & D4 & D5 & D6 & D7 & D8). destruct (N.eq_dec j' j) as [->|Nj].
    - rewrite Af in D3. injection D3 as <-. lia.
    - pose proof (zf_ord _ _ Zf j j' f g ltac:(lia) Af D3). lia. }
  destruct (N.leb_spec (p_min p) dist) as [Y|Y].
  2:{ destruct (IH (j + 1)%N c ltac:(lia) ltac:(lia) Gc) as (c' & r & E & G & S). exists c', r. split; [exact E|]. split; [exact G|].
      apply SKIP; [|exact S]. intros d (_ & _ & _ & _ & _ & D & D' & _). lia. }
  assert (CA : candidate p i j e f dist) by (unfold PD_Spec.candidate; repeat (split; [assumption || lia|]); lia).
  destruct (autocorr1_ok (p_bits p) (p_min p) dist (coll_empty c) B ltac:(lia) ltac:(lia)) as (r & Er & Hr). rewrite Er. cbn [bind].
  destruct r as [u|[count lag]].
  { exists c, true. split; [reflexivity|]. split; [exact Gc|]. intros Em. split; [exact Em|]. destruct Hr as (_ & H1 & H2). exists i, j, e, f, dist. auto. }
  set (x := mkCi i j (wrap_int (Z.of_N lag)) (fsub (z32 1) (fmul (z32 (Z.of_N count)) (p_weight p))) 0).
  assert (G : good (p_zc p) (p_bits p) (p_weight p) (pd_threshold p) (p_min p) x).
  { exists e, f, dist, count, lag. cbn [x c_i1 c_i2 c_pty]. repeat (split; [assumption || lia|]). reflexivity. }
  assert (Px : (0 <= c_per x)%Z).
  { cbn [x c_per]. destruct Hr as [L _]. unfold wrap_int. change (2 ^ 31)%Z with 2147483648%Z. change (2 ^ 32)%Z with 4294967296%Z. rewrite Z.mod_small by lia. lia. }
  destruct (collect_ok oob (p_range p) (p_zc p) (p_bits p) (p_weight p) (pd_threshold p) (p_min p) Zf c diff hthr x Gc G Px) as (c' & Ec & Gc' & Pc').
  assert (Em' : coll_empty c' = false) by (unfold coll_empty; lia).
  rewrite Ec. cbn [bind]. destruct (count =? 0)%N.
  - exists c', true. split; [reflexivity|]. split; [exact Gc'|]. congruence.
  - destruct (IH (j + 1)%N c' ltac:(lia) ltac:(lia) Gc') as (c2 & r & E & G2 & S). exists c2, r. split; [exact E|]. split; [exact G2|].
    intros Em2. destruct (S Em2) as [S1 _]. congruence.
Qed.
Lemma outer_ok oob p diff hthr : pinv p -> forall k i c, (i + N.of_nat k + 1 = z_num (p_zc p))%N ->
  good_coll oob (p_range p) (p_zc p) (p_bits p) (p_weight p) (pd_threshold p) (p_min p) c ->
  exists c', outer_loop oob p diff hthr k i c = Some c' /\
    good_coll oob (p_range p) (p_zc p) (p_bits p) (p_weight p) (pd_threshold p) (p_min p) c' /\
    (coll_empty c' = true -> coll_empty c = true /\
      ((forall i' j e f dist, (i <= i')%N -> ~ candidate p i' j e f dist) \/ false_corr p)).
Proof.
  intros P. induction k as [|k IH]; intros i c K Gc.
  { exists c. split; [reflexivity|]. split; [exact Gc|]. intros Em. split; [exact Em|]. left. intros i' j e f dist L (D & _). lia. }
  cbn [outer_loop]. destruct (zf_at _ _ (pi_zc _ P) i ltac:(lia)) as (e & Ae & _). rewrite Ae. cbn [bind].
  destruct (fge (zi_peak e) (pd_threshold p)) eqn:Ge.
  2:{ destruct (IH (i + 1)%N c ltac:(lia) Gc) as (c' & E & G & S). exists c'. split; [exact E|]. split; [exact G|]. intros Em.
      destruct (S Em) as [S1 [S2|S2]]; (split; [exact S1|]); [left|right; exact S2]. intros i' j g f dist L D.
      destruct (N.eq_dec i' i) as [->|Ni]; [|apply (S2 i' j g f dist); [lia|exact D]].
      destruct D as (_ & D1 & _ & D2 & _). congruence. }
  destruct (inner_ok oob p diff hthr e i P Ae Ge (N.to_nat (z_num (p_zc p) - (i + 1))) (i + 1)%N c ltac:(lia) ltac:(lia) Gc) as (c' & r & E & Gc' & S).
  rewrite E. cbn [bind fst snd]. destruct r.
  { exists c'. split; [reflexivity|]. split; [exact Gc'|]. intros Em. destruct (S Em) as [S1 S2]. auto. }
  destruct (IH (i + 1)%N c' ltac:(lia) Gc') as (c2 & E2 & G2 & T). exists c2. split; [exact E2|]. split; [exact G2|].
  intros Em. destruct (T Em) as [T1 T2]. destruct (S T1) as [S1 S2]. split; [exact S1|]. destruct T2 as [T2|T2]; [left|right; exact T2].
  intros i' j g f dist L D. destruct (N.eq_dec i' i) as [->|Ni]; [|apply (T2 i' j g f dist); [lia|exact D]].
  pose proof D as (D0 & D1 & _). rewrite Ae in D1. injection D1 as <-. apply (S2 j f dist); [lia|exact D].
Qed.

Lemma autocorrelate_ok oob p : pinv p -> (2 <= z_num (p_zc p))%N ->
  exists p', autocorrelate oob p = Some p' /\ pinv p' /\ p_zc p' = p_zc p /\ p_bits p' = p_bits p /\ p_min p' = p_min p /\
    p_range p' = p_range p /\ p_weight p' = p_weight p /\ p_pulses p' = p_pulses p /\ p_half_empty p' = p_half_empty p /\ fund_spec oob p'.
Proof.
  intros P L. unfold autocorrelate. destruct (N.ltb_spec 1 (z_num (p_zc p))) as [_|X]; [|lia].
  destruct (_ || _)%bool eqn:HE.
  - eexists. split; [reflexivity|]. destruct P as [P1 P2 P3]. repeat (split; [constructor; assumption || reflexivity|]). left. split; [reflexivity|].
    cbn [with_fund p_half_empty p_pulses]. destruct (p_half_empty p); [auto|]. right. cbn [orb] in HE. lia.
  - destruct (outer_ok oob p (p_diff p) (fdiv (fmul harmonic_periodicity_factor (z32 2)) (z32 (Z.of_N (z_win (p_zc p))))) P
      (N.to_nat (z_num (p_zc p) - 1)) 0%N coll0 ltac:(lia) (or_introl eq_refl)) as (c & Ec & Gc & S). rewrite Ec. cbn [bind].
    destruct (coll_empty c) eqn:Em.
    + eexists. split; [reflexivity|]. destruct P as [P1 P2 P3]. repeat (split; [constructor; assumption || reflexivity|]). right. left. split; [reflexivity|]. split; [reflexivity|].
      destruct (S eq_refl) as [_ [S1|S1]].
      * left. intros i j e f dist. exact (S1 i j e f dist ltac:(lia)).
      * right. exact S1.
    + destruct (good_coll_empty _ _ _ _ _ _ _ _ Gc Em) as (_ & G & Hh).
      destruct (period_of_ok oob (p_zc p) (p_bits p) (p_weight p) (pd_threshold p) (p_min p) (pi_zc _ P) _ G) as [per Ep]. rewrite Ep. cbn [bind].
      eexists. split; [reflexivity|]. destruct P as [P1 P2 P3]. repeat (split; [constructor; assumption || reflexivity|]). right. right.
      destruct G as (e & f & dist & count & lag & G1 & G2 & G3 & G4 & G5 & G6 & G7 & G8 & G9 & G10).
      exists (c_i1 (c_fund c)), (c_i2 (c_fund c)), e, f, dist, count, lag, (c_harm (c_fund c)), per.
      unfold PD_Spec.candidate. unfold pd_threshold in *. cbn [with_fund p_zc p_bits p_min p_range p_weight p_period p_periodicity].
      split; [repeat (split; [assumption|]); assumption|]. split; [exact G9|].
      split; [unfold period_of in Ep; rewrite G2, G3 in Ep; exact Ep|]. split; [reflexivity|]. split; [exact Hh|exact G10].
Qed.

Lemma set_bitstream_ok p : pinv p -> z_state (p_zc p) = false -> (z_num (p_zc p) < 2 ^ 64)%N ->
  exists p', set_bitstream p = Some p' /\ pinv p' /\ p_zc p' = p_zc p /\ p_min p' = p_min p /\ p_range p' = p_range p /\
    p_weight p' = p_weight p /\ bits_spec p'.
Proof.
  intros [Zf B M] St Hn. unfold set_bitstream.
  destruct (clear_get 64 w64 (p_bits p) (proj1 B)) as (C1 & C2 & C3).
  destruct (set_loop_ok (p_zc p) (pd_threshold p) Zf St (N.to_nat (z_num (p_zc p))) 0%N (bs_clear (p_bits p), z_win (p_zc p), 0%N, 0%N)) as (st & E & B' & G & D1 & D2 & D3).
  { cbn [fst]. split; [exact C1|]. rewrite C2. apply B. }
  { lia. }
  { cbn [snd]. lia. }
  rewrite E. cbn [bind]. destruct st as [[[b lead] trail] np]. cbn [fst snd] in *.
  eexists. split; [reflexivity|]. split; [constructor; assumption|]. repeat (split; [reflexivity|]).
  unfold PD_Spec.bits_spec, some_edge, qualifies, pd_threshold. cbn [p_bits p_zc p_pulses p_half_empty p_mid].
  split; [|split].
  - intros j Hj. rewrite (G j Hj). rewrite C3 by (rewrite (proj2 B); exact Hj). unfold someq, qual, pd_threshold.
    destruct (existsb _ _); reflexivity.
  - rewrite D3. reflexivity.
  - rewrite M, D1, D2, (zf_win _ _ Zf). change (2 ^ 28)%N with 268435456%N in HW.
    replace (W / 2 <? W)%N with true by lia. replace (0 <? W / 2)%N with true by lia. reflexivity.
Qed.

(** harmonic() *)
Lemma mid_exact : B2R (z32 (Z.of_N (W / 2))) = IZR (Z.of_N (W / 2)) /\ fin (z32 (Z.of_N (W / 2))).
Proof.
  change (2 ^ 28)%N with 268435456%N in HW. unfold z32, mk32.
  destruct (fmk_exact (prec:=24) (emax:=128) (Z.of_N (W / 2)) 0) as [E F].
  - replace (Z.of_N (W / 2)) with (Z.of_N (W / 64) * 2 ^ 5)%Z by (change (2 ^ 5)%Z with 32%Z; lia).
    rewrite mult_IZR. change (IZR (2 ^ 5)) with (bpow radix2 5). rewrite Rmult_assoc, <- bpow_plus. apply fmt_F2R.
    + change (2 ^ 24)%Z with 16777216%Z. lia.
    + unfold SpecFloat.emin. lia.
  - change (bpow radix2 0) with 1%R. rewrite Rmult_1_r, <- abs_IZR. apply Rlt_trans with (bpow radix2 30); [|apply bpow_lt; lia].
    change (bpow radix2 30) with (IZR 1073741824). apply IZR_lt. lia.
  - rewrite E. change (bpow radix2 0) with 1%R. rewrite Rmult_1_r. auto.
Qed.
Lemma round_lag (t : f32) (m : Z) : fge t (z32 m) = true -> (0 <= m < 2 ^ 100)%Z -> flt t (z32 (Z.of_N (W / 2))) = true ->
  exists lag, f2size (fround t) = Some lag /\ (lag <= W / 2)%N /\ (forall k, B2R t = IZR (Z.of_N k) -> lag = k).
Proof.
  intros G Hm L. destruct mid_exact as [Em Fm]. destruct (z32_R m Hm) as (Vm & Fn & Bm). change (mk32 m 0) with (z32 m) in *.
  assert (Ft : fin t).
  { unfold fin. destruct t as [|[|]| |]; try reflexivity.
    - unfold fge in G. exfalso. destruct (z32 m) as [|[|]| |[|]]; discriminate.
    - exfalso. unfold fin in Fm. destruct (z32 (Z.of_N (W / 2))) as [|[|]| |[|]]; discriminate.
    - exfalso. destruct (z32 (Z.of_N (W / 2))) as [|[|]| |[|]]; discriminate. }
  apply (flt_true _ _ Ft Fm) in L. rewrite Em in L. change (fge t (z32 m)) with (fle (z32 m) t) in G. apply (fle_true _ _ Fn Ft) in G.
  assert (P0 : (0 <= IZR m)%R) by (apply IZR_le; lia). assert (P : (0 <= B2R t)%R) by lra.
  destruct (Bnearbyint_correct 24 128 eq_refl mode_NA t) as (V & F & _).
  assert (Ff : fin (fround t)) by (exact (eq_trans F Ft)).
  assert (V' : B2R (fround t) = round radix2 (FIX_exp 0) ZnearestA (B2R t)) by exact V.
  unfold f2size. rewrite ftrunc_gen by exact Ff. rewrite V'.
  assert (R : round radix2 (FIX_exp 0) ZnearestA (B2R t) = IZR (ZnearestA (B2R t))).
  { unfold round, F2R, scaled_mantissa, cexp, FIX_exp. cbn [Fnum Fexp]. change (bpow radix2 0) with 1%R. change (bpow radix2 (- 0)) with 1%R.
    rewrite !Rmult_1_r. reflexivity. }
  rewrite R, Ztrunc_IZR.
  assert (L0 : (0 <= ZnearestA (B2R t))%Z).
  { pose proof (@Zrnd_le ZnearestA valid_rnd_NA (IZR 0) (B2R t) P) as X. rewrite (@Zrnd_IZR ZnearestA valid_rnd_NA) in X. exact X. }
  assert (L1 : (ZnearestA (B2R t) <= Z.of_N (W / 2))%Z).
  { pose proof (@Zrnd_le ZnearestA valid_rnd_NA (B2R t) (IZR (Z.of_N (W / 2))) ltac:(lra)) as X. rewrite (@Zrnd_IZR ZnearestA valid_rnd_NA) in X. exact X. }
  change (2 ^ 28)%N with 268435456%N in HW.
  destruct ((0 <=? ZnearestA (B2R t)) && (ZnearestA (B2R t) <? 2 ^ 64))%Z%bool eqn:Q.
  2:{ change (2 ^ 64)%Z with 18446744073709551616%Z in Q. lia. }
  eexists. split; [reflexivity|]. split; [lia|]. intros k Ek. rewrite Ek, (@Zrnd_IZR ZnearestA valid_rnd_NA). apply N2Z.id.
Qed.
Lemma harmonic_ok p index : pinv p -> (p_min p < 2 ^ 64)%N ->
  exists r, pd_harmonic p index = Some r /\
    (r = fzero \/ r = p_periodicity p \/ exists lag, (2 * lag <= W)%N /\ r = fsub (z32 1) (fmul (z32 (Z.of_N (cnt (p_bits p) lag))) (p_weight p))).
Proof.
  intros [Zf B M] Hm. unfold pd_harmonic. destruct (0 <? index)%N; [|eexists; split; [reflexivity|auto]].
  destruct (index =? 1)%N; [eexists; split; [reflexivity|auto]|].
  destruct (_ && _)%bool eqn:G; [|eexists; split; [reflexivity|auto]].
  apply andb_true_iff in G. destruct G as [G1 G2]. rewrite M in G2.
  destruct (round_lag _ _ G1 ltac:(change (2 ^ 64)%N with 18446744073709551616%N in Hm; change (2 ^ 100)%Z with 1267650600228229401496703205376%Z; lia) G2) as (lag & El & Ll & _).
  rewrite El. cbn [bind]. rewrite (acf_cnt _ _ B) by lia. cbn [bind]. eexists. split; [reflexivity|]. right. right. exists lag. split; [lia|reflexivity].
Qed.

(** predict_period() *)
Lemma predict_inner_ok p e2 j : pinv p -> (j < z_num (p_zc p))%N -> zc_at (p_zc p) j = Some e2 -> forall k, (N.of_nat k <= j)%N ->
  exists r, predict_inner p e2 k = Some r /\ match r with Some v => pred_spec p v | None => True end.
Proof.
  intros [Zf B M] Hj Aj. induction k as [|k IH]; intros Hk; [exists None; auto|].
  cbn [predict_inner]. destruct (zf_at _ _ Zf (N.of_nat k) ltac:(lia)) as (e & Ae & _). rewrite Ae. cbn [bind].
  destruct (fge _ _); [|apply IH; lia].
  pose proof (zf_ord _ _ Zf (N.of_nat k) j e e2 ltac:(lia) Ae Aj) as O. unfold zi_frac_period.
  destruct (Z.leb_spec (zi_lead e) (zi_lead e2)) as [_|X]; [|lia]. cbn [bind].
  destruct (fgt _ _) eqn:Gt; [|apply IH; lia]. eexists. split; [reflexivity|]. right. exists (N.of_nat k), j, e, e2.
  split; [lia|]. split; [exact Ae|]. split; [exact Aj|]. split; [|exact Gt].
  unfold zi_frac_period. destruct (Z.leb_spec (zi_lead e) (zi_lead e2)) as [_|X]; [reflexivity|lia].
Qed.
Lemma predict_outer_ok p : pinv p -> forall k, (N.of_nat k <= z_num (p_zc p))%N ->
  exists r, predict_outer p k = Some r /\ match r with Some v => pred_spec p v | None => True end.
Proof.
  intros P. induction k as [|k IH]; intros Hk; [exists None; auto|].
  destruct k as [|k]; [exists None; auto|]. cbn [predict_outer].
  destruct (zf_at _ _ (pi_zc _ P) (N.of_nat (S k)) ltac:(lia)) as (e & Ae & _). rewrite Ae. cbn [bind].
  destruct (fge _ _); [|apply IH; lia].
  destruct (predict_inner_ok p e (N.of_nat (S k)) P ltac:(lia) Ae (S k) ltac:(lia)) as (r & Er & Hr). rewrite Er. cbn [bind].
  eexists. split; [reflexivity|]. destruct r; [exact Hr|]. left. reflexivity.
Qed.
Lemma predict_ok_all p : pinv p ->
  exists p' v, pd_predict p = Some (p', v) /\ p_zc p' = p_zc p /\ (pred_spec p v \/ v = p_predicted p).
Proof.
  intros P. unfold pd_predict. destruct (_ && _)%bool; [|exists p, (p_predicted p); auto].
  assert (X : exists r, (if (1 <? z_num (p_zc p))%N then predict_outer p (N.to_nat (z_num (p_zc p))) else Some None) = Some r /\ match r with Some v => pred_spec p v | None => True end).
  { destruct (1 <? z_num (p_zc p))%N; [apply predict_outer_ok; auto; lia|exists None; auto]. }
  destruct X as (r & Er & Hr). rewrite Er. cbn [bind]. eexists _, _. split; [reflexivity|].
  split; [reflexivity|]. destruct r; auto.
Qed.
End PD.

(** periodicity is in [0,1] *)
Section Pty.
Local Open Scope R_scope.
Variable W : N.
Hypothesis HW : (128 <= W <= 2 ^ 28)%N.
Definition weight_of : f32 := to32 (fdiv (mk64 2 0) (mk64 (Z.of_N W) 0)).
Lemma weight_R : fin weight_of /\ 0 < B2R weight_of /\ B2R weight_of <= 2 / IZR (Z.of_N W) * (1 + / 8000000) /\
  (W = 128%N -> B2R weight_of = / 64).
Proof.
  change (2 ^ 28)%N with 268435456%N in HW.
  destruct (mk64_small 2 0 ltac:(reflexivity) ltac:(lia)) as [V2 F2]. change (bpow radix2 0) with 1 in V2.
  destruct (mk64_small (Z.of_N W) 0 ltac:(change (2 ^ 53)%Z with 9007199254740992%Z; lia) ltac:(lia)) as [VW FW]. change (bpow radix2 0) with 1 in VW.
  rewrite Rmult_1_r in V2, VW.
  assert (BW : 128 <= IZR (Z.of_N W) <= 268435456) by (split; apply IZR_le; lia).
  set (x := 2 / IZR (Z.of_N W)).
  assert (BX : / 134217728 <= x <= / 64).
  { unfold x, Rdiv. split.
    - replace (/ 134217728) with (2 * / 268435456) by lra. apply Rmult_le_compat_l; [lra|]. apply Rinv_le; lra.
    - replace (/ 64) with (2 * / 128) by lra. apply Rmult_le_compat_l; [lra|]. apply Rinv_le; lra. }
  assert (S1 : bpow radix2 (-27) <= x) by (change (bpow radix2 (-27)) with (/ 134217728); lra).
  assert (L64 : bpow radix2 (-1022) <= x) by (apply Rle_trans with (2 := S1); apply bpow_le; lia).
  pose proof (rnd_rel64_pos x L64) as R1.
  destruct (fdiv_R (mk64 2 0) (mk64 (Z.of_N W) 0) F2) as [VD FD].
  { rewrite VW. lra. }
  { rewrite V2, VW. fold x. rewrite Rabs_pos_eq by lra. apply Rle_lt_trans with 1; [lra|]. change 1 with (bpow radix2 0). apply bpow_lt. lia. }
  rewrite V2, VW in VD. fold x in VD. set (d := rnd 53 1024 x) in *.
  assert (L32 : bpow radix2 (-126) <= d).
  { apply Rle_trans with (bpow radix2 (-28)); [apply bpow_le; lia|]. change (bpow radix2 (-28)) with (/ 268435456). lra. }
  pose proof (rnd_rel32_pos d L32) as R2.
  destruct (fconv_R (p':=24) (e':=128) (fdiv (mk64 2 0) (mk64 (Z.of_N W) 0)) FD) as [VC FC].
  { rewrite VD. rewrite Rabs_pos_eq by lra. apply Rle_lt_trans with 1; [lra|]. change 1 with (bpow radix2 0). apply bpow_lt. lia. }
  rewrite VD in VC. change (fconv _) with weight_of in VC, FC. rewrite VC. split; [exact FC|]. split; [lra|]. split; [nra|].
  intros ->. unfold x in *. change (IZR (Z.of_N 128)) with 128 in *. assert (Ex : 2 / 128 = bpow radix2 (-6)) by (change (bpow radix2 (-6)) with (/ 64); lra).
  unfold d. rewrite Ex. rewrite (rnd_fmt (prec:=53) (emax:=1024)) by (apply fmt_bpow; unfold SpecFloat.emin; lia).
  rewrite rnd_fmt by (apply fmt_bpow; unfold SpecFloat.emin; lia). reflexivity.
Qed.
Lemma pty_range (c : N) : (c <= N.max (W / 64 / 2 - 1) 1 * 64)%N -> (W mod 64 = 0)%N ->
  let r := fsub (z32 1) (fmul (z32 (Z.of_N c)) weight_of) in fin r /\ 0 <= B2R r <= 1 /\ (c = 0%N -> B2R r = 1).
Proof.
  intros Hc H64. cbn zeta. destruct weight_R as (Fw & Pw & Uw & Ew). change (2 ^ 28)%N with 268435456%N in HW.
  destruct (z32_R (Z.of_N c)) as (Vc & Fc & Bc).
  { change (2 ^ 100)%Z with 1267650600228229401496703205376%Z. lia. }
  change (mk32 (Z.of_N c) 0) with (z32 (Z.of_N c)) in *.
  destruct (mk32_small 1 0 ltac:(reflexivity) ltac:(lia)) as [V1 F1]. change (mk32 1 0) with (z32 1) in *. change (bpow radix2 0) with 1 in V1. rewrite Rmult_1_r in V1.
  assert (C0 : 0 <= IZR (Z.of_N c)) by (apply IZR_le; lia).
  assert (BW : 128 <= IZR (Z.of_N W) <= 268435456) by (split; apply IZR_le; lia).
  assert (P0 : 0 <= B2R (z32 (Z.of_N c))) by lra.
  assert (PR : B2R (z32 (Z.of_N c)) * B2R weight_of <= 1).
  { destruct (N.eq_dec W 128) as [E|N].
    - rewrite (Ew E). assert (Hc' : (c <= 64)%N) by (rewrite E in Hc; exact Hc).
      destruct (mk32_small (Z.of_N c) 0 ltac:(change (2 ^ 24)%Z with 16777216%Z; lia) ltac:(lia)) as [Vx _].
      change (mk32 (Z.of_N c) 0) with (z32 (Z.of_N c)) in Vx. rewrite Vx. change (bpow radix2 0) with 1. assert (IZR (Z.of_N c) <= 64) by (apply IZR_le; lia). lra.
    - assert (Q : (Z.of_N c * 2 <= Z.of_N W - 64)%Z) by lia.
      apply IZR_le in Q. rewrite minus_IZR, mult_IZR in Q.
      set (w := IZR (Z.of_N W)) in *. set (cc := IZR (Z.of_N c)) in *.
      apply Rle_trans with (cc * (1 + / 16777216) * (2 / w * (1 + / 8000000))).
      { apply Rmult_le_compat; lra. }
      replace (cc * (1 + / 16777216) * (2 / w * (1 + / 8000000))) with (cc * 2 * ((1 + / 16777216) * (1 + / 8000000)) / w) by (field; lra).
      apply Rmult_le_reg_r with w; [lra|]. unfold Rdiv. rewrite Rmult_assoc, Rinv_l, Rmult_1_r, Rmult_1_l by lra.
      apply Rle_trans with ((w - 64) * ((1 + / 16777216) * (1 + / 8000000))); [apply Rmult_le_compat_r; lra|]. lra. }
  assert (F1' : fmt 24 128 1) by (change 1 with (bpow radix2 0); apply fmt_bpow; unfold SpecFloat.emin; lia).
  assert (B1 : 1 < bpow radix2 128) by (change 1 with (bpow radix2 0); apply bpow_lt; lia).
  assert (PP : 0 <= B2R (z32 (Z.of_N c)) * B2R weight_of) by (apply Rmult_le_pos; lra).
  destruct (fmul_R (z32 (Z.of_N c)) weight_of Fc Fw) as [Vp Fp].
  { apply Rle_lt_trans with 1; [|exact B1]. apply rnd_abs_le; [exact F1'|]. rewrite Rabs_pos_eq; assumption. }
  assert (Rp : 0 <= B2R (fmul (z32 (Z.of_N c)) weight_of) <= 1).
  { rewrite Vp. split; [apply rnd_ge_fmt; [apply fmt_0|exact PP]|apply rnd_le_fmt; assumption]. }
  set (pr := fmul (z32 (Z.of_N c)) weight_of) in *.
  assert (RS : Rabs (1 - B2R pr) <= 1) by (rewrite Rabs_pos_eq; lra).
  destruct (fsub_R (z32 1) pr F1 Fp) as [Vs Fs].
  { rewrite V1. apply Rle_lt_trans with 1; [|exact B1]. apply rnd_abs_le; [exact F1'|exact RS]. }
  split; [exact Fs|]. rewrite Vs, V1. split.
  - split; [apply rnd_ge_fmt; [apply fmt_0|lra]|apply rnd_le_fmt; [exact F1'|lra]].
  - intros ->. change (IZR (Z.of_N 0)) with 0 in *. assert (Z0 : B2R (z32 (Z.of_N 0)) = 0) by lra. rewrite Vp, Z0, Rmult_0_l, rnd_0, Rminus_0_r. apply rnd_fmt. exact F1'.
Qed.
End Pty.

(** the whole run *)
Lemma pd_run_snoc oob xs : forall p x, pd_run oob p (xs ++ [x]) = do q <- pd_run oob p xs ; pd_step oob q x.
Proof.
  induction xs as [|y xs IH]; intros p x; cbn [app pd_run].
  - cbn [bind]. destruct (pd_step oob p x); reflexivity.
  - destruct (pd_step oob p y); cbn [bind]; [apply IH|reflexivity].
Qed.
Lemma zc_run_snoc xs : forall p x, zc_run p (xs ++ [x]) = do q <- zc_run p xs ; zc_step q x.
Proof.
  induction xs as [|y xs IH]; intros p x; cbn [app zc_run].
  - cbn [bind]. destruct (zc_step p x); reflexivity.
  - destruct (zc_step p y); cbn [bind]; [apply IH|reflexivity].
Qed.

Lemma step_facts oob W z p x : (128 <= W <= 2 ^ 28)%N -> (W mod 64 = 0)%N -> zfacts W z -> pinv W p -> zc_step (p_zc p) x = Some z ->
  exists p', pd_step oob p x = Some p' /\ p_zc p' = z /\ pinv W p' /\ p_min p' = p_min p /\ p_range p' = p_range p /\ p_weight p' = p_weight p /\
    (z_ready z = true -> bits_spec W p' /\ fund_spec W oob p').
Proof.
  intros B M Zf [P1 P2 P3] E. unfold pd_step. rewrite E. cbn [bind].
  set (p1 := mkPd z _ _ _ _ _ _ _ _ _ _ _ _ _).
  assert (I1 : pinv W p1) by (constructor; assumption).
  destruct (z_ready z) eqn:Rd.
  - destruct (zf_ready _ _ Zf Rd) as [St Nm].
    destruct (set_bitstream_ok W B M p1 I1 St (zf_num _ _ Zf)) as (p2 & E2 & I2 & Z2 & M2 & R2 & W2 & S2). rewrite E2. cbn [bind].
    destruct (autocorrelate_ok W B M oob p2 I2) as (p3 & E3 & I3 & Z3 & B3 & M3 & R3 & W3 & N3 & H3 & S3).
    { rewrite Z2. exact Nm. }
    exists p3. split; [exact E3|]. split; [rewrite Z3, Z2; reflexivity|]. split; [exact I3|]. split; [rewrite M3, M2; reflexivity|].
    split; [rewrite R3, R2; reflexivity|]. split; [rewrite W3, W2; reflexivity|]. intros _. split; [|exact S3].
    unfold bits_spec, some_edge, qualifies, covers, pd_threshold in *. rewrite B3, Z3, N3, H3. exact S2.
  - exists p1. split; [reflexivity|]. split; [reflexivity|]. split; [exact I1|]. repeat (split; [reflexivity|]). discriminate.
Qed.

Lemma pd_run_ok oob hyst n min range xs : (n <= 2 ^ 28)%N ->
  exists p0 p, pd_make hyst n min range = Some p0 /\ pd_run oob p0 xs = Some p /\
    zc_make hyst n = Some (p_zc p0) /\ zc_run (p_zc p0) xs = Some (p_zc p) /\
    (128 <= z_win (p_zc p0) <= 2 ^ 28)%N /\ (z_win (p_zc p0) mod 64 = 0)%N /\
    pinv (z_win (p_zc p0)) p /\ p_min p = min /\ p_range p = range /\ p_weight p = weight_of (z_win (p_zc p0)) /\
    (z_ready (p_zc p) = true -> bits_spec (z_win (p_zc p0)) p /\ fund_spec (z_win (p_zc p0)) oob p).
Proof.
  intros Hn. unfold pd_make. destruct (run_facts hyst n [] Hn) as (z0 & z & E0 & Ez & B & M & Zf). cbn [zc_run] in Ez. injection Ez as <-.
  rewrite E0. cbn [bind]. set (p0 := mkPd z0 _ _ _ _ _ _ _ _ _ _ _ _ _). exists p0. change (p_zc p0) with z0.
  induction xs as [|x xs IH] using rev_ind.
  - exists p0. split; [reflexivity|]. split; [reflexivity|]. split; [reflexivity|]. split; [reflexivity|].
    split; [exact B|]. split; [exact M|]. split.
    + constructor; [exact Zf| |reflexivity].
      destruct (make_spec 64 w64 (z_win z0)) as (A1 & A2 & A3 & A4 & A5).
      { change (2 ^ 62)%N with 4611686018427387904%N. change (2 ^ 28)%N with 268435456%N in B. lia. }
      split; [exact A1|]. change (p_bits p0) with (bs_make 64 (z_win z0)). lia.
    + repeat (split; [reflexivity|]). intros Q.
      exfalso. change (p_zc p0) with z0 in Q. unfold zc_make in E0. destruct (rb_make _ _); [|discriminate]. cbn [bind] in E0. injection E0 as <-. discriminate Q.
  - destruct IH as (p & Ep0 & Ep & H1 & H2 & _ & _ & I & Hm & Hr & Hw & _).
    destruct (run_facts hyst n (xs ++ [x]) Hn) as (z0' & z' & E0' & Ez' & _ & _ & Zf'). rewrite E0 in E0'. injection E0' as <-.
    assert (Es : zc_step (p_zc p) x = Some z') by (rewrite zc_run_snoc, H2 in Ez'; exact Ez').
    destruct (step_facts oob (z_win z0) z' p x B M Zf' I Es) as (p' & Ep' & Z' & I' & M' & R' & W' & S').
    exists p'. split; [reflexivity|]. split; [rewrite pd_run_snoc, Ep; exact Ep'|]. split; [reflexivity|]. rewrite Z'. split; [exact Ez'|].
    split; [exact B|]. split; [exact M|]. split; [exact I'|]. split; [congruence|]. split; [congruence|]. split; [congruence|]. exact S'.
Qed.

Lemma pty_in W b lag : (128 <= W <= 2 ^ 28)%N -> (W mod 64 = 0)%N ->
  let r := fsub (z32 1) (fmul (z32 (Z.of_N (cnt W b lag))) (weight_of W)) in is_finite r = true /\ (0 <= B2R r <= 1)%R.
Proof. intros B M. destruct (pty_range W B (cnt W b lag) (cnt_le W B M b lag) M) as (F & R & _). split; [exact F|exact R]. Qed.

Lemma pd_final : forall (oob : f32 -> Z) (hyst : f32) (n min : N) (range : Z) (xs : list f32),
  (n <= 2 ^ 28)%N -> (min < 2 ^ 64)%N ->
  exists p0 p, pd_make hyst n min range = Some p0 /\ pd_run oob p0 xs = Some p /\
    let W := z_win (p_zc p) in
    (n <= W)%N /\ bs_size 64 (p_bits p) = W /\ p_min p = min /\ p_range p = range /\
    (z_ready (p_zc p) = true ->
       bits_spec W p /\ fund_spec W oob p /\
       (p_periodicity p = z32 (-1) \/ (is_finite (p_periodicity p) = true /\ (0 <= B2R (p_periodicity p) <= 1)%R))) /\
    (forall index, exists r, pd_harmonic p index = Some r /\
       (r = fzero \/ r = p_periodicity p \/ (is_finite r = true /\ (0 <= B2R r <= 1)%R))) /\
    (exists p' v, pd_predict p = Some (p', v) /\ p_zc p' = p_zc p /\ (pred_spec p v \/ v = p_predicted p)).
Proof.
  intros oob hyst n min range xs Hn Hm.
  destruct (pd_run_ok oob hyst n min range xs Hn) as (p0 & p & E0 & E1 & Z0 & Z1 & B & M & I & Hmin & Hr & Hw & S).
  destruct (zc_run_chain hyst n xs Hn) as (z0 & z & E & J & Y0 & Y1 & Ln & _). rewrite Z0 in Y0. injection Y0 as <-.
  pose proof (zf_win _ _ (pi_zc _ _ I)) as Ew.
  exists p0, p. split; [exact E0|]. split; [exact E1|]. cbn zeta. rewrite Ew. split; [exact Ln|].
  split; [exact (proj2 (pi_bits _ _ I))|]. split; [exact Hmin|]. split; [exact Hr|]. split; [|split].
  - intros Rd. destruct (S Rd) as [S1 S2]. split; [exact S1|]. split; [exact S2|].
    destruct S2 as [[P _]|[(_ & P & _)|(i & j & e & f & dist & count & lag & hm & per & _ & (_ & C & _) & _ & _ & _ & P)]].
    + left. exact P.
    + right. rewrite P. split; [reflexivity|]. cbn. lra.
    + right. rewrite P, Hw, C. exact (pty_in _ _ _ B M).
  - intros index. rewrite <- Hmin in Hm. destruct (harmonic_ok _ B M p index I Hm) as (r & Er & [H|[H|(lag & _ & H)]]); exists r; (split; [exact Er|]); auto.
    right. right. rewrite H, Hw. exact (pty_in _ _ _ B M).
  - destruct (predict_ok_all _ B M p I) as (p' & v & Ep & Zp & H). exists p', v. auto.
Qed.
