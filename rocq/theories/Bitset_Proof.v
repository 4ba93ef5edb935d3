From Verif Require Import Common CommonFacts Bitset_Model Bitset_Spec.
Local Open Scope N_scope.

(** counting lemmas *)
Lemma countN_ext f g n : (forall j, j < N.of_nat n -> f j = g j) -> countN f n = countN g n.
Proof.
  induction n as [|n IH]; intros H; [reflexivity|]. cbn [countN].
  rewrite IH by (intros j Hj; apply H; lia). rewrite H by lia. reflexivity.
Qed.
Lemma countN_app f n m :
  countN f (n + m) = countN f n + countN (fun j => f (N.of_nat n + j)) m.
Proof.
  induction m as [|m IH]; [rewrite Nat.add_0_r; cbn; lia|].
  rewrite Nat.add_succ_r. cbn [countN]. rewrite IH.
  replace (N.of_nat (n + m)) with (N.of_nat n + N.of_nat m) by lia. lia.
Qed.
Lemma countN_S f n : countN f (S n) = (if f 0 then 1 else 0) + countN (fun j => f (j + 1)) n.
Proof.
  change (S n) with (1 + n)%nat. rewrite countN_app. cbn [countN].
  change (N.of_nat 0) with 0. rewrite N.add_0_l. f_equal.
  apply countN_ext. intros j _. f_equal. lia.
Qed.
Lemma countN_false n : countN (fun _ => false) n = 0.
Proof. induction n; cbn; lia. Qed.

Section P.
Variable w : N.
Hypothesis Hw : word_width w.

Lemma w_pos : 0 < w. Proof. destruct Hw as [->|[->|[->| ->]]]; lia. Qed.
Lemma w_le : w <= 64. Proof. destruct Hw as [->|[->|[->| ->]]]; lia. Qed.
Lemma w_pow2 : exists k, w = 2 ^ k /\ k <= 6.
Proof. destruct Hw as [->|[->|[->| ->]]]; [exists 3|exists 4|exists 5|exists 6]; split; auto; lia. Qed.
Lemma land_w x : N.land x (w - 1) = x mod w.
Proof. destruct w_pow2 as (k & -> & _). apply land_pow2_pred. Qed.
Local Hint Resolve w_pos : core.

Definition wd (b : list N) (p : N) : N := nth (N.to_nat p) b 0.
Definition bit (b : list N) (j : N) : bool := N.testbit (wd b (j / w)) (j mod w).

Lemma vget_wd b p : p < N.of_nat (length b) -> vget b p = Some (wd b p).
Proof. intros H. unfold vget, wd. apply nth_error_nth'. lia. Qed.

Lemma wd_lset b p x q : p < N.of_nat (length b) ->
  wd (lset b (N.to_nat p) x) q = if q =? p then x else wd b q.
Proof.
  intros H. unfold wd. pose proof (vget_lset b p x q H) as G. unfold vget in G.
  destruct (N.eqb_spec q p) as [->|Hn].
  - apply nth_error_nth. exact G.
  - destruct (nth_error b (N.to_nat q)) eqn:E.
    + rewrite (nth_error_nth _ _ 0 G), (nth_error_nth _ _ 0 E). reflexivity.
    + apply nth_error_None in G, E. rewrite !nth_overflow by auto. reflexivity.
Qed.

Lemma wf_wd b p : bs_wf w b -> wd b p < 2 ^ w.
Proof.
  intros [H _]. unfold wd. destruct (Nat.ltb_spec (N.to_nat p) (length b)) as [L|L].
  - rewrite Forall_forall in H. apply H. apply nth_In. exact L.
  - rewrite nth_overflow by auto. apply pow2_pos.
Qed.

Lemma testbit_high x k : x < 2 ^ w -> w <= k -> N.testbit x k = false.
Proof.
  intros H L. destruct (N.eq_dec x 0) as [->|Hn]; [apply N.bits_0|].
  apply N.bits_above_log2. apply N.log2_lt_pow2 in H; lia.
Qed.

Lemma lt_pow2_testbit x n : (forall k, n <= k -> N.testbit x k = false) -> x < 2 ^ n.
Proof.
  intros H. destruct (N.eq_dec x 0) as [->|Hn]; [apply pow2_pos|].
  apply N.log2_lt_pow2; [lia|].
  destruct (N.lt_ge_cases (N.log2 x) n) as [L|L]; auto.
  specialize (H _ L). rewrite N.bit_log2 in H by auto. discriminate.
Qed.

Lemma Forall_lset (P : N -> Prop) b i x : Forall P b -> P x -> Forall P (lset b i x).
Proof.
  intros H Hx. revert i; induction H as [|a l Ha Hl IH]; intros [|i]; simpl; constructor; auto.
Qed.

Lemma wf_lset b i x : bs_wf w b -> x < 2 ^ w -> bs_wf w (lset b i x).
Proof.
  intros [H1 H2] Hx. split; [apply Forall_lset; auto|].
  unfold bs_size in *. rewrite lset_length. exact H2.
Qed.

(** get is [bit] in range *)
Lemma land_bit_nonzero x s : negb (N.land x (N.shiftl 1 s) =? 0) = N.testbit x s.
Proof.
  rewrite N.shiftl_1_l.
  destruct (N.testbit x s) eqn:E.
  - destruct (N.eqb_spec (N.land x (2 ^ s)) 0) as [H|H]; auto.
    assert (F : N.testbit (N.land x (2 ^ s)) s = false) by (rewrite H; apply N.bits_0).
    rewrite N.land_spec, E, N.pow2_bits_true in F. discriminate.
  - replace (N.land x (2 ^ s)) with 0; auto.
    symmetry. apply N.bits_inj. intros k. rewrite N.land_spec, N.bits_0.
    destruct (N.eq_dec k s) as [->|Hn]; [rewrite E; auto|].
    rewrite N.pow2_bits_false by auto. apply andb_false_r.
Qed.

Lemma div_lt_size j b : j < bs_size w b -> j / w < N.of_nat (length b).
Proof. intros H. pose proof w_pos. apply N.div_lt_upper_bound; unfold bs_size in H; lia. Qed.

Lemma get_bit b j : j < bs_size w b -> bs_get w b j = Some (bit b j).
Proof.
  intros H. unfold bs_get. destruct (N.ltb_spec (bs_size w b) j); [lia|].
  rewrite vget_wd by (apply div_lt_size; auto). cbn [bind]. f_equal.
  apply land_bit_nonzero.
Qed.

(** bit after a whole word write *)
Lemma bit_lset b p x j : p < N.of_nat (length b) ->
  bit (lset b (N.to_nat p) x) j = if (j / w =? p) then N.testbit x (j mod w) else bit b j.
Proof. intros H. unfold bit. rewrite wd_lset by auto. destruct (j / w =? p); reflexivity. Qed.

Definition is_mask (m : N) (lo hi : N) : Prop :=
  forall k, N.testbit m k = (lo <=? k) && (k <? hi).

Lemma mask_ones n : is_mask (N.ones n) 0 n.
Proof.
  intros k. destruct (N.ltb_spec k n) as [H|H].
  - rewrite N.ones_spec_low by auto. destruct (N.leb_spec 0 k); auto; lia.
  - rewrite N.ones_spec_high by auto. rewrite andb_false_r. reflexivity.
Qed.
Lemma mask_shr m : m <= w -> is_mask (N.shiftr (all_ones w) m) 0 (w - m).
Proof.
  intros Hm k. unfold all_ones. rewrite N.shiftr_spec by lia. rewrite mask_ones.
  destruct (N.leb_spec 0 k), (N.leb_spec 0 (k + m)), (N.ltb_spec (k + m) w), (N.ltb_spec k (w - m)); simpl; auto; lia.
Qed.
Lemma mask_not m : m <= w -> is_mask (N.lxor (all_ones w) (N.shiftr (all_ones w) m)) (w - m) w.
Proof.
  intros Hm k. rewrite N.lxor_spec, (mask_shr m Hm). unfold all_ones. rewrite mask_ones.
  destruct (N.leb_spec 0 k), (N.leb_spec (w - m) k), (N.ltb_spec k w), (N.ltb_spec k (w - m)); simpl; auto; lia.
Qed.
Lemma mask_and a b c : c <= b -> forall m m', is_mask m a b -> is_mask m' 0 c -> is_mask (N.land m m') a c.
Proof.
  intros H m m' H1 H2 k. rewrite N.land_spec, H1, H2.
  destruct (N.leb_spec 0 k), (N.leb_spec a k), (N.ltb_spec k b), (N.ltb_spec k c); simpl; auto; lia.
Qed.
Lemma mask_low n : is_mask (N.shiftl 1 n - 1) 0 n.
Proof. rewrite N.shiftl_1_l. replace (2 ^ n - 1) with (N.ones n) by (rewrite N.ones_equiv; lia). apply mask_ones. Qed.

Lemma blend_spec b p m lo hi val :
  bs_wf w b -> p < N.of_nat (length b) -> is_mask m lo hi -> hi <= w ->
  exists b', bs_blend b p m val = Some b' /\ bs_wf w b' /\ length b' = length b /\
    forall j, bit b' j = if (p * w + lo <=? j) && (j <? p * w + hi) then val else bit b j.
Proof.
  intros Hwf Hp Hm Hhi. pose proof w_pos as Wp. unfold bs_blend. rewrite vget_wd by auto. cbn [bind].
  rewrite vset_some by auto. eexists; split; [reflexivity|].
  assert (Hlt : (if val then N.lor (wd b p) m else N.ldiff (wd b p) m) < 2 ^ w).
  { apply lt_pow2_testbit. intros k Hk. destruct val.
    - rewrite N.lor_spec, (testbit_high _ k (wf_wd b p Hwf) Hk), Hm.
      destruct (N.ltb_spec k hi); [lia|]. apply andb_false_r.
    - rewrite N.ldiff_spec, (testbit_high _ k (wf_wd b p Hwf) Hk). reflexivity. }
  split; [apply wf_lset; auto|]. split; [apply lset_length|].
  intros j. rewrite bit_lset by auto.
  pose proof (N.div_mod j w ltac:(lia)) as Dj. pose proof (N.mod_lt j w ltac:(lia)) as Mj.
  destruct (N.eqb_spec (j / w) p) as [E|E].
  - rewrite E in Dj.
    assert (Ecase : N.testbit (if val then N.lor (wd b p) m else N.ldiff (wd b p) m) (j mod w)
             = if N.testbit m (j mod w) then val else N.testbit (wd b p) (j mod w)).
    { destruct val; [rewrite N.lor_spec|rewrite N.ldiff_spec];
      destruct (N.testbit (wd b p) (j mod w)), (N.testbit m (j mod w)); reflexivity. }
    rewrite Ecase, Hm. unfold bit. rewrite E.
    replace (p * w + lo <=? j) with (lo <=? j mod w)
      by (destruct (N.leb_spec lo (j mod w)), (N.leb_spec (p * w + lo) j); auto; lia).
    replace (j <? p * w + hi) with (j mod w <? hi)
      by (destruct (N.ltb_spec (j mod w) hi), (N.ltb_spec j (p * w + hi)); auto; lia).
    reflexivity.
  - destruct (N.leb_spec (p * w + lo) j) as [H1|H1]; auto.
    destruct (N.ltb_spec j (p * w + hi)) as [H2|H2]; auto.
    exfalso. apply E. symmetry. apply (N.div_unique j w p (j - p * w)); lia.
Qed.

Lemma fill_spec fuel : forall b p n val,
  bs_wf w b -> p * w + n <= bs_size w b -> (N.to_nat (n / w) < fuel)%nat ->
  exists b' , bs_fill w fuel b p n (if val : bool then all_ones w else 0) = Some (b', p + n / w, n mod w) /\
    bs_wf w b' /\ length b' = length b /\
    forall j, bit b' j = if (p * w <=? j) && (j <? (p + n / w) * w) then val else bit b j.
Proof.
  induction fuel as [|f IH]; intros b p n val Hwf Hs Hf; [inversion Hf|].
  pose proof w_pos as Wp.
  cbn [bs_fill]. destruct (N.ltb_spec n w) as [Hn|Hn].
  - rewrite N.div_small, N.mod_small, N.add_0_r by auto. exists b.
    split; [reflexivity|]. split; [auto|]. split; [auto|].
    intros j. destruct (N.leb_spec (p * w) j), (N.ltb_spec j (p * w)); auto; lia.
  - assert (Hp : p < N.of_nat (length b)) by (unfold bs_size in Hs; nia).
    rewrite vset_some by auto. cbn [bind].
    set (v := if val then all_ones w else 0).
    assert (Hv : v < 2 ^ w).
    { subst v. unfold all_ones. destruct val; [rewrite N.ones_equiv|]; pose proof (pow2_pos w); lia. }
    assert (Hdiv : n / w = (n - w) / w + 1).
    { replace n with ((n - w) + 1 * w) at 1 by lia. rewrite N.div_add by lia. reflexivity. }
    assert (Hmod : n mod w = (n - w) mod w).
    { replace n with ((n - w) + 1 * w) at 1 by lia. rewrite N.mod_add by lia. reflexivity. }
    destruct (IH (lset b (N.to_nat p) v) (p + 1) (n - w) val) as (b' & E & Hwf' & Hlen & Hb).
    + apply wf_lset; auto.
    + unfold bs_size in *. rewrite lset_length. lia.
    + lia.
    + exists b'. subst v. rewrite E, Hdiv, Hmod.
      split; [do 2 f_equal; f_equal; lia|].
      split; [auto|]. split; [rewrite Hlen; apply lset_length|].
      intros j. rewrite Hb, bit_lset by auto.
      pose proof (N.div_mod j w ltac:(lia)) as Dj. pose proof (N.mod_lt j w ltac:(lia)) as Mj.
      replace (p + ((n - w) / w + 1)) with (p + 1 + (n - w) / w) by lia.
      destruct (N.eqb_spec (j / w) p) as [Ej|Ej].
      * assert (Hj : p * w <= j < (p + 1) * w) by (rewrite Ej in Dj; lia).
        destruct (N.leb_spec ((p + 1) * w) j); [lia|].
        destruct (N.leb_spec (p * w) j); [|lia].
        destruct (N.ltb_spec j ((p + 1 + (n - w) / w) * w)) as [_|H4].
        -- cbn [andb]. destruct val; [|apply N.bits_0].
           unfold all_ones. rewrite mask_ones. destruct (N.leb_spec 0 (j mod w)), (N.ltb_spec (j mod w) w); auto; lia.
        -- assert ((p + 1) * w <= (p + 1 + (n - w) / w) * w) by (apply N.mul_le_mono_r; lia). lia.
      * assert (Hj : j < p * w \/ (p + 1) * w <= j).
        { destruct (N.lt_ge_cases (j / w) p); [left|right]; nia. }
        destruct (N.leb_spec ((p + 1) * w) j), (N.leb_spec (p * w) j); auto; lia.
Qed.

Definition in_range (i n size j : N) : bool := (i <=? j) && (j <? N.min (i + n) size).

Lemma set_spec b i n val :
  bs_wf w b -> i + n < 2 ^ 64 ->
  exists b', bs_set w b i n val = Some b' /\ bs_wf w b' /\ length b' = length b /\
    forall j, bit b' j = if in_range i n (bs_size w b) j then val else bit b j.
Proof.
  intros Hwf Hov. pose proof w_pos as Wp. pose proof w_le as Wl.
  unfold bs_set. destruct (N.ltb_spec (bs_size w b) i) as [Hi|Hi].
  { exists b. repeat split; auto; try apply Hwf. intros j. unfold in_range.
    destruct (N.leb_spec i j), (N.ltb_spec j (N.min (i + n) (bs_size w b))); auto; lia. }
  unfold add64. rewrite (wrap64_small (i + n)) by (unfold W64; auto).
  pose proof Hwf as [_ Hsz].
  assert (Hsub : sub64 (bs_size w b) i = bs_size w b - i).
  { unfold sub64. rewrite (wrap64_small i) by (unfold W64; lia).
    unfold wrap64. replace (bs_size w b + (W64 - i)) with ((bs_size w b - i) + 1 * W64) by (unfold W64 in *; lia).
    rewrite N.mod_add by discriminate. apply N.mod_small. unfold W64. lia. }
  rewrite Hsub.
  set (n' := if bs_size w b <? i + n then bs_size w b - i else n).
  assert (Hn' : i + n' = N.min (i + n) (bs_size w b)).
  { subst n'. destruct (N.ltb_spec (bs_size w b) (i + n)); lia. }
  unfold in_range. rewrite <- Hn'. assert (Hle : i + n' <= bs_size w b) by lia.
  clearbody n'. clear Hn' Hsub Hov n.
  rewrite land_w.
  pose proof (N.div_mod i w ltac:(lia)) as Di. pose proof (N.mod_lt i w ltac:(lia)) as Mi.
  set (q := i / w) in *. set (md := i mod w) in *.
  (* the tail *)
  assert (Rest : forall bb p n, bs_wf w bb -> length bb = length b -> p * w + n <= bs_size w b ->
    exists b', (do t <- bs_fill w (S (length bb)) bb p n (if val then all_ones w else 0);
       let '(b2, p2, n2) := t in
       if n2 =? 0 then Some b2
       else bs_blend b2 p2 (N.shiftl 1 (N.land n2 (w - 1)) - 1) val) = Some b' /\
      bs_wf w b' /\ length b' = length b /\
      forall j, bit b' j = if (p * w <=? j) && (j <? p * w + n) then val else bit bb j).
  { intros bb p n Hwb Hlb Hpn.
    pose proof (N.div_mod n w ltac:(lia)) as Dn. pose proof (N.mod_lt n w ltac:(lia)) as Mn.
    destruct (fill_spec (S (length bb)) bb p n val Hwb) as (b2 & E2 & W2 & L2 & B2).
    { unfold bs_size in *. rewrite Hlb. exact Hpn. }
    { unfold bs_size in Hpn. rewrite Hlb. nia. }
    rewrite E2. cbn [bind]. destruct (N.eqb_spec (n mod w) 0) as [Z|Z].
    - exists b2. split; [reflexivity|]. split; [auto|]. split; [lia|].
      intros j. rewrite B2. replace ((p + n / w) * w) with (p * w + n) by lia. reflexivity.
    - rewrite land_w, N.mod_mod by lia.
      destruct (blend_spec b2 (p + n / w) (N.shiftl 1 (n mod w) - 1) 0 (n mod w) val W2)
        as (b3 & E3 & W3 & L3 & B3).
      + rewrite L2, Hlb. unfold bs_size in Hpn.
        destruct (N.lt_ge_cases (p + n / w) (N.of_nat (length b))) as [|Hge]; auto. nia.
      + apply mask_low.
      + lia.
      + exists b3. split; [exact E3|]. split; [auto|]. split; [lia|].
        intros j. rewrite B3, B2, N.add_0_r.
        replace ((p + n / w) * w + n mod w) with (p * w + n) by lia.
        clear B3 B2 E3 E2 L3 W3. revert Dn. generalize (n / w) (n mod w). intros d rr Dn.
        assert (p * w <= (p + d) * w <= p * w + n) by nia.
        destruct (N.leb_spec ((p + d) * w) j), (N.leb_spec (p * w) j),
          (N.ltb_spec j ((p + d) * w)), (N.ltb_spec j (p * w + n)); cbn [andb]; auto; lia. }
  destruct (N.eqb_spec md 0) as [Hmd|Hmd].
  - destruct (Rest b q n' Hwf eq_refl) as (b' & E & W' & L' & B'); [lia|].
    exists b'. split; [exact E|]. split; [auto|]. split; [auto|].
    intros j. rewrite B'. replace (q * w) with i by lia. reflexivity.
  - assert (Hq : q < N.of_nat (length b)).
    { unfold bs_size in *. destruct (N.lt_ge_cases q (N.of_nat (length b))) as [|Hge]; auto. nia. }
    destruct (N.ltb_spec n' (w - md)) as [Hlt|Hge].
    + destruct (blend_spec b q (N.land (N.lxor (all_ones w) (N.shiftr (all_ones w) (w - md)))
          (N.shiftr (all_ones w) (w - md - n'))) md (md + n') val Hwf Hq) as (b1 & E1 & W1 & L1 & B1).
      * pose proof (mask_not (w - md) ltac:(lia)) as M1.
        pose proof (mask_shr (w - md - n') ltac:(lia)) as M2.
        replace (w - (w - md)) with md in M1 by lia.
        replace (w - (w - md - n')) with (md + n') in M2 by lia.
        apply (mask_and md w (md + n')); auto. lia.
      * lia.
      * rewrite E1. cbn [bind]. exists b1. split; [reflexivity|]. split; [auto|]. split; [auto|].
        intros j. rewrite B1. replace (q * w + md) with i by lia.
        replace (q * w + (md + n')) with (i + n') by lia. reflexivity.
    + destruct (blend_spec b q (N.lxor (all_ones w) (N.shiftr (all_ones w) (w - md))) md w val Hwf Hq)
        as (b1 & E1 & W1 & L1 & B1).
      * pose proof (mask_not (w - md) ltac:(lia)) as M1.
        replace (w - (w - md)) with md in M1 by lia. exact M1.
      * lia.
      * rewrite E1. cbn [bind].
        destruct (Rest b1 (q + 1) (n' - (w - md)) W1 L1) as (b' & E & W' & L' & B'); [lia|].
        exists b'. split; [exact E|]. split; [auto|]. split; [auto|].
        intros j. rewrite B', B1. replace (q * w + md) with i by lia.
        replace ((q + 1) * w + (n' - (w - md))) with (i + n') by lia.
        replace ((q + 1) * w) with (q * w + w) by lia.
        destruct (N.leb_spec (q * w + w) j), (N.leb_spec i j),
          (N.ltb_spec j (q * w + w)), (N.ltb_spec j (i + n')); cbn [andb]; auto; lia.
Qed.

Lemma set_get b i n val :
  bs_wf w b -> i + n < 2 ^ 64 ->
  exists b', bs_set w b i n val = Some b' /\ bs_wf w b' /\ bs_size w b' = bs_size w b /\
    forall j, j < bs_size w b ->
      bs_get w b' j = if (i <=? j) && (j <? i + n) then Some val else bs_get w b j.
Proof.
  intros H1 H2. destruct (set_spec b i n val H1 H2) as (b' & E & W' & L & B).
  exists b'. assert (Hs : bs_size w b' = bs_size w b) by (unfold bs_size; rewrite L; reflexivity).
  repeat split; auto; try apply W'. intros j Hj.
  rewrite !get_bit by lia. rewrite B. unfold in_range.
  destruct (N.leb_spec i j), (N.ltb_spec j (N.min (i + n) (bs_size w b))), (N.ltb_spec j (i + n));
    cbn [andb]; auto; lia.
Qed.

Lemma clear_get b : bs_wf w b ->
  bs_wf w (bs_clear b) /\ bs_size w (bs_clear b) = bs_size w b /\
  forall j, j < bs_size w b -> bs_get w (bs_clear b) j = Some false.
Proof.
  intros [H1 H2]. assert (Hs : bs_size w (bs_clear b) = bs_size w b)
    by (unfold bs_size, bs_clear; rewrite map_length; reflexivity).
  split; [split|split]; auto.
  - unfold bs_clear. apply Forall_forall. intros x Hx. apply in_map_iff in Hx.
    destruct Hx as (y & <- & _). apply pow2_pos.
  - rewrite Hs. exact H2.
  - intros j Hj. rewrite get_bit by lia. f_equal. unfold bit, wd, bs_clear.
    assert (Hz : nth (N.to_nat (j / w)) (map (fun _ : N => 0) b) 0 = 0).
    { exact (map_nth (fun _ : N => 0) b 0 (N.to_nat (j / w))). }
    rewrite Hz. apply N.bits_0.
Qed.

Lemma make_spec nbits : nbits <= 2 ^ 62 ->
  let b := bs_make w nbits in
  bs_wf w b /\ nbits <= bs_size w b /\ bs_size w b < nbits + w /\ bs_size w b mod w = 0 /\
  forall j, j < bs_size w b -> bs_get w b j = Some false.
Proof.
  intros Hn b. pose proof w_pos as Wp. pose proof w_le as Wl.
  assert (Hd : sub64 (add64 nbits w) 1 = nbits + w - 1).
  { unfold add64. rewrite (wrap64_small (nbits + w)) by (unfold W64; lia).
    unfold sub64. rewrite (wrap64_small 1) by (unfold W64; lia).
    unfold wrap64. replace (nbits + w + (W64 - 1)) with ((nbits + w - 1) + 1 * W64) by (unfold W64 in *; lia).
    rewrite N.mod_add by discriminate. apply N.mod_small. unfold W64. lia. }
  assert (Hs : bs_size w b = ((nbits + w - 1) / w) * w).
  { unfold b, bs_size, bs_make. rewrite Hd, repeat_length. lia. }
  pose proof (N.div_mod (nbits + w - 1) w ltac:(lia)) as D.
  pose proof (N.mod_lt (nbits + w - 1) w ltac:(lia)) as M.
  assert (Hwf : bs_wf w b).
  { split.
    - unfold b, bs_make. apply Forall_forall. intros x Hx. apply repeat_spec in Hx. subst x. apply pow2_pos.
    - rewrite Hs. lia. }
  split; [exact Hwf|]. split; [rewrite Hs; lia|]. split; [rewrite Hs; lia|].
  split; [rewrite Hs; apply N.mod_mul; lia|].
  intros j Hj. rewrite get_bit by auto. f_equal. unfold bit, wd, b, bs_make.
  rewrite nth_repeat. apply N.bits_0.
Qed.

(** single bit set, whatever the mask covers *)
Lemma set1_mask b i val m hi :
  bs_wf w b -> i < bs_size w b -> int_mask w (i mod w) = Some m ->
  is_mask m (i mod w) hi -> i mod w < hi -> hi <= w ->
  exists b', bs_set1 w b i val = Some b' /\ bs_wf w b' /\ bs_size w b' = bs_size w b /\
    forall j, j < bs_size w b -> bs_get w b' j =
      if (i <=? j) && (j <? i + (hi - i mod w)) then Some val else bs_get w b j.
Proof.
  intros Hwf Hi Em Hmask Hlo Hhi. pose proof w_pos as Wp. unfold bs_set1. rewrite Em.
  destruct (N.ltb_spec (bs_size w b) i); [lia|]. cbn [bind].
  pose proof (div_lt_size i b Hi) as Hq. rewrite vget_wd by auto. cbn [bind].
  rewrite vset_some by auto. eexists; split; [reflexivity|].
  pose proof (N.mod_lt i w ltac:(lia)) as Mi.
  set (x := wd b (i / w)).
  assert (Hx : x < 2 ^ w) by (apply wf_wd; auto).
  set (x' := N.lxor x (N.land (N.lxor (if val then all_ones w else 0) x) m)).
  assert (Hbit : forall k, k < w -> N.testbit x' k = if (i mod w <=? k) && (k <? hi) then val else N.testbit x k).
  { intros k Hk. unfold x'. rewrite N.lxor_spec, N.land_spec, N.lxor_spec, Hmask.
    destruct ((i mod w <=? k) && (k <? hi)).
    - rewrite andb_true_r.
      assert (Hv : N.testbit (if val then all_ones w else 0) k = val).
      { destruct val; [|apply N.bits_0]. unfold all_ones. rewrite mask_ones.
        destruct (N.leb_spec 0 k), (N.ltb_spec k w); auto; lia. }
      rewrite Hv. destruct (N.testbit x k), val; reflexivity.
    - rewrite andb_false_r, xorb_false_r. reflexivity. }
  assert (Hx' : x' < 2 ^ w).
  { apply lt_pow2_testbit. intros k Hk. unfold x'.
    rewrite N.lxor_spec, N.land_spec, (testbit_high x k Hx Hk), Hmask.
    destruct (N.ltb_spec k hi); [lia|]. rewrite !andb_false_r. reflexivity. }
  assert (Hs : bs_size w (lset b (N.to_nat (i / w)) x') = bs_size w b)
    by (unfold bs_size; rewrite lset_length; reflexivity).
  split; [apply wf_lset; auto|]. split; [exact Hs|].
  intros j Hj. rewrite !get_bit by lia. rewrite bit_lset by auto.
  pose proof (N.div_mod j w ltac:(lia)) as Dj. pose proof (N.mod_lt j w ltac:(lia)) as Mj.
  pose proof (N.div_mod i w ltac:(lia)) as Di.
  destruct (N.eqb_spec (j / w) (i / w)) as [E|E].
  - rewrite Hbit by auto. rewrite E in Dj. unfold bit. rewrite E. fold x.
    generalize dependent (w * (i / w)). intros a Di Dj.
    destruct (N.leb_spec (i mod w) (j mod w)), (N.ltb_spec (j mod w) hi), (N.leb_spec i j),
      (N.ltb_spec j (i + (hi - i mod w))); cbn [andb]; try reflexivity; lia.
  - destruct (N.leb_spec i j), (N.ltb_spec j (i + (hi - i mod w))); cbn [andb]; try reflexivity.
    exfalso. apply E.
    assert (J1 : j < w * (i / w) + w) by lia.
    assert (J2 : w * (i / w) <= j) by lia.
    symmetry. apply (N.div_unique j w (i / w) (j - w * (i / w))); lia.
Qed.

(** single bit set on the sound sub-range: bit position below 31 in the word *)
Lemma mask_pow2 k : is_mask (2 ^ k) k (k + 1).
Proof.
  intros j. destruct (N.eqb_spec j k) as [->|Hne].
  - rewrite N.pow2_bits_true. destruct (N.leb_spec k k), (N.ltb_spec k (k + 1)); auto; lia.
  - rewrite N.pow2_bits_false by auto. destruct (N.leb_spec k j), (N.ltb_spec j (k + 1)); auto; lia.
Qed.
Lemma one_bit i j : (i <=? j) && (j <? i + 1) = (j =? i).
Proof. destruct (N.leb_spec i j), (N.ltb_spec j (i + 1)), (N.eqb_spec j i); auto; lia. Qed.

Lemma set1_spec b i val :
  bs_wf w b -> i < bs_size w b -> i mod w < 31 \/ w <= 32 ->
  exists b', bs_set1 w b i val = Some b' /\ bs_wf w b' /\ bs_size w b' = bs_size w b /\
    forall j, j < bs_size w b -> bs_get w b' j = if j =? i then Some val else bs_get w b j.
Proof.
  intros Hwf Hi Hm. pose proof w_pos as Wp. pose proof (N.mod_lt i w ltac:(lia)) as Mi.
  assert (Em : int_mask w (i mod w) = Some (2 ^ (i mod w))).
  { unfold int_mask. destruct (N.ltb_spec (i mod w) 31); [reflexivity|].
    assert (w = 32) as -> by (destruct Hw as [->|[->|[->| ->]]]; lia).
    assert (i mod 32 = 31) as -> by lia. reflexivity. }
  destruct (set1_mask b i val _ (i mod w + 1) Hwf Hi Em (mask_pow2 _)) as (b' & E1 & E2 & E3 & E4); [lia|lia|].
  exists b'. split; [exact E1|]. split; [exact E2|]. split; [exact E3|].
  intros j Hj. rewrite E4 by exact Hj. replace (i + (i mod w + 1 - i mod w)) with (i + 1) by lia.
  rewrite one_bit. reflexivity.
Qed.

(** ---- autocorrelation ---- *)
Lemma count_bits_step x : count_bits x = (if N.testbit x 0 then 1 else 0) + count_bits (N.div2 x).
Proof. destruct x as [|[p|p|]]; cbn; auto; lia. Qed.

Lemma count_bits_spec n : forall x, x < 2 ^ N.of_nat n -> count_bits x = countN (N.testbit x) n.
Proof.
  induction n as [|n IH]; intros x Hx.
  - change (2 ^ N.of_nat 0) with 1 in Hx. replace x with 0 by lia. reflexivity.
  - rewrite countN_S, count_bits_step. f_equal. rewrite IH.
    + apply countN_ext. intros j _. rewrite N.div2_spec, N.shiftr_spec by lia. reflexivity.
    + rewrite N.div2_div. replace (N.of_nat (S n)) with (N.of_nat n + 1) in Hx by lia.
      rewrite N.pow_add_r, N.pow_1_r in Hx. apply N.div_lt_upper_bound; lia.
Qed.

Lemma bit_at b q s : s < w -> bit b (q * w + s) = N.testbit (wd b q) s.
Proof.
  intros Hs. unfold bit.
  rewrite N.add_comm, N.div_add, N.mod_add by lia.
  rewrite N.div_small, N.mod_small by auto. reflexivity.
Qed.

Lemma acf_word_spec b index shift k :
  bs_wf w b -> shift < w ->
  (index + k + (if shift =? 0 then 0 else 1) < N.of_nat (length b)) ->
  acf_word w b index shift k =
  Some (countN (fun s => xorb (bit b (k * w + s)) (bit b (k * w + s + (index * w + shift)))) (N.to_nat w)).
Proof.
  intros Hwf Hs Hlen. pose proof w_pos as Wp. unfold acf_word.
  rewrite (vget_wd b k) by (destruct (shift =? 0); lia). cbn [bind].
  rewrite (vget_wd b (index + k)) by (destruct (shift =? 0); lia). cbn [bind].
  destruct (N.eqb_spec shift 0) as [->|Hs0].
  - f_equal. rewrite (count_bits_spec (N.to_nat w)).
    + apply countN_ext. intros s Hs'. rewrite N2Nat.id in Hs'.
      rewrite N.lxor_spec, (bit_at b k s) by auto.
      replace (k * w + s + (index * w + 0)) with ((index + k) * w + s) by lia.
      rewrite bit_at by auto. reflexivity.
    + rewrite N2Nat.id. apply lt_pow2_testbit. intros j Hj.
      rewrite N.lxor_spec, !testbit_high by (auto using wf_wd). reflexivity.
  - rewrite (vget_wd b (index + k + 1)) by lia. cbn [bind]. f_equal.
    assert (Hv : forall s, N.testbit (N.lor (N.shiftr (wd b (index + k)) shift)
                   (N.shiftl (wd b (index + k + 1)) (w - shift) mod 2 ^ w)) s =
       (s <? w) && bit b (k * w + s + (index * w + shift))).
    { intros s. rewrite N.lor_spec, N.shiftr_spec by lia.
      destruct (N.ltb_spec s w) as [Hsw|Hsw]; cbn [andb].
      - rewrite N.mod_pow2_bits_low by auto.
        destruct (N.ltb_spec (s + shift) w) as [H1|H1].
        + rewrite N.shiftl_spec_low by lia. rewrite orb_false_r.
          replace (k * w + s + (index * w + shift)) with ((index + k) * w + (s + shift)) by lia.
          rewrite bit_at by auto. reflexivity.
        + rewrite (testbit_high (wd b (index + k)) (s + shift)) by (auto using wf_wd).
          rewrite N.shiftl_spec_high by lia. cbn [orb].
          replace (k * w + s + (index * w + shift)) with ((index + k + 1) * w + (s - (w - shift))) by lia.
          rewrite bit_at by lia. reflexivity.
      - rewrite N.mod_pow2_bits_high by auto.
        rewrite testbit_high by (auto using wf_wd; lia). reflexivity. }
    rewrite (count_bits_spec (N.to_nat w)).
    + apply countN_ext. intros s Hs'. rewrite N2Nat.id in Hs'.
      rewrite N.lxor_spec, Hv, (bit_at b k s) by auto.
      destruct (N.ltb_spec s w); [|lia]. reflexivity.
    + rewrite N2Nat.id. apply lt_pow2_testbit. intros j Hj.
      rewrite N.lxor_spec, Hv, testbit_high by (auto using wf_wd).
      destruct (N.ltb_spec j w); [lia|]. reflexivity.
Qed.

Lemma acf_loop_spec iters : forall b index shift k acc,
  bs_wf w b -> shift < w ->
  (index + k + N.of_nat iters) * w + shift <= bs_size w b ->
  acf_loop w iters b index shift k acc =
  Some (acc + countN (fun j => xorb (bit b (k * w + j)) (bit b (k * w + j + (index * w + shift))))
                     (iters * N.to_nat w)).
Proof.
  induction iters as [|m IH]; intros b index shift k acc Hwf Hs Hlen.
  - cbn. f_equal. lia.
  - pose proof w_pos as Wp. cbn [acf_loop].
    rewrite acf_word_spec; auto.
    + cbn [bind]. rewrite IH; auto; [|replace (index + (k + 1) + N.of_nat m) with (index + k + N.of_nat (S m)) by lia; exact Hlen].
      f_equal. rewrite <- N.add_assoc. f_equal.
      change (S m * N.to_nat w)%nat with (N.to_nat w + m * N.to_nat w)%nat.
      rewrite countN_app. f_equal. apply countN_ext. intros j _. rewrite N2Nat.id.
      replace ((k + 1) * w + j) with (k * w + (w + j)) by lia. reflexivity.
    + unfold bs_size in Hlen. destruct (N.eqb_spec shift 0); nia.
Qed.

Lemma acf_spec b pos :
  bs_wf w b -> pos + acf_mid w b * w <= bs_size w b ->
  acf w b pos = Some (countN (mismatch w b pos) (N.to_nat (acf_mid w b * w))).
Proof.
  intros Hwf Hp. pose proof w_pos as Wp. unfold acf.
  pose proof (N.div_mod pos w ltac:(lia)) as D. pose proof (N.mod_lt pos w ltac:(lia)) as M.
  rewrite acf_loop_spec; auto.
  - f_equal. rewrite N.add_0_l.
    replace (N.to_nat (acf_mid w b) * N.to_nat w)%nat with (N.to_nat (acf_mid w b * w)) by lia.
    apply countN_ext. intros j Hj. unfold mismatch. rewrite !get_bit by lia.
    rewrite N.mul_0_l, N.add_0_l. repeat f_equal. lia.
  - rewrite N2Nat.id, N.add_0_r. lia.
Qed.

Lemma acf_mid_val b : 2 * w <= bs_size w b -> bs_wf w b ->
  acf_mid w b = N.max (N.of_nat (length b) / 2 - 1) 1.
Proof.
  intros H [_ Hs]. pose proof w_pos as Wp. unfold acf_mid, bs_size in *.
  rewrite N.div_mul by lia.
  assert (Hl : 2 <= N.of_nat (length b)) by nia.
  assert (Hl2 : N.of_nat (length b) < 2 ^ 63) by nia.
  f_equal. unfold sub64. rewrite (wrap64_small 1) by (unfold W64; lia).
  unfold wrap64. set (h := N.of_nat (length b) / 2). assert (Hh : 1 <= h < 2 ^ 63) by (subst h; lia).
  replace (h + (W64 - 1)) with ((h - 1) + 1 * W64) by (unfold W64 in *; lia).
  rewrite N.mod_add by discriminate. apply N.mod_small. unfold W64. lia.
Qed.

Lemma acf_half b pos :
  bs_wf w b -> 2 * w <= bs_size w b -> 2 * pos <= bs_size w b ->
  acf w b pos = Some (countN (mismatch w b pos)
                        (N.to_nat (N.max (bs_size w b / w / 2 - 1) 1 * w))).
Proof.
  intros Hwf H2 Hp. pose proof w_pos as Wp. pose proof (acf_mid_val b H2 Hwf) as Hm.
  rewrite acf_spec; auto.
  - rewrite Hm. unfold bs_size. rewrite N.div_mul by lia. reflexivity.
  - rewrite Hm. clear Hm. unfold bs_size in *.
    assert (Hl : 2 <= N.of_nat (length b)) by nia.
    set (L := N.of_nat (length b)) in *. clearbody L.
    assert (E : L / 2 * 2 <= L) by lia. generalize dependent (L / 2). intros h E.
    assert (N.max (h - 1) 1 * 2 <= L) by lia.
    nia.
Qed.
End P.
