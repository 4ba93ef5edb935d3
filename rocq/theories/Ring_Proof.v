From Verif Require Import Common CommonFacts Ring_Model Ring_Spec.

Section P.
Context {A : Type} (dflt : A).

(** simulation relation: [l] is the newest-first content of [r] *)
Definition ring_rel (r : ring A) (l : list A) : Prop :=
  exists k, (k <= 63)%N /\ rb_mask r = (2 ^ k - 1)%N /\ (rb_pos r < W64)%N /\
    N.of_nat (length (rb_data r)) = (2 ^ k)%N /\ length l = length (rb_data r) /\
    forall i, (i < 2 ^ k)%N -> vget l i = vget (rb_data r) ((rb_pos r + i) mod 2 ^ k)%N.

Lemma ring_rel_make n :
  (n <= 2 ^ 63)%N ->
  exists r c, rb_make dflt n = Some r /\ ring_rel r (repeat dflt (N.to_nat c)) /\
              least_pow2_ge n c /\ rb_size r = c /\ (c <= 2 ^ 63)%N.
Proof.
  intros Hn. destruct (smallest_pow2_spec n Hn) as (j & E & B & L & M).
  unfold rb_make. rewrite E. cbn [bind]. eexists. exists (2 ^ j)%N. split; [reflexivity|].
  pose proof (pow2_pos j) as P.
  split; [|split; [|split]].
  - exists j. cbn. rewrite repeat_length. repeat split; auto; try lia.
    intros i Hi. rewrite N.add_0_l, N.mod_small by lia. reflexivity.
  - exists j. repeat split; auto. intros i Hi. destruct (N.le_gt_cases j i) as [Hji|Hji].
    + apply N.pow_le_mono_r; lia.
    + specialize (M i Hji). lia.
  - unfold rb_size. cbn. rewrite repeat_length. lia.
  - apply N.pow_le_mono_r; lia.
Qed.

Lemma slot_mod (r : ring A) k i :
  (k <= 63)%N -> rb_mask r = (2 ^ k - 1)%N ->
  rb_slot r i = ((rb_pos r + i) mod 2 ^ k)%N.
Proof.
  intros Hk Hm. unfold rb_slot, add64. rewrite Hm, land_pow2_pred.
  apply wrap64_mod_pow2. lia.
Qed.

Lemma vget_map_const (d : list A) (v : A) i :
  vget (map (fun _ => v) d) i = if (i <? N.of_nat (length d))%N then Some v else None.
Proof.
  unfold vget. rewrite nth_error_map.
  destruct (N.ltb_spec i (N.of_nat (length d))) as [H|H].
  - destruct (vget_lt d i H) as [x Hx]. unfold vget in Hx. rewrite Hx. reflexivity.
  - rewrite (proj2 (nth_error_None d (N.to_nat i))) by lia. reflexivity.
Qed.

Lemma vget_repeat (v : A) n i :
  vget (repeat v n) i = if (i <? N.of_nat n)%N then Some v else None.
Proof.
  unfold vget. rewrite nth_error_repeat_if.
  destruct (Nat.ltb_spec (N.to_nat i) n), (N.ltb_spec i (N.of_nat n)); auto; lia.
Qed.

Lemma mod_pred_step p i c :
  (0 < c)%N -> (0 < i)%N -> (i < c)%N ->
  (((p + (c - 1)) mod c + i) mod c = (p + (i - 1)) mod c)%N.
Proof.
  intros Hc Hi Hic. rewrite N.add_mod_idemp_l by lia.
  replace (p + (c - 1) + i)%N with ((p + (i - 1)) + 1 * c)%N by lia.
  apply N.mod_add. lia.
Qed.

Lemma mod_add_inj p i j c :
  (i < c)%N -> (j < c)%N -> ((p + i) mod c = (p + j) mod c)%N -> i = j.
Proof.
  intros Hi Hj H.
  assert (E1 := N.div_mod (p + i) c ltac:(lia)).
  assert (E2 := N.div_mod (p + j) c ltac:(lia)). rewrite H in E1.
  generalize dependent ((p + i) / c)%N. generalize dependent ((p + j) / c)%N.
  generalize ((p + j) mod c)%N. clear H. intros r b E2 a E1.
  assert (K : forall x y : N, (x < y)%N -> (c * x + c <= c * y)%N).
  { intros x y L. rewrite <- N.mul_succ_r. apply N.mul_le_mono_l. lia. }
  destruct (N.lt_trichotomy a b) as [L|[->|L]]; [specialize (K a b L)|clear K|specialize (K b a L)]; lia.
Qed.

Lemma push_pos_mod (p : N) k : (k <= 63)%N -> (p < W64)%N ->
  N.land (sub64 p 1) (2 ^ k - 1) = ((p + (2 ^ k - 1)) mod 2 ^ k)%N.
Proof.
  intros Hk Hp. unfold sub64. rewrite land_pow2_pred, wrap64_mod_pow2 by lia.
  rewrite (wrap64_small 1) by (unfold W64; lia).
  pose proof (pow2_pos k) as P.
  assert (E : W64 = (2 ^ (64 - k) * 2 ^ k)%N) by (apply pow2_split; lia).
  pose proof (pow2_pos (64 - k)) as P2.
  replace (p + (W64 - 1))%N with ((p + (2 ^ k - 1)) + (2 ^ (64 - k) - 1) * 2 ^ k)%N.
  - apply N.mod_add. lia.
  - rewrite E. rewrite N.mul_sub_distr_r. nia.
Qed.

Lemma vget_firstn_cons (v : A) (l : list A) i :
  (i < N.of_nat (length l))%N ->
  vget (firstn (length l) (v :: l)) i = if (i =? 0)%N then Some v else vget l (i - 1).
Proof.
  intros H. unfold vget.
  rewrite nth_error_firstn. destruct (Nat.ltb_spec (N.to_nat i) (length l)); [|lia].
  destruct (N.eqb_spec i 0) as [->|Hn]; [reflexivity|].
  destruct (N.to_nat i) as [|m] eqn:E; [lia|]. simpl.
  replace (N.to_nat (i - 1)) with m by lia. reflexivity.
Qed.

Lemma ring_rel_step r l o :
  ring_rel r l -> exists r', rb_step dflt r o = Some r' /\ ring_rel r' (spec_step dflt l o).
Proof.
  intros (k & Hk & Hm & Hp & Hd & Hl & Hr).
  pose proof (pow2_pos k) as P.
  destruct o as [v|i v| |v|]; cbn [rb_step spec_step].
  - (* push *)
    unfold rb_push. rewrite Hm, push_pos_mod by auto.
    set (p := ((rb_pos r + (2 ^ k - 1)) mod 2 ^ k)%N).
    assert (Hpk : (p < 2 ^ k)%N) by (apply N.mod_lt; lia).
    rewrite vset_some by lia. cbn [bind]. eexists; split; [reflexivity|].
    exists k. cbn [rb_mask rb_pos rb_data]. rewrite lset_length.
    assert (H63 : (2 ^ k <= 2 ^ 63)%N) by (apply N.pow_le_mono_r; lia).
    split; [exact Hk|]. split; [reflexivity|]. split.
    { unfold W64. change 64%N with (63 + 1)%N. rewrite N.pow_add_r. lia. }
    split; [exact Hd|]. split.
    { rewrite firstn_length. simpl. lia. }
    intros i Hi. rewrite vget_firstn_cons by lia.
    rewrite vget_lset by lia.
    destruct (N.eqb_spec i 0) as [->|Hn0].
    + rewrite N.add_0_r, N.mod_small by lia. rewrite N.eqb_refl. reflexivity.
    + rewrite Hr by lia. unfold p. rewrite mod_pred_step by lia.
      destruct (N.eqb_spec ((rb_pos r + (i - 1)) mod 2 ^ k) ((rb_pos r + (2 ^ k - 1)) mod 2 ^ k)) as [E|_]; auto.
      apply mod_add_inj in E; lia.
  - (* put *)
    unfold rb_put. rewrite (slot_mod r k) by auto.
    assert (Hpk : ((rb_pos r + i) mod 2 ^ k < 2 ^ k)%N) by (apply N.mod_lt; lia).
    rewrite vset_some by lia. cbn [bind]. eexists; split; [reflexivity|].
    exists k. cbn [rb_mask rb_pos rb_data]. rewrite !lset_length.
    repeat split; auto. intros j Hj.
    replace (N.of_nat (length l)) with (2 ^ k)%N by lia.
    assert (Hik : (i mod 2 ^ k < 2 ^ k)%N) by (apply N.mod_lt; lia).
    rewrite !vget_lset by lia. rewrite Hr by auto.
    destruct (N.eqb_spec j (i mod 2 ^ k)) as [->|Hne].
    + rewrite N.add_mod_idemp_r by lia. rewrite N.eqb_refl. reflexivity.
    + destruct (N.eqb_spec ((rb_pos r + j) mod 2 ^ k) ((rb_pos r + i) mod 2 ^ k)) as [E|_]; auto.
      rewrite <- (N.add_mod_idemp_r _ i) in E by lia. apply mod_add_inj in E; lia.
  - (* clear *)
    eexists; split; [reflexivity|]. exists k. cbn. rewrite map_length, repeat_length.
    repeat split; auto. intros i Hi.
    rewrite vget_map_const, vget_repeat.
    assert (Hx : ((rb_pos r + i) mod 2 ^ k < 2 ^ k)%N) by (apply N.mod_lt; lia).
    destruct (N.ltb_spec i (N.of_nat (length l))),
      (N.ltb_spec ((rb_pos r + i) mod 2 ^ k) (N.of_nat (length (rb_data r)))); auto; lia.
  - (* fill *)
    eexists; split; [reflexivity|]. exists k. cbn. rewrite map_length, repeat_length.
    repeat split; auto. intros i Hi.
    rewrite vget_map_const, vget_repeat.
    assert (Hx : ((rb_pos r + i) mod 2 ^ k < 2 ^ k)%N) by (apply N.mod_lt; lia).
    destruct (N.ltb_spec i (N.of_nat (length l))),
      (N.ltb_spec ((rb_pos r + i) mod 2 ^ k) (N.of_nat (length (rb_data r)))); auto; lia.
  - (* pop_front *)
    eexists; split; [reflexivity|]. exists k. cbn.
    destruct l as [|a l0]; [exfalso; cbn in Hl; lia|].
    split; [exact Hk|]. split; [exact Hm|]. split; [apply wrap64_lt|].
    split; [exact Hd|]. split.
    { cbn. rewrite app_length. simpl in *. lia. }
    intros i Hi. cbn [tl firstn].
    assert (Hw : ((add64 (rb_pos r) 1 + i) mod 2 ^ k = (rb_pos r + (i + 1)) mod 2 ^ k)%N).
    { unfold add64. rewrite <- N.add_mod_idemp_l by lia. rewrite wrap64_mod_pow2 by lia.
      rewrite N.add_mod_idemp_l by lia. f_equal. lia. }
    rewrite Hw. simpl in Hl.
    destruct (N.eq_dec i (2 ^ k - 1)) as [->|Hne].
    + replace (2 ^ k - 1 + 1)%N with (0 + 1 * 2 ^ k)%N by lia.
      rewrite N.add_assoc, N.mod_add by lia. rewrite <- Hr by lia.
      unfold vget. rewrite nth_error_app2 by lia.
      replace (N.to_nat (2 ^ k - 1) - length l0) with 0 by lia. reflexivity.
    + rewrite <- Hr by lia. unfold vget. rewrite nth_error_app1 by lia.
      replace (N.to_nat (i + 1)) with (S (N.to_nat i)) by lia. reflexivity.
Qed.

Lemma ring_rel_run ops : forall r l,
  ring_rel r l -> exists r', rb_run dflt r ops = Some r' /\ ring_rel r' (spec_run dflt l ops).
Proof.
  induction ops as [|o os IH]; intros r l H.
  { exists r. split; [reflexivity|exact H]. }
  destruct (ring_rel_step r l o H) as (r1 & E & H1).
  cbn [rb_run]. rewrite E. cbn [bind]. apply IH. exact H1.
Qed.

Lemma ring_rel_get r l i :
  ring_rel r l -> rb_get r i = vget l (i mod N.of_nat (length l)).
Proof.
  intros (k & Hk & Hm & Hp & Hd & Hl & Hr).
  pose proof (pow2_pos k) as P.
  unfold rb_get. rewrite (slot_mod r k) by auto.
  replace (N.of_nat (length l)) with (2 ^ k)%N by lia.
  rewrite Hr by (apply N.mod_lt; lia). rewrite N.add_mod_idemp_r by lia. reflexivity.
Qed.

Lemma ring_rel_size r l : ring_rel r l -> rb_size r = N.of_nat (length l).
Proof. intros (k & Hk & Hm & Hp & Hd & Hl & Hr). unfold rb_size. lia. Qed.

Lemma ring_rel_len r l : ring_rel r l -> (0 < N.of_nat (length l) <= 2 ^ 63)%N.
Proof.
  intros (k & Hk & Hm & Hp & Hd & Hl & Hr). pose proof (pow2_pos k).
  assert (H63 : (2 ^ k <= 2 ^ 63)%N) by (apply N.pow_le_mono_r; lia). lia.
Qed.

Lemma spec_step_length l o : length (spec_step dflt l o) = length l.
Proof.
  destruct o as [v|i v| |v|]; cbn [spec_step].
  - rewrite firstn_length. simpl. lia.
  - apply lset_length.
  - apply repeat_length.
  - apply repeat_length.
  - destruct l; simpl; auto. rewrite app_length. simpl. lia.
Qed.
Lemma spec_run_length ops : forall l, length (spec_run dflt l ops) = length l.
Proof.
  induction ops as [|o os IH]; intros l; [reflexivity|].
  unfold spec_run in *. cbn [fold_left]. rewrite IH. apply spec_step_length.
Qed.

(** Pushes only: contents are the reversed input followed by the old contents. *)
Lemma spec_pushes xs : forall l,
  spec_run dflt l (map OpPush xs) = firstn (length l) (rev xs ++ l).
Proof.
  induction xs as [|x xs IH]; intros l.
  - cbn. rewrite firstn_all. reflexivity.
  - change (spec_run dflt (firstn (length l) (x :: l)) (map OpPush xs) = firstn (length l) (rev (x :: xs) ++ l)).
    rewrite IH. rewrite firstn_length. simpl length. replace (Nat.min (length l) (S (length l))) with (length l) by lia.
    simpl rev. rewrite <- app_assoc. simpl.
    rewrite !firstn_app. f_equal.
    rewrite firstn_firstn. f_equal. lia.
Qed.

(** Main refinement statements *)
Lemma ring_buffer_refines n ops :
  (n <= 2 ^ 63)%N ->
  exists r0 r c,
    rb_make dflt n = Some r0 /\ rb_run dflt r0 ops = Some r /\
    least_pow2_ge n c /\ rb_size r = c /\
    (let l := spec_run dflt (repeat dflt (N.to_nat c)) ops in
     length l = N.to_nat c /\
     (forall i, rb_get r i = nth_error l (N.to_nat (i mod c))) /\
     rb_front r = nth_error l 0 /\ rb_back r = nth_error l (length l - 1)).
Proof.
  intros Hn. destruct (ring_rel_make n Hn) as (r0 & c & E & R0 & L & S & B).
  destruct (ring_rel_run ops _ _ R0) as (r & Er & R).
  exists r0, r, c. split; [exact E|]. split; [exact Er|]. split; [exact L|].
  assert (Hlen : length (spec_run dflt (repeat dflt (N.to_nat c)) ops) = N.to_nat c)
    by (rewrite spec_run_length, repeat_length; reflexivity).
  pose proof (ring_rel_size _ _ R) as Hs. pose proof (ring_rel_len _ _ R) as Hpos.
  rewrite Hlen in Hs, Hpos. split; [lia|].
  cbv zeta. rewrite Hlen.
  assert (G : forall i, rb_get r i = nth_error (spec_run dflt (repeat dflt (N.to_nat c)) ops) (N.to_nat (i mod c))).
  { intros i. rewrite (ring_rel_get _ _ i R), Hlen. unfold vget. repeat f_equal. lia. }
  split; [reflexivity|]. split; [exact G|]. split.
  - unfold rb_front. rewrite G. rewrite N.mod_0_l by lia. reflexivity.
  - unfold rb_back. rewrite G. f_equal.
    assert (Hb : sub64 (rb_size r) 1 = (c - 1)%N).
    { unfold sub64. rewrite (wrap64_small 1) by (unfold W64; lia).
      unfold wrap64. replace (rb_size r + (W64 - 1))%N with ((c - 1) + 1 * W64)%N
        by (unfold W64 in *; lia).
      rewrite N.mod_add by discriminate. apply N.mod_small. unfold W64.
      change 64%N with (63 + 1)%N. rewrite N.pow_add_r, N.pow_1_r. lia. }
    rewrite Hb, N.mod_small by lia. lia.
Qed.

Lemma ring_buffer_history n xs :
  (n <= 2 ^ 63)%N ->
  exists r0 r c,
    rb_make dflt n = Some r0 /\ rb_run dflt r0 (map OpPush xs) = Some r /\
    least_pow2_ge n c /\ rb_size r = c /\
    forall i, (i < c)%N -> rb_get r i = Some (nth (N.to_nat i) (rev xs) dflt).
Proof.
  intros Hn. destruct (ring_buffer_refines n (map OpPush xs) Hn)
    as (r0 & r & c & E0 & E & L & S & Hl & G & _ & _).
  exists r0, r, c. repeat split; auto. intros i Hi.
  rewrite G, spec_pushes, N.mod_small by auto. rewrite repeat_length.
  rewrite nth_error_firstn. destruct (Nat.ltb_spec (N.to_nat i) (N.to_nat c)) as [_|Hx]; [|lia].
  destruct (Nat.ltb_spec (N.to_nat i) (length (rev xs))) as [H|H].
  - rewrite nth_error_app1 by auto. apply nth_error_nth'. exact H.
  - rewrite nth_error_app2 by auto. rewrite nth_error_repeat_if.
    destruct (Nat.ltb_spec (N.to_nat i - length (rev xs)) (N.to_nat c)) as [_|Hx]; [|lia].
    rewrite nth_overflow by auto. reflexivity.
Qed.
End P.
