From Verif Require Import Common CommonFacts Ring_Model Ring_Spec Ring_Proof MovSum_Model MovSum_Spec.
Local Open Scope Z_scope.

Lemma zsum_app a b : zsum (a ++ b) = zsum a + zsum b.
Proof. induction a as [|x a IH]; cbn; [reflexivity|]. unfold zsum in *. lia. Qed.
Lemma zsum_repeat v n : zsum (repeat v n) = v * Z.of_nat n.
Proof. induction n as [|n IH]; cbn [repeat zsum fold_right]; [lia|]. unfold zsum in IH. rewrite IH. lia. Qed.
Lemma zsum_bound M l : Forall (fun x => Z.abs x <= M) l -> Z.abs (zsum l) <= M * Z.of_nat (length l).
Proof. induction 1 as [|x l Hx Hl IH]; cbn [zsum fold_right length]; [lia|]. unfold zsum in IH. lia. Qed.

(** Generic exactness: T represents integers through [val]; the accumulator
    represents integers through [rep]; every update that stays within
    (W+1)*M is exact. *)
Section G.
Context {T Acc : Type}.
Variables (zT : T) (zA : Acc) (addT subT : Acc -> T -> option Acc)
  (scale : T -> N -> option Acc) (toT : Acc -> T).
Variables (val : T -> Z) (rep : Acc -> Z -> Prop) (good : T -> Prop) (fillable : Prop) (M : Z) (W : N).
Hypothesis HW : (1 <= W <= 2 ^ 63)%N.
Hypothesis good_z : good zT.
Hypothesis val_z : val zT = 0.
Hypothesis rep_z : rep zA 0.
Hypothesis good_bound : forall t, good t -> Z.abs (val t) <= M.
Hypothesis add_ok : forall a x t, rep a x -> good t -> Z.abs (x + val t) <= M * (Z.of_N W + 1) ->
  exists a', addT a t = Some a' /\ rep a' (x + val t).
Hypothesis sub_ok : forall a x t, rep a x -> good t -> Z.abs (x - val t) <= M * (Z.of_N W + 1) ->
  exists a', subT a t = Some a' /\ rep a' (x - val t).
Hypothesis scale_ok : fillable -> forall t, good t -> exists a', scale t W = Some a' /\ rep a' (val t * Z.of_N W).

Definition ms_inv (m : movsum T Acc) (w : list T) : Prop :=
  exists l, ring_rel (ms_buff m) l /\ ms_size m = W /\ (N.to_nat W <= length l)%nat /\
    w = firstn (N.to_nat W) l /\ Forall good l /\ rep (ms_sum m) (zsum (map val w)).

Lemma good_firstn n l : Forall good l -> Forall good (firstn n l).
Proof. intros H. rewrite <- (firstn_skipn n l) in H. apply Forall_app in H. apply H. Qed.

Lemma ms_inv_make : exists m, ms_make zT zA W = Some m /\ ms_inv m (repeat zT (N.to_nat W)).
Proof using HW good_z val_z rep_z.
  clear - HW good_z val_z rep_z.
  destruct (ring_rel_make zT W) as (r & c & E & R & (j & Hc & Hge & Hmin) & S & B); [lia|].
  unfold ms_make. rewrite E. cbn [bind]. eexists; split; [reflexivity|].
  destruct (ring_rel_step zT r _ OpClear R) as (r1 & E1 & R1). cbn [rb_step] in E1. injection E1 as <-.
  cbn [spec_step] in R1. rewrite repeat_length in R1.
  exists (repeat zT (N.to_nat c)). cbn [ms_buff ms_size ms_sum].
  rewrite repeat_length. split; [exact R1|]. split; [reflexivity|]. split; [lia|].
  split.
  { replace (N.to_nat c) with (N.to_nat W + (N.to_nat c - N.to_nat W))%nat by lia.
    rewrite repeat_app, firstn_app, repeat_length, Nat.sub_diag. cbn [firstn]. rewrite app_nil_r.
    symmetry. apply firstn_all2. rewrite repeat_length. lia. }
  split. { apply Forall_forall. intros x Hx. apply repeat_spec in Hx. subst x. exact good_z. }
  assert (E0 : forall n, zsum (map val (repeat zT n)) = 0).
  { induction n as [|n IH]; cbn; auto. unfold zsum in IH. rewrite IH, val_z. reflexivity. }
  rewrite E0. exact rep_z.
Qed.

Lemma firstn_repeat_le (v : T) n c : (n <= c)%nat -> firstn n (repeat v c) = repeat v n.
Proof using Type.
  clear.
  intros H. replace c with (n + (c - n))%nat by lia.
  rewrite repeat_app, firstn_app, repeat_length, Nat.sub_diag. cbn [firstn]. rewrite app_nil_r.
  apply firstn_all2. rewrite repeat_length. lia.
Qed.

Lemma ms_inv_apply m w o : ms_inv m w -> op_all good o ->
  (match o with MFill _ => fillable | _ => True end) ->
  exists m', ms_apply zT zA addT subT scale toT m o = Some m' /\ ms_inv m' (win_step zT (N.to_nat W) w o).
Proof.
  intros (l & R & Hs & Hlen & Hw & Hg & Hrep) Hgo Hfl.
  pose proof (ring_rel_len _ _ R) as Hpos.
  destruct o as [s| |v]; cbn [ms_apply win_step op_all] in *.
  - (* sample *)
    unfold ms_step.
    assert (Hgw : Forall good w) by (subst w; apply good_firstn; auto).
    assert (Hlw : length w = N.to_nat W) by (subst w; rewrite firstn_length; lia).
    assert (Hb : Z.abs (zsum (map val w)) <= M * Z.of_N W).
    { replace (Z.of_N W) with (Z.of_nat (length (map val w))) by (rewrite map_length; lia).
      apply zsum_bound. apply Forall_map. eapply Forall_impl; [|exact Hgw]. intros a Ha. apply good_bound; auto. }
    pose proof (good_bound s Hgo) as Hsb.
    destruct (add_ok (ms_sum m) _ s Hrep Hgo) as (a1 & E1 & R1); [lia|].
    rewrite E1. cbn [bind]. rewrite Hs, sub64_1 by auto.
    rewrite (ring_rel_get _ _ _ R). rewrite N.mod_small by lia.
    destruct (vget_lt l (W - 1)%N) as [old Hold]; [lia|]. rewrite Hold. cbn [bind].
    assert (Hwsplit : w = firstn (N.to_nat W - 1) l ++ [old]).
    { subst w. unfold vget in Hold. apply nth_error_split in Hold.
      destruct Hold as (l1 & l2 & -> & Hl1).
      replace (N.to_nat W) with (length l1 + 1)%nat by lia.
      rewrite firstn_app_2. cbn [firstn]. f_equal.
      replace (length l1 + 1 - 1)%nat with (length l1 + 0)%nat by lia.
      rewrite firstn_app_2. cbn [firstn]. rewrite app_nil_r. reflexivity. }
    assert (Hgold : good old).
    { rewrite Forall_forall in Hgw. apply Hgw. rewrite Hwsplit. apply in_or_app. right. left. reflexivity. }
    assert (Hnew : zsum (map val w) + val s - val old = zsum (map val (s :: firstn (N.to_nat W - 1) l))).
    { rewrite Hwsplit at 1. rewrite map_app, zsum_app. cbn [map zsum fold_right]. unfold zsum. lia. }
    assert (Hbn : Z.abs (zsum (map val (s :: firstn (N.to_nat W - 1) l))) <= M * Z.of_N W).
    { replace (Z.of_N W) with (Z.of_nat (length (map val (s :: firstn (N.to_nat W - 1) l))))
        by (rewrite map_length; cbn [length]; rewrite firstn_length; lia).
      apply zsum_bound. apply Forall_map. constructor; [apply good_bound; auto|].
      eapply Forall_impl; [|apply good_firstn; exact Hg]. intros a Ha. apply good_bound; auto. }
    destruct (sub_ok a1 _ old R1 Hgold) as (a2 & E2 & R2); [rewrite Hnew; lia|].
    rewrite E2. cbn [bind].
    destruct (ring_rel_step zT _ _ (OpPush s) R) as (b & Eb & Rb). cbn [rb_step] in Eb. rewrite Eb. cbn [bind snd].
    eexists; split; [reflexivity|].
    exists (firstn (length l) (s :: l)). cbn [ms_buff ms_size ms_sum].
    split; [exact Rb|]. split; [reflexivity|].
    split. { rewrite firstn_length. cbn [length]. lia. }
    assert (Hw' : firstn (N.to_nat W) (s :: w) = s :: firstn (N.to_nat W - 1) l).
    { destruct (N.to_nat W) as [|k] eqn:Ek; [lia|]. cbn [firstn]. f_equal. subst w.
      rewrite firstn_firstn. f_equal. lia. }
    split. { rewrite Hw'. rewrite firstn_firstn. replace (Init.Nat.min (N.to_nat W) (length l)) with (N.to_nat W) by lia.
      destruct (N.to_nat W) as [|k] eqn:Ek; [lia|]. cbn [firstn]. do 2 f_equal. lia. }
    split. { apply good_firstn. constructor; auto. }
    rewrite Hw', <- Hnew. exact R2.
  - (* clear *)
    eexists; split; [reflexivity|].
    destruct (ring_rel_step zT _ _ OpClear R) as (b & Eb & Rb). cbn [rb_step] in Eb. injection Eb as <-.
    exists (repeat zT (length l)). cbn [ms_buff ms_size ms_sum ms_clear]. rewrite repeat_length.
    split; [exact Rb|]. split; [exact Hs|]. split; [exact Hlen|].
    split; [symmetry; apply firstn_repeat_le; auto|].
    split. { apply Forall_forall. intros x Hx. apply repeat_spec in Hx. subst x. exact good_z. }
    assert (E0 : forall n, zsum (map val (repeat zT n)) = 0).
    { induction n as [|n IH]; cbn; auto. unfold zsum in IH. rewrite IH, val_z. reflexivity. }
    rewrite E0. exact rep_z.
  - (* fill *)
    unfold ms_fill. rewrite Hs. destruct (scale_ok Hfl v Hgo) as (a & Ea & Ra). rewrite Ea. cbn [bind].
    eexists; split; [reflexivity|].
    destruct (ring_rel_step zT _ _ (OpFill v) R) as (b & Eb & Rb). cbn [rb_step] in Eb. injection Eb as <-.
    exists (repeat v (length l)). cbn [ms_buff ms_size ms_sum]. rewrite repeat_length.
    split; [exact Rb|]. split; [reflexivity|]. split; [exact Hlen|].
    split; [symmetry; apply firstn_repeat_le; auto|].
    split. { apply Forall_forall. intros x Hx. apply repeat_spec in Hx. subst x. exact Hgo. }
    assert (E0 : forall n, zsum (map val (repeat v n)) = val v * Z.of_nat n).
    { induction n as [|n IH]; cbn [repeat map zsum fold_right]; [lia|]. unfold zsum in IH. rewrite IH. lia. }
    rewrite E0. replace (Z.of_nat (N.to_nat W)) with (Z.of_N W) by lia. exact Ra.
Qed.

Lemma ms_inv_run ops : forall m w, ms_inv m w -> Forall (op_all good) ops ->
  (fillable \/ forall v, ~ In (MFill v) ops) ->
  exists m', ms_run zT zA addT subT scale toT m ops = Some m' /\
             ms_inv m' (fold_left (win_step zT (N.to_nat W)) ops w).
Proof.
  induction ops as [|o os IH]; intros m w Hinv Hg Hfl.
  - exists m. split; [reflexivity|exact Hinv].
  - inversion Hg as [|? ? Ho Hos]; subst.
    destruct (ms_inv_apply m w o Hinv Ho) as (m1 & E & I1).
    { destruct o; auto. destruct Hfl as [H|H]; auto. exfalso. apply (H v). left; reflexivity. }
    cbn [ms_run]. rewrite E. cbn [bind]. apply IH; auto.
    destruct Hfl as [H|H]; [left; auto|right]. intros v Hin. apply (H v). right; auto.
Qed.

Lemma ms_exact ops : Forall (op_all good) ops -> (fillable \/ forall v, ~ In (MFill v) ops) ->
  exists m0 m, ms_make zT zA W = Some m0 /\ ms_run zT zA addT subT scale toT m0 ops = Some m /\
    ms_size m = W /\ rep (ms_sum m) (zsum (map val (window zT (N.to_nat W) ops))).
Proof.
  intros Hg Hfl. destruct ms_inv_make as (m0 & E0 & I0).
  destruct (ms_inv_run ops m0 _ I0 Hg Hfl) as (m & E & (l & R & Hs & _ & _ & _ & Hrep)).
  exists m0, m. auto.
Qed.

Lemma window_length ops : length (window zT (N.to_nat W) ops) = N.to_nat W.
Proof using Type.
  clear. unfold window.
  assert (G : forall w, length w = N.to_nat W -> length (fold_left (win_step zT (N.to_nat W)) ops w) = N.to_nat W).
  { induction ops as [|o os IH]; intros w Hw; cbn [fold_left]; auto. apply IH.
    destruct o; cbn [win_step]; try apply repeat_length. rewrite firstn_length. cbn [length]. lia. }
  apply G. apply repeat_length.
Qed.
Lemma window_good ops : Forall (op_all good) ops -> Forall good (window zT (N.to_nat W) ops).
Proof.
  intros H. unfold window.
  assert (G : forall w, Forall good w -> Forall good (fold_left (win_step zT (N.to_nat W)) ops w)).
  { induction H as [|o os Ho Hos IH]; intros w Hw; cbn [fold_left]; auto. apply IH.
    destruct o; cbn [win_step op_all] in *; try (apply Forall_forall; intros x Hx; apply repeat_spec in Hx; subst x; auto).
    apply good_firstn. constructor; auto. }
  apply G. apply Forall_forall. intros x Hx. apply repeat_spec in Hx. subst x. auto.
Qed.
End G.

Definition int32_range (x : Z) : Prop := - 2 ^ 31 <= x < 2 ^ 31.

Lemma to_int64_id x : - 2 ^ 63 <= x < 2 ^ 63 -> to_int64 x = x.
Proof. intros H. unfold to_int64. rewrite Z.mod_small by lia. lia. Qed.
Lemma to_int32_id x : int32_range x -> to_int32 x = x.
Proof. unfold int32_range. intros H. unfold to_int32. rewrite Z.mod_small by lia. lia. Qed.
Lemma to_int64_mod x y : x mod 2 ^ 64 = y mod 2 ^ 64 -> to_int64 x = to_int64 y.
Proof.
  intros H. unfold to_int64. f_equal. rewrite (Z.add_mod x), (Z.add_mod y) by lia. rewrite H. reflexivity.
Qed.

Lemma int_moving_sum_acc W ops :
  (1 <= W <= 2 ^ 31)%N -> Forall (op_all int32_range) ops ->
  exists m0 m, int_make W = Some m0 /\ int_run m0 ops = Some m /\ ms_size m = W /\
    ms_sum m = zsum (window 0 (N.to_nat W) ops).
Proof.
  intros HW Hops.
  assert (P : 2 ^ 31 * (Z.of_N W + 1) < 2 ^ 63) by lia.
  destruct (ms_exact (T:=Z) (Acc:=Z) 0 0 (fun a s => check64 (a + s)) (fun a s => check64 (a - s)) int_scale to_int32
    (fun t => t) (fun a x => a = x) int32_range True (2 ^ 31) W) with (ops := ops) as (m0 & m & E0 & E & Hs & Hrep); auto.
  - lia.
  - unfold int32_range; lia.
  - unfold int32_range; lia.
  - intros a x t -> Ht Hb. exists (x + t). split; [|reflexivity]. unfold check64, int64_ok.
    destruct (Z.leb_spec (- 2 ^ 63) (x + t)), (Z.ltb_spec (x + t) (2 ^ 63)); auto; lia.
  - intros a x t -> Ht Hb. exists (x - t). split; [|reflexivity]. unfold check64, int64_ok.
    destruct (Z.leb_spec (- 2 ^ 63) (x - t)), (Z.ltb_spec (x - t) (2 ^ 63)); auto; lia.
  - intros _ t Ht. exists (t * Z.of_N W). split; [|reflexivity]. unfold int_scale. f_equal.
    rewrite (to_int64_mod _ (t * Z.of_N W)).
    + apply to_int64_id. unfold int32_range in Ht. nia.
    + rewrite Z.mul_mod_idemp_l by lia. reflexivity.
  - exists m0, m. rewrite map_id in Hrep. auto.
Qed.

Lemma int_moving_sum_spec W ops :
  (1 <= W <= 2 ^ 31)%N -> Forall (op_all int32_range) ops ->
  exists m0 m, int_make W = Some m0 /\ int_run m0 ops = Some m /\ ms_size m = W /\
    int_sum m = to_int32 (zsum (window 0 (N.to_nat W) ops)) /\
    (int32_range (zsum (window 0 (N.to_nat W) ops)) -> int_sum m = zsum (window 0 (N.to_nat W) ops)).
Proof.
  intros HW Hops. destruct (int_moving_sum_acc W ops HW Hops) as (m0 & m & E0 & E & Hs & Hsum).
  exists m0, m. unfold int_sum. rewrite Hsum. repeat split; auto. apply to_int32_id.
Qed.

Lemma int_average_spec W ops :
  (1 <= W <= 2 ^ 31)%N -> Forall (op_all int32_range) ops ->
  exists m0 m, int_make W = Some m0 /\ int_run m0 ops = Some m /\
    (0 <= zsum (window 0 (N.to_nat W) ops) < 2 ^ 31 ->
     int_average m = Some (zsum (window 0 (N.to_nat W) ops) / Z.of_N W)).
Proof.
  intros HW Hops. destruct (int_moving_sum_spec W ops HW Hops) as (m0 & m & E0 & E & Hs & _ & Hsum).
  exists m0, m. split; auto. split; auto. intros Hr. unfold int_average.
  rewrite Hsum, Hs by (unfold int32_range; lia).
  destruct (N.eqb_spec W 0); [lia|]. f_equal.
  rewrite Z.mod_small by lia. apply to_int32_id. unfold int32_range.
  split; [|].
  - transitivity 0; [lia|]. apply Z.div_pos; lia.
  - apply Z.div_lt_upper_bound; nia.
Qed.

Lemma int_average_neg W ops :
  (1 <= W <= 2 ^ 31)%N -> Forall (op_all int32_range) ops ->
  exists m0 m, int_make W = Some m0 /\ int_run m0 ops = Some m /\
    (- 2 ^ 31 <= zsum (window 0 (N.to_nat W) ops) < 0 ->
     int_average m = Some (to_int32 ((2 ^ 64 + zsum (window 0 (N.to_nat W) ops)) / Z.of_N W))).
Proof.
  intros HW Hops. destruct (int_moving_sum_spec W ops HW Hops) as (m0 & m & E0 & E & Hs & _ & Hsum).
  exists m0, m. split; auto. split; auto. intros Hr. unfold int_average.
  rewrite Hsum, Hs by (unfold int32_range; lia).
  destruct (N.eqb_spec W 0); [lia|]. f_equal. f_equal. f_equal.
  set (s := zsum _) in *. clearbody s.
  rewrite <- (Z.mod_small (2 ^ 64 + s) (2 ^ 64)) by lia.
  rewrite <- (Z.mul_1_l (2 ^ 64)) at 2. rewrite (Z.add_comm (1 * 2 ^ 64)), Z.mod_add by lia. reflexivity.
Qed.

Lemma int_average_pow2 k ops :
  (k <= 31)%N -> Forall (op_all int32_range) ops ->
  exists m0 m, int_make (2 ^ k) = Some m0 /\ int_run m0 ops = Some m /\
    (int32_range (zsum (window 0 (N.to_nat (2 ^ k)) ops)) ->
     int_average m = Some (zsum (window 0 (N.to_nat (2 ^ k)) ops) / 2 ^ Z.of_N k)).
Proof.
  intros Hk Hops.
  assert (HW : (1 <= 2 ^ k <= 2 ^ 31)%N).
  { split; [|apply N.pow_le_mono_r; lia]. pose proof (N.pow_nonzero 2 k ltac:(lia)). lia. }
  assert (EW : Z.of_N (2 ^ k) = 2 ^ Z.of_N k) by apply N2Z.inj_pow.
  destruct (int_average_neg (2 ^ k) ops HW Hops) as (m0 & m & E0 & E & Hn).
  destruct (int_average_spec (2 ^ k) ops HW Hops) as (m0' & m' & E0' & E' & Hp).
  rewrite E0 in E0'. injection E0' as <-. rewrite E in E'. injection E' as <-.
  exists m0, m. split; auto. split; auto. intros Hr. rewrite EW in *.
  set (s := zsum _) in *. clearbody s.
  destruct (Z.leb_spec 0 s) as [H0|H0]; [apply Hp; unfold int32_range in Hr; lia|].
  rewrite Hn by (unfold int32_range in Hr; lia). f_equal.
  assert (P2 : 0 < 2 ^ Z.of_N k) by (apply Z.pow_pos_nonneg; lia).
  replace (2 ^ 64) with (2 ^ (64 - Z.of_N k) * 2 ^ Z.of_N k)
    by (rewrite <- Z.pow_add_r by lia; f_equal; lia).
  rewrite Z.add_comm, Z.div_add by lia.
  assert (Hq : int32_range (s / 2 ^ Z.of_N k)).
  { unfold int32_range in *. split.
    - apply Z.div_le_lower_bound; nia.
    - apply Z.div_lt_upper_bound; nia. }
  set (q := s / _) in *. clearbody q.
  unfold to_int32. replace (2 ^ (64 - Z.of_N k)) with (2 ^ (32 - Z.of_N k) * 2 ^ 32)
    by (rewrite <- Z.pow_add_r by lia; f_equal; lia).
  replace (q + 2 ^ (32 - Z.of_N k) * 2 ^ 32 + 2 ^ 31) with (q + 2 ^ 31 + 2 ^ (32 - Z.of_N k) * 2 ^ 32) by ring.
  rewrite Z.mod_add by lia. rewrite Z.mod_small by (unfold int32_range in Hq; lia). lia.
Qed.
