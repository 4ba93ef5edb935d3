From Verif Require Import Common CommonFacts MovMax_Model.
Local Open Scope N_scope.

Section P.
Context {A : Type} (lt : A -> A -> bool) (floor : A).
(** [lt] is a total preorder's strict part: y is not below x *)
Definition le (x y : A) : Prop := lt y x = false.
Hypothesis le_total : forall x y, le x y \/ le y x.
Hypothesis le_trans : forall x y z, le x y -> le y z -> le x z.

Lemma le_refl x : le x x. Proof. destruct (le_total x x); auto. Qed.

Definition mxof (m x y : A) : Prop := (m = x \/ m = y) /\ le x m /\ le y m.

Lemma mx_code v s : mxof (if lt v s then s else v) v s.
Proof.
  unfold mxof. destruct (lt v s) eqn:E.
  - repeat split; auto using le_refl. destruct (le_total v s) as [H|H]; auto.
    unfold le in H. congruence.
  - repeat split; auto using le_refl.
Qed.
Lemma mx_sym m x y : mxof m x y -> mxof m y x.
Proof. unfold mxof. intuition. Qed.

Definition at_ (d : list A) (i : N) : A := nth (N.to_nat i) d floor.
Lemma vget_at d i : i < N.of_nat (length d) -> vget d i = Some (at_ d i).
Proof. intros H. unfold vget, at_. apply nth_error_nth'. lia. Qed.
Lemma at_lset d i x j : i < N.of_nat (length d) ->
  at_ (lset d (N.to_nat i) x) j = if j =? i then x else at_ d j.
Proof.
  intros H. unfold at_. pose proof (vget_lset d i x j H) as G. unfold vget in G.
  destruct (N.eqb_spec j i) as [->|Hn].
  - apply nth_error_nth. exact G.
  - destruct (nth_error d (N.to_nat j)) eqn:E.
    + rewrite (nth_error_nth _ _ _ G), (nth_error_nth _ _ _ E). reflexivity.
    + apply nth_error_None in G, E. rewrite !nth_overflow by auto. reflexivity.
Qed.

(** sibling *)
Lemma lxor1_even i : N.lxor (2 * i) 1 = 2 * i + 1.
Proof. destruct i; reflexivity. Qed.
Lemma lxor1_odd i : N.lxor (2 * i + 1) 1 = 2 * i.
Proof. destruct i; reflexivity. Qed.

(** node i (2 <= i < c) holds the maximum of its children *)
Definition node_ok (d : list A) (i : N) : Prop := mxof (at_ d i) (at_ d (2 * i)) (at_ d (2 * i + 1)).

(** j is a strict ancestor-or-self of idx *)
Definition anc (j idx : N) : Prop := exists k, j = idx / 2 ^ k.

Lemma anc_half idx j : anc j (idx / 2) -> anc j idx.
Proof.
  intros [k ->]. exists (k + 1). rewrite N.div_div by (try apply N.pow_nonzero; lia).
  f_equal. rewrite N.add_comm, N.pow_add_r, N.pow_1_r. reflexivity.
Qed.

Lemma mm_loop_spec c fuel : forall d idx v,
  N.of_nat (length d) = 2 * c -> idx < 2 ^ N.of_nat fuel -> 1 <= idx < 2 * c ->
  (forall i, 2 <= i < c -> ~ anc i idx -> node_ok d i) ->
  (idx < c -> mxof v (at_ d (2 * idx)) (at_ d (2 * idx + 1))) ->
  exists d' r, mm_loop lt fuel d idx v = Some (d', r) /\ length d' = length d /\
    (forall i, 2 <= i < c -> node_ok d' i) /\
    (1 < c -> mxof r (at_ d' 2) (at_ d' 3)) /\
    (forall i, c <= i < 2 * c -> at_ d' i = if (i =? idx) && (1 <? idx) then v else at_ d i) /\
    (c = 1 -> r = v).
Proof.
  induction fuel as [|f IH]; intros d idx v Hlen Hf Hi Hok Hv.
  - change (2 ^ N.of_nat 0) with 1 in Hf. lia.
  - cbn [mm_loop]. destruct (N.ltb_spec 1 idx) as [H1|H1].
    + rewrite vset_some by lia. cbn [bind].
      set (d1 := lset d (N.to_nat idx) v).
      assert (L1 : N.of_nat (length d1) = 2 * c) by (unfold d1; rewrite lset_length; auto).
      assert (A1 : forall j, at_ d1 j = if j =? idx then v else at_ d j)
        by (intros j; apply at_lset; lia).
      assert (Hpar : idx = 2 * (idx / 2) \/ idx = 2 * (idx / 2) + 1) by lia.
      assert (Hsib : N.lxor idx 1 < 2 * c /\ N.lxor idx 1 <> idx).
      { destruct Hpar as [E|E]; rewrite E; [rewrite lxor1_even|rewrite lxor1_odd]; lia. }
      rewrite vget_at by lia. cbn [bind].
      set (s := at_ d1 (N.lxor idx 1)).
      pose proof (mx_code v s) as Hmx.
      set (v' := if lt v s then s else v) in *.
      assert (Hidx : at_ d1 idx = v) by (rewrite A1, N.eqb_refl; reflexivity).
      destruct (IH d1 (idx / 2) v') as (d' & r & E & Hl & Hn & Hr & Hleaf & H1c).
      * exact L1.
      * replace (N.of_nat (S f)) with (N.of_nat f + 1) in Hf by lia.
        rewrite N.pow_add_r, N.pow_1_r in Hf. apply N.div_lt_upper_bound; lia.
      * lia.
      * intros i Hi2 Hna. destruct (N.eq_dec i idx) as [->|Hne].
        -- unfold node_ok. rewrite Hidx. rewrite !A1.
           destruct (N.eqb_spec (2 * idx) idx); [lia|]. destruct (N.eqb_spec (2 * idx + 1) idx); [lia|].
           apply Hv. lia.
        -- unfold node_ok. rewrite !A1.
           destruct (N.eqb_spec i idx); [lia|].
           assert (~ (i = idx / 2)) by (intros ->; apply Hna; exists 0; rewrite N.pow_0_r, N.div_1_r; reflexivity).
           destruct (N.eqb_spec (2 * i) idx); [lia|]. destruct (N.eqb_spec (2 * i + 1) idx); [lia|].
           apply Hok; auto. intros [k Hk]. destruct (N.eq_dec k 0) as [->|Hk0].
           ++ rewrite N.pow_0_r, N.div_1_r in Hk. lia.
           ++ apply Hna. exists (k - 1). rewrite Hk. rewrite N.div_div by (try apply N.pow_nonzero; lia).
              f_equal. replace k with (1 + (k - 1)) at 1 by lia. rewrite N.pow_add_r, N.pow_1_r. reflexivity.
      * intros Hc. destruct Hpar as [E|E].
        -- rewrite <- E, Hidx. replace (idx + 1) with (N.lxor idx 1).
           ++ fold s. exact Hmx.
           ++ rewrite E at 1. rewrite lxor1_even. lia.
        -- rewrite <- E, Hidx. replace (2 * (idx / 2)) with (N.lxor idx 1).
           ++ fold s. apply mx_sym. exact Hmx.
           ++ rewrite E at 1. rewrite lxor1_odd. reflexivity.
      * exists d', r. split; [exact E|]. split; [unfold d1 in Hl; rewrite lset_length in Hl; exact Hl|].
        split; [exact Hn|]. split; [exact Hr|]. split.
        -- intros i Hic. rewrite (Hleaf i Hic). rewrite A1.
           destruct (N.eqb_spec i (idx / 2)) as [Ei|Ei]; [exfalso; lia|]. cbn [andb].
           rewrite andb_true_r. reflexivity.
        -- intros ->. lia.
    + assert (idx = 1) by lia. subst idx. exists d, v. split; [reflexivity|]. split; [reflexivity|].
      split.
      * intros i Hi2. apply Hok; auto. intros [k Hk].
        assert (1 / 2 ^ k <= 1). { apply N.div_le_upper_bound; [apply N.pow_nonzero; lia|]. pose proof (pow2_pos k). lia. }
        lia.
      * split; [intros Hc; apply Hv; lia|]. split; [intros i Hc|auto].
        rewrite andb_false_r. reflexivity.
Qed.

(** all nodes ok => any node is the max of the leaves below it *)
Lemma node_max k d : (forall i, 2 <= i < 2 ^ k -> node_ok d i) ->
  forall n i, 2 <= i -> i * 2 ^ n < 2 * 2 ^ k -> 2 ^ k <= i * 2 ^ n ->
  (exists l, i * 2 ^ n <= l < (i + 1) * 2 ^ n /\ at_ d i = at_ d l) /\
  (forall l, i * 2 ^ n <= l < (i + 1) * 2 ^ n -> le (at_ d l) (at_ d i)).
Proof.
  intros Hok n. induction n as [|n IH] using N.peano_ind; intros i Hi H1 H2.
  - rewrite N.pow_0_r, !N.mul_1_r in *. split.
    + exists i. split; [lia|reflexivity].
    + intros l Hl. replace l with i by lia. apply le_refl.
  - rewrite N.pow_succ_r' in *. pose proof (pow2_pos n) as Pn.
    assert (Hic : i < 2 ^ k) by nia.
    destruct (Hok i ltac:(lia)) as (Heq & Hle1 & Hle2).
    assert (Hdom : (2 * i + 1) * 2 ^ n < 2 * 2 ^ k).
    { (* i*2^(n+1) is a multiple of 2^(n+1) below 2^(k+1) *)
      assert (Hnk : n + 1 <= k).
      { destruct (N.le_gt_cases (n + 1) k); auto.
        assert (Hpp : 2 ^ (k + 1) <= 2 ^ (n + 1)) by (apply N.pow_le_mono_r; lia).
        rewrite !N.pow_add_r, !N.pow_1_r in Hpp. nia. }
      assert (Ek : 2 ^ k = 2 ^ (k - (n + 1)) * (2 * 2 ^ n)).
      { rewrite <- N.pow_succ_r', <- N.pow_add_r. f_equal. lia. }
      rewrite Ek in H1 |- *. clear - H1 Pn. revert H1 Pn.
      generalize (2 ^ n) (2 ^ (k - (n + 1))). intros P Q H1 Pn.
      assert (i < 2 * Q) by nia. nia. }
    destruct (IH (2 * i)) as [(l1 & Hl1 & El1) Hm1]; [lia|nia|nia|].
    destruct (IH (2 * i + 1)) as [(l2 & Hl2 & El2) Hm2]; [lia|nia|nia|].
    split.
    + destruct Heq as [E|E]; rewrite E; [exists l1|exists l2]; (split; [nia|auto]).
    + intros l Hl. destruct (N.lt_ge_cases l ((2 * i + 1) * 2 ^ n)) as [Hlt|Hge].
      * apply (le_trans _ (at_ d (2 * i))); auto. apply Hm1. nia.
      * apply (le_trans _ (at_ d (2 * i + 1))); auto. apply Hm2. nia.
Qed.

Ltac Zify.zify_post_hook ::= idtac.
(** state invariant after consuming history [h] (newest first) *)
Definition mm_inv (size k : N) (m : movmax A) (h : list A) : Prop :=
  mm_size m = size /\ 1 <= size <= 2 ^ k /\ k <= 62 /\
  mm_index m = N.of_nat (length h) mod size /\
  N.of_nat (length (mm_data m)) = 2 * 2 ^ k /\
  (forall i, 2 <= i < 2 ^ k -> node_ok (mm_data m) i) /\
  (k = 0 \/ forall j, j < 2 ^ k -> at_ (mm_data m) (2 ^ k + j) =
     if j <? size then nth (N.to_nat ((mm_index m + size - 1 - j) mod size)) h floor else floor).

Lemma window_age p size j : 1 <= size -> p < size -> j < size ->
  (p + size - 1 - j) mod size = if j <? p then p - 1 - j else p + size - 1 - j.
Proof.
  intros Hs Hp Hj. destruct (N.ltb_spec j p).
  - replace (p + size - 1 - j) with ((p - 1 - j) + 1 * size) by lia.
    rewrite N.mod_add by lia. apply N.mod_small. lia.
  - apply N.mod_small. lia.
Qed.

Lemma nth_firstn_in (l : list A) n i dflt : (i < n)%nat -> (i < length l)%nat -> In (nth i l dflt) (firstn n l).
Proof.
  intros H1 H2. replace (nth i l dflt) with (nth i (firstn n l) dflt).
  - apply nth_In. rewrite firstn_length. lia.
  - rewrite <- (firstn_skipn n l) at 2. rewrite app_nth1; auto. rewrite firstn_length. lia.
Qed.
Lemma in_firstn_nth (l : list A) n x : In x (firstn n l) -> exists i, (i < n)%nat /\ (i < length l)%nat /\ forall d, nth i l d = x.
Proof.
  intros H. destruct (In_nth _ _ floor H) as (i & Hi & E). rewrite firstn_length in Hi.
  exists i. split; [lia|]. split; [lia|]. intros d. rewrite <- E.
  rewrite <- (firstn_skipn n l) at 1. rewrite app_nth1 by (rewrite firstn_length; lia).
  apply nth_indep. rewrite firstn_length. lia.
Qed.

Lemma mm_step_spec size k m h x :
  mm_inv size k m h ->
  exists v m', mm_step lt m x = Some (v, m') /\ mm_inv size k m' (x :: h) /\
    In v (floor :: firstn (N.to_nat size) (x :: h)) /\
    (forall y, In y (firstn (N.to_nat size) (x :: h)) -> le y v) /\
    ((2 ^ k = size /\ size <= N.of_nat (length (x :: h))) -> In v (firstn (N.to_nat size) (x :: h))).
Proof.
  intros (Hsz & Hs & Hk & Hidx & Hlen & Hok & Hleaf).
  pose proof (pow2_pos k) as Pk.
  assert (P62 : 2 ^ k <= 2 ^ 62) by (apply N.pow_le_mono_r; lia).
  assert (Hp : mm_index m < size) by (rewrite Hidx; apply N.mod_lt; lia).
  unfold mm_step.
  assert (Ei : add64 (N.of_nat (length (mm_data m)) / 2) (mm_index m) = 2 ^ k + mm_index m).
  { rewrite Hlen. unfold add64. rewrite (N.mul_comm 2), N.div_mul by lia. apply wrap64_small. unfold W64. lia. }
  rewrite Ei.
  destruct (mm_loop_spec (2 ^ k) 64 (mm_data m) (2 ^ k + mm_index m) x) as (d' & r & E & Hl & Hn & Hr & Hlf & H1).
  - exact Hlen.
  - change (N.of_nat 64) with 64. lia.
  - lia.
  - intros i Hi _. apply Hok; auto.
  - lia.
  - rewrite E. cbn [bind fst snd].
    assert (Ea : add64 (mm_index m) 1 = mm_index m + 1) by (apply wrap64_small; unfold W64; lia).
    rewrite Ea.
    set (i' := if mm_size m <=? mm_index m + 1 then 0 else mm_index m + 1).
    assert (Hi' : i' = N.of_nat (length (x :: h)) mod size).
    { cbn [length]. replace (N.of_nat (S (length h))) with (N.of_nat (length h) + 1) by lia.
      rewrite <- N.add_mod_idemp_l by lia. rewrite <- Hidx. subst i'. rewrite Hsz.
      destruct (N.leb_spec size (mm_index m + 1)).
      - replace (mm_index m + 1) with size by lia. rewrite N.mod_same by lia. reflexivity.
      - rewrite N.mod_small by lia. reflexivity. }
    assert (Hi'lt : i' < size) by (rewrite Hi'; apply N.mod_lt; lia).
    (* leaves after the step *)
    assert (Leaves : k <> 0 -> forall j, j < 2 ^ k -> at_ d' (2 ^ k + j) =
       if j <? size then nth (N.to_nat ((i' + size - 1 - j) mod size)) (x :: h) floor else floor).
    { intros Hk0 j Hj. destruct Hleaf as [|Hleaf]; [lia|].
      assert (H2k : 2 <= 2 ^ k) by (change 2 with (2 ^ 1) at 1; apply N.pow_le_mono_r; lia).
      rewrite Hlf by lia. destruct (N.ltb_spec 1 (2 ^ k + mm_index m)); [|lia]. rewrite andb_true_r.
      destruct (N.eqb_spec (2 ^ k + j) (2 ^ k + mm_index m)) as [Ej|Ej].
      - assert (j = mm_index m) by lia. subst j. destruct (N.ltb_spec (mm_index m) size); [|lia].
        replace ((i' + size - 1 - mm_index m) mod size) with 0; [reflexivity|].
        rewrite window_age by lia. subst i'. rewrite Hsz.
        destruct (N.leb_spec size (mm_index m + 1)).
        + destruct (N.ltb_spec (mm_index m) 0); lia.
        + destruct (N.ltb_spec (mm_index m) (mm_index m + 1)); lia.
      - rewrite Hleaf by auto. destruct (N.ltb_spec j size) as [Hjs|Hjs]; auto.
        replace (N.to_nat ((i' + size - 1 - j) mod size)) with (S (N.to_nat ((mm_index m + size - 1 - j) mod size))); [reflexivity|].
        rewrite !window_age by lia. subst i'. rewrite Hsz.
        destruct (N.leb_spec size (mm_index m + 1)), (N.ltb_spec j (mm_index m)); cbv iota;
          [destruct (N.ltb_spec j 0)|destruct (N.ltb_spec j 0)|destruct (N.ltb_spec j (mm_index m + 1))|destruct (N.ltb_spec j (mm_index m + 1))]; lia. }
    exists r. eexists. split; [reflexivity|]. split.
    { repeat split; cbn [mm_size mm_index mm_data]; auto; try lia.
      - apply Hn; auto.
      - apply Hn; auto.
      - apply Hn; auto.
      - destruct (N.eq_dec k 0) as [->|Hk0]; [left; reflexivity|right; apply Leaves; auto]. }
    (* the root value *)
    destruct (N.eq_dec k 0) as [->|Hk0].
    + change (2 ^ 0) with 1 in *. assert (Hs1 : size = 1) by lia.
      rewrite (H1 eq_refl), Hs1. change (N.to_nat 1) with 1%nat. cbn [firstn].
      split; [right; left; reflexivity|]. split; [|intros _; left; reflexivity].
      intros y [<-|[]]. apply le_refl.
    + assert (H2k : 2 <= 2 ^ k) by (change 2 with (2 ^ 1) at 1; apply N.pow_le_mono_r; lia).
      destruct (Hr ltac:(lia)) as (Heq & Hle2 & Hle3).
      assert (Ek : 2 ^ k = 2 * 2 ^ (k - 1)).
      { rewrite <- N.pow_succ_r'. f_equal. lia. }
      destruct (node_max k d' Hn (k - 1) 2) as [(l2 & Hl2 & El2) M2]; [lia|lia|lia|].
      destruct (node_max k d' Hn (k - 1) 3) as [(l3 & Hl3 & El3) M3]; [lia|lia|lia|].
      assert (All : forall j, j < 2 ^ k -> le (at_ d' (2 ^ k + j)) r).
      { intros j Hj. destruct (N.lt_ge_cases (2 ^ k + j) (3 * 2 ^ (k - 1))).
        - eapply le_trans; [apply M2; lia|auto].
        - eapply le_trans; [apply M3; lia|auto]. }
      assert (Some_ : exists j, j < 2 ^ k /\ r = at_ d' (2 ^ k + j)).
      { destruct Heq as [Er|Er]; rewrite Er.
        - exists (l2 - 2 ^ k). split; [lia|]. rewrite El2. f_equal. lia.
        - exists (l3 - 2 ^ k). split; [lia|]. rewrite El3. f_equal. lia. }
      destruct Some_ as (j & Hj & Er).
      pose proof (Leaves Hk0 j Hj) as Ej.
      split; [|split].
      * rewrite Er, Ej. destruct (N.ltb_spec j size) as [Hjs|Hjs]; [|left; reflexivity].
        set (a := N.to_nat ((i' + size - 1 - j) mod size)).
        assert (Ha : (a < N.to_nat size)%nat).
        { subst a. assert ((i' + size - 1 - j) mod size < size) by (apply N.mod_lt; lia). lia. }
        destruct (Nat.ltb_spec a (length (x :: h))) as [Hal|Hal].
        -- right. apply nth_firstn_in; auto.
        -- left. rewrite nth_overflow by auto. reflexivity.
      * intros y Hy. apply in_firstn_nth in Hy. destruct Hy as (a & Ha & Hal & Hnth).
        (* leaf holding age a *)
        set (j' := if (N.of_nat a <? i') then i' - 1 - N.of_nat a else i' + size - 1 - N.of_nat a).
        assert (Hj' : j' < size) by (subst j'; destruct (N.ltb_spec (N.of_nat a) i'); lia).
        assert (Hage : (i' + size - 1 - j') mod size = N.of_nat a).
        { rewrite window_age by lia. subst j'.
          destruct (N.ltb_spec (N.of_nat a) i'); cbv iota;
          [destruct (N.ltb_spec (i' - 1 - N.of_nat a) i')|destruct (N.ltb_spec (i' + size - 1 - N.of_nat a) i')]; lia. }
        pose proof (Leaves Hk0 j' ltac:(lia)) as El.
        destruct (N.ltb_spec j' size) as [_|]; [|lia]. rewrite Hage, Nat2N.id, Hnth in El.
        rewrite <- El. apply All. lia.
      * intros [Hfull Hmany]. rewrite Er, Ej.
        destruct (N.ltb_spec j size) as [Hjs|Hjs]; [|lia].
        assert ((i' + size - 1 - j) mod size < size) by (apply N.mod_lt; lia).
        apply nth_firstn_in; lia.
Qed.

Lemma mm_run_spec xs : forall size k m h,
  mm_inv size k m h ->
  exists ys, mm_run lt m xs = Some ys /\ length ys = length xs /\
    forall t v, nth_error ys t = Some v ->
      let win := firstn (N.to_nat size) (rev (firstn (S t) xs) ++ h) in
      In v (floor :: win) /\ (forall y, In y win -> le y v) /\
      ((2 ^ k = size /\ (N.to_nat size <= S t + length h)%nat) -> In v win).
Proof.
  induction xs as [|x xs IH]; intros size k m h Hinv.
  - exists []. repeat split; auto; destruct t; discriminate.
  - destruct (mm_step_spec size k m h x Hinv) as (v & m' & E & Hinv' & S1 & S2 & S3).
    destruct (IH size k m' (x :: h) Hinv') as (ys & Ey & Hl & Hy).
    cbn [mm_run]. rewrite E. cbn [bind fst snd]. rewrite Ey. cbn [bind].
    eexists; split; [reflexivity|]. split; [cbn; lia|].
    intros [|t] v' Hv; cbn [nth_error] in Hv.
    + injection Hv as <-. cbn [firstn rev app]. cbv zeta. split; [exact S1|]. split; [exact S2|].
      intros [H1 H2]. apply S3. cbn [length]. split; lia.
    + specialize (Hy t v' Hv). cbv zeta in Hy |- *.
      cbn [firstn]. cbn [rev]. cbn [firstn rev app] in Hy. rewrite <- app_assoc. cbn [app].
      destruct Hy as (Y1 & Y2 & Y3). split; [exact Y1|]. split; [exact Y2|].
      intros [H1 H2]. apply Y3. cbn [length]. split; [auto|lia].
Qed.

Lemma mm_make_inv size : 1 <= size <= 2 ^ 62 ->
  exists m k, mm_make floor size = Some m /\ mm_inv size k m [] /\ (2 ^ k < 2 * size).
Proof.
  intros Hs. destruct (smallest_pow2_spec size) as (k & E & B & L & M); [lia|].
  assert (Hk : k <= 62).
  { destruct (N.le_gt_cases k 62); auto. specialize (M 62 ltac:(lia)). lia. }
  assert (P62 : 2 ^ k <= 2 ^ 62) by (apply N.pow_le_mono_r; lia).
  pose proof (pow2_pos k) as Pk.
  unfold mm_make. rewrite E. cbn [bind]. eexists. exists k. split; [reflexivity|].
  rewrite wrap64_small by (unfold W64; lia).
  assert (At : forall i, at_ (repeat floor (N.to_nat (2 ^ k * 2))) i = floor)
    by (intros i; apply nth_repeat).
  split.
  - unfold mm_inv. cbn [mm_size mm_index mm_data]. rewrite repeat_length.
    split; [reflexivity|]. split; [lia|]. split; [lia|].
    split; [symmetry; apply N.mod_0_l; lia|]. split; [lia|]. split.
    + intros i _. unfold node_ok, mxof. rewrite !At. auto using le_refl.
    + right. intros j Hj. rewrite At. destruct (j <? size); auto.
      rewrite nth_overflow; [reflexivity|apply Nat.le_0_l].
  - destruct (N.eq_dec k 0) as [->|Hk0]; [change (2 ^ 0) with 1; lia|].
    specialize (M (k - 1) ltac:(lia)).
    assert (2 ^ k = 2 * 2 ^ (k - 1)) by (rewrite <- N.pow_succ_r'; f_equal; lia). lia.
Qed.

Lemma moving_maximum_spec size xs :
  1 <= size <= 2 ^ 62 ->
  exists m ys, mm_make floor size = Some m /\ mm_run lt m xs = Some ys /\ length ys = length xs /\
    forall t v, nth_error ys t = Some v ->
      let win := firstn (N.to_nat size) (rev (firstn (S t) xs)) in
      In v (floor :: win) /\ (forall y, In y win -> lt v y = false) /\
      ((forall y, In y xs -> lt floor y = true) -> In v win).
Proof.
  intros Hs. destruct (mm_make_inv size Hs) as (m & k & E & Hinv & Hk2).
  destruct (mm_run_spec xs size k m [] Hinv) as (ys & Er & Hl & Hy).
  exists m, ys. repeat split; auto.
  - destruct (Hy t v H) as (H1 & _ & _). rewrite app_nil_r in H1. exact H1.
  - intros y Hin. destruct (Hy t v H) as (_ & H2 & _). rewrite app_nil_r in H2. apply H2. exact Hin.
  - intros Hfl. destruct (Hy t v H) as (H1 & H2 & _). rewrite app_nil_r in H1, H2.
    destruct H1 as [Hv|Hv]; auto. exfalso.
    assert (Ht : (t < length xs)%nat) by (rewrite <- Hl; apply nth_error_Some; congruence).
    destruct (nth_error xs t) as [x|] eqn:Ex; [|apply nth_error_None in Ex; lia].
    assert (Hx : In x (firstn (N.to_nat size) (rev (firstn (S t) xs)))).
    { apply nth_error_split in Ex. destruct Ex as (l1 & l2 & -> & Hl1).
      rewrite firstn_app, <- Hl1. replace (S (length l1) - length l1)%nat with 1%nat by lia.
      cbn [firstn]. rewrite rev_app_distr. cbn [rev app].
      destruct (N.to_nat size) as [|n] eqn:En; [lia|]. cbn [firstn]. left. reflexivity. }
    specialize (H2 x Hx). unfold le in H2. rewrite <- Hv in H2.
    assert (In x xs) by (eapply nth_error_In; eauto). rewrite Hfl in H2 by auto. discriminate.
Qed.
End P.
