(** What the in-place transform computes, for any arithmetic: bit reversal followed by the
    radix-2 recursion. *)
From Coq Require Import ZArith NArith List Bool Arith Lia.
From Verif Require Import Common CommonFacts Fft_Model.
Import ListNotations.
Local Open Scope nat_scope.

Section Gen.
Context {T : Type} (K : arith T).
Notation z := (a_zero K).
Notation add := (a_add K). Notation sub := (a_sub K). Notation mul := (a_mul K).

Lemma rd_ok (d : list T) i : i < length d -> rd d i = Some (nth i d z).
Proof. intros H. apply nth_error_nth'. exact H. Qed.
Lemma wr_ok (d : list T) i v : i < length d -> wr d i v = Some (lset d i v).
Proof. intros H. unfold wr. apply Nat.ltb_lt in H. rewrite H. reflexivity. Qed.
Lemma nth_lset (d : list T) i v j : i < length d -> nth j (lset d i v) z = if j =? i then v else nth j d z.
Proof.
  revert d j. induction i as [|i IH]; intros [|h t] j H; cbn in H; try lia.
  - destruct j; reflexivity.
  - destruct j as [|j]; [reflexivity|]. cbn. apply IH. lia.
Qed.

(** complex entry [c] of [data + off] *)
Definition cx (d : list T) (off c : nat) : T * T := (nth (off + 2 * c) d z, nth (off + 2 * c + 1) d z).
Definition cadd (a b : T * T) := (add (fst a) (fst b), add (snd a) (snd b)).
Definition csub (a b : T * T) := (sub (fst a) (fst b), sub (snd a) (snd b)).
(** the product x * w as the code computes it *)
Definition cmul (x w : T * T) := (sub (mul (fst x) (fst w)) (mul (snd x) (snd w)), add (mul (fst x) (snd w)) (mul (snd x) (fst w))).

Ltac lens := rewrite ?lset_length; lia.
Ltac step :=
  match goal with
  | |- context [rd ?d ?i] => rewrite (rd_ok d i) by lens
  | |- context [wr ?d ?i ?v] => rewrite (wr_ok d i v) by lens
  end; cbv beta iota zeta.
Ltac steps := cbv beta iota zeta delta [bind]; repeat step.
Ltac nths := rewrite ?nth_lset by lens;
  repeat match goal with |- context [?a =? ?b] =>
    first [ replace (a =? b) with true by (symmetry; apply Nat.eqb_eq; lia)
          | replace (a =? b) with false by (symmetry; apply Nat.eqb_neq; lia) ] end.

Lemma butterfly_spec M off c w d : c < M -> off + 4 * M <= length d -> exists d',
  butterfly K (2 * M) off (2 * c) w d = Some d' /\ length d' = length d /\
  cx d' off c = cadd (cx d off c) (cmul (cx d off (c + M)) w) /\
  cx d' off (c + M) = csub (cx d off c) (cmul (cx d off (c + M)) w) /\
  (forall m, m <> off + 2 * c -> m <> off + 2 * c + 1 -> m <> off + 2 * (c + M) -> m <> off + 2 * (c + M) + 1 -> nth m d' z = nth m d z).
Proof.
  intros Hc Hl. unfold butterfly. steps. eexists. split; [reflexivity|]. split; [lens|].
  replace (off + 2 * c + 2 * M) with (off + 2 * (c + M)) by lia.
  split; [|split].
  - unfold cx, cadd, cmul. cbn [fst snd]. nths. reflexivity.
  - unfold cx, csub, cmul. cbn [fst snd]. nths. reflexivity.
  - intros m H1 H2 H3 H4. nths. reflexivity.
Qed.

Fixpoint tws (p w : T * T) (n : nat) : T * T := match n with O => w | S n => twiddle K p (tws p w n) end.
Lemma tws_front p w n : tws p (twiddle K p w) n = tws p w (S n).
Proof. induction n as [|n IH]; [reflexivity|]. cbn [tws]. rewrite IH. reflexivity. Qed.

Lemma cx_eq d d' off c : nth (off + 2 * c) d' z = nth (off + 2 * c) d z -> nth (off + 2 * c + 1) d' z = nth (off + 2 * c + 1) d z -> cx d' off c = cx d off c.
Proof. intros A B. unfold cx. rewrite A, B. reflexivity. Qed.

Lemma dl_loop_spec M off p n : forall c0 w d, c0 + n <= M -> off + 4 * M <= length d -> exists d',
  dl_loop K (2 * M) off p n (2 * c0) w d = Some d' /\ length d' = length d /\
  (forall c, c < n ->
    cx d' off (c0 + c) = cadd (cx d off (c0 + c)) (cmul (cx d off (c0 + c + M)) (tws p w c)) /\
    cx d' off (c0 + c + M) = csub (cx d off (c0 + c)) (cmul (cx d off (c0 + c + M)) (tws p w c))) /\
  (forall m, m < off + 2 * c0 \/ off + 2 * (c0 + n) <= m < off + 2 * (c0 + M) \/ off + 2 * (c0 + n + M) <= m -> nth m d' z = nth m d z).
Proof.
  induction n as [|n IH]; intros c0 w d Hn Hl.
  { exists d. cbn [dl_loop]. split; [reflexivity|]. split; [reflexivity|]. split; [intros c H; lia|reflexivity]. }
  destruct (butterfly_spec M off c0 w d) as (d1 & E & L & A & B & F); [lia|exact Hl|].
  cbn [dl_loop]. rewrite E. cbv beta iota zeta delta [bind]. replace (2 * c0 + 2) with (2 * S c0) by lia.
  destruct (IH (S c0) (twiddle K p w) d1) as (d2 & E2 & L2 & AB & F2); [lia|lia|].
  exists d2. split; [exact E2|]. split; [lia|]. split.
  - intros [|c] H.
    + rewrite Nat.add_0_r. cbn [tws]. rewrite <- A, <- B. split; apply cx_eq; apply F2; lia.
    + destruct (AB c ltac:(lia)) as [A' B']. rewrite tws_front in A', B'.
      replace (c0 + S c) with (S c0 + c) by lia. rewrite A', B'.
      replace (cx d1 off (S c0 + c)) with (cx d off (S c0 + c)) by (apply cx_eq; symmetry; apply F; lia).
      replace (cx d1 off (S c0 + c + M)) with (cx d off (S c0 + c + M)) by (apply cx_eq; symmetry; apply F; lia).
      split; reflexivity.
  - intros m H. rewrite F2 by lia. apply F; lia.
Qed.

(** the recursion on sequences of complex numbers *)
Definition mrot (a b : T * T) : T * T := (sub (snd a) (snd b), sub (fst b) (fst a)).
Fixpoint fft_rec (k : nat) (y : nat -> T * T) (j : nat) : T * T :=
  match k with
  | O => y 0
  | 1 => if j =? 0 then cadd (y 0) (y 1) else csub (y 0) (y 1)
  | 2 =>
      let e0 := cadd (y 0) (y 2) in let e1 := csub (y 0) (y 2) in
      let o0 := cadd (y 1) (y 3) in let o1 := mrot (y 1) (y 3) in
      match j with O => cadd e0 o0 | 1 => cadd e1 o1 | 2 => csub e0 o0 | _ => csub e1 o1 end
  | S k' =>
      let M := 2 ^ k' in
      let E := fft_rec k' (fun n => y (2 * n)) in
      let O := fft_rec k' (fun n => y (2 * n + 1)) in
      let w c := tws (step_factor K (2 ^ k)) (a_one K, a_zero K) c in
      if j <? M then cadd (E j) (cmul (O j) (w j)) else csub (E (j - M)) (cmul (O (j - M)) (w (j - M)))
  end.
Fixpoint rev (k n : nat) : nat :=
  match k with O => 0 | S k' => (n mod 2) * 2 ^ k' + rev k' (n / 2) end.
Lemma rev_lt k : forall n, rev k n < 2 ^ k.
Proof.
  induction k as [|k IH]; intros n; cbn [rev]; [cbn; lia|]. rewrite Nat.pow_succ_r'. specialize (IH (n / 2)).
  pose proof (Nat.mod_upper_bound n 2 ltac:(lia)). destruct (n mod 2) as [|[|]]; lia.
Qed.
Lemma rev_even k n : rev (S k) (2 * n) = rev k n.
Proof.
  cbn [rev]. replace (2 * n) with (n * 2) by lia. rewrite Nat.mod_mul, Nat.div_mul by lia. reflexivity.
Qed.
Lemma rev_odd k n : rev (S k) (2 * n + 1) = 2 ^ k + rev k n.
Proof.
  cbn [rev]. replace (2 * n + 1) with (1 + n * 2) by lia. rewrite Nat.mod_add, Nat.div_add by lia. change (1 mod 2) with 1. change (1 / 2) with 0. rewrite Nat.mul_1_l, Nat.add_0_l. reflexivity.
Qed.
Lemma fft_rec_ext k : forall y y' j, (forall n, n < 2 ^ k -> y n = y' n) -> fft_rec k y j = fft_rec k y' j.
Proof.
  induction k as [|k IH]; intros y y' j H; [apply H; cbn; lia|].
  destruct k as [|[|k]].
  - cbn [fft_rec]. rewrite (H 0), (H 1) by (cbn; lia). reflexivity.
  - cbn [fft_rec]. rewrite (H 0), (H 1), (H 2), (H 3) by (cbn; lia). reflexivity.
  - change (fft_rec (S (S (S k))) y j) with
      (let M := 2 ^ (S (S k)) in
      let E := fft_rec (S (S k)) (fun n => y (2 * n)) in
      let O := fft_rec (S (S k)) (fun n => y (2 * n + 1)) in
      let w c := tws (step_factor K (2 ^ (S (S (S k))))) (a_one K, a_zero K) c in
      if j <? M then cadd (E j) (cmul (O j) (w j)) else csub (E (j - M)) (cmul (O (j - M)) (w (j - M)))).
    change (fft_rec (S (S (S k))) y' j) with
      (let M := 2 ^ (S (S k)) in
      let E := fft_rec (S (S k)) (fun n => y' (2 * n)) in
      let O := fft_rec (S (S k)) (fun n => y' (2 * n + 1)) in
      let w c := tws (step_factor K (2 ^ (S (S (S k))))) (a_one K, a_zero K) c in
      if j <? M then cadd (E j) (cmul (O j) (w j)) else csub (E (j - M)) (cmul (O (j - M)) (w (j - M)))).
    cbv zeta. set (k2 := S (S k)) in *. rewrite Nat.pow_succ_r' in H.
    assert (He : forall j, fft_rec k2 (fun n => y (2 * n)) j = fft_rec k2 (fun n => y' (2 * n)) j) by (intros i; apply IH; intros n Hn; apply H; lia).
    assert (Ho : forall j, fft_rec k2 (fun n => y (2 * n + 1)) j = fft_rec k2 (fun n => y' (2 * n + 1)) j) by (intros i; apply IH; intros n Hn; apply H; lia).
    rewrite !He, !Ho. reflexivity.
Qed.
Lemma fft_rec_S k y j : fft_rec (S (S (S k))) y j =
      (let M := 2 ^ (S (S k)) in
      let E := fft_rec (S (S k)) (fun n => y (2 * n)) in
      let O := fft_rec (S (S k)) (fun n => y (2 * n + 1)) in
      let w c := tws (step_factor K (2 ^ (S (S (S k))))) (a_one K, a_zero K) c in
      if j <? M then cadd (E j) (cmul (O j) (w j)) else csub (E (j - M)) (cmul (O (j - M)) (w (j - M)))).
Proof. reflexivity. Qed.
Lemma dl_S k off (d : list T) : dl K (S (S (S k))) off d =
  (do d <- dl K (S (S k)) off d ; do d <- dl K (S (S k)) (off + 2 ^ (S (S (S k)))) d ;
   dl_loop K (2 ^ (S (S (S k)))) off (step_factor K (2 ^ (S (S (S k))))) (2 ^ (S (S (S k))) / 2) 0 (a_one K, a_zero K) d).
Proof. reflexivity. Qed.

Lemma dl2_spec off d : off + 4 <= length d -> exists d', dl2 K off d = Some d' /\ length d' = length d /\
  cx d' off 0 = cadd (cx d off 0) (cx d off 1) /\ cx d' off 1 = csub (cx d off 0) (cx d off 1) /\
  (forall m, m < off \/ off + 4 <= m -> nth m d' z = nth m d z).
Proof.
  intros Hl. unfold dl2. steps. eexists. split; [reflexivity|]. split; [lens|].
  change (2 * 0) with 0. change (2 * 1) with 2.
  split; [|split].
  - unfold cx, cadd. cbn [fst snd]. rewrite !Nat.mul_0_r, ?Nat.add_0_r. change (2 * 1) with 2. nths. replace (off + 2 + 1) with (off + 3) by lia. reflexivity.
  - unfold cx, csub. cbn [fst snd]. rewrite !Nat.mul_0_r, ?Nat.add_0_r. change (2 * 1) with 2. nths. replace (off + 2 + 1) with (off + 3) by lia. reflexivity.
  - intros m H. nths. reflexivity.
Qed.

Lemma dl4_spec off d : off + 8 <= length d -> exists d', dl4 K off d = Some d' /\ length d' = length d /\
  (let e0 := cadd (cx d off 0) (cx d off 1) in let e1 := csub (cx d off 0) (cx d off 1) in
   let o0 := cadd (cx d off 2) (cx d off 3) in let o1 := mrot (cx d off 2) (cx d off 3) in
   cx d' off 0 = cadd e0 o0 /\ cx d' off 1 = cadd e1 o1 /\ cx d' off 2 = csub e0 o0 /\ cx d' off 3 = csub e1 o1) /\
  (forall m, m < off \/ off + 8 <= m -> nth m d' z = nth m d z).
Proof.
  intros Hl. unfold dl4. destruct (dl2_spec off d ltac:(lia)) as (d1 & E & L & A & B & F). rewrite E.
  cbv zeta. rewrite <- A, <- B.
  assert (C2 : cx d off 2 = cx d1 off 2) by (apply cx_eq; symmetry; apply F; lia).
  assert (C3 : cx d off 3 = cx d1 off 3) by (apply cx_eq; symmetry; apply F; lia).
  rewrite C2, C3. clear A B C2 C3 E. cbv beta iota zeta delta [bind]. rewrite <- L in Hl.
  steps. eexists. split; [reflexivity|]. split; [rewrite ?lset_length; exact L|].
  unfold cx, cadd, csub, mrot. cbn [fst snd]. rewrite !Nat.mul_0_r, ?Nat.add_0_r.
  change (2 * 1) with 2. change (2 * 2) with 4. change (2 * 3) with 6.
  replace (off + 2 + 1) with (off + 3) by lia. replace (off + 4 + 1) with (off + 5) by lia. replace (off + 6 + 1) with (off + 7) by lia.
  split; [repeat split|].
  all: try (nths; reflexivity).
  intros m H. nths. apply F. lia.
Qed.

(** danielson_lanczos<2^k>::apply on bit-reversed data *)
Lemma dl_spec k : 1 <= k -> forall off d, off + 2 * 2 ^ k <= length d -> exists d', dl K k off d = Some d' /\ length d' = length d /\
  (forall j, j < 2 ^ k -> cx d' off j = fft_rec k (fun n => cx d off (rev k n)) j) /\
  (forall m, m < off \/ off + 2 * 2 ^ k <= m -> nth m d' z = nth m d z).
Proof.
  induction k as [|k IH]; [lia|]. intros _ off d Hl. destruct k as [|[|k]].
  - change (2 * 2 ^ 1) with 4 in *. destruct (dl2_spec off d Hl) as (d' & E & L & A & B & F).
    exists d'. split; [exact E|]. split; [exact L|]. split; [|exact F].
    intros [|[|j]] H; [exact A|exact B|cbn in H; lia].
  - change (2 * 2 ^ 2) with 8 in *. destruct (dl4_spec off d Hl) as (d' & E & L & A & F).
    exists d'. split; [exact E|]. split; [exact L|]. split; [|exact F]. destruct A as (A0 & A1 & A2 & A3).
    intros [|[|[|[|j]]]] H; [exact A0|exact A1|exact A2|exact A3|cbn in H; lia].
  - rewrite dl_S. set (k2 := S (S k)) in *. rewrite Nat.pow_succ_r' in *. set (M := 2 ^ k2) in *.
    destruct (IH ltac:(unfold k2; lia) off d ltac:(lia)) as (d1 & E1 & L1 & A1 & F1).
    rewrite E1. cbv beta iota zeta delta [bind].
    destruct (IH ltac:(unfold k2; lia) (off + 2 * M) d1 ltac:(lia)) as (d2 & E2 & L2 & A2 & F2).
    rewrite E2. replace (2 * M / 2) with M by (symmetry; rewrite Nat.mul_comm; apply Nat.div_mul; lia).
    destruct (dl_loop_spec M off (step_factor K (2 * M)) M 0 (a_one K, z) d2 ltac:(lia) ltac:(lia)) as (d3 & E3 & L3 & A3 & F3).
    exists d3. split; [exact E3|]. split; [lia|]. split.
    + assert (Ce : forall c, c < M -> cx d2 off c = fft_rec k2 (fun n => cx d off (rev (S k2) (2 * n))) c).
      { intros c Hc. rewrite (cx_eq d1 d2 off c) by (apply F2; lia). rewrite A1 by lia.
        apply fft_rec_ext. intros n Hn. rewrite rev_even. reflexivity. }
      assert (Co : forall c, c < M -> cx d2 off (c + M) = fft_rec k2 (fun n => cx d off (rev (S k2) (2 * n + 1))) c).
      { intros c Hc. replace (cx d2 off (c + M)) with (cx d2 (off + 2 * M) c) by (unfold cx; f_equal; f_equal; lia).
        rewrite A2 by lia. apply fft_rec_ext. intros n Hn. rewrite rev_odd. fold M. pose proof (rev_lt k2 n) as Hr. fold M in Hr.
        replace (cx d1 (off + 2 * M) (rev k2 n)) with (cx d1 off (M + rev k2 n)) by (unfold cx; f_equal; f_equal; lia).
        apply cx_eq; apply F1; lia. }
      intros j Hj. unfold k2 at 1. rewrite fft_rec_S. fold k2. fold M. cbv zeta. rewrite Nat.pow_succ_r'. fold M. destruct (j <? M) eqn:Q.
      * apply Nat.ltb_lt in Q. destruct (A3 j Q) as [X _]. cbn [Nat.add] in X. rewrite X, Ce, Co by exact Q. reflexivity.
      * apply Nat.ltb_ge in Q. destruct (A3 (j - M) ltac:(lia)) as [_ X]. cbn [Nat.add] in X.
        rewrite Ce, Co in X by lia. replace (j - M + M) with j in X by lia. exact X.
    + intros m H. rewrite F3, F2, F1 by lia. reflexivity.
Qed.

(** the bit-reversed counter *)
Lemma rev_succ_even k i : i mod 2 = 0 -> rev (S k) (i + 1) = rev (S k) i + 2 ^ k.
Proof.
  intros H. pose proof (Nat.div_mod i 2 ltac:(lia)) as E. rewrite H, Nat.add_0_r in E. rewrite E. rewrite rev_odd, rev_even. lia.
Qed.
Lemma next_j_spec k : forall fuel i, k < fuel -> k <= 30 -> i + 1 < 2 ^ k ->
  next_j fuel (2 * rev k i + 1) (2 ^ k) = Some (2 * rev k (i + 1) + 1).
Proof.
  induction k as [|k IH]; intros fuel i Hf Hk Hi; [cbn in Hi; lia|].
  destruct fuel as [|fuel]; [lia|]. cbn [next_j].
  assert (P : 1 <= 2 ^ k) by (pose proof (Nat.pow_nonzero 2 k ltac:(lia)); lia).
  rewrite Nat.pow_succ_r' in *. replace (2 <=? 2 * 2 ^ k) with true by (symmetry; apply Nat.leb_le; lia). cbn [andb].
  pose proof (rev_lt k (i / 2)) as Hr.
  assert (Hm : i mod 2 = 0 \/ i mod 2 = 1) by (pose proof (Nat.mod_upper_bound i 2 ltac:(lia)); lia).
  pose proof (Nat.div_mod i 2 ltac:(lia)) as E. destruct Hm as [Hm|Hm]; rewrite Hm in E.
  - rewrite (rev_succ_even k i Hm). cbn [rev]. rewrite Hm, Nat.mul_0_l, Nat.add_0_l.
    replace (2 * 2 ^ k <? 2 * rev k (i / 2) + 1) with false by (symmetry; apply Nat.ltb_ge; lia).
    assert (I : int_ok (2 * rev k (i / 2) + 1 + 2 * 2 ^ k) = true).
    { unfold int_ok. apply N.ltb_lt. assert (2 ^ k <= 2 ^ 29) by (apply Nat.pow_le_mono_r; lia).
      assert (N.of_nat (2 ^ k) <= 2 ^ 29)%N.
      { change (2 ^ 29)%N with (N.of_nat 2 ^ 29)%N. rewrite Nnat.Nat2N.inj_pow. change (N.of_nat 2) with 2%N. apply N.pow_le_mono_r; lia. }
      lia. }
    rewrite I. f_equal. lia.
  - cbn [rev]. rewrite Hm.
    replace (2 * 2 ^ k <? 2 * (1 * 2 ^ k + rev k (i / 2)) + 1) with true by (symmetry; apply Nat.ltb_lt; lia).
    replace (2 * (1 * 2 ^ k + rev k (i / 2)) + 1 - 2 * 2 ^ k) with (2 * rev k (i / 2) + 1) by lia.
    replace (2 * 2 ^ k / 2) with (2 ^ k) by (symmetry; rewrite Nat.mul_comm; apply Nat.div_mul; lia).
    assert (E1 : i + 1 = (i / 2 + 1) * 2) by lia.
    rewrite (IH fuel (i / 2)) by lia. f_equal.
    replace ((i + 1) mod 2) with 0 by (rewrite E1, Nat.mod_mul; lia).
    replace ((i + 1) / 2) with (i / 2 + 1) by (rewrite E1, Nat.div_mul; lia). lia.
Qed.

Lemma rev_high k : forall m b, m < 2 ^ k -> b < 2 -> rev (S k) (b * 2 ^ k + m) = 2 * rev k m + b.
Proof.
  induction k as [|k IH]; intros m b Hm Hb.
  - cbn in Hm. replace m with 0 by lia. destruct b as [|[|b]]; [reflexivity|reflexivity|lia].
  - rewrite Nat.pow_succ_r' in *. pose proof (Nat.div_mod m 2 ltac:(lia)) as E.
    pose proof (Nat.mod_upper_bound m 2 ltac:(lia)) as Hu.
    assert (A : rev (S (S k)) (b * (2 * 2 ^ k) + m) = (m mod 2) * 2 ^ (S k) + rev (S k) (b * 2 ^ k + m / 2)).
    { change (rev (S (S k)) ?x) with ((x mod 2) * 2 ^ (S k) + rev (S k) (x / 2)).
      replace (b * (2 * 2 ^ k) + m) with (m mod 2 + (b * 2 ^ k + m / 2) * 2) by lia.
      rewrite Nat.mod_add, Nat.div_add by lia. rewrite Nat.mod_mod, (Nat.div_small (m mod 2) 2) by lia. rewrite Nat.add_0_l. reflexivity. }
    rewrite A, IH by lia. change (rev (S k) m) with ((m mod 2) * 2 ^ k + rev k (m / 2)). rewrite Nat.pow_succ_r'. lia.
Qed.
Lemma rev_rev k : forall n, n < 2 ^ k -> rev k (rev k n) = n.
Proof.
  induction k as [|k IH]; intros n Hn; [cbn in *; lia|]. rewrite Nat.pow_succ_r' in Hn.
  change (rev (S k) n) with ((n mod 2) * 2 ^ k + rev k (n / 2)).
  pose proof (Nat.mod_upper_bound n 2 ltac:(lia)) as Hu. pose proof (Nat.div_mod n 2 ltac:(lia)) as E.
  rewrite rev_high; [|apply rev_lt|exact Hu]. rewrite IH by lia. lia.
Qed.
Lemma next_j_last k : forall fuel, k < fuel -> next_j fuel (2 * rev k (2 ^ k - 1) + 1) (2 ^ k) = Some 2.
Proof.
  induction k as [|k IH]; intros fuel Hf; (destruct fuel as [|fuel]; [lia|]); [reflexivity|].
  cbn [next_j]. assert (P : 1 <= 2 ^ k) by (pose proof (Nat.pow_nonzero 2 k ltac:(lia)); lia).
  rewrite Nat.pow_succ_r'. replace (2 * 2 ^ k - 1) with (2 * (2 ^ k - 1) + 1) by lia. rewrite rev_odd.
  replace (2 <=? 2 * 2 ^ k) with true by (symmetry; apply Nat.leb_le; lia). cbn [andb].
  replace (2 * 2 ^ k <? 2 * (2 ^ k + rev k (2 ^ k - 1)) + 1) with true by (symmetry; apply Nat.ltb_lt; lia).
  replace (2 * (2 ^ k + rev k (2 ^ k - 1)) + 1 - 2 * 2 ^ k) with (2 * rev k (2 ^ k - 1) + 1) by lia.
  replace (2 * 2 ^ k / 2) with (2 ^ k) by (symmetry; rewrite Nat.mul_comm; apply Nat.div_mul; lia).
  apply IH. lia.
Qed.

Lemma swap_spec (d : list T) p q : p < q -> 2 * q + 1 < length d -> exists d',
  (do d <- swap d (2 * q + 1 - 1) (2 * p + 1 - 1) ; swap d (2 * q + 1) (2 * p + 1)) = Some d' /\ length d' = length d /\
  cx d' 0 p = cx d 0 q /\ cx d' 0 q = cx d 0 p /\
  (forall m, m <> 2 * p -> m <> 2 * p + 1 -> m <> 2 * q -> m <> 2 * q + 1 -> nth m d' z = nth m d z).
Proof.
  intros H Hl. unfold swap. replace (2 * q + 1 - 1) with (2 * q) by lia. replace (2 * p + 1 - 1) with (2 * p) by lia.
  steps. eexists. split; [reflexivity|]. split; [lens|]. split; [|split].
  - unfold cx. cbn [Nat.add]. nths. reflexivity.
  - unfold cx. cbn [Nat.add]. nths. reflexivity.
  - intros m A B C D. nths. reflexivity.
Qed.

Lemma int_ok_small k i : k <= 29 -> i <= 2 ^ k -> int_ok (2 * i + 1) = true.
Proof.
  intros Hk Hi. unfold int_ok. apply N.ltb_lt.
  assert (N.of_nat (2 ^ k) <= 2 ^ 29)%N.
  { change (2 ^ 29)%N with (N.of_nat 2 ^ 29)%N. rewrite Nnat.Nat2N.inj_pow. change (N.of_nat 2) with 2%N. apply N.pow_le_mono_r; lia. }
  lia.
Qed.

(** entry p after the entries below i were exchanged with their mirror images *)
Definition half (k i : nat) (D : list T) (p : nat) : T * T :=
  if Nat.min p (rev k p) <? i then cx D 0 (rev k p) else cx D 0 p.
Lemma scramble_loop_spec k (D : list T) : k <= 29 -> 2 * 2 ^ k <= length D -> forall n i d j, i + n = 2 ^ k ->
  (i < 2 ^ k -> j = 2 * rev k i + 1) -> length d = length D ->
  (forall p, p < 2 ^ k -> cx d 0 p = half k i D p) -> (forall m, 2 * 2 ^ k <= m -> nth m d z = nth m D z) ->
  exists d', scramble_loop (2 ^ k) n (2 * i + 1) j d = Some d' /\ length d' = length D /\
    (forall p, p < 2 ^ k -> cx d' 0 p = cx D 0 (rev k p)) /\ (forall m, 2 * 2 ^ k <= m -> nth m d' z = nth m D z).
Proof.
  intros Hk HD. induction n as [|n IH]; intros i d j Hn Hj Hl Hd Hf.
  { exists d. cbn [scramble_loop]. split; [reflexivity|]. split; [exact Hl|]. split; [|exact Hf].
    intros p Hp. rewrite Hd by exact Hp. unfold half. replace (Nat.min p (rev k p) <? i) with true by (symmetry; apply Nat.ltb_lt; lia). reflexivity. }
  cbn [scramble_loop]. rewrite (Hj ltac:(lia)). clear j Hj.
  assert (Hi : i < 2 ^ k) by lia.
  pose proof (rev_lt k i) as Hr. pose proof (rev_rev k i Hi) as RR.
  assert (X : exists d1, (if 2 * i + 1 <? 2 * rev k i + 1 then do d <- swap d (2 * rev k i + 1 - 1) (2 * i + 1 - 1) ; swap d (2 * rev k i + 1) (2 * i + 1) else Some d) = Some d1 /\
    length d1 = length D /\ (forall p, p < 2 ^ k -> cx d1 0 p = half k (S i) D p) /\ (forall m, 2 * 2 ^ k <= m -> nth m d1 z = nth m D z)).
  { destruct (2 * i + 1 <? 2 * rev k i + 1) eqn:Q.
    - apply Nat.ltb_lt in Q. destruct (swap_spec d i (rev k i) ltac:(lia) ltac:(lia)) as (d1 & E & L & A & B & F).
      exists d1. split; [exact E|]. split; [lia|]. split.
      + intros p Hp. destruct (Nat.eq_dec p i) as [->|N1]; [|destruct (Nat.eq_dec p (rev k i)) as [->|N2]].
        * rewrite A, Hd by exact Hr. unfold half. rewrite RR.
          replace (Nat.min (rev k i) i <? i) with false by (symmetry; apply Nat.ltb_ge; lia).
          replace (Nat.min i (rev k i) <? S i) with true by (symmetry; apply Nat.ltb_lt; lia). reflexivity.
        * rewrite B, Hd by exact Hi. unfold half. rewrite RR.
          replace (Nat.min i (rev k i) <? i) with false by (symmetry; apply Nat.ltb_ge; lia).
          replace (Nat.min (rev k i) i <? S i) with true by (symmetry; apply Nat.ltb_lt; lia). reflexivity.
        * rewrite (cx_eq d d1 0 p) by (apply F; lia). rewrite Hd by exact Hp. unfold half.
          pose proof (rev_rev k p Hp) as RP.
          assert (rev k p <> i) by (intros Z; apply N2; rewrite <- Z; symmetry; exact RP).
          replace (Nat.min p (rev k p) <? S i) with (Nat.min p (rev k p) <? i); [reflexivity|].
          destruct (Nat.min p (rev k p) <? i) eqn:W; symmetry; [apply Nat.ltb_lt; apply Nat.ltb_lt in W|apply Nat.ltb_ge; apply Nat.ltb_ge in W]; lia.
      + intros m Hm. rewrite F by lia. apply Hf. exact Hm.
    - apply Nat.ltb_ge in Q. exists d. split; [reflexivity|]. split; [exact Hl|]. split; [|exact Hf].
      intros p Hp. rewrite Hd by exact Hp. unfold half.
      destruct (Nat.eq_dec (Nat.min p (rev k p)) i) as [Z|Z].
      + replace (Nat.min p (rev k p) <? i) with false by (symmetry; apply Nat.ltb_ge; lia).
        replace (Nat.min p (rev k p) <? S i) with true by (symmetry; apply Nat.ltb_lt; lia).
        assert (P : p = i).
        { destruct (Nat.le_gt_cases p (rev k p)) as [C|C]; [lia|]. exfalso. assert (Y : rev k p = i) by lia.
          pose proof (rev_rev k p Hp) as RP. rewrite Y in RP. lia. }
        subst p. assert (rev k i = i) by lia. congruence.
      + replace (Nat.min p (rev k p) <? S i) with (Nat.min p (rev k p) <? i); [reflexivity|].
        destruct (Nat.min p (rev k p) <? i) eqn:W; symmetry; [apply Nat.ltb_lt; apply Nat.ltb_lt in W|apply Nat.ltb_ge; apply Nat.ltb_ge in W]; lia. }
  destruct X as (d1 & E & L1 & H1 & F1). rewrite E. cbv beta iota zeta delta [bind].
  replace (2 * i + 1 + 2) with (2 * S i + 1) by lia. rewrite (int_ok_small k (S i)) by lia.
  destruct (Nat.eq_dec (S i) (2 ^ k)) as [Z|Z].
  - assert (Ei : i = 2 ^ k - 1) by lia. pose proof (next_j_last k 32 ltac:(lia)) as NJ. rewrite <- Ei in NJ. rewrite NJ. apply IH; try assumption; lia.
  - rewrite next_j_spec by lia. replace (i + 1) with (S i) by lia. apply IH; try assumption; [lia|reflexivity].
Qed.
Lemma scramble_spec k (d : list T) : k <= 29 -> 2 * 2 ^ k <= length d -> exists d',
  scramble (2 ^ k) d = Some d' /\ length d' = length d /\
  (forall p, p < 2 ^ k -> cx d' 0 p = cx d 0 (rev k p)) /\ (forall m, 2 * 2 ^ k <= m -> nth m d' z = nth m d z).
Proof.
  intros Hk Hl. unfold scramble.
  assert (I : int_ok (2 ^ k) = true).
  { unfold int_ok. apply N.ltb_lt. rewrite Nnat.Nat2N.inj_pow. change (N.of_nat 2) with 2%N. apply N.pow_lt_mono_r; lia. }
  rewrite I. refine (scramble_loop_spec k d Hk Hl (2 ^ k) 0 d 1 _ _ _ _ _).
  - lia.
  - intros _. replace (rev k 0) with 0; [reflexivity|]. clear. induction k as [|k IH]; [reflexivity|]. cbn [rev]. exact IH.
  - reflexivity.
  - intros p Hp. unfold half. replace (Nat.min p (rev k p) <? 0) with false by (symmetry; apply Nat.ltb_ge; lia). reflexivity.
  - reflexivity.
Qed.
Lemma fft_spec k (d : list T) : 1 <= k <= 29 -> 2 * 2 ^ k <= length d -> exists d',
  fft K k d = Some d' /\ length d' = length d /\
  (forall j, j < 2 ^ k -> cx d' 0 j = fft_rec k (fun n => cx d 0 n) j) /\ (forall m, 2 * 2 ^ k <= m -> nth m d' z = nth m d z).
Proof.
  intros Hk Hl. destruct (scramble_spec k d ltac:(lia) Hl) as (d1 & E1 & L1 & A1 & F1).
  destruct (dl_spec k ltac:(lia) 0 d1 ltac:(lia)) as (d2 & E2 & L2 & A2 & F2).
  exists d2. unfold fft. rewrite E1. cbv beta iota zeta delta [bind]. split; [exact E2|]. split; [lia|]. split.
  - intros j Hj. rewrite A2 by exact Hj. apply fft_rec_ext. intros n Hn. rewrite A1 by apply rev_lt. rewrite rev_rev by exact Hn. reflexivity.
  - intros m Hm. rewrite F2 by lia. apply F1. exact Hm.
Qed.
End Gen.
