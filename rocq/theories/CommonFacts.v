(** Facts about the shared vocabulary. *)
From Verif Require Import Common.

Lemma lset_length {A} (d : list A) i v : length (lset d i v) = length d.
Proof. revert i; induction d as [|h t IH]; intros [|i]; simpl; auto. Qed.

Lemma lset_nth {A} (d : list A) i v j :
  nth_error (lset d i v) j =
  if (j =? i) then (if i <? length d then Some v else None) else nth_error d j.
Proof.
  revert i j; induction d as [|h t IH]; intros [|i] [|j]; simpl; auto.
  - destruct (j =? i); reflexivity.
  - rewrite IH. reflexivity.
Qed.

Lemma vset_some {A} (d : list A) i v :
  (i < N.of_nat (length d))%N -> vset d i v = Some (lset d (N.to_nat i) v).
Proof. unfold vset; intros H. destruct (N.ltb_spec i (N.of_nat (length d))); auto; lia. Qed.

Lemma vget_some_lt {A} (d : list A) i x :
  vget d i = Some x -> (i < N.of_nat (length d))%N.
Proof. unfold vget. intros H. assert (H1 : nth_error d (N.to_nat i) <> None) by congruence.
  apply nth_error_Some in H1. lia. Qed.

Lemma vget_lt {A} (d : list A) i :
  (i < N.of_nat (length d))%N -> exists x, vget d i = Some x.
Proof. unfold vget. intros H. destruct (nth_error d (N.to_nat i)) eqn:E; eauto.
  apply nth_error_None in E. lia. Qed.

Lemma vget_lset {A} (d : list A) i v j :
  (i < N.of_nat (length d))%N ->
  vget (lset d (N.to_nat i) v) j = if (j =? i)%N then Some v else vget d j.
Proof.
  intros H. unfold vget. rewrite lset_nth.
  destruct (N.eqb_spec j i) as [->|Hn].
  - rewrite Nat.eqb_refl. destruct (Nat.ltb_spec (N.to_nat i) (length d)); auto; lia.
  - destruct (Nat.eqb_spec (N.to_nat j) (N.to_nat i)); auto; lia.
Qed.

Lemma land_pow2_pred x k : N.land x (2 ^ k - 1) = (x mod 2 ^ k)%N.
Proof. rewrite <- N.land_ones. f_equal. rewrite N.ones_equiv. lia. Qed.

Lemma pow2_pos k : (0 < 2 ^ k)%N.
Proof. apply N.neq_0_lt_0. apply N.pow_nonzero. lia. Qed.

Lemma pow2_split k j : (k <= j)%N -> (2 ^ j = 2 ^ (j - k) * 2 ^ k)%N.
Proof. intros H. rewrite <- N.pow_add_r. f_equal. lia. Qed.

(** reducing modulo 2^64 first does not change the residue modulo 2^k, k<=64 *)
Lemma wrap64_mod_pow2 x k : (k <= 64)%N -> (wrap64 x mod 2 ^ k = x mod 2 ^ k)%N.
Proof.
  intros H. unfold wrap64, W64. rewrite (pow2_split k 64 H).
  pose proof (pow2_pos k) as P1. pose proof (pow2_pos (64 - k)) as P2.
  rewrite (N.mul_comm (2 ^ (64 - k)) (2 ^ k)).
  rewrite N.mod_mul_r by lia.
  rewrite (N.mul_comm (2 ^ k) (_ mod _)), N.mod_add by lia.
  apply N.mod_mod; lia.
Qed.

Lemma wrap64_lt x : (wrap64 x < W64)%N.
Proof. apply N.mod_lt. discriminate. Qed.

Lemma wrap64_small x : (x < W64)%N -> wrap64 x = x.
Proof. apply N.mod_small. Qed.

(** [smallest_pow2 n] is the least power of two >= n. *)
Lemma smallest_pow2_from_spec fuel n k :
  (n <= 2 ^ 63)%N -> (k <= 63)%N -> (63 < k + N.of_nat fuel)%N ->
  (forall j, (j < k)%N -> (2 ^ j < n)%N) ->
  exists j, smallest_pow2_from fuel n (2 ^ k) = Some (2 ^ j)%N /\
            (k <= j <= 63)%N /\ (n <= 2 ^ j)%N /\ (forall i, (i < j)%N -> (2 ^ i < n)%N).
Proof.
  revert k; induction fuel as [|f IH]; intros k Hn Hk Hf Hlow; [lia|].
  cbn [smallest_pow2_from].
  destruct (N.ltb_spec (2 ^ k) n) as [Hlt|Hge].
  - assert (Hk63 : (k < 63)%N).
    { destruct (N.eq_dec k 63) as [->|]; lia. }
    replace (wrap64 (2 ^ k * 2)) with (2 ^ (k + 1))%N.
    + destruct (IH (k + 1)%N) as (j & E & B & L & M); try lia.
      * intros j Hj. destruct (N.eq_dec j k) as [->|]; auto. apply Hlow; lia.
      * exists j. repeat split; auto; lia.
    + rewrite N.pow_add_r, N.pow_1_r. symmetry; apply wrap64_small.
      unfold W64. change 64%N with (63 + 1)%N. rewrite N.pow_add_r, N.pow_1_r.
      apply N.mul_lt_mono_pos_r; [lia|]. apply N.pow_lt_mono_r; lia.
  - exists k. repeat split; auto; lia.
Qed.

Lemma smallest_pow2_spec n :
  (n <= 2 ^ 63)%N ->
  exists j, smallest_pow2 n = Some (2 ^ j)%N /\ (j <= 63)%N /\ (n <= 2 ^ j)%N /\
            (forall i, (i < j)%N -> (2 ^ i < n)%N).
Proof.
  intros H. destruct (smallest_pow2_from_spec 65 n 0) as (j & E & B & L & M); try lia.
  exists j. unfold smallest_pow2. change 1%N with (2 ^ 0)%N. rewrite E. repeat split; auto; lia.
Qed.

Lemma nth_error_ext {A} (l1 l2 : list A) :
  (forall i, nth_error l1 i = nth_error l2 i) -> l1 = l2.
Proof.
  revert l2; induction l1 as [|a l1 IH]; intros [|b l2] H; auto.
  - specialize (H 0); discriminate.
  - specialize (H 0); discriminate.
  - f_equal. + specialize (H 0); simpl in H; congruence.
    + apply IH. intros i. apply (H (S i)).
Qed.

Lemma nth_error_repeat_if {A} (x : A) n i :
  nth_error (repeat x n) i = if i <? n then Some x else None.
Proof.
  revert i; induction n as [|n IH]; intros [|i]; simpl; auto.
  rewrite IH. reflexivity.
Qed.

Lemma nth_error_firstn {A} n (l : list A) i :
  nth_error (firstn n l) i = if i <? n then nth_error l i else None.
Proof.
  revert l i; induction n as [|n IH]; intros l i.
  - simpl. destruct i; reflexivity.
  - destruct l as [|a l]; simpl.
    + destruct i as [|i]; simpl; [reflexivity|]. destruct (S i <? S n); reflexivity.
    + destruct i as [|i]; simpl; auto. rewrite IH. reflexivity.
Qed.

Lemma sub64_1 n : (1 <= n <= 2 ^ 63)%N -> sub64 n 1 = (n - 1)%N.
Proof.
  intros H. unfold sub64. rewrite (wrap64_small 1) by (unfold W64; lia).
  unfold wrap64. replace (n + (W64 - 1))%N with ((n - 1) + 1 * W64)%N by (unfold W64 in *; lia).
  rewrite N.mod_add by discriminate. apply N.mod_small. unfold W64. lia.
Qed.

