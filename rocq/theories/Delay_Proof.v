From Verif Require Import Common CommonFacts Ring_Model Ring_Spec Ring_Proof Delay_Model.

Section P.
Context {F : Type} (zero : F).

(** the sample [d] steps before the newest of the history [h] (newest first) *)
Lemma nf_delay_run_gen calls : forall r l hist c,
  ring_rel r l -> N.of_nat (length l) = c ->
  l = firstn (length l) (hist ++ repeat zero (length l)) ->
  exists ys, nf_delay_run r calls = Some ys /\ length ys = length calls /\
    forall t x i, nth_error calls t = Some (x, i) ->
      nth_error ys t =
      Some (nth (N.to_nat (i mod c)) (rev (map fst (firstn t calls)) ++ hist) zero).
Proof.
  induction calls as [|[x i] cs IH]; intros r l hist c R Hc Hl.
  - exists []. repeat split; auto. intros [|t] x i H; discriminate.
  - pose proof (ring_rel_len _ _ R) as Hpos.
    assert (Hget : rb_get r i = Some (nth (N.to_nat (i mod c)) hist zero)).
    { rewrite (ring_rel_get _ _ i R), Hc. unfold vget. rewrite Hl.
      assert (Hm : (i mod c < c)%N) by (apply N.mod_lt; lia).
      rewrite nth_error_firstn. destruct (Nat.ltb_spec (N.to_nat (i mod c)) (length l)) as [_|]; [|lia].
      destruct (Nat.ltb_spec (N.to_nat (i mod c)) (length hist)) as [H|H].
      - rewrite nth_error_app1 by auto. apply nth_error_nth'. exact H.
      - rewrite nth_error_app2 by auto. rewrite nth_error_repeat_if.
        destruct (Nat.ltb_spec (N.to_nat (i mod c) - length hist) (length l)) as [_|]; [|lia].
        rewrite nth_overflow by auto. reflexivity. }
    destruct (ring_rel_step zero r l (OpPush x) R) as (r1 & E1 & R1).
    cbn [rb_step] in E1. cbn [spec_step] in R1.
    cbn [nf_delay_run]. unfold nf_delay_step. rewrite Hget, E1. cbn [bind snd fst].
    assert (Hl1 : length (firstn (length l) (x :: l)) = length l)
      by (rewrite firstn_length; simpl; lia).
    destruct (IH r1 _ (x :: hist) c R1) as (ys & Ey & Ly & Hy).
    + rewrite Hl1. exact Hc.
    + rewrite Hl1. destruct (length l) as [|m] eqn:Em; [lia|].
      cbn [firstn app]. f_equal. rewrite Hl at 1.
      rewrite firstn_firstn. f_equal.  lia.
    + rewrite Ey. cbn [bind]. eexists; split; [reflexivity|]. split; [simpl; lia|].
      intros [|t] x' i' H.
      * cbn in H. injection H as <- <-. reflexivity.
      * cbn [nth_error] in H |- *. rewrite (Hy t x' i' H). f_equal. f_equal.
        cbn [firstn map rev fst]. rewrite <- app_assoc. reflexivity.
Qed.

Lemma nf_delay_spec n calls :
  (n <= 2 ^ 63)%N ->
  exists r0 c ys, nf_delay_make zero n = Some r0 /\ least_pow2_ge n c /\
    nf_delay_run r0 calls = Some ys /\ length ys = length calls /\
    forall t x i, nth_error calls t = Some (x, i) ->
      nth_error ys t = Some (nth (N.to_nat (i mod c)) (rev (map fst (firstn t calls))) zero).
Proof.
  intros Hn. destruct (ring_rel_make zero n Hn) as (r0 & c & E & R & L & S & B).
  pose proof (ring_rel_len _ _ R) as Hpos.
  destruct (nf_delay_run_gen calls r0 _ [] c R) as (ys & Ey & Ly & Hy).
  - rewrite repeat_length. lia.
  - cbn [app]. rewrite repeat_length, firstn_all2; [reflexivity|rewrite repeat_length; lia].
  - exists r0, c, ys. unfold nf_delay_make. repeat split; auto.
    intros t x i H. rewrite (Hy t x i H), app_nil_r. reflexivity.
Qed.

(** delay i < capacity: the t-th output is input number t-1-i, or zero *)
Lemma nf_delay_exact n calls :
  (n <= 2 ^ 63)%N ->
  exists r0 c ys, nf_delay_make zero n = Some r0 /\ least_pow2_ge n c /\
    nf_delay_run r0 calls = Some ys /\ length ys = length calls /\
    forall t x i, nth_error calls t = Some (x, i) -> (i < c)%N ->
      nth_error ys t = Some (if (N.to_nat i <? t) then nth (t - 1 - N.to_nat i) (map fst calls) zero else zero).
Proof.
  intros Hn. destruct (nf_delay_spec n calls Hn) as (r0 & c & ys & E & L & Er & Ly & Hy).
  exists r0, c, ys. repeat split; auto.
  intros t x i H Hi. rewrite (Hy t x i H). f_equal. rewrite N.mod_small by lia.
  assert (Ht : t < length calls) by (apply nth_error_Some; congruence).
  assert (Hlen : length (map fst (firstn t calls)) = t) by (rewrite map_length, firstn_length; lia).
  destruct (Nat.ltb_spec (N.to_nat i) t) as [H1|H1].
  - rewrite rev_nth by lia. rewrite Hlen.
    replace (t - S (N.to_nat i)) with (t - 1 - N.to_nat i) by lia.
    rewrite <- firstn_map.
    rewrite <- (firstn_skipn t (map fst calls)) at 2.
    rewrite app_nth1; [reflexivity|]. rewrite firstn_length, map_length. lia.
  - apply nth_overflow. rewrite rev_length. lia.
Qed.

Lemma delay1_spec (xs : list F) : forall y, delay1_run y xs = firstn (length xs) (y :: xs).
Proof.
  induction xs as [|x xs IH]; intros y; [reflexivity|].
  cbn [delay1_run delay1_step length]. rewrite IH. reflexivity.
Qed.
Lemma delay2_spec (xs : list F) : forall a b, delay2_run (a, b) xs = firstn (length xs) (b :: a :: xs).
Proof.
  induction xs as [|x xs IH]; intros a b; [reflexivity|].
  cbn [delay2_run]. unfold delay2_step, delay1_step. cbn [fst snd]. rewrite IH. reflexivity.
Qed.
End P.
