(** Property C02.  Theorems only. *)
From Verif Require Import Common Ring_Model Ring_Spec Ring_Proof Delay_Model Delay_Proof.

(** C02: for every requested size, every input signal and every per-call delay
    below the buffer size, output t is input t-1-i, or 0 if there is none yet. *)
Theorem C02_delay_exact :
  forall (F : Type) (zero : F) (n : N) (calls : list (F * N)),
  (n <= 2 ^ 63)%N ->
  exists r0 c ys, nf_delay_make zero n = Some r0 /\ least_pow2_ge n c /\
    nf_delay_run r0 calls = Some ys /\ length ys = length calls /\
    forall t x i, nth_error calls t = Some (x, i) -> (i < c)%N ->
      nth_error ys t =
      Some (if N.to_nat i <? t then nth (t - 1 - N.to_nat i) (map fst calls) zero else zero).
Proof. exact @nf_delay_exact. Qed.
Print Assumptions C02_delay_exact.

(** C02, all delay requests: a request i behaves as i mod capacity. *)
Theorem C02_delay_wraps :
  forall (F : Type) (zero : F) (n : N) (calls : list (F * N)),
  (n <= 2 ^ 63)%N ->
  exists r0 c ys, nf_delay_make zero n = Some r0 /\ least_pow2_ge n c /\
    nf_delay_run r0 calls = Some ys /\ length ys = length calls /\
    forall t x i, nth_error calls t = Some (x, i) ->
      nth_error ys t = Some (nth (N.to_nat (i mod c)) (rev (map fst (firstn t calls))) zero).
Proof. exact @nf_delay_spec. Qed.
Print Assumptions C02_delay_wraps.

(** C02: "a delay line built for n samples can delay by n samples" is false: with
    n = 4 (a power of two) the request 4 returns the newest stored sample. *)
Theorem C02_full_scale_delay_refuted :
  exists (n : N) (calls : list (nat * N)) r0 ys,
    nf_delay_make 0 n = Some r0 /\ nf_delay_run r0 calls = Some ys /\
    (exists t x, nth_error calls t = Some (x, n) /\ N.to_nat n < t /\
       nth_error ys t <> Some (nth (t - 1 - N.to_nat n) (map fst calls) 0) /\
       nth_error ys t = Some (nth (t - 1) (map fst calls) 0)).
Proof.
  exists 4%N, [(10,4%N);(11,4%N);(12,4%N);(13,4%N);(14,4%N);(15,4%N)].
  eexists. eexists. split; [vm_compute; reflexivity|]. split; [vm_compute; reflexivity|].
  exists 5, 15. vm_compute. repeat split; try lia; discriminate.
Qed.
Print Assumptions C02_full_scale_delay_refuted.

(** delay1 / delay2: outputs are the input preceded by one / two initial values. *)
Theorem C02_delay1_delay2 :
  forall (F : Type) (zero : F) (xs : list F),
    delay1_run zero xs = firstn (length xs) (zero :: xs) /\
    delay2_run (zero, zero) xs = firstn (length xs) (zero :: zero :: xs).
Proof. exact (fun F zero xs => conj (delay1_spec xs zero) (delay2_spec xs zero zero)). Qed.
Print Assumptions C02_delay1_delay2.

(** C02, the reads without a push: after pushing xs, [d(i)] is the i-th newest sample and [d()] the oldest one held, i.e.
    the one pushed c - 1 pushes before the newest. *)
Theorem C02_reads :
  forall (F : Type) (zero : F) (n : N) (xs : list F), (n <= 2 ^ 63)%N ->
  exists r0 r c, nf_delay_make zero n = Some r0 /\ rb_run zero r0 (map OpPush xs) = Some r /\ least_pow2_ge n c /\
    (forall i, (i < c)%N -> nf_delay_get r i = Some (nth (N.to_nat i) (rev xs) zero)) /\
    nf_delay_back r = Some (nth (N.to_nat (c - 1)) (rev xs) zero).
Proof.
  intros F zero n xs Hn.
  destruct (ring_buffer_history zero n xs Hn) as (r0 & r & c & E0 & Er & L & S & G).
  destruct (ring_buffer_refines zero n (map OpPush xs) Hn) as (r0' & r' & c' & E0' & Er' & L' & S' & Q).
  rewrite E0 in E0'. injection E0' as <-. rewrite Er in Er'. injection Er' as <-.
  assert (c' = c) by congruence. subst c'. cbn zeta in Q. destruct Q as (Ll & Gl & _ & B).
  assert (C0 : (0 < c)%N). { destruct L as (j & -> & _). apply N.neq_0_lt_0, N.pow_nonzero. discriminate. }
  exists r0, r, c. split; [exact E0|]. split; [exact Er|]. split; [exact L|]. split; [exact G|].
  unfold nf_delay_back. rewrite B. rewrite <- (G (c - 1)%N) by lia. rewrite Gl. f_equal. rewrite N.mod_small by lia. lia.
Qed.
Print Assumptions C02_reads.

Example C02_example :
  exists r0, nf_delay_make 0 3%N = Some r0 /\
    nf_delay_run r0 [(10,0%N);(11,0%N);(12,1%N);(13,2%N);(14,3%N);(15,3%N)] = Some [0;10;10;10;10;11].
Proof. eexists. vm_compute. repeat split. Qed.
