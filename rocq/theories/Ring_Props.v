(** Property C01.  Theorems only. *)
From Verif Require Import Common Ring_Model Ring_Spec Ring_Proof.

(** C01, whole interface: after ANY sequence of mutating calls the buffer reads
    like the newest-first list of the specification, at every index (indices
    wrap modulo the size); construction and every call succeed (no
    out-of-bounds access); the size is the least power of two >= n. *)
Theorem C01_ring_buffer_refines_list :
  forall (A : Type) (dflt : A) (n : N) (ops : list (ring_op (A:=A))),
  (n <= 2 ^ 63)%N ->
  exists r0 r c,
    rb_make dflt n = Some r0 /\ rb_run dflt r0 ops = Some r /\
    least_pow2_ge n c /\ rb_size r = c /\
    (let l := spec_run dflt (repeat dflt (N.to_nat c)) ops in
     length l = N.to_nat c /\
     (forall i, rb_get r i = nth_error l (N.to_nat (i mod c))) /\
     rb_front r = nth_error l 0 /\ rb_back r = nth_error l (length l - 1)).
Proof. exact @ring_buffer_refines. Qed.
Print Assumptions C01_ring_buffer_refines_list.

(** C01, push history: [b[i]] is the i-th most recent value pushed, T{} if fewer
    than i+1 values were pushed. *)
Theorem C01_ring_buffer_history :
  forall (A : Type) (dflt : A) (n : N) (xs : list A),
  (n <= 2 ^ 63)%N ->
  exists r0 r c,
    rb_make dflt n = Some r0 /\ rb_run dflt r0 (map OpPush xs) = Some r /\
    least_pow2_ge n c /\ rb_size r = c /\
    forall i, (i < c)%N -> rb_get r i = Some (nth (N.to_nat i) (rev xs) dflt).
Proof. exact @ring_buffer_history. Qed.
Print Assumptions C01_ring_buffer_history.

(** A non-trivial run: requested size 3 (capacity 4), seven operations. *)
Example C01_example :
  exists r0 r, rb_make 0 3%N = Some r0 /\
    rb_run 0 r0 [OpPush 1; OpPush 2; OpPop; OpPush 3; OpPut 5%N 9; OpPush 4; OpPush 5] = Some r /\
    rb_size r = 4%N /\
    map (rb_get r) [0;1;2;3;4]%N = [Some 5; Some 4; Some 3; Some 9; Some 5].
Proof. eexists; eexists. vm_compute. repeat split. Qed.
