(** Shared vocabulary of the model: machine words, checked vector access.
    Nothing here models a Q function except where a citation says so. *)
From Coq Require Export List NArith ZArith Arith Lia Bool.
From Coq Require Export ZifyBool ZifyNat ZifyN.
Export ListNotations.
Ltac Zify.zify_post_hook ::= Z.div_mod_to_equations.

Arguments N.pow : simpl never.
Arguments N.mul : simpl never.
Arguments N.add : simpl never.
Arguments N.sub : simpl never.
Arguments N.modulo : simpl never.
Arguments N.div : simpl never.
Arguments N.land : simpl never.
Arguments N.to_nat : simpl never.
Arguments N.of_nat : simpl never.
Arguments Z.pow : simpl never.
Arguments Z.mul : simpl never.

(** [std::size_t] on the 64-bit platforms Q targets (assumption in DESIGN.md):
    arithmetic modulo 2^64. *)
Definition W64 : N := (2 ^ 64)%N.
Definition wrap64 (x : N) : N := (x mod W64)%N.
(** [a + b], [a - b] on [std::size_t]. *)
Definition add64 (a b : N) : N := wrap64 (a + b)%N.
Definition sub64 (a b : N) : N := wrap64 (a + (W64 - wrap64 b))%N.

(** Checked vector element read / write: [None] is the undefined behaviour of an
    out-of-bounds [std::vector::operator[]]. *)
Definition vget {A} (d : list A) (i : N) : option A := nth_error d (N.to_nat i).
Fixpoint lset {A} (d : list A) (i : nat) (v : A) : list A :=
  match d, i with
  | [], _ => []
  | _ :: t, O => v :: t
  | h :: t, S j => h :: lset t j v
  end.
Definition vset {A} (d : list A) (i : N) (v : A) : option (list A) :=
  if (i <? N.of_nat (length d))%N then Some (lset d (N.to_nat i) v) else None.

(** infra/support.hpp [smallest_pow2] (external; assumed
    [(m < n)? smallest_pow2(n, m << 1) : m] on size_t): [None] when it does not
    terminate (n > 2^63). *)
Fixpoint smallest_pow2_from (fuel : nat) (n m : N) : option N :=
  match fuel with
  | O => None
  | S f => if (m <? n)%N then smallest_pow2_from f n (wrap64 (m * 2)) else Some m
  end.
Definition smallest_pow2 (n : N) : option N := smallest_pow2_from 65 n 1.

Definition bind {A B} (x : option A) (f : A -> option B) : option B :=
  match x with Some a => f a | None => None end.
Notation "'do' x <- a ; b" := (bind a (fun x => b))
  (at level 200, x name, a at level 100, b at level 200).
