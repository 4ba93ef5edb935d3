(** Specification for C36, C37, C41: what the caller sees, in terms of lists. *)
From Verif Require Import Common.

(** Sample [i] of a file followed by endless silence. *)
Definition padded {A} (zero : A) (file : list A) (i : nat) : A := nth i file zero.

(** Frame [k] of a file with [n] channels, when playing from sample [p]. *)
Definition frame_from {A} (zero : A) (file : list A) (n p k : nat) : list A :=
  map (fun j => padded zero file (p + k * n + j)) (seq 0 n).

(** The elements of [l] with property [p], each with its position in [l]. *)
Definition numbered {A} (p : A -> bool) (l : list A) : list (nat * A) :=
  filter (fun x => p (snd x)) (combine (seq 0 (length l)) l).

(** Doing something for each element of a list in order, stopping on failure. *)
Fixpoint each {X S} (body : X -> S -> option S) (l : list X) (s : S) : option S :=
  match l with
  | [] => Some s
  | x :: t => match body x s with Some s' => each body t s' | None => None end
  end.

(** 0, 1, ..., n-1. *)
Definition upto (n : N) : list N := map N.of_nat (seq 0 (N.to_nat n)).

(** Address ranges [a, a+n) and [b, b+n) do not overlap. *)
Definition apart (n a b : N) : Prop := (a + n <= b \/ b + n <= a)%N.
