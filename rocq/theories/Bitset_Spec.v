(** Specification vocabulary for bitsets, in terms of the public [get] only. *)
From Verif Require Import Common Bitset_Model.

(** legal word widths *)
Definition word_width (w : N) : Prop := w = 8%N \/ w = 16%N \/ w = 32%N \/ w = 64%N.
(** a vector of w-bit words whose bit count fits size_t *)
Definition bs_wf (w : N) (b : list N) : Prop :=
  Forall (fun x => (x < 2 ^ w)%N) b /\ (bs_size w b < 2 ^ 63)%N.

(** number of j in [0,n) for which [f j] holds *)
Fixpoint countN (f : N -> bool) (n : nat) : N :=
  match n with
  | O => 0
  | S m => (countN f m + if f (N.of_nat m) then 1 else 0)%N
  end.
(** bits j and j+pos differ (both present) *)
Definition mismatch (w : N) (b : list N) (pos j : N) : bool :=
  match bs_get w b j, bs_get w b (j + pos)%N with
  | Some x, Some y => xorb x y
  | _, _ => true
  end.
