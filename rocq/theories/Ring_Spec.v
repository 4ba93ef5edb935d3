(** What a ring buffer means: a list, newest first, of fixed length. *)
From Verif Require Import Common Ring_Model.

Section Spec.
Context {A : Type} (dflt : A).

(** one operation on the newest-first list [l] *)
Definition spec_step (l : list A) (o : ring_op) : list A :=
  match o with
  | OpPush v => firstn (length l) (v :: l)              (* oldest falls off *)
  | OpPut i v => lset l (N.to_nat (i mod N.of_nat (length l))) v
  | OpClear => repeat dflt (length l)
  | OpFill v => repeat v (length l)
  | OpPop => tl l ++ firstn 1 l                         (* rotate *)
  end.
Definition spec_run (l : list A) (ops : list ring_op) : list A := fold_left spec_step ops l.

(** [c] is the least power of two that is >= n *)
Definition least_pow2_ge (n c : N) : Prop :=
  exists j, c = (2 ^ j)%N /\ (n <= c)%N /\ (forall i, (n <= 2 ^ i)%N -> (c <= 2 ^ i)%N).
End Spec.
