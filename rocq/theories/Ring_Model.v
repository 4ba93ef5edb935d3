(** Model of q_lib/include/q/utility/ring_buffer.hpp (vector storage). *)
From Verif Require Import Common.

(** ring_buffer.hpp:47-51, the three data members. *)
Record ring (A : Type) := mkRing { rb_mask : N; rb_pos : N; rb_data : list A }.
Arguments mkRing {A}. Arguments rb_mask {A}. Arguments rb_pos {A}. Arguments rb_data {A}.

Section Ring.
Context {A : Type} (dflt : A).    (* [dflt] is the value-initialised T{} *)

(** ring_buffer.hpp:66-73 with detail/init_store.hpp:24-30
    ([capacity = smallest_pow2(size)], mask = capacity-1, resize with T{}).
    [None]: smallest_pow2 does not terminate. *)
Definition rb_make (size : N) : option (ring A) :=
  do cap <- smallest_pow2 size ;
  Some (mkRing (cap - 1)%N 0%N (repeat dflt (N.to_nat cap))).

(** ring_buffer.hpp:77-80 *)
Definition rb_size (r : ring A) : N := N.of_nat (length (rb_data r)).

(** ring_buffer.hpp:84-88: [--_pos &= _mask; _data[_pos] = val] *)
Definition rb_push (r : ring A) (v : A) : option (ring A) :=
  let p := N.land (sub64 (rb_pos r) 1) (rb_mask r) in
  do d <- vset (rb_data r) p v ;
  Some (mkRing (rb_mask r) p d).

(** ring_buffer.hpp:121-132: [_data[(_pos + index) & _mask]] *)
Definition rb_slot (r : ring A) (i : N) : N := N.land (add64 (rb_pos r) i) (rb_mask r).
Definition rb_get (r : ring A) (i : N) : option A := vget (rb_data r) (rb_slot r i).

(** ring_buffer.hpp:128-132, the non-const operator[] used as an lvalue, and
    99-102 / 113-116 through it. *)
Definition rb_put (r : ring A) (i : N) (v : A) : option (ring A) :=
  do d <- vset (rb_data r) (rb_slot r i) v ;
  Some (mkRing (rb_mask r) (rb_pos r) d).

(** ring_buffer.hpp:92-102 *)
Definition rb_front (r : ring A) : option A := rb_get r 0.
(** ring_buffer.hpp:106-116 *)
Definition rb_back (r : ring A) : option A := rb_get r (sub64 (rb_size r) 1).

(** ring_buffer.hpp:136-140 *)
Definition rb_clear (r : ring A) : ring A :=
  mkRing (rb_mask r) (rb_pos r) (map (fun _ => dflt) (rb_data r)).
(** ring_buffer.hpp:144-148 *)
Definition rb_fill (r : ring A) (v : A) : ring A :=
  mkRing (rb_mask r) (rb_pos r) (map (fun _ => v) (rb_data r)).
(** ring_buffer.hpp:149-153: [++_pos] (no mask applied) *)
Definition rb_pop_front (r : ring A) : ring A :=
  mkRing (rb_mask r) (add64 (rb_pos r) 1) (rb_data r).

(** The mutating interface as one operation type, to speak of call sequences. *)
Inductive ring_op := OpPush (v : A) | OpPut (i : N) (v : A) | OpClear | OpFill (v : A) | OpPop.

Definition rb_step (r : ring A) (o : ring_op) : option (ring A) :=
  match o with
  | OpPush v => rb_push r v
  | OpPut i v => rb_put r i v
  | OpClear => Some (rb_clear r)
  | OpFill v => Some (rb_fill r v)
  | OpPop => Some (rb_pop_front r)
  end.

Fixpoint rb_run (r : ring A) (ops : list ring_op) : option (ring A) :=
  match ops with
  | [] => Some r
  | o :: os => do r' <- rb_step r o ; rb_run r' os
  end.
End Ring.
