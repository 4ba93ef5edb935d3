(** Model of basic_moving_sum / basic_moving_average,
    q_lib/include/q/fx/moving_average.hpp:19-121, over an arbitrary sample type T
    and accumulator type Acc (= decltype(promote(T()))).  [None] is undefined
    behaviour (signed overflow, out-of-bounds). *)
From Verif Require Import Common Ring_Model.

(** moving_average.hpp:75-80, data members *)
Record movsum (T Acc : Type) := mkMS { ms_buff : ring T; ms_size : N; ms_sum : Acc }.
Arguments mkMS {T Acc}. Arguments ms_buff {T Acc}. Arguments ms_size {T Acc}. Arguments ms_sum {T Acc}.

Section MS.
Context {T Acc : Type}.
Variables (zT : T) (zA : Acc)                 (* T{} and the literal 0 *)
  (addT subT : Acc -> T -> option Acc)        (* Acc += T, Acc -= T with promotion *)
  (scale : T -> N -> option Acc)              (* Acc = val * _size *)
  (toT : Acc -> T).                           (* conversion of the result *)

(** moving_average.hpp:22-28: the buffer is sized and cleared, sum is 0 *)
Definition ms_make (max_size : N) : option (movsum T Acc) :=
  do b <- rb_make zT max_size ;
  Some (mkMS (rb_clear zT b) max_size zA).

(** moving_average.hpp:34-40 [operator()(T s)]; the index _size-1 is size_t arithmetic *)
Definition ms_step (m : movsum T Acc) (s : T) : option (T * movsum T Acc) :=
  do a1 <- addT (ms_sum m) s ;
  do old <- rb_get (ms_buff m) (sub64 (ms_size m) 1) ;
  do a2 <- subT a1 old ;
  do b <- rb_push (ms_buff m) s ;
  Some (toT a2, mkMS b (ms_size m) a2).

(** moving_average.hpp:42-50 [operator()()] and [sum()] *)
Definition ms_value (m : movsum T Acc) : T := toT (ms_sum m).

(** moving_average.hpp:57-61 *)
Definition ms_clear (m : movsum T Acc) : movsum T Acc :=
  mkMS (rb_clear zT (ms_buff m)) (ms_size m) zA.

(** moving_average.hpp:63-67 *)
Definition ms_fill (m : movsum T Acc) (v : T) : option (movsum T Acc) :=
  do a <- scale v (ms_size m) ;
  Some (mkMS (rb_fill (ms_buff m) v) (ms_size m) a).

Inductive ms_op := MSample (s : T) | MClear | MFill (v : T).
Definition ms_apply (m : movsum T Acc) (o : ms_op) : option (movsum T Acc) :=
  match o with
  | MSample s => do r <- ms_step m s ; Some (snd r)
  | MClear => Some (ms_clear m)
  | MFill v => ms_fill m v
  end.
Fixpoint ms_run (m : movsum T Acc) (ops : list ms_op) : option (movsum T Acc) :=
  match ops with
  | [] => Some m
  | o :: os => do m' <- ms_apply m o ; ms_run m' os
  end.
End MS.
Arguments ms_op : clear implicits.

(** ---- instance T = int (32 bit), Acc = promote(int) = 64-bit signed ---- *)
Definition int64_ok (x : Z) : bool := ((- 2 ^ 63 <=? x) && (x <? 2 ^ 63))%Z.
Definition check64 (x : Z) : option Z := if int64_ok x then Some x else None.
(** conversion to [int] (implementation-defined / modular) *)
Definition to_int32 (x : Z) : Z := ((x + 2 ^ 31) mod 2 ^ 32 - 2 ^ 31)%Z.
Definition to_int64 (x : Z) : Z := ((x + 2 ^ 63) mod 2 ^ 64 - 2 ^ 63)%Z.
Definition int_make := ms_make (T:=Z) 0%Z 0%Z.
(** [_sum = val * _size]: int times size_t is an unsigned 64-bit product *)
Definition int_scale (v : Z) (n : N) : option Z :=
  Some (to_int64 ((v mod 2 ^ 64) * Z.of_N n)).
Definition int_run := ms_run (T:=Z) 0%Z 0%Z
  (fun a s => check64 (a + s)) (fun a s => check64 (a - s)) int_scale to_int32.
(** [sum()] *)
Definition int_sum (m : movsum Z Z) : Z := to_int32 (ms_sum m).
(** moving_average.hpp:117-120 with T = int: [this->sum() / this->size()], an int
    divided by a size_t: the int is converted to unsigned 64 bit first. [None] is
    division by zero. *)
Definition int_average (m : movsum Z Z) : option Z :=
  if (ms_size m =? 0)%N then None
  else Some (to_int32 ((int_sum m mod 2 ^ 64) / Z.of_N (ms_size m))).
