(** Model of q_lib/include/q/fx/delay.hpp over an arbitrary sample type. *)
From Verif Require Import Common Ring_Model.

Section Delay.
Context {F : Type} (zero : F).

(** fx/delay.hpp:17-32 [delay1::operator()(s)]: state is y; returns (output, y'). *)
Definition delay1_step (y s : F) : F * F := (y, s).
(** fx/delay.hpp:37-45 [delay2]: _d2(_d1(s)). State (d1, d2). *)
Definition delay2_step (st : F * F) (s : F) : F * (F * F) :=
  let (o1, y1) := delay1_step (fst st) s in
  let (o2, y2) := delay1_step (snd st) o1 in
  (o2, (y1, y2)).

Fixpoint delay1_run (y : F) (xs : list F) : list F :=
  match xs with [] => [] | x :: t => let (o, y') := delay1_step y x in o :: delay1_run y' t end.
Fixpoint delay2_run (st : F * F) (xs : list F) : list F :=
  match xs with [] => [] | x :: t => let (o, st') := delay2_step st x in o :: delay2_run st' t end.

(** fx/delay.hpp:66-68, [basic_delay(std::size_t max_delay_samples)] with
    Base = ring_buffer<float> ([nf_delay], line 101). *)
Definition nf_delay_make (n : N) : option (ring F) := rb_make zero n.

(** fx/delay.hpp:71-74 [operator()()] *)
Definition nf_delay_back (r : ring F) : option F := rb_back r.
(** fx/delay.hpp:77-81 [operator()(Index i)] *)
Definition nf_delay_get (r : ring F) (i : N) : option F := rb_get r i.
(** fx/delay.hpp:85-91 [operator()(float val, Index i)]: read, then push. *)
Definition nf_delay_step (r : ring F) (x : F) (i : N) : option (F * ring F) :=
  do y <- rb_get r i ;
  do r' <- rb_push r x ;
  Some (y, r').

Fixpoint nf_delay_run (r : ring F) (calls : list (F * N)) : option (list F) :=
  match calls with
  | [] => Some []
  | (x, i) :: cs =>
      do yr <- nf_delay_step r x i ;
      do ys <- nf_delay_run (snd yr) cs ;
      Some (fst yr :: ys)
  end.
End Delay.
