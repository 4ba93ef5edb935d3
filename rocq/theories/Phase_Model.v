(** Model of support/phase.hpp: 32-bit phase accumulators (the conversions from and to
    floating point are in Osc_Model.v). *)
From Verif Require Import Common.
Open Scope N_scope.

(** phase: value<std::uint32_t>, phase.hpp:29-48; arithmetic modulo 2^32, value.hpp
    operators += and -= *)
Definition W32 : N := 2 ^ 32.
Definition add32 (a b : N) : N := (a + b) mod W32.
Definition sub32 (a b : N) : N := (a + (W32 - b)) mod W32.
(** phase.hpp:34, 45-47 *)
Definition one_cyc : N := W32 - 1.
Definition ph_begin : N := 0.
Definition ph_end : N := one_cyc.
Definition ph_middle : N := one_cyc / 2.

(** phase_iterator, phase.hpp:54-75 *)
Record phase_iter := mkPI { pi_phase : N; pi_incr : N }.
(** 162-174, 176-188 (prefix forms; postfix returns the old iterator) *)
Definition pi_inc (i : phase_iter) : phase_iter := mkPI (add32 (pi_phase i) (pi_incr i)) (pi_incr i).
Definition pi_dec (i : phase_iter) : phase_iter := mkPI (sub32 (pi_phase i) (pi_incr i)) (pi_incr i).
(** 190-194, operator=(phase) sets the increment *)
Definition pi_assign (i : phase_iter) (rhs : N) : phase_iter := mkPI (pi_phase i) rhs.
(** 201-204, 206-209 *)
Definition pi_first (i : phase_iter) : bool := pi_phase i <? pi_incr i.
Definition pi_last (i : phase_iter) : bool := sub32 ph_end (pi_phase i) <? pi_incr i.
(** 211-230 *)
Definition pi_begin (i : phase_iter) := mkPI ph_begin (pi_incr i).
Definition pi_end (i : phase_iter) := mkPI ph_end (pi_incr i).
Definition pi_middle (i : phase_iter) := mkPI ph_middle (pi_incr i).

(** unsigned conversion of [-(b)] for a bool b *)
Definition neg_bool32 (b : bool) : N := if b then W32 - 1 else 0.
(** one_shot_phase_iterator, phase.hpp:239-245, 254-260 *)
Definition os_inc (i : phase_iter) : phase_iter :=
  let res := add32 (pi_phase i) (pi_incr i) in
  mkPI (N.lor res (neg_bool32 (res <? pi_phase i))) (pi_incr i).
Definition os_dec (i : phase_iter) : phase_iter :=
  let res := sub32 (pi_phase i) (pi_incr i) in
  mkPI (N.land res (neg_bool32 (res <=? pi_phase i))) (pi_incr i).

(** base.hpp:175-180: fast_rand's static seed and its result *)
Definition rand_step (seed : N) : N := (214013 * seed + 2531011) mod W32.
Definition rand_out (seed : N) : N := N.land (N.shiftr seed 16) 0x7FFF.
Definition rand_seed0 : N := 87263876.
(** the n-th call (n from 0): seed after n+1 updates *)
Definition fast_rand (n : nat) : N := rand_out (Nat.iter (S n) rand_step rand_seed0).

(** A caller's use of a (one-shot) phase iterator: the operations above in any order.
    [it = it.begin()] etc. replace the iterator by the returned one (phase.hpp:211-230);
    [PAssign d] is [it = phase(d)] and also [set], whose frequency conversion is in
    Osc_Model.v (phase.hpp:190-199). *)
Inductive pi_op := PInc | PDec | PAssign (d : N) | PBegin | PEnd | PMiddle.
Definition pi_apply (i : phase_iter) (o : pi_op) : phase_iter :=
  match o with PInc => pi_inc i | PDec => pi_dec i | PAssign d => pi_assign i d
  | PBegin => pi_begin i | PEnd => pi_end i | PMiddle => pi_middle i end.
Definition os_apply (i : phase_iter) (o : pi_op) : phase_iter :=
  match o with PInc => os_inc i | PDec => os_dec i | PAssign d => pi_assign i d
  | PBegin => pi_begin i | PEnd => pi_end i | PMiddle => pi_middle i end.
