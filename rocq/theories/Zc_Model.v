(** Model of utility/zero_crossing.hpp, samples in binary32.  [int] is 32-bit two's
    complement, [std::size_t] 64-bit. *)
From Flocq Require Import Core.Core IEEE754.BinarySingleNaN.
From Verif Require Import Common Float Ring_Model.

(** conversion to int (two's complement) *)
Definition wrap_int (z : Z) : Z := ((z + 2 ^ 31) mod 2 ^ 32 - 2 ^ 31)%Z.
(** zero_crossing.hpp:60 *)
Definition undefined_edge : Z := (- 2 ^ 31)%Z.
(** value_size of bitset<> (natural_uint is 64-bit) *)
Definition bs_w : N := 64.

(** zero_crossing::info, zero_crossing.hpp:62-76 *)
Record zinfo := mkInfo
  { zi_prev : f32; zi_curr : f32; zi_peak : f32; zi_lead : Z; zi_trail : Z; zi_width : f32 }.
Definition zinfo0 : zinfo := mkInfo fzero fzero fzero undefined_edge undefined_edge fzero.

(** zero_crossing.hpp:133-138.  0.3 is a double literal: the comparison is in double;
    [frame - _leading_edge] is computed on size_t. *)
Definition lit_0_3 : f64 := fdiv (mk64 3 0) (mk64 10 0).
Definition update_peak (e : zinfo) (s : f32) (frame : N) : zinfo :=
  let pk := fmax s (zi_peak e) in
  let w := if (feq (zi_width e) fzero && flt (to64 s) (fmul (to64 pk) lit_0_3))%bool
           then mk32 ((Z.of_N frame - zi_lead e) mod 2 ^ 64) 0 else zi_width e in
  mkInfo (zi_prev e) (zi_curr e) pk (zi_lead e) (zi_trail e) w.
(** zero_crossing.hpp:140-144; [None] is the failed assertion.  The int subtraction is
    converted to size_t. *)
Definition zi_period (e next : zinfo) : option N :=
  if (zi_lead e <=? zi_lead next)%Z then Some (Z.to_N ((zi_lead next - zi_lead e) mod 2 ^ 64)) else None.
(** zero_crossing.hpp:146-165 *)
Definition zi_dx (e : zinfo) : f32 := fdiv (fneg (zi_prev e)) (fsub (zi_curr e) (zi_prev e)).
Definition zi_frac_period (e next : zinfo) : option f32 :=
  if (zi_lead e <=? zi_lead next)%Z
  then Some (fadd (mk32 (zi_lead next - zi_lead e) 0) (fsub (zi_dx next) (zi_dx e)))
  else None.

(** data members, zero_crossing.hpp:104-113 *)
Record zc := mkZc
  { z_prev : f32; z_hyst : f32; z_state : bool; z_num : N; z_win : N; z_info : ring zinfo;
    z_frame : N; z_ready : bool; z_peak_update : f32; z_peak : f32 }.

(** zero_crossing.hpp:120-124 *)
Definition adjust_window_size (window : N) : N :=
  N.max 2 (sub64 (add64 window bs_w) 1 / bs_w).
(** zero_crossing.hpp:127-131; the argument [hyst] is the member _hysteresis, that is
    -float(hysteresis), any float *)
Definition zc_make (hyst : f32) (window : N) : option zc :=
  let w := wrap64 (adjust_window_size window * bs_w) in
  do r <- rb_make zinfo0 (w / 2) ;
  Some (mkZc fzero hyst false 0 w r 0 false fzero fzero).

Definition zc_capacity (z : zc) : N := rb_size (z_info z).
(** zero_crossing.hpp:187-192 *)
Definition zc_reset (z : zc) : zc :=
  mkZc (z_prev z) (z_hyst z) false 0 (z_win z) (z_info z) 0 (z_ready z) (z_peak_update z) (z_peak z).
(** zero_crossing.hpp:194-197, 204-207 *)
Definition zc_is_reset (z : zc) : bool := (z_frame z =? 0)%N.
Definition zc_peak_pulse (z : zc) : f32 := fmax (z_peak z) (z_peak_update z).

Definition sub_edge (x : Z) (n : N) : Z := wrap_int (x - Z.of_N n).
(** zero_crossing.hpp:306-314: the loop; [fuel] bounds the iterations, running out of
    fuel ([None]) happens only when the index never meets _num_edges *)
Fixpoint shift_loop (fuel : nat) (r : ring zinfo) (i num n : N) : option (ring zinfo * N) :=
  if (i =? num)%N then Some (r, i) else
  match fuel with
  | O => None
  | S f =>
      do e <- rb_get r i ;
      let t := sub_edge (zi_trail e) n in
      do r' <- rb_put r i (mkInfo (zi_prev e) (zi_curr e) (zi_peak e) (sub_edge (zi_lead e) n) t (zi_width e)) ;
      if (t <? 0)%Z then Some (r', i) else shift_loop f r' (i + 1)%N num n
  end.
(** zero_crossing.hpp:301-315 *)
Definition zc_shift (z : zc) (n : N) : option zc :=
  do e <- rb_get (z_info z) 0 ;
  do r1 <- rb_put (z_info z) 0
    (mkInfo (zi_prev e) (zi_curr e) (zi_peak e) (sub_edge (zi_lead e) n)
       (if z_state z then zi_trail e else sub_edge (zi_trail e) n) (zi_width e)) ;
  do t <- shift_loop (N.to_nat (z_num z)) r1 1 (z_num z) n ;
  Some (mkZc (z_prev z) (z_hyst z) (z_state z) (snd t) (z_win z) (fst t) (z_frame z) (z_ready z) (z_peak_update z) (z_peak z)).

(** zero_crossing.hpp:211-220 *)
Definition zc_begin (z : zc) : option zc :=
  do z1 <- (if z_ready z then
    do y <- zc_shift z (z_win z / 2) ;
    Some (mkZc (z_prev y) (z_hyst y) (z_state y) (z_num y) (z_win y) (z_info y) (z_frame y) false fzero (z_peak_update y))
  else Some z) ;
  Some (if (zc_capacity z1 <=? z_num z1)%N then zc_reset z1 else z1).
(** zero_crossing.hpp:222-247; the assertion at 226 is [None] *)
Definition zc_edge (z : zc) (s : f32) : option zc :=
  if flt fzero s then
    do z2 <- (if z_state z then
        do e <- rb_get (z_info z) 0 ;
        do r <- rb_put (z_info z) 0 (update_peak e s (z_frame z)) ;
        Some (mkZc (z_prev z) (z_hyst z) (z_state z) (z_num z) (z_win z) r (z_frame z) (z_ready z) (z_peak_update z) (z_peak z))
      else if (z_num z <? zc_capacity z)%N then
        do r <- rb_push (z_info z) (mkInfo (z_prev z) s s (wrap_int (Z.of_N (z_frame z))) undefined_edge fzero) ;
        Some (mkZc (z_prev z) (z_hyst z) true (z_num z + 1) (z_win z) r (z_frame z) (z_ready z) (z_peak_update z) (z_peak z))
      else None) ;
    Some (if flt (z_peak_update z2) s
          then mkZc (z_prev z2) (z_hyst z2) (z_state z2) (z_num z2) (z_win z2) (z_info z2) (z_frame z2) (z_ready z2) s (z_peak z2)
          else z2)
  else if (z_state z && flt s (z_hyst z))%bool then
    do e <- rb_get (z_info z) 0 ;
    do r <- rb_put (z_info z) 0 (mkInfo (zi_prev e) (zi_curr e) (zi_peak e) (zi_lead e) (wrap_int (Z.of_N (z_frame z))) (zi_width e)) ;
    Some (mkZc (z_prev z) (z_hyst z) false (z_num z) (z_win z) r (z_frame z) (z_ready z) (z_peak_update z)
            (if feq (z_peak z) fzero then z_peak_update z else z_peak z))
  else Some z.
(** zero_crossing.hpp:209-253 *)
Definition zc_update (z : zc) (s : f32) : option zc :=
  do z1 <- zc_begin z ;
  do z2 <- zc_edge z1 s ;
  let z3 := if (z_win z2 * 2 <? z_frame z2)%N then zc_reset z2 else z2 in
  Some (mkZc s (z_hyst z3) (z_state z3) (z_num z3) (z_win z3) (z_info z3) (z_frame z3) (z_ready z3) (z_peak_update z3) (z_peak z3)).

Definition with_frame (z : zc) (f : N) (ready : bool) : zc :=
  mkZc (z_prev z) (z_hyst z) (z_state z) (z_num z) (z_win z) (z_info z) f ready (z_peak_update z) (z_peak z).
(** zero_crossing.hpp:255-282; the returned bool is [z_state] of the new state.
    [s += _hysteresis / 2] in float. *)
Definition zc_step (z : zc) (s0 : f32) : option zc :=
  let s := fadd s0 (fdiv (z_hyst z) (mk32 2 0)) in
  let z1 := if (zc_capacity z <=? z_num z)%N then zc_reset z else z in
  let z2 := if ((z_frame z1 =? z_win z1 / 2) && (z_num z1 =? 0))%N then zc_reset z1 else z1 in
  do z3 <- zc_update z2 s ;
  let f := add64 (z_frame z3) 1 in
  if ((z_win z3 <=? f)%N && negb (z_state z3))%bool then
    if (1 <? z_num z3)%N then Some (with_frame z3 (f - z_win z3 / 2)%N true)
    else Some (zc_reset (with_frame z3 (f - z_win z3 / 2)%N (z_ready z3)))
  else Some (with_frame z3 f (z_ready z3)).

(** zero_crossing.hpp:289-299: [_info[(_num_edges-1)-index]] *)
Definition zc_at (z : zc) (index : N) : option zinfo := rb_get (z_info z) (sub64 (sub64 (z_num z) 1) index).

Fixpoint zc_run (z : zc) (xs : list f32) : option zc :=
  match xs with [] => Some z | x :: t => do z' <- zc_step z x ; zc_run z' t end.
