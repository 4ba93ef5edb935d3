(** Model of the decibel conversions of detail/db_table.hpp in binary32. *)
From Flocq Require Import Core.Core IEEE754.BinarySingleNaN.
From Verif Require Import Common Float Frac_Model Db_Table.
Local Open Scope Z_scope.

(** The tables are [constexpr float] initialised with decimal literals of 15 decimals.
    [round24 x]: the integer x > 0 rounded to 24 significant bits, nearest (no literal of
    the tables lies within 2^-60 of a tie). [literal d] is d/10^15 as a float, in units of
    2^-60. *)
Definition round24 (x : Z) : Z :=
  let b := Z.log2 x - 23 in
  if b <=? 0 then x else Z.shiftl (Z.shiftr (x + Z.shiftl 1 (b - 1)) b) b.
Definition literal (d : Z) : Z := round24 (d * 2 ^ 60 / 10 ^ 15).
(** db_table.hpp:18-148, 150-280, 282-412, 414-567 *)
Definition db_units0 : list Z := map literal db_literals0.
Definition db_units1 : list Z := map literal db_literals1.
Definition db_units2 : list Z := map literal db_literals2.
Definition inv_db_units : list Z := map literal inv_db_literals.

(** [table[i]] for a std::uint32_t index (i - 1 wraps modulo 2^32): [None] out of bounds *)
Definition table_at (t : list Z) (i : Z) : option f32 :=
  option_map (fun k => mk32 k (-60)) (nth_error t (Z.to_nat (i mod 2 ^ 32))).
(** [std::uint32_t(x)] for a float x: truncation, undefined outside the range *)
Definition to_u32 (x : f32) : option Z :=
  match ftrunc x with
  | Some z => if (0 <=? z) && (z <? 2 ^ 32) then Some z else None
  | None => None
  end.
(** the common tail: [linear_interpolate(table[index - off], table[index - off + 1],
    x - index)], the index converted to float *)
Definition lookup (t : list Z) (off : Z) (x : f32) : option f32 :=
  do index <- to_u32 x ;
  do v1 <- table_at t (index - off) ;
  do v2 <- table_at t (index - off + 1) ;
  Some (linear_interpolate v1 v2 (fsub x (mk32 index 0))).

(** db_table.hpp:569-600 [a2db]; [None]: assertion failure, or the recursion does not end
    within [fuel] calls. [(a-1) * (1024/8.0)] and [a /= 1024.0] are computed in double and
    converted back to float. *)
Fixpoint a2db_rec (fuel : nat) (a : f32) : option f32 :=
  match fuel with
  | O => None
  | S fuel =>
      if fge a fzero then
        if flt a (mk32 1 0) then
          do y <- a2db_rec fuel (fdiv (mk32 1 0) a) ; Some (fneg y)
        else if flt a (mk32 8 0) then
          lookup db_units0 0 (to32 (fmul (to64 (fsub a (mk32 1 0))) (mk64 128 0)))
        else if flt a (mk32 1024 0) then
          lookup db_units1 1 a
        else if flt a (mk32 1048576 0) then
          lookup db_units2 1 (to32 (fdiv (to64 a) (mk64 1024 0)))
        else Some (mk32 121 0)
      else None
  end.
Definition a2db (a : f32) : option f32 := a2db_rec 3 a.

(** db_table.hpp:602-616 [db2a] *)
Fixpoint db2a_rec (fuel : nat) (db : f32) : option f32 :=
  match fuel with
  | O => None
  | S fuel =>
      if flt db fzero then
        do y <- db2a_rec fuel (fneg db) ; Some (fdiv (mk32 1 0) y)
      else if flt db (mk32 120 0) then
        lookup inv_db_units 0 (fmul db (mk32 10 0))
      else Some (mk32 1000000 0)
  end.
Definition db2a (db : f32) : option f32 := db2a_rec 3 db.

(** support/decibel.hpp:20-46: a [decibel] holds a double; the amplitude constructor
    narrows its argument to float, the conversions narrow the level to float. *)
Definition decibel_of_amplitude (a : f64) : option f64 := option_map to64 (a2db (to32 a)).
Definition amplitude_of_decibel (db : f64) : option f64 := option_map to64 (db2a (to32 db)).
