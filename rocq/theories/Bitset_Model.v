(** Model of q_lib/include/q/utility/bitset.hpp, detail/count_bits.hpp and
    utility/bitstream_acf.hpp.  A bitset<T> is its vector of words; [w] is
    value_size, the number of bits of T (8, 16, 32 or 64). *)
From Verif Require Import Common.

Section Bitset.
Variable w : N.

(** int_traits<T>::max (bitset.hpp:120) *)
Definition all_ones : N := N.ones w.

(** bitset.hpp:67-71: ctor; [num_bits + value_size - 1] on size_t *)
Definition bs_make (num_bits : N) : list N :=
  repeat 0%N (N.to_nat (sub64 (add64 num_bits w) 1 / w)).

(** bitset.hpp:74-77 *)
Definition bs_size (b : list N) : N := (N.of_nat (length b) * w)%N.

(** bitset.hpp:80-83 *)
Definition bs_clear (b : list N) : list N := map (fun _ => 0%N) b.

(** bitset.hpp:98-106: note the guard [i > size()]; [None] is the out-of-bounds
    vector access. *)
Definition bs_get (b : list N) (i : N) : option bool :=
  if (bs_size b <? i)%N then Some false else
  do x <- vget b (i / w) ;
  Some (negb (N.land x (N.shiftl 1 (i mod w)) =? 0)%N).

(** bitset.hpp:92: [auto mask = 1 << (i % value_size)], an [int] shift: undefined
    ([None]) for shifts of 32 or more; a shift by 31 gives INT_MIN, which is
    sign-extended when combined with a wider T. *)
Definition int_mask (s : N) : option N :=
  if (s <? 31)%N then Some (2 ^ s)%N
  else if (s =? 31)%N then Some (2 ^ w - 2 ^ 31)%N
  else None.

(** bitset.hpp:86-95: [ref ^= (-T(val) ^ ref) & mask] *)
Definition bs_set1 (b : list N) (i : N) (val : bool) : option (list N) :=
  if (bs_size b <? i)%N then Some b else
  do mask <- int_mask (i mod w) ;
  do x <- vget b (i / w) ;
  vset b (i / w) (N.lxor x (N.land (N.lxor (if val then all_ones else 0) x) mask)).

(** [*p |= mask] / [*p &= ~mask] (bitset.hpp:138-141 and 172-175) *)
Definition bs_blend (b : list N) (p mask : N) (val : bool) : option (list N) :=
  do x <- vget b p ;
  vset b p (if val then N.lor x mask else N.ldiff x mask).

(** bitset.hpp:152-163: the do/while writing whole words at p, p+1, ...
    The fuel [S (length b)] is never the reason to stop: that many writes would
    leave the storage first. Returns (words, p, n). *)
Fixpoint bs_fill (fuel : nat) (b : list N) (p n v : N) : option (list N * N * N) :=
  match fuel with
  | O => None
  | S f => if (n <? w)%N then Some (b, p, n)
           else do b' <- vset b p v ; bs_fill f b' (p + 1)%N (n - w)%N v
  end.

(** bitset.hpp:109-178 *)
Definition bs_set (b : list N) (i n0 : N) (val : bool) : option (list N) :=
  let size := bs_size b in
  if (size <? i)%N then Some b else
  let n := if (size <? add64 i n0)%N then sub64 size i else n0 in
  let p := (i / w)%N in
  let md := N.land i (w - 1) in
  (* tail of the function, bitset.hpp:150-177 *)
  let rest (b : list N) (p n : N) :=
    do t <- bs_fill (S (length b)) b p n (if val then all_ones else 0%N) ;
    let '(b2, p2, n2) := t in
    if (n2 =? 0)%N then Some b2
    else let mask := (N.shiftl 1 (N.land n2 (w - 1)) - 1)%N in
         bs_blend b2 p2 mask val in
  if (md =? 0)%N then rest b p n
  else
    let m := (w - md)%N in
    let mask0 := N.lxor all_ones (N.shiftr all_ones m) in     (* ~(all_ones >> mod) *)
    let mask := if (n <? m)%N then N.land mask0 (N.shiftr all_ones (m - n)) else mask0 in
    do b1 <- bs_blend b p mask val ;
    if (n <? m)%N then Some b1 else rest b1 (p + 1)%N (n - m)%N.

(** detail/count_bits.hpp:16-38 (popcount intrinsics) *)
Fixpoint popcount_pos (p : positive) : N :=
  match p with xH => 1 | xO q => popcount_pos q | xI q => N.succ (popcount_pos q) end%N.
Definition count_bits (x : N) : N := match x with N0 => 0%N | Npos p => popcount_pos p end.

(** bitstream_acf.hpp:46-49: [_mid_array = max((size/value_size)/2 - 1, 1)], the
    subtraction on size_t *)
Definition acf_mid (b : list N) : N := N.max (sub64 (bs_size b / w / 2) 1) 1.

(** bitstream_acf.hpp:60-73, one loop iteration at word [k] *)
Definition acf_word (b : list N) (index shift k : N) : option N :=
  do a <- vget b k ;
  do c <- vget b (index + k) ;
  if (shift =? 0)%N then Some (count_bits (N.lxor a c))
  else
    do d <- vget b (index + k + 1) ;
    let v := N.lor (N.shiftr c shift) (N.shiftl d (w - shift) mod 2 ^ w) in
    Some (count_bits (N.lxor a v)).

(** the loop over [iters] words from word [k] on. Simplification: the counter is
    [int] in the code; it is unbounded here (the theorems bound it by the number
    of bits). *)
Fixpoint acf_loop (iters : nat) (b : list N) (index shift k acc : N) : option N :=
  match iters with
  | O => Some acc
  | S m => do c <- acf_word b index shift k ;
           acf_loop m b index shift (k + 1)%N (acc + c)%N
  end.

(** bitstream_acf.hpp:51-76 *)
Definition acf (b : list N) (pos : N) : option N :=
  acf_loop (N.to_nat (acf_mid b)) b (pos / w) (pos mod w) 0 0.
End Bitset.
