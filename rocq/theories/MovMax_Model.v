(** Model of q_lib/include/q/fx/moving_maximum.hpp over an arbitrary sample type
    with its [<] test. *)
From Verif Require Import Common.

(** moving_maximum.hpp:70-74, the data members *)
Record movmax (A : Type) := mkMM { mm_size : N; mm_index : N; mm_data : list A }.
Arguments mkMM {A}. Arguments mm_size {A}. Arguments mm_index {A}. Arguments mm_data {A}.

Section MM.
Context {A : Type} (lt : A -> A -> bool) (floor : A).   (* floor = -3.40e38 *)

(** moving_maximum.hpp:32-40 *)
Definition mm_make (size : N) : option (movmax A) :=
  do cap <- smallest_pow2 size ;
  Some (mkMM size 0%N (repeat floor (N.to_nat (wrap64 (cap * 2))))).

(** moving_maximum.hpp:48-59, the loop; fuel 64 because index < 2^64 is halved *)
Fixpoint mm_loop (fuel : nat) (d : list A) (index : N) (value : A) : option (list A * A) :=
  if (1 <? index)%N then
    match fuel with
    | O => None
    | S f =>
        do d' <- vset d index value ;
        do sib <- vget d' (N.lxor index 1) ;
        mm_loop f d' (index / 2) (if lt value sib then sib else value)
    end
  else Some (d, value).

(** moving_maximum.hpp:42-65 *)
Definition mm_step (m : movmax A) (value : A) : option (A * movmax A) :=
  let index := add64 (N.of_nat (length (mm_data m)) / 2) (mm_index m) in
  do r <- mm_loop 64 (mm_data m) index value ;
  let i := add64 (mm_index m) 1 in
  let i := if (mm_size m <=? i)%N then 0%N else i in
  Some (snd r, mkMM (mm_size m) i (fst r)).

Fixpoint mm_run (m : movmax A) (xs : list A) : option (list A) :=
  match xs with
  | [] => Some []
  | x :: t => do r <- mm_step m x ; do ys <- mm_run (snd r) t ; Some (fst r :: ys)
  end.
End MM.
