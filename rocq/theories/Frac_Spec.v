(** The tap of a delay line. *)
From Verif Require Import Common.

(** the input d + 1 calls before call t (d = 0: the previous input), [zero] if there is none *)
Definition tap {T} (zero : T) (xs : list T) (t d : nat) : T :=
  if d <? t then nth (t - 1 - d) xs zero else zero.
